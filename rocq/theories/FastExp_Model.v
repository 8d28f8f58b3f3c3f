(** Model of ngmix/fastexp_nb.py. *)
From Verif Require Import Base.

(** int(x) of a float: truncation towards zero *)
Definition trunc (x : R) : Z := if Rleb 0 x then Int_part x else (- Int_part (- x))%Z.

(** ngmix/fastexp_nb.py:5-17 _make_exp_lookup: exp of minval, minval+1, ..., maxval *)
Definition exp_ivals (minval maxval : Z) : list Z :=
  map (fun k => (minval + Z.of_nat k)%Z) (seq 0 (Z.to_nat (Z.abs (maxval - minval) + 1))).
Definition exp_lookup (minval maxval : Z) : list R := map (fun i => exp (IZR i)) (exp_ivals minval maxval).

(** ngmix/fastexp_nb.py:20-28 *)
Definition FASTEXP_MAX_CHI2 : R := 25.
Definition EXP_LOOKUP : list R := exp_lookup (-15) 0.
Definition EXP_I0 : Z := -15.

(** _EXP_LOOKUP[index].  Compiled code does not check the upper bound and wraps negative
    indices; both are modelled as an error so that staying inside the table is visible. *)
Definition lookup (index : Z) : res R :=
  if (index <? 0)%Z then Raise OtherError else
  match nth_error EXP_LOOKUP (Z.to_nat index) with Some v => Ok v | None => Raise OtherError end.

(** ngmix/fastexp_nb.py:31-52 exp3 *)
Definition exp3 (x : R) : res R :=
  let ival := trunc (x - 5/10) in
  let f := x - IZR ival in
  let index := (ival - EXP_I0)%Z in
  let* expval := lookup index in
  Ok (expval * ((6+f*(6+f*(3+f))) * (16666666 / 100000000))).

(** ngmix/fastexp_nb.py:55-77 exp4 *)
Definition exp4 (x : R) : res R :=
  let ival := trunc (x - 5/10) in
  let f := x - IZR ival in
  let index := (ival - EXP_I0)%Z in
  let* expval := lookup index in
  Ok (expval * ((24+f*(24+f*(12+f*(4+f)))) * (41666666 / 1000000000))).

(** ngmix/fastexp_nb.py:80-105 exp5 = fexp *)
Definition fexp (x : R) : res R :=
  let ival := trunc (x - 5/10) in
  let f := x - IZR ival in
  let index := (ival - EXP_I0)%Z in
  let* expval := lookup index in
  Ok (expval * ((120+f*(120+f*(60+f*(20+f*(5+f))))) * (83333333 / 10000000000))).
