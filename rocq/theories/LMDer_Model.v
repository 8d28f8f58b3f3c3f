(** Model of ngmix/fitting/leastsqbound.py:leastsqbound with a derivative function (Dfun), which LM_Model.v leaves out.
    The derivative function returns a two-dimensional array of floats; args=() and full_output=1 as there.
    MINPACK's lmder and scipy's leastsq with Dfun are parameters. *)
From Coq Require String.
From Verif Require Import Base Flags_Model Pixels_Model LM_Model.
Local Open Scope R_scope.
Local Notation string := String.string.

(** ngmix/fitting/leastsqbound.py:266-286 _check_func for Dfun: the shape of the result against the expected one;
    a mismatch is let through when either expected length is 1 *)
Definition check_shape (want : nat * nat) (got : omat) : resx unit :=
  if Nat.eqb (nrow got) (fst want) && Nat.eqb (ncol got) (snd want) then OkX tt else
  if Nat.eqb (fst want) 1 then OkX tt else
  if Nat.eqb (snd want) 1 then OkX tt else RaiseX TypeError false.

(** numpy: array times a vector of shape (n,), which is broadcast over the rows *)
Definition times_cols (J : omat) (s : vec) : resx omat :=
  let n := length s in
  if Nat.eqb (ncol J) n then OkX (mkArr (nrow J) n (fun j i => omul (at2 J j i) (nth i s None))) else
  if Nat.eqb (ncol J) 1 then OkX (mkArr (nrow J) n (fun j i => omul (at2 J j 0%nat) (nth i s None))) else
  if Nat.eqb n 1 then OkX (mkArr (nrow J) (ncol J) (fun j i => omul (at2 J j i) (nth 0 s None))) else RaiseX ValueError false.
(** numpy: array times an array of shape (n, 1), which is broadcast over the columns *)
Definition times_rows (J : omat) (s : vec) : resx omat :=
  let n := length s in
  if Nat.eqb (nrow J) n then OkX (mkArr n (ncol J) (fun i j => omul (at2 J i j) (nth i s None))) else
  if Nat.eqb (nrow J) 1 then OkX (mkArr n (ncol J) (fun i j => omul (at2 J 0%nat j) (nth i s None))) else
  if Nat.eqb n 1 then OkX (mkArr (nrow J) (ncol J) (fun i j => omul (at2 J i j) (nth 0 s None))) else RaiseX ValueError false.

(** ngmix/fitting/leastsqbound.py:486-490 wDfun; col_deriv is compared with 1 *)
Definition wDfun (bounds : list bound) (col_deriv : nat) (Dfun : vec -> resx omat) (x : vec) : resx omat :=
  let scale := i2e_grad x bounds in
  let+ xe := convert_i2e bounds x in
  let+ J := Dfun xe in
  if Nat.eqb col_deriv 1 then times_rows J scale else times_cols J scale.

Section Solver.
(** _minpack._lmder (wfunc, wDfun, i0, col_deriv, maxfev) *)
Variable lmder : (vec -> resx vec) -> (vec -> resx omat) -> vec -> nat -> nat -> resx lmret.
(** scipy.optimize.leastsq (func, x0, Dfun, col_deriv, maxfev) with full_output=1 *)
Variable leastsq : (vec -> resx vec) -> vec -> (vec -> resx omat) -> nat -> nat -> resx lmtup.
Variable inv : omat -> option omat.
Variable message : Z -> string.

(** ngmix/fitting/leastsqbound.py:289-550 leastsqbound with Dfun: lines 477-493 instead of 472-476 *)
Definition leastsqbound_d (func : vec -> resx vec) (x0 : vec) (bounds : option (list bound))
    (Dfun : vec -> resx omat) (col_deriv maxfev : nat) : resx lmtup :=
  match bounds with
  | None => leastsq func x0 Dfun col_deriv maxfev
  | Some bounds =>
      let i2e := convert_i2e bounds in
      let+ i0 := convert_e2i bounds x0 in
      let n := length x0 in
      if negb (Nat.eqb (length bounds) n) then RaiseX ValueError false else
      let+ f0 := func x0 in
      let m := length f0 in
      if (m <? n)%nat then RaiseX TypeError false else
      let wfunc := fun x => let+ xe := i2e x in func xe in
      let+ J0 := Dfun x0 in
      let+ _ := check_shape (if Nat.eqb col_deriv 0 then (m, n) else (n, m)) J0 in
      let maxfev := if Nat.eqb maxfev 0 then (100 * (n + 1))%nat else maxfev in
      let+ ret := lmder wfunc (wDfun bounds col_deriv Dfun) i0 col_deriv maxfev in
      let info := rt_info ret in
      if negb ((0 <=? info) && (info <=? 8))%Z then RaiseX KeyError false else
      let+ x := i2e (rt_x ret) in
      let grad := i2e_grad (rt_x ret) bounds in
      let+ g := take_ipvt grad (rt_ipvt ret) in
      let fjac := fun j i => odiv (rt_fjac ret j i) (nth j g None) in
      let cov_x := if ((1 <=? info) && (info <=? 4))%Z
                   then cov_from inv n fjac (rt_ipvt ret) else None in
      OkX (mkTup x cov_x (rt_nfev ret) (message info) info)
  end.
End Solver.
