(** Model of ngmix/fitting/leastsqbound.py: bounded least squares and run_leastsq.

    Floating point numbers are [option R]: [None] is any value that is not finite
    (nan or an infinity).  MINPACK's lmdif, scipy's leastsq, numpy's inv and eig are
    parameters of the model, so every theorem holds for whatever they return.  [Dfun]
    is never passed by ngmix, so the lmder branch (lines 477-493) is not modelled;
    logging, warnings and the text of the messages of MINPACK are not modelled. *)
From Coq Require String.
From Verif Require Import Base Flags_Model Pixels_Model.
Import String.StringSyntax.
Local Open Scope R_scope.
Local Open Scope string_scope.
Local Open Scope list_scope.
Local Notation string := String.string.

(** an array of floats *)
Definition vec : Type := list (option R).
(** a two-dimensional array of floats *)
Definition omat : Type := arr2 (option R).

(** Exceptions carry whether their message contains "NaNs" or "infs", which line 130
    of leastsqbound.py looks for. *)
Inductive resx (A : Type) : Type :=
| OkX : A -> resx A
| RaiseX : exn -> bool -> resx A.
Arguments OkX {A} _.
Arguments RaiseX {A} _ _.
Definition bindx {A B : Type} (m : resx A) (f : A -> resx B) : resx B :=
  match m with OkX a => f a | RaiseX e b => RaiseX e b end.
Notation "'let+' x ':=' m 'in' f" := (bindx m (fun x => f))
  (at level 200, x pattern, m at level 100, f at level 200, right associativity)
  : res_scope.

(** numpy arithmetic on floats that may not be finite *)
Definition oap2 (f : R -> R -> R) (a b : option R) : option R :=
  match a, b with Some x, Some y => Some (f x y) | _, _ => None end.
Definition oadd := oap2 Rplus.
Definition omul := oap2 Rmult.
Definition odiv (a b : option R) : option R :=
  match a, b with
  | Some x, Some y => if Reqb y 0 then None else Some (x / y)
  | _, _ => None
  end.
Definition osqrt (x : R) : option R := if Rltb x 0 then None else Some (sqrt x).
Definition oarcsin (x : R) : option R :=
  if Rltb x (-1) then None else if Rltb 1 x then None else Some (asin x).
Definition obind (a : option R) (f : R -> option R) : option R :=
  match a with Some x => f x | None => None end.
Definition osum (l : vec) : option R := fold_left oadd l (Some 0).

(** (lower, upper), each None or a number *)
Definition bound : Type := (option R * option R)%type.

(** ngmix/fitting/leastsqbound.py:217-231 _internal2external_lambda *)
Definition i2e_lam (b : bound) (p : option R) : option R :=
  match b with
  | (None, None) => p
  | (Some lower, None) => obind p (fun x => Some (lower - 1 + sqrt (x * x + 1)))
  | (None, Some upper) => obind p (fun x => Some (upper + 1 - sqrt (x * x + 1)))
  | (Some lower, Some upper) =>
      obind p (fun x => Some (lower + ((upper - lower) / 2) * (sin x + 1)))
  end.

(** ngmix/fitting/leastsqbound.py:249-263 _external2internal_lambda *)
Definition e2i_lam (b : bound) (p : option R) : option R :=
  match b with
  | (None, None) => p
  | (Some lower, None) => obind p (fun x => osqrt ((x - lower + 1) ^ 2 - 1))
  | (None, Some upper) => obind p (fun x => osqrt ((upper - x + 1) ^ 2 - 1))
  | (Some lower, Some upper) =>
      obind p (fun x => obind (odiv (Some (2 * (x - lower))) (Some (upper - lower)))
                          (fun q => oarcsin (q - 1)))
  end.

(** [xe[:] = [lam(p) for lam, p in zip(ls, xi)]] (lines 210-212 and 242-244): zip stops
    at the shorter list; the assignment needs the length of the target, or one value,
    which numpy broadcasts. *)
Definition assign_all (n : nat) (l : vec) : resx vec :=
  if Nat.eqb (length l) n then OkX l else
  match l with
  | [x] => OkX (repeat x n)
  | _ => RaiseX ValueError false
  end.
Definition zip_with {A B C : Type} (f : A -> B -> C) (l : list A) (m : list B) : list C :=
  map (fun p => f (fst p) (snd p)) (combine l m).

(** ngmix/fitting/leastsqbound.py:202-214 _internal2external_func *)
Definition convert_i2e (bounds : list bound) (xi : vec) : resx vec :=
  assign_all (length xi) (zip_with i2e_lam bounds xi).
(** ngmix/fitting/leastsqbound.py:234-246 _external2internal_func *)
Definition convert_e2i (bounds : list bound) (xe : vec) : resx vec :=
  assign_all (length xe) (zip_with e2i_lam bounds xe).

(** ngmix/fitting/leastsqbound.py:183-199 _internal2external_grad, one entry *)
Definition grad_one (v : option R) (b : bound) : option R :=
  match b with
  | (None, None) => Some 1
  | (Some lower, None) => obind v (fun v => odiv (Some v) (Some (sqrt (v * v + 1))))
  | (None, Some upper) => obind v (fun v => odiv (Some (- v)) (Some (sqrt (v * v + 1))))
  | (Some lower, Some upper) => obind v (fun v => Some ((upper - lower) * cos v / 2))
  end.
(** the whole array; entries beyond the shorter of xi and bounds are left as
    empty_like gave them (nothing is known about them) *)
Definition i2e_grad (xi : vec) (bounds : list bound) : vec :=
  zip_with grad_one xi bounds ++ repeat None (length xi - length bounds).

(** what MINPACK returns: solution, fjac (row j holds column j of the factor), ipvt
    (counted from one), number of calls and status *)
Record lmret := mkRet
  { rt_x : vec; rt_fjac : nat -> nat -> option R; rt_ipvt : list nat;
    rt_nfev : Z; rt_info : Z }.

(** what leastsqbound returns with full_output=1 *)
Record lmtup := mkTup
  { tp_x : vec; tp_cov : option omat; tp_nfev : Z; tp_mesg : string; tp_ier : Z }.

(** [take(a, ipvt - 1)]; index -1 is the last entry *)
Definition ipvt_index (n k : nat) : nat := match k with O => n - 1 | S j => j end.
Definition take_ipvt (a : vec) (ipvt : list nat) : resx vec :=
  fold_right (fun k acc =>
     let+ l := acc in
     match nth_error a (ipvt_index (length a) k) with
     | Some g => OkX (g :: l)
     | None => RaiseX IndexError false
     end) (OkX []) ipvt.

Definition all_cells (M : omat) : list (option R) :=
  flat_map (fun i => map (fun j => at2 M i j) (seq 0 (ncol M))) (seq 0 (nrow M)).
Definition is_fin (a : option R) : bool := match a with Some _ => true | None => false end.

(** dot of two n x n arrays *)
Definition odot (n : nat) (A B : nat -> nat -> option R) : nat -> nat -> option R :=
  fun i k => osum (map (fun j => omul (A i j) (B j k)) (seq 0 n)).

Section Solver.
(** _minpack._lmdif (wfunc, i0, maxfev) *)
Variable lmdif : (vec -> resx vec) -> vec -> nat -> resx lmret.
(** scipy.optimize.leastsq (func, x0, maxfev) with full_output=1 *)
Variable leastsq : (vec -> resx vec) -> vec -> nat -> resx lmtup.
(** numpy.linalg.inv; None is LinAlgError or ValueError *)
Variable inv : omat -> option omat.
(** eigenvalues of numpy.linalg.eig for a finite array; None is LinAlgError *)
Variable eig : nat -> (nat -> nat -> R) -> option (list R).
(** errors[info][0]: the text is not modelled *)
Variable message : Z -> string.

(** ngmix/fitting/leastsqbound.py:543-549: covariance from the scaled fjac *)
Definition cov_from (n : nat) (fjac : nat -> nat -> option R) (ipvt : list nat) : option omat :=
  let perm := fun i k => Some (if Nat.eqb (ipvt_index n (nth i ipvt 0%nat)) k then 1 else 0) in
  let r := fun i j => if (i <=? j)%nat then fjac j i else Some 0 in
  let Rm := odot n r perm in
  inv (mkArr n n (odot n (fun i j => Rm j i) Rm)).

(** ngmix/fitting/leastsqbound.py:289-550 leastsqbound with full_output=1, no Dfun and
    args=() *)
Definition leastsqbound (func : vec -> resx vec) (x0 : vec) (bounds : option (list bound))
    (maxfev : nat) : resx lmtup :=
  match bounds with
  | None => leastsq func x0 maxfev
  | Some bounds =>
      let i2e := convert_i2e bounds in
      let+ i0 := convert_e2i bounds x0 in
      let n := length x0 in
      if negb (Nat.eqb (length bounds) n) then RaiseX ValueError false else
      let+ f0 := func x0 in
      let m := length f0 in
      if (m <? n)%nat then RaiseX TypeError false else
      let wfunc := fun x => let+ xe := i2e x in func xe in
      let maxfev := if Nat.eqb maxfev 0 then (200 * (n + 1))%nat else maxfev in
      let+ ret := lmdif wfunc i0 maxfev in
      let info := rt_info ret in
      if negb ((0 <=? info) && (info <=? 8))%Z then RaiseX KeyError false else
      let+ x := i2e (rt_x ret) in
      let grad := i2e_grad (rt_x ret) bounds in
      let+ g := take_ipvt grad (rt_ipvt ret) in
      let fjac := fun j i => odiv (rt_fjac ret j i) (nth j g None) in
      let cov_x := if ((1 <=? info) && (info <=? 4))%Z
                   then cov_from n fjac (rt_ipvt ret) else None in
      OkX (mkTup x cov_x (rt_nfev ret) (message info) info)
  end.

(** ngmix/defaults.py:10-11 *)
Definition PDEF : R := - (9.999e9).
Definition CDEF : R := 9.999e9.

(** ngmix/fitting/leastsqbound.py:158-162 _get_def_stuff *)
Definition def_pars (npars : nat) : vec := repeat (Some PDEF) npars.
Definition def_cov (npars : nat) : omat := mkArr npars npars (fun _ _ => Some CDEF).
Definition def_err (npars : nat) : vec := repeat (Some CDEF) npars.

Definition odiag (M : omat) : vec := map (fun i => at2 M i i) (seq 0 (Nat.min (nrow M) (ncol M))).
Definition oval (a : option R) : R := match a with Some x => x | None => 0 end.
Definition oneg (a : option R) : bool := match a with Some x => Rltb x 0 | None => false end.

(** numpy.linalg.eig refuses arrays that are not square and finite *)
Definition np_eig (M : omat) : option (list R) :=
  if negb (Nat.eqb (nrow M) (ncol M)) then None else
  if forallb is_fin (all_cells M) then eig (nrow M) (fun i j => oval (at2 M i j)) else None.

(** ngmix/fitting/leastsqbound.py:165-180 _test_cov *)
Definition test_cov (pcov : omat) : Z :=
  match np_eig pcov with
  | None => EIG_NOTFINITE
  | Some e =>
      let flags := if existsb (fun x => Rltb x 0) e then Z.lor 0 LM_NEG_COV_EIG else 0%Z in
      if existsb oneg (odiag pcov) then Z.lor flags LM_NEG_COV_DIAG else flags
  end.

(** values of the result dict *)
Inductive lval :=
| LInt : Z -> lval
| LVec : vec -> lval
| LMat : option omat -> lval
| LStr : string -> lval.
Definition ldict : Type := list (string * lval).

Definition mat_scale (M : omat) (s : option R) : omat :=
  mkArr (nrow M) (ncol M) (fun i j => omul (at2 M i j) s).

(** the last statements of the try block (lines 118-126) *)
Definition full_dict (flags nfev ier : Z) (errmsg : string) (pars perr : vec)
    (pcov0 : option omat) (pcov : omat) : ldict :=
  [ ("flags", LInt flags); ("nfev", LInt nfev); ("ier", LInt ier); ("errmsg", LStr errmsg);
    ("pars", LVec pars); ("pars_err", LVec perr); ("pars_cov0", LMat pcov0);
    ("pars_cov", LMat (Some pcov)) ].

(** ngmix/fitting/leastsqbound.py:68-126, the try block of run_leastsq *)
Definition run_try (func : vec -> resx vec) (guess : vec) (n_prior_pars : nat)
    (k_space : bool) (bounds : option (list bound)) (maxfev : nat) : resx ldict :=
  let npars := length guess in
  let+ tup := leastsqbound func guess bounds maxfev in
  let ier := tp_ier tup in
  let errmsg := tp_mesg tup in
  let pcov0 := tp_cov tup in
  let pars := tp_x tup in
  if (ier =? 0)%Z then RaiseX ValueError false else
  if (4 <? ier)%Z then
    OkX (full_dict (Z.lor 0 (2 ^ (ier - 5))) (tp_nfev tup) ier errmsg
           (def_pars npars) (def_err npars) pcov0 (def_cov npars))
  else
  match pcov0 with
  | None =>
      OkX (full_dict (Z.lor 0 LM_SINGULAR_MATRIX) (tp_nfev tup) ier "singular covariance"
             pars (def_err npars) pcov0 (def_cov npars))
  | Some cov0 =>
      let+ fdiff := func pars in
      let size := Z.of_nat (length fdiff) in
      let dof := if k_space then ((size - Z.of_nat n_prior_pars) / 2 - Z.of_nat npars)%Z
                 else (size - Z.of_nat n_prior_pars - Z.of_nat npars)%Z in
      if (dof =? 0)%Z then
        OkX (full_dict (Z.lor 0 ZERO_DOF) (tp_nfev tup) ier errmsg
               pars (def_err npars) pcov0 (def_cov npars))
      else
        let s_sq := odiv (osum (map (fun d => omul d d) (skipn n_prior_pars fdiff)))
                         (Some (IZR dof)) in
        let pcov := mat_scale cov0 s_sq in
        let cflags := test_cov pcov in
        if negb (cflags =? 0)%Z then
          OkX (full_dict (Z.lor 0 cflags) (tp_nfev tup) ier "bad covariance matrix"
                 pars (def_err npars) pcov0 pcov)
        else
          OkX (full_dict 0 (tp_nfev tup) ier errmsg
                 pars (map (fun d => obind d osqrt) (odiag pcov)) pcov0 pcov)
  end.

(** ngmix/fitting/leastsqbound.py:33-155 run_leastsq.  [res] is still empty when an
    exception leaves the try block, as all assignments come last. *)
Definition run_leastsq (func : vec -> resx vec) (guess : vec) (n_prior_pars : nat)
    (k_space : bool) (bounds : option (list bound)) (maxfev : nat) : resx ldict :=
  let npars := length guess in
  let failed (flags : Z) (errmsg : string) : ldict :=
    [ ("pars", LVec (def_pars npars)); ("pars_cov0", LMat (Some (def_cov npars)));
      ("pars_cov", LMat (Some (def_cov npars))); ("nfev", LInt (-1)%Z);
      ("flags", LInt flags); ("errmsg", LStr errmsg) ] in
  match run_try func guess n_prior_pars k_space bounds maxfev with
  | OkX r => OkX r
  | RaiseX ValueError true => OkX (failed LM_FUNC_NOTFINITE "not finite")
  | RaiseX ZeroDivisionError _ => OkX (failed DIV_ZERO "zero division")
  | RaiseX e nf => RaiseX e nf
  end.

End Solver.
