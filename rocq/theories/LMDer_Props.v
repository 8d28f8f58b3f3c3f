(** Property C138 (bounded least squares with derivatives given by the caller). *)
From Verif Require Import Base Flags_Model Pixels_Model LM_Model LM_Spec LMDer_Model LMDer_Spec LMDer_Proofs.
Local Open Scope R_scope.

(** what the solver is given is a function of the internal parameters and its derivatives *)
Theorem C138_chain_rule : forall cd bounds m func Dfun, cd = 0%nat \/ cd = 1%nat ->
  with_derivatives (negb (Nat.eqb cd 0)) (length bounds) m func Dfun ->
  with_derivatives (negb (Nat.eqb cd 0)) (length bounds) m
    (fun x => bindx (convert_i2e bounds x) func) (wDfun bounds cd Dfun).
Proof. exact wrapped. Qed.
Print Assumptions C138_chain_rule.

(** so what a solver does with wrong derivatives has no influence on the fit *)
Theorem C138_solver : forall lmder lmder' leastsq inv message func x0 bounds m Dfun cd maxfev, cd = 0%nat \/ cd = 1%nat ->
  with_derivatives (negb (Nat.eqb cd 0)) (length bounds) m func Dfun ->
  (forall w wD i k, length i = length bounds -> with_derivatives (negb (Nat.eqb cd 0)) (length bounds) m w wD ->
     lmder w wD i cd k = lmder' w wD i cd k) ->
  leastsqbound_d lmder leastsq inv message func x0 (Some bounds) Dfun cd maxfev =
  leastsqbound_d lmder' leastsq inv message func x0 (Some bounds) Dfun cd maxfev.
Proof. exact solver_problem. Qed.
Print Assumptions C138_solver.

(** the parameters returned satisfy the bounds, and the functions matter only inside of them *)
Theorem C138_inside : forall lmder leastsq inv message func x0 bounds Dfun cd maxfev tup,
  d_keeps_length lmder -> Forall consistent bounds ->
  leastsqbound_d lmder leastsq inv message func x0 (Some bounds) Dfun cd maxfev = OkX tup -> inside bounds (tp_x tup).
Proof. exact d_inside. Qed.
Print Assumptions C138_inside.
Theorem C138_evaluated_inside : forall lmder leastsq inv message func func' x0 bounds Dfun Dfun' cd maxfev,
  d_black_box lmder -> Forall consistent bounds -> func x0 = func' x0 -> Dfun x0 = Dfun' x0 ->
  (forall x, inside bounds x -> func x = func' x) -> (forall x, inside bounds x -> Dfun x = Dfun' x) ->
  leastsqbound_d lmder leastsq inv message func x0 (Some bounds) Dfun cd maxfev =
  leastsqbound_d lmder leastsq inv message func' x0 (Some bounds) Dfun' cd maxfev.
Proof. exact d_evaluations. Qed.
Print Assumptions C138_evaluated_inside.

(** the covariance is that of the external parameters, as in C93 *)
Theorem C138_covariance : forall lmder leastsq inv message func x0 bounds Dfun cd maxfev tup C,
  inv_correct inv -> inv_extensional inv ->
  (forall f D i c k r, lmder f D i c k = OkX r -> minpack_output (length i) r) ->
  leastsqbound_d lmder leastsq inv message func x0 (Some bounds) Dfun cd maxfev = OkX tup -> tp_cov tup = Some C ->
  let n := length x0 in
  exists f D i k ret, lmder f D i cd k = OkX ret /\ (1 <= rt_info ret <= 4)%Z /\
  forall (xs : list R) (fj : nat -> nat -> R) (d : nat -> R),
  rt_x ret = map Some xs ->
  (forall j i, (j < n)%nat -> (i < n)%nat -> rt_fjac ret j i = Some (fj j i)) ->
  (forall k, (k < n)%nat -> d k <> 0 /\
     exists h, (forall v, i2e_lam (nth k bounds (None, None)) (Some v) = Some (h v)) /\ derivable_pt_lim h (nth k xs 0) (d k)) ->
  exists I : nat -> nat -> R,
    (forall i j, (i < n)%nat -> (j < n)%nat -> at2 C i j = Some (d i * I i j * d j)) /\
    (forall i k, (i < n)%nat -> (k < n)%nat ->
      rsum (map (fun j => I i j * gauss_newton n fj (rt_ipvt ret) j k) (seq 0 n)) = if Nat.eqb i k then 1 else 0).
Proof. exact d_covariance. Qed.
Print Assumptions C138_covariance.

(** an array of the wrong shape is refused when there are two parameters or more *)
Theorem C138_wrong_shape : forall lmder leastsq inv message func x0 bounds Dfun cd maxfev f0 J0,
  (2 <= length bounds)%nat -> length x0 = length bounds ->
  func x0 = OkX f0 -> (length bounds <= length f0)%nat -> Dfun x0 = OkX J0 ->
  (nrow J0, ncol J0) <> (if Nat.eqb cd 0 then (length f0, length bounds) else (length bounds, length f0)) ->
  leastsqbound_d lmder leastsq inv message func x0 (Some bounds) Dfun cd maxfev = RaiseX TypeError false.
Proof. exact wrong_shape. Qed.
Print Assumptions C138_wrong_shape.

(** any non-zero col_deriv is documented to mean derivatives down the columns, and the shape is checked accordingly,
    but with values other than 1 the derivatives given to the solver are wrong *)
Theorem C138_nonzero_col_deriv_refuted : exists bounds func Dfun, forall cd, (2 <= cd)%nat ->
  with_derivatives true (length bounds) 2 func Dfun /\
  (exists J0, Dfun [Some 1; Some 2] = OkX J0 /\ check_shape (length bounds, 2%nat) J0 = OkX tt) /\
  ~ with_derivatives true (length bounds) 2 (fun x => bindx (convert_i2e bounds x) func) (wDfun bounds cd Dfun).
Proof.
  exists two_bounds, two_func, two_down. intros cd H. split; [exact two_down_ok|].
  split; [eexists; split; reflexivity|exact (two_nonzero cd H)].
Qed.
Print Assumptions C138_nonzero_col_deriv_refuted.

Example C138_hypotheses_hold : with_derivatives false (length two_bounds) 2 two_func two_across /\
  with_derivatives true (length two_bounds) 2 two_func two_down /\
  d_keeps_length stay /\ d_black_box stay /\ Forall consistent two_bounds /\
  (forall leastsq inv message, exists tup,
     leastsqbound_d stay leastsq inv message two_func [Some 1; Some 2] (Some two_bounds) two_across 0 0 = OkX tup).
Proof.
  split; [exact two_across_ok|]. split; [exact two_down_ok|]. split; [exact stay_keeps|]. split; [exact stay_black_box|].
  split; [exact two_consistent|exact two_run].
Qed.
