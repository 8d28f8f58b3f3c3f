(** Moments with a round gaussian weight of unit peak at the jacobian centre. *)
From Verif Require Import Base Moments_Spec Pixels_Model Jacobian_Model GMix_Model WSums_Model WSums_Spec XReal MomResult_Model MomResult_Spec.
Local Open Scope R_scope.

Definition gauss_weight (T : R) (p : pixel R) : R := exp (- (px_v p * px_v p + px_u p * px_u p) / T).
(** pixels within 100 sigma *)
Definition near (T : R) (px : list (pixel R)) : list (pixel R) :=
  filter (fun p => if Rlt_dec (px_v p * px_v p + px_u p * px_u p) (10000 * (T / 2)) then true else false) px.
(** the moment functions about the origin *)
Definition mfun : nat -> pixel R -> R := moment gauss_zero.
Definition msum (T : R) (px : list (pixel R)) (k : nat) : R := rsum (map (fun p => gauss_weight T p * px_val p * mfun k p) (near T px)).
(** their covariance for independent pixels of variance 1/ierr^2 *)
Definition mcov (T : R) (px : list (pixel R)) (k m : nat) : R :=
  rsum (map (fun p => (gauss_weight T p) ^ 2 * / (px_ierr p ^ 2) * mfun k p * mfun m p) (near T px)).
Definition mnorm (T : R) (px : list (pixel R)) : R := rsum (map (gauss_weight T) (near T px)).

(** pixels made with jacobian j, without zero weights *)
Definition pixels_of (j : jac) (px : list (pixel R)) : Prop := Forall (fun p => px_area p = get_area j /\ px_ierr p <> 0) px.

(** the moments, their covariance and the weight sum, all multiplied by [s] *)
Definition reports (s T : R) (px : list (pixel R)) (n : nat) (wsum : xr) (r : momres) : Prop :=
  wsum = Fin (s * mnorm T px) /\ m_sums_norm r = Fin (s * mnorm T px) /\
  m_sums r = map (fun k => Fin (s * msum T px k)) (seq 0 n) /\
  sm_n (m_cov r) = n /\ (forall k m, (k < n)%nat -> (m < n)%nat -> sm_at (m_cov r) k m = Fin (s ^ 2 * mcov T px k m)) /\
  m_flux r = Fin (s * msum T px 5).
(** signal everywhere: what has to hold for an unflagged result *)
Definition measurable (T : R) (px : list (pixel R)) (n : nat) : Prop :=
  (forall k, (k < n)%nat -> 0 < mcov T px k k) /\ 0 < msum T px 5 /\ 0 < msum T px 4 /\ msum T px 2 <> 0 /\ msum T px 3 <> 0.
