(** Properties C26, C27 and C28: results of moment measurements and their errors. *)
From Coq Require Import String.
From Verif Require Import Base XReal Moments_Model Flags_Model MomResult_Model MomResult_Spec MomResult_Proofs.
Local Open Scope R_scope.

(** C26: flags==0 means a good measurement, for any sums and covariance without infinities
    (NaN entries allowed, except the T-flux covariance: see C26_nan_covariance_refuted) *)
Theorem C26_no_flags_is_good_partial : forall sums cov sn r, shapes_ok sums cov -> make_mom_result sums cov sn = Ok r ->
  Forall noinf sums -> (forall i j, (i < sm_n cov)%nat -> (j < sm_n cov)%nat -> noinf (sm_at cov i j)) -> isnan (sm_at cov 4 5) = false ->
  m_flags r = 0%Z ->
  exists F T e1 e2 d1 d2 s dT dF, m_flux r = Fin F /\ 0 < F /\ m_T r = Fin T /\ 0 < T /\ diag_positive cov /\
    m_flux_flags r = 0%Z /\ m_T_flags r = 0%Z /\ m_flux_err r = Fin dF /\ m_s2n r = Fin s /\ 0 < s /\ m_T_err r = Fin dT /\ m_e1 r = Fin e1 /\ m_e2 r = Fin e2 /\
    m_e_err r = (Fin d1, Fin d2) /\ 0 <= d1 /\ 0 <= d2 /\ 0 <= dT /\ 0 < dF /\
    m_pars r = Some [nth 0 sums NaN; nth 1 sums NaN; Fin e1; Fin e2; Fin T; Fin F].
Proof. exact good_result. Qed.
Print Assumptions C26_no_flags_is_good_partial.
Example C26_hypotheses_hold : exists r, make_mom_result [NaN; NaN; Fin 1; Fin 1; Fin 2; Fin 1] eye6 None = Ok r /\ m_flags r = 0%Z.
Proof. exact good_sample. Qed.

(** C26, the other direction: the call always returns, and the flags are exactly the documented
    ones (total_flag, T_flag, flux_flag of MomResult_Spec), for every input incl. NaN and infinities *)
Theorem C26_flags_exact : forall sums cov sn, shapes_ok sums cov ->
  exists r, make_mom_result sums cov sn = Ok r /\ total_flag sums cov r (m_flags r) /\ T_flag sums cov (m_T_flags r) /\ flux_flag cov (m_flux_flags r) /\
    m_flux r = nth 5 sums NaN /\ m_sums r = sums /\ m_cov r = cov /\
    (m_flags r <> 0%Z -> m_flags r <> NONPOS_SHAPE_VAR -> m_e1 r = NaN /\ m_e2 r = NaN /\ m_e_err r = (NaN, NaN) /\ m_pars r = None) /\
    (m_T_flags r <> 0%Z -> m_T r = NaN /\ m_T_err r = NaN) /\
    (m_flux_flags r <> 0%Z -> m_flux_err r = NaN /\ m_s2n r = NaN).
Proof.
  intros sums cov sn H. destruct (mom_result_full sums cov sn H) as (r & A & B & C & D & E & F & G & _ & _ & _ & _ & I & J & K). exists r. auto 12.
Qed.
Print Assumptions C26_flags_exact.
Theorem C26_wrong_sizes_rejected : forall sums cov sn,
  length sums <> 6%nat /\ length sums <> 17%nat \/ sm_n cov <> 6%nat /\ sm_n cov <> 17%nat -> make_mom_result sums cov sn = Raise ValueError.
Proof. exact wrong_sizes. Qed.
Print Assumptions C26_wrong_sizes_rejected.
(** every named moment is its sum over the flux; absent exactly when not measured *)
Theorem C26_named_moments : forall sums cov sn r name ind, shapes_ok sums cov -> make_mom_result sums cov sn = Ok r -> In (name, ind) MOMENTS_NAME_MAP ->
  (exists err, In (name, (named_value sums ind, err)) (m_named r)) <-> (ind < length sums)%nat.
Proof. exact named_in. Qed.
Print Assumptions C26_named_moments.

(** The code violates the full statement: with a NaN covariance of T and flux the result
    carries no flag at all while T_err is NaN. *)
Theorem C26_nan_covariance_refuted :
  exists r, make_mom_result [NaN; NaN; Fin 1; Fin 1; Fin 2; Fin 1] eye6_nan None = Ok r /\ m_flags r = 0%Z /\ m_T_flags r = 0%Z /\ m_T_err r = NaN.
Proof. exact nan_cov_sample. Qed.
Print Assumptions C26_nan_covariance_refuted.

(** C27: first order error of a ratio; holds for a non-zero numerator only *)
Theorem C27_ratio_error_partial : forall a b va vb c, a <> 0 -> b <> 0 ->
  get_ratio_var (Fin a) (Fin b) (Fin va) (Fin vb) (Fin c) = Ok (Fin (ratio_var a b va vb c)) /\
  get_ratio_error (Fin a) (Fin b) (Fin va) (Fin vb) (Fin c) = Ok (Fin (sqrt (Rmax 0 (ratio_var a b va vb c)))) /\
  (0 <= va -> 0 <= vb -> c * c <= va * vb -> 0 <= ratio_var a b va vb c).
Proof.
  intros a b va vb c Ha Hb. exact (conj (ratio_var_ok a b va vb c Ha Hb) (conj (ratio_error_ok a b va vb c Ha Hb) (ratio_var_nonneg a b va vb c Hb))).
Qed.
Print Assumptions C27_ratio_error_partial.
Theorem C27_zero_denominator : forall a va vb c, get_ratio_var a (Fin 0) va vb c = Raise ValueError.
Proof. exact ratio_var_zero_denominator. Qed.
Print Assumptions C27_zero_denominator.
Theorem C27_zero_numerator_refuted : forall b va vb c, b <> 0 -> get_ratio_error (Fin 0) (Fin b) va vb c = Ok NaN.
Proof. exact ratio_error_0. Qed.
Print Assumptions C27_zero_numerator_refuted.

(** valid moments with both shape moments non-zero: no flags, values and errors as documented;
    with a shape moment exactly zero the measurement is flagged NONPOS_SHAPE_VAR *)
Theorem C27_valid_moments_partial : forall sums cov sn m1 m2 mT mF, shapes_ok sums cov ->
  nth 2 sums NaN = Fin m1 -> nth 3 sums NaN = Fin m2 -> nth 4 sums NaN = Fin mT -> nth 5 sums NaN = Fin mF ->
  (forall i j, (i < sm_n cov)%nat -> (j < sm_n cov)%nat -> finite (sm_at cov i j)) ->
  diag_positive cov -> 0 < mF -> 0 < mT ->
  exists r, make_mom_result sums cov sn = Ok r /\
    m_flux r = Fin mF /\ m_T r = Fin (mT / mF) /\ m_e1 r = Fin (m1 / mT) /\ m_e2 r = Fin (m2 / mT) /\
    m_T_flags r = 0%Z /\ m_flux_flags r = 0%Z /\
    m_flux_err r = Fin (sqrt (val (sm_at cov 5 5))) /\ m_s2n r = Fin (mF / sqrt (val (sm_at cov 5 5))) /\
    m_T_err r = Fin (sqrt (Rmax 0 (ratio_var mT mF (val (sm_at cov 4 4)) (val (sm_at cov 5 5)) (val (sm_at cov 4 5))))) /\
    m_pars r = Some [nth 0 sums NaN; nth 1 sums NaN; m_e1 r; m_e2 r; m_T r; nth 5 sums NaN] /\
    (m1 <> 0 -> m2 <> 0 -> m_flags r = 0%Z /\
       m_e_err r = (Fin (sqrt (Rmax 0 (ratio_var m1 mT (val (sm_at cov 2 2)) (val (sm_at cov 4 4)) (val (sm_at cov 2 4))))),
                    Fin (sqrt (Rmax 0 (ratio_var m2 mT (val (sm_at cov 3 3)) (val (sm_at cov 4 4)) (val (sm_at cov 3 4))))))) /\
    (m1 = 0 \/ m2 = 0 -> m_flags r = NONPOS_SHAPE_VAR /\ m_e_err r = (NaN, NaN)).
Proof. exact valid_moments. Qed.
Print Assumptions C27_valid_moments_partial.
Example C27_hypotheses_hold : shapes_ok [NaN; NaN; Fin 1; Fin 1; Fin 2; Fin 1] eye6 /\ diag_positive eye6 /\ (forall i j, finite (sm_at eye6 i j)).
Proof. exact (conj (eye_shapes 1 1) (conj eye_diag eye_finite)). Qed.
Theorem C27_round_object_refuted :
  exists r, make_mom_result [Fin 0; Fin 0; Fin 0; Fin 0; Fin 2; Fin 1] eye6 None = Ok r /\ m_flags r = NONPOS_SHAPE_VAR.
Proof. exact round_flagged. Qed.
Print Assumptions C27_round_object_refuted.

(** C28 *)
Theorem C28_size_and_flux_kept : forall sums cov sn r f, six_sums sums -> finite_cov cov -> make_mom_result sums cov sn = Ok r -> 0 < f ->
  exists r', regularize_mom_shapes r f = Ok r' /\
    m_flux r' = m_flux r /\ m_flux_err r' = m_flux_err r /\ m_s2n r' = m_s2n r /\ m_flux_flags r' = m_flux_flags r /\
    m_T r' = m_T r /\ m_T_err r' = m_T_err r /\ m_T_flags r' = m_T_flags r /\
    (m_flags r' = 0%Z -> m_flags r = 0%Z).
Proof. exact reg_flags_kept. Qed.
Print Assumptions C28_size_and_flux_kept.
Theorem C28_shapes_damped : forall sums cov sn r f, six_sums sums -> finite_cov cov -> TF_block_ok cov -> make_mom_result sums cov sn = Ok r -> 0 < f -> m_flags r = 0%Z ->
  exists r' T e1 e2 e1' e2', regularize_mom_shapes r f = Ok r' /\ m_flags r' = 0%Z /\
    m_T r' = Fin T /\ m_e1 r = Fin e1 /\ m_e2 r = Fin e2 /\ m_e1 r' = Fin e1' /\ m_e2 r' = Fin e2' /\
    Rabs e1' < Rabs e1 /\ Rabs e2' < Rabs e2 /\ e1' * (T + fwhm_to_T f) = e1 * T /\ e2' * (T + fwhm_to_T f) = e2 * T.
Proof. exact reg_damps. Qed.
Print Assumptions C28_shapes_damped.
Theorem C28_zero_regularisation : forall r f, f <= 0 -> regularize_mom_shapes r f = Ok r.
Proof. exact regularise_nonpos. Qed.
Print Assumptions C28_zero_regularisation.
Example C28_hypotheses_hold : six_sums [NaN; NaN; Fin 1; Fin 1; Fin 2; Fin 1] /\ finite_cov eye6 /\ TF_block_ok eye6 /\
  exists r, make_mom_result [NaN; NaN; Fin 1; Fin 1; Fin 2; Fin 1] eye6 None = Ok r /\ m_flags r = 0%Z.
Proof. exact (conj (proj1 reg_sample) (conj (proj2 reg_sample) (conj eye_TF good_sample))). Qed.
(** Violation of "the size is unchanged": the pars of the regularised result hold the
    regularised size while T holds the original one. *)
Theorem C28_pars_size_refuted : forall sums cov sn r f, six_sums sums -> finite_cov cov -> TF_block_ok cov -> make_mom_result sums cov sn = Ok r -> 0 < f -> m_flags r = 0%Z ->
  exists r' T v u a b fl, regularize_mom_shapes r f = Ok r' /\ m_T r' = Fin T /\ m_T r = Fin T /\
    m_pars r' = Some [v; u; a; b; Fin (T + fwhm_to_T f); fl] /\ T + fwhm_to_T f <> T.
Proof. exact reg_pars_size. Qed.
Print Assumptions C28_pars_size_refuted.
(** 17-moment results cannot be regularised *)
Theorem C28_17_moments_rejected : forall r f, 0 < f -> length (m_sums r) <> 6%nat -> regularize_mom_shapes r f = Raise ValueError.
Proof. exact regularise_17. Qed.
Print Assumptions C28_17_moments_rejected.
