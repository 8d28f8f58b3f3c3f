(** C122 *)
From Coq Require Import String.
From Verif Require Import Base XReal Moments_Model Jacobian_Model Pixels_Model WSums_Spec Flags_Model MomResult_Model MomResult_Spec GaussMom_Model GaussMom_Spec GaussMom_Proofs GaussMomCex_Proofs.
Local Open Scope R_scope.

Example C122_hypotheses_hold : / 10 ^ 40 <= F2 /\ 0 < get_area j2 /\ make_pixels (im2 1 2 1) (im2 1 1 1) j2 true = Ok (px4 1 2 1) /\
  measurable (fwhm_to_T F2) (px4 1 2 1) (nmom false).
Proof. split; [exact F2_big|]. split; [rewrite area2; lra|]. split; [apply made4|]. rewrite T2. exact good4. Qed.

(** the pixels of an observation are as the theorems below ask *)
Theorem C122_pixels : forall image weight j px, nrow weight = nrow image -> ncol weight = ncol image -> make_pixels image weight j true = Ok px -> pixels_of j px.
Proof. exact made_pixels. Qed.
Print Assumptions C122_pixels.

(** the weight is a half at a distance of half the fwhm *)
Theorem C122_fwhm : forall fwhm p, 0 < fwhm -> px_v p * px_v p + px_u p * px_u p = (fwhm / 2) ^ 2 ->
  Rabs (gauss_weight (fwhm_to_T fwhm) p - 1 / 2) <= / 10 ^ 9.
Proof. exact half_max. Qed.
Print Assumptions C122_fwhm.

(** the sums, their covariance, the flux and the norm; a flagged result is larger by the pixel area *)
Theorem C122_sums : forall fwhm higher j px, / 10 ^ 40 <= fwhm -> 0 < get_area j -> pixels_of j px ->
  exists q, gaussmom fwhm higher (GObs px j) = Ok q /\ q_npix q = length (near (fwhm_to_T fwhm) px) /\
    reports (if Z.eqb (m_flags (q_mom q)) 0 then 1 else get_area j) (fwhm_to_T fwhm) px (nmom higher) (q_wsum q) (q_mom q).
Proof. exact go_reports. Qed.
Print Assumptions C122_sums.

(** flags *)
Theorem C122_flags : forall fwhm higher j px, / 10 ^ 40 <= fwhm -> 0 < get_area j -> pixels_of j px ->
  forall q, gaussmom fwhm higher (GObs px j) = Ok q -> (m_flags (q_mom q) = 0%Z <-> measurable (fwhm_to_T fwhm) px (nmom higher)).
Proof. exact go_flags. Qed.
Print Assumptions C122_flags.

(** everything else in an unflagged result.  The first two entries of pars are larger than
    the sums by the pixel area. *)
Theorem C122_unflagged : forall fwhm higher j px, / 10 ^ 40 <= fwhm -> 0 < get_area j -> pixels_of j px ->
  forall q, gaussmom fwhm higher (GObs px j) = Ok q -> m_flags (q_mom q) = 0%Z ->
  let r := q_mom q in let S := msum (fwhm_to_T fwhm) px in let V := mcov (fwhm_to_T fwhm) px in
  measurable (fwhm_to_T fwhm) px (nmom higher) /\ m_T_flags r = 0%Z /\ m_flux_flags r = 0%Z /\
  m_flux_err r = Fin (sqrt (V 5 5)%nat) /\ m_s2n r = Fin (S 5%nat / sqrt (V 5 5)%nat) /\
  m_T r = Fin (S 4%nat / S 5%nat) /\ m_e1 r = Fin (S 2%nat / S 4%nat) /\ m_e2 r = Fin (S 3%nat / S 4%nat) /\
  m_T_err r = Fin (sqrt (Rmax 0 (ratio_var (S 4%nat) (S 5%nat) (V 4 4)%nat (V 5 5)%nat (V 4 5)%nat))) /\
  m_e_err r = (Fin (sqrt (Rmax 0 (ratio_var (S 2%nat) (S 4%nat) (V 2 2)%nat (V 4 4)%nat (V 2 4)%nat))),
               Fin (sqrt (Rmax 0 (ratio_var (S 3%nat) (S 4%nat) (V 3 3)%nat (V 4 4)%nat (V 3 4)%nat)))) /\
  m_sums_err r = map (fun k => Fin (sqrt (V k k))) (seq 0 (nmom higher)) /\
  m_pars r = Some [Fin (get_area j * S 0%nat); Fin (get_area j * S 1%nat); m_e1 r; m_e2 r; m_T r; Fin (S 5%nat)].
Proof. exact go_good. Qed.
Print Assumptions C122_unflagged.

(** MF and its error stay larger than the flux by the pixel area *)
Theorem C122_named_flux : forall fwhm higher j px, / 10 ^ 40 <= fwhm -> 0 < get_area j -> pixels_of j px ->
  forall q, gaussmom fwhm higher (GObs px j) = Ok q -> 0 < msum (fwhm_to_T fwhm) px 5 ->
  In ("MF"%string, (Fin (get_area j * msum (fwhm_to_T fwhm) px 5), Fin (get_area j * sqrt (mcov (fwhm_to_T fwhm) px 5 5)))) (m_named (q_mom q)).
Proof. exact go_named. Qed.
Print Assumptions C122_named_flux.

Theorem C122_zero_fwhm : forall higher obs, gaussmom 0 higher obs = Raise GMixRangeError.
Proof. exact zero_fwhm. Qed.
Print Assumptions C122_zero_fwhm.

(** a flux reported as good is wrong by the pixel area when only the size is bad *)
Theorem C122_flagged_flux_refuted : exists fwhm image weight j px q, 1 < fwhm /\ 0 < get_area j /\ make_pixels image weight j true = Ok px /\ gaussmom fwhm false (GObs px j) = Ok q /\
  m_flags (q_mom q) <> 0%Z /\ m_flux_flags (q_mom q) = 0%Z /\ finite (m_flux_err (q_mom q)) /\ m_flux (q_mom q) <> Fin (msum (fwhm_to_T fwhm) px 5).
Proof. exact flagged_flux. Qed.
Print Assumptions C122_flagged_flux_refuted.
(** flux and MF of one good result differ *)
Theorem C122_MF_refuted : exists fwhm image weight j px q x y, 1 < fwhm /\ 0 < get_area j /\ make_pixels image weight j true = Ok px /\ gaussmom fwhm false (GObs px j) = Ok q /\
  m_flags (q_mom q) = 0%Z /\ In ("MF"%string, (Fin x, y)) (m_named (q_mom q)) /\ m_flux (q_mom q) <> Fin x.
Proof. exact name_differs. Qed.
Print Assumptions C122_MF_refuted.
(** pars and sums of one good result differ *)
Theorem C122_pars_refuted : exists fwhm image weight j px q p0 rest, 1 < fwhm /\ 0 < get_area j /\ make_pixels image weight j true = Ok px /\ gaussmom fwhm false (GObs px j) = Ok q /\
  m_flags (q_mom q) = 0%Z /\ m_pars (q_mom q) = Some (p0 :: rest) /\ p0 <> nth 0 (m_sums (q_mom q)) NaN.
Proof. exact pars_differ. Qed.
Print Assumptions C122_pars_refuted.
(** the lists of observations that the documentation allows are not accepted *)
Theorem C122_lists_refuted : forall fwhm higher obs, / 10 ^ 40 <= fwhm -> obs = GObsList \/ obs = GMultiBandObsList -> gaussmom fwhm higher obs = Raise AttributeError.
Proof. exact no_lists. Qed.
Print Assumptions C122_lists_refuted.
