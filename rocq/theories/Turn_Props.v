(** C140: GaussMom measures the same object in coordinates turned about the centre.

    Full statement: with the coordinates turned by any angle, GaussMom returns the same numbers of pixels, flux, size,
    their errors and flags and s2n, and the shape and the other moments turned, with the same total variance of the
    shape.  The sums and covariances do.  T, T_err, s2n and their flags are the same always; the flux and the shape
    when both results are unflagged.  But whether a result is flagged depends on the axes: a component of the
    ellipticity that is exactly zero is taken as a failure, and every object that is measured has an angle at which it
    is not (C140_every_object_is_flagged_at_some_angle). *)
From Verif Require Import Base XReal Moments_Model Jacobian_Model Pixels_Model Flags_Model WSums_Spec MomResult_Model MomResult_Spec GaussMom_Model GaussMom_Spec GaussMom_Proofs GaussMomCex_Proofs
  Units_Spec Motion_Spec MotionCex_Proofs Turn_Spec Turn_Proofs.
Local Open Scope R_scope.

(** the sums of all 17 moments and their covariances *)
Theorem C140_sums : forall t T px px', pix_moved t 0 0 px px' ->
  length (near T px') = length (near T px) /\ mnorm T px' = mnorm T px /\
  sums_turned t (msum T px) (msum T px') /\ covs_turned t (mcov T px) (mcov T px').
Proof. intros t T px px' H. split; [exact (near_count t T px px' H)|]. split; [exact (norm_turned t T px px' H)|]. split; [apply msum_turned|apply mcov_turned]; exact H. Qed.
Print Assumptions C140_sums.

Theorem C140_gaussmom : forall t fwhm higher j j' px px', / 10 ^ 40 <= fwhm -> 0 < get_area j -> get_area j' = get_area j -> pixels_of j px -> pix_moved t 0 0 px px' ->
  exists q q', gaussmom fwhm higher (GObs px j) = Ok q /\ gaussmom fwhm higher (GObs px' j') = Ok q' /\ q_npix q' = q_npix q /\
    size_and_s2n_same (q_mom q) (q_mom q') /\
    (m_flags (q_mom q) = 0%Z -> m_flags (q_mom q') = 0%Z -> result_turned t q q').
Proof. intros. apply go_turned; assumption. Qed.
Print Assumptions C140_gaussmom.

(** the jacobian turned by [t] about its centre *)
Definition turned_jac (t : R) (j : jac) : jac :=
  finish_init (row0 j) (col0 j) (cos t * dvdrow j - sin t * dudrow j) (cos t * dvdcol j - sin t * dudcol j) (sin t * dvdrow j + cos t * dudrow j) (sin t * dvdcol j + cos t * dudcol j).
Theorem C140_every_object_is_flagged_at_some_angle : forall fwhm higher image weight r0 c0 vr vc ur uc px q, / 10 ^ 40 <= fwhm ->
  let j := finish_init r0 c0 vr vc ur uc in 0 < get_area j -> nrow weight = nrow image -> ncol weight = ncol image ->
  make_pixels image weight j true = Ok px -> gaussmom fwhm higher (GObs px j) = Ok q -> m_flags (q_mom q) = 0%Z ->
  exists t px' q', make_pixels image weight (turned_jac t j) true = Ok px' /\ gaussmom fwhm higher (GObs px' (turned_jac t j)) = Ok q' /\ m_flags (q_mom q') <> 0%Z.
Proof.
  intros fwhm higher image weight r0 c0 vr vc ur uc px q HF j HA HR HC EP EQ F.
  assert (HP := made_pixels image weight j px HR HC EP). destruct (proj1 (go_flags fwhm higher j px HF HA HP q EQ) F) as (_ & _ & _ & _ & N3).
  destruct (bad_angle (msum (fwhm_to_T fwhm) px 2) (msum (fwhm_to_T fwhm) px 3) N3) as (t & Z). exists t.
  assert (J : jac_moved t 0 0 j (turned_jac t j)) by apply jac_turned.
  pose proof (pixels_turned t 0 0 image weight j (turned_jac t j) true HR HC J) as S. rewrite EP in S.
  destruct (make_pixels image weight (turned_jac t j) true) as [px'|]; [|contradiction]. exists px'.
  destruct (flagged_turned t fwhm higher j (turned_jac t j) px px' HF HA (proj2 J) HP S Z) as (q' & E & N). exists q'. split; [reflexivity|]. split; assumption.
Qed.
Print Assumptions C140_every_object_is_flagged_at_some_angle.

(** the violation: the same image, measured without flags in one set of coordinates and flagged in another *)
Theorem C140_flags_refuted : exists t px px' q q', make_pixels (im2 1 2 1) (im2 1 1 1) j2 true = Ok px /\ make_pixels (im2 1 2 1) (im2 1 1 1) (turned_jac t j2) true = Ok px' /\
  gaussmom F2 false (GObs px j2) = Ok q /\ gaussmom F2 false (GObs px' (turned_jac t j2)) = Ok q' /\ m_flags (q_mom q) = 0%Z /\ m_flags (q_mom q') <> 0%Z.
Proof.
  assert (AP : 0 < get_area j2) by (rewrite area2; lra). assert (MP := made_pixels (im2 1 2 1) (im2 1 1 1) j2 _ eq_refl eq_refl (made4 1 2 1)).
  destruct (go_reports F2 false j2 _ F2_big AP MP) as (q & E & _).
  assert (F : m_flags (q_mom q) = 0%Z) by (apply (go_flags F2 false j2 _ F2_big AP MP q E); rewrite T2; exact good4).
  destruct (C140_every_object_is_flagged_at_some_angle F2 false (im2 1 2 1) (im2 1 1 1) 0 0 2 0 0 2 _ q F2_big AP eq_refl eq_refl (made4 1 2 1) E F) as (t & px' & q' & A & B & C).
  exists t, (px4 1 2 1), px', q, q'. repeat (split; [assumption || apply made4|]). exact C.
Qed.
Print Assumptions C140_flags_refuted.

(** turned by 90 degrees, an image that is measured without flags in both *)
Example C140_hypotheses_hold : exists px', / 10 ^ 40 <= F2 /\ 0 < get_area j2 /\ get_area (turned_jac quarter j2) = get_area j2 /\ pixels_of j2 (px4 1 2 1) /\ pix_moved quarter 0 0 (px4 1 2 1) px' /\
  forall q q', gaussmom F2 false (GObs (px4 1 2 1) j2) = Ok q -> gaussmom F2 false (GObs px' (turned_jac quarter j2)) = Ok q' -> m_flags (q_mom q) = 0%Z /\ m_flags (q_mom q') = 0%Z.
Proof.
  assert (AP : 0 < get_area j2) by (rewrite area2; lra). assert (MP := made_pixels (im2 1 2 1) (im2 1 1 1) j2 _ eq_refl eq_refl (made4 1 2 1)).
  assert (J : jac_moved quarter 0 0 j2 (turned_jac quarter j2)) by apply jac_turned.
  pose proof (pixels_turned quarter 0 0 (im2 1 2 1) (im2 1 1 1) j2 (turned_jac quarter j2) true eq_refl eq_refl J) as S. rewrite made4 in S.
  destruct (make_pixels (im2 1 2 1) (im2 1 1 1) (turned_jac quarter j2) true) as [px'|] eqn:E'; [|contradiction]. exists px'.
  split; [exact F2_big|]. split; [exact AP|]. split; [apply J|]. split; [exact MP|]. split; [exact S|]. intros q q' Q Q'.
  split; [apply (go_flags F2 false j2 _ F2_big AP MP q Q); rewrite T2; exact good4|].
  assert (AP' : 0 < get_area (turned_jac quarter j2)) by (rewrite (proj2 J : get_area (turned_jac quarter j2) = get_area j2); exact AP).
  assert (MP' := made_pixels (im2 1 2 1) (im2 1 1 1) _ _ eq_refl eq_refl E'). apply (go_flags F2 false _ _ F2_big AP' MP' q' Q'). rewrite T2.
  destruct good4 as (D & G5 & G4 & G2 & G3). pose proof (msum_turned quarter 2 _ _ S) as [S0 S1]. pose proof (mcov_turned quarter 2 _ _ S) as [V0 _].
  destruct (S1 2%nat 3%nat 2%nat ltac:(cbn; tauto)) as [T1 T3].
  assert (C2 : cos (INR 2 * quarter) = -1) by (unfold quarter; cbn [INR]; replace ((1 + 1) * (PI / 2)) with PI by field; apply cos_PI).
  assert (Sn : sin (INR 2 * quarter) = 0) by (unfold quarter; cbn [INR]; replace ((1 + 1) * (PI / 2)) with PI by field; apply sin_PI).
  unfold spin_re, spin_im in T1, T3. rewrite C2, Sn in T1, T3.
  split; [|rewrite (S0 5%nat), (S0 4%nat), T1, T3 by (cbn; tauto); repeat split; try assumption; lra].
  intros k Hk. inversion S as [|a a' l l' A R]; subst. inversion R as [|b b' l1 l1' B R1]; subst. inversion R1 as [|c c' l2 l2' Cc R2]; subst. inversion R2 as [|d d' l3 l3' Dd R3]; subst. inversion R3; subst.
  assert (NR : near 2 [a'; b'; c'; d'] = [a'; b'; c'; d']).
  { apply filter_id. intros p I. destruct (Rlt_dec _ _) as [|N]; [reflexivity|]. exfalso. apply N.
    cbn [In] in I. destruct I as [<-|[<-|[<-|[<-|[]]]]]; [rewrite (dist_turned _ _ _ A)|rewrite (dist_turned _ _ _ B)|rewrite (dist_turned _ _ _ Cc)|rewrite (dist_turned _ _ _ Dd)]; cbn; lra. }
  unfold mcov. rewrite NR. cbn [map]. rewrite !rsum_cons, rsum_nil.
  rewrite (weight_turned _ 2 _ _ A), (weight_turned _ 2 _ _ B), (weight_turned _ 2 _ _ Cc), (weight_turned _ 2 _ _ Dd).
  destruct (gws 1) as (W1 & _ & W3 & W4). destruct (gws 2) as (_ & W2 & _). rewrite W1, W2, W3, W4.
  destruct A as (A1 & A2 & _ & _ & A5), B as (B1 & B2 & _ & _ & B5), Cc as (C1 & C3 & _ & _ & C5), Dd as (D1 & D2 & _ & _ & D5). cbn [px_ierr] in *. rewrite A5, B5, C5, D5, pow1, Rinv_1.
  rewrite quarter_v in A1, B1, C1, D1. rewrite quarter_u in A2, B2, C3, D2. cbn [px_v px_u] in *. destruct w_range as [[P _] [Q0 _]].
  assert (P2 : 0 < w1 ^ 2) by (apply pow_lt; exact P). assert (Q2 : 0 < w2 ^ 2) by (apply pow_lt; exact Q0).
  change (nmom false) with 6%nat in Hk.
  do 6 (destruct k as [|k]; [unfold mfun, moment, rad2, offset, cpow; cbn [GMix_Model.gauss_zero GMix_Model.g_col GMix_Model.g_row Shape_Spec.cmul Shape_Spec.cmod2 Shape_Spec.cone fst snd]; unfold Shape_Spec.cmul, Shape_Spec.cmod2, Shape_Spec.cone; cbn [fst snd]; rewrite ?A1, ?A2, ?B1, ?B2, ?C1, ?C3, ?D1, ?D2; nra|]). lia.
Qed.
