From Verif Require Import Base XReal Moments_Spec Pixels_Model Jacobian_Model GMix_Model GMix_Spec GMixObj_Model Render_Model Render_Spec Render_Proofs Priors_Model Joint_Model Fit_Model Fit_Spec Fit3_Proofs FitCex_Proofs FitUnits_Spec FluxLik_Spec.
Local Open Scope R_scope.

Definition ex_mix : gmix := [gauss2d_set 2 0 0 1 0 1].
Definition ex_px : list (pixel R) := [mkPix 0 0 1 3 2].
Lemma ex_mix_good : good_gmix ex_mix /\ flux_of ex_mix <> 0.
Proof.
  assert (P : 1 <= 10 ^ 200) by (apply pow_R1_Rle; lra). assert (Q : / 10 ^ 200 <= 1) by (rewrite <- Rinv_1; apply Rinv_le_contravar; lra).
  split; [|unfold flux_of, ex_mix; cbn; lra]. split; [discriminate|]. split; [constructor; [|constructor]; unfold coherent, gcov, det2; cbn; ring|].
  split; [constructor; [|constructor]; unfold evaluable, gcov, det2, trace2; cbn; lra|]. intros g rest [= <- <-] H. discriminate H.
Qed.
Lemma ex_loglike : exists gm1 l num den n, get_loglike ex_mix ex_px = (gm1, Ok (l, num, den, n)) /\ 0 < den.
Proof.
  destruct (likelihood_good ex_mix ex_px [0] 0 (proj1 ex_mix_good) ltac:(cbn; lia)) as (gm' & model & _ & B & E). cbv zeta in E. destruct E as (_ & E & _).
  exists gm'. do 4 eexists. split; [exact E|]. specialize (B (mkPix 0 0 1 3 2)). assert (PP := PI_RGT_0).
  assert (D : det2 (gcov (gauss2d_set 2 0 0 1 0 1)) = 1) by (unfold gcov, det2, gauss2d_set; cbn; ring).
  assert (X1 : pixel_model ex_mix (mkPix 0 0 1 3 2) = / PI).
  { unfold pixel_model, brightness, ex_mix. cbn [map px_v px_u px_area]. rewrite rsum_cons, rsum_nil. unfold component, maha. rewrite D, sqrt_1. cbn [g_p g_row g_col gauss2d_set].
    match goal with |- context [exp ?e] => replace e with 0 by field end. rewrite exp_0. field. lra. }
  assert (X2 : peak ex_mix = / PI).
  { unfold peak, ex_mix. cbn [map]. rewrite rsum_cons, rsum_nil, D, sqrt_1. cbn [g_p gauss2d_set]. rewrite Rabs_right by lra. field. lra. }
  rewrite X1, X2 in B. cbn [px_area] in B. rewrite Rabs_R1 in B. assert (IP : 0 < / PI) by (apply Rinv_0_lt_compat; lra).
  cbn [ex_px map]. rewrite rsum_cons, rsum_nil. cbn [px_ierr]. set (x := model _) in *.
  assert (X : 0 < x) by (unfold Rabs in B; destruct (Rcase_abs _) in B; lra).
  nra.
Qed.
Definition bright_pars : list R := [0;0;0;0;4;3].
Lemma ex_fit : fit_of (FName Mgauss) [[bare]] None (F1 None) /\ length gpars = n_pars (FName Mgauss) [[bare]] /\ pars_units 3 1 1 (FName Mgauss) gpars bright_pars /\
  exists r, snd (calc_lnprob (F1 None) gpars) = Ok r /\ r <> ln_low.
Proof.
  split; [apply F1_of|]. split; [reflexivity|]. split.
  { split; [reflexivity|]. intros [|[|[|[|[|[|[|i]]]]]]]; cbn; ring. }
  destruct (layout (FName Mgauss) [[bare]] None (F1 None) 0 (F1_of None) ltac:(discriminate) eq_refl ltac:(lia) uniform1 gpars [gobj] (Fin 0) eq_refl (F1_range None) eq_refl) as (models & pr & _ & _ & _ & _ & _ & El).
  eexists. split; [exact El|]. intros K. apply (f_equal l_npix) in K. discriminate K.
Qed.
Lemma ex_bands : fit_of (FName Mgauss) [[bare]] None (F1 None) /\ length gpars = n_pars (FName Mgauss) [[bare]] /\ length [3] = length [[bare]] /\ band_fluxes (flux_start Mgauss) [3] gpars bright_pars /\
  exists r, snd (calc_lnprob (F1 None) gpars) = Ok r /\ r <> ln_low.
Proof.
  destruct ex_fit as (A & B & _ & D). split; [exact A|]. split; [exact B|]. split; [reflexivity|]. split; [|exact D].
  split; [reflexivity|]. intros [|[|[|[|[|[|[|i]]]]]]]; cbn; ring || (destruct i; cbn; ring).
Qed.
