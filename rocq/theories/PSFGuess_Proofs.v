From Verif Require Import Base XReal Moments_Model Moments_Spec Moments_Proofs Shape_Spec Jacobian_Model Pixels_Model PriorSample_Model PriorSample_Spec GMix_Model GMix_Spec GMix_Proofs
  GMixObj_Model GMixObj_Proofs Render_Model Render_Spec Render_Proofs WSums_Model WSums_Spec WSums_Proofs Flags_Model MomResult_Model MomResult_Spec MomResult_Proofs
  GaussMom_Model GaussMom_Spec GaussMom_Proofs Guessers_Model Guessers_Spec Guessers_Proofs GuessersPSF_Proofs Guessers4_Proofs GuessersCex_Proofs PSFGuess_Model PSFGuess_Spec.
From Verif Require EMGo_Proofs.
Local Open Scope R_scope.

(** ** constructors *)
Lemma init_ok n m : psf_guesser_init n = Ok m <-> (1 <= n <= 5)%Z /\ m = Z.to_nat n.
Proof.
  unfold psf_guesser_init. destruct (_ || _)%bool eqn:E.
  - rewrite !Bool.orb_true_iff, !Z.eqb_eq in E. split; [intros [= <-]; split; [lia|reflexivity]|intros [_ ->]; reflexivity].
  - rewrite !Bool.orb_false_iff, !Z.eqb_neq in E. split; [discriminate|intros [K _]; lia].
Qed.
Lemma init_bad n : ~ (1 <= n <= 5)%Z -> psf_guesser_init n = Raise ValueError.
Proof.
  intros H. unfold psf_guesser_init. destruct (_ || _)%bool eqn:E; [|reflexivity]. rewrite !Bool.orb_true_iff, !Z.eqb_eq in E. lia.
Qed.

(** ** moments *)
Definition pcov (T : R) (px : list (pixel R)) (k m : nat) : R :=
  rsum (map (fun p => (gauss_weight T p) ^ 2 * / (px_ierr p ^ 2) * mfun k p * mfun m p) (within px)).
Lemma pvar_cov T px k : pvar T px k = pcov T px k k.
Proof. unfold pvar, pcov. apply rsum_map_ext. intros p _. ring. Qed.
Lemma tw_big s : / 10 ^ 40 <= s -> / 10 ^ 100 <= Tweight s / 2.
Proof. intros H. apply size_big. lra. Qed.

Definition w0 (T : R) : gauss := gauss2d_set 1 0 0 (T/2) 0 (T/2).
Lemma w0_good T : / 10 ^ 100 <= T / 2 -> good_gmix [w0 T].
Proof.
  intros HB. assert (0 < / 10 ^ 100) by lra. assert (HT : 0 < T) by lra. split; [discriminate|]. split; [constructor; [|constructor]|split; [constructor; [|constructor]|]].
  - unfold coherent, det2, gcov, w0, gauss2d_set. cbn. ring.
  - unfold evaluable, gcov, det2, trace2, w0, gauss2d_set. cbn. split; [|lra].
    apply Rle_trans with (/ 10 ^ 100 * / 10 ^ 100); [lra|]. replace (T/2 * (T/2) - 0 * 0) with (T/2 * (T/2)) by ring. apply Rmult_le_compat; lra.
  - intros g' rest E F. injection E as <- <-. discriminate F.
Qed.
Lemma w0_bright T v u : 0 < T -> brightness [w0 T] v u = exp (- (v * v + u * u) / T) / (PI * T).
Proof.
  intros HT. unfold brightness. cbn [map]. rewrite rsum_cons, rsum_nil, Rplus_0_r. unfold component, w0, gauss2d_set, gcov. cbn [g_p g_row g_col g_irr g_irc g_icc].
  unfold maha, det2, cov. cbn [xx xy yy]. replace (T/2 * (T/2) - 0 * 0) with (T/2 * (T/2)) by ring. rewrite sqrt_square by lra. assert (X := PI_RGT_0).
  replace (- ((T / 2 * (v - 0) ^ 2 - 2 * 0 * (v - 0) * (u - 0) + T / 2 * (u - 0) ^ 2) / (T / 2 * (T / 2))) / 2) with (- (v * v + u * u) / T) by (field; lra).
  generalize (exp (- (v * v + u * u) / T)). intros e. field. lra.
Qed.
Section Moments.
Variables (s : R) (j : jac) (px : list (pixel R)).
Hypothesis HP : pixels_of j px.
Hypothesis HJ : / 10 ^ 40 <= jscale j.
Let T := Tweight (jscale j).
Let g0 := w0 T.
Let A := get_area j.
Let K := A / (PI * T).
Lemma T_big : / 10 ^ 100 <= T / 2. Proof. apply tw_big, HJ. Qed.
Lemma T_positive : 0 < T. Proof. assert (X := T_big). assert (0 < / 10 ^ 100) by lra. lra. Qed.
Lemma K_positive : 0 < K.
Proof.
  unfold K, A, get_area. assert (0 < / 10 ^ 40) by lra. assert (0 < jscale j) by lra. apply Rdiv_lt_0_compat; [apply pow_lt; assumption|].
  apply Rmult_lt_0_compat; [exact PI_RGT_0|exact T_positive].
Qed.
Lemma g0_good : good_gmix [g0].
Proof. apply w0_good, T_big. Qed.
Lemma g0_bright v u : brightness [g0] v u = exp (- (v * v + u * u) / T) / (PI * T).
Proof. apply w0_bright, T_positive. Qed.
Lemma used_within : used g0 (10 ^ 9) px = within px.
Proof.
  unfold used, within. apply filter_ext. intros p. unfold rad2, cmod2, offset, g0, w0, gauss2d_set. cbn [fst snd g_row g_col].
  replace ((10 ^ 9) ^ 2) with (10 ^ 18) by ring. unfold Rltb.
  replace ((px_u p - 0) * (px_u p - 0) + (px_v p - 0) * (px_v p - 0)) with (px_v p * px_v p + px_u p * px_u p) by ring. reflexivity.
Qed.
Lemma within_in p : In p (within px) -> In p px.
Proof. intros H. apply filter_In in H. apply H. Qed.
Lemma sums_are : exists s, snd (get_weighted_sums [g0] px (Some (10 ^ 9)) false None) = Ok s /\
    (forall k, (k < 6)%nat -> ws_sums s k = K * psum T px k) /\
    (forall k m, (k < 6)%nat -> (m < 6)%nat -> ws_cov s k m = K ^ 2 * pcov T px k m).
Proof.
  assert (Z : forall p, In p (used g0 (10 ^ 9) px) -> px_ierr p <> 0).
  { intros p I. rewrite used_within in I. apply within_in in I. unfold pixels_of in HP. rewrite Forall_forall in HP. apply HP; exact I. }
  destruct (sums_fresh [g0] g0 [] px (10 ^ 9) false g0_good eq_refl Z) as (gm' & w & E & _ & (_ & _ & I3 & I4) & _).
  exists w. rewrite E. rewrite used_within in *. split; [reflexivity|].
  assert (Am : forall p, In p (within px) -> pixel_model [g0] p = K * gauss_weight T p).
  { intros p I. unfold pixel_model, gauss_weight. rewrite g0_bright. apply within_in in I. unfold pixels_of in HP. rewrite Forall_forall in HP.
    destruct (HP p I) as [-> _]. unfold K, A, Rdiv. ring. }
  split.
  - intros k Hk. rewrite I3 by exact Hk. cbn [ws_sums wsums_zero]. rewrite Rplus_0_l. unfold psum. rewrite <- rsum_map_mult. apply rsum_map_ext. intros p I. rewrite Am by exact I.
    rewrite (mfun_eq g0 k p eq_refl eq_refl). ring.
  - intros k m Hk Hm. rewrite I4 by assumption. cbn [ws_cov wsums_zero]. rewrite Rplus_0_l. unfold pcov. rewrite <- rsum_map_mult. apply rsum_map_ext. intros p I. rewrite Am by exact I.
    rewrite (mfun_eq g0 k p eq_refl eq_refl), (mfun_eq g0 m p eq_refl eq_refl). ring.
Qed.
Lemma K2 : 0 < K ^ 2. Proof. apply pow_lt, K_positive. Qed.

Lemma moments_are : exists q, weighted_moments T (Ok px) = Ok q /\
  (m_flags (q_mom q) = 0%Z <-> has_moments T px) /\
  (has_moments T px -> m_T (q_mom q) = Fin (psum T px 4 / psum T px 5) /\ m_flux (q_mom q) = Fin (K * psum T px 5)).
Proof.
  destruct sums_are as (w & Ew & Ns & Nc). unfold weighted_moments. rewrite fill_weight. cbn [bind]. fold (w0 T). fold g0. rewrite Ew. cbn [bind].
  unfold get_weighted_moments_stats.
  replace (map (fun i : nat => Fin (ws_sums w i)) (seq 0 6)) with (map (fun k => Fin (K * psum T px k)) (seq 0 6)).
  2:{ apply map_ext_in. intros k Ik. apply in_seq in Ik. rewrite Ns by lia. reflexivity. }
  set (cov := mkSmat 6 (fun i j0 => Fin (ws_cov w i j0))). set (sums := map (fun k => Fin (K * psum T px k)) (seq 0 6)).
  assert (SH : shapes_ok sums cov) by (unfold shapes_ok, sums; rewrite map_length, seq_length; cbn; lia).
  assert (HK := K_positive). assert (HK2 := K2).
  assert (CV : forall k m, (k < 6)%nat -> (m < 6)%nat -> sm_at cov k m = Fin (K ^ 2 * pcov T px k m)) by (intros k m Hk Hm; cbn [cov sm_at]; rewrite Nc by assumption; reflexivity).
  assert (FC : forall i k, (i < sm_n cov)%nat -> (k < sm_n cov)%nat -> finite (sm_at cov i k)) by (intros i k Hi Hk; cbn in Hi, Hk; rewrite CV by assumption; eexists; reflexivity).
  assert (DP : (forall k, (k < 6)%nat -> 0 < pvar T px k) -> diag_positive cov).
  { intros D k Hk. cbn in Hk. rewrite CV by exact Hk. cbn. rewrite <- pvar_cov. apply Rmult_lt_0_compat; [exact HK2|apply D, Hk]. }
  destruct (mom_result_full sums cov (Some (Fin (ws_wsum w))) SH) as (r & Er & R1 & R2 & R3 & TF & _). rewrite Er. cbn [bind].
  eexists. split; [reflexivity|]. cbn [q_mom].
  assert (GO : measured T px -> m_T r = Fin (psum T px 4 / psum T px 5) /\ m_flux r = Fin (K * psum T px 5) /\
               (K * psum T px 2 <> 0 -> K * psum T px 3 <> 0 -> m_flags r = 0%Z) /\
               (K * psum T px 2 = 0 \/ K * psum T px 3 = 0 -> m_flags r = NONPOS_SHAPE_VAR)).
  { intros (D & M5 & M4). assert (X4 : 0 < K * psum T px 4) by (apply Rmult_lt_0_compat; assumption). assert (X5 : 0 < K * psum T px 5) by (apply Rmult_lt_0_compat; assumption).
    destruct (valid_moments sums cov (Some (Fin (ws_wsum w))) _ _ _ _ SH eq_refl eq_refl eq_refl eq_refl FC (DP D) X5 X4)
      as (r' & E' & V1 & V2 & _ & _ & _ & _ & _ & _ & _ & _ & V11 & V12). rewrite Er in E'. injection E' as <-.
    rewrite V2, V1. split; [f_equal; field; lra|]. split; [reflexivity|]. split; [intros; apply V11; assumption|intros; apply V12; assumption]. }
  split; [split|].
  - intros F0. rewrite F0 in TF. destruct (flags_zero _ _ _ TF) as (D & PF & PT & _). change (0 < K * psum T px 5) in PF.
    assert (M5 : 0 < psum T px 5) by (apply Rmult_lt_reg_l with K; [exact HK|lra]).
    assert (PT' : positive (xdiv (Fin (K * psum T px 4)) (Fin (K * psum T px 5)))) by exact PT. cbn [xdiv] in PT'. rewrite Reqb_f in PT' by lra. change (0 < K * psum T px 4 / (K * psum T px 5)) in PT'.
    assert (M4 : 0 < psum T px 4).
    { apply Rmult_lt_reg_r with (/ psum T px 5); [apply Rinv_0_lt_compat; exact M5|]. rewrite Rmult_0_l. replace (psum T px 4 * / psum T px 5) with (K * psum T px 4 / (K * psum T px 5)) by (field; lra). exact PT'. }
    assert (ME : measured T px).
    { split; [|split; assumption]. intros k Hk. specialize (D k Hk). rewrite CV in D by exact Hk. change (0 < K ^ 2 * pcov T px k k) in D. rewrite pvar_cov. apply Rmult_lt_reg_l with (K ^ 2); [exact HK2|lra]. }
    split; [exact ME|]. destruct (GO ME) as (_ & _ & _ & N). rewrite F0 in N.
    split; intros Z; rewrite Z, Rmult_0_r in N; [assert (Y := N (or_introl eq_refl))|assert (Y := N (or_intror eq_refl))]; discriminate Y.
  - intros (ME & N2 & N3). apply (GO ME); apply Rmult_integral_contrapositive_currified; (lra || assumption).
  - intros (ME & _). destruct (GO ME) as (Q1 & Q2 & _). split; assumption.
Qed.
End Moments.

(** ** size and flux *)
Definition the_choice (scale imsum Tm S5 : R) (good : bool) : option (res (R * R)) :=
  option_map Ok (T_flux_from_moms scale imsum (Guessers_Model.mkMom (if good then 0 else 1)%Z Tm (scale ^ 2 / (PI * Tweight scale) * S5))).
Lemma choice o px : readable o px -> let s := jscale (gb_jac o) in let T := Tweight s in
  (has_moments T px -> get_T_flux true o = the_choice s (image_sum (gb_image o)) (psum T px 4 / psum T px 5) (psum T px 5) true) /\
  (~ has_moments T px -> get_T_flux true o = Some (Ok (T_flux_default s (image_sum (gb_image o))))).
Proof.
  intros (Ep & HP & HJ). cbv zeta. destruct (moments_are (gb_jac o) px HP HJ) as (q & Eq & Hf & Hg). unfold get_T_flux. rewrite Ep, Eq. split; intros H.
  - rewrite (proj2 Hf H). cbn [Z.eqb negb]. destruct (Hg H) as [-> ->]. reflexivity.
  - destruct (Z.eqb (m_flags (q_mom q)) 0) eqn:E; [apply Z.eqb_eq in E; tauto|]. cbn [negb]. unfold T_flux_from_moms. cbn [mo_flags]. rewrite E. reflexivity.
Qed.
Lemma scale_pos o px : readable o px -> 0 < jscale (gb_jac o) /\ 0 < Tweight (jscale (gb_jac o)).
Proof. intros (_ & _ & H). assert (0 < / 10 ^ 40) by lra. split; [lra|]. apply tw_big in H. assert (0 < / 10 ^ 100) by lra. lra. Qed.

(** the measured size is below that of the weight: deweighted *)
Lemma from_moments o px : readable o px -> let T := Tweight (jscale (gb_jac o)) in has_moments T px ->
  let Tm := psum T px 4 / psum T px 5 in jscale (gb_jac o) <= T_to_fwhm Tm -> Tm < T ->
  exists T0 F, get_T_flux true o = Some (Ok (T0, F)) /\ 0 < T0 /\ / T0 + / T = / Tm /\ F * (T / (T0 + T)) = psum T px 5.
Proof.
  intros HR. cbv zeta. intros HM HW HT. rewrite (proj1 (choice o px HR) HM). destruct (scale_pos o px HR) as [Hs HTw]. set (T := Tweight (jscale (gb_jac o))) in *.
  destruct HM as ((_ & M5 & M4) & _). set (Tm := psum T px 4 / psum T px 5) in *. assert (HTm : 0 < Tm) by (apply Rdiv_lt_0_compat; assumption).
  set (S5 := psum T px 5) in *. assert (D : 0 < 1 / Tm - 1 / T).
  { unfold Rdiv. rewrite !Rmult_1_l. assert (/ T < / Tm); [|lra]. apply Rinv_lt_contravar; [apply Rmult_lt_0_compat; assumption|exact HT]. }
  exists (1 / (1 / Tm - 1 / T)), (S5 * (T + 1 / (1 / Tm - 1 / T)) / T). assert (P0 : 0 < 1 / (1 / Tm - 1 / T)) by (apply Rdiv_lt_0_compat; lra).
  unfold the_choice, T_flux_from_moms. cbn [mo_flags mo_T mo_flux Z.eqb negb]. rewrite Rltb_f by lra. fold T. rewrite Reqb_f by lra. rewrite Rltb_f by lra. cbn [option_map].
  split; [do 3 f_equal; assert (X := PI_RGT_0); set (q := 1 / (1 / Tm - 1 / T)); field; repeat split; lra|]. split; [exact P0|].
  split; [unfold Rdiv at 1; rewrite Rmult_1_l, Rinv_inv; unfold Rdiv; ring|]. set (q := 1 / (1 / Tm - 1 / T)) in *. field. split; lra.
Qed.
(** above: not deweighted, and the flux is left in the units of the weight *)
Lemma pi_3 : 3 < PI.
Proof.
  assert (H := PI2_3_2). unfold PI2 in H. lra.
Qed.
Lemma tw_area s : 0 < s -> 13 * (s ^ 2 / (PI * Tweight s)) < 1.
Proof.
  intros H. unfold Tweight, fwhm_to_T, fwhm_to_sigma, FWHM_FAC. assert (P := pi_3).
  match goal with |- context [s * (7/2) / ?f] => set (F := f) end.
  assert (HF : F = 2354820045030949 / 1000000000000000 \/ True) by (right; exact I). clear HF.
  assert (0 < s ^ 2) by (apply pow_lt; exact H). assert (B : 2 < F < 2355/1000) by (unfold F; lra).
  assert (C : 1 / F > 1000/2355). { unfold Rdiv. rewrite Rmult_1_l. replace (1000 * / 2355) with (/ (2355/1000)) by field. apply Rinv_lt_contravar; [|lra]. apply Rmult_lt_0_compat; lra. }
  assert (D : (1/F) ^ 2 > (1000/2355) ^ 2) by (cbn [pow]; rewrite !Rmult_1_r; apply Rmult_gt_0_lt_compat; lra).
  replace (13 * (s ^ 2 / (PI * (2 * (s * (7 / 2) / F) ^ 2)))) with (13 / (PI * (49/2) * (1/F)^2)) by (field; repeat split; lra).
  apply Rmult_lt_reg_r with (PI * (49 / 2) * (1 / F) ^ 2); [apply Rmult_lt_0_compat; [lra|lra]|]. unfold Rdiv at 1. rewrite Rmult_assoc, Rinv_l, Rmult_1_r, Rmult_1_l.
  - apply Rlt_trans with (3 * (49/2) * (1000/2355)^2); [lra|]. apply Rmult_gt_0_lt_compat; lra.
  - apply Rgt_not_eq. apply Rmult_lt_0_compat; lra.
Qed.
Lemma fallback o px : readable o px -> let T := Tweight (jscale (gb_jac o)) in has_moments T px ->
  let Tm := psum T px 4 / psum T px 5 in T < Tm ->
  exists F, get_T_flux true o = Some (Ok (Tm, F)) /\ 0 < F /\ 13 * F < psum T px 5.
Proof.
  intros HR. cbv zeta. intros HM HT. rewrite (proj1 (choice o px HR) HM). destruct (scale_pos o px HR) as [Hs HTw]. assert (AR := tw_area _ Hs).
  set (s := jscale (gb_jac o)) in *. set (T := Tweight s) in *.
  destruct HM as ((_ & M5 & M4) & _). set (Tm := psum T px 4 / psum T px 5) in *. set (S5 := psum T px 5) in *.
  assert (HTm : 0 < Tm) by lra. assert (HW : s <= T_to_fwhm Tm).
  { apply Rle_trans with (T_to_fwhm T).
    - unfold T, Tweight. destruct (T_fwhm_inv (s * (7/2)) ltac:(lra)) as [-> _]. lra.
    - apply Rlt_le. apply (size_monotone T Tm); lra. }
  assert (D : 1 / Tm - 1 / T < 0).
  { unfold Rdiv. rewrite !Rmult_1_l. assert (/ Tm < / T); [|lra]. apply Rinv_lt_contravar; [apply Rmult_lt_0_compat; assumption|exact HT]. }
  exists (s ^ 2 / (PI * T) * S5). unfold the_choice, T_flux_from_moms. cbn [mo_flags mo_T mo_flux Z.eqb negb]. rewrite Rltb_f by lra. fold T. rewrite Reqb_f by lra.
  rewrite Rltb_t; [|unfold Rdiv at 1; rewrite Rmult_1_l; apply Rinv_lt_0_compat; exact D]. split; [reflexivity|]. assert (X := PI_RGT_0).
  assert (0 < s ^ 2 / (PI * T)) by (apply Rdiv_lt_0_compat; [apply pow_lt; lra|apply Rmult_lt_0_compat; assumption]).
  split; [apply Rmult_lt_0_compat; assumption|]. nra.
Qed.
Lemma default_size o : 0 <= jscale (gb_jac o) -> exists T, get_T_flux false o = Some (Ok (T, image_sum (gb_image o))) /\ T_to_fwhm T = 7/2 * jscale (gb_jac o).
Proof. intros H. eexists. split; [reflexivity|]. destruct (T_fwhm_inv (jscale (gb_jac o) * (7/2)) ltac:(lra)) as [-> _]. ring. Qed.
Lemma ignored o px : readable o px -> ~ has_moments (Tweight (jscale (gb_jac o))) px -> get_T_flux true o = get_T_flux false o.
Proof. intros HR H. exact (proj2 (choice o px HR) H). Qed.
Lemma no_pixels o e : / 10 ^ 40 <= jscale (gb_jac o) -> gb_pixels o = Raise e -> get_T_flux true o = Some (Raise e).
Proof.
  intros HJ E. unfold get_T_flux, weighted_moments. rewrite E, fill_weight. cbn [bind]. fold (w0 (Tweight (jscale (gb_jac o)))).
  destruct (norms_if_needed _ (w0_good _ (tw_big _ HJ))) as (gm' & -> & _). reflexivity.
Qed.
(** always an answer, except for the infinite size of C101 *)
Lemma outcomes o px : readable o px -> let T := Tweight (jscale (gb_jac o)) in
  (exists T0 F, get_T_flux true o = Some (Ok (T0, F)) /\ 0 < T0) \/ (get_T_flux true o = None /\ has_moments T px /\ psum T px 4 / psum T px 5 = T).
Proof.
  intros HR. cbv zeta. destruct (scale_pos o px HR) as [Hs HTw]. destruct (choice o px HR) as [C1 C2]. set (s := jscale (gb_jac o)) in *. set (T := Tweight s) in *.
  destruct (Classical_Prop.classic (has_moments T px)) as [H|H].
  - rewrite (C1 H). unfold the_choice. destruct (T_flux_from_moms _ _ _) as [[T0 F]|] eqn:E.
    + left. exists T0, F. split; [reflexivity|]. eapply T_pos; [exact Hs| |exact E]. intros _. cbn [mo_T]. destruct H as ((_ & M5 & M4) & _). apply Rdiv_lt_0_compat; assumption.
    + right. apply T_None in E. cbn [mo_T] in E. destruct E as [_ E]. split; [reflexivity|]. split; [exact H|]. fold T in E.
      assert (P : 0 < psum T px 4 / psum T px 5) by (destruct H as ((_ & M5 & M4) & _); apply Rdiv_lt_0_compat; assumption).
      unfold Rdiv at 1 3 in E. rewrite !Rmult_1_l in E. rewrite <- (Rinv_inv (psum T px 4 / psum T px 5)), E. apply Rinv_inv.
  - left. rewrite (C2 H). do 2 eexists. split; [reflexivity|]. exact HTw.
Qed.

(** ** other units *)
Definition same_place (k c : R) (p p' : pixel R) : Prop :=
  px_v p' = px_v p /\ px_u p' = px_u p /\ px_area p' = px_area p /\ px_val p' = k * px_val p /\ px_ierr p' = c * px_ierr p.
Lemma within2 k c px px' : Forall2 (same_place k c) px px' -> Forall2 (same_place k c) (within px) (within px').
Proof.
  induction 1 as [|p p' px px' H F IH]; [constructor|]. unfold within in *. cbn [filter]. assert (H' := H). destruct H' as (-> & -> & _).
  destruct (Rlt_dec _ _); [constructor; assumption|assumption].
Qed.
Lemma same_mfun k c m p p' : same_place k c p p' -> mfun m p' = mfun m p.
Proof. intros (A & B & _). unfold mfun, moment, rad2, offset. rewrite A, B. reflexivity. Qed.
Lemma same_weight k c T p p' : same_place k c p p' -> gauss_weight T p' = gauss_weight T p.
Proof. intros (A & B & _). unfold gauss_weight. rewrite A, B. reflexivity. Qed.
Lemma psum_scaled k c T px px' m : Forall2 (same_place k c) px px' -> psum T px' m = k * psum T px m.
Proof.
  intros F. apply within2 in F. unfold psum. induction F as [|p p' l l' H F IH]; [cbn [map]; rewrite !rsum_nil; ring|]. cbn [map]. rewrite !rsum_cons, IH.
  rewrite (same_mfun k c m p p' H), (same_weight k c T p p' H). destruct H as (_ & _ & _ & -> & _). ring.
Qed.
Lemma pvar_scaled k c T px px' m : c <> 0 -> Forall2 (same_place k c) px px' -> pvar T px' m = / c ^ 2 * pvar T px m.
Proof.
  intros Hc F. apply within2 in F. unfold pvar. induction F as [|p p' l l' H F IH]; [cbn [map]; rewrite !rsum_nil; ring|]. cbn [map]. rewrite !rsum_cons, IH.
  rewrite (same_mfun k c m p p' H), (same_weight k c T p p' H). destruct H as (_ & _ & _ & _ & ->). rewrite Rpow_mult_distr, Rinv_mult. ring.
Qed.
Lemma measured_scaled k c T px px' : 0 < k -> c <> 0 -> Forall2 (same_place k c) px px' -> (has_moments T px' <-> has_moments T px).
Proof.
  intros Hk Hc F. assert (C2 : 0 < / c ^ 2) by (apply Rinv_0_lt_compat; assert (0 <= c ^ 2) by apply pow2_ge_0; assert (c ^ 2 <> 0) by (apply pow_nonzero; exact Hc); lra).
  assert (PP : forall a b, 0 < a -> (0 < a * b <-> 0 < b)).
  { intros a b Ha. split; intros H; [apply Rmult_lt_reg_l with a; [exact Ha|lra]|apply Rmult_lt_0_compat; assumption]. }
  assert (NZ : forall b, k * b <> 0 <-> b <> 0). { intros b. split; intros H Z; [apply H; rewrite Z; ring|]. apply Rmult_integral in Z. lra. }
  unfold has_moments, measured. rewrite !(psum_scaled k c T px px' _ F), !PP, !NZ by assumption.
  assert (V : (forall m, (m < 6)%nat -> 0 < pvar T px' m) <-> (forall m, (m < 6)%nat -> 0 < pvar T px m)).
  { split; intros H m Hm; specialize (H m Hm); rewrite (pvar_scaled k c T px px' m Hc F) in *; [apply PP in H; [exact H|exact C2]|apply PP; assumption]. }
  tauto.
Qed.
Lemma rsum_map_id_mult k l : rsum (map (Rmult k) l) = k * rsum l.
Proof. induction l as [|x l IH]; cbn [map]; [rewrite !rsum_nil; ring|]. rewrite !rsum_cons, IH. ring. Qed.
Lemma image_sum_scaled k (a b : arr2 R) : nrow b = nrow a -> ncol b = ncol a -> (forall r s, at2 b r s = k * at2 a r s) -> image_sum b = k * image_sum a.
Proof.
  intros H1 H2 H. unfold image_sum. rewrite H1, H2, <- rsum_map_id_mult. f_equal. rewrite concat_map, map_map. f_equal. apply map_ext. intros r. rewrite map_map. apply map_ext. intros s. apply H.
Qed.
Definition times (k : R) (r : option (res (R * R))) : option (res (R * R)) :=
  match r with Some (Ok (T, F)) => Some (Ok (T, k * F)) | r => r end.
Lemma choice_scaled k s im Tm S b : 0 < k -> the_choice s (k * im) Tm (k * S) b = times k (the_choice s im Tm S b).
Proof.
  intros Hk. unfold the_choice, T_flux_from_moms, T_flux_default. cbn [mo_flags mo_T mo_flux]. destruct (negb _); [reflexivity|]. destruct (Rltb _ _); [reflexivity|].
  destruct (Reqb _ _); [reflexivity|]. cbn [option_map]. destruct (Rltb _ _); cbn [times]; do 3 f_equal; unfold Rdiv; ring.
Qed.
Lemma T_flux_scaled k c o o' px b : readable o px -> 0 < k -> c <> 0 -> rescaled k c o o' -> get_T_flux b o' = times k (get_T_flux b o).
Proof.
  intros HR Hk Hc (Ej & N1 & N2 & Im & p1 & p2 & E1 & E2 & F). assert (HR0 := HR). destruct HR as (E0 & HP & HJ). rewrite E0 in E1. injection E1 as <-.
  change (Forall2 (same_place k c) px p2) in F.
  assert (HR' : readable o' p2).
  { split; [exact E2|]. rewrite Ej. split; [|exact HJ]. unfold pixels_of in *. clear - HP F Hc. induction F as [|p p' l l' H F IH]; [constructor|].
    inversion HP as [|? ? [A B] HP' ]; subst. constructor; [|apply IH; exact HP']. destruct H as (_ & _ & -> & _ & ->). split; [exact A|]. apply Rmult_integral_contrapositive_currified; assumption. }
  assert (IS := image_sum_scaled k _ _ N1 N2 Im). destruct b; [|cbn; rewrite Ej, IS; reflexivity].
  destruct (choice o px HR0) as [C1 C2]. destruct (choice o' p2 HR') as [D1 D2]. rewrite Ej in *. set (s := jscale (gb_jac o)) in *.
  destruct (Classical_Prop.classic (has_moments (Tweight s) px)) as [H|H].
  - rewrite (C1 H), D1 by (apply (measured_scaled k c _ px p2); assumption). rewrite IS, !(psum_scaled k c _ px p2 _ F), <- choice_scaled by assumption.
    f_equal. destruct H as ((_ & M5 & _) & _). field. split; lra.
  - rewrite (C2 H), D2 by (intros Z; apply H; apply (measured_scaled k c _ px p2); assumption). rewrite IS. reflexivity.
Qed.

(** what is drawn *)
Definition rel {W A} (f : A -> A) (r : option (W * res A)) : option (W * res A) := match r with Some (w, Ok a) => Some (w, Ok (f a)) | r => r end.
Section Draw.
Variable W : Type.
Variable G : rng W.
Variable k : R.
Ltac step := unfold uni1, uni, bindM, ret, raise, of_res; cbv beta; cbn [rel];
  repeat (match goal with |- context [uniform G ?w ?a ?b ?n] => destruct (uniform G w a b n) as [? [|? [|? ?]]] end; cbv beta iota; cbn [rel]; try reflexivity).
Lemma entries_scaled c l w : scaled_entries W G (k * c) l w = rel (map (Rmult k)) (scaled_entries W G c l w).
Proof.
  revert w. induction l as [|x l IH]; intros w; [reflexivity|]. cbn [scaled_entries]. step. rewrite IH. destruct (scaled_entries W G c l _) as [[? [?|?]]|]; cbn [rel]; try reflexivity.
  do 3 f_equal. cbn [map]. f_equal. ring.
Qed.
Lemma psf_head_four w w' l : psf_head W G w = Some (w', Ok l) -> length l = 4%nat.
Proof.
  unfold psf_head, bindM, ret, raise, uni. destruct (uniform G w _ _ 2) as [w1 c]. destruct (uniform G w1 _ _ 2) as [w2 g].
  destruct c as [|? [|? [|]]]; try discriminate. destruct g as [|? [|? [|]]]; try discriminate. intros [= <- <-]. reflexivity.
Qed.
Definition on_tail (n : nat) (l : list R) : list R := firstn n l ++ map (Rmult k) (skipn n l).
Lemma on_tail_app a b : on_tail (length a) (a ++ b) = a ++ map (Rmult k) b.
Proof. unfold on_tail. rewrite firstn_app, skipn_app, Nat.sub_diag, firstn_all, skipn_all. cbn. rewrite app_nil_r. reflexivity. Qed.
Lemma simple_scaled flux T w : simplepsf_guess W G (k * flux) T w = rel (on_tail 5) (simplepsf_guess W G flux T w).
Proof.
  unfold simplepsf_guess. unfold bindM at 1 4. destruct (psf_head W G w) as [[w1 [h|e]]|] eqn:E; try reflexivity. apply psf_head_four in E. step.
  do 3 f_equal. change (h ++ [?a; ?b]) with (h ++ [a] ++ [b]). rewrite !app_assoc. replace 5%nat with (length (h ++ [T * r])) by (rewrite app_length, E; reflexivity). rewrite on_tail_app. cbn [map]. do 2 f_equal. ring.
Qed.
Lemma entries_length c l w w' r : scaled_entries W G c l w = Some (w', Ok r) -> length r = length l.
Proof.
  revert w w' r. induction l as [|x l IH]; intros w w' r; [intros [= <- <-]; reflexivity|]. cbn [scaled_entries]. unfold uni1, uni, bindM, ret, raise.
  destruct (uniform G w _ _ 1) as [w1 [|y [|]]]; try discriminate. destruct (scaled_entries W G c l w1) as [[? [?|?]]|] eqn:E; try discriminate. intros [= <- <-]. cbn [length]. f_equal. eapply IH; exact E.
Qed.
Lemma coellip_scaled n flux T w : coellippsf_guess W G n (k * flux) T w = rel (on_tail (4 + n)) (coellippsf_guess W G n flux T w).
Proof.
  destruct (Nat.eq_dec n 1) as [->|N1]; [apply simple_scaled|].
  assert (X : forall fl, coellippsf_guess W G n fl T = match coellip_table n with
         | None => raise ValueError
         | Some (p, f) => bindM (psf_head W G) (fun h => bindM (scaled_entries W G T f) (fun t => bindM (scaled_entries W G fl p) (fun a => ret (h ++ t ++ a))))
         end) by (intros fl; destruct n as [|[|n]]; [reflexivity|congruence|reflexivity]).
  rewrite !X. destruct (coellip_table n) as [[p f]|] eqn:Et; [|reflexivity].
  assert (Lf : length f = n) by (destruct n as [|[|[|[|[|[|n]]]]]]; try discriminate Et; injection Et as <- <-; reflexivity).
  unfold bindM at 1 4. destruct (psf_head W G w) as [[w1 [h|e]]|] eqn:E; try reflexivity. apply psf_head_four in E.
  unfold bindM at 1 3. destruct (scaled_entries W G T f w1) as [[w2 [t|e]]|] eqn:Ef; try reflexivity. apply entries_length in Ef.
  unfold bindM. rewrite entries_scaled. destruct (scaled_entries W G flux p w2) as [[w3 [a|e]]|] eqn:Ea; try reflexivity. cbn [rel]. unfold ret. cbn [rel]. do 3 f_equal.
  rewrite !app_assoc. replace (4 + n)%nat with (length (h ++ t)) by (rewrite app_length; lia). rewrite on_tail_app. reflexivity.
Qed.
Lemma em_comps_scaled flux s2 vary pf w : em_comps W G (k * flux) s2 vary pf w = rel (scale_fluxes k) (em_comps W G flux s2 vary pf w).
Proof.
  revert w. induction pf as [|[p f] pf IH]; intros w; [reflexivity|]. cbn [em_comps]. unfold em_comp. destruct vary.
  - step. rewrite IH. match goal with |- context [em_comps W G flux s2 true pf ?w] => destruct (em_comps W G flux s2 true pf w) as [[? [?|?]]|] end; cbn [rel]; try reflexivity.
    do 3 f_equal. cbn [app scale_fluxes]. f_equal. ring.
  - step. rewrite IH. match goal with |- context [em_comps W G flux s2 false pf ?w] => destruct (em_comps W G flux s2 false pf w) as [[? [?|?]]|] end; cbn [rel]; try reflexivity.
    do 3 f_equal. cbn [app scale_fluxes]. f_equal. ring.
Qed.
Lemma em_scaled n flux T w : em_pars W G n (k * flux) T w = rel (scale_fluxes k) (em_pars W G n flux T w).
Proof.
  destruct n as [|[|[|[|[|[|n]]]]]]; try reflexivity; unfold em_pars; try apply em_comps_scaled. step. do 3 f_equal. cbn [scale_fluxes]. f_equal. ring.
Qed.
End Draw.
Definition scale_gmix (k : R) (d : gmix) : gmix := map (fun g => gauss2d_set (k * g_p g) (g_row g) (g_col g) (g_irr g) (g_irc g) (g_icc g)) d.
Lemma scale_full k d : scale_fluxes k (gm_get_full_pars d) = gm_get_full_pars (scale_gmix k d).
Proof. unfold gm_get_full_pars, scale_gmix. induction d as [|g d IH]; [reflexivity|]. cbn [map flat_map app scale_fluxes]. rewrite IH. reflexivity. Qed.
Lemma gmix_call_scaled {W} (G : rng W) k c o o' px n b w w' g : good_rng G -> (1 <= n <= 5)%nat -> readable o px -> 0 < k -> c <> 0 -> rescaled k c o o' ->
  gmixpsf_call W G n b o w = Some (w', Ok g) -> exists g', gmixpsf_call W G n b o' w = Some (w', Ok g') /\ gm_get_full_pars (o_data g') = scale_fluxes k (gm_get_full_pars (o_data g)).
Proof.
  intros HG Hn HR Hk Hc Hs. assert (E := T_flux_scaled k c o o' px b HR Hk Hc Hs). unfold gmixpsf_call, with_T_flux. rewrite E.
  assert (PT : forall T F, get_T_flux b o = Some (Ok (T, F)) -> 0 < T).
  { intros T F Q. destruct (scale_pos o px HR) as [S1 S2]. destruct b; [|injection Q as <- _; exact S2]. destruct (outcomes o px HR) as [(T0 & F0 & Q' & P)|(Q' & _)]; rewrite Q in Q'; [|discriminate].
    injection Q' as <- _. exact P. }
  destruct (get_T_flux b o) as [[[T F]|e]|]; cbn [times]; try discriminate. specialize (PT T F eq_refl).
  unfold gmixpsf_guess, bindM. rewrite em_scaled. destruct (em_form G n F T HG Hn PT w) as (w1 & l & El & d & -> & _). rewrite El. cbn [rel]. rewrite scale_full.
  destruct (EMGo_Proofs.new_full_of d) as (o1 & O1 & _ & D1). destruct (EMGo_Proofs.new_full_of (scale_gmix k d)) as (o2 & O2 & _ & D2). unfold of_res. rewrite O1, O2.
  intros [= <- <-]. exists o2. split; [reflexivity|]. rewrite D1, D2, !full_fresh. symmetry. apply scale_full.
Qed.
Lemma shape_call_scaled {W} (G : rng W) k c o o' px b : readable o px -> 0 < k -> c <> 0 -> rescaled k c o o' ->
  (forall w w' l, simplepsf_call W G b o w = Some (w', Ok l) -> simplepsf_call W G b o' w = Some (w', Ok (firstn 5 l ++ map (Rmult k) (skipn 5 l)))) /\
  (forall n w w' l, coellippsf_call W G n b o w = Some (w', Ok l) -> coellippsf_call W G n b o' w = Some (w', Ok (firstn (4 + n) l ++ map (Rmult k) (skipn (4 + n) l)))).
Proof.
  intros HR Hk Hc Hs. assert (E := T_flux_scaled k c o o' px b HR Hk Hc Hs). unfold simplepsf_call, coellippsf_call, with_T_flux. rewrite E.
  destruct (get_T_flux b o) as [[[T F]|e]|]; cbn [times]; (split; [|intros n]; intros w w' l H); try discriminate H.
  - rewrite simple_scaled, H. reflexivity.
  - rewrite coellip_scaled, H. reflexivity.
Qed.

(** ** examples *)
Definition pix1 (j : jac) (rc : nat * nat) : pixel R :=
  mkPix (snd (get_vu j (INR (fst rc)) (INR (snd rc)))) (fst (get_vu j (INR (fst rc)) (INR (snd rc)))) (jacobian_get_area j) 1 (sqrt 1).
Lemma off_pixels : gb_pixels off_obs = Ok [pix1 (gb_jac off_obs) (0, 0)%nat].
Proof.
  unfold off_obs. cbn [gb_pixels gb_jac]. unfold make_pixels, make_pixels_gen, count_gt0, fill_pixels, fill_body. cbn [nrow ncol seq fold_left at2 foldM bind andb]. rewrite !(Rltb_t 0 1) by lra.
  rewrite !(Rleb_f 1 0) by lra. rewrite !(Rltb_f 1 0) by lra. reflexivity.
Qed.
Lemma round_pixels : gb_pixels round_obs = Ok (map (pix1 (gb_jac round_obs)) [(0,0); (0,1); (0,2); (1,0); (1,1); (1,2); (2,0); (2,1); (2,2)]%nat).
Proof.
  unfold round_obs. cbn [gb_pixels gb_jac]. unfold make_pixels, make_pixels_gen, count_gt0, fill_pixels, fill_body. cbn [nrow ncol seq fold_left at2 foldM bind andb]. rewrite !(Rltb_t 0 1) by lra.
  rewrite !(Rleb_f 1 0) by lra. rewrite !(Rltb_f 1 0) by lra. reflexivity.
Qed.
Lemma pix1_at r c a b : pix1 (mkJac r c 1 0 0 1 1 1) (a, b) = mkPix (INR b - c) (INR a - r) 1 1 1.
Proof. unfold pix1, get_vu, jacobian_get_area. cbn [fst snd row0 col0 dvdrow dvdcol dudrow dudcol jscale]. rewrite sqrt_1. f_equal; ring. Qed.
Lemma within_cons p px : px_v p * px_v p + px_u p * px_u p < 10 ^ 18 -> within (p :: px) = p :: within px.
Proof. intros H. unfold within. cbn [filter]. destruct (Rlt_dec _ _); [reflexivity|contradiction]. Qed.
Definition off_px : list (pixel R) := [mkPix 2 3 1 1 1].
Definition round_px : list (pixel R) := map (fun vu => mkPix (snd vu) (fst vu) 1 1 1) [(-1,-1); (-1,0); (-1,1); (0,-1); (0,0); (0,1); (1,-1); (1,0); (1,1)].
Lemma off_readable : readable off_obs off_px.
Proof.
  split; [|split].
  - rewrite off_pixels. unfold off_obs. cbn [gb_jac]. rewrite pix1_at. cbn [INR]. unfold off_px. do 3 f_equal; ring.
  - constructor; [|constructor]. unfold get_area. cbn. split; [ring|lra].
  - cbn. lra.
Qed.
Lemma round_readable : readable round_obs round_px.
Proof.
  split; [|split].
  - rewrite round_pixels. unfold round_obs, round_px. cbn [gb_jac map fst snd]. rewrite !pix1_at. cbn [INR]. do 2 f_equal; [f_equal; ring|]. repeat (f_equal; try ring).
  - unfold round_px. cbn [map]. repeat (constructor; [unfold get_area; cbn; split; [ring|lra]|]). constructor.
  - cbn. lra.
Qed.
Lemma mfuns v u a x i : let p := mkPix u v a x i in
  mfun 0 p = v /\ mfun 1 p = u /\ mfun 2 p = u * u - v * v /\ mfun 3 p = 2 * (u * v) /\ mfun 4 p = u * u + v * v /\ mfun 5 p = 1.
Proof.
  cbv zeta. unfold mfun, moment, rad2, cmod2, offset, gauss_zero, cpow, cmul, cone. cbn [fst snd g_row g_col px_v px_u]. repeat split; ring.
Qed.
Lemma six_cases (P : nat -> Prop) : P 0%nat -> P 1%nat -> P 2%nat -> P 3%nat -> P 4%nat -> P 5%nat -> forall k, (k < 6)%nat -> P k.
Proof. intros ? ? ? ? ? ? k Hk. destruct k as [|[|[|[|[|[|k]]]]]]; try lia; assumption. Qed.
Ltac values := repeat match goal with |- context [mfun ?k (mkPix ?u ?v ?a ?x ?i)] =>
  let H := fresh in assert (H := mfuns v u a x i); cbv zeta in H; destruct H as (?H0 & ?H1 & ?H2 & ?H3 & ?H4 & ?H5);
  rewrite ?H0, ?H1, ?H2, ?H3, ?H4, ?H5; clear H0 H1 H2 H3 H4 H5 end.
Lemma off_moments T : has_moments T off_px /\ psum T off_px 4 / psum T off_px 5 = 13.
Proof.
  assert (Wi : within off_px = off_px) by (unfold off_px; rewrite within_cons by (cbn [px_v px_u]; lra); reflexivity).
  assert (E := exp_pos (- (3 * 3 + 2 * 2) / T)). assert (E2 : 0 < exp (- (3 * 3 + 2 * 2) / T) ^ 2) by (apply pow_lt; exact E).
  unfold has_moments, measured, pvar, psum. rewrite Wi. unfold off_px. cbn [map]. unfold gauss_weight. cbn [px_v px_u px_val px_ierr]. set (e := exp _) in *.
  split; [split; [split; [|split]|split]|].
  - apply six_cases; rewrite !rsum_cons, !rsum_nil; values; set (e2 := e ^ 2) in *; lra.
  - rewrite !rsum_cons, !rsum_nil; values; lra.
  - rewrite !rsum_cons, !rsum_nil; values; lra.
  - rewrite !rsum_cons, !rsum_nil; values; lra.
  - rewrite !rsum_cons, !rsum_nil; values; lra.
  - rewrite !rsum_cons, !rsum_nil; values. field. lra.
Qed.
Lemma round_moments T : measured T round_px /\ psum T round_px 2 = 0 /\ psum T round_px 3 = 0.
Proof.
  assert (Wi : within round_px = round_px) by (unfold round_px; cbn [map fst snd]; rewrite !within_cons by (cbn [px_v px_u]; lra); reflexivity).
  assert (W : forall v u n, v * v + u * u = n -> exp (- (v * v + u * u) / T) = exp (- n / T)) by (intros v u n <-; reflexivity).
  assert (E0 := exp_pos (- (0) / T)). assert (E1 := exp_pos (- (1) / T)). assert (E2 := exp_pos (- (2) / T)).
  assert (F0 := pow_lt _ 2 E0). assert (F1 := pow_lt _ 2 E1). assert (F2 := pow_lt _ 2 E2).
  unfold measured, pvar, psum. rewrite Wi. unfold round_px. cbn [map fst snd]. unfold gauss_weight. cbn [px_v px_u px_val px_ierr].
  rewrite (W (-1) (-1) 2), (W (-1) 0 1), (W (-1) 1 2), (W 0 (-1) 1), (W 0 0 0), (W 0 1 1), (W 1 (-1) 2), (W 1 0 1), (W 1 1 2) by ring.
  set (e0 := exp (- (0) / T)) in *. set (e1 := exp (- (1) / T)) in *. set (e2 := exp (- (2) / T)) in *.
  split; [split; [|split]|split].
  - apply six_cases; rewrite !rsum_cons, !rsum_nil; values; set (f0 := e0 ^ 2) in *; set (f1 := e1 ^ 2) in *; set (f2 := e2 ^ 2) in *; lra.
  - rewrite !rsum_cons, !rsum_nil; values; lra.
  - rewrite !rsum_cons, !rsum_nil; values; lra.
  - rewrite !rsum_cons, !rsum_nil; values; lra.
  - rewrite !rsum_cons, !rsum_nil; values; lra.
Qed.

Lemma tweight_one : Tweight 1 < 13.
Proof. unfold Tweight, fwhm_to_T, fwhm_to_sigma, FWHM_FAC. lra. Qed.
Lemma off_sum : image_sum (gb_image off_obs) = 1.
Proof. unfold image_sum, off_obs. cbn. unfold rsum. cbn. lra. Qed.
(** all the flux is in the image, and the flux of the guess is below a thirteenth of it *)
Lemma off_wrong : exists F, get_T_flux true off_obs = Some (Ok (13, F)) /\ 0 < F /\ 13 * F < image_sum (gb_image off_obs).
Proof.
  destruct (off_moments (Tweight 1)) as [H E]. destruct (fallback off_obs off_px off_readable H) as (F & EF & P & L).
  - change (Tweight 1 < psum (Tweight 1) off_px 4 / psum (Tweight 1) off_px 5). rewrite E. exact tweight_one.
  - change (jscale (gb_jac off_obs)) with 1 in *. rewrite E in EF. exists F. split; [exact EF|]. split; [exact P|]. rewrite off_sum. eapply Rlt_le_trans; [exact L|].
    assert (Wi : within off_px = off_px) by (unfold off_px; rewrite within_cons by (cbn [px_v px_u]; lra); reflexivity).
    unfold psum. rewrite Wi. unfold off_px. cbn [map]. rewrite rsum_cons, rsum_nil. values. cbn [px_val]. unfold gauss_weight. cbn [px_v px_u].
    assert (X : exp (- (3 * 3 + 2 * 2) / Tweight 1) <= exp 0).
    { assert (TP : 0 < Tweight 1) by exact (proj2 (scale_pos _ _ off_readable)). apply Rlt_le, exp_increasing. unfold Rdiv. assert (0 < / Tweight 1) by (apply Rinv_0_lt_compat; exact TP). lra. }
    rewrite exp_0 in X. lra.
Qed.
Lemma round_ignored : measured (Tweight 1) round_px /\ readable round_obs round_px /\ get_T_flux true round_obs = get_T_flux false round_obs.
Proof.
  destruct (round_moments (Tweight 1)) as (M & Z & _). split; [exact M|]. split; [exact round_readable|]. apply (ignored _ _ round_readable). intros (_ & N & _). apply N. exact Z.
Qed.
Lemma in_example : exists px, readable in_obs px /\ has_moments (Tweight 1) px /\ psum (Tweight 1) px 4 / psum (Tweight 1) px 5 = 5/4 /\ 1 <= T_to_fwhm (5/4) /\ 5/4 < Tweight 1.
Proof.
  set (p := mkPix (1/2) 1 1 1 1 : pixel R). exists [p]. split; [split; [|split]|].
  - unfold in_obs. cbn [gb_pixels gb_jac]. unfold make_pixels, make_pixels_gen, count_gt0, fill_pixels, fill_body. cbn [nrow ncol seq fold_left at2 foldM bind andb].
    rewrite !(Rltb_t 0 1), !(Rleb_f 1 0), !(Rltb_f 1 0) by lra. cbn -[sqrt]. unfold p, jacobian_get_area. cbn [jscale]. rewrite sqrt_1. do 3 f_equal; lra.
  - constructor; [|constructor]. unfold get_area. cbn. split; [ring|lra].
  - cbn. lra.
  - assert (Wi : within [p] = [p]) by (rewrite within_cons by (unfold p; cbn [px_v px_u]; lra); reflexivity).
    assert (E := exp_pos (- (1 * 1 + 1/2 * (1/2)) / Tweight 1)). assert (E2 := pow_lt _ 2 E).
    unfold has_moments, measured, pvar, psum. rewrite Wi. unfold p. cbn [map]. unfold gauss_weight. cbn [px_v px_u px_val px_ierr]. set (e := exp _) in *.
    split; [split; [split; [|split]|split]|split].
    + apply six_cases; rewrite !rsum_cons, !rsum_nil; values; set (e2 := e ^ 2) in *; lra.
    + rewrite !rsum_cons, !rsum_nil; values; lra.
    + rewrite !rsum_cons, !rsum_nil; values; lra.
    + rewrite !rsum_cons, !rsum_nil; values; lra.
    + rewrite !rsum_cons, !rsum_nil; values; lra.
    + rewrite !rsum_cons, !rsum_nil; values. field. lra.
    + assert (TW : 5/4 < Tweight 1) by (unfold Tweight, fwhm_to_T, fwhm_to_sigma, FWHM_FAC; lra). split; [|exact TW].
      unfold T_to_fwhm, sigma_to_fwhm. assert (H : 1/2 <= sqrt (5/4/2)).
      { rewrite <- (sqrt_square (1/2)) by lra. apply sqrt_le_1_alt. lra. }
      unfold FWHM_FAC. lra.
Qed.
Lemma off_rescaled : rescaled 2 (1/2) off_obs off_obs2.
Proof.
  split; [reflexivity|]. split; [reflexivity|]. split; [reflexivity|]. split; [intros; cbn; ring|]. exists off_px, [mkPix 2 3 1 2 (1/2)]. split; [apply off_readable|]. split.
  - unfold off_obs2, off_obs. cbn [gb_pixels gb_jac]. unfold make_pixels, make_pixels_gen, count_gt0, fill_pixels, fill_body. cbn [nrow ncol seq fold_left at2 foldM bind andb].
    rewrite !(Rltb_t 0 (/4)), !(Rleb_f (/4) 0), !(Rltb_f (/4) 0) by lra. cbn -[sqrt]. unfold jacobian_get_area. cbn [jscale]. replace (/4) with (1/2 * (1/2)) by field. rewrite sqrt_square by lra. do 3 f_equal; lra.
  - constructor; [|constructor]. cbn. repeat split; lra.
Qed.

Lemma calls_total {W} (G : rng W) b o T F : good_rng G -> get_T_flux b o = Some (Ok (T, F)) ->
  (0 < T -> total W (gmixpsf_call W G 1 b o) (fun g => o_kind g = KFull /\ one_gauss F (T / 2) (gm_get_full_pars (o_data g)))) /\
  total W (gmixpsf_call W G 2 b o) (fun g => o_kind g = KFull /\ psf_mixture F (T / 2) 0 (combine em2_p em2_f) (gm_get_full_pars (o_data g))) /\
  total W (gmixpsf_call W G 3 b o) (fun g => o_kind g = KFull /\ psf_mixture F (T / 2) (1/100) (combine em3_p em3_f) (gm_get_full_pars (o_data g))) /\
  total W (simplepsf_call W G b o) (coellip_row (1/10) [T] [F]) /\
  (forall n p f, coellip_table n = Some (p, f) -> total W (coellippsf_call W G n b o) (coellip_row (1/100) (map (fun x => T * x) f) (map (fun x => F * x) p))).
Proof.
  intros HG E.
  assert (X : forall A (f : R -> R -> M W A) Q, total W (f F T) Q -> total W (with_T_flux W b o f) Q) by (intros A f Q H w; unfold with_T_flux; rewrite E; apply H).
  split; [|split; [|split; [|split]]].
  - intros HT. apply X. apply (gmix_mixture G 1 F T (T / 2) (2/10 * (T / 2)) [(1, 1)]). now apply em1_total.
  - apply X, gmix_mixture. now apply em2_total.
  - apply X, gmix_mixture. now apply em3_total.
  - apply X. now apply simplepsf_total.
  - intros n p f Et. apply X. assert (Hn : (2 <= n <= 5)%nat) by (destruct n as [|[|[|[|[|[|n]]]]]]; try discriminate Et; lia). now apply coellip_total.
Qed.
