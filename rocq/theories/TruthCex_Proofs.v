(** Two pixels, one at the centre of a round gaussian and one five standard deviations away. *)
From Verif Require Import Base XReal Jacobian_Model Jacobian_Spec Pixels_Model Shape_Spec Moments_Spec FastExp_Model FastExp_Proofs GMix_Model GMix_Spec GMix_Proofs GMixObj_Model GMixObj_Proofs
  Render_Model Render_Spec Render_Proofs Priors_Model Joint_Model Joint_Spec Joint_Proofs Fit_Model Fit_Spec Fit_Proofs Fit2_Proofs Fit3_Proofs Fit4_Proofs FitCex_Proofs Truth_Spec Truth_Proofs.
Local Open Scope R_scope.

Definition gp (s F : R) : list R := [0;0;0;0;2 * s;F].
Definition gd (s F : R) : gmix := [gauss2d_set F 0 0 s 0 s].
Definition gob (s F : R) : gmobj := mkObj (KModel Mgauss) 1 6 (gp s F) (gd s F).
Lemma gp_fill s F : gmix_fill_gauss 1 (gp s F) = Ok (gd s F).
Proof.
  unfold gmix_fill_gauss, gp. rewrite (fill_simple_eq 1 _ _ 0 0 0 0 (2 * s) F 0 0); [|reflexivity|reflexivity|exact g2e_zero].
  unfold pvals_gauss, fvals_gauss. cbn [combine map fst snd]. unfold coellip_gauss. cbn [fst snd]. unfold gd. do 2 f_equal.
  f_equal; try ring; field.
Qed.
Lemma gp_made s F : new_model Mgauss (gp s F) = Ok (gob s F).
Proof.
  unfold new_model, obj_fill, blank, finish, model_npars, model_ngauss. cbn [o_npars length Nat.eqb negb gp].
  unfold obj__fill. cbn [o_kind o_ngauss fill_func]. fold (gp s F). rewrite gp_fill. reflexivity.
Qed.
Definition far_jac : jac := finish_init 0 0 1 0 0 5.
Definition far_image (a b : R) : arr2 R := mkArr 1 2 (fun _ c => match c with O => a | _ => b end).
Definition far_px (a b : R) : list (pixel R) := [mkPix 0 0 5 a 1; mkPix 5 0 5 b 1].
Definition far_obs (a b : R) : fobs := mkFobs (Some (far_px a b)) None 1 2 far_jac.
Lemma far_area : jscale far_jac ^ 2 = 5.
Proof. unfold far_jac, finish_init. cbn [jscale]. replace (1 * 5 - 0 * 0) with 5 by ring. rewrite Rabs_right by lra. apply pow2_sqrt. lra. Qed.
Lemma far_made a b : make_pixels (far_image a b) (far_image 1 1) far_jac true = Ok (far_px a b).
Proof.
  unfold make_pixels, make_pixels_gen, count_gt0. cbn [nrow ncol at2 far_image seq fold_left]. rewrite !Rltb_t by lra. cbn [Nat.eqb bind].
  unfold fill_pixels, fill_body. cbn [nrow ncol at2 far_image seq foldM]. rewrite !Rleb_f by lra. rewrite !Rltb_f by lra. rewrite sqrt_1. cbn [andb].
  replace (jacobian_get_area far_jac) with 5 by (symmetry; exact far_area). unfold get_vu, far_jac, finish_init. cbn.
  unfold far_px. repeat f_equal; ring.
Qed.
Lemma far_fit a b : exists F, fit_of (FName Mgauss) [[far_obs a b]] None F.
Proof.
  assert (HF : exists F, fit_init (FName Mgauss) [[far_obs a b]] (gp 1 1) None = Ok F); [|destruct HF as [F H]; exists F, (gp 1 1), F; split; [exact H|constructor]].
  unfold fit_init, setup_fit, init_gmix_all. cbn [concat app mapM obs_pixels far_obs fo_pixels bind length fold_left combine seq fst snd].
  unfold band_pars_of. assert (E : get_band_pars Mgauss (gp 1 1) 0 = Ok (gp 1 1)) by reflexivity. rewrite E. cbn [bind mapM]. unfold init_one, make_model. rewrite gp_made. cbn [bind].
  change (has_psf_gmix _) with false. cbn [bind]. assert (C : obj_copy (gob 1 1) = Ok (gob 1 1)) by exact (gp_made 1 1). rewrite C. eexists. reflexivity.
Qed.
Lemma far_uniform a b : uniform_psf [[far_obs a b]]. Proof. right. intros x [<-|[]]. reflexivity. Qed.
Lemma far_range a b F s fl : 1 <= s -> fit_of (FName Mgauss) [[far_obs a b]] None F -> in_range F (gp s fl) [gob s fl].
Proof.
  intros Hs Fo. assert (M := fit_made _ _ _ _ Fo). split.
  - unfold mixtures. rewrite (md_obs _ _ _ _ M). unfold positions, positions_from. cbn [combine length seq map concat app fst snd mapM].
    unfold get_convolved_gmix, get_gmix, obs_at. rewrite (md_obs _ _ _ _ M), (md_model _ _ _ _ M). cbn [nth_error]. unfold band_pars_of. assert (E : get_band_pars Mgauss (gp s fl) 0 = Ok (gp s fl)) by reflexivity. rewrite E. cbn [bind].
    unfold make_model. rewrite gp_made. reflexivity.
  - constructor; [|constructor]. constructor; [|constructor]. pose proof det_big. unfold evaluable, gcov, det2, trace2, gauss2d_set. cbn. nra.
Qed.
(** the model in a pixel *)
Definition c0 (s F : R) : R := F * (1 / (2 * PI * sqrt (s * s))) * 5.
Lemma far_model s F u val : 1 <= s -> 25 <= u * u / s -> mdl (gd s F) (mkPix u 0 5 val 1) = 0.
Proof.
  intros Hs Hc. pose proof det_big as DB. unfold mdl, gd, set_norms_if_needed, gauss2d_set. cbn [g_norm_set negb gmix_set_norms]. unfold gauss2d_set_norm, GMIX_LOW_DETVAL. cbn [g_det g_irr g_icc g_irc g_p].
  rewrite Rltb_f by nra. rewrite Rleb_f by lra. cbn [fst gmix_set_norms]. unfold fastval, gmix_eval_pixel_fast. cbn [foldM]. unfold gauss2d_eval_pixel_fast. cbn [g_nrm g_row g_col px_v px_u px_area].
  match goal with |- context [Rltb ?x FASTEXP_MAX_CHI2] => replace x with (u * u / s) by (unfold gauss_chi2; cbn; field; lra) end.
  unfold FASTEXP_MAX_CHI2. rewrite Rltb_f by exact Hc. cbn [andb bind]. ring.
Qed.
Lemma near_model s F u val : 1 <= s -> u * u / s < 25 -> exists e, mdl (gd s F) (mkPix u 0 5 val 1) = c0 s F * e /\ fexp (- (5/10) * (u * u / s)) = Ok e.
Proof.
  intros Hs Hc. pose proof det_big as DB. unfold mdl, gd, set_norms_if_needed, gauss2d_set. cbn [g_norm_set negb gmix_set_norms]. unfold gauss2d_set_norm, GMIX_LOW_DETVAL. cbn [g_det g_irr g_icc g_irc g_p].
  rewrite Rltb_f by nra. rewrite Rleb_f by lra. cbn [fst gmix_set_norms]. unfold fastval, gmix_eval_pixel_fast. cbn [foldM]. unfold gauss2d_eval_pixel_fast. cbn [g_nrm g_row g_col px_v px_u px_area n_pnorm].
  match goal with |- context [Rltb ?x FASTEXP_MAX_CHI2] => replace x with (u * u / s) by (unfold gauss_chi2; cbn; field; lra) end.
  assert (P : 0 <= u * u / s) by (apply Rmult_le_pos; [nra|left; apply Rinv_0_lt_compat; lra]).
  unfold FASTEXP_MAX_CHI2. rewrite Rltb_t by exact Hc. rewrite Rleb_t by exact P. cbn [andb]. destruct (fexp_spec (- (5/10) * (u * u / s)) ltac:(lra)) as (e & E & _). exists e. rewrite E. cbn [bind]. split; [|reflexivity].
  unfold c0. replace (s * s - 0 * 0) with (s * s) by ring. ring.
Qed.
(** the exact image *)
Definition v0 : R := component (gauss2d_set 1 0 0 1 0 1) 0 0 * 5.
Definition v5 : R := component (gauss2d_set 1 0 0 1 0 1) 0 5 * 5.
Lemma v0_eq : v0 = c0 1 1.
Proof.
  unfold v0, c0, component, maha, gcov, cov, det2. cbn [gauss2d_set g_p g_row g_col g_irr g_irc g_icc xx xy yy].
  match goal with |- context [exp ?x] => replace x with 0 by field end. rewrite exp_0. replace (1 * 1 - 0 * 0) with (1 * 1) by ring. field. pose proof PI_RGT_0. rewrite Rmult_1_r, sqrt_1. lra.
Qed.
Lemma v5_eq : v5 = c0 1 1 * exp (-125/10).
Proof.
  unfold v5, c0, component, maha, gcov, cov, det2. cbn [gauss2d_set g_p g_row g_col g_irr g_irc g_icc xx xy yy].
  match goal with |- context [exp ?x] => match x with - _ / 2 => replace x with (-125/10) by (cbn; field) end end. replace (1 * 1 - 0 * 0) with (1 * 1) by ring. field. pose proof PI_RGT_0. rewrite Rmult_1_r, sqrt_1. lra.
Qed.
Lemma c0_same : c0 (25/24) (25/24) = c0 1 1.
Proof.
  unfold c0. rewrite Rmult_1_r, sqrt_1, (sqrt_square (25/24)) by lra. pose proof PI_RGT_0. field. lra.
Qed.
Lemma c0_pos : 0 < c0 1 1.
Proof. unfold c0. rewrite Rmult_1_r, sqrt_1. pose proof PI_RGT_0. apply Rmult_lt_0_compat; [|lra]. rewrite Rmult_1_l. unfold Rdiv. rewrite Rmult_1_l. apply Rinv_0_lt_compat. lra. Qed.
Lemma gd_fresh s F : fresh_mix (gd s F).
Proof. split; [|discriminate]. constructor; [|constructor]. split; [|reflexivity]. unfold coherent, gcov, cov, det2. cbn. ring. Qed.
Lemma gd_eval s F : 1 <= s -> Forall evaluable (gd s F).
Proof. intros Hs. constructor; [|constructor]. pose proof det_big. unfold evaluable, gcov, det2, trace2, gauss2d_set. cbn. nra. Qed.
Lemma far_maps r c : maps_to far_jac (INR r) (INR c) (INR r) (5 * INR c).
Proof. unfold maps_to, far_jac, finish_init. cbn. split; ring. Qed.
Lemma exact_drawn : drawn false (far_obs v0 v5) (gob 1 1).
Proof.
  destruct (make_image_exact (gd 1 1) 1 2 far_jac (fresh_good _ (gd_fresh 1 1) (gd_eval 1 1 ltac:(lra)))) as (gm' & im & E & _ & _ & A & B & W).
  exists im, (far_image v0 v5), (far_image 1 1), true, (far_px v0 v5). cbn [gob o_data far_obs fo_nr fo_nc fo_jac fo_pixels]. rewrite E. cbn [snd].
  repeat (split; [reflexivity|]). split; [|split; [apply far_made|reflexivity]]. intros r c Hr Hc.
  rewrite (W r c _ _ Hr Hc (far_maps r c)), far_area. assert (r = 0%nat) by lia. subst r. f_equal. unfold brightness, gd. cbn [map]. rewrite rsum_cons, rsum_nil, Rplus_0_r.
  destruct c as [|[|c]]; [| |lia]; cbn [far_image at2 INR]; unfold v0, v5; do 2 f_equal; ring.
Qed.
(** the fast image, for the hypotheses *)
Lemma fast_drawn : exists a b, drawn true (far_obs a b) (gob 1 1) /\ 0 < a.
Proof.
  destruct (norms_if_needed _ (fresh_good _ (gd_fresh 1 1) (gd_eval 1 1 ltac:(lra)))) as (gm' & E & S & N).
  destruct (make_image_gen (gd 1 1) 1 2 far_jac true (fun gm' k => Some (fastval gm' (cd_v k) (cd_u k) (cd_area k))) gm' E) as (im & Ei & _ & _ & W).
  { intros c. rewrite fastval_eq. reflexivity. }
  assert (V : forall c, (c < 2)%nat -> at2 im 0 c = Some (mdl (gd 1 1) (mkPix (5 * INR c) 0 5 0 1))).
  { intros c Hc. destruct (W 0%nat c ltac:(lia) Hc) as (k & [K1 K2] & Ak & ->). cbn [nan_add]. f_equal. rewrite Rplus_0_l. unfold mdl. rewrite E. cbn [fst px_v px_u px_area].
    destruct (far_maps 0 c) as [F1 F2]. rewrite Ak, far_area. f_equal; [rewrite K1, <- F1; reflexivity|rewrite K2, <- F2; reflexivity]. }
  exists (mdl (gd 1 1) (mkPix 0 0 5 0 1)), (mdl (gd 1 1) (mkPix 5 0 5 0 1)). split.
  - exists im. eexists (far_image _ _), (far_image 1 1), true, _. cbn [gob o_data far_obs fo_nr fo_nc fo_jac fo_pixels]. rewrite Ei. cbn [snd].
    repeat (split; [reflexivity|]). split; [|split; [apply far_made|reflexivity]]. intros r c Hr Hc. assert (r = 0%nat) by lia. subst r. rewrite (V c Hc). f_equal.
    destruct c as [|[|c]]; [| |lia]; cbn [far_image at2 INR]; do 2 f_equal; ring.
  - destruct (near_model 1 1 0 0 ltac:(lra) ltac:(lra)) as (e & -> & Ee). destruct (fexp_spec (- (5 / 10) * (0 * 0 / 1)) ltac:(lra)) as (y & Ey & B). assert (y = e) by congruence. subst y.
    replace (- (5 / 10) * (0 * 0 / 1)) with 0 in B by field. rewrite exp_0 in B. apply Rmult_lt_0_compat; [exact c0_pos|]. unfold Rabs in B. destruct (Rcase_abs (e - 1)); lra.
Qed.
(** a larger and brighter gaussian fits the image better than the one it was made from *)
Lemma not_the_best : exists F ms p r r' x x', fit_of (FName Mgauss) [[far_obs v0 v5]] None F /\ uniform_psf [[far_obs v0 v5]] /\ in_range F (gp 1 1) ms /\ noiseless false [[far_obs v0 v5]] ms /\
  length p = 6%nat /\ snd (calc_lnprob F (gp 1 1)) = Ok r /\ l_lnprob r = Fin x /\ snd (calc_lnprob F p) = Ok r' /\ l_lnprob r' = Fin x' /\ x < x'.
Proof.
  destruct (far_fit v0 v5) as (F & Fo). assert (M := fit_made _ _ _ _ Fo).
  assert (Val : forall s fl, 1 <= s -> exists r, snd (calc_lnprob F (gp s fl)) = Ok r /\
    l_lnprob r = Fin (- ((mdl (gd s fl) (mkPix 0 0 5 v0 1) - v0) ^ 2 + (mdl (gd s fl) (mkPix 5 0 5 v5 1) - v5) ^ 2) / 2)).
  { intros s fl Hs. destruct (far_range v0 v5 F s fl Hs Fo) as [Em Ee].
    destruct (proj1 (mixtures_bands _ _ _ _ Fo (far_uniform v0 v5) (gp s fl) eq_refl) _ Em) as (ds & Ed & Eq').
    destruct (evaluate_good _ _ _ _ 0 Fo ltac:(discriminate) eq_refl ltac:(lia) (gp s fl) ds (Fin 0) Ed eq_refl (proj2 (evaluable_map _ _ Eq') Ee)) as (_ & El & _).
    rewrite <- Eq' in El. eexists. split; [exact El|]. cbn [l_lnprob xadd]. f_equal. unfold sum_over, pixels_of. cbn [concat map app far_obs fo_pixels combine fst snd far_px gob o_data]. rewrite !rsum_cons, rsum_nil.
    unfold resid. cbn [px_val px_ierr]. field. }
  destruct (Val 1 1 ltac:(lra)) as (r & Er & Lr). destruct (Val (25/24) (25/24) ltac:(lra)) as (r' & Er' & Lr').
  exists F, [gob 1 1], (gp (25/24) (25/24)), r, r'. eexists _, _. split; [exact Fo|]. split; [apply far_uniform|]. split; [apply (far_range v0 v5 F 1 1 ltac:(lra) Fo)|].
  split; [constructor; [exact exact_drawn|constructor]|]. split; [reflexivity|]. split; [exact Er|]. split; [exact Lr|]. split; [exact Er'|]. split; [exact Lr'|].
  rewrite (far_model 1 1 5 v5 ltac:(lra) ltac:(lra)). destruct (near_model 1 1 0 v0 ltac:(lra) ltac:(lra)) as (e & -> & Ee). destruct (near_model (25/24) (25/24) 0 v0 ltac:(lra) ltac:(lra)) as (e' & -> & Ee').
  destruct (near_model (25/24) (25/24) 5 v5 ltac:(lra) ltac:(lra)) as (f & -> & Ef). rewrite c0_same, v5_eq.
  replace (- (5 / 10) * (0 * 0 / 1)) with 0 in Ee by field. replace (- (5 / 10) * (0 * 0 / (25 / 24))) with 0 in Ee' by field. assert (e' = e) by congruence. subst e'.
  replace (- (5 / 10) * (5 * 5 / (25 / 24))) with (-12) in Ef by field. destruct (fexp_spec (-12) ltac:(lra)) as (y & Ey & B). assert (y = f) by congruence. subst y.
  replace (-12) with (-125/10 + 1/2) in B by field. rewrite exp_plus in B. set (h := exp (-125/10)) in *. assert (0 < h) by apply exp_pos.
  pose proof (exp_half_bound (-1/2) ltac:(lra)) as H2. replace (- (-1/2)) with (1/2) in H2 by field. assert (1 < exp (1/2)) by (pose proof (exp_ineq1 (1/2) ltac:(lra)); lra).
  set (q := exp (1/2)) in *. pose proof c0_pos as CP. set (c := c0 1 1) in *.
  assert (Q1 : f < 2 * h) by (unfold Rabs in B; destruct (Rcase_abs (f - h * q)); nra). assert (Q2 : 0 < f) by (unfold Rabs in B; destruct (Rcase_abs (f - h * q)); nra).
  assert (K : (c * f - c * h) ^ 2 < (0 - c * h) ^ 2).
  { replace ((c * f - c * h) ^ 2) with (c * c * (f - h) ^ 2) by ring. replace ((0 - c * h) ^ 2) with (c * c * h ^ 2) by ring. apply Rmult_lt_compat_l; [apply Rmult_lt_0_compat; exact CP|]. nra. }
  lra.
Qed.
