(** Concrete fits. *)
From Verif Require Import Base XReal Jacobian_Model Pixels_Model Shape_Spec Moments_Spec GMix_Model GMix_Spec GMix_Proofs GMixObj_Model GMixObj_Proofs
  Render_Model Render_Spec Render_Proofs Priors_Model Priors_Spec Priors_Proofs PriorsCex_Proofs Joint_Model Joint_Spec Joint_Proofs
  Fit_Model Fit_Spec Fit_Proofs Fit2_Proofs Fit3_Proofs Fit4_Proofs.
Local Open Scope R_scope.

Lemma Rabs_le_inv x y : Rabs x <= y -> - y <= x <= y.
Proof. unfold Rabs. destruct (Rcase_abs x); lra. Qed.
(** a round gaussian of size 4 and flux 1 *)
Definition gpars : list R := [0;0;0;0;4;1].
Definition gdata : gmix := [gauss2d_set 1 0 0 2 0 2].
Definition gobj : gmobj := mkObj (KModel Mgauss) 1 6 gpars gdata.
Lemma gauss_fill_4 : gmix_fill_gauss 1 gpars = Ok gdata.
Proof.
  unfold gmix_fill_gauss, gpars. rewrite (fill_simple_eq 1 _ _ 0 0 0 0 4 1 0 0); [|reflexivity|reflexivity|exact g2e_zero].
  unfold pvals_gauss, fvals_gauss. cbn [combine map fst snd]. unfold coellip_gauss. cbn [fst snd]. unfold gdata. f_equal. f_equal.
  replace (1 * 1) with 1 by ring. replace (/ 2 * (4 * 1) * (1 - 0)) with 2 by field. replace (/ 2 * (4 * 1) * 0) with 0 by ring.
  replace (/ 2 * (4 * 1) * (1 + 0)) with 2 by field. reflexivity.
Qed.
Lemma gobj_made : new_model Mgauss gpars = Ok gobj.
Proof.
  unfold new_model, obj_fill, blank, finish, model_npars, model_ngauss. cbn [o_npars length Nat.eqb negb gpars].
  unfold obj__fill. cbn [o_kind o_ngauss fill_func]. fold gpars. rewrite gauss_fill_4. reflexivity.
Qed.
(** one pixel at the centre, with value 0 and error 1 *)
Definition gpix : list (pixel R) := [mkPix 0 0 1 0 1].
Definition gjac : jac := mkJac 0 0 1 0 0 1 1 1.
Definition bare : fobs := mkFobs (Some gpix) None 1 1 gjac.
Definition with_psf : fobs := mkFobs (Some gpix) (Some (Some gobj)) 1 1 gjac.

Definition gfit (obs : list (list fobs)) (prior : option jprior) (tot np : nat) (dopsf : bool) (g : list (list (gmobj * gmobj))) : fit :=
  mkFit (FName Mgauss) obs prior tot 6 np (tot + np) (map (fun _ => gpix) (concat obs)) (match prior with None => None | Some p => jp_bounds p end) dopsf g.
Definition F1 (prior : option jprior) : fit := gfit [[bare]] prior 1 (match prior with None => 0 | Some _ => 6 end) false [[(gobj, gobj)]].
Definition F2 : fit := gfit [[bare; with_psf]] None 2 0 false [[(gobj, gobj); (gobj, gobj)]].
Lemma copy_gobj : obj_copy gobj = Ok gobj. Proof. exact gobj_made. Qed.
Lemma F1_made prior : fit_init (FName Mgauss) [[bare]] gpars prior = Ok (F1 prior).
Proof.
  unfold fit_init, setup_fit, init_gmix_all. cbn [concat app mapM obs_pixels bare fo_pixels bind length fold_left combine seq fst snd].
  unfold band_pars_of. assert (E : get_band_pars Mgauss gpars 0 = Ok gpars) by reflexivity. rewrite E. cbn [bind mapM]. unfold init_one, make_model. rewrite gobj_made. cbn [bind].
  change (has_psf_gmix _) with false. cbn [bind]. rewrite copy_gobj. destruct prior; reflexivity.
Qed.
Lemma F2_made : fit_init (FName Mgauss) [[bare; with_psf]] gpars None = Ok F2.
Proof.
  unfold fit_init, setup_fit, init_gmix_all. cbn [concat app mapM obs_pixels bare with_psf fo_pixels bind length fold_left combine seq fst snd].
  unfold band_pars_of. assert (E : get_band_pars Mgauss gpars 0 = Ok gpars) by reflexivity. rewrite E. cbn [bind mapM]. unfold init_one, make_model. rewrite gobj_made. cbn [bind].
  change (has_psf_gmix _) with false. cbn [bind]. rewrite copy_gobj. reflexivity.
Qed.
Lemma F1_of prior : fit_of (FName Mgauss) [[bare]] prior (F1 prior).
Proof. exists gpars, (F1 prior). split; [apply F1_made|constructor]. Qed.
Lemma F2_of : fit_of (FName Mgauss) [[bare; with_psf]] None F2.
Proof. exists gpars, F2. split; [apply F2_made|constructor]. Qed.

Lemma det_big : / 10 ^ 200 <= 1.
Proof. replace 1 with (/ 1) by field. apply Rinv_le_contravar; [lra|]. apply pow_R1_Rle. lra. Qed.
Lemma gdata_eval : Forall evaluable gdata.
Proof.
  constructor; [|constructor]. pose proof det_big. unfold evaluable, gcov, det2, trace2, gauss2d_set. cbn. lra.
Qed.
Lemma F1_range prior : in_range (F1 prior) gpars [gobj].
Proof.
  split; [|constructor; [exact gdata_eval|constructor]]. unfold mixtures, positions, positions_from. cbn [F1 gfit f_obs combine length seq map concat app fst snd mapM].
  unfold get_convolved_gmix, get_gmix, obs_at. cbn [F1 gfit f_obs f_model nth_error]. unfold band_pars_of. assert (E : get_band_pars Mgauss gpars 0 = Ok gpars) by reflexivity. rewrite E. cbn [bind].
  unfold make_model. rewrite gobj_made. reflexivity.
Qed.
Lemma conv_ok : exists o, obj_convolve gobj gobj = Ok o /\ o_data o = [gauss2d_set 1 0 0 4 0 4].
Proof.
  assert (C : gmix_convolve gdata gdata = Ok [gauss2d_set 1 0 0 4 0 4]).
  { unfold gmix_convolve, gmix_get_cen, gdata. cbn.
    match goal with |- context [Reqb ?a 0] => rewrite (Reqb_f a 0) by lra end. cbn. do 2 f_equal. unfold gauss2d_set. f_equal; field. }
  unfold obj_convolve. cbn [gobj o_data]. rewrite C. cbn [bind]. eexists. split; reflexivity.
Qed.

(** the value at the centre of a round gaussian *)
Definition cpix : pixel R := mkPix 0 0 1 0 1.
Lemma round_centre s : 0 < s -> pixel_model [gauss2d_set 1 0 0 s 0 s] cpix = / (2 * PI * s) /\ peak [gauss2d_set 1 0 0 s 0 s] = / (2 * PI * s).
Proof.
  intros Hs. assert (Q : sqrt (s * s - 0 * 0) = s) by (replace (s * s - 0 * 0) with (s * s) by ring; apply sqrt_square; lra).
  unfold pixel_model, brightness, peak, component, maha, gcov, det2, gauss2d_set, cpix, rsum.
  cbn -[sqrt PI exp]. rewrite ?Q. pose proof PI_RGT_0 as Hpi. rewrite Rabs_R1. split.
  - match goal with |- context [exp ?a] => replace a with 0 by (field; nra) end. rewrite exp_0. field. lra.
  - field. lra.
Qed.
Lemma model_centre g s model : o_data g = [gauss2d_set 1 0 0 s 0 s] -> 0 < s -> model_of g model ->
  Rabs (model cpix - / (2 * PI * s)) <= 4/100000 * / (2 * PI * s).
Proof.
  intros E Hs H. specialize (H cpix). rewrite E in H. destruct (round_centre s Hs) as [-> P] in H. rewrite P in H. cbn [cpix px_area] in H. rewrite Rabs_R1 in H. lra.
Qed.

(** ** C61: with the library's prior for the simple models *)
Definition the_simple : simplesep := mkSS the_cen (gba_obj the_ba) (normal_obj the_normal) [normal_obj the_normal] (list_bounds [normal_obj the_normal; normal_obj the_normal]).
Lemma the_simple_made : simple_init the_cen (gba_obj the_ba) (normal_obj the_normal) (FOne (normal_obj the_normal)) = Ok the_simple.
Proof. reflexivity. Qed.
Definition sprior : jprior := of_simple the_simple (ss_bounds the_simple).
Lemma the_normal_np : never_positive (p1_lnprob (normal_obj the_normal)).
Proof.
  intros v r E. cbn [normal_obj p1_lnprob] in E. injection E as <-. rewrite normal_lnprob_quad. apply quad_np. cbn. lra.
Qed.
Lemma sprior_consistent : consistent_prior sprior 5.
Proof.
  apply (fill_consistent the_cen (gba_obj the_ba) (simple_ps (normal_obj the_normal) [normal_obj the_normal])).
  apply (simple_fill_ok the_cen (gba_obj the_ba) (normal_obj the_normal) (FOne (normal_obj the_normal)) the_simple).
  - exists 0, 0, 1, 1. exact the_cen_made.
  - intros v1 v2 r. exact (ba_np 1 1 the_ba v1 v2 r the_ba_made).
  - cbn. repeat constructor; exact the_normal_np.
  - exact the_simple_made.
Qed.
Lemma sprior_value : jp_lnprob sprior (map Fin gpars) = Ok (Fin (- 17 / 2)).
Proof.
  cbn [sprior of_simple jp_lnprob]. rewrite simple_lnprob_gen, gen_lnprob_eq.
  unfold on2, gpars. cbn [the_simple ss_cen ss_g ss_T ss_F map item nth_error bind skipn tail_terms simple_ps normal_obj gba_obj p1_lnprob p2_lnprob].
  rewrite cen_zero, ba_zero, !normal_at. cbn [bind fold_left xadd]. do 2 f_equal. field.
Qed.
Lemma uniform1 : uniform_psf [[bare]].
Proof. right. intros o [<-|[]]. reflexivity. Qed.
Lemma simple_wrong : exists m obs prior F pars ms L pr models fd,
  fit_of (FName m) obs (Some prior) F /\ uniform_psf obs /\ consistent_prior prior (prior_terms (FName m) (length obs)) /\
  length pars = n_pars (FName m) obs /\ in_range F pars ms /\ prior_value (Some prior) pars = Ok L /\ Forall2 model_of ms models /\ encode pr L /\
  snd (calc_fdiff F pars) = Ok fd /\ fd = pr ++ map Fin (all_resid models (pixels_of obs)) ++ [Fin 0] /\
  skipn (f_n_prior F) fd <> map Fin (all_resid models (pixels_of obs)).
Proof.
  destruct (layout (FName Mgauss) [[bare]] (Some sprior) (F1 (Some sprior)) 5 (F1_of _) ltac:(discriminate) sprior_consistent ltac:(cbn; lia) uniform1 gpars [gobj] (Fin (- 17 / 2))
    eq_refl (F1_range _) sprior_value) as (models & pr & Hm & Lp & En & Ef & La & _).
  exists Mgauss, [[bare]], sprior, (F1 (Some sprior)), gpars, [gobj], (Fin (-17/2)), pr, models, (pr ++ map Fin (all_resid models (pixels_of [[bare]])) ++ [Fin 0]).
  split; [apply F1_of|]. split; [exact uniform1|]. split; [exact sprior_consistent|]. split; [reflexivity|]. split; [apply F1_range|]. split; [exact sprior_value|].
  split; [exact Hm|]. split; [exact En|]. split; [exact Ef|]. split; [reflexivity|].
  inversion Hm as [|g f gs fs Hg Hr]; subst. inversion Hr; subst. pose proof (model_centre gobj 2 f eq_refl ltac:(lra) Hg) as C.
  assert (Eall : all_resid [f] (pixels_of [[bare]]) = [resid f cpix]) by reflexivity. rewrite Eall. cbn [map app].
  change (f_n_prior (F1 (Some sprior))) with (5 + 1)%nat. rewrite <- skipn_skipn', skipn_cut by exact Lp. cbn [skipn].
  intros K. injection K as K. unfold resid in K. cbn [cpix px_val px_ierr] in K. pose proof PI_RGT_0. assert (0 < / (2 * PI * 2)) by (apply Rinv_0_lt_compat; lra).
  fold cpix in K. apply Rabs_le_inv in C. lra.
Qed.

(** ** C64: the first observation has no psf *)
Lemma with_psf_mixture : exists o, mixtures F2 gpars = Ok [gobj; o] /\ o_data o = [gauss2d_set 1 0 0 4 0 4].
Proof.
  destruct conv_ok as (o & Eo & D). exists o. split; [|exact D].
  unfold mixtures, positions, positions_from. cbn [F2 gfit f_obs combine length seq map concat app fst snd mapM].
  unfold get_convolved_gmix, get_gmix, obs_at. cbn [F2 gfit f_obs f_model nth_error]. unfold band_pars_of. assert (E : get_band_pars Mgauss gpars 0 = Ok gpars) by reflexivity. rewrite E. cbn [bind].
  unfold make_model. rewrite gobj_made. cbn [bind]. unfold has_psf_gmix, psf_gmix. cbn [bare with_psf fo_psf]. rewrite copy_gobj. cbn [bind]. rewrite Eo. reflexivity.
Qed.
Definition bare2 : fobs := no_psf with_psf.
Lemma psf_dropped : exists m obs F pars ms fd, fit_of m obs None F /\ length pars = n_pars m obs /\ in_range F pars ms /\
  snd (calc_fdiff F pars) = Ok fd /\ ~ (exists models, Forall2 model_of ms models /\ fd = map Fin (all_resid models (pixels_of obs))).
Proof.
  destruct with_psf_mixture as (o & Em & D). exists (FName Mgauss), [[bare; with_psf]], F2, gpars, [gobj; o].
  destruct (psf_ignored (FName Mgauss) [[bare; with_psf]] gpars None F2 bare [with_psf] [] eq_refl eq_refl F2_made) as (F' & HF' & Same).
  assert (Fo : fit_of (FName Mgauss) [[no_psf bare; bare2]] None F') by (exists gpars, F'; split; [exact HF'|constructor]).
  assert (U : uniform_psf [[no_psf bare; bare2]]) by (right; intros x [<-|[<-|[]]]; reflexivity).
  assert (M' := fit_made _ _ _ _ Fo).
  assert (R' : in_range F' gpars [gobj; gobj]).
  { split; [|constructor; [exact gdata_eval|constructor; [exact gdata_eval|constructor]]]. unfold mixtures. rewrite (md_obs _ _ _ _ M'). unfold positions, positions_from. cbn [combine length seq map concat app fst snd mapM].
    unfold get_convolved_gmix, get_gmix, obs_at. rewrite (md_obs _ _ _ _ M'), (md_model _ _ _ _ M'). cbn [nth_error]. unfold band_pars_of. assert (E : get_band_pars Mgauss gpars 0 = Ok gpars) by reflexivity. rewrite E. cbn [bind].
    unfold make_model. rewrite gobj_made. reflexivity. }
  destruct (layout (FName Mgauss) [[no_psf bare; bare2]] None F' 0 Fo ltac:(discriminate) eq_refl ltac:(lia) U gpars [gobj; gobj] (Fin 0) eq_refl R' eq_refl) as (models & pr & Hm & Lp & _ & Ef & _).
  destruct pr; [|discriminate]. assert (Np : f_n_prior F' = 0%nat).
  { destruct (init_parts _ _ _ _ _ HF') as (_&_&_&_&_&_&_&_&_&N&_). exact N. }
  rewrite Np in Ef. cbn [app repeat Nat.sub] in Ef. rewrite app_nil_r in Ef. rewrite <- (proj1 (Same gpars)) in Ef.
  eexists. split; [exact F2_of|]. split; [reflexivity|]. split; [|split; [exact Ef|]].
  - split; [exact Em|]. constructor; [exact gdata_eval|]. constructor; [|constructor]. rewrite D. constructor; [|constructor]. pose proof det_big. unfold evaluable, gcov, det2, trace2, gauss2d_set. cbn. lra.
  - intros (models' & Hm' & K). inversion Hm as [|? f1 ? ? _ Hr]; subst. inversion Hr as [|? f2 ? ? H2 Hr2]; subst. inversion Hr2; subst.
    inversion Hm' as [|? f1' ? ? _ Hr']; subst. inversion Hr' as [|? f2' ? ? H2' Hr2']; subst. inversion Hr2'; subst.
    pose proof (model_centre gobj 2 f2 eq_refl ltac:(lra) H2) as C. pose proof (model_centre o 4 f2' D ltac:(lra) H2') as C'.
    assert (A1 : all_resid [f1; f2] (pixels_of [[no_psf bare; bare2]]) = [resid f1 cpix; resid f2 cpix]) by reflexivity.
    assert (A2 : all_resid [f1'; f2'] (pixels_of [[bare; with_psf]]) = [resid f1' cpix; resid f2' cpix]) by reflexivity.
    rewrite A1, A2 in K. cbn [map] in K. set (x := resid f2 cpix) in *. set (y := resid f2' cpix) in *.
    assert (Kxy : x = y) by (clearbody x y; injection K; auto). unfold x, y, resid in Kxy. cbn [cpix px_val px_ierr] in Kxy. fold cpix in Kxy.
    pose proof PI_RGT_0. assert (P4 : 0 < / (2 * PI * 4)) by (apply Rinv_0_lt_compat; lra). assert (Q : / (2 * PI * 2) = 2 * / (2 * PI * 4)) by (field; lra). rewrite Q in C.
    apply Rabs_le_inv in C. apply Rabs_le_inv in C'. lra.
Qed.

(** ** C62: a prior that refuses parameters for which the mixture cannot be made *)
Definition the_bd : bdsep :=
  mkBD the_cen (gba_obj the_ba) (normal_obj the_normal) (normal_obj the_normal) (flat_obj (mkFlat 0 1)) [normal_obj the_normal]
    (list_bounds [normal_obj the_normal; normal_obj the_normal; flat_obj (mkFlat 0 1); normal_obj the_normal]).
Lemma the_bd_made : bd_init the_cen (gba_obj the_ba) (normal_obj the_normal) (normal_obj the_normal) (flat_obj (mkFlat 0 1)) (FOne (normal_obj the_normal)) = Ok the_bd.
Proof. reflexivity. Qed.
Definition bprior : jprior := of_bd the_bd (bd_bounds the_bd).
(** the ratio of sizes at which a model with fracdev 2 has no size *)
Definition bad_ratio : R := ln (dot pvals_exp fvals_exp / (2 * dot pvals_dev fvals_dev)) / ln 10.
Definition bpars : list R := [0;0;0;0;4;bad_ratio;2;1].
Definition bguess : list R := [0;0;0;0;4;0;1/2;1].
Lemma bd_bad : gmix_fill_bd bpars = Raise ZeroDivisionError.
Proof.
  assert (A : 0 < dot pvals_exp fvals_exp) by (pose proof (cm_sum_pos 0 1 ltac:(lra) ltac:(lra)) as P; unfold cm_sum in P; lra).
  assert (B : 0 < dot pvals_dev fvals_dev) by (pose proof (cm_sum_pos 1 1 ltac:(lra) ltac:(lra)) as P; unfold cm_sum in P; lra).
  unfold gmix_fill_bd, bpars. cbn [getp nth_error bind]. rewrite Tfactor_eq.
  assert (R10 : Rpower 10 bad_ratio = dot pvals_exp fvals_exp / (2 * dot pvals_dev fvals_dev)).
  { unfold Rpower, bad_ratio. assert (0 < ln 10) by (rewrite <- ln_1; apply ln_increasing; lra).
    replace (ln (dot pvals_exp fvals_exp / (2 * dot pvals_dev fvals_dev)) / ln 10 * ln 10) with (ln (dot pvals_exp fvals_exp / (2 * dot pvals_dev fvals_dev))) by (field; lra).
    apply exp_ln. apply Rdiv_lt_0_compat; lra. }
  rewrite R10. unfold cm_sum. rewrite Reqb_t by (field; lra). reflexivity.
Qed.
Lemma bd_good : exists o, new_model Mbd bguess = Ok o.
Proof.
  destruct (fill_bd_spec 0 0 0 0 4 0 (1/2) 1) as (gm & e1 & e2 & E & _).
  - unfold in_disk, cmod2. cbn. lra.
  - pose proof (cm_sum_pos (1/2) (Rpower 10 0) ltac:(lra) ltac:(unfold Rpower; apply exp_pos)). lra.
  - unfold new_model, obj_fill, blank, finish, model_npars, model_ngauss. cbn [o_npars length Nat.eqb negb bguess].
    unfold obj__fill. cbn [o_kind o_ngauss fill_func]. unfold bguess. rewrite E. eexists. reflexivity.
Qed.
Lemma bprior_consistent : consistent_prior bprior 7.
Proof.
  apply (fill_consistent the_cen (gba_obj the_ba) (bd_ps (normal_obj the_normal) (normal_obj the_normal) (flat_obj (mkFlat 0 1)) [normal_obj the_normal])).
  apply (bd_fill_ok the_cen (gba_obj the_ba) (normal_obj the_normal) (normal_obj the_normal) (flat_obj (mkFlat 0 1)) (FOne (normal_obj the_normal)) the_bd).
  - exists 0, 0, 1, 1. exact the_cen_made.
  - exact (ba_encodes 1 1 the_ba the_ba_made).
  - assert (N : encodes (normal_obj the_normal)) by exact (normal_encodes 0 1 (Some (0,1)) the_normal the_normal_made).
    cbn. repeat (constructor; [exact N|]). constructor; [apply flat_encodes|]. repeat (constructor; [exact N|]). constructor.
  - exact the_bd_made.
Qed.
Lemma bprior_raises : jp_lnprob bprior (map Fin bpars) = Raise GMixRangeError.
Proof.
  cbn [bprior of_bd jp_lnprob]. unfold bd_lnprob, add_terms, bpars. cbn [the_bd bd_cen bd_g bd_T bd_logTratio bd_fracdev bd_F map]. rewrite enum_cons, enum_nil.
  cbn [app mapM on1 on2 item nth_error bind normal_obj gba_obj flat_obj p1_lnprob p2_lnprob]. rewrite ba_zero. cbn [bind].
  assert (E : flat_lnprob_scalar (mkFlat 0 1) (Fin 2) = Raise GMixRangeError).
  { unfold flat_lnprob_scalar, flat_out. cbn [xltb fl_min fl_max]. rewrite (Rltb_t 1 2) by lra. rewrite Bool.orb_true_r. reflexivity. }
  rewrite E. reflexivity.
Qed.
Lemma order_matters : exists m obs prior F pars, fit_of m obs (Some prior) F /\ uniform_psf obs /\ consistent_prior prior (prior_terms m (length obs)) /\
  length pars = n_pars m obs /\ (exists r, snd (calc_lnprob F pars) = Ok r /\ l_lnprob r = NInf) /\ snd (calc_fdiff F pars) = Raise ZeroDivisionError.
Proof.
  destruct bd_good as (o & Eo).
  assert (HF : exists F, fit_init (FName Mbd) [[bare]] bguess (Some bprior) = Ok F).
  { unfold fit_init, setup_fit, init_gmix_all. cbn [concat app mapM obs_pixels bare fo_pixels bind length fold_left combine seq fst snd].
    unfold band_pars_of. assert (E : get_band_pars Mbd bguess 0 = Ok bguess) by reflexivity. rewrite E. cbn [bind mapM get_lm_n_prior_pars]. unfold init_one, make_model. rewrite Eo. cbn [bind].
    change (has_psf_gmix _) with false. cbn [bind]. rewrite (proj2 (proj2 (make_model_shape (FName Mbd) bguess o I Eo))). eexists. reflexivity. }
  destruct HF as (F & HF). assert (Fo : fit_of (FName Mbd) [[bare]] (Some bprior) F) by (exists bguess, F; split; [exact HF|constructor]).
  assert (M := fit_made _ _ _ _ Fo).
  exists (FName Mbd), [[bare]], bprior, F, bpars. split; [exact Fo|]. split; [exact uniform1|]. split; [exact bprior_consistent|]. split; [reflexivity|].
  assert (Np : (7 <= f_n_prior F)%nat).
  { destruct (init_parts _ _ _ _ _ HF) as (_&_&_&_&_&_&_&_&_&N&_). cbn in N. injection N as N. lia. }
  assert (Bm : bands_mix (f_model F) (f_dopsf F) bpars 0 (f_obs F) = Raise ZeroDivisionError).
  { rewrite (md_model _ _ _ _ M), (md_obs _ _ _ _ M). destruct (init_parts _ _ _ _ _ HF) as (_&_&_&_&_&_&_&_&_&_&(x & xs & l & Ex & Dx)&_).
    injection Ex as <- _ _. rewrite Dx. cbn [bands_mix]. unfold band_pars_of. assert (E : get_band_pars Mbd bpars 0 = Ok bpars) by reflexivity. rewrite E. cbn [bind mapM one_mix has_psf_gmix bare fo_psf].
    unfold pure_fill. change (length bpars) with 8%nat. cbn [mnp model_npars Nat.eqb fill_func mkind mng]. rewrite bd_bad. reflexivity. }
  destruct (evaluate_raise (FName Mbd) [[bare]] (Some bprior) F Fo bpars _ Bm) as [Ef El].
  cbn [prior_value] in El. rewrite bprior_raises in El. cbn [or_range] in Ef, El. split; [|exact Ef]. exists ln_low. split; [exact El|reflexivity].
Qed.

(** ** a fit with a psf *)
Lemma one_with_psf : exists F ms, fit_of (FName Mgauss) [[with_psf]] None F /\ uniform_psf [[with_psf]] /\ in_range F gpars ms /\
  exists o, ms = [o] /\ o_data o = [gauss2d_set 1 0 0 4 0 4].
Proof.
  destruct conv_ok as (o & Eo & D).
  assert (HF : exists F, fit_init (FName Mgauss) [[with_psf]] gpars None = Ok F).
  { assert (Hi : init_one (FName Mgauss) true gpars with_psf = Ok (gobj, o)).
    { unfold init_one, make_model. rewrite gobj_made. cbn [bind]. assert (Pg : psf_gmix with_psf = Ok gobj) by exact copy_gobj. rewrite Pg. cbn [bind]. rewrite Eo. reflexivity. }
    unfold fit_init, setup_fit, init_gmix_all. cbn [concat app mapM length combine seq fst snd]. change (obs_pixels with_psf) with (@Ok _ gpix).
    unfold band_pars_of. assert (E : get_band_pars Mgauss gpars 0 = Ok gpars) by reflexivity. rewrite E. cbn [bind mapM]. change (has_psf_gmix with_psf) with true. rewrite Hi. eexists. reflexivity. }
  destruct HF as (F & HF). assert (Fo : fit_of (FName Mgauss) [[with_psf]] None F) by (exists gpars, F; split; [exact HF|constructor]).
  assert (M := fit_made _ _ _ _ Fo). exists F, [o]. split; [exact Fo|]. split; [left; intros x [<-|[]]; reflexivity|]. split; [|exists o; auto].
  split.
  - unfold mixtures. rewrite (md_obs _ _ _ _ M). unfold positions, positions_from. cbn [combine length seq map concat app fst snd mapM].
    unfold get_convolved_gmix, get_gmix, obs_at. rewrite (md_obs _ _ _ _ M), (md_model _ _ _ _ M). cbn [nth_error]. unfold band_pars_of. assert (E : get_band_pars Mgauss gpars 0 = Ok gpars) by reflexivity. rewrite E. cbn [bind].
    unfold make_model. rewrite gobj_made. cbn [bind]. unfold has_psf_gmix, psf_gmix. cbn [with_psf fo_psf]. rewrite copy_gobj. cbn [bind]. rewrite Eo. reflexivity.
  - constructor; [|constructor]. rewrite D. constructor; [|constructor]. pose proof det_big. unfold evaluable, gcov, det2, trace2, gauss2d_set. cbn. lra.
Qed.
(** ** an evaluation that fails after overwriting the parameters *)
Lemma half_way : exists F, evolved (F1 None) F /\ F <> F1 None /\ snd (calc_lnprob (F1 None) [0;0;1;0;4;1]) = Ok ln_low.
Proof.
  assert (E : gmix_fill_gauss 1 [0;0;1;0;4;1] = Raise GMixRangeError).
  { apply (bad_shape 0 0 1 0 4 1 0 1 1 0 1%nat [1]). unfold in_disk, cmod2. cbn. lra. }
  assert (C : calc_lnprob (F1 None) [0;0;1;0;4;1] = (with_gms (F1 None) [[(gobj, mkObj (KModel Mgauss) 1 6 [0;0;1;0;4;1] gdata)]], Ok ln_low)).
  { unfold calc_lnprob, get_priors. cbn [F1 gfit f_prior]. unfold fill_gmix_all. cbn [F1 gfit f_model f_dopsf f_obs f_gms fill_bands].
    assert (G : band_pars_of (FName Mgauss) [0;0;1;0;4;1] 0 = Ok [0;0;1;0;4;1]) by reflexivity. rewrite G. cbn [fill_list fill_one]. unfold fill_obj. cbn [length gobj o_npars Nat.eqb].
    unfold obj__fill. cbn [gobj o_kind o_ngauss fill_func]. rewrite E. reflexivity. }
  exists (fst (calc_lnprob (F1 None) [0;0;1;0;4;1])). split; [apply ev_lnprob; constructor|]. rewrite C. cbn [fst snd]. split; [|reflexivity].
  intros K. apply (f_equal (fun F => map (map (fun g => nth 2 (o_pars (snd g)) 0)) (f_gms F))) in K. cbn in K. injection K as K. lra.
Qed.
(** ** a result *)
Lemma a_result : exists r, snd (set_fit_result (F1 None) gpars [1;1;1;1;1;1] (mkArr 6 6 (fun i j => if Nat.eqb i j then 1 else 0))) = Ok r /\
  r_T r = 4 /\ r_dof r = (-5)%Z /\ result_flux (r_flux r) 0 = Some 1.
Proof.
  destruct (layout (FName Mgauss) [[bare]] None (F1 None) 0 (F1_of _) ltac:(discriminate) eq_refl ltac:(cbn; lia) uniform1 gpars [gobj] (Fin 0)
    eq_refl (F1_range _) eq_refl) as (models & pr & Hm & Lp & En & Ef & La & El).
  unfold set_fit_result. assert (Lm := lnprob_pure (F1 None) gpars). pose proof (md_ok _ _ _ _ (fit_made _ _ _ _ (F1_of None))) as O.
  specialize (Lm O). destruct Lm as (_ & (g & Sg) & _). destruct (calc_lnprob (F1 None) gpars) as [F rl]. cbn [fst snd] in *. rewrite El, Sg. cbn [bind].
  eexists. split; [reflexivity|]. auto.
Qed.
