(** C38-C42, C45 (EM), C81, C82, C121 *)
From Verif Require Import Base Moments_Spec Jacobian_Model Pixels_Model GMix_Model GMix_Spec Render_Spec GMixObj_Model
  EM_Model EM_Spec EMMask_Proofs EMPrep_Proofs EMThm_Proofs EMExample_Proofs EMLike_Proofs EMLikeCex_Proofs.
Local Open Scope R_scope.

(** the hypotheses shared by the theorems: a fit of the fluxes and a fit of everything *)
Example C38_hypotheses_hold : exists m obs guess m' r a px,
  valid_call m obs guess /\ em_go (mkFit FluxOnly 1 2 (/ 10) false) m obs guess (Some 0) = Some (m', Ok r) /\ r_flags r = 0%Z /\
  get_gmix m' r false = Ok a /\ data_given m obs (Some 0) px 0 /\ unmasked px.
Proof.
  destruct (EMCex_Proofs.guess_exists 0) as (h & G). destruct (near_run h 0 2 G ltac:(lia)) as (m' & r & E & hh & t & a & R & L & T & FL & FT & CV & GA).
  exists (mem h 0), ob, 0%nat, m', r, a, [EMCex_Proofs.pix0]. split; [apply (mem_valid 0); exact G|]. split; [exact E|]. split; [exact FL|]. split; [exact GA|].
  split; [split; reflexivity|]. constructor; [cbn; lra|constructor].
Qed.
Example C82_hypotheses_hold : exists m obs guess m' r a, valid_call m obs guess /\
  em_go (mkFit Free 1 1 (/ 10) false) m obs guess (Some 0) = Some (m', Ok r) /\ get_gmix m' r false = Ok a.
Proof. exact four_example. Qed.

(** the returned mixture ends a sequence of EM steps that starts with the guess *)
Theorem C81_result_of_em_steps : forall f m obs guess sky m' r a,
  valid_call m obs guess -> em_go f m obs guess sky = Some (m', Ok r) -> get_gmix m' r false = Ok a ->
  exists px s G P h n t d b, ran f m obs guess sky px s G P h /\ length h = S n /\ nth_error h n = Some t /\
    r_fit r = Some (n, d, m_sky t) /\ same_pars (m_gm t) (o_data a) /\
    get_gmix m' r true = Ok b /\ same_pars (views P (m_gm t)) (o_data b).
Proof. exact c81. Qed.
Print Assumptions C81_result_of_em_steps.

(** every iteration shares out exactly the flux of the pixels, masked ones as filled in *)
Theorem C38_every_iteration : forall f m obs guess sky px s G P h i t t',
  ran f m obs guess sky px s G P h -> nth_error h i = Some t -> nth_error h (S i) = Some t' ->
  flux_of (m_gm t') + sky_flux P t = rsum (map px_val (m_pix t')) /\
  Forall2 same_unmasked px (m_pix t') /\
  (f_vary_sky f = true -> sky_flux P t = INR (length px) * m_sky t').
Proof. exact c38_step. Qed.
Print Assumptions C38_every_iteration.
(** so the result of a fit without masked pixels has the flux of the image *)
Theorem C38_result_flux : forall f m obs guess sky px s m' r a,
  valid_call m obs guess -> em_go f m obs guess sky = Some (m', Ok r) -> get_gmix m' r false = Ok a ->
  data_given m obs sky px s -> unmasked px ->
  exists n d sky', r_fit r = Some (n, d, sky') /\
    if f_vary_sky f then flux_of (o_data a) + INR (length px) * sky' = rsum (map px_val px)
    else sky' = s /\ (s = 0 -> flux_of (o_data a) = rsum (map px_val px)).
Proof. exact c38. Qed.
Print Assumptions C38_result_flux.

Theorem C39_restricted_fitters : forall f m obs guess sky m' r a G,
  valid_call m obs guess -> em_go f m obs guess sky = Some (m', Ok r) -> get_gmix m' r false = Ok a ->
  guess_given m guess G ->
  length (o_data a) = length G /\
  (f_kind f = FixCen \/ f_kind f = FluxOnly -> Forall2 same_cen G (o_data a)) /\
  (f_kind f = FixCov \/ f_kind f = FluxOnly -> Forall2 same_cov G (o_data a)).
Proof. exact c39. Qed.
Print Assumptions C39_restricted_fitters.

(** what a result says *)
Theorem C40_result : forall f m obs guess sky m' r,
  valid_call m obs guess -> em_go f m obs guess sky = Some (m', Ok r) ->
  (r_flags r = EM_RANGE_ERROR /\ r_fit r = None /\ has_gmix r = false /\ (forall b, get_gmix m' r b = Raise RuntimeError)) \/
  exists px s G P h n t d, ran f m obs guess sky px s G P h /\ length h = S n /\ nth_error h n = Some t /\ r_fit r = Some (n, d, m_sky t) /\
    d = change (f_kind f) P h n /\ has_gmix r = true /\ (forall b, exists a, get_gmix m' r b = Ok a) /\
    (1 <= n <= f_maxiter f)%nat /\ (f_miniter f <= n)%nat /\
    (forall j, (1 <= j < n)%nat -> ~ converged (f_kind f) P (f_tol f) (f_miniter f) h j) /\
    (r_flags r = 0%Z /\ (n < f_maxiter f)%nat /\ converged (f_kind f) P (f_tol f) (f_miniter f) h n \/
     r_flags r = EM_MAXITER /\ n = f_maxiter f).
Proof. exact c40. Qed.
Print Assumptions C40_result.
Theorem C40_zero_flags_means_converged : forall f m obs guess sky m' r,
  valid_call m obs guess -> em_go f m obs guess sky = Some (m', Ok r) -> r_flags r = 0%Z ->
  exists n d sky', r_fit r = Some (n, Some d, sky') /\ d < f_tol f /\ (f_miniter f <= n < f_maxiter f)%nat.
Proof. exact c40_flags. Qed.
Print Assumptions C40_zero_flags_means_converged.
(** a range error has a reason *)
Theorem C40_range_error : forall f m obs guess sky m' r,
  valid_call m obs guess -> em_go f m obs guess sky = Some (m', Ok r) -> r_flags r = EM_RANGE_ERROR ->
  exists px s G P, data_given m obs sky px s /\ guess_given m guess G /\ psf_given m obs P /\
    (~ Forall evaluable (views P G) \/
     exists h, ran f m obs guess sky px s G P h /\ (length h <= f_maxiter f)%nat /\
       (forall j, (1 <= j < length h)%nat -> ~ converged (f_kind f) P (f_tol f) (f_miniter f) h j) /\
       stuck (f_kind f) P (f_vary_sky f) (f_miniter f) h).
Proof. exact c40_range. Qed.
Print Assumptions C40_range_error.
Theorem C40_exceptions : forall f m obs guess sky m' e,
  valid_call m obs guess -> em_go f m obs guess sky = Some (m', Raise e) ->
  bad_call m obs guess sky e \/ e = UnboundLocalError /\ (f_maxiter f = 0 \/ f_maxiter f < f_miniter f)%nat.
Proof. exact c40_raise. Qed.
Print Assumptions C40_exceptions.
(** a fit that converges in iteration maxiter is reported as not converged *)
Theorem C40_converged_at_maxiter_refuted : exists m obs guess m' r a im px s G P h,
  valid_call m obs guess /\ nth_error (em_im m) (eo_image obs) = Some im /\ make_pixels im (eo_weight obs) (eo_jac obs) true = Ok px /\
  ran (mkFit FluxOnly 1 1 (/ 10) false) m obs guess (Some s) px s G P h /\ converged FluxOnly P (/ 10) 1 h 1 /\
  em_go (mkFit FluxOnly 1 1 (/ 10) false) m obs guess (Some s) = Some (m', Ok r) /\ (exists d y, r_fit r = Some (1%nat, d, y)) /\
  r_flags r = EM_MAXITER /\ get_gmix m' r false = Ok a.
Proof.
  destruct (near_example 1 ltac:(lia)) as (m & obs & guess & m' & r & a & px & s & G & P & h & H).
  exists m, obs, guess, m', r, a, (img 0), px, s, G, P, h. exact H.
Qed.
Print Assumptions C40_converged_at_maxiter_refuted.
(** a usable call with maxiter = 0 fails with UnboundLocalError *)
Theorem C40_maxiter_zero_refuted : exists m obs guess m', valid_call m obs guess /\ ~ (exists e, bad_call m obs guess (Some 0) e) /\
  em_go (mkFit Free 1 0 (/ 10) false) m obs guess (Some 0) = Some (m', Raise UnboundLocalError).
Proof. exact zero_example. Qed.
Print Assumptions C40_maxiter_zero_refuted.

(** observation, guess and psf keep their contents *)
Theorem C41_inputs_untouched : forall f m obs guess sky m' r,
  valid_call m obs guess -> em_go f m obs guess sky = Some (m', r) -> same_old m m'.
Proof. exact c41_frame. Qed.
Print Assumptions C41_inputs_untouched.
Theorem C45_em_guess_untouched : forall f m obs guess sky m' r g,
  valid_call m obs guess -> em_go f m obs guess sky = Some (m', r) -> read (em_gm m) guess = Some g -> read (em_gm m') guess = Some g.
Proof. intros f m obs guess sky m' r g V E. destruct (c41_frame f m obs guess sky m' r V E) as (H & _). apply H. Qed.
Print Assumptions C45_em_guess_untouched.
(** with the sky given, values of masked pixels have no influence *)
Example C41_hypotheses_hold : let p v := [mkPix 0 0 1 1 1; mkPix 0 1 1 v 0] in p 5 <> p 7 /\ Forall2 same_unmasked (p 5) (p 7).
Proof.
  cbv zeta. split; [intros K; injection K; lra|]. constructor; [|constructor; [|constructor]]; unfold same_unmasked; cbn; repeat split; lra.
Qed.
Theorem C41_masked_values_ignored : forall f m1 m2 obs guess s p1 p2,
  em_gm m1 = em_gm m2 -> nth_error (em_px m1) (eo_px obs) = Some p1 -> nth_error (em_px m2) (eo_px obs) = Some p2 ->
  Forall2 same_unmasked p1 p2 ->
  agree (em_go f m1 obs guess (Some s)) (em_go f m2 obs guess (Some s)).
Proof. exact go_agree. Qed.
Print Assumptions C41_masked_values_ignored.
(** without the sky, prep_obs drops the weight map: two images that differ in a masked pixel
    give different results *)
Theorem C41_masked_without_sky_refuted : exists f h obs im1 im2 px m1 m2 r1 r2,
  valid_call (mkEm h [px] [im1]) obs 0 /\ eo_px obs = 0%nat /\ eo_image obs = 0%nat /\
  make_pixels im1 (eo_weight obs) (eo_jac obs) true = Ok px /\ make_pixels im2 (eo_weight obs) (eo_jac obs) true = Ok px /\
  nrow im1 = nrow im2 /\ ncol im1 = ncol im2 /\
  (forall r c, in_image im1 r c -> 0 < at2 (eo_weight obs) r c -> at2 im1 r c = at2 im2 r c) /\
  em_go f (mkEm h [px] [im1]) obs 0 None = Some (m1, Ok r1) /\ em_go f (mkEm h [px] [im2]) obs 0 None = Some (m2, Ok r2) /\
  r_fit r1 <> r_fit r2.
Proof. exact masked_example. Qed.
Print Assumptions C41_masked_without_sky_refuted.

(** the smallest pixel of the prepared image is 0.001 of the range *)
Theorem C42_prepared_image : forall im0, (0 < nrow im0)%nat -> (0 < ncol im0)%nat ->
  exists im s r0 c0 r1 c1, prep_image im0 = Ok (im, s) /\ nrow im = nrow im0 /\ ncol im = ncol im0 /\
    (forall r c, at2 im r c = at2 im0 r c + s) /\
    in_image im0 r0 c0 /\ in_image im0 r1 c1 /\
    (forall r c, in_image im0 r c -> at2 im0 r0 c0 <= at2 im0 r c <= at2 im0 r1 c1) /\
    at2 im r0 c0 = / 1000 * (at2 im r1 c1 + - at2 im r0 c0).
Proof. exact prep_spec. Qed.
Print Assumptions C42_prepared_image.
Theorem C42_positive : forall im0 im s, prep_image im0 = Ok (im, s) ->
  (exists r c r' c', in_image im0 r c /\ in_image im0 r' c' /\ at2 im0 r c <> at2 im0 r' c') ->
  forall r c, in_image im r c -> 0 < at2 im r c.
Proof. exact prep_positive. Qed.
Print Assumptions C42_positive.
Example C42_hypotheses_hold : let im0 := mkArr 2 2 (fun r c => INR r - 3 * INR c) in
  (exists im s, prep_image im0 = Ok (im, s)) /\ in_image im0 0 0 /\ in_image im0 0 1 /\ at2 im0 0 0 <> at2 im0 0 1.
Proof.
  cbv zeta. split; [|split; [split; cbn; lia|split; [split; cbn; lia|]]].
  - destruct (prep_spec (mkArr 2 2 (fun r c => INR r - 3 * INR c))) as (im & s & _ & _ & _ & _ & E & _); [cbn; lia|cbn; lia|]. eauto.
  - cbn. lra.
Qed.
Theorem C42_empty_image : forall im0, (nrow im0 = 0 \/ ncol im0 = 0)%nat -> prep_image im0 = Raise ValueError.
Proof. exact prep_empty. Qed.
Print Assumptions C42_empty_image.
(** a constant image becomes zero everywhere *)
Theorem C42_constant_image_refuted : forall im0 v, (0 < nrow im0)%nat -> (0 < ncol im0)%nat ->
  (forall r c, in_image im0 r c -> at2 im0 r c = v) ->
  exists im, prep_image im0 = Ok (im, - v) /\ forall r c, in_image im r c -> at2 im r c = 0.
Proof. exact prep_constant. Qed.
Print Assumptions C42_constant_image_refuted.

(** updated covariances are positive semidefinite *)
Theorem C82_covariances : forall f m obs guess sky m' r a,
  valid_call m obs guess -> em_go f m obs guess sky = Some (m', Ok r) -> get_gmix m' r false = Ok a ->
  f_kind f = Free \/ f_kind f = FixCen -> Forall psd (o_data a).
Proof. exact c82. Qed.
Print Assumptions C82_covariances.

(** an iteration raises the likelihood, but for the error of the fast exponential and the light
    beyond the cut off; the model drawn at the start of the iteration has no cut off light *)
Example C121_hypotheses_hold : exists f m obs guess sky px s G P h t t', ran f m obs guess sky px s G P h /\ counts_given px s G P /\ f_kind f = Free /\ length P = 1%nat /\
  nth_error h 0 = Some t /\ nth_error h 1 = Some t' /\ t <> t' /\ no_correction (f_kind f) P t /\
  forall p, In p px -> cut_light P (m_gm t) p <= 0 * (full_model P (m_gm t) p + m_sky t).
Proof. exact four_climbs. Qed.
Theorem C121_iteration_climbs : forall f m obs guess sky px s G P h i t t', ran f m obs guess sky px s G P h -> counts_given px s G P ->
  f_kind f = FluxOnly \/ length P = 1%nat -> nth_error h i = Some t -> nth_error h (S i) = Some t' -> no_correction (f_kind f) P t ->
  drawn_likelihood P t - 4 / 100000 * rsum (map px_val px) <= likelihood P t'.
Proof. exact c121_drawn. Qed.
Print Assumptions C121_iteration_climbs.
Theorem C121_exact_likelihood : forall f m obs guess sky px s G P h i t t' eta, ran f m obs guess sky px s G P h -> counts_given px s G P ->
  f_kind f = FluxOnly \/ length P = 1%nat -> nth_error h i = Some t -> nth_error h (S i) = Some t' -> no_correction (f_kind f) P t ->
  0 <= eta < 1 -> (forall p, In p px -> cut_light P (m_gm t) p <= eta * (full_model P (m_gm t) p + m_sky t)) ->
  likelihood P t - (/ 10000 - ln (1 - eta)) * rsum (map px_val px) <= likelihood P t'.
Proof. exact c121_exact. Qed.
Print Assumptions C121_exact_likelihood.
(** from the guess to the state after n iterations *)
Theorem C121_whole_run : forall f m obs guess sky px s G P h eta n t, ran f m obs guess sky px s G P h -> counts_given px s G P ->
  f_kind f = FluxOnly \/ length P = 1%nat -> 0 <= eta < 1 -> nth_error h n = Some t ->
  (forall j u, (j < n)%nat -> nth_error h j = Some u -> no_correction (f_kind f) P u /\
     forall p, In p px -> cut_light P (m_gm u) p <= eta * (full_model P (m_gm u) p + m_sky u)) ->
  likelihood P (mkEM G px s) - INR n * (/ 10000 - ln (1 - eta)) * rsum (map px_val px) <= likelihood P t.
Proof. exact c121_run. Qed.
Print Assumptions C121_whole_run.
