(** C139: a model fit follows the object when the sky coordinates are turned by an angle [t] and shifted by ([a], [b]).

    Full statement: for a fit, and the same images fitted in the other coordinates with the psf mixtures turned, made
    from guesses in each, after any evaluations of each, and parameters and their moved ones (the centre moved, the
    shape turned as rotate_shape does, sizes and fluxes the same), and a prior with the same values: calc_lnprob, calc_fdiff and make_image return the
    same, raised exceptions included, and the result has the same lnprob, s2n, chi2per, dof, T, flux and errors of
    these, its g turned and its g_cov turned.  No exception is needed for parameters out of range: the limits of the
    code are on the determinant and the trace of the covariance of a gaussian, which do not change. *)
From Verif Require Import Base XReal Shape_Model Pixels_Model Jacobian_Model GMix_Model GMixObj_Model Render_Model Render_Spec Priors_Model Joint_Model Fit_Model Fit_Spec Fit2_Proofs Units_Spec
  Motion_Spec Motion2_Proofs FitCex_Proofs MotionCex_Proofs.
Local Open Scope R_scope.

(** the same wcs in the other coordinates, and another centre of the jacobian *)
Theorem C139_jacobians : forall t r0 c0 r1 c1 vr vc ur uc,
  jac_moved t 0 0 (finish_init r0 c0 vr vc ur uc)
    (finish_init r0 c0 (cos t * vr - sin t * ur) (cos t * vc - sin t * uc) (sin t * vr + cos t * ur) (sin t * vc + cos t * uc)) /\
  jac_moved 0 (vr * (r0 - r1) + vc * (c0 - c1)) (ur * (r0 - r1) + uc * (c0 - c1)) (finish_init r0 c0 vr vc ur uc) (finish_init r1 c1 vr vc ur uc).
Proof. intros. split; [apply jac_turned|apply jac_shifted]. Qed.
Print Assumptions C139_jacobians.

Theorem C139_pixels : forall t a b image weight j j' ig, nrow weight = nrow image -> ncol weight = ncol image -> jac_moved t a b j j' ->
  same_outcome (pix_moved t a b) (make_pixels image weight j ig) (make_pixels image weight j' ig).
Proof. exact pixels_turned. Qed.
Print Assumptions C139_pixels.

Theorem C139_rotate_shape : forall t g1 g2, (turned_1 t g1 g2, turned_2 t g1 g2) = rotate_shape g1 g2 t.
Proof. exact turned_rotate. Qed.
Print Assumptions C139_rotate_shape.

(** an object is made in both, or the same exception is raised *)
Theorem C139_made : forall t a b m obs obs' prior prior' guess guess',
  Forall2 (Forall2 (obs_moved t a b)) obs obs' -> (prior_moved t a b prior prior' \/ residuals_moved t a b prior prior') -> pars_moved t a b guess guess' ->
  same_outcome (fun F F' => f_size F' = f_size F /\ f_npars F' = f_npars F) (fit_init m obs guess prior) (fit_init m obs' guess' prior').
Proof.
  intros t a b m obs obs' prior prior' g g' HO HQ HU.
  assert (HP : together prior prior') by (destruct HQ; [eapply prior_together|eapply residuals_together]; eassumption). pose proof (init_moved t a b m obs obs' prior prior' g g' HO HP HU) as S.
  destruct (fit_init m obs g prior) as [F|] eqn:E, (fit_init m obs' g' prior') as [F'|] eqn:E'; try contradiction; [|exact S].
  refine (size_moved t a b m obs obs' prior prior' F F' _ _ HO HP); [exists g, F|exists g', F']; (split; [assumption|constructor]).
Qed.
Print Assumptions C139_made.

Theorem C139_lnprob : forall t a b m obs obs' prior prior' F F' p p',
  fit_of m obs prior F -> fit_of m obs' prior' F' ->
  Forall2 (Forall2 (obs_moved t a b)) obs obs' -> prior_moved t a b prior prior' -> pars_moved t a b p p' ->
  snd (calc_lnprob F' p') = snd (calc_lnprob F p).
Proof. intros t a b m obs obs' prior prior'. intros. apply (lnprob_moved t a b) with m obs obs' prior prior'; try assumption. eapply prior_together; eassumption. Qed.
Print Assumptions C139_lnprob.

(** a prior on the centre has one residual for each direction, which are the same when the coordinates are shifted only *)
Theorem C139_fdiff : forall t a b m obs obs' prior prior' F F' p p',
  fit_of m obs prior F -> fit_of m obs' prior' F' ->
  Forall2 (Forall2 (obs_moved t a b)) obs obs' -> residuals_moved t a b prior prior' -> pars_moved t a b p p' ->
  snd (calc_fdiff F' p') = snd (calc_fdiff F p).
Proof. intros t a b m obs obs' prior prior'. intros. apply (fdiffs_moved t a b) with m obs obs' prior prior'; try assumption. eapply residuals_together; eassumption. Qed.
Print Assumptions C139_fdiff.

(** the joint priors of the library meet the hypothesis: CenPrior with one width, GPriorBA for the shape *)
Theorem C139_priors : forall t a b c1 c2 s cen ba T F bnd b0, cen_init c1 c2 s s = Ok cen ->
  exists cen', cen_init (moved_v t a c1 c2) (moved_u t b c1 c2) s s = Ok cen' /\
    prior_moved t a b (Some (of_simple (mkSS cen (gba_obj ba) T F bnd) b0)) (Some (of_simple (mkSS cen' (gba_obj ba) T F bnd) b0)) /\
    (forall Tr fd, prior_moved t a b (Some (of_bd (mkBD cen (gba_obj ba) T Tr fd F bnd) b0)) (Some (of_bd (mkBD cen' (gba_obj ba) T Tr fd F bnd) b0))) /\
    forall fd, prior_moved t a b (Some (of_bdf (mkBDF cen (gba_obj ba) T fd F bnd) b0)) (Some (of_bdf (mkBDF cen' (gba_obj ba) T fd F bnd) b0)).
Proof.
  intros t a b c1 c2 s cen ba T F bnd b0 E. destruct (cen_moved_made t a b c1 c2 s cen E) as (cen' & E' & C). exists cen'. split; [exact E'|].
  split; [apply simple_moved; [exact C|apply ba_isotropic]|]. split; intros; [apply bd_moved|apply bdf_moved]; (exact C || apply ba_isotropic).
Qed.
Print Assumptions C139_priors.

Theorem C139_image : forall t a b m obs obs' prior prior' F F' p p' band obsnum,
  fit_of m obs prior F -> fit_of m obs' prior' F' ->
  Forall2 (Forall2 (obs_moved t a b)) obs obs' -> pars_moved t a b p p' -> length p = n_pars m obs ->
  same_outcome same_image (fit_make_image F p band obsnum) (fit_make_image F' p' band obsnum).
Proof. intros t a b m obs obs' prior prior' F F' p p' bd i. intros. apply (image_moved t a b) with m obs obs' prior prior'; assumption. Qed.
Print Assumptions C139_image.

(** covariances as the least squares routine returns them in the two coordinates; nothing is said of g_err *)
Theorem C139_result : forall t a b m obs obs' prior prior' F F' p p' err err' cov cov',
  fit_of m obs prior F -> fit_of m obs' prior' F' ->
  Forall2 (Forall2 (obs_moved t a b)) obs obs' -> prior_moved t a b prior prior' -> pars_moved t a b p p' -> cov_moved t cov cov' ->
  same_outcome (result_moved t) (snd (set_fit_result F p err cov)) (snd (set_fit_result F' p' err' cov')).
Proof. intros t a b m obs obs' prior prior'. intros. apply (result_moved_of t a b) with m obs obs' prior prior'; assumption. Qed.
Print Assumptions C139_result.

(** a galaxy of shape (1/2, 0) and a psf, turned by 90 degrees and shifted by (5, 7), with a psf mixture of another flux *)
Example C139_hypotheses_hold : exists F F', fit_of (FName Mgauss) [[with_psf]] None F /\ fit_of (FName Mgauss) [[turned_obs 5]] None F' /\
  Forall2 (Forall2 (obs_moved quarter 5 7)) [[with_psf]] [[turned_obs 5]] /\ prior_moved quarter 5 7 None None /\ residuals_moved quarter 5 7 None None /\
  pars_moved quarter 5 7 long_pars long_turned /\ length long_pars = n_pars (FName Mgauss) [[with_psf]].
Proof. exact moved_hold. Qed.
