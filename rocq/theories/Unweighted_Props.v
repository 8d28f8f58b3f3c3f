(** C146: values of pixels without weight are not used.

    Full statement: two images that are equal wherever the weight is positive are the same to every measurement.
    Proved: with pixels without weight left out (the default), their pixel lists are equal, so that everything
    computed from them is (C146_pixels_same, C146_admom); with such pixels kept, their values have no influence on
    GaussMom, the log likelihood and residuals of a mixture, the s2n of a model and model fits; nor have they on the
    s2n of observations.  EM with a given sky is in C41 and template fluxes are in C142.  The code violates the rest:
    the iteration of adaptive moments looks at the values before the errors (C146_admom_kept_refuted), pre-PSF
    moments transform the whole image (C146_prepsf_refuted), the default flux of the psf guessers is the sum of the
    image (C146_psf_guess_refuted), and EM without a sky is in C41_masked_without_sky_refuted. *)
From Verif Require Import Base XReal Jacobian_Model Pixels_Model GMix_Model GMixObj_Model WSums_Model MomResult_Model GaussMom_Model Admom_Model Admom_Spec Render_Model ObsList_Model PSFGuess_Model PrePSF_Model
  Priors_Model Joint_Model Fit_Model Fit_Spec FitCex_Proofs Units_Spec Unweighted_Spec Unweighted_Proofs UnweightedCex_Proofs UnweightedCex2_Proofs UnweightedCex3_Proofs.
Local Open Scope R_scope.

Theorem C146_pixels : forall ignore w im im' j, images_alike w im im' ->
  same_outcome (Forall2 pix_alike) (make_pixels im w j ignore) (make_pixels im' w j ignore).
Proof. exact pixels_alike. Qed.
Print Assumptions C146_pixels.
Theorem C146_pixels_same : forall w im im' j, images_alike w im im' -> make_pixels im' w j true = make_pixels im w j true.
Proof. exact pixels_same. Qed.
Print Assumptions C146_pixels_same.
(** adaptive moments of two images, pixels without weight left out *)
Theorem C146_admom : forall w im im' j px px', images_alike w im im' -> make_pixels im w j true = Ok px -> make_pixels im' w j true = Ok px' ->
  (forall c h guess, am_go c h (mkAo px' j) guess = am_go c h (mkAo px j) guess) /\
  (forall c h k n rng, find_cen_admom c h (mkAo px' j) k n rng = find_cen_admom c h (mkAo px j) k n rng).
Proof. intros w im im' j px px' A E E'. rewrite (pixels_same w im im' j A), E in E'. injection E' as <-. split; reflexivity. Qed.
Print Assumptions C146_admom.

(** pixels without weight may be kept *)
Theorem C146_gaussmom : forall fwhm higher px px' j, Forall2 pix_alike px px' -> gaussmom fwhm higher (GObs px' j) = gaussmom fwhm higher (GObs px j).
Proof. exact gaussmom_alike. Qed.
Print Assumptions C146_gaussmom.
Theorem C146_likelihood : forall gm px px', Forall2 pix_alike px px' ->
  get_loglike gm px' = get_loglike gm px /\ get_model_s2n gm px' = get_model_s2n gm px /\ forall fd start, fill_fdiff gm px' fd start = fill_fdiff gm px fd start.
Proof. intros gm px px' H. split; [apply loglike_alike, H|]. split; [apply s2n_alike, H|]. intros. apply fdiff_alike, H. Qed.
Print Assumptions C146_likelihood.
Theorem C146_fit_made : forall m obs obs' guess prior, Forall2 (Forall2 obs_alike) obs obs' ->
  same_outcome (fun F F' => f_size F' = f_size F /\ f_npars F' = f_npars F) (fit_init m obs guess prior) (fit_init m obs' guess prior).
Proof.
  intros m obs obs' g p H. pose proof (init_alike m obs obs' g p H) as S.
  destruct (fit_init m obs g p), (fit_init m obs' g p); cbn in *; tauto.
Qed.
Print Assumptions C146_fit_made.
Theorem C146_fit : forall m obs obs' prior F F', fit_of m obs prior F -> fit_of m obs' prior F' -> Forall2 (Forall2 obs_alike) obs obs' ->
  forall p err cov, snd (calc_lnprob F' p) = snd (calc_lnprob F p) /\ snd (calc_fdiff F' p) = snd (calc_fdiff F p) /\
    snd (set_fit_result F' p err cov) = snd (set_fit_result F p err cov).
Proof.
  intros m obs obs' prior F F' Ft Ft' H p err cov.
  split; [exact (lnprob_alike m obs obs' prior F F' Ft Ft' H p)|]. split; [exact (residuals_alike m obs obs' prior F F' Ft Ft' H p)|].
  exact (result_alike m obs obs' prior F F' Ft Ft' H p err cov).
Qed.
Print Assumptions C146_fit.
Theorem C146_s2n : forall w im im', images_alike w im im' -> obs_sums im' w = obs_sums im w.
Proof. exact sums_same. Qed.
Print Assumptions C146_s2n.

(** two pixels, the second without weight *)
Example C146_hypotheses_hold : exists w im im' px px' F F', images_alike w im im' /\ im <> im' /\
  make_pixels im w gjac true = make_pixels im' w gjac true /\ make_pixels im w gjac false = Ok px /\ make_pixels im' w gjac false = Ok px' /\ px <> px' /\
  Forall2 pix_alike px px' /\
  fit_of (FName Mgauss) [[mkFobs (Some px) None 2 1 gjac]] None F /\ fit_of (FName Mgauss) [[mkFobs (Some px') None 2 1 gjac]] None F' /\
  Forall2 (Forall2 obs_alike) [[mkFobs (Some px) None 2 1 gjac]] [[mkFobs (Some px') None 2 1 gjac]].
Proof. exact alike_hold. Qed.

(** kept pixels without weight: the value decides between an exception and a result *)
Theorem C146_admom_kept_refuted : exists c wt j p p' d, Forall2 pix_alike p p' /\ good_guess wt /\
  snd (am_run c (mkAo p j) wt) = Raise ZeroDivisionError /\ snd (am_run c (mkAo p' j) wt) = Ok d.
Proof. exact kept_used. Qed.
Print Assumptions C146_admom_kept_refuted.
Theorem C146_prepsf_refuted : exists f o o' r r', images_alike (pp_wt o) (pp_im o) (pp_im o') /\ pp_wt o' = pp_wt o /\ pp_jac o' = pp_jac o /\ pp_psf o' = pp_psf o /\
  go f o false = Some (Ok r) /\ go f o' false = Some (Ok r') /\ m_flux r <> m_flux r'.
Proof. exact corner_used. Qed.
Print Assumptions C146_prepsf_refuted.
Theorem C146_psf_guess_refuted : exists w im im' px j T f f', images_alike w im im' /\ make_pixels im w j true = px /\ make_pixels im' w j true = px /\
  get_T_flux false (mkGobs im px j) = Some (Ok (T, f)) /\ get_T_flux false (mkGobs im' px j) = Some (Ok (T, f')) /\ f <> f'.
Proof. exact guess_used. Qed.
Print Assumptions C146_psf_guess_refuted.
