(** C135: a model fit does not depend on the units of brightness (times [k]) nor on the units and the handedness of
    the sky coordinates (lengths times [a], second axis mirrored when [f] is -1).

    Full statement: for a fit and the same fit in the other units, made from guesses in each, after any evaluations of
    each, and parameters and their translation: calc_lnprob and calc_fdiff return the same, make_image the image times
    [k], and the result has the same lnprob, s2n, chi2per, dof and g, and T, flux and their errors in the new units.
    This holds for every model, any number of bands and observations, with or without psf, and whatever the flux of
    the psf mixtures.  The code takes the exception of parameters out of range: its limits on the determinant and the
    size of a gaussian are numbers, in the units of the coordinates, so that the same object may be inside them in one
    unit and outside in another (C135_unit_too_large_refuted); with both inside, everything is equal. *)
From Verif Require Import Base XReal Pixels_Model Jacobian_Model GMix_Model GMixObj_Model Render_Model Render_Spec Priors_Model Joint_Model Fit_Model Fit_Spec Units_Spec Coords_Spec
  FitUnits_Spec FitCex_Proofs FitUnits3_Proofs FitUnits4_Proofs FitUnits5_Proofs FitUnitsCex_Proofs.
Local Open Scope R_scope.

(** an object is made in both, or the same exception is raised *)
Theorem C135_made : forall k a f m obs obs' prior prior' guess guess', k <> 0 -> a <> 0 -> f * f = 1 ->
  Forall2 (Forall2 (obs_units k a f)) obs obs' -> prior_units k a f m prior prior' -> pars_units k a f m guess guess' ->
  same_outcome (fun F F' => f_size F' = f_size F /\ f_npars F' = f_npars F) (fit_init m obs guess prior) (fit_init m obs' guess' prior').
Proof.
  intros k a f m obs obs' prior prior' g g' _ _ FF HO HP HU. pose proof (init_units k a f FF m obs obs' prior prior' g g' HO HP HU) as S.
  destruct (fit_init m obs g prior) as [F|] eqn:E, (fit_init m obs' g' prior') as [F'|] eqn:E'; try contradiction; [|exact S].
  refine (size_same k a f m obs obs' prior prior' F F' _ _ HO HP); [exists g, F|exists g', F']; (split; [assumption|constructor]).
Qed.
Print Assumptions C135_made.

(** out of range in one of the two, or the same *)
Theorem C135_evaluations : forall k a f m obs obs' prior prior' F F' p p', k <> 0 -> a <> 0 -> f * f = 1 ->
  fit_of m obs prior F -> fit_of m obs' prior' F' ->
  Forall2 (Forall2 (obs_units k a f)) obs obs' -> prior_units k a f m prior prior' ->
  pars_units k a f m p p' -> length p = n_pars m obs ->
  same_unless ln_low (snd (calc_lnprob F p)) (snd (calc_lnprob F' p')) /\
  same_unless (repeat LOWVAL (f_size F)) (snd (calc_fdiff F p)) (snd (calc_fdiff F' p')).
Proof. intros k a f m obs obs' prior prior' F F' p p'. intros. split; [apply (lnprob_units k a f) with m obs obs' prior prior'|apply (fdiffs_units k a f) with m obs obs' prior prior']; assumption. Qed.
Print Assumptions C135_evaluations.

Theorem C135_in_range : forall k a f m obs obs' prior prior' F F' p p' ms ms', k <> 0 -> a <> 0 -> f * f = 1 ->
  fit_of m obs prior F -> fit_of m obs' prior' F' ->
  Forall2 (Forall2 (obs_units k a f)) obs obs' -> prior_units k a f m prior prior' ->
  pars_units k a f m p p' -> length p = n_pars m obs ->
  uniform_psf obs -> uniform_psf obs' -> in_range F p ms -> in_range F' p' ms' ->
  snd (calc_lnprob F' p') = snd (calc_lnprob F p) /\ snd (calc_fdiff F' p') = snd (calc_fdiff F p).
Proof. intros k a f m obs obs' prior prior' F F' p p' ms ms'. intros. apply (both_in_range k a f) with m obs obs' prior prior' ms ms'; assumption. Qed.
Print Assumptions C135_in_range.

Theorem C135_image : forall k a f m obs obs' prior prior' F F' p p' band obsnum, k <> 0 -> a <> 0 -> f * f = 1 ->
  fit_of m obs prior F -> fit_of m obs' prior' F' ->
  Forall2 (Forall2 (obs_units k a f)) obs obs' ->
  pars_units k a f m p p' -> length p = n_pars m obs ->
  same_or_range (image_units k) (fit_make_image F p band obsnum) (fit_make_image F' p' band obsnum).
Proof. intros k a f m obs obs' prior prior' F F' p p' b i. intros. apply (image_same k a f) with m obs obs' prior prior'; assumption. Qed.
Print Assumptions C135_image.

(** errors and covariances as the least squares routine returns them in the two units *)
Theorem C135_result : forall k a f m obs obs' prior prior' F F' p p' err err' cov cov', k <> 0 -> a <> 0 -> f * f = 1 ->
  m <> FCoellip 0 -> fit_of m obs prior F -> fit_of m obs' prior' F' ->
  Forall2 (Forall2 (obs_units k a f)) obs obs' -> prior_units k a f m prior prior' ->
  pars_units k a f m p p' -> err_units k a f m err err' -> cov_units k a f m cov cov' ->
  snd (calc_lnprob F' p') = snd (calc_lnprob F p) ->
  same_outcome (result_units k a f) (snd (set_fit_result F p err cov)) (snd (set_fit_result F' p' err' cov')).
Proof. intros k a f m obs obs' prior prior'. intros. apply (result_units_of k a f) with m obs obs' prior prior'; assumption. Qed.
Print Assumptions C135_result.

Theorem C135_unit_too_large_refuted : exists a F F' l, 0 < a /\ fit_of (FName Mgauss) [[bare]] None F /\ fit_of (FName Mgauss) [[new_bare 1 a 1]] None F' /\
  Forall2 (Forall2 (obs_units 1 a 1)) [[bare]] [[new_bare 1 a 1]] /\ pars_units 1 a 1 (FName Mgauss) gpars (new_pars 1 a 1) /\
  snd (calc_lnprob F gpars) = Ok l /\ l <> ln_low /\ snd (calc_lnprob F' (new_pars 1 a 1)) = Ok ln_low.
Proof. exact too_large. Qed.
Print Assumptions C135_unit_too_large_refuted.

(** a gaussian and its psf: brightness times 2, lengths times 3, mirrored, and a psf mixture of another flux *)
Example C135_hypotheses_hold : exists F F' ms ms', fit_of (FName Mgauss) [[with_psf]] None F /\ fit_of (FName Mgauss) [[new_obs 2 3 (-1) 5]] None F' /\
  Forall2 (Forall2 (obs_units 2 3 (-1))) [[with_psf]] [[new_obs 2 3 (-1) 5]] /\ prior_units 2 3 (-1) (FName Mgauss) None None /\
  pars_units 2 3 (-1) (FName Mgauss) gpars (new_pars 2 3 (-1)) /\ length gpars = n_pars (FName Mgauss) [[with_psf]] /\
  uniform_psf [[with_psf]] /\ uniform_psf [[new_obs 2 3 (-1) 5]] /\ in_range F gpars ms /\ in_range F' (new_pars 2 3 (-1)) ms'.
Proof. exact units_hold. Qed.
