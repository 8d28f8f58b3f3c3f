(** C137: the order of the bands, and of the observations of a band, does not matter in a model fit.

    Full statement: let two fits be of the same observations, the bands of the second in another order, and the
    observations of each band in another order, and let the fluxes of the second parameters be in the order of its
    bands ([reordered]).  Then both fits can be made, or neither; calc_lnprob returns the same, with its
    sums and number of pixels; and calc_fdiff returns the same residuals in another order.  Holds when all the
    observations have a psf mixture or none has, and no band is empty: the first observation of the first band decides
    for all whether psfs are used (C137_first_decides_refuted). *)
From Coq Require Import Permutation.
From Verif Require Import Base XReal Pixels_Model GMix_Model GMixObj_Model Priors_Model Joint_Model Fit_Model Fit_Spec FitCex_Proofs Reorder_Spec Reorder_Proofs ReorderCex_Proofs.
Local Open Scope R_scope.

Theorem C137_made : forall m obs obs' p p' prior prior' F, m <> FName Mbdc -> reordered m obs p obs' p' -> uniform_psf obs ->
  Forall (fun os => os <> []) obs -> (prior = None <-> prior' = None) ->
  fit_init m obs p prior = Ok F -> exists F', fit_init m obs' p' prior' = Ok F' /\ f_size F' = f_size F.
Proof. exact made_reordered. Qed.
Print Assumptions C137_made.

(** parameters in range, prior included: they are in range in both orders *)
Theorem C137_in_range : forall m obs obs' p p' prior prior' F F' k ms L, m <> FName Mbdc -> m <> FCoellip 0 -> reordered m obs p obs' p' ->
  fit_of m obs prior F -> fit_of m obs' prior' F' -> uniform_psf obs -> same_prior prior prior' p p' k -> (k <= f_n_prior F)%nat ->
  in_range F p ms -> prior_value prior p = Ok L ->
  (exists ms', in_range F' p' ms') /\ snd (calc_lnprob F' p') = snd (calc_lnprob F p) /\
  exists pr pr' d d', length pr = k /\ length pr' = k /\ encode pr L /\ encode pr' L /\ Permutation d d' /\
    snd (calc_fdiff F p) = Ok (pr ++ map Fin d ++ repeat (Fin 0) (f_n_prior F - k)) /\ snd (calc_fdiff F' p') = Ok (pr' ++ map Fin d' ++ repeat (Fin 0) (f_n_prior F - k)).
Proof.
  intros m obs obs' p p' prior prior' F F' k ms L Hb Hm HR Ft Ft' HU HP Hk I V.
  exact (in_range_reordered m obs obs' p p' Hb HR prior prior' F F' k Hm Ft Ft' HU HP Hk ms L I V).
Qed.
Print Assumptions C137_in_range.
(** parameters out of range are out of range in both *)
Theorem C137_out_of_range : forall m obs obs' p p' prior prior' F F' k, m <> FName Mbdc -> m <> FCoellip 0 -> reordered m obs p obs' p' ->
  fit_of m obs prior F -> fit_of m obs' prior' F' -> uniform_psf obs -> same_prior prior prior' p p' k -> (k <= f_n_prior F)%nat ->
  (out_of_range F p \/ prior_value prior p = Raise GMixRangeError) ->
  (forall e, mixtures F p = Raise e -> e = GMixRangeError) -> (forall e, mixtures F' p' = Raise e -> e = GMixRangeError) -> (forall e, prior_value prior p = Raise e -> e = GMixRangeError) ->
  snd (calc_lnprob F p) = Ok ln_low /\ snd (calc_lnprob F' p') = Ok ln_low /\
  snd (calc_fdiff F p) = Ok (repeat LOWVAL (f_size F)) /\ snd (calc_fdiff F' p') = Ok (repeat LOWVAL (f_size F)).
Proof.
  intros m obs obs' p p' prior prior' F F' k Hb Hm HR Ft Ft' HU HP Hk.
  exact (out_of_range_reordered m obs obs' p p' Hb HR prior prior' F F' k Hm Ft Ft' HU HP Hk).
Qed.
Print Assumptions C137_out_of_range.

(** one of two observations has a psf: the fit is made in one order, and raises in the other *)
Theorem C137_first_decides_refuted : exists F, reordered (FName Mgauss) [[bare; with_psf]] gpars [[with_psf; bare]] gpars /\
  fit_init (FName Mgauss) [[bare; with_psf]] gpars None = Ok F /\ fit_init (FName Mgauss) [[with_psf; bare]] gpars None = Raise AttributeError.
Proof. exact order_matters. Qed.
Print Assumptions C137_first_decides_refuted.

(** two bands with fluxes 1 and 2 *)
Example C137_hypotheses_hold : exists F F' ms, reordered (FName Mgauss) [[obsA]; [obsB]] (two 1 2) [[obsB]; [obsA]] (two 2 1) /\
  fit_init (FName Mgauss) [[obsA]; [obsB]] (two 1 2) None = Ok F /\ fit_of (FName Mgauss) [[obsA]; [obsB]] None F /\ fit_of (FName Mgauss) [[obsB]; [obsA]] None F' /\ uniform_psf [[obsA]; [obsB]] /\
  same_prior None None (two 1 2) (two 2 1) 0 /\ in_range F (two 1 2) ms /\ obsA <> obsB.
Proof. exact reorder_hold. Qed.
