(** C152: the log likelihood as a function of the flux.

    Full statement: for a mixture that can be evaluated, or a fit at any parameters, with all fluxes times [c]
    (C152_bands: the flux of each band times its own factor, and the sum over the bands):
    the log likelihood (for a fit, before that of the prior is added) is the parabola l0 + c*s2n_numer - c^2*s2n_denom/2, where the sums are those before
    the change and l0 is the log likelihood of a model without flux; s2n_numer is times c and s2n_denom times c^2;
    the log likelihood is largest for c = s2n_numer/s2n_denom and nowhere else; the signal to noise
    s2n_numer/sqrt(s2n_denom) does not depend on a positive c, and its square is at most the chi squared of the data
    alone.  Exceptions and parameters out of range do not depend on [c]. *)
From Verif Require Import Base XReal Moments_Spec Pixels_Model Jacobian_Model GMix_Model GMix_Spec GMixObj_Model Render_Model Render_Spec Priors_Model Joint_Model Fit_Model Fit_Spec FitCex_Proofs FitUnits_Spec
  FluxLik_Spec FluxLik_Proofs FluxFit_Proofs FluxBands_Proofs FluxLikCex_Proofs.
Local Open Scope R_scope.

Theorem C152_set_flux : forall gm px gm1 l num den n F gm2, good_gmix gm -> get_loglike gm px = (gm1, Ok (l, num, den, n)) -> gm_set_flux gm F = Some gm2 ->
  let a := F / flux_of gm in
  l = parabola (empty_loglike px) num den 1 /\ 0 <= den /\
  (exists gm3, get_loglike gm2 px = (gm3, Ok (parabola (empty_loglike px) num den a, a * num, a ^ 2 * den, n))) /\
  snd (get_model_s2n gm px) = Ok (sqrt den) /\ snd (get_model_s2n gm2 px) = Ok (Rabs a * sqrt den).
Proof. exact loglike_flux. Qed.
Print Assumptions C152_set_flux.

(** the residuals of fill_fdiff, linear in the flux *)
Theorem C152_residuals : forall gm px fd start, good_gmix gm -> (start + length px <= length fd)%nat -> exists model : pixel R -> R,
  let filled c := firstn start fd ++ map (fun p => (c * model p - px_val p) * px_ierr p) px ++ skipn (start + length px) fd in
  snd (fill_fdiff gm px fd start) = Ok (filled 1) /\
  forall F gm2, gm_set_flux gm F = Some gm2 -> snd (fill_fdiff gm2 px fd start) = Ok (filled (F / flux_of gm)).
Proof. exact fdiff_flux. Qed.
Print Assumptions C152_residuals.

Theorem C152_best_flux : forall gm px gm1 l num den n, good_gmix gm -> flux_of gm <> 0 -> get_loglike gm px = (gm1, Ok (l, num, den, n)) -> 0 < den ->
  let best := flux_of gm * num / den in
  exists gmb gmc lb nb, gm_set_flux gm best = Some gmb /\ get_loglike gmb px = (gmc, Ok (lb, nb, nb, n)) /\ lb = empty_loglike px + num ^ 2 / den / 2 /\ lb <= 0 /\
    (num / sqrt den) ^ 2 <= - 2 * empty_loglike px /\
    forall F gm2, gm_set_flux gm F = Some gm2 -> exists gm3 l2 n2 d2, get_loglike gm2 px = (gm3, Ok (l2, n2, d2, n)) /\ (F <> best -> l2 < lb) /\
      (0 < F / flux_of gm -> n2 / sqrt d2 = num / sqrt den).
Proof. exact loglike_best. Qed.
Print Assumptions C152_best_flux.
Example C152_hypotheses_hold : good_gmix ex_mix /\ flux_of ex_mix <> 0 /\ exists gm1 l num den n, get_loglike ex_mix ex_px = (gm1, Ok (l, num, den, n)) /\ 0 < den.
Proof. exact (conj (proj1 ex_mix_good) (conj (proj2 ex_mix_good) ex_loglike)). Qed.

(** a fit: [pars_units c 1 1] multiplies the fluxes of all bands (for coellip, of all gaussians) by [c] and keeps the
    other parameters *)
Theorem C152_fit : forall m obs prior F p, fit_of m obs prior F -> length p = n_pars m obs ->
  (exists r, (r = Ok ln_low \/ exists e, r = Raise e) /\ forall c p' lp, pars_units c 1 1 m p p' -> prior_value prior p' = Ok lp -> snd (calc_lnprob F p') = r) \/
  exists l0 num den k, 0 <= den /\ forall c p' lp, pars_units c 1 1 m p p' -> prior_value prior p' = Ok lp ->
    snd (calc_lnprob F p') = Ok (mkLn (xadd (Fin (parabola l0 num den c)) lp) (c * num) (c ^ 2 * den) k).
Proof. exact fit_flux. Qed.
Print Assumptions C152_fit.
(** the second case *)
Example C152_fit_hypotheses_hold : fit_of (FName Mgauss) [[bare]] None (F1 None) /\ length gpars = n_pars (FName Mgauss) [[bare]] /\ pars_units 3 1 1 (FName Mgauss) gpars bright_pars /\
  exists r, snd (calc_lnprob (F1 None) gpars) = Ok r /\ r <> ln_low.
Proof. exact ex_fit. Qed.

(** several bands, each flux with its own factor: the log likelihood is a sum of one parabola for each band *)
Theorem C152_bands : forall m obs prior F p, fit_of (FName m) obs prior F -> length p = n_pars (FName m) obs ->
  (exists r, (r = Ok ln_low \/ exists e, r = Raise e) /\ forall cs p' lp, length cs = length obs -> band_fluxes (flux_start m) cs p p' -> prior_value prior p' = Ok lp -> snd (calc_lnprob F p') = r) \/
  exists ts k, length ts = length obs /\ Forall (fun t => 0 <= snd t) ts /\ forall cs p' lp, length cs = length obs -> band_fluxes (flux_start m) cs p p' -> prior_value prior p' = Ok lp ->
    snd (calc_lnprob F p') = Ok (mkLn (xadd (Fin (sum_bands (fun c t => let '(l0, n, d) := t in parabola l0 n d c) cs ts)) lp)
      (sum_bands (fun c t => let '(_, n, _) := t in c * n) cs ts) (sum_bands (fun c t => let '(_, _, d) := t in c ^ 2 * d) cs ts) k).
Proof. exact band_flux. Qed.
Print Assumptions C152_bands.
Example C152_bands_hypotheses_hold : fit_of (FName Mgauss) [[bare]] None (F1 None) /\ length gpars = n_pars (FName Mgauss) [[bare]] /\ length [3] = length [[bare]] /\ band_fluxes (flux_start Mgauss) [3] gpars bright_pars /\
  exists r, snd (calc_lnprob (F1 None) gpars) = Ok r /\ r <> ln_low.
Proof. exact ex_bands. Qed.
