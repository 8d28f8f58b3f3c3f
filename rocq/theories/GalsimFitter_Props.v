(** C127: what a fit with GalsimFitter, GalsimSpergelFitter or GalsimMoffatFitter returns. *)
From Coq Require String.
From Verif Require Import Base XReal Flags_Model Pixels_Model Priors_Model Joint_Model Fit_Model Fit_Spec FitCex_Proofs
  LM_Model LM_Spec LMCex_Proofs Fitter_Model Fitter_Spec FitterCex_Proofs
  Galsim_Model Galsim_Spec GalsimCex_Proofs GalsimFitter_Model GalsimFitter_Spec GalsimFitter_Proofs GalsimFitterCex_Proofs.
Import String.StringSyntax.
Local Open Scope R_scope.
Local Open Scope string_scope.
Local Open Scope list_scope.

(** A fit with flags 0, whatever the minimizer did and wherever it evaluated the model, and
    whatever the metadata held before: galsim drew the models of all observations at the
    parameters; the covariance is that of the minimizer times the chi squared of these models,
    over all points of all images, per degree of freedom; the errors are the roots of its
    diagonal; the shape and, for exp, dev and gauss, the fluxes of all bands are the entries of
    the parameters; s2n_r is that of the models without shear; the parameters respect the
    bounds of the prior. *)
Theorem C127_good_fit : forall (G II : Type) (X : gext G II) lmdif leastsq inv eig message odd h m prior maxfev hist input guess h' out,
  known_status leastsq -> eig_complete eig -> minimizer_shapes lmdif leastsq inv -> valid_input input ->
  galsim_go X lmdif leastsq inv eig message odd h m prior maxfev hist input guess = Some (OkX (h', out)) ->
  dget (go_dict out) "flags" = Some (LInt 0) ->
  let K := gf_obs (go_fit out) in
  own_metadata (go_fit out) -> prior_fills prior (gal_terms m prior K) -> (0 < points K)%nat ->
  exists pars r ds pr dr cov0 cov errs,
    observations_of X h input K /\
    dget (go_dict out) "pars" = Some (LVec (map Some pars)) /\ length pars = gal_pars m K /\ go_res out = Some r /\
    Forall2 (fun t d => own_model X m pars (fst t) (snd t) d) (with_bands K) ds /\
    prior_residuals prior pars (gal_terms m prior K) (gal_terms m prior K + 2 * points K) pr /\
    let dof := (Z.of_nat (points K) - Z.of_nat (gal_pars m K))%Z in
    dof <> 0%Z /\
    dget (go_dict out) "pars_cov0" = Some (LMat (Some cov0)) /\ dget (go_dict out) "pars_cov" = Some (LMat (Some cov)) /\
    (forall i j, (i < gal_pars m K)%nat -> (j < gal_pars m K)%nat ->
       exists c, at2 cov0 i j = Some c /\ at2 cov i j = Some (c * (gal_chi2 K ds / IZR dof))) /\
    dget (go_dict out) "pars_err" = Some (LVec (map Some errs)) /\ length errs = gal_pars m K /\
    (forall i v, (i < gal_pars m K)%nat -> at2 cov i i = Some v -> 0 <= v /\ nth_error errs i = Some (sqrt v)) /\
    gr_g r = [par pars 2; par pars 3] /\ gr_g_err r = [par errs 2; par errs 3] /\
    Forall2 (fun t d => round_model X m pars (fst t) (snd t) d) (with_bands K) dr /\ gr_s2n_r r = sqrt (Rmax 0 (gal_power K dr)) /\
    (is_simple m -> forall b, (b < length K)%nat ->
       result_flux (gr_flux r) b = Some (par pars (5 + b)) /\ result_flux_err (gr_flux r) b = Some (Fin (par errs (5 + b)))) /\
    (forall bounds, match prior with Some p => jp_bounds p | None => None end = Some bounds ->
       Forall consistent (map bound_of bounds) -> inside (map bound_of bounds) (map Some pars)).
Proof. intros. rewrite <- terms_count in *. eapply good_gfit; eassumption. Qed.
Print Assumptions C127_good_fit.

(** the fit of a Spergel or Moffat profile does not report the flux: a fit that is good at
    index 1/2 and flux 3 reports the flux 1/2 *)
Theorem C127_flux_refuted : exists (X : gext R R) lmdif leastsq inv eig message odd h input guess h' out pars r,
  known_status leastsq /\ eig_complete eig /\ minimizer_shapes lmdif leastsq inv /\ valid_input input /\
  galsim_go X lmdif leastsq inv eig message odd h GSpergel None 0 [] input guess = Some (OkX (h', out)) /\
  dget (go_dict out) "flags" = Some (LInt 0) /\ own_metadata (go_fit out) /\ length (gf_obs (go_fit out)) = 1%nat /\
  dget (go_dict out) "pars" = Some (LVec (map Some pars)) /\ go_res out = Some r /\
  flux_par GSpergel pars 0 = 3 /\ result_flux (gr_flux r) 0 = Some (1 / 2).
Proof.
  destruct (sp_row_run (fun _ => RaiseX ValueError false) no_meta) as (h' & out & A & B & C & D & r & E & F).
  exists toy, ex_lmdif, w_leastsq, w_inv, w_eig, ex_msg, (fun _ => RaiseX ValueError false), no_meta, (InK [[row 8]]), sp_pars, h', out, sp_pars, r.
  split; [exact w_known|]. split; [exact w_eig_complete|]. split; [exact w_shapes|]. split; [repeat constructor; apply row_valid|].
  split; [exact A|]. split; [exact B|]. split; [unfold own_metadata; rewrite D; repeat constructor; intros []|]. split; [rewrite D; reflexivity|].
  split; [exact C|]. split; [exact E|]. split; [reflexivity|exact F].
Qed.
Print Assumptions C127_flux_refuted.

(** the entries of a fit are there exactly when flags is 0 *)
Theorem C127_failed_fit : forall (G II : Type) (X : gext G II) lmdif leastsq inv eig message odd h m prior maxfev hist input guess h' out,
  galsim_go X lmdif leastsq inv eig message odd h m prior maxfev hist input guess = Some (OkX (h', out)) ->
  (dget (go_dict out) "flags" = Some (LInt 0) <-> go_res out <> None).
Proof. intros G II. exact failed_gfit. Qed.
Print Assumptions C127_failed_fit.

(** the function that is minimized is one of the parameters: residuals, or the error, do not
    depend on earlier evaluations, on other fits of the same observations, or on other uses of
    their metadata *)
Theorem C127_no_memory : forall (G II : Type) (X : gext G II) h00 h0 m input guess prior F0 pars h F,
  gfit_init X h00 m input guess prior = (h0, Ok F0) -> valid_input input -> own_metadata F0 ->
  prior_fills prior (gal_terms m prior (gf_obs F0)) -> length pars = gal_pars m (gf_obs F0) ->
  history X h0 F0 input h F -> snd (Galsim_Model.calc_fdiff X h F pars) = snd (Galsim_Model.calc_fdiff X h0 F0 pars).
Proof. exact @no_memory_spec. Qed.
Print Assumptions C127_no_memory.

Example C127_hypotheses_hold : forall odd,
  known_status w_leastsq /\ eig_complete w_eig /\ minimizer_shapes ex_lmdif w_leastsq w_inv /\ valid_input (InK [[row 7]]) /\
  prior_fills (Some fprior) (gal_terms GExp (Some fprior) [[row 7]]) /\ (0 < points [[row 7]])%nat /\
  (exists h' out, galsim_go toy ex_lmdif w_leastsq w_inv w_eig ex_msg odd no_meta GExp (Some fprior) 0 [] (InK [[row 7]]) gpars = Some (OkX (h', out)) /\
     dget (go_dict out) "flags" = Some (LInt 0) /\ gf_obs (go_fit out) = [[row 7]] /\ own_metadata (go_fit out)) /\
  (exists h' out, galsim_go toy ex_lmdif w_leastsq w_inv w_eig ex_msg odd no_meta GExp None 0 [] (InK [[row 7]]) gpars = Some (OkX (h', out)) /\
     dget (go_dict out) "flags" = Some (LInt 0) /\ gf_obs (go_fit out) = [[row 7]] /\ own_metadata (go_fit out)).
Proof.
  intros odd. split; [exact w_known|]. split; [exact w_eig_complete|]. split; [exact w_shapes|]. split; [repeat constructor; apply row_valid|].
  split; [exact (consistent_fills _ 5 fprior_consistent)|]. split; [cbn; lia|]. split.
  - destruct (row_run_prior odd no_meta) as (h' & out & A & B & C). exists h', out. split; [exact A|]. split; [exact B|]. split; [exact C|].
    unfold own_metadata. rewrite C. repeat constructor. intros [].
  - destruct (row_run odd no_meta) as (h' & out & A & B & C). exists h', out. split; [exact A|]. split; [exact B|]. split; [exact C|].
    unfold own_metadata. rewrite C. repeat constructor. intros [].
Qed.
Example C127_no_memory_hypotheses_hold : exists h0 F0, gfit_init toy no_meta GExp (InK [[row 7]]) gpars (Some fprior) = (h0, Ok F0) /\
  valid_input (InK [[row 7]]) /\ own_metadata F0 /\ prior_fills (Some fprior) (gal_terms GExp (Some fprior) (gf_obs F0)) /\ length gpars = gal_pars GExp (gf_obs F0).
Proof.
  eexists; eexists. split; [exact (row_init no_meta (Some fprior))|]. split; [repeat constructor; apply row_valid|]. split; [apply row_own|].
  split; [exact (consistent_fills _ 5 fprior_consistent)|reflexivity].
Qed.
