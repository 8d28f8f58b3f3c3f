(** C125: what a fit with Fitter or CoellipFitter returns. *)
From Coq Require String.
From Verif Require Import Base XReal Flags_Model Pixels_Model GMix_Model GMixObj_Model Priors_Model Joint_Model Fit_Model Fit_Spec
  LM_Model LM_Spec LMCex_Proofs FitCex_Proofs PriorsCex_Proofs Fitter_Model Fitter_Spec Fitter_Proofs FitterCex_Proofs.
Import String.StringSyntax.
Local Open Scope R_scope.
Local Open Scope string_scope.
Local Open Scope list_scope.

(** A fit with flags 0, whatever the minimizer did and wherever it evaluated the model: the
    parameters are those of a model that can be evaluated; dof, chi2per, lnprob and s2n are
    those of the residuals of this model and of the prior at these parameters; the covariance
    is that of the minimizer times the reduced chi squared of the used residuals, the errors
    are the roots of its diagonal; the parameters respect the bounds of the prior. *)
Theorem C125_good_fit : forall lmdif leastsq inv eig message odd m prior maxfev hist obs guess out,
  known_status leastsq -> eig_complete eig -> minimizer_shapes lmdif leastsq inv ->
  m <> FCoellip 0 -> uniform_psf obs -> concat (pixels_of obs) <> [] ->
  prior_ok prior (terms_of m prior (length obs)) ->
  fitter_go lmdif leastsq inv eig message odd m prior maxfev hist obs guess = Some (OkX out) -> dget (ou_dict out) "flags" = Some (LInt 0) ->
  exists pars r ms models L cov0 cov,
    dget (ou_dict out) "pars" = Some (LVec (map Some pars)) /\ length pars = n_pars m obs /\
    ou_res out = Some r /\ fit_of m obs prior (ou_fit out) /\
    in_range (ou_fit out) pars ms /\ Forall2 model_of ms models /\ prior_value prior pars = Ok L /\
    let resid := all_resid models (pixels_of obs) in
    let dof := (Z.of_nat (length resid) - Z.of_nat (n_pars m obs))%Z in
    length resid = length (concat (pixels_of obs)) /\
    r_dof r = dof /\ dof <> 0%Z /\
    l_lnprob (r_ln r) = xadd (Fin (- chi2 resid / 2)) L /\
    xmul (r_chi2per r) (Fin (IZR dof)) = xmul (Fin (-2)) (l_lnprob (r_ln r)) /\
    nth_error pars 4 = Some (r_T r) /\ nth_error (r_g r) 0 = nth_error pars 2 /\ nth_error (r_g r) 1 = nth_error pars 3 /\
    (let denom := sum_over (fun m p => m p ^ 2 * px_ierr p ^ 2) models (pixels_of obs) in
     0 < denom -> r_s2n r = sum_over (fun m p => px_val p * m p * px_ierr p ^ 2) models (pixels_of obs) / sqrt denom) /\
    dget (ou_dict out) "pars_cov0" = Some (LMat (Some cov0)) /\ dget (ou_dict out) "pars_cov" = Some (LMat (Some cov)) /\
    (forall i j, (i < n_pars m obs)%nat -> (j < n_pars m obs)%nat ->
       exists c, at2 cov0 i j = Some c /\ at2 cov i j = Some (c * (chi2 (used m prior resid) / IZR dof))) /\
    (exists errs, dget (ou_dict out) "pars_err" = Some (LVec (map Some errs)) /\ length errs = n_pars m obs /\
       forall i v, (i < n_pars m obs)%nat -> at2 cov i i = Some v -> 0 <= v /\ nth_error errs i = Some (sqrt v)) /\
    (forall bounds, match prior with Some p => jp_bounds p | None => None end = Some bounds ->
       Forall consistent (map bound_of bounds) -> inside (map bound_of bounds) (map Some pars)).
Proof. exact good_fit. Qed.
Print Assumptions C125_good_fit.

(** without a prior, and for bd, bdf and coellip, all residuals are used *)
Theorem C125_all_pixels_used : forall m prior resid,
  prior = None \/ m = FName Mbd \/ m = FName Mbdf \/ (exists n, m = FCoellip n) -> used m prior resid = resid.
Proof. intros m prior resid [->|[->|[->|[n ->]]]]; [|destruct prior..]; reflexivity. Qed.
Print Assumptions C125_all_pixels_used.

(** for the other models the prior costs the first pixel: the covariance is not scaled by
    the reduced chi squared of the residuals *)
Theorem C125_covariance_refuted : exists lmdif leastsq inv eig message odd m prior maxfev hist obs guess out pars ms models cov0 cov,
  known_status leastsq /\ eig_complete eig /\ minimizer_shapes lmdif leastsq inv /\ uniform_psf obs /\
  prior_ok (Some prior) (terms_of m (Some prior) (length obs)) /\
  fitter_go lmdif leastsq inv eig message odd m (Some prior) maxfev hist obs guess = Some (OkX out) /\
  dget (ou_dict out) "flags" = Some (LInt 0) /\ dget (ou_dict out) "pars" = Some (LVec (map Some pars)) /\
  in_range (ou_fit out) pars ms /\ Forall2 model_of ms models /\
  dget (ou_dict out) "pars_cov0" = Some (LMat (Some cov0)) /\ dget (ou_dict out) "pars_cov" = Some (LMat (Some cov)) /\
  let resid := all_resid models (pixels_of obs) in
  let dof := (Z.of_nat (length resid) - Z.of_nat (n_pars m obs))%Z in
  at2 cov0 0 0 = Some 1 /\ at2 cov 0 0 = Some (chi2 (tl resid) / IZR dof) /\ at2 cov 0 0 <> Some (chi2 resid / IZR dof).
Proof. exact covariance_wrong. Qed.
Print Assumptions C125_covariance_refuted.

(** the entries of a fit are there exactly when flags is 0; a guess of the wrong length
    never gives a result *)
Theorem C125_failed_fit : forall lmdif leastsq inv eig message odd m prior maxfev hist obs guess out,
  fitter_go lmdif leastsq inv eig message odd m prior maxfev hist obs guess = Some (OkX out) ->
  (dget (ou_dict out) "flags" = Some (LInt 0) <-> ou_res out <> None) /\ length guess = n_pars m obs.
Proof. exact failed_fit. Qed.
Print Assumptions C125_failed_fit.

(** CoellipFitter cannot use a prior that has bounds: every fit raises ValueError *)
Theorem C125_coellip_bounds_refuted : forall lmdif leastsq inv eig message odd n cen g T Fl P,
  (1 <= n)%nat -> coellip_init n cen g T (FOne Fl) = Ok P -> p1_bounds T <> None \/ p1_bounds Fl <> None ->
  forall maxfev hist obs guess F, fit_init (FCoellip n) obs guess (Some (of_coellip P (ss_bounds (co_base P)))) = Ok F ->
    fitter_go lmdif leastsq inv eig message odd (FCoellip n) (Some (of_coellip P (ss_bounds (co_base P)))) maxfev hist obs guess = Some (RaiseX ValueError false).
Proof. exact coellip_fails. Qed.
Print Assumptions C125_coellip_bounds_refuted.

Example C125_hypotheses_hold : forall odd,
  known_status w_leastsq /\ eig_complete w_eig /\ minimizer_shapes ex_lmdif w_leastsq w_inv /\
  uniform_psf [[obs7]] /\ concat (pixels_of [[obs7]]) <> [] /\
  prior_ok (Some fprior) (terms_of (FName Mgauss) (Some fprior) 1) /\ prior_ok None (terms_of (FName Mgauss) None 1) /\
  (exists out, fitter_go ex_lmdif w_leastsq w_inv w_eig ex_msg odd (FName Mgauss) (Some fprior) 0 [] [[obs7]] gpars = Some (OkX out) /\
     dget (ou_dict out) "flags" = Some (LInt 0)) /\
  (exists out, fitter_go ex_lmdif w_leastsq w_inv w_eig ex_msg odd (FName Mgauss) None 0 [] [[obs7]] gpars = Some (OkX out) /\
     dget (ou_dict out) "flags" = Some (LInt 0)).
Proof.
  intros odd. split; [exact w_known|]. split; [exact w_eig_complete|]. split; [exact w_shapes|]. split; [exact uniform7|]. split; [discriminate|].
  split; [exact fprior_consistent|]. split; [reflexivity|]. split.
  - destruct (fprior_run odd) as (out & A & B & _). exists out. auto.
  - destruct (noprior_run odd) as (out & A & B & _). exists out. auto.
Qed.
Example C125_coellip_hypotheses_hold :
  coellip_init 2 the_cen (gba_obj the_ba) (normal_obj the_normal) (FOne (normal_obj the_normal)) = Ok the_coellip /\
  p1_bounds (normal_obj the_normal) <> None /\
  exists F, fit_init (FCoellip 2) [[obs7]] cpars (Some (of_coellip the_coellip (ss_bounds (co_base the_coellip)))) = Ok F.
Proof. split; [exact the_coellip_made|]. split; [discriminate|exact coellip_init7]. Qed.
