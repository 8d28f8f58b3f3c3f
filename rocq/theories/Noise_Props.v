(** C148 *)
From Verif Require Import Base XReal PSFFlux_Model PSFFlux_Spec FluxRel_Spec FluxRel_Proofs Moments_Model Jacobian_Model Pixels_Model GMix_Model Render_Model WSums_Spec Flags_Model MomResult_Model GMixObj_Model GaussMom_Model GaussMom_Spec
  GaussMom_Proofs GaussMomCex_Proofs Admom_Model Admom4_Proofs PrePSF_Model PrePSFCex_Proofs EM_Model Priors_Model Joint_Model Fit_Model Fit_Spec FitCex_Proofs
  Units_Spec Noise_Spec Noise_Proofs NoisePP_Proofs NoiseFit_Proofs NoiseEM_Proofs.
Local Open Scope R_scope.

(** weights divided by [k] squared give pixels with errors times [k] *)
Theorem C148_pixels : forall k im w w' j ig, 0 < k -> nrow w = nrow im -> ncol w = ncol im -> image_times (/ k ^ 2) w w' ->
  same_outcome (noisier k) (make_pixels im w j ig) (make_pixels im w' j ig).
Proof. intros. apply pixels_noise; assumption. Qed.
Print Assumptions C148_pixels.

(** GaussMom *)
Theorem C148_gaussmom : forall k px px' fwhm higher j, 0 < k -> noisier k px px' ->
  same_outcome (gaussmom_errors_times k) (gaussmom fwhm higher (GObs px j)) (gaussmom fwhm higher (GObs px' j)).
Proof. intros. apply gaussmom_noise; assumption. Qed.
Print Assumptions C148_gaussmom.
(** ten times noisier *)
Definition tenfold (p : pixel R) : pixel R := mkPix (px_u p) (px_v p) (px_area p) (px_val p) (px_ierr p / 10).
Lemma tenfold_noisier px : noisier 10 px (map tenfold px).
Proof. unfold noisier. induction px; cbn [map]; constructor; [cbn; auto|exact IHpx]. Qed.
Example C148_hypotheses_hold : noisier 10 (px4 1 2 1) (map tenfold (px4 1 2 1)) /\ measurable (fwhm_to_T GaussMomCex_Proofs.F2) (px4 1 2 1) (nmom false) /\
  forall q, gaussmom GaussMomCex_Proofs.F2 false (GObs (px4 1 2 1) j2) = Ok q -> m_flags (q_mom q) = 0%Z.
Proof.
  split; [apply tenfold_noisier|]. split; [rewrite T2; exact good4|]. intros q E.
  apply (go_flags GaussMomCex_Proofs.F2 false j2 (px4 1 2 1)); [exact F2_big|rewrite area2; lra| |exact E|rewrite T2; exact good4].
  apply (made_pixels (im2 1 2 1) (im2 1 1 1)); [reflexivity|reflexivity|exact (made4 1 2 1)].
Qed.

(** adaptive moments: the same weight, the same iterations *)
Theorem C148_admom : forall k px px' j, 0 < k -> noisier k px px' ->
  (forall c wt, fst (am_run c (mkAo px' j) wt) = fst (am_run c (mkAo px j) wt) /\
     same_outcome (adaptive_errors_times k) (snd (am_run c (mkAo px j) wt)) (snd (am_run c (mkAo px' j) wt))) /\
  (forall c h guess, same_run (adaptive_errors_times k) (am_go c h (mkAo px j) guess) (am_go c h (mkAo px' j) guess)) /\
  (forall c h w ntry rng, same_run (fun x x' => adaptive_errors_times k (fst x) (fst x') /\ snd x' = snd x)
     (find_cen_admom c h (mkAo px j) w ntry rng) (find_cen_admom c h (mkAo px' j) w ntry rng)) /\
  (forall d d', adaptive_errors_times k d d' -> am_get_gmix d' = am_get_gmix d).
Proof.
  intros k px px' j K U. split; [intros; apply am_run_noise; assumption|]. split; [intros; apply am_go_noise; assumption|].
  split; [intros; apply find_cen_noise; assumption|]. intros d d' H. apply (get_gmix_noise k d d' H).
Qed.
Print Assumptions C148_admom.
Example C148_admom_hypotheses_hold : noisier 10 pxW (map tenfold pxW) /\
  exists d, snd (am_run (mkAc 200 5 (1/100000) (1/1000) false) (mkAo pxW jac1) [gW]) = Ok d /\ d_flags d = 0%Z /\ d_T d = Fin 10.
Proof.
  split; [apply tenfold_noisier|]. destruct (sample_ok false) as (_ & d & A & B & _ & C). exists d. auto.
Qed.

(** pre-psf moments *)
Theorem C148_prepsf : forall k f o o' no_psf, 0 < k -> ppobs_noisier k o o' ->
  match go f o no_psf, go f o' no_psf with
  | Some r, Some r' => same_outcome (errors_times 2 k) r r' | None, None => True | _, _ => False end.
Proof. intros. apply prepsf_noise; assumption. Qed.
Print Assumptions C148_prepsf.
Example C148_prepsf_hypotheses_hold : (exists f r, go f ex_o false = Some (Ok r)) /\
  ppobs_noisier 10 ex_o (mkPP (pp_im ex_o) (mkArr 2 2 (fun r c => / 10 ^ 2 * at2 ex_wt r c)) (pp_jac ex_o) (pp_psf ex_o)).
Proof. split; [exact ex_go|]. repeat split. Qed.

(** regularised shapes *)
Theorem C148_regularized : forall k, 0 < k ->
  (forall r r' fwhm, errors_times 0 k r r' -> same_outcome (errors_times 0 k) (regularize_mom_shapes r fwhm) (regularize_mom_shapes r' fwhm)) /\
  (forall f o o' no_psf fwhm, ppobs_noisier k o o' ->
     match go f o no_psf, go f o' no_psf with
     | Some r, Some r' => same_outcome (errors_times 2 k) (let* m := r in regularize_mom_shapes m fwhm) (let* m := r' in regularize_mom_shapes m fwhm)
     | None, None => True | _, _ => False end).
Proof. intros k K. split; [intros; apply regularize_full_noise; assumption|intros; apply prepsf_regularized_noise; assumption]. Qed.
Print Assumptions C148_regularized.

(** likelihood and signal to noise of a mixture *)
Theorem C148_likelihood : forall k gm px px', 0 < k -> noisier k px px' ->
  (fst (get_loglike gm px') = fst (get_loglike gm px) /\ same_outcome (loglike_noisier k) (snd (get_loglike gm px)) (snd (get_loglike gm px'))) /\
  (fst (get_model_s2n gm px') = fst (get_model_s2n gm px) /\ same_outcome (fun s s' => s' = s / k) (snd (get_model_s2n gm px)) (snd (get_model_s2n gm px'))).
Proof. intros k gm px px' K H. split; [exact (loglike_noise k K gm px px' H)|exact (model_s2n_noise k K gm px px' H)]. Qed.
Print Assumptions C148_likelihood.

(** fits: the likelihood changes and the prior does not *)
Theorem C148_fit_lnprob : forall k m obs obs' prior F F' p, 0 < k -> fit_of m obs prior F -> fit_of m obs' prior F' -> Forall2 (Forall2 (fobs_noisier k)) obs obs' ->
  same_outcome (lnprob_noisier k (prior_value prior p)) (snd (calc_lnprob F p)) (snd (calc_lnprob F' p)) /\
  (prior = None -> same_outcome (fun l l' => l_lnprob l' = times (/ k ^ 2) (l_lnprob l)) (snd (calc_lnprob F p)) (snd (calc_lnprob F' p))).
Proof.
  intros k m obs obs' prior F F' p K Ft Ft' HO. split; [exact (lnprob_noise k K m obs obs' prior F F' Ft Ft' HO p)|].
  exact (lnprob_no_prior k K m obs obs' prior F F' Ft Ft' HO p).
Qed.
Print Assumptions C148_fit_lnprob.
Theorem C148_fit_residuals : forall k m obs obs' prior F F' n p, 0 < k -> fit_of m obs prior F -> fit_of m obs' prior F' -> Forall2 (Forall2 (fobs_noisier k)) obs obs' ->
  prior_ok prior n -> (n <= f_n_prior F)%nat ->
  same_outcome (residuals_noisier n k) (snd (calc_fdiff F p)) (snd (calc_fdiff F' p)).
Proof. intros k m obs obs' prior F F' n p K Ft Ft' HO. exact (residuals_noise k K m obs obs' prior F F' Ft Ft' HO n p). Qed.
Print Assumptions C148_fit_residuals.
Theorem C148_fit_result : forall k m obs obs' prior F F' p err cov, 0 < k -> fit_of m obs prior F -> fit_of m obs' prior F' -> Forall2 (Forall2 (fobs_noisier k)) obs obs' ->
  same_outcome (fun r r' => result_noisier k r r' /\ (prior = None -> r_chi2per r' = times (/ k ^ 2) (r_chi2per r)))
    (snd (set_fit_result F p err cov)) (snd (set_fit_result F' p err cov)).
Proof. intros k m obs obs' prior F F' p err cov K Ft Ft' HO. exact (fit_result_noise k K m obs obs' prior F F' Ft Ft' HO p err cov). Qed.
Print Assumptions C148_fit_result.
Definition bare10 : fobs := mkFobs (Some (map tenfold gpix)) None 1 1 gjac.
Example C148_fit_hypotheses_hold : exists F F', fit_of (FName Mgauss) [[bare]] None F /\ fit_of (FName Mgauss) [[bare10]] None F' /\
  Forall2 (Forall2 (fobs_noisier 10)) [[bare]] [[bare10]] /\ prior_ok None 0 /\ (0 <= f_n_prior F)%nat /\
  (exists r, snd (set_fit_result F gpars [1;1;1;1;1;1] (mkArr 6 6 (fun i j => if Nat.eqb i j then 1 else 0))) = Ok r).
Proof.
  exists (F1 None). eexists. split; [apply F1_of|]. split.
  { exists gpars. eexists. split; [|constructor]. unfold fit_init, setup_fit, init_gmix_all. cbn [concat app mapM obs_pixels bare10 fo_pixels bind length fold_left combine seq fst snd].
    unfold band_pars_of. assert (E : get_band_pars Mgauss gpars 0 = Ok gpars) by reflexivity. rewrite E. cbn [bind mapM]. unfold init_one, make_model. rewrite gobj_made. cbn [bind].
    change (has_psf_gmix _) with false. cbn [bind]. rewrite copy_gobj. reflexivity. }
  split. { constructor; [|constructor]. constructor; [|constructor]. split; [apply tenfold_noisier|reflexivity]. }
  split; [reflexivity|]. split; [apply Nat.le_0_l|]. destruct a_result as (r & A & _). exists r. exact A.
Qed.

(** EM gives the same mixture *)
Theorem C148_em : forall k kd c px px' gm psf conv fill, 0 < k -> noisier k px px' ->
  same_outcome (em_same_mixture k) (em_run kd c px gm psf conv fill) (em_run kd c px' gm psf conv fill).
Proof. intros. apply em_run_noise; assumption. Qed.
Print Assumptions C148_em.

(** template fluxes: their error is estimated from the scatter of the residuals and does not change; chi squared
    per degree of freedom is divided by [k] squared *)
Theorem C148_template_flux : forall do_psf normalize_psf obs ts k, templates do_psf normalize_psf obs ts -> weights_ok obs -> stored obs -> 0 < k ->
  exists r r', psfflux_go do_psf normalize_psf obs = Some (Ok r) /\ psfflux_go do_psf normalize_psf (map (scale_data 1 (/ k ^ 2)) obs) = Some (Ok r') /\
    pr_flags r' = pr_flags r /\ pr_dof r' = pr_dof r /\ pr_flux r' = pr_flux r /\ pr_flux_err r' = pr_flux_err r /\
    exists x, pr_chi2per r = Fin x /\ pr_chi2per r' = Fin (/ k ^ 2 * x).
Proof. intros do_psf normalize_psf obs ts k A B C K. exact (weights_runs do_psf normalize_psf obs ts (/ k ^ 2) A B C (Rinv_0_lt_compat _ (pow_lt k 2 K))). Qed.
Print Assumptions C148_template_flux.
