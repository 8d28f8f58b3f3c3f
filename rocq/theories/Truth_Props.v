(** C141: the parameters that an image without noise was made from fit it.

    Full statement: let the data be images of the mixtures at some parameters, drawn by GMix.make_image with any weight
    maps.  Then the residuals at these parameters are zero, the log likelihood is zero, and no parameters do better.
    This holds for images drawn with fast_exp=True.  Those drawn without it, as make_image does by default and as
    FitModel.make_image always does, leave residuals up to the error of the fast exponential, and other parameters
    can be better (C141_truth_is_best_refuted). *)
From Verif Require Import Base XReal Jacobian_Model Pixels_Model GMix_Model GMixObj_Model Render_Model Render_Spec Priors_Model Joint_Model Fit_Model Fit_Spec Fit_Proofs Fit2_Proofs
  Truth_Spec Truth_Proofs TruthCex_Proofs.
Local Open Scope R_scope.

(** drawn with the fast exponential: only the prior is left, and s2n_numer = s2n_denom *)
Theorem C141_fast_images : forall m obs prior F k pars ms L, fit_of m obs prior F -> m <> FCoellip 0 -> prior_ok prior k -> (k <= f_n_prior F)%nat -> uniform_psf obs ->
  length pars = n_pars m obs -> in_range F pars ms -> prior_value prior pars = Ok L -> noiseless true obs ms ->
  exists pr r, length pr = k /\ encode pr L /\ snd (calc_fdiff F pars) = Ok (pr ++ repeat (Fin 0) (f_size F - k)) /\
    snd (calc_lnprob F pars) = Ok r /\ l_lnprob r = xadd (Fin 0) L /\ l_numer r = l_denom r.
Proof. intros m obs prior F k pars ms L Ft Hm Hp Hk Hu. exact (truth_fast m obs prior F k Ft Hm Hp Hk Hu pars ms L). Qed.
Print Assumptions C141_fast_images.
(** drawn without: every residual is within the error of the fast exponential *)
Theorem C141_exact_images : forall m obs prior F k pars ms L, fit_of m obs prior F -> m <> FCoellip 0 -> prior_ok prior k -> (k <= f_n_prior F)%nat -> uniform_psf obs ->
  length pars = n_pars m obs -> in_range F pars ms -> prior_value prior pars = Ok L -> noiseless false obs ms ->
  exists pr rs x r, length pr = k /\ encode pr L /\ snd (calc_fdiff F pars) = Ok (pr ++ map Fin rs ++ repeat (Fin 0) (f_n_prior F - k)) /\
    Forall2 (fun r s => Rabs r <= s) rs (all_slack ms (pixels_of obs)) /\
    snd (calc_lnprob F pars) = Ok r /\ l_lnprob r = xadd (Fin x) L /\ - rsum (map (fun s => s ^ 2) (all_slack ms (pixels_of obs))) / 2 <= x.
Proof. intros m obs prior F k pars ms L Ft Hm Hp Hk Hu. exact (truth_exact m obs prior F k Ft Hm Hp Hk Hu pars ms L). Qed.
Print Assumptions C141_exact_images.
(** whatever the data, no parameters have more than the prior gives them *)
Theorem C141_bound : forall m obs prior F k pars r L, fit_of m obs prior F -> m <> FCoellip 0 -> prior_ok prior k -> (k <= f_n_prior F)%nat ->
  prior_value prior pars = Ok L -> snd (calc_lnprob F pars) = Ok r -> l_lnprob r = NInf \/ exists x, x <= 0 /\ l_lnprob r = xadd (Fin x) L.
Proof. intros m obs prior F k pars r L Ft Hm Hp Hk. exact (below_prior m obs prior F k Ft Hm Hp Hk pars r L). Qed.
Print Assumptions C141_bound.
(** so that, without a prior, the truth is a best fit to images drawn with the fast exponential, and any other best fit
    leaves no residual either *)
Theorem C141_truth_is_best : forall m obs F pars ms, fit_of m obs None F -> m <> FCoellip 0 -> uniform_psf obs -> length pars = n_pars m obs ->
  in_range F pars ms -> noiseless true obs ms ->
  snd (calc_fdiff F pars) = Ok (repeat (Fin 0) (f_size F)) /\ (exists r, snd (calc_lnprob F pars) = Ok r /\ l_lnprob r = Fin 0) /\
  forall other r, snd (calc_lnprob F other) = Ok r -> at_most (l_lnprob r) 0 /\
    (forall ms', length other = n_pars m obs -> in_range F other ms' -> l_lnprob r = Fin 0 -> snd (calc_fdiff F other) = Ok (repeat (Fin 0) (f_size F))).
Proof.
  intros m obs F pars ms Ft Hm Hu Lp Hr Hn. assert (Np : (0 <= f_n_prior F)%nat) by lia.
  destruct (truth_fast m obs None F 0 Ft Hm eq_refl Np Hu pars ms (Fin 0) Lp Hr eq_refl Hn) as (pr & r & A & _ & B & C & D & _). destruct pr; [|discriminate].
  cbn [app] in B. rewrite Nat.sub_0_r in B. split; [exact B|]. split; [exists r; split; [exact C|rewrite D; cbn; f_equal; lra]|].
  intros other r' E. split.
  - destruct (below_prior m obs None F 0 Ft Hm eq_refl Np other r' (Fin 0) eq_refl E) as [K|(x & K & ->)]; [left; exact K|]. right. eexists. split; [reflexivity|]. lra.
  - intros ms' L' R' Z. exact (perfect m obs F other ms' r' Ft Hm Hu L' R' E Z).
Qed.
Print Assumptions C141_truth_is_best.
(** the violation: an image of a round gaussian drawn by make_image, with pixels at the centre and five standard
    deviations away, is fit better by a larger and brighter one *)
Theorem C141_truth_is_best_refuted : exists m obs F pars ms other r r' x x', fit_of m obs None F /\ m <> FCoellip 0 /\ uniform_psf obs /\ length pars = n_pars m obs /\
  in_range F pars ms /\ noiseless false obs ms /\ length other = n_pars m obs /\
  snd (calc_lnprob F pars) = Ok r /\ l_lnprob r = Fin x /\ snd (calc_lnprob F other) = Ok r' /\ l_lnprob r' = Fin x' /\ x < x'.
Proof.
  destruct not_the_best as (F & ms & p & r & r' & x & x' & A & B & C & D & E & G & H & I & J & K).
  exists (FName Mgauss), [[far_obs v0 v5]], F, (gp 1 1), ms, p, r, r', x, x'. repeat (split; [first [assumption|discriminate|reflexivity]|]). assumption.
Qed.
Print Assumptions C141_truth_is_best_refuted.
Example C141_hypotheses_hold : exists a b F ms, fit_of (FName Mgauss) [[far_obs a b]] None F /\ uniform_psf [[far_obs a b]] /\ in_range F (gp 1 1) ms /\ noiseless true [[far_obs a b]] ms /\ 0 < a.
Proof.
  destruct fast_drawn as (a & b & D & P). destruct (far_fit a b) as (F & Fo). exists a, b, F, [gob 1 1]. split; [exact Fo|]. split; [apply far_uniform|].
  split; [apply (far_range a b F 1 1 ltac:(lra) Fo)|]. split; [constructor; [exact D|constructor]|exact P].
Qed.
