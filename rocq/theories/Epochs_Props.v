(** C153: a fit to several bands and epochs is the sum of fits to its observations. *)
From Verif Require Import Base XReal GMix_Model GMixObj_Model Priors_Model Joint_Model Fit_Model Fit_Spec FitCex_Proofs Epochs_Spec Epochs_Proofs Epochs2_Proofs EpochsCex_Proofs.
Local Open Scope R_scope.

(** [epochs] are the observations with the parameters of their bands, [Gs] fits to each of them alone, without a prior; [fit_model]
    excludes only bdc, which has no fill function *)
Theorem C153_sum_of_epochs : forall m, fit_model m -> forall obs prior F p lp Gs,
  fit_of m obs prior F -> prior_value prior p = Ok lp -> uniform_psf obs -> length p = n_pars m obs ->
  Forall2 (fun x G => fit_of m [[snd x]] None G) (epochs m p 0 obs) Gs ->
  (forall r, snd (calc_lnprob F p) = Ok r -> r <> ln_low ->
     exists rs, Forall2 (fun xG r => snd (calc_lnprob (snd xG) (fst (fst xG))) = Ok r) (combine (epochs m p 0 obs) Gs) rs /\ sum_of lp r rs) /\
  (forall rs, Forall2 (fun xG r => snd (calc_lnprob (snd xG) (fst (fst xG))) = Ok r /\ r <> ln_low) (combine (epochs m p 0 obs) Gs) rs ->
     exists r, snd (calc_lnprob F p) = Ok r /\ sum_of lp r rs).
Proof. exact epochs_sum. Qed.
Print Assumptions C153_sum_of_epochs.
(** two bands, the first with two epochs *)
Example C153_hypotheses_hold : fit_model (FName Mgauss) /\ fit_of (FName Mgauss) ep_obs None ep_fit /\ uniform_psf ep_obs /\ length ep_pars = n_pars (FName Mgauss) ep_obs /\
  epochs (FName Mgauss) ep_pars 0 ep_obs = [(gpars, bare); (gpars, bare); (gpars, bare)] /\
  Forall2 (fun x G => fit_of (FName Mgauss) [[snd x]] None G) (epochs (FName Mgauss) ep_pars 0 ep_obs) [F1 None; F1 None; F1 None] /\
  exists r, snd (calc_lnprob ep_fit ep_pars) = Ok r /\ r <> ln_low.
Proof. exact ep_hyps. Qed.
(** with a prior *)
Example C153_prior_hypotheses_hold : fit_of (FName Mgauss) [[bare]] (Some sprior) (F1 (Some sprior)) /\ prior_value (Some sprior) gpars = Ok (Fin (- 17 / 2)) /\ uniform_psf [[bare]] /\
  length gpars = n_pars (FName Mgauss) [[bare]] /\ Forall2 (fun x G => fit_of (FName Mgauss) [[snd x]] None G) (epochs (FName Mgauss) gpars 0 [[bare]]) [F1 None].
Proof.
  split; [apply F1_of|]. split; [exact sprior_value|]. split; [exact uniform1|]. split; [reflexivity|]. constructor; [exact (F1_of None)|constructor].
Qed.

(** the residuals, one observation after the other *)
Theorem C153_residuals : forall m, fit_model m -> forall obs F p Gs,
  fit_of m obs None F -> uniform_psf obs -> length p = n_pars m obs ->
  Forall2 (fun x G => fit_of m [[snd x]] None G) (epochs m p 0 obs) Gs ->
  (forall fd, snd (calc_fdiff F p) = Ok fd -> fd <> repeat LOWVAL (f_size F) ->
     exists fds, Forall2 (fun xG fd => snd (calc_fdiff (snd xG) (fst (fst xG))) = Ok fd) (combine (epochs m p 0 obs) Gs) fds /\ fd = concat fds) /\
  (forall fds, Forall2 (fun xG fd => snd (calc_fdiff (snd xG) (fst (fst xG))) = Ok fd /\ fd <> repeat LOWVAL (f_size (snd xG))) (combine (epochs m p 0 obs) Gs) fds ->
     snd (calc_fdiff F p) = Ok (concat fds)).
Proof. exact epochs_fdiff. Qed.
Print Assumptions C153_residuals.
Example C153_residuals_hypotheses_hold : exists fd, snd (calc_fdiff ep_fit ep_pars) = Ok fd /\ fd <> repeat LOWVAL (f_size ep_fit).
Proof. exact ep_fdiff. Qed.
