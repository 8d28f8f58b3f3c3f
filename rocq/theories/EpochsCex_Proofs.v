From Verif Require Import Base XReal Pixels_Model Jacobian_Model GMix_Model GMix_Spec GMixObj_Model GMixObj_Proofs Render_Model
  FastExp_Model Priors_Model Joint_Model Fit_Model Fit_Spec Fit_Proofs Fit2_Proofs Fit3_Proofs FitCex_Proofs FitUnits_Spec FluxLik_Spec FluxLikCex_Proofs Epochs_Spec Epochs_Proofs Epochs2_Proofs.
Local Open Scope R_scope.

(** two bands, the first with two epochs *)
Definition ep_obs : list (list fobs) := [[bare; bare]; [bare]].
Definition ep_pars : list R := [0;0;0;0;4;1;1].
Definition ep_fit : fit := mkFit (FName Mgauss) ep_obs None 3 7 0 3 [gpix; gpix; gpix] None false [[(gobj, gobj); (gobj, gobj)]; [(gobj, gobj)]].
Lemma ep_made : fit_init (FName Mgauss) ep_obs ep_pars None = Ok ep_fit.
Proof.
  unfold fit_init, setup_fit, init_gmix_all, ep_obs. cbn [concat app mapM obs_pixels bare fo_pixels bind length fold_left combine seq fst snd].
  unfold band_pars_of. assert (E : get_band_pars Mgauss ep_pars 0 = Ok gpars) by reflexivity. assert (E' : get_band_pars Mgauss ep_pars 1 = Ok gpars) by reflexivity. rewrite E, E'. cbn [bind mapM]. unfold init_one, make_model. rewrite gobj_made. cbn [bind].
  change (has_psf_gmix _) with false. cbn [bind]. rewrite copy_gobj. reflexivity.
Qed.
Lemma ep_of : fit_of (FName Mgauss) ep_obs None ep_fit.
Proof. exists ep_pars, ep_fit. split; [apply ep_made|constructor]. Qed.
Lemma ep_hyps : fit_model (FName Mgauss) /\ fit_of (FName Mgauss) ep_obs None ep_fit /\ uniform_psf ep_obs /\ length ep_pars = n_pars (FName Mgauss) ep_obs /\
  epochs (FName Mgauss) ep_pars 0 ep_obs = [(gpars, bare); (gpars, bare); (gpars, bare)] /\
  Forall2 (fun x G => fit_of (FName Mgauss) [[snd x]] None G) (epochs (FName Mgauss) ep_pars 0 ep_obs) [F1 None; F1 None; F1 None] /\
  exists r, snd (calc_lnprob ep_fit ep_pars) = Ok r /\ r <> ln_low.
Proof.
  assert (U : uniform_psf ep_obs) by (right; intros x [<-|[<-|[<-|[]]]]; reflexivity).
  assert (E : epochs (FName Mgauss) ep_pars 0 ep_obs = [(gpars, bare); (gpars, bare); (gpars, bare)]) by reflexivity.
  assert (G : Forall2 (fun x G => fit_of (FName Mgauss) [[snd x]] None G) (epochs (FName Mgauss) ep_pars 0 ep_obs) [F1 None; F1 None; F1 None]) by (rewrite E; repeat (constructor; [exact (F1_of None)|]); constructor).
  split; [discriminate|]. split; [exact ep_of|]. split; [exact U|]. split; [reflexivity|]. split; [exact E|]. split; [exact G|].
  destruct ex_fit as (_ & _ & _ & r1 & E1 & N1). destruct (epochs_sum (FName Mgauss) ltac:(discriminate) ep_obs None ep_fit ep_pars (Fin 0) _ ep_of eq_refl U eq_refl G) as [_ H].
  destruct (H [r1; r1; r1]) as (r & Er & (_ & _ & _ & K)). { rewrite E. cbn [combine]. repeat (constructor; [split; [exact E1|exact N1]|]). constructor. }
  exists r. split; [exact Er|]. intros ->. cbn in K. assert (Z : l_npix r1 = 0%nat) by lia.
  destruct (layout (FName Mgauss) [[bare]] None (F1 None) 0 (F1_of None) ltac:(discriminate) eq_refl ltac:(lia) uniform1 gpars [gobj] (Fin 0) eq_refl (F1_range None) eq_refl) as (models & pr & _ & _ & _ & _ & _ & El).
  rewrite El in E1. injection E1 as E1. rewrite <- E1 in Z. discriminate Z.
Qed.
Lemma ep_fdiff : exists fd, snd (calc_fdiff ep_fit ep_pars) = Ok fd /\ fd <> repeat LOWVAL (f_size ep_fit).
Proof.
  destruct ep_hyps as (_ & _ & U & _ & E & G & _).
  destruct (layout (FName Mgauss) [[bare]] None (F1 None) 0 (F1_of None) ltac:(discriminate) eq_refl ltac:(lia) uniform1 gpars [gobj] (Fin 0) eq_refl (F1_range None) eq_refl) as (models & pr & Hm & Lp & _ & Ef & _).
  destruct pr; [|discriminate]. inversion Hm as [|? mo ? ? _ Hn]; subst. inversion Hn; subst. cbn in Ef. set (v := Fin _) in Ef.
  destruct (epochs_fdiff (FName Mgauss) ltac:(discriminate) ep_obs ep_fit ep_pars _ ep_of U eq_refl G) as [_ H]. exists [v; v; v]. split.
  - apply (H [[v]; [v]; [v]]). rewrite E. cbn [combine]. repeat (constructor; [split; [exact Ef|discriminate]|]). constructor.
  - discriminate.
Qed.
