(** Proofs on images of model fits. *)
From Verif Require Import Base XReal Moments_Spec Jacobian_Model Jacobian_Spec Pixels_Model GMix_Model GMix_Spec GMix_Proofs GMixObj_Model GMixObj_Proofs
  Render_Model Render_Spec Render_Proofs Priors_Model Joint_Model Fit_Model Fit_Spec Fit_Proofs Fit2_Proofs Fit3_Proofs Fit4_Proofs Results_Spec.
Local Open Scope R_scope.

Lemma fit_obs_at m obs prior F b i os o : fit_of m obs prior F -> nth_error obs b = Some os -> nth_error os i = Some o -> obs_at F b i = Ok o.
Proof. intros Ft Eb Ei. unfold obs_at. rewrite (md_obs _ _ _ _ (fit_made _ _ _ _ Ft)), Eb, Ei. reflexivity. Qed.
Lemma convolved_own F pars b i o g : obs_at F b i = Ok o -> get_convolved_gmix F pars b i = Ok g -> own_mixture F pars b o g.
Proof.
  intros Eo H. unfold get_convolved_gmix in H. unfold own_mixture. destruct (get_gmix F pars b) as [gm|]; [|discriminate]. cbn [bind] in H.
  rewrite Eo in H. cbn [bind] in H. exists gm. split; [reflexivity|]. unfold has_psf_gmix, psf_gmix in H.
  destruct (fo_psf o) as [[psf|]|]; [|injection H as <-; reflexivity|injection H as <-; reflexivity].
  destruct (obj_copy psf) as [c|]; [|discriminate]. cbn [bind] in H. exists c. auto.
Qed.
Lemma convolved_fresh m obs prior F pars b i os o g : fit_of m obs prior F -> m <> FCoellip 0 -> length pars = n_pars m obs ->
  nth_error obs b = Some os -> nth_error os i = Some o -> get_convolved_gmix F pars b i = Ok g -> fresh_mix (o_data g).
Proof.
  intros Ft Hm Lp Eb Ei H. pose proof (fit_obs_at _ _ _ _ _ _ _ _ Ft Eb Ei) as Eo. pose proof (fit_made _ _ _ _ Ft) as M.
  assert (Hb : (b < length obs)%nat) by (apply nth_error_Some; congruence).
  pose proof H as H0. unfold get_convolved_gmix, get_gmix in H0. rewrite (md_model _ _ _ _ M) in H0.
  destruct (band_pars_of m pars b) as [bp|] eqn:Ebp; [|discriminate]. cbn [bind] in H0.
  destruct (make_model m bp) as [g0|] eqn:Eg; [|discriminate]. cbn [bind] in H0. rewrite Eo in H0. cbn [bind] in H0.
  assert (L : length bp = mnp (f_model F)).
  { rewrite (md_model _ _ _ _ M). destruct (band_pars_ok m obs pars b Lp Hb) as (bp' & E' & L'); congruence. }
  assert (Hp : has_psf_gmix o = true -> exists psf, psf_gmix o = Ok psf).
  { intros K. rewrite K in H0. apply bind_ok in H0. destruct H0 as (psf & E & _). eauto. }
  rewrite <- (md_model _ _ _ _ M) in Ebp. pose proof (conv_pure F pars b i o bp L Ebp Eo Hp) as C. rewrite H in C. cbn [rmap] in C. symmetry in C.
  eapply one_fresh; [|exact C]. rewrite (md_model _ _ _ _ M). exact Hm.
Qed.
Lemma fit_image m obs prior F pars b i os o g : fit_of m obs prior F -> m <> FCoellip 0 -> length pars = n_pars m obs ->
  nth_error obs b = Some os -> nth_error os i = Some o -> get_convolved_gmix F pars b i = Ok g ->
  own_mixture F pars b o g /\
  (Forall evaluable (o_data g) -> exists im, fit_make_image F pars b i = Ok im /\ shows (o_data g) (fo_jac o) (fo_nr o) (fo_nc o) im) /\
  (~ Forall evaluable (o_data g) -> fit_make_image F pars b i = Raise GMixRangeError).
Proof.
  intros Ft Hm Lp Eb Ei H. pose proof (fit_obs_at _ _ _ _ _ _ _ _ Ft Eb Ei) as Eo. split; [eapply convolved_own; eassumption|].
  pose proof (convolved_fresh _ _ _ _ _ _ _ _ _ _ Ft Hm Lp Eb Ei H) as FM. unfold fit_make_image. rewrite H, Eo. cbn [bind]. split; intros E.
  - destruct (make_image_exact _ (fo_nr o) (fo_nc o) (fo_jac o) (fresh_good _ FM E)) as (gm' & im & -> & _ & _ & A & B & C). exists im. split; [reflexivity|split; [exact A|split; [exact B|exact C]]].
  - destruct FM as [Fr N]. apply make_image_raises; [exact N|eapply Forall_impl; [|exact Fr]; intros x [K _]; exact K|exact E|].
    intros x rest K. rewrite K in Fr. apply Forall_cons_iff in Fr. apply Fr.
Qed.
(** no mixture, no image *)
Lemma fit_no_image F pars b i e : get_convolved_gmix F pars b i = Raise e -> fit_make_image F pars b i = Raise e.
Proof. intros H. unfold fit_make_image. rewrite H. reflexivity. Qed.
(** the image and the model that was compared with the data *)
Lemma image_compared g model j nr nc im r c v u p : model_of g model -> shows (o_data g) j nr nc im -> (r < nr)%nat -> (c < nc)%nat -> maps_to j (INR r) (INR c) v u ->
  px_v p = v -> px_u p = u -> px_area p = jscale j ^ 2 -> exists x, at2 im r c = Some x /\ Rabs (model p - x) <= 4/100000 * peak (o_data g) * jscale j ^ 2.
Proof.
  intros Hm (_ & _ & S) Hr Hc M <- <- A. eexists. split; [apply S; eassumption|]. pose proof (Hm p) as B. unfold pixel_model in B. rewrite A in B.
  rewrite (Rabs_right (jscale j ^ 2)) in B by (apply Rle_ge, pow2_ge_0). exact B.
Qed.
