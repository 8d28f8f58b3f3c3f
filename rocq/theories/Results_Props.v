(** C126: the image of a result. *)
From Verif Require Import Base XReal Moments_Spec Jacobian_Model Jacobian_Spec Pixels_Model GMix_Model GMix_Spec GMixObj_Model Render_Model Render_Spec
  EM_Model EM_Spec Admom_Model Admom_Spec Results_Model Results_Spec Results_Proofs ResultsCex_Proofs.
From Verif Require Fit_Model Fit_Spec ResultsFit_Proofs FitCex_Proofs Admom4_Proofs.
Local Open Scope R_scope.

(** EM: the reported mixture, seen through the psf, on the pixels of the observation *)
Example C126_em_hypotheses_hold : exists f m obs guess sky m' r a P im0, valid_call m obs guess /\ em_go f m obs guess sky = Some (m', Ok r) /\
  EM_Model.get_gmix m' r false = Ok a /\ o_data a <> [] /\ psf_given m obs P /\ nth_error (em_im m) (eo_image obs) = Some im0 /\ nrow im0 = 1%nat /\ ncol im0 = 2%nat.
Proof. exact em_sample. Qed.
Theorem C126_em_image : forall f m obs guess sky m' r a P im0, valid_call m obs guess -> em_go f m obs guess sky = Some (m', Ok r) ->
  EM_Model.get_gmix m' r false = Ok a -> o_data a <> [] -> psf_given m obs P -> nth_error (em_im m) (eo_image obs) = Some im0 ->
  exists im, em_make_image m' r obs = Some (Ok im) /\ shows (views P (o_data a)) (eo_jac obs) (nrow im0) (ncol im0) im.
Proof. exact em_image. Qed.
Print Assumptions C126_em_image.
Theorem C126_em_no_image : forall f m obs guess sky m' r im0, valid_call m obs guess -> em_go f m obs guess sky = Some (m', Ok r) ->
  nth_error (em_im m) (eo_image obs) = Some im0 -> has_gmix r = false -> em_make_image m' r obs = Some (Raise RuntimeError).
Proof. exact em_image_none. Qed.
Print Assumptions C126_em_no_image.

(** adaptive moments: the gaussian that was found, with the flux of the whole image *)
Example C126_admom_hypotheses_hold : let c := mkAc 200 5 (1/100000) (1/1000) false in
  good_input c Admom4_Proofs.obsW [Admom4_Proofs.gW] /\ exists d, snd (am_run c Admom4_Proofs.obsW [Admom4_Proofs.gW]) = Ok d /\ d_flags d = 0%Z /\ d_numiter d = 2%nat /\ d_T d = Fin 10.
Proof. exact (Admom4_Proofs.sample_ok false). Qed.
Theorem C126_admom_image_partial : forall c o wt d im0, good_input c o wt -> snd (am_run c o wt) = Ok d -> d_flags d = 0%Z ->
  exists wc im, converges c (ao_pix o) (plain wt) (d_numiter d) wc /\ am_make_image d (ao_jac o) im0 = Some (Ok im) /\
    shows (with_flux (total_of im0) wc) (ao_jac o) (nrow im0) (ncol im0) im.
Proof. exact am_image. Qed.
Print Assumptions C126_admom_image_partial.
Theorem C126_admom_failed : forall d j im, d_flags d <> 0%Z -> am_make_image d j im = Some (Raise RuntimeError).
Proof. exact am_image_failed. Qed.
Print Assumptions C126_admom_failed.
(** that flux includes pixels of zero weight: two observations that give the same pixels and
    the same result have different images *)
Theorem C126_masked_pixels_refuted : exists c wt w j px i1 i2 d a b,
  make_pixels i1 w j true = Ok px /\ make_pixels i2 w j true = Ok px /\ same_where_used i1 i2 w /\
  good_input c (mkAo px j) wt /\ snd (am_run c (mkAo px j) wt) = Ok d /\ d_flags d = 0%Z /\
  am_make_image d j i1 = Some (Ok a) /\ am_make_image d j i2 = Some (Ok b) /\ at2 a 1 2 <> at2 b 1 2.
Proof. exact masked_image. Qed.
Print Assumptions C126_masked_pixels_refuted.

(** model fits: the mixture of the band, seen through the psf of the observation *)
Import Fit_Model Fit_Spec.
Example C126_fit_hypotheses_hold : exists F g, fit_of (FName Mgauss) [[FitCex_Proofs.bare]] None F /\ length FitCex_Proofs.gpars = n_pars (FName Mgauss) [[FitCex_Proofs.bare]] /\
  get_convolved_gmix F FitCex_Proofs.gpars 0 0 = Ok g /\ Forall evaluable (o_data g).
Proof.
  exists (FitCex_Proofs.F1 None), FitCex_Proofs.gobj. split; [apply FitCex_Proofs.F1_of|]. split; [reflexivity|]. destruct (FitCex_Proofs.F1_range None) as [M E].
  split; [|apply Forall_cons_iff in E; apply E]. unfold mixtures, positions, positions_from in M. cbn [FitCex_Proofs.F1 FitCex_Proofs.gfit f_obs combine length seq map concat app fst snd mapM] in M.
  destruct (get_convolved_gmix _ _ 0 0) as [g|]; [|discriminate]. cbn [bind] in M. injection M as ->. reflexivity.
Qed.
Theorem C126_fit_image : forall m obs prior F pars b i os o g, fit_of m obs prior F -> m <> FCoellip 0 -> length pars = n_pars m obs ->
  nth_error obs b = Some os -> nth_error os i = Some o -> get_convolved_gmix F pars b i = Ok g ->
  own_mixture F pars b o g /\
  (Forall evaluable (o_data g) -> exists im, fit_make_image F pars b i = Ok im /\ shows (o_data g) (fo_jac o) (fo_nr o) (fo_nc o) im) /\
  (~ Forall evaluable (o_data g) -> fit_make_image F pars b i = Raise GMixRangeError).
Proof. exact ResultsFit_Proofs.fit_image. Qed.
Print Assumptions C126_fit_image.
(** it agrees with the model that enters the residuals (C61, C64) to the accuracy of the fast exponential *)
Theorem C126_fit_compared : forall g model j nr nc im r c v u p, model_of g model -> shows (o_data g) j nr nc im ->
  (r < nr)%nat -> (c < nc)%nat -> maps_to j (INR r) (INR c) v u -> px_v p = v -> px_u p = u -> px_area p = jscale j ^ 2 ->
  exists x, at2 im r c = Some x /\ Rabs (model p - x) <= 4/100000 * peak (o_data g) * jscale j ^ 2.
Proof. exact ResultsFit_Proofs.image_compared. Qed.
Print Assumptions C126_fit_compared.
