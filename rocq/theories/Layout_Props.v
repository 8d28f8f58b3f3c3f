(** C136: how the pixels are laid out in the arrays does not matter.

    Full statement: when an image, its weight map and its Jacobian are replaced by another layout of the same pixels
    ([moved]: every pixel keeps its value, its weight and its place on the sky, and positions that are added have no
    weight), every measurement of the image returns the same.  Transposing, flipping and adding a border are layouts
    of this kind.  Proved: the new pixel list is a permutation of the old (C136_pixels), and GaussMom, adaptive
    moments, find_cen_admom, the log likelihood, the s2n of a model, model fits and EM with a given sky are the same
    for permuted pixel lists.  EM that is left to choose the sky is the same for layouts that add nothing
    (C136_em_own_sky); it counts an added border without weight as data (C136_em_border_refuted). *)
From Coq Require Import Permutation.
From Verif Require Import Base XReal Jacobian_Model Jacobian_Spec Pixels_Model Pixels_Spec GMix_Model GMixObj_Model WSums_Model GaussMom_Model Admom_Model Render_Model
  EM_Model Priors_Model Joint_Model Fit_Model Fit_Spec FitCex_Proofs Units_Spec Layout_Spec Layout_Proofs Layout2_Proofs Layout3_Proofs LayoutCex_Proofs.
Local Open Scope R_scope.

(** added positions are tolerated when pixels without weight are ignored *)
Theorem C136_pixels : forall ignore extra image weight j image' weight' j' s, moved extra image weight j image' weight' j' s ->
  (forall w, extra w -> ignore = true /\ w <= 0) ->
  same_outcome (@Permutation (pixel R)) (make_pixels image weight j ignore) (make_pixels image' weight' j' ignore).
Proof. exact pixels_moved. Qed.
Print Assumptions C136_pixels.
Theorem C136_transposed : forall ignore image weight j, nrow weight = nrow image -> ncol weight = ncol image ->
  same_outcome (@Permutation (pixel R)) (make_pixels image weight j ignore) (make_pixels (transpose image) (transpose weight) (transpose_jac j) ignore).
Proof. intros. eapply pixels_moved; [apply transpose_moved; assumption|intros w []]. Qed.
Print Assumptions C136_transposed.
Theorem C136_flipped : forall ignore image weight j, nrow weight = nrow image -> ncol weight = ncol image ->
  same_outcome (@Permutation (pixel R)) (make_pixels image weight j ignore) (make_pixels (flip image) (flip weight) (flip_jac (nrow image) j) ignore).
Proof. intros. eapply pixels_moved; [apply flip_moved; assumption|intros w []]. Qed.
Print Assumptions C136_flipped.
Theorem C136_border : forall t b l r x w image weight j, nrow weight = nrow image -> ncol weight = ncol image -> w <= 0 ->
  same_outcome (@Permutation (pixel R)) (make_pixels image weight j true) (make_pixels (pad t b l r x image) (pad t b l r w weight) (pad_jac t l j) true).
Proof. intros. eapply pixels_moved; [apply pad_moved; assumption|]. intros y H2. split; [reflexivity|exact H2]. Qed.
Print Assumptions C136_border.

Theorem C136_gaussmom : forall fwhm higher px px' j j', Permutation px px' -> jscale j' = jscale j ->
  gaussmom fwhm higher (GObs px' j') = gaussmom fwhm higher (GObs px j).
Proof. exact gaussmom_perm. Qed.
Print Assumptions C136_gaussmom.
Theorem C136_admom : forall c h px px' j j' guess, Permutation px px' -> jscale j' = jscale j ->
  am_go c h (mkAo px' j') guess = am_go c h (mkAo px j) guess.
Proof. exact go_perm. Qed.
Print Assumptions C136_admom.
Theorem C136_find_cen : forall c h px px' j j' w n rng, Permutation px px' -> jscale j' = jscale j ->
  find_cen_admom c h (mkAo px' j') w n rng = find_cen_admom c h (mkAo px j) w n rng.
Proof. exact find_cen_perm. Qed.
Print Assumptions C136_find_cen.
Theorem C136_likelihood : forall gm px px', Permutation px px' ->
  get_loglike gm px' = get_loglike gm px /\ get_model_s2n gm px' = get_model_s2n gm px.
Proof. intros gm px px' P. split; [apply loglike_perm|apply s2n_perm]; exact P. Qed.
Print Assumptions C136_likelihood.

(** a model fit is made from both, or the same exception is raised *)
Theorem C136_fit_made : forall m obs obs' guess prior, Forall2 (Forall2 relaid) obs obs' ->
  same_outcome (fun F F' => f_size F' = f_size F /\ f_npars F' = f_npars F) (fit_init m obs guess prior) (fit_init m obs' guess prior).
Proof.
  intros m obs obs' g p H. pose proof (init_relaid m obs obs' g p H) as S.
  destruct (fit_init m obs g p), (fit_init m obs' g p); cbn in *; tauto.
Qed.
Print Assumptions C136_fit_made.
(** every evaluation is the same, the residuals in another order; so is the result, exceptions included *)
Theorem C136_fit : forall m obs obs' prior F F', fit_of m obs prior F -> fit_of m obs' prior F' -> Forall2 (Forall2 relaid) obs obs' ->
  forall p err cov, snd (calc_lnprob F' p) = snd (calc_lnprob F p) /\
    same_outcome (@Permutation xr) (snd (calc_fdiff F p)) (snd (calc_fdiff F' p)) /\
    snd (set_fit_result F' p err cov) = snd (set_fit_result F p err cov).
Proof.
  intros m obs obs' prior F F' Ft Ft' H p err cov.
  split; [exact (lnprob_relaid m obs obs' prior F F' Ft Ft' H p)|]. split; [exact (fdiff_relaid m obs obs' prior F F' Ft Ft' H p)|].
  exact (result_relaid m obs obs' prior F F' Ft Ft' H p err cov).
Qed.
Print Assumptions C136_fit.

(** EM with a given sky: the same result, and the same mixtures in memory *)
Theorem C136_em : forall f m m' o o' guess sky, relaid_mem m m' -> eo_psf o' = eo_psf o -> eo_px o' = eo_px o ->
  relaid_run (em_go f m o guess (Some sky)) (em_go f m' o' guess (Some sky)).
Proof. exact em_go_relaid. Qed.
Print Assumptions C136_em.
(** EM that chooses the sky itself looks at the image, not at the pixel list *)
Theorem C136_em_own_sky : forall f m m' o o' guess im im' s, relaid_mem m m' -> length (em_px m') = length (em_px m) -> eo_psf o' = eo_psf o ->
  nth_error (em_im m) (eo_image o) = Some im -> nth_error (em_im m') (eo_image o') = Some im' ->
  moved nothing im (ones im) (eo_jac o) im' (ones im') (eo_jac o') s ->
  relaid_run (em_go f m o guess None) (em_go f m' o' guess None).
Proof. exact em_go_none. Qed.
Print Assumptions C136_em_own_sky.
(** and gives every pixel of it the weight 1: a border without weight adds data *)
Theorem C136_em_border_refuted : exists im w j s m o m' o',
  moved no_weight im w j (pad 0 0 0 1 0 im) (pad 0 0 0 1 0 w) (pad_jac 0 0 j) s /\
  same_outcome (@Permutation (pixel R)) (make_pixels im w j true) (make_pixels (pad 0 0 0 1 0 im) (pad 0 0 0 1 0 w) (pad_jac 0 0 j) true) /\
  nth_error (em_im m) (eo_image o) = Some im /\ eo_jac o = j /\ nth_error (em_im m') (eo_image o') = Some (pad 0 0 0 1 0 im) /\ eo_jac o' = pad_jac 0 0 j /\
  exists m1 o1 s1 m2 o2 s2 px px', prep_obs m o = Some (Ok (m1, o1, s1)) /\ prep_obs m' o' = Some (Ok (m2, o2, s2)) /\
    nth_error (em_px m1) (eo_px o1) = Some px /\ nth_error (em_px m2) (eo_px o2) = Some px' /\ (length px < length px')%nat.
Proof. exact border_counts. Qed.
Print Assumptions C136_em_border_refuted.

(** a column of two pixels, upside down *)
Example C136_hypotheses_hold : exists s F F', moved nothing row2 wts2 gjac (flip row2) (flip wts2) (flip_jac 2 gjac) s /\
  make_pixels row2 wts2 gjac true = Ok [p0; p1] /\ make_pixels (flip row2) (flip wts2) (flip_jac 2 gjac) true = Ok [p1; p0] /\ p0 <> p1 /\
  fit_of (FName Mgauss) [[mkFobs (Some [p0; p1]) None 2 1 gjac]] None F /\ fit_of (FName Mgauss) [[mkFobs (Some [p1; p0]) None 2 1 (flip_jac 2 gjac)]] None F' /\
  Forall2 (Forall2 relaid) [[mkFobs (Some [p0; p1]) None 2 1 gjac]] [[mkFobs (Some [p1; p0]) None 2 1 (flip_jac 2 gjac)]].
Proof. exact relaid_hold. Qed.
