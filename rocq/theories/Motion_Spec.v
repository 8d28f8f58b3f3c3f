(** The same sky in coordinates that are turned by an angle [t] and shifted by ([a], [b]). *)
From Verif Require Import Base XReal Pixels_Model Jacobian_Model Jacobian_Spec GMix_Model GMixObj_Model Priors_Model Joint_Model Fit_Model Units_Spec.
Local Open Scope R_scope.

Definition moved_v (t a v u : R) : R := cos t * v - sin t * u + a.
Definition moved_u (t b v u : R) : R := sin t * v + cos t * u + b.
(** quantities of spin 2: shapes, ellipticities, the second moments (u^2 - v^2, 2 u v) *)
Definition turned_1 (t x1 x2 : R) : R := cos (2 * t) * x1 + sin (2 * t) * x2.
Definition turned_2 (t x1 x2 : R) : R := - sin (2 * t) * x1 + cos (2 * t) * x2.

(** every pixel is at the moved position, and its area is the same *)
Definition jac_moved (t a b : R) (j j' : jac) : Prop :=
  (forall row col v u v' u', maps_to j row col v u -> maps_to j' row col v' u' -> v' = moved_v t a v u /\ u' = moved_u t b v u) /\
  jscale j' ^ 2 = jscale j ^ 2.
Definition pix_moved (t a b : R) (px px' : list (pixel R)) : Prop :=
  Forall2 (fun p p' => px_v p' = moved_v t a (px_v p) (px_u p) /\ px_u p' = moved_u t b (px_v p) (px_u p) /\ px_area p' = px_area p /\
                       px_val p' = px_val p /\ px_ierr p' = px_ierr p) px px'.
(** a gaussian: its flux times [k], its centre moved, its covariance turned *)
Definition gauss_moved (k t a b : R) (g g' : gauss) : Prop :=
  g_p g' = k * g_p g /\ g_row g' = moved_v t a (g_row g) (g_col g) /\ g_col g' = moved_u t b (g_row g) (g_col g) /\
  g_irr g' + g_icc g' = g_irr g + g_icc g /\
  g_icc g' - g_irr g' = turned_1 t (g_icc g - g_irr g) (2 * g_irc g) /\ 2 * g_irc g' = turned_2 t (g_icc g - g_irr g) (2 * g_irc g) /\
  g_det g' = g_det g.
Definition mix_moved (k t a b : R) (o o' : gmobj) : Prop := o_ngauss o' = o_ngauss o /\ Forall2 (gauss_moved k t a b) (o_data o) (o_data o').
(** the mixture of the psf is turned; it may be anywhere and have any flux *)
Definition obs_moved (t a b : R) (o o' : fobs) : Prop :=
  match fo_pixels o, fo_pixels o' with Some px, Some px' => pix_moved t a b px px' | None, None => True | _, _ => False end /\
  fo_nr o' = fo_nr o /\ fo_nc o' = fo_nc o /\ jac_moved t a b (fo_jac o) (fo_jac o') /\
  has_psf_gmix o' = has_psf_gmix o /\ exists kp ap bp, kp <> 0 /\ same_outcome (mix_moved kp t ap bp) (psf_gmix o) (psf_gmix o').
(** parameters: the centre, the shape, and the others, which are the same *)
Definition pars_moved (t a b : R) (p p' : list R) : Prop :=
  exists v u g1 g2 rest, p = v :: u :: g1 :: g2 :: rest /\
    p' = moved_v t a v u :: moved_u t b v u :: turned_1 t g1 g2 :: turned_2 t g1 g2 :: rest.
(** a prior with the same values for the moved parameters, and one with the same residuals *)
Definition prior_moved (t a b : R) (P P' : option jprior) : Prop :=
  match P, P' with
  | Some P, Some P' => jp_numpy P' = jp_numpy P /\ forall p p', pars_moved t a b p p' -> jp_lnprob P' (map Fin p') = jp_lnprob P (map Fin p)
  | None, None => True
  | _, _ => False
  end.
Definition residuals_moved (t a b : R) (P P' : option jprior) : Prop :=
  match P, P' with
  | Some P, Some P' => forall p p' d, pars_moved t a b p p' -> jp_fill P' (map Fin p') d = jp_fill P (map Fin p) d
  | None, None => True
  | _, _ => False
  end.
(** the parts of a joint prior: the centre, with the same width in both directions, is moved; the shape prior does not
    single out a direction *)
Definition cen_prior_moved (t a b : R) (c c' : cenprior) : Prop :=
  ce_cen1 c' = moved_v t a (ce_cen1 c) (ce_cen2 c) /\ ce_cen2 c' = moved_u t b (ce_cen1 c) (ce_cen2 c) /\
  ce_s2inv2 c = ce_s2inv1 c /\ ce_s2inv1 c' = ce_s2inv1 c /\ ce_s2inv2 c' = ce_s2inv1 c.
Definition isotropic (t : R) (g : p2obj) : Prop :=
  forall g1 g2, p2_lnprob g (Fin (turned_1 t g1 g2)) (Fin (turned_2 t g1 g2)) = p2_lnprob g (Fin g1) (Fin g2).
(** the quadratic form of the entries [i], [i + 1] of a covariance is turned *)
Definition form (i : nat) (c : arr2 R) (x y : R) : R :=
  at2 c i i * x * x + (at2 c i (S i) + at2 c (S i) i) * x * y + at2 c (S i) (S i) * y * y.
Definition form_turned (t : R) (i : nat) (c c' : arr2 R) : Prop :=
  forall x y, form i c' (turned_1 t x y) (turned_2 t x y) = form i c x y.
(** what the least squares routine returns for the covariance: the blocks of the shape and of the rest *)
Definition cov_moved (t : R) (c c' : arr2 R) : Prop :=
  nrow c' = nrow c /\ ncol c' = ncol c /\
  (forall i j, (4 <= i)%nat -> (4 <= j)%nat -> at2 c' i j = at2 c i j) /\
  form_turned t 2 c c'.
Definition result_moved (t : R) (r r' : fitres) : Prop :=
  r_ln r' = r_ln r /\ r_s2n r' = r_s2n r /\ r_chi2per r' = r_chi2per r /\ r_dof r' = r_dof r /\
  (exists g1 g2, r_g r = [g1; g2] /\ r_g r' = [turned_1 t g1 g2; turned_2 t g1 g2]) /\
  form_turned t 0 (r_g_cov r) (r_g_cov r') /\ r_T r' = r_T r /\ r_T_err r' = r_T_err r /\
  match r_flux r, r_flux r' with
  | FluxOne F e, FluxOne F' e' => F' = F /\ e' = e
  | FluxMany F c e, FluxMany F' c' e' => F' = F /\ e' = e /\ nrow c' = nrow c /\ ncol c' = ncol c /\ forall i j, at2 c' i j = at2 c i j
  | FluxNone, FluxNone => True
  | _, _ => False
  end.
(** a value of an image that is not a number stays so *)
Definition same_image (im im' : arr2 (option R)) : Prop :=
  nrow im' = nrow im /\ ncol im' = ncol im /\ forall r c, (r < nrow im)%nat -> (c < ncol im)%nat -> at2 im' r c = at2 im r c.
