(** A fit in other units: brightness times [k], lengths times [a] (of any sign), and the second axis mirrored when
    [f] is -1. *)
From Verif Require Import Base XReal Pixels_Model Jacobian_Model GMix_Model GMixObj_Model Render_Model Fit_Model Units_Spec Coords_Spec.
Local Open Scope R_scope.

Definition pix_units (k a f : R) (px px' : list (pixel R)) : Prop :=
  Forall2 (fun p p' => px_v p' = a * px_v p /\ px_u p' = f * a * px_u p /\ px_area p' = a ^ 2 * px_area p /\
                       px_val p' = k * px_val p /\ px_ierr p' = px_ierr p / k) px px'.
Definition gauss_units (k a f : R) (g g' : gauss) : Prop :=
  g_p g' = k * g_p g /\ g_row g' = a * g_row g /\ g_col g' = f * a * g_col g /\
  g_irr g' = a ^ 2 * g_irr g /\ g_irc g' = f * a ^ 2 * g_irc g /\ g_icc g' = a ^ 2 * g_icc g /\ g_det g' = a ^ 4 * g_det g.
Definition mix_units (k a f : R) (o o' : gmobj) : Prop := o_ngauss o' = o_ngauss o /\ Forall2 (gauss_units k a f) (o_data o) (o_data o').
(** the psf may have any flux *)
Definition obs_units (k a f : R) (o o' : fobs) : Prop :=
  match fo_pixels o, fo_pixels o' with Some px, Some px' => pix_units k a f px px' | None, None => True | _, _ => False end /\
  fo_nr o' = fo_nr o /\ fo_nc o' = fo_nc o /\ jac_coords a f (fo_jac o) (fo_jac o') /\
  has_psf_gmix o' = has_psf_gmix o /\ exists kp, kp <> 0 /\ same_outcome (mix_units kp a f) (psf_gmix o) (psf_gmix o').
(** parameters: centre, shape, size(s), size ratio and fraction for bd and bdf, flux(es) *)
Definition par_factor (k a f : R) (m : fmodel) (i : nat) : R :=
  match i with
  | 0%nat => a | 1%nat => f * a | 2%nat => 1 | 3%nat => f
  | _ => match m with
         | FName m => if Nat.eqb i 4 then a ^ 2 else if Nat.ltb i (match m with Mbd => 7 | Mbdf => 6 | _ => 5 end) then 1 else k
         | FCoellip n => if Nat.ltb i (4 + n) then a ^ 2 else k
         end
  end.
Definition pars_units (k a f : R) (m : fmodel) (p p' : list R) : Prop :=
  length p' = length p /\ forall i, nth i p' 0 = par_factor k a f m i * nth i p 0.
(** a prior in the new units has the same values *)
Definition prior_units (k a f : R) (m : fmodel) (P P' : option jprior) : Prop :=
  match P, P' with
  | Some P, Some P' => jp_numpy P' = jp_numpy P /\ forall p p', pars_units k a f m p p' ->
      jp_lnprob P' (map Fin p') = jp_lnprob P (map Fin p) /\ forall d, jp_fill P' (map Fin p') d = jp_fill P (map Fin p) d
  | None, None => True
  | _, _ => False
  end.
(** [low] is what is reported for parameters out of range; the limits on the determinant and the size of a gaussian
    are in the units of the coordinates *)
Definition same_unless {A} (low : A) (r r' : res A) : Prop := r' = r \/ r = Ok low \/ r' = Ok low.
Definition same_or_range {A B} (P : A -> B -> Prop) (r : res A) (r' : res B) : Prop :=
  r = Raise GMixRangeError \/ r' = Raise GMixRangeError \/ same_outcome P r r'.
Definition image_units (k : R) (im im' : arr2 (option R)) : Prop :=
  nrow im' = nrow im /\ ncol im' = ncol im /\
  forall r c, (r < nrow im)%nat -> (c < ncol im)%nat -> at2 im' r c = option_map (Rmult k) (at2 im r c).

(** what the least squares routine returns for the errors *)
Definition err_units (k a f : R) (m : fmodel) (e e' : list R) : Prop :=
  length e' = length e /\ forall i, nth i e' 0 = Rabs (par_factor k a f m i) * nth i e 0.
Definition cov_units (k a f : R) (m : fmodel) (c c' : arr2 R) : Prop :=
  nrow c' = nrow c /\ ncol c' = ncol c /\ forall i j, at2 c' i j = par_factor k a f m i * par_factor k a f m j * at2 c i j.
Definition flux_units (k : R) (x x' : fluxval) : Prop :=
  match x, x' with
  | FluxOne F e, FluxOne F' e' => F' = k * F /\ e' = times (Rabs k) e
  | FluxMany F c e, FluxMany F' c' e' => F' = map (Rmult k) F /\ e' = map (times (Rabs k)) e /\
      nrow c' = nrow c /\ ncol c' = ncol c /\ forall i j, at2 c' i j = k * k * at2 c i j
  | FluxNone, FluxNone => True
  | _, _ => False
  end.
Definition result_units (k a f : R) (r r' : fitres) : Prop :=
  r_ln r' = r_ln r /\ r_s2n r' = r_s2n r /\ r_chi2per r' = r_chi2per r /\ r_dof r' = r_dof r /\
  length (r_g r') = length (r_g r) /\ nth 0 (r_g r') 0 = nth 0 (r_g r) 0 /\ nth 1 (r_g r') 0 = f * nth 1 (r_g r) 0 /\
  nrow (r_g_cov r') = nrow (r_g_cov r) /\ ncol (r_g_cov r') = ncol (r_g_cov r) /\
  at2 (r_g_cov r') 0 0 = at2 (r_g_cov r) 0 0 /\ at2 (r_g_cov r') 0 1 = f * at2 (r_g_cov r) 0 1 /\
  at2 (r_g_cov r') 1 0 = f * at2 (r_g_cov r) 1 0 /\ at2 (r_g_cov r') 1 1 = at2 (r_g_cov r) 1 1 /\
  r_g_err r' = r_g_err r /\ r_T r' = a ^ 2 * r_T r /\ r_T_err r' = times (a ^ 2) (r_T_err r) /\
  flux_units k (r_flux r) (r_flux r').
