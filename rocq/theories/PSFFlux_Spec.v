(** What a template flux should be. *)
From Verif Require Import Base XReal Jacobian_Model Jacobian_Spec Pixels_Model GMix_Model GMix_Spec GMixObj_Model
  Render_Model Render_Spec Flags_Model PSFFlux_Model.
Local Open Scope R_scope.

(** sums over the pixels of all observations, [ts] being the templates *)
Definition over (f : R -> R -> R -> R) (obs : list pobs) (ts : list (nat -> nat -> R)) : R :=
  rsum (map (fun ot => rsum (cells (po_nr (fst ot)) (po_nc (fst ot))
                               (fun r c => f (snd ot r c) (po_im (fst ot) r c) (po_wt (fst ot) r c)))) (combine obs ts)).
(** chi squared of flux times template, and weight of the templates *)
Definition chi2_at (obs : list pobs) (ts : list (nat -> nat -> R)) (f : R) : R := over (fun t i w => (f * t - i) ^ 2 * w) obs ts.
Definition template_weight (obs : list pobs) (ts : list (nat -> nat -> R)) : R := over (fun t _ w => t ^ 2 * w) obs ts.
Definition weights_ok (obs : list pobs) : Prop := Forall (fun o => forall r c, 0 <= po_wt o r c) obs.

(** a template is normalised unless the norms of the psfs are wanted *)
Definition normalised (do_psf normalize_psf : bool) : bool := negb do_psf || normalize_psf.
(** the mixture and the template image that the options ask for *)
Definition chosen_gmix (do_psf : bool) (o : pobs) : option gmobj :=
  if do_psf then match po_psf o with Some (g, _) => g | None => None end else po_gmix o.
Definition chosen_template (do_psf : bool) (o : pobs) : option (arr2 xr) :=
  if do_psf then match po_psf o with Some (_, t) => t | None => None end else po_template o.
(** the template: the brightness of a mixture in every pixel, or an image *)
Definition gmix_template (do_psf norm : bool) (o : pobs) (t : nat -> nat -> R) : Prop :=
  exists g c, chosen_gmix do_psf o = Some g /\ obj_copy g = Ok c /\ good_gmix (o_data c) /\ flux_of (o_data c) <> 0 /\
    forall row col v u, (row < po_nr o)%nat -> (col < po_nc o)%nat -> maps_to (po_jac o) (INR row) (INR col) v u ->
      t row col = brightness (o_data c) v u * jscale (po_jac o) ^ 2 / (if norm then flux_of (o_data c) else 1).
Definition array_template (do_psf norm : bool) (o : pobs) (t : nat -> nat -> R) : Prop :=
  exists a x, chosen_template do_psf o = Some a /\ nrow a = po_nr o /\ ncol a = po_nc o /\
    (forall row col, (row < po_nr o)%nat -> (col < po_nc o)%nat -> at2 a row col = Fin (x row col)) /\
    rsum (cells (po_nr o) (po_nc o) x) <> 0 /\
    forall row col, (row < po_nr o)%nat -> (col < po_nc o)%nat ->
      t row col = x row col / (if norm then rsum (cells (po_nr o) (po_nc o) x) else 1).
Definition templates (do_psf normalize_psf : bool) (obs : list pobs) (ts : list (nat -> nat -> R)) : Prop :=
  obs <> [] /\
  (Forall2 (gmix_template do_psf (normalised do_psf normalize_psf)) obs ts \/
   (match obs with [] => True | o :: _ => chosen_gmix do_psf o = None end) /\
   Forall2 (array_template do_psf (normalised do_psf normalize_psf)) obs ts).

(** number of pixels kept by the observations *)
Definition kept_pixels (o : pobs) : nat :=
  match po_pix o with
  | Some false => po_nr o * po_nc o
  | _ => n_positive o
  end.
Definition n_kept (obs : list pobs) : nat := list_sum (map kept_pixels obs).
Definition n_weighted (obs : list pobs) : nat := list_sum (map n_positive obs).
Definition stored (obs : list pobs) : Prop := Forall (fun o => po_pix o <> None) obs.
(** observations made with the default ignore_zero_weight=True *)
Definition default_pixels (obs : list pobs) : Prop := Forall (fun o => po_pix o = Some true) obs.
