(** What a flux measured with galsim templates should be. *)
From Verif Require Import Base XReal Jacobian_Model Jacobian_Spec Pixels_Model PSFFlux_Model PSFFlux_Spec GalsimPSFFlux_Model.
Local Open Scope R_scope.

(** galsim's world coordinates of the point (x, y), in pixels from the middle of an image, when
    the object is at [off] from the middle *)
Definition world (w : wcs) (off : R * R) (x y u v : R) : Prop :=
  u = w_dudx w * (x - fst off) + w_dudy w * (y - snd off) /\
  v = w_dvdx w * (x - fst off) + w_dvdy w * (y - snd off).
(** position of column [c] and row [r] with respect to the middle of an image *)
Definition from_middle (n : nat) (i : nat) : R := INR i - (INR n - 1) / 2.
Definition wdet (w : wcs) : R := w_dudx w * w_dvdy w - w_dudy w * w_dvdx w.

(** what galsim promises: [prof p u v] is the surface brightness of an object, [pix p w u v] the flux it
    gives to a pixel whose centre is there, in an image with that wcs.  An interpolated image passes
    through its samples.  Nothing is said of calls that raise. *)
Record lawful {O} (X : gpsf O) (prof : O -> R -> R -> R) (pix : O -> wcs -> R -> R -> R) : Prop := mkLawful {
  law_interp : forall im w off p, gp_interp X im w off = Ok p -> wdet w <> 0 ->
    forall r c x u v, (r < nrow im)%nat -> (c < ncol im)%nat -> at2 im r c = Fin x ->
      world w off (from_middle (ncol im) c) (from_middle (nrow im) r) u v ->
      prof p u v * Rabs (wdet w) = x;
  law_draw : forall p nx ny w off a, gp_draw X p nx ny w off = Ok a ->
    nrow a = ny /\ ncol a = nx /\
    forall r c u v, (r < ny)%nat -> (c < nx)%nat -> world w off (from_middle nx c) (from_middle ny r) u v ->
      at2 a r c = Fin (pix p w u v) }.

(** [p] is the psf image of [o] with total flux one, on the sky *)
Definition psf_on_sky {O} (prof : O -> R -> R -> R) (o : gobs) (p : O) : Prop :=
  exists im j, go_psf o = Some (im, j) /\
    (rsum (cells (nrow im) (ncol im) (at2 im)) <> 0 -> true_det j <> 0 ->
     forall r c v u, (r < nrow im)%nat -> (c < ncol im)%nat -> maps_to j (INR r) (INR c) v u ->
       prof p u v * Rabs (true_det j) = at2 im r c / rsum (cells (nrow im) (ncol im) (at2 im))).
(** the template of an observation: the psf, convolved with the model of flux one if there is one *)
Definition galsim_template {O} (X : gpsf O) (prof : O -> R -> R -> R) (pix : O -> wcs -> R -> R -> R) (model : option O)
    (o : gobs) (t : nat -> nat -> R) : Prop :=
  exists p obj, psf_on_sky prof o p /\
    match model with
    | None => obj = p
    | Some m => exists m1, gp_withflux X 1 m = Ok m1 /\ gp_convolve X m1 p = Ok obj
    end /\
    forall r c v u, (r < po_nr (go_obs o))%nat -> (c < po_nc (go_obs o))%nat -> maps_to (po_jac (go_obs o)) (INR r) (INR c) v u ->
      t r c = pix obj (get_galsim_wcs (po_jac (go_obs o))) u v.

(** sum of a template over the image *)
Definition total (o : pobs) (t : nat -> nat -> R) : R := rsum (cells (po_nr o) (po_nc o) t).
(** templates divided by their sums *)
Definition unit_templates (obs : list pobs) (ts : list (nat -> nat -> R)) : list (nat -> nat -> R) :=
  map (fun ot => fun r c => snd ot r c / total (fst ot) (snd ot)) (combine obs ts).

(** the drawing method that takes the surface brightness at the centre of a pixel *)
Definition at_centres {O} (prof : O -> R -> R -> R) (pix : O -> wcs -> R -> R -> R) : Prop :=
  forall p w u v, pix p w u v = prof p u v * Rabs (wdet w).
(** the psf image has the pixels of the image, and [t] is that image with a sum of one *)
Definition same_frame (o : gobs) (t : nat -> nat -> R) : Prop :=
  exists im, go_psf o = Some (im, po_jac (go_obs o)) /\ nrow im = po_nr (go_obs o) /\ ncol im = po_nc (go_obs o) /\
    true_det (po_jac (go_obs o)) <> 0 /\ rsum (cells (nrow im) (ncol im) (at2 im)) <> 0 /\
    forall r c, t r c = at2 im r c / rsum (cells (nrow im) (ncol im) (at2 im)).

Definition observations (inp : ginput) : list gobs := match inp with InObs o => [o] | InList l => l | InOther => [] end.
