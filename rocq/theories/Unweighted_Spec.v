(** Images that differ only in the values of pixels without weight. *)
From Verif Require Import Base XReal Jacobian_Model Pixels_Model Fit_Model.
Local Open Scope R_scope.

(** images of the shape of the weight map, equal wherever the weight is positive *)
Definition images_alike (w im im' : arr2 R) : Prop :=
  nrow im = nrow w /\ ncol im = ncol w /\ nrow im' = nrow w /\ ncol im' = ncol w /\
  forall r c, (r < nrow w)%nat -> (c < ncol w)%nat -> 0 < at2 w r c -> at2 im' r c = at2 im r c.
(** entries of pixel lists: the values may differ where the inverse error is zero *)
Definition pix_alike (p p' : pixel R) : Prop :=
  px_u p' = px_u p /\ px_v p' = px_v p /\ px_area p' = px_area p /\ px_ierr p' = px_ierr p /\ (px_ierr p <> 0 -> px_val p' = px_val p).
(** observations as model fits see them *)
Definition obs_alike (o o' : fobs) : Prop :=
  match fo_pixels o, fo_pixels o' with Some l, Some l' => Forall2 pix_alike l l' | None, None => True | _, _ => False end /\
  fo_psf o' = fo_psf o.
