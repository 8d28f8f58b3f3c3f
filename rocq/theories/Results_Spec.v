(** An image that shows a mixture. *)
From Verif Require Import Base Moments_Spec Jacobian_Model Jacobian_Spec Pixels_Model GMix_Model Render_Spec Admom_Spec.
Local Open Scope R_scope.

(** every pixel holds the brightness at its position times the area of the pixel *)
Definition shows (gm : gmix) (j : jac) (nr nc : nat) (im : arr2 (option R)) : Prop :=
  nrow im = nr /\ ncol im = nc /\
  forall r c v u, (r < nr)%nat -> (c < nc)%nat -> maps_to j (INR r) (INR c) v u ->
    at2 im r c = Some (brightness gm v u * jscale j ^ 2).
(** two images that agree where the weight is positive *)
Definition same_where_used (a b weight : arr2 R) : Prop :=
  nrow a = nrow b /\ ncol a = ncol b /\
  forall r c, (r < nrow a)%nat -> (c < ncol a)%nat -> 0 < at2 weight r c -> at2 a r c = at2 b r c.
(** the sum of an image *)
Definition total_of (im : arr2 R) : R :=
  rsum (map (fun r => rsum (map (at2 im r) (seq 0 (ncol im)))) (seq 0 (nrow im))).
(** the gaussian of a weight, with another flux *)
Definition with_flux (F : R) (wc : gmix) : gmix := [gauss2d_set F (row0_of wc) (col0_of wc) (yy (cov0_of wc)) (xy (cov0_of wc)) (xx (cov0_of wc))].
