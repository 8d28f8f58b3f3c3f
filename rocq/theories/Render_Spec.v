(** Surface brightness of a gaussian mixture. *)
From Verif Require Import Base Moments_Spec GMix_Model GMix_Spec Pixels_Model Render_Model.

(** squared Mahalanobis distance of the offset (dv,du); that this is d^T M^{-1} d is
    theorem C23_mahalanobis_meaning *)
Definition maha (m : sym2) (dv du : R) : R :=
  (xx m * dv^2 - 2 * xy m * dv * du + yy m * du^2) / det2 m.

(** bivariate gaussian density times flux, at position (v,u) *)
Definition component (g : gauss) (v u : R) : R :=
  g_p g * (exp (- maha (gcov g) (v - g_row g) (u - g_col g) / 2) / (2 * PI * sqrt (det2 (gcov g)))).
Definition brightness (gm : gmix) (v u : R) : R := rsum (map (fun g => component g v u) gm).
(** sum of the absolute central brightnesses *)
Definition peak (gm : gmix) : R := rsum (map (fun g => Rabs (g_p g) / (2 * PI * sqrt (det2 (gcov g)))) gm).

(** big enough to be evaluated by the code *)
Definition evaluable (g : gauss) : Prop := / 10 ^ 200 <= det2 (gcov g) /\ / 10 ^ 200 < trace2 (gcov g).
(** the flag of the first component tells the truth about all of them *)
Definition cache_ok (gm : gmix) : Prop :=
  forall g rest, gm = g :: rest -> g_norm_set g = true -> Forall norms_right gm.
(** a mixture that can be evaluated *)
Definition good_gmix (gm : gmix) : Prop :=
  gm <> [] /\ Forall coherent gm /\ Forall evaluable gm /\ cache_ok gm.

(** value of the model in a pixel *)
Definition pixel_model (gm : gmix) (p : pixel R) : R := brightness gm (px_v p) (px_u p) * px_area p.
