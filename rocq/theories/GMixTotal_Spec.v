(** Mixtures with a size and a shape. *)
From Verif Require Import Base Moments_Spec GMix_Model GMix_Spec.

(** positive definite gaussians with fluxes that are not negative, some positive *)
Definition positive_mixture (gm : gmix) : Prop :=
  Forall (fun g => 0 <= g_p g /\ posdef (gcov g)) gm /\ 0 < flux_of gm.
Definition same_centre (gm : gmix) : Prop := exists row col, Forall (fun g => g_row g = row /\ g_col g = col) gm.
(** spread of the centres of the components *)
Definition centre_cov (gm : gmix) : sym2 :=
  cov (mean_of (fun g => (g_row g - row_of gm) * (g_row g - row_of gm)) gm)
      (mean_of (fun g => (g_row g - row_of gm) * (g_col g - col_of gm)) gm)
      (mean_of (fun g => (g_col g - col_of gm) * (g_col g - col_of gm)) gm).
(** mean covariance of the components *)
Definition mean_cov (gm : gmix) : sym2 := cov (mean_of g_irr gm) (mean_of g_irc gm) (mean_of g_icc gm).
