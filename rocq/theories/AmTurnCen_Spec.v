(** The centre found for the same sky in other coordinates. *)
From Verif Require Import Base XReal GMix_Model GMixObj_Model Admom_Model Motion_Spec.
Local Open Scope R_scope.

(** the centre of the result: not a number in both, or moved *)
Definition found_moved (t a b : R) (c c' : xr * xr) : Prop :=
  (c = (NaN, NaN) /\ c' = (NaN, NaN)) \/ exists row col, c = (Fin row, Fin col) /\ c' = (Fin (moved_v t a row col), Fin (moved_u t b row col)).
(** the weight function: a mixture that is moved, or a round gaussian at the origin, for a rotation *)
Definition weights_moved (t a b : R) (h h' : heap) (w w' : weight_arg) : Prop :=
  match w, w' with
  | WGmix i, WGmix i' => exists g g', read h i = Some g /\ read h' i' = Some g' /\ o_kind g = KFull /\ o_kind g' = KFull /\ mix_moved 1 t a b g g'
  | WFwhm f, WFwhm f' => f' = f /\ a = 0 /\ b = 0
  | WNone, WNone => True
  | _, _ => False
  end.
