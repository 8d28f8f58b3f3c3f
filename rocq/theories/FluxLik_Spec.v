(** The log likelihood of a mixture as a function of its flux. *)
From Verif Require Import Base Pixels_Model.
Local Open Scope R_scope.

(** log likelihood of the data under a model that is zero everywhere *)
Definition empty_loglike (px : list (pixel R)) : R := - rsum (map (fun p => (px_val p * px_ierr p) ^ 2) px) / 2.
(** a parabola in [a] *)
Definition parabola (l0 num den a : R) : R := l0 + a * num - a ^ 2 * den / 2.

(** parameters with the flux of band [b] times the [b]th of [cs] *)
Definition band_fluxes (start : nat) (cs p p' : list R) : Prop :=
  length p' = length p /\ forall i, nth i p' 0 = if Nat.ltb i start then nth i p 0 else nth (i - start) cs 0 * nth i p 0.
(** sums over the bands of the terms (l0, num, den) of each, with factors [cs] *)
Definition sum_bands (f : R -> R * R * R -> R) (cs : list R) (ts : list (R * R * R)) : R :=
  rsum (map (fun x => f (fst x) (snd x)) (combine cs ts)).
