(** What the size of a gaussian means, in terms of its profile. *)
From Verif Require Import Base.
Local Open Scope R_scope.

(** the profile of a round gaussian of width s at radius r, relative to its centre *)
Definition profile (s r : R) : R := exp (- (r * r) / (2 * (s * s))).

(** F r is the fraction of the light of that gaussian within the radius r: none within the
    radius 0, and between r and r + dr the circumference times the normalised profile *)
Definition enclosed (s : R) (F : R -> R) : Prop :=
  F 0 = 0 /\
  (forall r, 0 <= r -> derivable_pt_lim F r (2 * PI * r * (profile s r / (2 * PI * (s * s))))).
