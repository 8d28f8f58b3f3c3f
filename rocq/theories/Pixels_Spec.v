(** The pixel list a user expects: one entry per usable pixel, in row-major order. *)
From Verif Require Import Base Jacobian_Model Jacobian_Spec XReal Pixels_Model.
From Coq Require Import Sorted.

Definition inside {A} (a : arr2 A) (rc : nat * nat) : Prop :=
  (fst rc < nrow a)%nat /\ (snd rc < ncol a)%nat.

(** row-major order of positions *)
Definition before (a b : nat * nat) : Prop :=
  (fst a < fst b)%nat \/ (fst a = fst b /\ (snd a < snd b)%nat).

(** the entry p describes position rc *)
Definition describes (image weight : arr2 R) (j : jac) (rc : nat * nat) (p : pixel R) : Prop :=
  let '(r, c) := rc in
  maps_to j (INR r) (INR c) (px_v p) (px_u p) /\
  px_area p = jscale j ^ 2 /\
  px_val p = at2 image r c /\
  px_ierr p = sqrt (Rmax (at2 weight r c) 0).
