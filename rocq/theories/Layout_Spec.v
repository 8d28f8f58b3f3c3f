(** The same pixels laid out differently in the arrays. *)
From Coq Require Import Permutation.
From Verif Require Import Base XReal Jacobian_Model Jacobian_Spec Pixels_Model Pixels_Spec GMixObj_Model EM_Model Fit_Model Units_Spec.
Local Open Scope R_scope.

(** image, weight map and Jacobian, and another layout of them: position [rc] has moved to [s rc], where value and
    weight are those of [rc] and the Jacobian gives the same place on the sky.  [extra] is what is asked of the
    positions of the new arrays that nothing has moved to. *)
Record moved (extra : R -> Prop) (image weight : arr2 R) (j : jac) (image' weight' : arr2 R) (j' : jac) (s : nat * nat -> nat * nat) : Prop := mkMoved
  { mv_shape : nrow weight = nrow image /\ ncol weight = ncol image /\ nrow weight' = nrow image' /\ ncol weight' = ncol image';
    mv_inside : forall rc, inside image rc -> inside image' (s rc);
    mv_inj : forall a b, inside image a -> inside image b -> s a = s b -> a = b;
    mv_val : forall rc, inside image rc -> at2 image' (fst (s rc)) (snd (s rc)) = at2 image (fst rc) (snd rc);
    mv_weight : forall rc, inside image rc -> at2 weight' (fst (s rc)) (snd (s rc)) = at2 weight (fst rc) (snd rc);
    mv_place : forall rc v u, inside image rc -> maps_to j (INR (fst rc)) (INR (snd rc)) v u -> maps_to j' (INR (fst (s rc))) (INR (snd (s rc))) v u;
    mv_scale : jscale j' = jscale j;
    mv_rest : forall rc, inside image' rc -> (exists a, inside image a /\ rc = s a) \/ extra (at2 weight' (fst rc) (snd rc)) }.
(** no other positions, or only positions without weight *)
Definition nothing (_ : R) : Prop := False.
Definition no_weight (w : R) : Prop := w <= 0.

(** rows become columns *)
Definition transpose {A} (a : arr2 A) : arr2 A := mkArr (ncol a) (nrow a) (fun r c => at2 a c r).
Definition transpose_jac (j : jac) : jac := mkJac (col0 j) (row0 j) (dvdcol j) (dvdrow j) (dudcol j) (dudrow j) (- jdet j) (jscale j).
(** the last row first *)
Definition flip {A} (a : arr2 A) : arr2 A := mkArr (nrow a) (ncol a) (fun r c => at2 a (nrow a - 1 - r)%nat c).
Definition flip_jac (nr : nat) (j : jac) : jac :=
  mkJac (INR nr - 1 - row0 j) (col0 j) (- dvdrow j) (dvdcol j) (- dudrow j) (dudcol j) (- jdet j) (jscale j).
(** a border of [t] rows below, [b] above, [l] and [r] columns to the sides, filled with [x] *)
Definition pad {A} (t b l r : nat) (x : A) (a : arr2 A) : arr2 A :=
  mkArr (t + nrow a + b) (l + ncol a + r)
    (fun i k => if Nat.leb t i && Nat.ltb i (t + nrow a) && Nat.leb l k && Nat.ltb k (l + ncol a) then at2 a (i - t) (k - l) else x).
Definition pad_jac (t l : nat) (j : jac) : jac :=
  mkJac (row0 j + INR t) (col0 j + INR l) (dvdrow j) (dvdcol j) (dudrow j) (dudcol j) (jdet j) (jscale j).

(** observations whose pixels are the same, in another order *)
Definition relaid (o o' : fobs) : Prop :=
  match fo_pixels o, fo_pixels o' with Some l, Some l' => Permutation l l' | None, None => True | _, _ => False end /\
  fo_psf o' = fo_psf o.
(** the memory of an EM fit: the same mixtures, the pixels of each array in another order *)
Definition relaid_mem (m m' : emem) : Prop := em_gm m' = em_gm m /\ Forall2 (@Permutation (pixel R)) (em_px m) (em_px m').
Definition relaid_run {A} (x x' : option (emem * res A)) : Prop :=
  match x, x' with Some (m, r), Some (m', r') => relaid_mem m m' /\ r' = r | None, None => True | _, _ => False end.
