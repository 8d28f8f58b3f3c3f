(** The moments a user expects: complex monomials in z = du + i dv about the weight centre. *)
From Verif Require Import Base Shape_Spec Pixels_Model GMix_Model Render_Spec WSums_Model.

Fixpoint cpow (z : C) (n : nat) : C := match n with O => cone | S n => cmul z (cpow z n) end.
Definition offset (g : gauss) (p : pixel R) : C := (px_u p - g_col g, px_v p - g_row g).
Definition rad2 (g : gauss) (p : pixel R) : R := cmod2 (offset g p).

(** function of the k-th moment, named as in ngmix/moments.py:8-61; M_{ab} are the real and
    imaginary parts of r^(2m) z^n.  The two first moments are about the origin of the
    coordinates, not about the weight centre. *)
Definition moment (g : gauss) (k : nat) (p : pixel R) : R :=
  let z := offset g p in
  let r2 := rad2 g p in
  match k with
  | 0%nat => px_v p
  | 1%nat => px_u p
  | 2%nat => fst (cpow z 2)
  | 3%nat => snd (cpow z 2)
  | 4%nat => r2
  | 5%nat => 1
  | 6%nat => r2 * fst z
  | 7%nat => r2 * snd z
  | 8%nat => fst (cpow z 3)
  | 9%nat => snd (cpow z 3)
  | 10%nat => r2 ^ 2
  | 11%nat => r2 * fst (cpow z 2)
  | 12%nat => r2 * snd (cpow z 2)
  | 13%nat => fst (cpow z 4)
  | 14%nat => snd (cpow z 4)
  | 15%nat => r2 ^ 3
  | 16%nat => r2 ^ 4
  | _ => 0
  end.

Definition nmom (higher : bool) : nat := if higher then 17%nat else 6%nat.

(** pixels within maxrad of the centre of the (first component of the) weight *)
Definition used (g : gauss) (maxrad : R) (pixels : list (pixel R)) : list (pixel R) :=
  filter (fun p => Rltb (rad2 g p) (maxrad ^ 2)) pixels.

(** the sums over a list of pixels *)
Definition is_sums (gm : gmix) (g : gauss) (higher : bool) (l : list (pixel R)) (s0 s : wsums) : Prop :=
  ws_npix s = (ws_npix s0 + length l)%nat /\
  ws_wsum s = ws_wsum s0 + rsum (map (pixel_model gm) l) /\
  (forall k, (k < nmom higher)%nat ->
     ws_sums s k = ws_sums s0 k + rsum (map (fun p => pixel_model gm p * px_val p * moment g k p) l)) /\
  (forall k m, (k < nmom higher)%nat -> (m < nmom higher)%nat ->
     ws_cov s k m = ws_cov s0 k m +
       rsum (map (fun p => (pixel_model gm p)^2 * (/ px_ierr p ^ 2) * moment g k p * moment g m p) l)).

(** equality on the entries that exist *)
Definition same_sums (higher : bool) (a b : wsums) : Prop :=
  ws_npix a = ws_npix b /\ ws_wsum a = ws_wsum b /\
  (forall k, (k < nmom higher)%nat -> ws_sums a k = ws_sums b k) /\
  (forall k m, (k < nmom higher)%nat -> (m < nmom higher)%nat -> ws_cov a k m = ws_cov b k m).

(** symmetric positive semi-definite n x n matrix *)
Definition psd (n : nat) (c : nat -> nat -> R) : Prop :=
  (forall k m, (k < n)%nat -> (m < n)%nat -> c k m = c m k) /\
  (forall x : nat -> R, 0 <= rsum (map (fun k => rsum (map (fun m => x k * c k m * x m) (seq 0 n))) (seq 0 n))).
