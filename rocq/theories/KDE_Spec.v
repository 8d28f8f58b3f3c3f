(** What the KDE wrapper should do. *)
From Verif Require Import Base Pixels_Model KDE_Model.
Local Open Scope R_scope.

(** number of dimensions, number of points, coordinate j of point i *)
Definition ndims (d : kdata) : nat := match d with D1 _ => 1 | D2 a => ncol a end.
Definition npoints (d : kdata) : nat := match d with D1 l => length l | D2 a => nrow a end.
Definition coord (d : kdata) (i j : nat) : R := match d with D1 l => nth i l 0 | D2 a => at2 a i j end.

(** scipy: as many rows as dimensions of the data set, as many columns as samples *)
Definition scipy_kde {W K} (gaussian_kde : arr2 R -> res K) (resample : K -> W -> nat -> W * arr2 R) : Prop :=
  forall a k w n, gaussian_kde a = Ok k ->
    nrow (snd (resample k w n)) = nrow a /\ ncol (snd (resample k w n)) = n.

(** shape of an array *)
Definition shape_of (r : kout) : list nat :=
  match r with KScalar _ => [] | KVec l => [length l] | KMat a => [nrow a; ncol a] end.
(** the documented shape: (nrand,) or a scalar in one dimension, (ndims, nrand) or
    (ndims,) in more *)
Definition doc_shape (d : kdata) (nrand : option nat) : list nat :=
  match d, nrand with
  | D1 _, None => [] | D1 _, Some n => [n]
  | D2 a, None => [ncol a] | D2 a, Some n => [ncol a; n]
  end.
(** coordinate j of sample i of what was returned *)
Definition sample_at (r : kout) (nrand : option nat) (i j : nat) : R :=
  match r, nrand with
  | KScalar x, _ => x
  | KVec l, Some _ => nth i l 0
  | KVec l, None => nth j l 0
  | KMat a, _ => at2 a i j
  end.
