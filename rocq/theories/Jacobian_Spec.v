(** What a Jacobian means: the affine map (row,col) -> (v,u) and its determinant. *)
From Verif Require Import Base Jacobian_Model.

(** (v,u) is the image of (row,col) under the linear map about the centre *)
Definition maps_to (j : jac) (row col v u : R) : Prop :=
  v = dvdrow j * (row - row0 j) + dvdcol j * (col - col0 j) /\
  u = dudrow j * (row - row0 j) + dudcol j * (col - col0 j).

Definition true_det (j : jac) : R := dvdrow j * dudcol j - dvdcol j * dudrow j.

(** the redundant fields agree with the matrix *)
Definition consistent (j : jac) : Prop :=
  jdet j = true_det j /\ jscale j = sqrt (Rabs (true_det j)).

(** same linear part *)
Definition same_matrix (a b : jac) : Prop :=
  dvdrow a = dvdrow b /\ dvdcol a = dvdcol b /\ dudrow a = dudrow b /\ dudcol a = dudcol b.

Definition targets (o : jop) (i : nat) : Prop :=
  match o with JSetCen k _ => k = i | JCopy _ => False end.
