(** Covariance matrices and their transformation under a shear, written with plain
    2x2 matrices. *)
From Verif Require Import Base.

(** symmetric 2x2 matrix  [[xx, xy], [xy, yy]]; x is the column (u) axis *)
Record sym2 := mkSym { xx : R; xy : R; yy : R }.

Definition det2 (m : sym2) : R := xx m * yy m - xy m * xy m.
Definition trace2 (m : sym2) : R := xx m + yy m.
Definition posdef (m : sym2) : Prop := 0 < xx m /\ 0 < det2 m.

(** S M S^T for S = [[a, b], [c, d]] *)
Definition conj2 (a b c d : R) (m : sym2) : sym2 :=
  mkSym (a*a*xx m + 2*a*b*xy m + b*b*yy m)
        (a*c*xx m + (a*d+b*c)*xy m + b*d*yy m)
        (c*c*xx m + 2*c*d*xy m + d*d*yy m).

Definition scale2 (k : R) (m : sym2) : sym2 := mkSym (k * xx m) (k * xy m) (k * yy m).

(** the shear (s1,s2) acts on positions by the matrix [[1+s1, s2], [s2, 1-s1]],
    normalised to determinant one: on covariances by S M S^T / (1 - s1^2 - s2^2) *)
Definition sheared (s1 s2 : R) (m : sym2) : sym2 :=
  scale2 (/ (1 - s1*s1 - s2*s2)) (conj2 (1+s1) s2 s2 (1-s1) m).

(** the raw moments (irr, irc, icc) as a matrix *)
Definition cov (irr irc icc : R) : sym2 := mkSym icc irc irr.

(** the shape (e1,e2) and size T of a covariance *)
Definition has_shape (m : sym2) (e1 e2 T : R) : Prop :=
  T = trace2 m /\ e1 * T = xx m - yy m /\ e2 * T = 2 * xy m.
