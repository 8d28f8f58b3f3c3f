(** What a multi-dimensional mixture is, independently of how it is evaluated. *)
From Verif Require Import Base XReal GMixND_Model.
Local Open Scope R_scope.

Definition sum_n (n : nat) (f : nat -> R) : R := rsum (map f (seq 0 n)).

(** the determinant, expanded along the first row *)
Fixpoint mdet (n : nat) (M : mat) : R :=
  match n with
  | O => 1
  | S k => sum_n n (fun j => (-1) ^ j * M 0%nat j * mdet k (fun a b => M (S a) (if Nat.ltb b j then b else S b)))
  end.

Definition delta (i j : nat) : R := if Nat.eqb i j then 1 else 0.
(** V is the inverse of the d by d matrix M *)
Definition inverse (d : nat) (M V : mat) : Prop :=
  (forall i j, (i < d)%nat -> (j < d)%nat -> sum_n d (fun k => V i k * M k j) = delta i j) /\
  (forall i j, (i < d)%nat -> (j < d)%nat -> sum_n d (fun k => M i k * V k j) = delta i j).

(** q is the squared distance of v in units of the covariance M: v . y where M y = v *)
Definition distance2 (d : nat) (M : mat) (v : nat -> R) (q : R) : Prop :=
  exists y, (forall i, (i < d)%nat -> sum_n d (fun j => M i j * y j) = v i) /\ q = sum_n d (fun i => v i * y i).

(** the density of one gaussian at a place where that distance is q *)
Definition gauss_density (d : nat) (M : mat) (q : R) : R := exp (- (1/2) * q) / sqrt ((2 * PI) ^ d * mdet d M).

(** the mixture of the attributes weights, means, covars; p is its density at v *)
Definition covar_of (x : mixture) (i : nat) : mat := match x_covars x with Covars3 c => at3 c i | _ => fun _ _ => 0 end.
Definition component_density (x : mixture) (v : nat -> R) (i : nat) (p : R) : Prop :=
  exists q, distance2 (x_ndim x) (covar_of x i) (fun j => v j - at2d (x_means x) i j) q /\
            p = at1 (x_weights x) i * gauss_density (x_ndim x) (covar_of x i) q.
Definition density (x : mixture) (v : nat -> R) (p : R) : Prop :=
  exists ps, (forall i, (i < x_ngauss x)%nat -> component_density x v i (ps i)) /\ p = sum_n (x_ngauss x) ps.

(** a mixture as documented: arrays of the right shapes, weights that are not negative,
    covariances of positive determinant *)
Record proper (x : mixture) : Prop := mkProper
  { pr_n : len1 (x_weights x) = x_ngauss x /\ nr2 (x_means x) = x_ngauss x;
    pr_d : nc2 (x_means x) = x_ndim x;
    pr_cov : exists f, x_covars x = Covars3 (mkA3 (x_ngauss x) (x_ndim x) (x_ndim x) f);
    pr_w : forall i, (i < x_ngauss x)%nat -> 0 <= at1 (x_weights x) i;
    pr_pos : forall i, (i < x_ngauss x)%nat -> 0 < mdet (x_ndim x) (covar_of x i) }.
(** linalg.inv and linalg.det do what they should on the covariances of the mixture *)
Definition linalg_ok {W} (X : ext W) (x : mixture) : Prop :=
  forall i, (i < x_ngauss x)%nat ->
    e_det X (x_ndim x) (covar_of x i) = mdet (x_ndim x) (covar_of x i) /\
    exists V, e_inv X (x_ndim x) (covar_of x i) = Ok V /\ inverse (x_ndim x) (covar_of x i) V.

(** a point of finite coordinates, of the dimension of the mixture *)
Definition point (d : nat) (v : nat -> R) : arr1 xr := mkA1 d (fun j => Fin (v j)).

Definition is_setter (op : nd_op) : bool := match op with OpSet _ _ _ | OpLoad | OpFit _ _ => true | _ => false end.
Definition replaces (op : nd_op) : bool := match op with OpSet _ _ _ | OpLoad => true | _ => false end.
(** a run of calls, any of which may have raised, except those that set the mixture *)
Inductive runs {W} (X : ext W) : W * gmixnd -> list nd_op -> W * gmixnd -> Prop :=
| runs_nil ws : runs X ws [] ws
| runs_cons ws op wd s b ops ws' : nd_step X ws op = Some (wd, s, b) -> (is_setter op = true -> b = true) ->
    runs X (wd, s) ops ws' -> runs X ws (op :: ops) ws'.
(** a run of calls, any of which may have raised *)
Inductive runs_any {W} (X : ext W) : W * gmixnd -> list nd_op -> W * gmixnd -> Prop :=
| any_nil ws : runs_any X ws [] ws
| any_cons ws op wd s b ops ws' : nd_step X ws op = Some (wd, s, b) ->
    runs_any X (wd, s) ops ws' -> runs_any X ws (op :: ops) ws'.

(** the sklearn object of the current mixture *)
Definition gmm_of (x : mixture) : gmm := mkGmm (x_weights x) (x_means x) (x_covars x).
(** sklearn's fits give 3-dimensional covariances *)
Definition fits_full {W} (X : ext W) : Prop := forall wd data n wd' g, e_fit X wd data n = (wd', Ok g) -> exists c, q_covars g = Covars3 c.
(** linalg is right about numbers *)
Definition linalg_numbers {W} (X : ext W) : Prop :=
  forall M : mat, 0 < M 0%nat 0%nat -> e_det X 1 M = M 0%nat 0%nat /\ exists V, e_inv X 1 M = Ok V /\ V 0%nat 0%nat = / M 0%nat 0%nat.
