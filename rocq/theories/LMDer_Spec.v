(** Derivatives of several functions of several variables. *)
From Verif Require Import Base Flags_Model Pixels_Model LM_Model LM_Spec.
Local Open Scope R_scope.

(** the i-th entry replaced *)
Fixpoint set_nth (x : list R) (i : nat) (t : R) : list R :=
  match x, i with
  | [], _ => []
  | _ :: x, O => t :: x
  | a :: x, S i => a :: set_nth x i t
  end.
(** [d] is the derivative of the j-th value of [f] with respect to the i-th variable at [x] *)
Definition partial (f : list R -> list R) (j i : nat) (x : list R) (d : R) : Prop :=
  derivable_pt_lim (fun t => nth j (f (set_nth x i t)) 0) (nth i x 0) d.
(** a function as the solvers see it, on vectors of length n *)
Definition computes (n m : nat) (func : vec -> resx vec) (f : list R -> list R) : Prop :=
  forall x, length x = n -> length (f x) = m /\ func (map Some x) = OkX (map Some (f x)).
(** an array of all its derivatives at [x]: one row for each value, or one for each variable *)
Definition jacobian_rows (n m : nat) (f : list R -> list R) (x : list R) (J : omat) : Prop :=
  nrow J = m /\ ncol J = n /\ forall j i, (j < m)%nat -> (i < n)%nat -> exists d, at2 J j i = Some d /\ partial f j i x d.
Definition jacobian_cols (n m : nat) (f : list R -> list R) (x : list R) (J : omat) : Prop :=
  nrow J = n /\ ncol J = m /\ forall j i, (j < m)%nat -> (i < n)%nat -> exists d, at2 J i j = Some d /\ partial f j i x d.
(** a problem given to a solver whose derivatives are those of its function; [down] says how the array is laid out *)
Definition with_derivatives (down : bool) (n m : nat) (func : vec -> resx vec) (Dfun : vec -> resx omat) : Prop :=
  exists f, computes n m func f /\
    forall x, length x = n -> exists J, Dfun (map Some x) = OkX J /\ (if down then jacobian_cols n m f x J else jacobian_rows n m f x J).

(** what is assumed of lmder, as of lmdif in LM_Spec.v *)
Definition d_keeps_length (lmder : (vec -> resx vec) -> (vec -> resx omat) -> vec -> nat -> nat -> resx lmret) : Prop :=
  forall f D i c k r, lmder f D i c k = OkX r -> length (rt_x r) = length i.
Definition d_black_box (lmder : (vec -> resx vec) -> (vec -> resx omat) -> vec -> nat -> nat -> resx lmret) : Prop :=
  forall f f' D D' i c k, (forall x, length x = length i -> f x = f' x) -> (forall x, length x = length i -> D x = D' x) ->
    lmder f D i c k = lmder f' D' i c k.

(** an example: x and x + y of two variables, the first bounded below by 0 *)
Definition two_values (x : list R) : list R := [nth 0 x 0; nth 0 x 0 + nth 1 x 0].
Definition two_func (x : vec) : resx vec :=
  OkX [nth 0 x None; match nth 0 x None, nth 1 x None with Some a, Some b => Some (a + b) | _, _ => None end].
(** row i: derivatives with respect to variable i *)
Definition two_down (x : vec) : resx omat :=
  OkX (mkArr 2 2 (fun i j => Some (match i, j with 0%nat, _ => 1 | _, 0%nat => 0 | _, _ => 1 end))).
(** row j: derivatives of value j *)
Definition two_across (x : vec) : resx omat :=
  OkX (mkArr 2 2 (fun j i => Some (match i, j with 0%nat, _ => 1 | _, 0%nat => 0 | _, _ => 1 end))).
Definition two_bounds : list bound := [(Some 0, None); (None, None)].
(** a solver that evaluates the function and the derivatives at the start and stops there *)
Definition stay (f : vec -> resx vec) (D : vec -> resx omat) (i : vec) (c k : nat) : resx lmret :=
  bindx (f i) (fun _ => bindx (D i) (fun _ => OkX (mkRet i (fun _ _ => Some 1) (seq 1 (length i)) 3 1))).
