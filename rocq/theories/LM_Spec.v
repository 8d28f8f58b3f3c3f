(** What a user expects of bounded least squares and of run_leastsq.  Nothing here
    refers to the conversions of the code. *)
From Coq Require String.
From Verif Require Import Base Flags_Model Pixels_Model LM_Model.
Import String.StringSyntax.
Local Open Scope R_scope.
Local Open Scope string_scope.
Local Open Scope list_scope.
Local Notation string := String.string.

(** x satisfies the bound (lower, upper) *)
Definition within (b : bound) (x : R) : Prop :=
  (forall lower, fst b = Some lower -> lower <= x) /\
  (forall upper, snd b = Some upper -> x <= upper).
(** the bound can be satisfied *)
Definition consistent (b : bound) : Prop := exists x, within b x.
(** lower < upper when both are given *)
Definition open_bound (b : bound) : Prop :=
  forall lower upper, b = (Some lower, Some upper) -> lower < upper.

(** a vector whose finite entries satisfy the bounds *)
Definition inside (bounds : list bound) (x : vec) : Prop :=
  Forall2 (fun b p => forall v, p = Some v -> within b v) bounds x.

(** what is assumed of lmdif: it returns a vector as long as its start, and depends on
    the function only through its values at vectors of that length *)
Definition keeps_length (lmdif : (vec -> resx vec) -> vec -> nat -> resx lmret) : Prop :=
  forall f i k r, lmdif f i k = OkX r -> length (rt_x r) = length i.
Definition black_box (lmdif : (vec -> resx vec) -> vec -> nat -> resx lmret) : Prop :=
  forall f f' i k, (forall x, length x = length i -> f x = f' x) -> lmdif f i k = lmdif f' i k.

(** a dict *)
Fixpoint dget (d : ldict) (k : string) : option lval :=
  match d with
  | [] => None
  | (k', v) :: d => if String.eqb k' k then Some v else dget d k
  end.

(** keys of a fit result (the ones set by a fit that works) *)
Definition result_keys : list string :=
  ["flags"; "nfev"; "ier"; "errmsg"; "pars"; "pars_err"; "pars_cov0"; "pars_cov"].

(** lam is an eigenvalue of the n x n matrix M *)
Definition eigenvalue (n : nat) (M : nat -> nat -> R) (lam : R) : Prop :=
  exists v : nat -> R, (exists i, (i < n)%nat /\ v i <> 0) /\
    forall i, (i < n)%nat -> rsum (map (fun j => M i j * v j) (seq 0 n)) = lam * v i.
(** numpy's eig returns all eigenvalues *)
Definition eig_complete (eig : nat -> (nat -> nat -> R) -> option (list R)) : Prop :=
  forall n M l, eig n M = Some l -> forall lam, eigenvalue n M lam -> In lam l.

(** sum of the squares of the residuals *)
Definition chi2 (residuals : list R) : R := rsum (map (fun d => d ^ 2) residuals).
(** degrees of freedom of [size] values of which [nprior] come from priors; in k space
    each mode has two of them *)
Definition degrees (k_space : bool) (size nprior npars : nat) : Z :=
  let ndata := (Z.of_nat size - Z.of_nat nprior)%Z in
  ((if k_space then ndata / 2 else ndata) - Z.of_nat npars)%Z.

(** scipy's leastsq raises for a status it does not know *)
Definition known_status (leastsq : (vec -> resx vec) -> vec -> nat -> resx lmtup) : Prop :=
  forall f x k t, leastsq f x k = OkX t -> (0 <= tp_ier t <= 8)%Z.

(** numpy's inv returns inverses of finite matrices *)
Definition inv_correct (inv : omat -> option omat) : Prop :=
  forall n (A : nat -> nat -> R) B, inv (mkArr n n (fun i j => Some (A i j))) = Some B ->
    exists C, (forall i j, (i < n)%nat -> (j < n)%nat -> at2 B i j = Some (C i j)) /\
      forall i k, (i < n)%nat -> (k < n)%nat ->
        rsum (map (fun j => C i j * A j k) (seq 0 n)) = if Nat.eqb i k then 1 else 0.
(** inv looks only at the entries of its argument *)
Definition inv_extensional (inv : omat -> option omat) : Prop :=
  forall n f g, (forall i j, (i < n)%nat -> (j < n)%nat -> f i j = g i j) ->
    inv (mkArr n n f) = inv (mkArr n n g).

(** Gauss-Newton matrix J^T J of the internal parameters from MINPACK's output: column
    ipvt(j) of the triangular factor is row j of fjac up to the diagonal *)
Definition factor (n : nat) (fjac : nat -> nat -> R) (ipvt : list nat) (i k : nat) : R :=
  rsum (map (fun j => if Nat.eqb (nth j ipvt 0%nat) (S k) then
                        if (i <=? j)%nat then fjac j i else 0
                      else 0) (seq 0 n)).
Definition gauss_newton (n : nat) (fjac : nat -> nat -> R) (ipvt : list nat) (j k : nat) : R :=
  rsum (map (fun i => factor n fjac ipvt i j * factor n fjac ipvt i k) (seq 0 n)).

(** shapes of what MINPACK returns for n parameters *)
Definition minpack_output (n : nat) (r : lmret) : Prop :=
  length (rt_x r) = n /\ length (rt_ipvt r) = n /\ Forall (fun k => (1 <= k <= n)%nat) (rt_ipvt r).
