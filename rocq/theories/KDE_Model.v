(** Model of ngmix/priors/kde.py.

    scipy.stats.gaussian_kde is a parameter: [K] is its object, [gaussian_kde] its
    constructor on an array of shape (dimensions, points) and [resample] its sampler, which
    returns an array of shape (dimensions, size).  The method of choosing the width of the
    kernel (kde_factor) is part of [gaussian_kde]. *)
From Verif Require Import Base Pixels_Model.
Local Open Scope R_scope.

(** data: one-dimensional, or with one row for each point *)
Inductive kdata := D1 (l : list R) | D2 (a : arr2 R).
(** a numpy scalar or array *)
Inductive kout := KScalar (x : R) | KVec (l : list R) | KMat (a : arr2 R).

Definition transpose (a : arr2 R) : arr2 R := mkArr (ncol a) (nrow a) (fun i j => at2 a j i).
(** transpose does nothing to a 1-d array, of which gaussian_kde makes one row (atleast_2d) *)
Definition kde_rows (d : kdata) : arr2 R :=
  match d with
  | D1 l => mkArr 1 (length l) (fun _ j => nth j l 0)
  | D2 a => transpose a
  end.

Section KDE.
Variables (W K : Type).
Variable gaussian_kde : arr2 R -> res K.
Variable resample : K -> W -> nat -> W * arr2 R.

Record kde := mkKDE { kd_1d : bool; kd_kde : K }.
(** ngmix/priors/kde.py:20-29 __init__ *)
Definition kde_init (data : kdata) : res kde :=
  let is_1d := match data with D1 _ => true | D2 _ => false end in
  let* k := gaussian_kde (kde_rows data) in
  Ok (mkKDE is_1d k).
(** r[:, 0] *)
Definition col0 (a : arr2 R) : res (list R) :=
  if Nat.ltb 0 (ncol a) then Ok (map (fun i => at2 a i 0%nat) (seq 0 (nrow a))) else Raise IndexError.
(** r[0] *)
Definition first (r : kout) : res kout :=
  match r with
  | KScalar _ => Raise IndexError
  | KVec (x :: _) => Ok (KScalar x)
  | KVec [] => Raise IndexError
  | KMat a => if Nat.ltb 0 (nrow a) then Ok (KVec (map (fun j => at2 a 0%nat j) (seq 0 (ncol a)))) else Raise IndexError
  end.
(** ngmix/priors/kde.py:31-67 sample *)
Definition kde_sample (k : kde) (w : W) (nrand : option nat) : W * res kout :=
  let n := match nrand with None => 1%nat | Some n => n end in
  let (w, a) := resample (kd_kde k) w n in
  let r := transpose a in
  (w, let* r := if kd_1d k then rmap KVec (col0 r) else Ok (KMat r) in
      match nrand with None => first r | Some _ => Ok r end).
End KDE.
Arguments kde_init {K} gaussian_kde data.
Arguments kde_sample {W K} resample k w nrand.
