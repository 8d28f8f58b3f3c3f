(** get_widths of the joint priors.

    The prior holds the state of the random generator and the cached array; arrays handed out
    are addresses in a list of arrays, so that a caller can write to them.  sample is any
    function of the state of the generator, as in Joint_Model. *)
From Verif Require Import Base Pixels_Model.
Local Open Scope R_scope.

Section Widths.
Variable W : Type.
Variable sample : W -> nat -> W * arr2 R.

Record wstate := mkWs { ws_rng : W; ws_arrays : list (list R); ws_cache : option nat }.

(** samples.std(axis=0), one column: numpy divides by the number of samples *)
Definition col_values (m : arr2 R) (c : nat) : list R := map (fun r => at2 m r c) (seq 0 (nrow m)).
Definition np_std (l : list R) : R :=
  let n := INR (length l) in
  let mu := rsum l / n in
  sqrt (rsum (map (fun x => (x - mu) ^ 2) l) / n).

(** sigmas[i] = x; the joint priors have four or more parameters *)
Fixpoint put (l : list R) (i : nat) (x : R) : list R :=
  match l, i with
  | [], _ => []
  | _ :: l, O => x :: l
  | a :: l, S i => a :: put l i x
  end.

(** ngmix/joint_prior.py:63-84 get_widths; None: nan for the widths of no samples *)
Definition get_widths (s : wstate) (nrand : nat) : option (wstate * nat) :=
  match ws_cache s with
  | Some i => Some (s, i)
  | None =>
      if Nat.eqb nrand 0 then None else
      let (w, m) := sample (ws_rng s) nrand in
      let sigmas := map (fun c => np_std (col_values m c)) (seq 0 (ncol m)) in
      let sigmas := put sigmas 2 2 in
      let sigmas := put sigmas 3 2 in
      let i := length (ws_arrays s) in
      Some (mkWs w (ws_arrays s ++ [sigmas]) (Some i), i)
  end.

(** what a caller can do: ask, or write to an array *)
Inductive wop := Ask (nrand : nat) | Write (i k : nat) (x : R).
Fixpoint put_array (l : list (list R)) (i k : nat) (x : R) : list (list R) :=
  match l, i with
  | [], _ => []
  | a :: l, O => put a k x :: l
  | a :: l, S i => a :: put_array l i k x
  end.
Definition wstep (s : wstate) (o : wop) : option wstate :=
  match o with
  | Ask n => match get_widths s n with Some (s, _) => Some s | None => None end
  | Write i k x => Some (mkWs (ws_rng s) (put_array (ws_arrays s) i k x) (ws_cache s))
  end.
Fixpoint wrun (s : wstate) (l : list wop) : option wstate :=
  match l with
  | [] => Some s
  | o :: l => match wstep s o with Some s => wrun s l | None => None end
  end.
(** the values of the answer, as they are when the call returns *)
Definition answer (s : wstate) (n : nat) : option (list R) :=
  match get_widths s n with Some (s, i) => nth_error (ws_arrays s) i | None => None end.
End Widths.
Arguments mkWs {W} _ _ _.
Arguments ws_rng {W} _. Arguments ws_arrays {W} _. Arguments ws_cache {W} _.
Arguments get_widths {W} _ _ _. Arguments wstep {W} _ _ _. Arguments wrun {W} _ _ _. Arguments answer {W} _ _ _.
