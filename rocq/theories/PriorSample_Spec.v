(** What a sampler should do, stated without the loops of the model. *)
From Verif Require Import Base XReal Priors_Model PriorSample_Model.
Local Open Scope R_scope.

(** What numpy's generator promises: as many numbers as asked, uniforms inside the half-open
    interval. *)
Definition good_rng {W} (G : rng W) : Prop :=
  (forall w a b n, length (snd (uniform G w a b n)) = n) /\
  (forall w m s n, length (snd (rnormal G w m s n)) = n) /\
  (forall w a b n, a < b -> Forall (fun x => a <= x < b) (snd (uniform G w a b n))).

(** the elements of a list that satisfy P, in order *)
Inductive selects {A} (P : A -> Prop) : list A -> list A -> Prop :=
| sel_nil : selects P [] []
| sel_keep x l k : P x -> selects P l k -> selects P (x :: l) (x :: k)
| sel_drop x l k : ~ P x -> selects P l k -> selects P (x :: l) k.

(** Rejection sampling: while n values are missing, draw n candidates, keep the accepted
    ones in the order they were drawn, and go on for what is still missing. *)
Inductive rejection {W C A} (propose : W -> nat -> W * list C) (accept : C -> Prop) (value : C -> A)
  : W -> nat -> list A -> W -> Prop :=
| rej_done w : rejection propose accept value w 0 [] w
| rej_more w n w1 cs kept rest w2 :
    (0 < n)%nat -> propose w n = (w1, cs) -> selects accept cs kept ->
    rejection propose accept value w1 (n - length kept) rest w2 ->
    rejection propose accept value w n (map value kept ++ rest) w2.

(** [run fuel w n] does rejection sampling: it never raises, returns exactly n values, and
    it ends for some number of passes exactly when rejection sampling does *)
Definition samples_by {W C A} (propose : W -> nat -> W * list C) (accept : C -> Prop) (value : C -> A)
  (run : nat -> W -> nat -> option (W * res (list A))) : Prop :=
  forall w n,
    (forall fuel w' r, run fuel w n = Some (w', r) ->
       exists vals, r = Ok vals /\ length vals = n /\ rejection propose accept value w n vals w') /\
    (forall vals w', rejection propose accept value w n vals w' -> exists fuel, run fuel w n = Some (w', Ok vals)).

(** candidates drawn as two arrays of numbers *)
Definition two_draws {W} (f g : W -> nat -> W * list R) (w : W) (n : nat) : W * list (R * R) :=
  let (w, a) := f w n in let (w, b) := g w n in (w, combine a b).
Definition three_draws {W} (f g h : W -> nat -> W * list R) (w : W) (n : nat) : W * list (R * R * R) :=
  let (w, a) := f w n in let (w, b) := g w n in let (w, c) := h w n in (w, combine (combine a b) c).
Definition scaled (k : R) {W} (f : W -> nat -> W * list R) (w : W) (n : nat) : W * list R :=
  let (w, a) := f w n in (w, map (fun x => k * x) a).

(** all returned values *)
Definition all_values {W A} (P : A -> Prop) (run : nat -> W -> nat -> option (W * res (list A))) : Prop :=
  forall fuel w n w' vals, run fuel w n = Some (w', Ok vals) -> length vals = n /\ Forall P vals.
Definition all_direct {W A} (P : A -> Prop) (run : W -> nat -> W * list A) : Prop :=
  forall w n, length (snd (run w n)) = n /\ Forall P (snd (run w n)).

(** the number scipy.optimize.minimize should find: minus the smallest value of f *)
Definition finds_min (minimize : (R -> xr) -> R -> res R) : Prop :=
  forall f x0 m, minimize f x0 = Ok m ->
    (exists g, f g = Fin (- m)) /\ (forall g y, f g = Fin y -> - m <= y).
(** Each value is drawn through the cumulative distribution: cdf of the value is the number
    drawn, in order, and the generator moves on by exactly this draw. *)
Definition transformed {W} (cdf : R -> R) (propose : W -> nat -> W * list R) (run : W -> nat -> W * list R) : Prop :=
  forall w n, fst (run w n) = fst (propose w n) /\ Forall2 (fun x u => cdf x = u) (snd (run w n)) (snd (propose w n)).
