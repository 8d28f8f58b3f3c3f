(** What the widths of a joint prior are. *)
From Verif Require Import Base Pixels_Model Joint_Model Joint_Spec Widths_Model.
Local Open Scope R_scope.

(** s is the standard deviation of the n values v *)
Definition is_std (v : list R) (n : nat) (s : R) : Prop :=
  length v = n /\ 0 <= s /\ exists mean, INR n * mean = rsum v /\ INR n * s ^ 2 = rsum (map (fun x => (x - mean) ^ 2) v).
(** samplers return as many values as asked for *)
Definition full1 {W} (f : sampler1 W) : Prop := forall w n, length (snd (f w n)) = n.
Definition full2 {W} (f : sampler2 W) : Prop := forall w n, length (fst (snd (f w n))) = n /\ length (snd (snd (f w n))) = n.
(** a prior that has not been asked *)
Definition new_prior {W} (w : W) (arrays : list (list R)) : wstate W := mkWs w arrays None.
Definition asked (l : list wop) : Prop := Forall (fun o => match o with Ask n => (0 < n)%nat | Write _ _ _ => False end) l.
(** the estimate asked for: one draw of n from every prior, in order; 2 for the shape *)
Definition widths_spec {W} (cen g : sampler2 W) (ps : list (sampler1 W)) (n : nat) (w : W) (out : list R) : Prop :=
  exists w1 c1 c2 w2 gs vs w3, cen w n = (w1, (c1, c2)) /\ g w1 n = (w2, gs) /\ drawn ps w2 n vs w3 /\
    exists s1 s2 ss, out = s1 :: s2 :: 2 :: 2 :: ss /\ is_std c1 n s1 /\ is_std c2 n s2 /\ Forall2 (fun v s => is_std v n s) vs ss.
