(** Which bits are set in a flag value, and how they are described. *)
From Coq Require Import String DecimalString Sorted.
From Verif Require Import Base.
Open Scope Z_scope.

(** ps lists the set bits of v, each once, lowest first *)
Definition set_bits (v : Z) (ps : list nat) : Prop :=
  StronglySorted lt ps /\ forall p, In p ps <-> Z.testbit v (Z.of_nat p) = true.
(** the description of bit p: the name in the map if there is one *)
Definition describes (m : list (Z * string)) (p : nat) (s : string) : Prop :=
  (In (2 ^ Z.of_nat p, s) m) \/
  ((forall s', ~ In (2 ^ Z.of_nat p, s') m) /\ s = String.append "bit 2**" (NilEmpty.string_of_uint (Nat.to_uint p))).
(** joined by "|" *)
Inductive joined : list string -> string -> Prop :=
| J0 : joined [] EmptyString
| J1 s : joined [s] s
| J2 s t l r : joined (t :: l) r -> joined (s :: t :: l) (String.append s (String.append "|" r)).
