(** Models by name and by number. *)
From Coq Require Import String.
From Verif Require Import Base ModelTable_Model.
Local Open Scope string_scope.
Local Open Scope list_scope.

(** the names of the documentation, with the values of the constants GMIX_... *)
Definition documented : list (string * Z) :=
  [("full", 0%Z); ("gauss", 1%Z); ("turb", 2%Z); ("exp", 3%Z); ("dev", 4%Z); ("bdc", 5%Z); ("bdf", 6%Z); ("coellip", 7%Z); ("cm", 9%Z); ("bd", 10%Z)].
(** k is model s of number n *)
Definition is_model (k : mkey) (s : string) (n : Z) : Prop := In (s, n) documented /\ (k = KStr s \/ k = KNum n).
Definition unknown (k : mkey) : Prop := forall s n, ~ is_model k s n.
(** a function of the model does not care how it is given *)
Definition by_model {A} (f : mkey -> A) : Prop := forall s n, In (s, n) documented -> f (KStr s) = f (KNum n).
(** models of fixed size: name, number of gaussians, number of parameters *)
Definition sizes : list (string * nat * nat) :=
  [("gauss", 1, 6); ("turb", 3, 6); ("exp", 6, 6); ("dev", 10, 6); ("cm", 16, 6); ("bd", 16, 8); ("bdf", 16, 7); ("bdc", 16, 8)]%nat.
