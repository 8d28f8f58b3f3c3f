(** What the lists of mixtures promise. *)
From Verif Require Import Base GMixLists_Model.
From Coq Require Import ZArith List.
Import ListNotations.

(** x is a mixture; x is a list of mixtures *)
Definition is_mixture (x : gref) : Prop := exists i, x = GMixture i.
Definition is_list (m : gmem) (x : gref) : Prop := exists l xs, x = GRef l /\ nth_error m l = Some (mkGl GList xs).
Definition allowed (m : gmem) (c : gcls) (x : gref) : Prop :=
  match c with GList => is_mixture x | GMulti => is_list m x end.
(** every list holds what its class promises *)
Definition lists_typed (m : gmem) : Prop :=
  forall l c, nth_error m l = Some c -> Forall (allowed m (gl_cls c)) (gl_items c).

(** the operations that are checked or cannot go wrong: empty constructor, append, assignment to
    an integer index, deletion *)
Definition gchecked (o : gop) : Prop :=
  match o with
  | ONew _ xs => xs = []
  | OAppend _ _ | OSetItem _ _ _ | ODelItem _ _ => True
  | OSetSlice _ _ _ _ | OExtend _ _ | OInsert _ _ _ => False
  end.

(** only the list l changed, and it has the items xs now *)
Definition only_items (m m' : gmem) (l : nat) (xs : list gref) : Prop :=
  length m' = length m /\
  (exists c, nth_error m l = Some c /\ nth_error m' l = Some (mkGl (gl_cls c) xs)) /\
  (forall k, k <> l -> nth_error m' k = nth_error m k).

(** the list l of class MultiBandGMixList holds GMixLists with the given mixtures *)
Definition holds_bands (m : gmem) (l : nat) (ls : list nat) (bands : list (list gref)) : Prop :=
  nth_error m l = Some (mkGl GMulti (map GRef ls)) /\
  Forall2 (fun k xs => nth_error m k = Some (mkGl GList xs)) ls bands.
