(** What equality of observations should mean. *)
From Verif Require Import Base Jacobian_Model Pixels_Model GMix_Spec Obs_Model.
From Verif Require GMixObj_Model.
From Coq Require String.

Definition same_arr (a b : arr2 R) : Prop :=
  nrow a = nrow b /\ ncol a = ncol b /\ forall r c, (r < nrow a)%nat -> (c < ncol a)%nat -> at2 a r c = at2 b r c.
Definition same_content (a b : content) : Prop := match a, b with C2 x, C2 y => same_arr x y | _, _ => False end.
Definition both {A} (P : A -> A -> Prop) (a b : option A) : Prop :=
  match a, b with None, None => True | Some x, Some y => P x y | _, _ => False end.
Definition same_dict (a b : dict) : Prop := forall kv, In kv a <-> In kv b.

(** all attributes agree *)
Fixpoint same_value (a b : obsval) {struct a} : Prop :=
  let '(OV im w j opts g d _ _ p) := a in
  let '(OV im' w' j' opts' g' d' _ _ p') := b in
  same_arr im im' /\ same_arr w w' /\ (forall s, both same_content (opts s) (opts' s)) /\
  match p, p' with None, None => True | Some x, Some y => same_value x y | _, _ => False end /\
  both (fun x y => same_gmix (GMixObj_Model.o_data x) (GMixObj_Model.o_data y)) g g' /\
  j = j' /\ same_dict d d'.

(** the same optional attributes, the same image sizes and sizes of mixtures *)
Definition same_size (a b : content) : Prop :=
  match a, b with C2 x, C2 y => nrow x = nrow y /\ ncol x = ncol y | _, _ => False end.
Fixpoint same_form (a b : obsval) {struct a} : Prop :=
  let '(OV im w j opts g d _ _ p) := a in
  let '(OV im' w' j' opts' g' d' _ _ p') := b in
  same_size (C2 im) (C2 im') /\ same_size (C2 w) (C2 w') /\ (forall s, both same_size (opts s) (opts' s)) /\
  match p, p' with None, None => True | Some x, Some y => same_form x y | _, _ => False end /\
  both (fun x y => length (GMixObj_Model.o_data x) = length (GMixObj_Model.o_data y)) g g'.

(** values that observations can have: dictionaries have distinct keys, optional images
    are images and the stored mixture is what copy() makes of it *)
Fixpoint proper (a : obsval) : Prop :=
  let '(OV im w j opts g d _ _ p) := a in
  NoDup (map fst d) /\ (forall s c, opts s = Some c -> exists x, c = C2 x) /\
  (forall x, g = Some x -> gm_copy x = Ok x) /\
  match p with None => True | Some x => proper x end.
