(** Model of the equality of observations and lists of observations,
    ngmix/observation.py:738-777, 949-961, 1068-1080. *)
From Verif Require Import Base Jacobian_Model Pixels_Model Obs_Model.
From Verif Require GMix_Model GMixObj_Model.
From Coq Require String.

(** numpy broadcasting of one dimension *)
Definition bdim (n p : nat) : option nat :=
  if Nat.eqb n p then Some n else if Nat.eqb n 1 then Some p else if Nat.eqb p 1 then Some n else None.
Definition bidx (n r : nat) : nat := if Nat.eqb n 1 then O else r.
(** np.all(a == b) for 2-d arrays; shapes that cannot be broadcast raise (numpy >= 1.25) *)
Definition arr2_eq {A} (eqb : A -> A -> bool) (a b : arr2 A) : res bool :=
  match bdim (nrow a) (nrow b), bdim (ncol a) (ncol b) with
  | Some nr, Some nc =>
      Ok (forallb (fun r => forallb (fun c =>
            eqb (at2 a (bidx (nrow a) r) (bidx (ncol a) c)) (at2 b (bidx (nrow b) r) (bidx (ncol b) c)))
          (seq 0 nc)) (seq 0 nr))
  | _, _ => Raise ValueError
  end.

(** d1 == d2 for dictionaries *)
Fixpoint dict_get (d : dict) (k : String.string) : option String.string :=
  match d with [] => None | (k', v) :: d => if String.eqb k k' then Some v else dict_get d k end.
Definition dict_eqb (a b : dict) : bool :=
  Nat.eqb (length a) (length b) &&
  forallb (fun kv => match dict_get b (fst kv) with Some v => String.eqb (snd kv) v | None => false end) a.

(** "if not ...: return False", then the next attribute *)
Definition andM (x y : res bool) : res bool := let* e := x in if e then y else Ok false.

(** The test of an optional attribute, ngmix/observation.py:758-775: obs_has is computed
    from self, not from obs, so only the presence in self matters; the getter of a missing
    attribute of obs raises [missing]. *)
Definition opt_eq {A} (missing : exn) (eq : A -> A -> res bool) (a b : option A) : res bool :=
  match a, b with
  | None, _ => Ok true
  | Some _, None => Raise missing
  | Some x, Some y => eq x y
  end.
Definition content_eq (a b : content) : res bool :=
  match a, b with C2 x, C2 y => arr2_eq Reqb x y | _, _ => Raise OtherError (* excluded by the setters *) end.
(** obs.gmix returns a copy, ngmix/observation.py:613-619 *)
Definition gmobj_eq (a b : gmobj) : res bool :=
  let* x := gm_copy a in let* y := gm_copy b in
  GMix_Model.gmix_eq (GMixObj_Model.o_data x) (GMixObj_Model.o_data y).

(** ngmix/observation.py:738-777 Observation.__eq__ *)
Fixpoint obs_eq (a b : obsval) {struct a} : res bool :=
  let '(OV im w j opts g d _ _ p) := a in
  let '(OV im' w' j' opts' g' d' _ _ p') := b in
  andM (Ok (dict_eqb d d'))
 (andM (arr2_eq Reqb im im')
 (andM (arr2_eq Reqb w w')
 (andM (opt_eq AttributeError content_eq (opts SBmask) (opts' SBmask))
 (andM (opt_eq AttributeError content_eq (opts SOrmask) (opts' SOrmask))
 (andM (opt_eq AttributeError content_eq (opts SMfrac) (opts' SMfrac))
 (andM (opt_eq AttributeError content_eq (opts SNoise) (opts' SNoise))
 (andM (match p, p' with
        | None, _ => Ok true
        | Some _, None => Raise RuntimeError
        | Some x, Some y => obs_eq x y
        end)
 (andM (opt_eq RuntimeError gmobj_eq g g')
 (andM (Ok (Jacobian_eq j j'))
       (Ok (dict_eqb d d'))))))))))).

(** a list of observations with metadata *)
Record olist (A : Type) := mkOL { ol_items : list A; ol_meta : dict }.
Arguments mkOL {A}. Arguments ol_items {A}. Arguments ol_meta {A}.

(** ngmix/observation.py:949-961 ObsList.__eq__ and 1068-1080 MultiBandObsList.__eq__.  The latter
    compares bands with !=, which for an ObsList is the __ne__ of list: the same comparison of the
    items in order, except that an item is taken to be equal to itself (the same object) without
    looking at its arrays.  Values have no identity, so this shortcut is left out. *)
Fixpoint items_eq {A} (eq : A -> A -> res bool) (a b : list A) : res bool :=
  match a, b with
  | x :: a, y :: b => let* e := eq x y in if negb e then Ok false else items_eq eq a b
  | _, _ => Ok true
  end.
Definition list_eq {A} (eq : A -> A -> res bool) (a b : olist A) : res bool :=
  if negb (Nat.eqb (length (ol_items a)) (length (ol_items b))) then Ok false
  else items_eq eq (ol_items a) (ol_items b).
Definition obslist_eq : olist obsval -> olist obsval -> res bool := list_eq obs_eq.
Definition mbobs_eq : olist (olist obsval) -> olist (olist obsval) -> res bool := list_eq obslist_eq.
