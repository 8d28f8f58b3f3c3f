(** Lists of mixtures, ngmix/gmix/gmix_lists.py, and the loop of the fits that fills them.
    A mixture is an object of class GMix or of a class that inherits from it; only its
    identity is kept here, its parameters are in GMix_Model.v. *)
From Verif Require Import Base ObsList_Model.
From Coq Require Import ZArith List.
Import ListNotations.

(** the classes GMixList (ngmix/gmix/gmix_lists.py:6-27) and MultiBandGMixList (30-56) *)
Inductive gcls := GList | GMulti.
(** an object: a mixture, a list of one of the two classes, or anything else *)
Inductive gref := GMixture (i : nat) | GRef (l : nat) | GElse.
Record glist := mkGl { gl_cls : gcls; gl_items : list gref }.
Definition gmem := list glist.

Definition GM (A : Type) := gmem -> gmem * res A.
Definition gret {A} (a : A) : GM A := fun m => (m, Ok a).
Definition gfail {A} (e : exn) : GM A := fun m => (m, Raise e).
Definition gbind {A B} (x : GM A) (f : A -> GM B) : GM B :=
  fun m => match x m with (m', Ok a) => f a m' | (m', Raise e) => (m', Raise e) end.
Notation "'gdo' x <- e ;; f" := (gbind e (fun x => f)) (at level 200, x name, e at level 100, f at level 200).

Definition gl_get (l : nat) : GM glist :=
  fun m => match nth_error m l with Some c => (m, Ok c) | None => (m, Raise AttributeError) end.
Definition gl_put (l : nat) (xs : list gref) : GM unit :=
  fun m => match nth_error m l with
           | Some c => (Jacobian_Model.upd m l (mkGl (gl_cls c) xs), Ok tt)
           | None => (m, Raise AttributeError)
           end.
(** isinstance(x, GMix) for a GMixList and isinstance(x, GMixList) for a MultiBandGMixList *)
Definition gl_accepts (c : gcls) (x : gref) : GM bool :=
  fun m => match c, x with
           | GList, GMixture _ => (m, Ok true)
           | GMulti, GRef l => (m, Ok (match nth_error m l with Some (mkGl GList _) => true | _ => false end))
           | _, _ => (m, Ok false)
           end.

(** the constructor, inherited from list: the elements are not looked at *)
Definition gl_new (c : gcls) (xs : list gref) : GM nat := fun m => (m ++ [mkGl c xs], Ok (length m)).
(** ngmix/gmix/gmix_lists.py:13-20 and 38-47 append *)
Definition gl_append (l : nat) (x : gref) : GM unit :=
  gdo c <- gl_get l ;;
  gdo b <- gl_accepts (gl_cls c) x ;;
  if b then gl_put l (gl_items c ++ [x]) else gfail AssertionError.
(** ngmix/gmix/gmix_lists.py:22-27 and 49-56 __setitem__ with an integer *)
Definition gl_setitem (l : nat) (i : Z) (x : gref) : GM unit :=
  gdo c <- gl_get l ;;
  gdo b <- gl_accepts (gl_cls c) x ;;
  if b then match list_index (length (gl_items c)) i with
            | Some k => gl_put l (Jacobian_Model.upd (gl_items c) k x)
            | None => gfail IndexError
            end
  else gfail AssertionError.
(** __setitem__ with the slice a:b, a <= b: after the same check the slice is replaced by the
    elements of x; a GMix has __len__ (ngmix/gmix/gmix.py:879-883) but neither __iter__ nor __getitem__ *)
Definition gl_setslice (l a b : nat) (x : gref) : GM unit :=
  gdo c <- gl_get l ;;
  gdo t <- gl_accepts (gl_cls c) x ;;
  if t then match x with
            | GRef k => gdo d <- gl_get k ;; gl_put l (firstn a (gl_items c) ++ gl_items d ++ skipn b (gl_items c))
            | _ => gfail TypeError
            end
  else gfail AssertionError.
(** inherited from list: extend, which is also +=, insert, and del with an integer *)
Definition gl_extend (l : nat) (xs : list gref) : GM unit :=
  gdo c <- gl_get l ;; gl_put l (gl_items c ++ xs).
Definition gl_insert (l k : nat) (x : gref) : GM unit :=
  gdo c <- gl_get l ;; gl_put l (firstn k (gl_items c) ++ x :: skipn k (gl_items c)).
Definition gl_delitem (l : nat) (i : Z) : GM unit :=
  gdo c <- gl_get l ;;
  match list_index (length (gl_items c)) i with
  | Some k => gl_put l (firstn k (gl_items c) ++ skipn (S k) (gl_items c))
  | None => gfail IndexError
  end.

(** what a program can do with the lists; an exception is caught and the program goes on *)
Inductive gop :=
| ONew (c : gcls) (xs : list gref) | OAppend (l : nat) (x : gref) | OSetItem (l : nat) (i : Z) (x : gref)
| OSetSlice (l a b : nat) (x : gref) | OExtend (l : nat) (xs : list gref) | OInsert (l k : nat) (x : gref)
| ODelItem (l : nat) (i : Z).
Definition gstep (o : gop) : GM unit :=
  match o with
  | ONew c xs => gdo _ <- gl_new c xs ;; gret tt
  | OAppend l x => gl_append l x
  | OSetItem l i x => gl_setitem l i x
  | OSetSlice l a b x => gl_setslice l a b x
  | OExtend l xs => gl_extend l xs
  | OInsert l k x => gl_insert l k x
  | ODelItem l i => gl_delitem l i
  end.
Fixpoint gexec (m : gmem) (p : list gop) : gmem :=
  match p with [] => m | o :: q => gexec (fst (gstep o m)) q end.

(** ngmix/fitting/results.py:261-298 _init_gmix_all, the lists only: for every band the pairs
    (gm0, gm) its observations give, see Fit_Model.v for their values *)
Fixpoint init_band (l0 l : nat) (gms : list (gref * gref)) : GM unit :=
  match gms with
  | [] => gret tt
  | (gm0, gm) :: r => gdo _ <- gl_append l0 gm0 ;; gdo _ <- gl_append l gm ;; init_band l0 l r
  end.
Fixpoint init_bands (all0 all : nat) (bands : list (list (gref * gref))) : GM unit :=
  match bands with
  | [] => gret tt
  | gms :: r =>
      gdo l0 <- gl_new GList [] ;;
      gdo l <- gl_new GList [] ;;
      gdo _ <- init_band l0 l gms ;;
      gdo _ <- gl_append all0 (GRef l0) ;;
      gdo _ <- gl_append all (GRef l) ;;
      init_bands all0 all r
  end.
Definition init_gmix_all (bands : list (list (gref * gref))) : GM (nat * nat) :=
  gdo all0 <- gl_new GMulti [] ;;
  gdo all <- gl_new GMulti [] ;;
  gdo _ <- init_bands all0 all bands ;;
  gret (all0, all).
