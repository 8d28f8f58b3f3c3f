(** Model of the cache of galsim objects, ngmix/metacal/metacal.py:24-59, with functools.lru_cache.

    galsim is external: [impl] makes the two objects (or raises) from the pixels of an image, a wcs
    and the name of an interpolant.  An image is the list of its rows, at least one, all of one
    length.  The objects are values: metacal only reads them, and copies psf_image before drawing on
    the copy (metacal.py:270-276). *)
From Coq Require Import String.
From Verif Require Import Base XReal.
Local Open Scope list_scope.

Section Cache.
Context {W V : Type}.
Variable impl : list (list xr) -> W -> string -> res V.   (* _galsim_stuff_impl, metacal.py:49-53 *)
Variable wrepr : W -> string.                             (* repr(wcs) *)
Variable weval : string -> res W.                         (* eval(wcs_repr) *)

(** the arguments of the cached function.  == of tuples compares items with ==, so an image with a
    nan is not equal to any other tuple (its floats are new objects every time) *)
Definition ckey := (list (list xr) * string * string)%type.
Fixpoint list_eqb {A} (eq : A -> A -> bool) (a b : list A) : bool :=
  match a, b with
  | [], [] => true
  | x :: a, y :: b => eq x y && list_eqb eq a b
  | _, _ => false
  end.
Definition ckey_eqb (a b : ckey) : bool :=
  let '(i, w, x) := a in let '(j, v, y) := b in list_eqb (list_eqb xeqb) i j && String.eqb w v && String.eqb x y.

(** functools.lru_cache(maxsize=128): entries from the most to the least recently used; nothing is
    kept of a call that raises.  The flag says whether the function was called. *)
Definition maxsize : nat := 128.
Fixpoint take (d : list (ckey * V)) (k : ckey) : option (V * list (ckey * V)) :=
  match d with
  | [] => None
  | (k', v) :: d => if ckey_eqb k' k then Some (v, d)
                    else match take d k with None => None | Some (u, d) => Some (u, (k', v) :: d) end
  end.
Definition lru (f : ckey -> res V) (d : list (ckey * V)) (k : ckey) : list (ckey * V) * res V * bool :=
  match take d k with
  | Some (v, d') => ((k, v) :: d', Ok v, false)
  | None => match f k with
            | Raise e => (d, Raise e, true)
            | Ok v => (firstn maxsize ((k, v) :: d), Ok v, true)
            end
  end.
(** metacal.py:56-59 *)
Definition cached_body (k : ckey) : res V := let '(img, w, x) := k in let* w := weval w in impl img w x.

Record cstate := mkCs { cs_use : bool; cs_entries : list (ckey * V) }.
Definition start : cstate := mkCs false [].
(** metacal.py:27-29 *)
Definition turn_on (s : cstate) : cstate := mkCs true (cs_entries s).
(** metacal.py:32-35 *)
Definition turn_off (s : cstate) : cstate := mkCs false [].
(** metacal.py:38-46 *)
Definition galsim_stuff (s : cstate) (img : list (list xr)) (w : W) (x : string) : cstate * res V * bool :=
  if cs_use s then
    let '(d, r, called) := lru cached_body (cs_entries s) (img, wrepr w, x) in (mkCs true d, r, called)
  else (s, impl img w x, true).

(** what a program does with it *)
Inductive cop := COn | COff | CCall (img : list (list xr)) (w : W) (x : string).
Definition cstep (s : cstate) (o : cop) : cstate :=
  match o with COn => turn_on s | COff => turn_off s | CCall img w x => fst (fst (galsim_stuff s img w x)) end.
Definition crun (s : cstate) (l : list cop) : cstate := fold_left cstep l s.
End Cache.
