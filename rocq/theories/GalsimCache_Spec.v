(** A cache that is not noticed. *)
From Coq Require Import String.
From Verif Require Import Base XReal GalsimCache_Model.
Local Open Scope list_scope.

(** repr of a wcs evaluates to that wcs *)
Definition faithful_repr {W} (wrepr : W -> string) (weval : string -> res W) : Prop := forall w, weval (wrepr w) = Ok w.
(** all pixels are numbers *)
Definition no_nan (img : list (list xr)) : Prop := Forall (Forall (fun x => x <> NaN)) img.
(** calls for a given list of arguments only, while caching stays on *)
Definition calls_among {W} (wrepr : W -> string) (U : list (list (list xr) * string * string)) (l : list (@cop W)) : Prop :=
  Forall (fun o => match o with CCall img w x => no_nan img /\ In (img, wrepr w, x) U | COn => True | COff => False end) l.
