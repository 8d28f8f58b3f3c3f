(** C129: the cache of galsim objects. *)
From Coq Require Import String.
From Verif Require Import Base XReal GalsimCache_Model GalsimCache_Spec GalsimCache_Proofs.
Local Open Scope string_scope.
Local Open Scope list_scope.

(** whatever was called and switched before, a call returns, or raises, what it would without
    the cache *)
Theorem C129_transparent : forall (W V : Type) (impl : list (list xr) -> W -> string -> res V) wrepr weval l img w x,
  faithful_repr wrepr weval ->
  snd (fst (galsim_stuff impl wrepr weval (crun impl wrepr weval start l) img w x)) = impl img w x.
Proof. intros W V. exact transparent. Qed.
Print Assumptions C129_transparent.

(** the cache never holds more than 128 images, and none when caching is off; a call that
    raises leaves it as it is *)
Theorem C129_bounded : forall (W V : Type) (impl : list (list xr) -> W -> string -> res V) wrepr weval l,
  let s := crun impl wrepr weval start l in
  (length (cs_entries s) <= 128)%nat /\ (cs_use s = false -> cs_entries s = []) /\
  (faithful_repr wrepr weval -> forall img w x e, impl img w x = Raise e -> fst (fst (galsim_stuff impl wrepr weval s img w x)) = s).
Proof.
  intros W V impl wrepr weval l s. split; [apply bounded|]. split; [apply off_empty|].
  intros Hr img w x e He. apply (failed_not_kept impl wrepr weval l img w x e Hr He).
Qed.
Print Assumptions C129_bounded.

(** an image without nan that was made while caching is on is not made again as long as calls
    for at most 127 other arguments come in between, and caching is not switched off *)
Theorem C129_remembered : forall (W V : Type) (impl : list (list xr) -> W -> string -> res V) wrepr weval l img w x v U mid,
  faithful_repr wrepr weval -> cs_use (crun impl wrepr weval start l) = true -> impl img w x = Ok v -> no_nan img ->
  (length U <= 127)%nat -> calls_among wrepr U mid ->
  snd (galsim_stuff impl wrepr weval
         (crun impl wrepr weval (fst (fst (galsim_stuff impl wrepr weval (crun impl wrepr weval start l) img w x))) mid) img w x) = false.
Proof. intros W V. exact remembered. Qed.
Print Assumptions C129_remembered.

(** one image, and in between another one *)
Definition ex_impl (img : list (list xr)) (w : string) (x : string) : res nat := match img with [] => Raise ValueError | _ => Ok (length img) end.
Example C129_hypotheses_hold :
  faithful_repr (fun w : string => w) (fun s => Ok s) /\ cs_use (crun ex_impl (fun w => w) (fun s => Ok s) start [COn]) = true /\
  ex_impl [[Fin 1; Fin 2]] "w" "lanczos15" = Ok 1%nat /\ no_nan [[Fin 1; Fin 2]] /\
  calls_among (fun w : string => w) [([[Fin 0]; [PInf]], "w", "lanczos15")] [CCall [[Fin 0]; [PInf]] "w" "lanczos15"] /\
  ex_impl [] "w" "lanczos15" = Raise ValueError.
Proof.
  split; [intros w; reflexivity|]. split; [reflexivity|]. split; [reflexivity|]. split; [repeat constructor; discriminate|]. split; [|reflexivity].
  constructor; [|constructor]. split; [repeat constructor; discriminate|left; reflexivity].
Qed.
