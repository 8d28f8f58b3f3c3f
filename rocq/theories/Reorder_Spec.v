(** The same observations of the same bands in another order. *)
From Coq Require Import Permutation.
From Verif Require Import Base XReal Pixels_Model GMix_Model GMixObj_Model Priors_Model Joint_Model Fit_Model Fit_Spec.
Local Open Scope R_scope.

(** bands with their fluxes: the bands in another order, and the observations of each *)
Definition same_bands (l l' : list (R * list fobs)) : Prop :=
  exists l1, Permutation l l1 /\ Forall2 (fun x y => fst x = fst y /\ Permutation (snd x) (snd y)) l1 l'.
(** parameters are the shared ones followed by the flux of each band; the coelliptical model has one band *)
Definition reordered (m : fmodel) (obs : list (list fobs)) (p : list R) (obs' : list (list fobs)) (p' : list R) : Prop :=
  match m with
  | FName m => exists sh fl fl', p = sh ++ fl /\ p' = sh ++ fl' /\ length sh = n_shared m /\ length fl = length obs /\ length fl' = length obs' /\
                 same_bands (combine fl obs) (combine fl' obs')
  | FCoellip n => p' = p /\ length p = (4 + 2 * n)%nat /\ exists os os', obs = [os] /\ obs' = [os'] /\ Permutation os os'
  end.
(** priors that agree on the reordered parameters, with [k] residuals each *)
Definition same_prior (prior prior' : option jprior) (p p' : list R) (k : nat) : Prop :=
  prior_ok prior k /\ prior_ok prior' k /\ prior_value prior' p' = prior_value prior p /\ (prior = None <-> prior' = None).
