(** What a user expects of a fit with GalsimFitter. *)
From Verif Require Import Base XReal Pixels_Model Joint_Model Fit_Model Fit_Spec Galsim_Model Galsim_Spec.
Local Open Scope R_scope.

(** the observations of a fit: those that were given, or their transforms *)
Definition observations_of {G II : Type} (X : gext G II) (h : heap) (input : ginput) (obs : list (list kobs)) : Prop :=
  match input with InReal l => snd (make_kobs X h l) = Ok obs | InK l => obs = l end.
(** number of points in all images *)
Definition points (obs : list (list kobs)) : nat := list_sum (map (fun k => k_nr (ko_image k) * k_nc (ko_image k))%nat (List.concat obs)).
(** number of parameters *)
Definition gal_pars (m : gmodel) (obs : list (list kobs)) : nat := (shared m + List.length obs)%nat.
(** chi squared of all observations *)
Definition gal_chi2 (obs : list (list kobs)) (ds : list drawn) : R :=
  rsum (map (fun t => chi2_of (fst t) (snd t)) (combine (List.concat obs) ds)).
(** their weighted power *)
Definition gal_power (obs : list (list kobs)) (ds : list drawn) : R :=
  rsum (map (fun t => power (fst t) (snd t)) (combine (List.concat obs) ds)).
(** residuals of the prior: one for each parameter, but only one for the two components of the shape *)
Definition gal_terms (m : gmodel) (prior : option jprior) (obs : list (list kobs)) : nat :=
  match prior with None => 0%nat | Some _ => (gal_pars m obs - 1)%nat end.
