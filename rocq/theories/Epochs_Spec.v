(** A fit to several bands and epochs, and fits to each of its observations alone. *)
From Verif Require Import Base XReal GMix_Model GMixObj_Model Fit_Model.
Local Open Scope R_scope.

(** bdc has no fill function *)
Definition fit_model (m : fmodel) : Prop := match m with FName m => m <> Mbdc | FCoellip _ => True end.
(** the parameters of band [b]: the shared ones, then the flux of the band; a coelliptical model has one band *)
Definition band_parameters (m : fmodel) (p : list R) (b : nat) : list R :=
  match m with FName m => firstn (flux_start m) p ++ [nth (flux_start m + b) p 0] | FCoellip _ => p end.
(** all observations, in order, each with the parameters of its band *)
Fixpoint epochs (m : fmodel) (p : list R) (b : nat) (obs : list (list fobs)) : list (list R * fobs) :=
  match obs with [] => [] | os :: obs => map (pair (band_parameters m p b)) os ++ epochs m p (S b) obs end.
(** [r] holds the sums of the [rs], and the log prior *)
Definition sum_of (logprior : xr) (r : lnres) (rs : list lnres) : Prop :=
  l_lnprob r = xadd (fold_right xadd (Fin 0) (map l_lnprob rs)) logprior /\ l_numer r = rsum (map l_numer rs) /\ l_denom r = rsum (map l_denom rs) /\
  l_npix r = list_sum (map l_npix rs).
