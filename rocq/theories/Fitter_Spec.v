(** What a user expects of a fit with Fitter. *)
From Verif Require Import Base XReal Pixels_Model GMix_Model GMixObj_Model Joint_Model Fit_Model Fit_Spec LM_Model LM_Spec.
Local Open Scope R_scope.

(** shapes of what the minimizers and numpy.linalg.inv return *)
Definition minimizer_shapes (lmdif : (vec -> resx vec) -> vec -> nat -> resx lmret)
    (leastsq : (vec -> resx vec) -> vec -> nat -> resx lmtup) (inv : omat -> option omat) : Prop :=
  keeps_length lmdif /\
  (forall f x k t, leastsq f x k = OkX t -> length (tp_x t) = length x /\ forall c, tp_cov t = Some c -> nrow c = length x) /\
  (forall A B, inv A = Some B -> nrow B = nrow A).

(** number of terms of the prior of a fit *)
Definition terms_of (m : fmodel) (prior : option jprior) (nband : nat) : nat :=
  match prior with None => 0 | Some _ => prior_terms m nband end.

(** a bound, as the user of a prior understands it *)
Definition bound_of (b : bentry) : bound := match b with BPair lo hi => (lo, hi) | BNested lo hi => (lo, hi) end.

(** the residuals that the covariance is scaled with.  A user expects all of them; with a
    prior the models other than bd, bdf and coellip lose the first pixel. *)
Definition used (m : fmodel) (prior : option jprior) (resid : list R) : list R :=
  match prior, m with
  | None, _ | Some _, (FName Mbd | FName Mbdf | FCoellip _) => resid
  | Some _, _ => tl resid
  end.
