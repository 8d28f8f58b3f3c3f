(** What a gaussian aperture flux is. *)
From Verif Require Import Base XReal Shape_Spec Moments_Spec GMix_Model GMix_Spec GMixObj_Model GaussAp_Model.
From Verif Require Flags_Model Moments_Model.

(** integral of a unit gaussian of covariance [m] times exp(-r^2/(2 s2)), both centred:
    s2 / sqrt(det(m + s2 I)).  Components too small to be resolved count fully. *)
Definition ap_weight (s2 : R) (m : sym2) : R :=
  if Rltb GMIX_LOW_DETVAL (det2 m) then s2 / sqrt (det2 (add2 m (mkSym s2 0 s2))) else 1.
Definition ap_flux (gm : gmix) (s2 : R) : R := rsum (map (fun g => g_p g * ap_weight s2 (gcov g)) gm).

(** proper components: positive definite covariance and the right stored determinant *)
Definition proper (gm : gmix) : Prop := Forall (fun g => posdef (gcov g) /\ coherent g) gm.
Definition nonneg (gm : gmix) : Prop := Forall (fun g => 0 <= g_p g) gm.

Definition rectangular (t : table) : Prop := Forall (fun r => length r = t_ncol t) (t_rows t).
(** the catalog with one object *)
Definition only (t : table) (i : nat) : table := mkTable (t_ncol t) [nth i (t_rows t) []].

(** what a catalog call reports for one band of one attempted object: [fill F] is the documented
    mixture with flux F.  [psum] is the normalisation of the model (1 up to 1e-15). *)
Definition band_outcome (fill : R -> res gmix) (g1 g2 fwhm psum F : R) (out : xr * Z) : Prop :=
  (in_disk (g1,g2) /\ snd out = 0%Z /\
     exists gm v, fill F = Ok gm /\ fst out = Fin v /\ v = ap_flux gm ((fwhm / Moments_Model.FWHM_FAC) ^ 2) /\ (0 <= F -> 0 <= v <= F * psum)) \/
  (~ in_disk (g1,g2) /\ fst out = NaN /\ snd out = Flags_Model.GMIX_RANGE_ERROR).
Definition simple_model (m : mname) (pvals : list R) : Prop :=
  (m = Mgauss /\ pvals = pvals_gauss) \/ (m = Mturb /\ pvals = pvals_turb) \/ (m = Mexp /\ pvals = pvals_exp) \/ (m = Mdev /\ pvals = pvals_dev).

(** the width of the requested aperture *)
Definition ap_sigma (ap : aperture) : option R :=
  match ap with
  | ApFwhm f => Some (f / Moments_Model.FWHM_FAC)
  | ApT T => if Rltb T 0 then None else Some (sqrt (T / 2))
  | ApSigma s => Some s | ApNone => None end.
