(** Property C29: gaussian aperture fluxes. *)
From Verif Require Import Base XReal Shape_Spec GMix_Model GMix_Spec GMixObj_Model GMixObj_Spec GaussAp_Model GaussAp_Spec GaussAp_Proofs.
From Verif Require Flags_Model.

(** the aperture flux is the integral of mixture times weight (all centred), lies between 0
    and the total flux, and grows with the aperture *)
Theorem C29_aperture_flux : forall gm ap s, ap_sigma ap = Some s -> s <> 0 -> proper gm ->
  gm_get_gaussap_flux gm ap = Ok (Fin (ap_flux gm (s^2))).
Proof. exact aperture_flux. Qed.
Print Assumptions C29_aperture_flux.
Theorem C29_bounded_and_growing : forall gm ap ap' s s', ap_sigma ap = Some s -> ap_sigma ap' = Some s' -> 0 < s -> s <= s' -> proper gm -> nonneg gm ->
  exists v v', gm_get_gaussap_flux gm ap = Ok (Fin v) /\ gm_get_gaussap_flux gm ap' = Ok (Fin v') /\ 0 <= v /\ v <= v' /\ v' <= flux_of gm.
Proof. exact aperture_grows. Qed.
Print Assumptions C29_bounded_and_growing.
Example C29_hypotheses_hold : proper [gauss2d_set 1 0 0 2 1 2; gauss2d_set 3 0 0 1 0 1] /\ nonneg [gauss2d_set 1 0 0 2 1 2; gauss2d_set 3 0 0 1 0 1].
Proof. exact sample_proper. Qed.

(** catalogs: the call succeeds with result [out] exactly when every single-object call
    succeeds with the corresponding row *)
Theorem C29_rows_independent : forall t model fwhm fds tds mask out,
  let nobj := length (t_rows t) in
  nobj <> 0%nat -> length mask = nobj -> (0 <= get_nband (t_ncol t) model)%Z ->
  (match model with ACM => length fds = nobj /\ length tds = nobj | _ => True end) ->
  get_gaussap_flux t model fwhm fds tds (Some mask) = Ok out <->
  length out = nobj /\ forall i, (i < nobj)%nat ->
    get_gaussap_flux (only t i) model fwhm [nth i fds 0] [nth i tds 0] (Some [nth i mask false]) = Ok [nth i out []].
Proof. exact catalog_rows. Qed.
Print Assumptions C29_rows_independent.
Theorem C29_no_mask : forall t model fwhm fds tds,
  get_gaussap_flux t model fwhm fds tds None = get_gaussap_flux t model fwhm fds tds (Some (repeat true (length (t_rows t)))).
Proof. exact no_mask. Qed.
Print Assumptions C29_no_mask.
Theorem C29_masked_object : forall n row model fwhm fds tds,
  (match model with ACM => length fds = 1%nat /\ length tds = 1%nat | _ => True end) -> (0 <= get_nband n model)%Z ->
  get_gaussap_flux (mkTable n [row]) model fwhm fds tds (Some [false]) = Ok [repeat (NaN, Flags_Model.NO_ATTEMPT) (Z.to_nat (get_nband n model))].
Proof. exact one_row_masked. Qed.
Print Assumptions C29_masked_object.

(** one attempted object: per band, the aperture flux of the documented model (size clipped to
    at least 1e-4) and no flag, or NaN and GMIX_RANGE_ERROR if the shape is out of range *)
Theorem C29_simple_models : forall m pv fwhm v u g1 g2 T fluxes fds tds, simple_model m pv -> 0 < fwhm ->
  exists out, get_gaussap_flux (mkTable (5 + length fluxes) [v :: u :: g1 :: g2 :: T :: fluxes]) (AModel m) fwhm fds tds (Some [true]) = Ok [out] /\
    Forall2 (band_outcome (fun F => doc_fill m [v; u; g1; g2; Rmax (/ 10000) T; F]) g1 g2 fwhm (rsum pv)) fluxes out.
Proof. exact one_row_simple. Qed.
Print Assumptions C29_simple_models.
Theorem C29_bdf : forall fwhm v u g1 g2 T fd fluxes fds tds, 0 <= fd <= 1 -> 0 < fwhm ->
  exists out, get_gaussap_flux (mkTable (6 + length fluxes) [v :: u :: g1 :: g2 :: T :: fd :: fluxes]) (AModel Mbdf) fwhm fds tds (Some [true]) = Ok [out] /\
    Forall2 (band_outcome (fun F => gmix_fill_bdf [v; u; g1; g2; Rmax (/ 10000) T; fd; F]) g1 g2 fwhm (cm_psum fd)) fluxes out.
Proof. exact one_row_bdf. Qed.
Print Assumptions C29_bdf.
Theorem C29_cm_partial : forall fwhm v u g1 g2 T fd td fluxes, 0 <= fd <= 1 -> 0 < td -> 0 < fwhm ->
  exists out, get_gaussap_flux (mkTable (5 + length fluxes) [v :: u :: g1 :: g2 :: T :: fluxes]) ACM fwhm [fd] [td] (Some [true]) = Ok [out] /\
    Forall2 (band_outcome (fun F => let* Tf := get_cm_Tfactor fd td in gmix_fill_cm fd td Tf [v; u; g1; g2; Rmax (/ 10000) T; F]) g1 g2 fwhm (cm_psum fd)) fluxes out.
Proof. exact one_row_cm. Qed.
Print Assumptions C29_cm_partial.

(** The code violates "bad rows never affect others" for model 'cm': a row with fracdev=1 and
    TdByTe=0 raises ZeroDivisionError, which is not caught, and the good row is lost. *)
Theorem C29_bad_cm_row_refuted :
  get_gaussap_flux (mkTable 6 [[0;0;0;0;1;1]; [0;0;0;0;1;1]]) ACM 1 [0; 1] [1; 0] None = Raise ZeroDivisionError.
Proof. exact bad_cm_row. Qed.
Print Assumptions C29_bad_cm_row_refuted.
