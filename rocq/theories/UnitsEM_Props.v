(** Fits by EM of an image in other units of brightness. *)
From Verif Require Import Base Jacobian_Model Pixels_Model GMix_Model GMixObj_Model EM_Model EM_Spec EMCex_Proofs
  Units_Spec UnitsEM_Spec UnitsEMPix_Proofs UnitsEMThm_Proofs UnitsEMEx_Proofs.
Local Open Scope R_scope.

(** The fitter of the fluxes: the same flags, number of iterations and fractional change; fluxes and
    sky times [c]. *)
Theorem C133_flux_only_in_other_units : forall c f m obs guess sky m2 obs2 guess2 sky2 m' r m2' r2, 0 < c -> f_kind f = FluxOnly ->
  calls_times c m obs guess sky m2 obs2 guess2 sky2 -> valid_call m obs guess -> valid_call m2 obs2 guess2 ->
  em_go f m obs guess sky = Some (m', Ok r) -> em_go f m2 obs2 guess2 sky2 = Some (m2', Ok r2) -> same_fit c m' r m2' r2.
Proof. exact flux_only. Qed.
Example C133_flux_only_hypotheses_hold : exists f m m2 m' r m2' r2, f_kind f = FluxOnly /\ calls_times 3 m ob_v 0 (Some 0) m2 ob_v 0 (Some 0) /\
  valid_call m ob_v 0 /\ valid_call m2 ob_v 0 /\ em_go f m ob_v 0 (Some 0) = Some (m', Ok r) /\ em_go f m2 ob_v 0 (Some 0) = Some (m2', Ok r2) /\
  r_fit r <> None.
Proof.
  destruct (flux_case 1) as (h & m' & r & G & E & F); [lra|]. destruct (flux_case 3) as (h2 & m2' & r2 & G2 & E2 & F2); [lra|].
  exists flux1, (mem_v 1 h), (mem_v 3 h2), m', r, m2', r2. split; [reflexivity|]. split; [apply calls_v; [ring|exact G|exact G2]|].
  split; [apply call_given; exact G|]. split; [apply call_given; exact G2|]. auto.
Qed.

(** All fitters: if the numbers of iterations are equal, so are the flags, and the fluxes of the
    mixtures and the sky are times [c]. *)
Theorem C133_same_iterations_same_fit : forall c f m obs guess sky m2 obs2 guess2 sky2 m' r m2' r2 n d d2 s s2, 0 < c ->
  calls_times c m obs guess sky m2 obs2 guess2 sky2 -> valid_call m obs guess -> valid_call m2 obs2 guess2 ->
  em_go f m obs guess sky = Some (m', Ok r) -> em_go f m2 obs2 guess2 sky2 = Some (m2', Ok r2) ->
  r_fit r = Some (n, d, s) -> r_fit r2 = Some (n, d2, s2) ->
  r_flags r2 = r_flags r /\ s2 = c * s /\ same_mixtures c m' r m2' r2.
Proof. exact same_iterations. Qed.
Example C133_same_iterations_hypotheses_hold : exists m m2 m' r m2' r2 d d2 s s2, calls_times 3 m ob_v 0 (Some 0) m2 ob_v 0 (Some 0) /\
  valid_call m ob_v 0 /\ valid_call m2 ob_v 0 /\ em_go (default_fitter Free) m ob_v 0 (Some 0) = Some (m', Ok r) /\
  em_go (default_fitter Free) m2 ob_v 0 (Some 0) = Some (m2', Ok r2) /\ r_fit r = Some (40%nat, d, s) /\ r_fit r2 = Some (40%nat, d2, s2).
Proof.
  destruct (free_case 1) as (h & m' & r & s & G & E & F); [lra|]. destruct (free_case 3) as (h2 & m2' & r2 & s2 & G2 & E2 & F2); [lra|].
  exists (mem_v 1 h), (mem_v 3 h2), m', r, m2', r2, (Some 0), (Some 0), s, s2. split; [apply calls_v; [ring|exact G|exact G2]|].
  split; [apply call_given; exact G|]. split; [apply call_given; exact G2|]. auto.
Qed.

(** The test for convergence depends on the units: the default fitter succeeds in one unit and
    returns the flag GMIX_RANGE_ERROR in another one. *)
Theorem C133_units_refuted : exists c m obs guess sky m2 obs2 guess2 sky2 m' r m2' r2, 0 < c /\
  calls_times c m obs guess sky m2 obs2 guess2 sky2 /\ valid_call m obs guess /\ valid_call m2 obs2 guess2 /\
  em_go (default_fitter Free) m obs guess sky = Some (m', Ok r) /\ em_go (default_fitter Free) m2 obs2 guess2 sky2 = Some (m2', Ok r2) /\
  r_flags r = 0%Z /\ r_flags r2 = EM_RANGE_ERROR.
Proof. exact default_units. Qed.
(** Every successful fit ends differently in some unit. *)
Theorem C133_units_matter : forall f m obs guess sky m' r n d s, f_kind f <> FluxOnly -> valid_call m obs guess ->
  em_go f m obs guess sky = Some (m', Ok r) -> r_fit r = Some (n, Some d, s) ->
  exists c, 0 < c /\ forall m2 obs2 guess2 sky2 m2' r2, calls_times c m obs guess sky m2 obs2 guess2 sky2 -> valid_call m2 obs2 guess2 ->
    em_go f m2 obs2 guess2 sky2 = Some (m2', Ok r2) -> forall d2 s2, r_fit r2 <> Some (n, d2, s2).
Proof. exact units_matter. Qed.
(** In large enough units the fit ends after miniter iterations, whatever the tolerance. *)
Theorem C133_large_units_stop_early : forall f m obs guess sky m' r n d s px0 x0 G0 P h0 a b La Lb, f_kind f <> FluxOnly -> (2 <= f_miniter f)%nat ->
  0 < f_tol f -> valid_call m obs guess -> em_go f m obs guess sky = Some (m', Ok r) -> r_fit r = Some (n, d, s) ->
  ran f m obs guess sky px0 x0 G0 P h0 -> nth_error h0 (f_miniter f - 2) = Some a -> nth_error h0 (f_miniter f - 1) = Some b ->
  log_like P a = Some La -> log_like P b = Some Lb -> lit P a = lit P b -> (0 < lit P b)%nat ->
  exists c0, 0 < c0 /\ forall c m2 obs2 guess2 sky2 m2' r2, c0 <= c -> calls_times c m obs guess sky m2 obs2 guess2 sky2 -> valid_call m2 obs2 guess2 ->
    em_go f m2 obs2 guess2 sky2 = Some (m2', Ok r2) -> exists d2 s2, r_fit r2 = Some (f_miniter f, d2, s2).
Proof. exact units_stop. Qed.
Example C133_units_matter_hypotheses_hold : exists m m' r s h0, let f := default_fitter Free in f_kind f <> FluxOnly /\ (2 <= f_miniter f)%nat /\ 0 < f_tol f /\
  valid_call m ob_v 0 /\ em_go f m ob_v 0 (Some 0) = Some (m', Ok r) /\ r_fit r = Some (40%nat, Some 0, s) /\
  ran f m ob_v 0 (Some 0) (four_v 1) 0 [round 1 0] P0 h0 /\
  exists a b, nth_error h0 (f_miniter f - 2) = Some a /\ nth_error h0 (f_miniter f - 1) = Some b /\
    log_like P0 a = Some (4 * (ln 4 - 1)) /\ log_like P0 b = Some (4 * (ln 4 - 1)) /\ lit P0 a = lit P0 b /\ (0 < lit P0 b)%nat.
Proof.
  destruct (free_case 1) as (h & m' & r & s & G & E & F); [lra|]. exists (mem_v 1 h), m', r, s, (hx 1 40). cbv zeta.
  split; [discriminate|]. split; [cbn; lia|]. split; [cbn; apply Rinv_0_lt_compat; lra|]. split; [apply call_given; exact G|].
  split; [exact E|]. split; [exact F|]. split; [apply ran_case; [lra|exact G]|]. exists (st 1 (4 * 1)), (st 1 (4 * 1)).
  split; [apply (hx_at 1 40 37); lia|]. split; [apply (hx_at 1 40 38); lia|]. rewrite fv_like by lra. rewrite fv_lit by lra. rewrite Rmult_1_r. repeat split; lia.
Qed.

(** The calls related above: without sky, the image times [c]; with sky, the pixels of the image times
    [c] with the weights divided by [c] squared. *)
Theorem C133_data_from_image : forall c, 0 < c -> forall m obs m2 obs2 im0 im0' px s,
  nth_error (em_im m) (eo_image obs) = Some im0 -> nth_error (em_im m2) (eo_image obs2) = Some im0' ->
  image_times c im0 im0' -> eo_jac obs2 = eo_jac obs -> data_given m obs None px s ->
  exists px', data_given m2 obs2 None px' (c * s) /\ Forall2 (pix_times c) px px'.
Proof. exact prepared. Qed.
Theorem C133_data_from_pixels : forall c, 0 < c -> forall px px', other_units c px px' -> Forall2 (pix_times c) px px'.
Proof. exact pixels_given. Qed.
Example C133_data_hypotheses_hold : image_times 3 (mkArr 1 2 (fun _ c => INR c)) (mkArr 1 2 (fun _ c => 3 * INR c)) /\
  exists px s, data_given (mkEm empty_heap [] [mkArr 1 2 (fun _ c => INR c)]) ob_v None px s.
Proof.
  split; [repeat split|]. destruct (EMPrep_Proofs.prep_spec (mkArr 1 2 (fun _ c => INR c))) as ([a b f] & s & _ & _ & _ & _ & E & N & M & _); [cbn; lia|cbn; lia|].
  cbn [nrow ncol] in N, M. subst a b. destruct (EMExample_Proofs.ones_pixels f) as (p & q & P). eexists _, s. exists (mkArr 1 2 (fun _ c => INR c)), (mkArr 1 2 f). split; [reflexivity|].
  split; [exact E|exact P].
Qed.
Print Assumptions C133_flux_only_in_other_units.
Print Assumptions C133_same_iterations_same_fit.
Print Assumptions C133_units_refuted.
Print Assumptions C133_units_matter.
Print Assumptions C133_large_units_stop_early.
Print Assumptions C133_data_from_image.
Print Assumptions C133_data_from_pixels.
