From Verif Require Import Base XReal Jacobian_Model Jacobian_Spec Pixels_Model Flags_Model PSFFlux_Model PSFFlux_Spec GalsimPSFFlux_Model GalsimPSFFlux_Spec GalsimPSFFlux_Proofs.
From Verif Require LM_Model.
Local Open Scope R_scope.

(** ** C130: fluxes of galsim templates *)
(** a galsim that obeys the laws, and two observations with psf images of sum 4, one of them smaller than its psf image *)
Example C130_hypotheses_hold : lawful the_galsim the_prof the_pix /\ at_centres the_prof the_pix /\
  forall im wt, (forall r c, 0 < wt r c) ->
  let psf := (mkArr 1 3 (fun _ c => match c with 2%nat => 2 | _ => 1 end), mkJac 0 1 1 0 0 1 1 1) in
  let o n := mkGobs (mkPobs 1 n im wt (mkJac 0 1 1 0 0 1 1 1) (Some true) None None None) (Some psf) in
  let l := [o 3%nat; o 2%nat] in
  weights_ok (map go_obs l) /\ (exists r, galsim_psfflux_go _ the_galsim None (InList l) = Some (Ok r)) /\
  exists t, same_frame (o 3%nat) t /\ 0 < template_weight [go_obs (o 3%nat)] [t].
Proof.
  split; [exact the_galsim_lawful|]. split; [exact the_galsim_centres|]. intros im wt W psf o l.
  assert (Wl : weights_ok (map go_obs l)) by (repeat (constructor; [intros r c; apply Rlt_le, W|]); constructor). split; [exact Wl|]. split.
  - apply the_galsim_returns; [|exact Wl]. repeat (constructor; [split; discriminate|]). constructor.
  - exists (fun r c => at2 (fst psf) r c / 4). assert (N : rsum (cells 1 3 (fun _ c : nat => match c with 2%nat => 2 | _ => 1 end)) = 4) by (cbn; lra). split.
    + exists (fst psf). cbn [psf o fst snd go_psf go_obs po_jac po_nr po_nc nrow ncol at2]. rewrite N. repeat split; try lra. unfold true_det. cbn. lra.
    + unfold template_weight, over. cbn. assert (A := W 0%nat 0%nat). assert (B := W 0%nat 1%nat). assert (C := W 0%nat 2%nat). lra.
Qed.

(** the flux minimises chi squared strictly over the multiples of the templates; chi squared, the error and the flags
    are those of the templates divided by their sums *)
Theorem C130_flux_is_optimal : forall O (X : gpsf O) prof pix model inp r, lawful X prof pix ->
  galsim_psfflux_go O X model inp = Some (Ok r) -> weights_ok (map go_obs (observations inp)) ->
  let obs := map go_obs (observations inp) in
  exists ts, Forall2 (galsim_template X prof pix model) (observations inp) ts /\
    pr_dof r = (if Nat.leb (n_weighted obs) 1 then / 1000000 else INR (n_weighted obs) - 1) /\
    (template_weight obs ts = 0 -> pr_flags r = DIV_ZERO /\ pr_flux r = Fin LM_Model.PDEF /\ pr_flux_err r = Fin LM_Model.CDEF) /\
    (0 < template_weight obs ts -> exists f, pr_flux r = Fin f /\ (forall f', f' <> f -> chi2_at obs ts f < chi2_at obs ts f') /\
      (Forall2 (fun o t => total o t <> 0) obs ts ->
        pr_chi2per r = Fin (chi2_at obs (unit_templates obs ts) f / pr_dof r) /\
        (n_kept obs = 1%nat -> pr_flags r = DIV_ZERO /\ pr_flux_err r = Fin LM_Model.CDEF) /\
        (n_kept obs <> 1%nat -> pr_flags r = 0%Z /\
           exists e, pr_flux_err r = Fin e /\ 0 <= e /\
             e ^ 2 * template_weight obs ts * (INR (n_kept obs) - 1) = chi2_at obs (unit_templates obs ts) f))).
Proof. intros O X prof pix model inp r L E W obs. exact (proj2 (galsim_flux O X prof pix L model inp r E W)). Qed.
Print Assumptions C130_flux_is_optimal.

(** images in the frame of their psf images, drawn with the surface brightness at the centres: the template is the psf image with a
    sum of one, and all the numbers are right *)
Theorem C130_frame_of_the_psf : forall O (X : gpsf O) prof pix inp ts r, lawful X prof pix -> at_centres prof pix ->
  galsim_psfflux_go O X None inp = Some (Ok r) -> weights_ok (map go_obs (observations inp)) -> Forall2 same_frame (observations inp) ts ->
  let obs := map go_obs (observations inp) in
  0 < template_weight obs ts -> exists f, pr_flux r = Fin f /\ (forall f', f' <> f -> chi2_at obs ts f < chi2_at obs ts f') /\
    pr_chi2per r = Fin (chi2_at obs ts f / pr_dof r) /\
    (n_kept obs <> 1%nat -> pr_flags r = 0%Z /\ exists e, pr_flux_err r = Fin e /\ 0 <= e /\ e ^ 2 * template_weight obs ts * (INR (n_kept obs) - 1) = chi2_at obs ts f).
Proof. intros O X prof pix inp ts r L H E W F. exact (frame_flux O X prof pix L H inp ts r E W F). Qed.
Print Assumptions C130_frame_of_the_psf.

(** when part of the template falls outside the image, chi squared is not that of the flux found: an image that is exactly 8
    times its template has flux 8, with chi squared per degree of freedom 8 and error 8 *)
Theorem C130_chi2_refuted : exists O (X : gpsf O) prof pix o r t, lawful X prof pix /\ galsim_psfflux_go O X None (InObs o) = Some (Ok r) /\
  galsim_template X prof pix None o t /\
  (forall row col, (row < po_nr (go_obs o))%nat -> (col < po_nc (go_obs o))%nat -> po_im (go_obs o) row col = 8 * t row col) /\
  pr_flags r = 0%Z /\ pr_flux r = Fin 8 /\ pr_chi2per r = Fin 8 /\ pr_flux_err r = Fin 8.
Proof.
  destruct perfect_image as (r & t & E & G & P). exists _, the_galsim, the_prof, the_pix, cex_gobs, r, t. split; [exact the_galsim_lawful|]. split; [exact E|]. split; [exact G|exact P].
Qed.
Print Assumptions C130_chi2_refuted.

(** the documentation accepts a MultiBandObsList, which is refused *)
Theorem C130_multiband_refuted : forall O (X : gpsf O), galsim_psfflux_go O X None InOther = Some (Raise ValueError).
Proof. reflexivity. Qed.
Print Assumptions C130_multiband_refuted.

(** a RuntimeError of a drawing never reaches the caller, who gets a GMixRangeError *)
Theorem C130_draw_errors : forall O (X : gpsf O) model inp, (forall p nx ny w off a, gp_draw X p nx ny w off = Ok a -> nrow a = ny /\ ncol a = nx) ->
  (forall im w off, gp_interp X im w off <> Raise RuntimeError) -> (forall x m, gp_withflux X x m <> Raise RuntimeError) ->
  (forall a b, gp_convolve X a b <> Raise RuntimeError) ->
  galsim_psfflux_go O X model inp <> None /\ galsim_psfflux_go O X model inp <> Some (Raise RuntimeError).
Proof. intros O X model inp Ld Hi Hw Hc. split; [exact (galsim_some O X model inp Ld)|exact (draw_errors O X model inp Ld Hi Hw Hc)]. Qed.
Print Assumptions C130_draw_errors.
Theorem C130_draw_fails : forall O (X : gpsf O) o, po_pix (go_obs o) <> None -> go_psf o <> None ->
  (forall im w off, exists p, gp_interp X im w off = Ok p) -> (forall p nx ny w off, gp_draw X p nx ny w off = Raise RuntimeError) ->
  galsim_psfflux_go O X None (InObs o) = Some (Raise GMixRangeError).
Proof. exact draw_fails. Qed.
Print Assumptions C130_draw_fails.
