From Verif Require Import Base XReal Jacobian_Model Jacobian_Spec Pixels_Model GMix_Model GMix_Spec GMixObj_Model
  Render_Model Render_Spec Render_Props Flags_Model PSFFlux_Model PSFFlux_Spec PSFFlux_Proofs.
From Verif Require LM_Model.
Local Open Scope R_scope.

(** ** C63: the flux of a template *)
(** a psf mixture of two components, in an image of any size and weights of any pattern *)
Example C63_mixture_hypotheses_hold : exists g, forall im wt nr nc, (forall r c, 0 <= wt r c) ->
  let o := mkPobs nr nc im wt (mkJac 0 0 1 0 0 1 1 1) (Some true) None None (Some (Some g, None)) in
  exists t, templates true true [o; o] [t; t] /\ weights_ok [o; o] /\ stored [o; o] /\ default_pixels [o; o].
Proof.
  set (gm := [gauss2d_set 1 0 0 4 1 3; gauss2d_set (-2) 1 1 1 0 1]). exists (mkObj KFull 2 12 [] gm). intros im wt nr nc W o.
  exists (fun r c => brightness gm (INR r) (INR c) * 1 ^ 2 / flux_of gm).
  assert (T : gmix_template true true o (fun r c => brightness gm (INR r) (INR c) * 1 ^ 2 / flux_of gm)).
  { exists (mkObj KFull 2 12 [] gm). eexists. split; [reflexivity|]. split; [reflexivity|]. cbn [o_data]. split; [exact C23_hypotheses_hold|].
    split; [cbn; lra|]. intros row col v u _ _ [Mv Mu]. cbn in Mv, Mu. cbn [o po_jac jscale]. replace v with (INR row) by lra. replace u with (INR col) by lra. reflexivity. }
  split; [split; [discriminate|left; repeat constructor; exact T]|]. assert (Wo : forall r c, 0 <= po_wt o r c) by exact W. assert (So : po_pix o <> None) by discriminate. assert (Do : po_pix o = Some true) by reflexivity. unfold weights_ok, stored, default_pixels. auto 10.
Qed.
(** a template image *)
Example C63_image_hypotheses_hold : forall im wt, (forall r c, 0 <= wt r c) ->
  let o := mkPobs 1 2 im wt (mkJac 0 0 1 0 0 1 1 1) (Some true) None (Some (mkArr 1 2 (fun r c => match c with O => Fin 1 | _ => Fin 3 end))) None in
  templates false true [o] [fun r c => match c with O => / 4 | _ => 3 / 4 end] /\ weights_ok [o] /\ stored [o] /\ default_pixels [o].
Proof.
  intros im wt W o. split.
  - split; [discriminate|]. right. split; [reflexivity|]. constructor; [|constructor]. exists (mkArr 1 2 (fun r c => match c with O => Fin 1 | _ => Fin 3 end)), (fun r c => match c with O => 1 | _ => 3 end).
    split; [reflexivity|]. split; [reflexivity|]. split; [reflexivity|]. split; [intros r [|c] _ _; reflexivity|]. cbn [o po_nr po_nc].
    assert (X : rsum (cells 1 2 (fun _ c : nat => match c with O => 1 | _ => 3 end)) = 4) by (cbn; lra). rewrite X. split; [lra|]. cbn [normalised negb orb]. intros r [|c] _ _; lra.
  - assert (Wo : forall r c, 0 <= po_wt o r c) by exact W. assert (So : po_pix o <> None) by discriminate. assert (Do : po_pix o = Some true) by reflexivity. unfold weights_ok, stored, default_pixels. auto 10.
Qed.

(** the flux minimises chi squared strictly; its error, chi squared per degree of freedom and flags are as documented *)
Theorem C63_flux_is_optimal : forall do_psf normalize_psf obs ts,
  templates do_psf normalize_psf obs ts -> weights_ok obs -> stored obs ->
  exists r, psfflux_go do_psf normalize_psf obs = Some (Ok r) /\
    pr_dof r = (if Nat.leb (n_weighted obs) 1 then / 1000000 else INR (n_weighted obs) - 1) /\ 0 < pr_dof r /\ 0 <= template_weight obs ts /\
    (template_weight obs ts = 0 -> pr_flags r = DIV_ZERO /\ pr_flux r = Fin LM_Model.PDEF /\ pr_flux_err r = Fin LM_Model.CDEF) /\
    (0 < template_weight obs ts -> exists f, pr_flux r = Fin f /\ (forall f', f' <> f -> chi2_at obs ts f < chi2_at obs ts f') /\
      pr_chi2per r = Fin (chi2_at obs ts f / pr_dof r) /\
      (n_kept obs = 1%nat -> pr_flags r = DIV_ZERO /\ pr_flux_err r = Fin LM_Model.CDEF) /\
      (n_kept obs <> 1%nat -> pr_flags r = 0%Z /\
        exists e, pr_flux_err r = Fin e /\ 0 <= e /\ e ^ 2 * template_weight obs ts * (INR (n_kept obs) - 1) = chi2_at obs ts f)).
Proof. exact psfflux_ok. Qed.
Print Assumptions C63_flux_is_optimal.

(** no weight, or one pixel: flagged, with the default ignore_zero_weight=True *)
Theorem C63_no_information_flagged : forall do_psf normalize_psf obs ts,
  templates do_psf normalize_psf obs ts -> weights_ok obs -> default_pixels obs ->
  template_weight obs ts = 0 \/ (n_weighted obs <= 1)%nat ->
  exists r, psfflux_go do_psf normalize_psf obs = Some (Ok r) /\ pr_flags r = DIV_ZERO /\ pr_flux_err r = Fin LM_Model.CDEF.
Proof. exact no_information. Qed.
Print Assumptions C63_no_information_flagged.

(** not so with ignore_zero_weight=False: a single pixel with weight gives an error of zero and no flag *)
Theorem C63_one_pixel_refuted : exists obs ts, templates false true obs ts /\ weights_ok obs /\ stored obs /\ n_weighted obs = 1%nat /\
  exists r, psfflux_go false true obs = Some (Ok r) /\ pr_flags r = 0%Z /\ pr_flux_err r = Fin 0.
Proof.
  exists [cex_obs], [cex_t]. split; [exact cex_templates|]. split; [exact cex_weights|]. split; [constructor; [discriminate|constructor]|].
  split; [exact cex_one|exact one_pixel].
Qed.
Print Assumptions C63_one_pixel_refuted.

(** a result is only given when every observation has what the first one decided to use *)
Theorem C63_sources_present : forall do_psf normalize_psf obs r, psfflux_go do_psf normalize_psf obs = Some (Ok r) ->
  obs <> [] /\ stored obs /\
  (Forall (fun o => chosen_gmix do_psf o <> None) obs \/
   (match obs with [] => True | o :: _ => chosen_gmix do_psf o = None end) /\ Forall (fun o => chosen_template do_psf o <> None) obs).
Proof. exact sources_present. Qed.
Print Assumptions C63_sources_present.
