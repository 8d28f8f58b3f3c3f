From Coq Require Import Permutation.
From Verif Require Import Base XReal Jacobian_Model Pixels_Model GMixObj_Model PSFFlux_Model PSFFlux_Spec FluxRel_Spec FluxRel_Proofs.
Local Open Scope R_scope.

(** ** C142: how a template flux depends on the data *)
(** an image of two pixels and a template image; the brightness is any multiple of the template *)
Example C142_hypotheses_hold : forall f w1 w2, 0 < w1 -> 0 <= w2 ->
  let o := mkPobs 1 2 (fun _ c => match c with O => f * / 4 | _ => f * (3 / 4) end) (fun _ c => match c with O => w1 | _ => w2 end)
             (mkJac 0 0 1 0 0 1 1 1) (Some true) None (Some (mkArr 1 2 (fun r c => match c with O => Fin 1 | _ => Fin 3 end))) None in
  let t := fun r c => match c with O => / 4 | _ => 3 / 4 end : R in
  templates false true [o] [t] /\ weights_ok [o] /\ stored [o] /\ default_pixels [o] /\ 0 < template_weight [o] [t] /\ Forall2 (noiseless f) [o] [t] /\
  Forall (fun o => chosen_gmix false o = None) [o].
Proof.
  intros f w1 w2 P Q o t. split.
  - split; [discriminate|]. right. split; [reflexivity|]. constructor; [|constructor]. exists (mkArr 1 2 (fun r c => match c with O => Fin 1 | _ => Fin 3 end)), (fun r c => match c with O => 1 | _ => 3 end).
    split; [reflexivity|]. split; [reflexivity|]. split; [reflexivity|]. split; [intros r [|c] _ _; reflexivity|]. cbn [o po_nr po_nc].
    assert (X : rsum (cells 1 2 (fun _ c : nat => match c with O => 1 | _ => 3 end)) = 4) by (cbn; lra). rewrite X. split; [lra|]. cbn [normalised negb orb]. intros r [|c] _ _; unfold t; lra.
  - split; [unfold weights_ok; constructor; [intros r [|c]; cbn; lra|constructor]|]. split; [repeat constructor; discriminate|]. split; [repeat constructor|].
    split; [unfold template_weight, over; cbn; nra|]. split; [|repeat constructor]. constructor; [|constructor]. intros r [|[|c]] _ L _; [reflexivity|reflexivity|cbn in L; lia].
Qed.

(** the flux is linear in the image *)
Theorem C142_linear : forall do_psf normalize_psf l ts a b,
  templates do_psf normalize_psf (map fst l) ts -> weights_ok (map fst l) -> stored (map fst l) -> 0 < template_weight (map fst l) ts ->
  exists r1 r2 r3 f1 f2, psfflux_go do_psf normalize_psf (map fst l) = Some (Ok r1) /\ psfflux_go do_psf normalize_psf (map second_scene l) = Some (Ok r2) /\
    psfflux_go do_psf normalize_psf (map (both_scenes a b) l) = Some (Ok r3) /\
    pr_flux r1 = Fin f1 /\ pr_flux r2 = Fin f2 /\ pr_flux r3 = Fin (a * f1 + b * f2) /\
    pr_dof r3 = pr_dof r1 /\ pr_flags r3 = pr_flags r1 /\ pr_flags r2 = pr_flags r1.
Proof. exact linear_runs. Qed.
Print Assumptions C142_linear.

(** other units of brightness *)
Theorem C142_units : forall do_psf normalize_psf obs ts k, templates do_psf normalize_psf obs ts -> weights_ok obs -> stored obs -> k <> 0 ->
  exists r r', psfflux_go do_psf normalize_psf obs = Some (Ok r) /\ psfflux_go do_psf normalize_psf (map (scale_data k (/ k ^ 2)) obs) = Some (Ok r') /\
    pr_flags r' = pr_flags r /\ pr_dof r' = pr_dof r /\ pr_chi2per r' = pr_chi2per r /\
    (0 < template_weight obs ts -> exists f, pr_flux r = Fin f /\ pr_flux r' = Fin (k * f)) /\
    (template_weight obs ts = 0 -> pr_flux r' = pr_flux r) /\
    (pr_flags r = 0%Z -> exists e, pr_flux_err r = Fin e /\ pr_flux_err r' = Fin (Rabs k * e)) /\
    (pr_flags r <> 0%Z -> pr_flux_err r' = pr_flux_err r).
Proof. exact units_runs. Qed.
Print Assumptions C142_units.

(** weights times a constant: the error comes from the scatter and not from the weights *)
Theorem C142_weights : forall do_psf normalize_psf obs ts c, templates do_psf normalize_psf obs ts -> weights_ok obs -> stored obs -> 0 < c ->
  exists r r', psfflux_go do_psf normalize_psf obs = Some (Ok r) /\ psfflux_go do_psf normalize_psf (map (scale_data 1 c) obs) = Some (Ok r') /\
    pr_flags r' = pr_flags r /\ pr_dof r' = pr_dof r /\ pr_flux r' = pr_flux r /\ pr_flux_err r' = pr_flux_err r /\
    exists x, pr_chi2per r = Fin x /\ pr_chi2per r' = Fin (c * x).
Proof. exact weights_runs. Qed.
Print Assumptions C142_weights.

(** only the values of template, image and weight in the pixels with weight matter: not their places in the images,
    the images they are in, nor whether the templates are mixtures or images *)
Theorem C142_pixels : forall do_psf normalize_psf obs ts do_psf' normalize_psf' obs' ts',
  templates do_psf normalize_psf obs ts -> weights_ok obs -> default_pixels obs ->
  templates do_psf' normalize_psf' obs' ts' -> weights_ok obs' -> default_pixels obs' ->
  Permutation (measured obs ts) (measured obs' ts') ->
  psfflux_go do_psf normalize_psf obs = psfflux_go do_psf' normalize_psf' obs'.
Proof. exact measured_runs_default. Qed.
Print Assumptions C142_pixels.
(** with ignore_zero_weight=False the number of pixels matters too *)
Theorem C142_pixels_kept : forall do_psf normalize_psf obs ts do_psf' normalize_psf' obs' ts',
  templates do_psf normalize_psf obs ts -> weights_ok obs -> stored obs ->
  templates do_psf' normalize_psf' obs' ts' -> weights_ok obs' -> stored obs' ->
  Permutation (measured obs ts) (measured obs' ts') -> n_kept obs = n_kept obs' ->
  psfflux_go do_psf normalize_psf obs = psfflux_go do_psf' normalize_psf' obs'.
Proof. exact measured_runs. Qed.
Print Assumptions C142_pixels_kept.

(** the order of the observations, when all have a mixture or none has *)
Theorem C142_order : forall do_psf normalize_psf obs ts obs', templates do_psf normalize_psf obs ts -> weights_ok obs -> stored obs -> Permutation obs obs' ->
  Forall (fun o => chosen_gmix do_psf o <> None) obs \/ Forall (fun o => chosen_gmix do_psf o = None) obs ->
  psfflux_go do_psf normalize_psf obs = psfflux_go do_psf normalize_psf obs'.
Proof. exact order_runs. Qed.
Print Assumptions C142_order.
(** otherwise the first observation decides between mixtures and images, and the fit raises in one order and succeeds
    in the other *)
Theorem C142_order_refuted : exists a b ts, templates false true [b; a] ts /\ weights_ok [b; a] /\
  psfflux_go false true [a; b] = Some (Raise RuntimeError) /\
  exists r, psfflux_go false true [b; a] = Some (Ok r) /\ pr_flags r = 0%Z /\ pr_flux r = Fin 3.
Proof.
  exists ord_a, ord_b, [fun _ _ => 1; fun _ _ => 1]. split; [exact order_templates|]. split; [exact order_weights|]. split; [exact order_raises|exact order_works].
Qed.
Print Assumptions C142_order_refuted.

(** an image that is a multiple of the template wherever it has weight *)
Theorem C142_noiseless : forall do_psf normalize_psf obs ts f, templates do_psf normalize_psf obs ts -> weights_ok obs -> stored obs ->
  Forall2 (noiseless f) obs ts -> 0 < template_weight obs ts ->
  exists r, psfflux_go do_psf normalize_psf obs = Some (Ok r) /\ pr_flux r = Fin f /\ pr_chi2per r = Fin 0 /\
    (pr_flags r = 0%Z -> pr_flux_err r = Fin 0) /\ (n_kept obs <> 1%nat -> pr_flags r = 0%Z).
Proof. exact noiseless_runs. Qed.
Print Assumptions C142_noiseless.

(** the units of template images do not matter *)
Theorem C142_template_units : forall normalize_psf obs ts k, k <> 0 -> Forall (fun o => po_gmix o = None) obs ->
  templates false normalize_psf obs ts -> weights_ok obs -> stored obs ->
  psfflux_go false normalize_psf (map (scale_template k) obs) = psfflux_go false normalize_psf obs.
Proof. exact template_units. Qed.
Print Assumptions C142_template_units.
