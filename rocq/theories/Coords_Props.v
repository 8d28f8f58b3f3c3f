(** C134 *)
From Coq Require Import String.
From Verif Require Import Base XReal Moments_Model Jacobian_Model Pixels_Model GMix_Model WSums_Spec Flags_Model MomResult_Model GaussMom_Model GaussMom_Spec
  GaussMom_Proofs GaussMomCex_Proofs Admom_Model Admom4_Proofs Units_Spec Units_Proofs Coords_Spec Coords_Proofs CoordsGM_Proofs CoordsAm_Proofs CoordsCex_Proofs.
Local Open Scope R_scope.

(** the jacobian and the pixels in the new coordinates *)
Theorem C134_jacobian : forall a f r0 c0 vr vc ur uc, f * f = 1 ->
  jac_coords a f (finish_init r0 c0 vr vc ur uc) (finish_init r0 c0 (a * vr) (a * vc) (f * a * ur) (f * a * uc)).
Proof. intros. apply made_coords; assumption. Qed.
Print Assumptions C134_jacobian.
Theorem C134_pixels : forall a f image weight j j' ig, jac_coords a f j j' ->
  same_outcome (pix_coords a f) (make_pixels image weight j ig) (make_pixels image weight j' ig).
Proof. intros. apply pixels_coords; assumption. Qed.
Print Assumptions C134_pixels.

(** GaussMom *)
Theorem C134_gaussmom : forall a f fwhm higher j j' px px', a <> 0 -> f * f = 1 -> / 10 ^ 40 <= fwhm -> / 10 ^ 40 <= Rabs a * fwhm ->
  0 < get_area j -> jac_coords a f j j' -> pixels_of j px -> pix_coords a f px px' ->
  exists q q', gaussmom fwhm higher (GObs px j) = Ok q /\ gaussmom (Rabs a * fwhm) higher (GObs px' j') = Ok q' /\
    coords_gaussmom (if Z.eqb (m_flags (q_mom q)) 0 then 1 else a ^ 2) a f q q'.
Proof. intros. apply gaussmom_coords; assumption. Qed.
Print Assumptions C134_gaussmom.
(** half the unit of length and the second axis mirrored *)
Example C134_hypotheses_hold : exists j' px', jac_coords 2 (-1) j2 j' /\ pixels_of j2 (px4 1 2 1) /\ pix_coords 2 (-1) (px4 1 2 1) px' /\
  0 < get_area j2 /\ / 10 ^ 40 <= F2 /\ / 10 ^ 40 <= Rabs 2 * F2 /\
  forall q, gaussmom F2 false (GObs (px4 1 2 1) j2) = Ok q -> m_flags (q_mom q) = 0%Z.
Proof.
  assert (J : jac_coords 2 (-1) j2 (finish_init 0 0 (2 * 2) (2 * 0) (-1 * 2 * 0) (-1 * 2 * 2))) by (apply made_coords; lra).
  pose proof (pixels_coords 2 (-1) (im2 1 2 1) (im2 1 1 1) j2 _ true J) as PC. rewrite made4 in PC.
  destruct (make_pixels (im2 1 2 1) (im2 1 1 1) _ true) as [px'|] in PC; cbn [same_outcome] in PC; [|contradiction].
  assert (MP := made_pixels (im2 1 2 1) (im2 1 1 1) j2 _ eq_refl eq_refl (made4 1 2 1)). assert (AP : 0 < get_area j2) by (rewrite area2; lra).
  exists (finish_init 0 0 (2 * 2) (2 * 0) (-1 * 2 * 0) (-1 * 2 * 2)), px'. repeat (split; [first [exact J|exact MP|exact PC|exact AP|exact F2_big]|]).
  split. { rewrite Rabs2. pose proof F2_big. assert (0 < / 10 ^ 40) by (apply Rinv_0_lt_compat, pow_lt; lra). lra. }
  intros q E. apply (go_flags F2 false j2 (px4 1 2 1)); [exact F2_big|exact AP|exact MP|exact E|rewrite T2; exact good4].
Qed.

(** the flux of a flagged result, which has flux_flags = 0, depends on the unit of length *)
Theorem C134_flagged_flux_refuted : exists px image q q', made_half px image q q' /\ m_flux_flags (q_mom q) = 0%Z /\ m_flux_flags (q_mom q') = 0%Z /\
  exists x e, m_flux (q_mom q) = Fin x /\ m_flux_err (q_mom q) = Fin e /\ 0 < x /\ 0 < e /\ m_flux (q_mom q') = Fin (4 * x) /\ m_flux_err (q_mom q') = Fin (4 * e).
Proof. exact flux_depends. Qed.
Print Assumptions C134_flagged_flux_refuted.
(** and so does the moment named MF of a good result *)
Theorem C134_named_flux_refuted : exists px image q q', made_half px image q q' /\ m_flags (q_mom q) = 0%Z /\ m_flags (q_mom q') = 0%Z /\
  m_flux (q_mom q') = m_flux (q_mom q) /\
  exists x y x' y', In ("MF"%string, (Fin x, y)) (m_named (q_mom q)) /\ In ("MF"%string, (Fin x', y')) (m_named (q_mom q')) /\ x' <> x.
Proof. exact MF_depends. Qed.
Print Assumptions C134_named_flux_refuted.

(** adaptive moments, from a guess in the same coordinates, unless a determinant meets the fixed limit in one of the two *)
Theorem C134_admom : forall a f px px' j j' c w w', a <> 0 -> f * f = 1 -> pix_coords a f px px' -> jac_coords a f j j' -> Forall2 (gauss_coords a f) w w' ->
  let x := am_run c (mkAo px j) w in let x' := am_run (coords_conf a c) (mkAo px' j') w' in
  ((Forall2 (gauss_coords a f) (fst x) (fst x') /\ same_outcome (coords_adaptive a f) (snd x) (snd x')) \/
   (exists d, snd x = Ok d /\ (too_small d \/ exhausted d)) \/ (exists d', snd x' = Ok d' /\ (too_small d' \/ exhausted d'))) /\
  (forall d, snd x = Ok d -> d_flags d = 0%Z -> exists d', snd x' = Ok d' /\
     (Forall2 (gauss_coords a f) (fst x) (fst x') /\ coords_adaptive a f d d' \/ too_small d')) /\
  (forall d', snd x' = Ok d' -> d_flags d' = 0%Z -> exists d, snd x = Ok d /\
     (Forall2 (gauss_coords a f) (fst x) (fst x') /\ coords_adaptive a f d d' \/ too_small d)).
Proof. intros. apply admom_coords; assumption. Qed.
Print Assumptions C134_admom.
Example C134_admom_hypotheses_hold : exists px' j' w', pix_coords 2 (-1) pxW px' /\ jac_coords 2 (-1) jac1 j' /\ Forall2 (gauss_coords 2 (-1)) [gW] w' /\
  exists d, snd (am_run (mkAc 200 5 (1/100000) (1/1000) false) (mkAo pxW jac1) [gW]) = Ok d /\ d_flags d = 0%Z /\ d_T d = Fin 10.
Proof.
  exists (map (fun p => mkPix (-1 * 2 * px_u p) (2 * px_v p) (2 ^ 2 * px_area p) (px_val p) (px_ierr p)) pxW), (mkJac 1 2 2 0 0 (-2) (-4) 2), [gauss2d_set 1 0 0 8 (-8) 32].
  split; [unfold pix_coords, pxW; cbn [map]; repeat constructor|]. split; [unfold jac_coords, jac1; cbn; rewrite Rabs2; repeat split; ring|].
  split; [repeat constructor; cbn; ring|]. destruct (sample_ok false) as (_ & d & A & B & _ & C). exists d. auto.
Qed.
(** the limit is met with a unit of length that is large enough *)
Theorem C134_unit_too_large : exists a px' j' w' d d', 0 < a /\ pix_coords a 1 pxW px' /\ jac_coords a 1 jac1 j' /\ Forall2 (gauss_coords a 1) [gW] w' /\
  let c := mkAc 200 5 (1/100000) (1/1000) false in
  snd (am_run c (mkAo pxW jac1) [gW]) = Ok d /\ d_flags d = 0%Z /\ snd (am_run (coords_conf a c) (mkAo px' j') w') = Ok d' /\ too_small d'.
Proof. exact unit_too_large. Qed.
Print Assumptions C134_unit_too_large.
