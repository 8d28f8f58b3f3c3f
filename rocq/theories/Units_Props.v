(** C132 *)
From Verif Require Import Base XReal Moments_Model Jacobian_Model Pixels_Model GMix_Model WSums_Spec Flags_Model MomResult_Model GMixObj_Model GaussMom_Model GaussMom_Spec
  GaussMom_Proofs GaussMomCex_Proofs Admom_Model Admom4_Proofs PrePSF_Model PrePSFCex_Proofs Units_Spec Units_Proofs UnitsPP_Proofs.
Local Open Scope R_scope.

(** an image times [k], with weights divided by [k] squared, gives pixels in the new units *)
Theorem C132_pixels : forall k im im' w w' j ig, 0 < k -> nrow w = nrow im -> ncol w = ncol im -> image_times k im im' -> image_times (/ k ^ 2) w w' ->
  same_outcome (other_units k) (make_pixels im w j ig) (make_pixels im' w' j ig).
Proof. intros. apply pixels_scaled; assumption. Qed.
Print Assumptions C132_pixels.

(** GaussMom *)
Theorem C132_gaussmom : forall k px px' fwhm higher j, 0 < k -> other_units k px px' ->
  same_outcome (same_gaussmom k) (gaussmom fwhm higher (GObs px j)) (gaussmom fwhm higher (GObs px' j)).
Proof. intros. apply gaussmom_scaled; assumption. Qed.
Print Assumptions C132_gaussmom.
(** ten times brighter *)
Definition brighter (p : pixel R) : pixel R := mkPix (px_u p) (px_v p) (px_area p) (10 * px_val p) (px_ierr p / 10).
Lemma brighter_units px : other_units 10 px (map brighter px).
Proof. unfold other_units. induction px; cbn [map]; constructor; [cbn; auto|exact IHpx]. Qed.
Example C132_hypotheses_hold : other_units 10 (px4 1 2 1) (map brighter (px4 1 2 1)) /\ measurable (fwhm_to_T F2) (px4 1 2 1) (nmom false) /\
  forall q, gaussmom F2 false (GObs (px4 1 2 1) j2) = Ok q -> m_flags (q_mom q) = 0%Z.
Proof.
  split; [apply brighter_units|]. split; [rewrite T2; exact good4|]. intros q E.
  apply (go_flags F2 false j2 (px4 1 2 1)); [exact F2_big|rewrite area2; lra| |exact E|rewrite T2; exact good4].
  apply (made_pixels (im2 1 2 1) (im2 1 1 1)); [reflexivity|reflexivity|exact (made4 1 2 1)].
Qed.

(** adaptive moments; [am_run] also changes the weight, in the same way *)
Theorem C132_admom : forall k px px' j, 0 < k -> other_units k px px' ->
  (forall c wt, fst (am_run c (mkAo px' j) wt) = fst (am_run c (mkAo px j) wt) /\
     same_outcome (same_adaptive k) (snd (am_run c (mkAo px j) wt)) (snd (am_run c (mkAo px' j) wt))) /\
  (forall c h guess, same_run (same_adaptive k) (am_go c h (mkAo px j) guess) (am_go c h (mkAo px' j) guess)) /\
  (forall c h w ntry rng, same_run (fun x x' => same_adaptive k (fst x) (fst x') /\ snd x' = snd x)
     (find_cen_admom c h (mkAo px j) w ntry rng) (find_cen_admom c h (mkAo px' j) w ntry rng)) /\
  (forall d d', same_adaptive k d d' -> am_get_gmix d' = am_get_gmix d).
Proof.
  intros k px px' j K U. split; [intros; apply am_run_scaled; assumption|]. split; [intros; apply am_go_scaled; assumption|].
  split; [intros; apply find_cen_scaled; assumption|]. intros d d' H. apply (get_gmix_scaled k d d' H).
Qed.
Print Assumptions C132_admom.
Example C132_admom_hypotheses_hold : other_units 10 pxW (map brighter pxW) /\
  exists d, snd (am_run (mkAc 200 5 (1/100000) (1/1000) false) (mkAo pxW jac1) [gW]) = Ok d /\ d_flags d = 0%Z /\ d_T d = Fin 10.
Proof.
  split; [apply brighter_units|]. destruct (sample_ok false) as (_ & d & A & B & _ & C). exists d. auto.
Qed.

(** pre-psf moments *)
Theorem C132_prepsf : forall k f o o' no_psf, 0 < k -> ppobs_other_units k o o' ->
  match go f o no_psf, go f o' no_psf with
  | Some r, Some r' => same_outcome (same_moments 2 k) r r' | None, None => True | _, _ => False end.
Proof. intros. apply prepsf_scaled; assumption. Qed.
Print Assumptions C132_prepsf.
Example C132_prepsf_hypotheses_hold : (exists f r, go f ex_o false = Some (Ok r)) /\
  ppobs_other_units 10 ex_o (mkPP (mkArr 2 2 (fun r c => 10 * at2 ex_im r c)) (mkArr 2 2 (fun r c => / 10 ^ 2 * at2 ex_wt r c)) (pp_jac ex_o) (pp_psf ex_o)).
Proof. split; [exact ex_go|]. repeat split. Qed.

(** regularised shapes *)
Theorem C132_regularized : forall k, 0 < k ->
  (forall r r' fwhm, same_moments 0 k r r' -> same_outcome (same_moments 0 k) (regularize_mom_shapes r fwhm) (regularize_mom_shapes r' fwhm)) /\
  (forall f o o' no_psf fwhm, ppobs_other_units k o o' ->
     match go f o no_psf, go f o' no_psf with
     | Some r, Some r' => same_outcome (same_moments 2 k) (let* m := r in regularize_mom_shapes m fwhm) (let* m := r' in regularize_mom_shapes m fwhm)
     | None, None => True | _, _ => False end).
Proof. intros k K. split; [intros; apply regularize_full; assumption|intros; apply prepsf_regularized; assumption]. Qed.
Print Assumptions C132_regularized.
