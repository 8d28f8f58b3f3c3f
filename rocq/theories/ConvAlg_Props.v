(** C149 *)
From Coq Require Import Permutation.
From Verif Require Import Base Shape_Spec Moments_Spec GMix_Model GMix_Spec GMixObj_Model ConvAlg_Proofs.
Local Open Scope R_scope.

(** convolving with one psf after the other is convolving with their convolution; both sides may raise *)
Theorem C149_associative : forall a b c, (let* ab := obj_convolve a b in obj_convolve ab c) = (let* bc := obj_convolve b c in obj_convolve a bc).
Proof. exact obj_assoc. Qed.
Print Assumptions C149_associative.
(** the flux and centre of the psf do not matter *)
Theorem C149_psf_flux_and_centre : forall gm psf psf',
  ((exists f, f <> 0 /\ gm_set_flux psf f = Some psf') \/ (exists row col, gm_set_cen psf row col = Some psf')) ->
  gmix_convolve gm psf' = gmix_convolve gm psf.
Proof. intros gm psf psf' [(f & N & E)|(r & c & E)]; [exact (psf_flux gm psf psf' f N E)|exact (psf_centre gm psf psf' r c E)]. Qed.
Print Assumptions C149_psf_flux_and_centre.
(** those of the mixture can be set before or after *)
Theorem C149_set_before_or_after : forall gm psf c, gmix_convolve gm psf = Ok c ->
  (forall f gm', gm_set_flux gm f = Some gm' -> exists c', gmix_convolve gm' psf = Ok c' /\ gm_set_flux c f = Some c') /\
  (forall row col gm', gm_set_cen gm row col = Some gm' -> exists c', gmix_convolve gm' psf = Ok c' /\ gm_set_cen c row col = Some c').
Proof. intros gm psf c E. split; [intros f gm' S; exact (obj_flux gm gm' f psf c S E)|intros r k gm' S; exact (obj_centre gm gm' r k psf c S E)]. Qed.
Print Assumptions C149_set_before_or_after.
(** mixtures of the same flux and centre can be exchanged *)
Theorem C149_exchange : forall a b, flux_of a = flux_of b -> row_of a = row_of b -> col_of a = col_of b -> flux_of b <> 0 ->
  exists x y, gmix_convolve a b = Ok x /\ gmix_convolve b a = Ok y /\ Permutation x y.
Proof. exact conv_exchange. Qed.
Print Assumptions C149_exchange.
(** a point leaves the mixture as it is, wherever it is and whatever its flux *)
Theorem C149_point : forall gm f row col, f <> 0 -> gmix_convolve gm [gauss2d_set f row col 0 0 0] =
  Ok (map (fun g => gauss2d_set (g_p g) (g_row g) (g_col g) (g_irr g) (g_irc g) (g_icc g)) gm).
Proof. exact conv_point. Qed.
Print Assumptions C149_point.
(** the body of get_sheared, before or after *)
Theorem C149_shear : forall gm psf s1 s2, Forall (fun g => posdef (gcov g)) gm -> Forall (fun g => posdef (gcov g)) psf -> in_disk (s1, s2) -> flux_of psf <> 0 ->
  exists gm' psf' c c', gmix_shear gm s1 s2 = Ok gm' /\ gmix_shear psf s1 s2 = Ok psf' /\ gmix_convolve gm psf = Ok c /\
    gmix_convolve gm' psf' = Ok c' /\ gmix_shear c s1 s2 = Ok c'.
Proof. exact conv_shear. Qed.
Print Assumptions C149_shear.

Definition alg_a : gmix := [gauss2d_set 1 0 0 2 (1/2) 1; gauss2d_set 2 1 1 1 0 1].
Definition alg_b : gmix := [gauss2d_set 2 1 1 3 0 1; gauss2d_set 1 0 0 1 0 1].
Example C149_hypotheses_hold :
  (flux_of alg_a = flux_of alg_b /\ row_of alg_a = row_of alg_b /\ col_of alg_a = col_of alg_b /\ flux_of alg_b <> 0) /\
  (exists psf', gm_set_flux alg_b 5 = Some psf') /\ (exists psf', gm_set_cen alg_b 3 4 = Some psf') /\
  Forall (fun g => posdef (gcov g)) alg_a /\ Forall (fun g => posdef (gcov g)) alg_b /\ in_disk (1/10, 1/10) /\ (exists c, gmix_convolve alg_a alg_b = Ok c).
Proof.
  assert (Z : flux_of alg_b = 3) by (unfold flux_of, alg_b; cbn; lra).
  assert (N : flux_of alg_b <> 0) by lra.
  split. { split; [unfold flux_of; cbn; lra|]. split; [unfold row_of, mean_of, flux_of; cbn; field|]. split; [unfold col_of, mean_of, flux_of; cbn; field|exact N]. }
  split. { unfold gm_set_flux, np_div. change (rsum (map g_p alg_b)) with (flux_of alg_b). rewrite Reqb_f by exact N. eexists. reflexivity. }
  split. { unfold gm_set_cen, gm_get_cen, np_div. change (rsum (map g_p alg_b)) with (flux_of alg_b). rewrite Reqb_f by exact N. eexists. reflexivity. }
  split. { repeat constructor; unfold posdef, gcov, cov, det2; cbn; lra. }
  split. { repeat constructor; unfold posdef, gcov, cov, det2; cbn; lra. }
  split. { unfold in_disk, Shape_Spec.cmod2; cbn; lra. }
  rewrite conv_eq by exact N. eexists. reflexivity.
Qed.
