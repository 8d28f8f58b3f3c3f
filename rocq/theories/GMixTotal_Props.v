(** C150 *)
From Coq Require Import Permutation.
From Verif Require Import Base Shape_Model Shape_Spec Moments_Spec GMix_Model GMix_Spec GMixTotal_Model GMixTotal_Spec GMixTotal_Proofs.
Local Open Scope R_scope.

(** the getters never fail, and all describe the covariance of the mixture *)
Theorem C150_reported : forall gm, positive_mixture gm -> exists e1 e2 g1 g2 T,
  gm_get_T gm = Some T /\ gm_get_sigma gm = Some (sqrt (T / 2)) /\ gm_get_e1e2T gm = Some (e1, e2, T) /\ gm_get_g1g2T gm = Some (Ok (g1, g2, T)) /\
  gm_get_e1e2sigma gm = Some (e1, e2, sqrt (T / 2)) /\ gm_get_g1g2sigma gm = Some (Ok (g1, g2, sqrt (T / 2))) /\
  0 < T /\ in_disk (e1, e2) /\ in_disk (g1, g2) /\ e_of_g (g1, g2) (e1, e2) /\ has_shape (cov_of gm) e1 e2 T.
Proof. exact reported. Qed.
Print Assumptions C150_reported.
(** the order of the components does not matter, for all mixtures *)
Theorem C150_order : forall gm gm', Permutation gm gm' ->
  gm_get_flux gm = gm_get_flux gm' /\ gm_get_cen gm = gm_get_cen gm' /\ gm_get_T gm = gm_get_T gm' /\ gm_get_sigma gm = gm_get_sigma gm' /\
  gm_get_e1e2T gm = gm_get_e1e2T gm' /\ gm_get_g1g2T gm = gm_get_g1g2T gm' /\ gm_get_e1e2sigma gm = gm_get_e1e2sigma gm' /\ gm_get_g1g2sigma gm = gm_get_g1g2sigma gm'.
Proof. exact any_order. Qed.
Print Assumptions C150_order.
(** nor do flux and position *)
Theorem C150_flux_and_position : forall gm gm', positive_mixture gm ->
  ((exists f, 0 < f /\ gm_set_flux gm f = Some gm') \/ (exists row col, gm_set_cen gm row col = Some gm')) ->
  positive_mixture gm' /\ gm_get_T gm' = gm_get_T gm /\ gm_get_e1e2T gm' = gm_get_e1e2T gm /\ gm_get_g1g2T gm' = gm_get_g1g2T gm.
Proof. exact flux_position. Qed.
Print Assumptions C150_flux_and_position.
(** the body of get_sheared shears the shape, for mixtures with one centre *)
Theorem C150_shear_partial : forall gm s1 s2 g1 g2 T, positive_mixture gm -> same_centre gm -> in_disk (s1, s2) -> gm_get_g1g2T gm = Some (Ok (g1, g2, T)) ->
  exists gm' z1 z2 T', gmix_shear gm s1 s2 = Ok gm' /\ shear_reduced g1 g2 s1 s2 = Ok (z1, z2) /\ gm_get_g1g2T gm' = Some (Ok (z1, z2, T')) /\
    cov_of gm' = sheared s1 s2 (cov_of gm).
Proof. exact shear_shape. Qed.
Print Assumptions C150_shear_partial.
(** in general the components are sheared and their centres are not *)
Theorem C150_sheared_covariance : forall gm s1 s2, Forall (fun g => posdef (gcov g)) gm -> in_disk (s1, s2) ->
  exists gm', gmix_shear gm s1 s2 = Ok gm' /\ flux_of gm' = flux_of gm /\ row_of gm' = row_of gm /\ col_of gm' = col_of gm /\
    cov_of gm' = add2 (sheared s1 s2 (mean_cov gm)) (centre_cov gm).
Proof. exact shear_total. Qed.
Print Assumptions C150_sheared_covariance.
(** so the shape of two round gaussians side by side is not sheared *)
Theorem C150_shear_refuted : exists gm s1 s2 gm' g1 g2 T z1 z2 w1 w2 T', positive_mixture gm /\ in_disk (s1, s2) /\ gm_get_g1g2T gm = Some (Ok (g1, g2, T)) /\
  gmix_shear gm s1 s2 = Ok gm' /\ shear_reduced g1 g2 s1 s2 = Ok (z1, z2) /\ gm_get_g1g2T gm' = Some (Ok (w1, w2, T')) /\ (w1, w2) <> (z1, z2).
Proof. exists two, (1 / 2), 0. exact centres_stay. Qed.
Print Assumptions C150_shear_refuted.

Example C150_hypotheses_hold :
  let gm := [gauss2d_set 1 0 0 2 (1/2) 1; gauss2d_set 2 0 0 1 0 1; gauss2d_set 0 0 0 1 0 1] in
  positive_mixture gm /\ same_centre gm /\ in_disk (1/10, 2/10) /\ (exists gm', gm_set_flux gm 5 = Some gm') /\ (exists gm', gm_set_cen gm 3 4 = Some gm') /\
  (exists g1 g2 T, gm_get_g1g2T gm = Some (Ok (g1, g2, T))) /\ positive_mixture two /\ ~ same_centre two.
Proof.
  cbv zeta. set (gm := [_; _; _]).
  assert (P : positive_mixture gm) by (split; [repeat constructor; unfold posdef, gcov, cov, det2; cbn; lra|unfold flux_of, gm; cbn; lra]).
  assert (N : flux_of gm <> 0) by (destruct P; lra).
  split; [exact P|]. split; [exists 0, 0; repeat constructor|]. split; [unfold in_disk, cmod2; cbn; lra|].
  split; [destruct (GMix_Proofs.set_flux_spec gm 5 N) as (x & E & _); eauto|]. split; [destruct (GMix_Proofs.set_cen_spec gm 3 4 N) as (x & E & _); eauto|].
  split. { destruct (reported gm P) as (e1 & e2 & g1 & g2 & T & _ & _ & _ & G & _). eauto. }
  split; [exact two_positive|]. intros (r & c & A). inversion A as [|? ? [_ X] B]; subst. inversion B as [|? ? [_ Y] _]; subst. cbn in Y. lra.
Qed.
