(** A run that meets the hypotheses of EMLike_Proofs. *)
From Verif Require Import Base Moments_Spec Pixels_Model Jacobian_Model GMix_Model GMix_Spec Render_Spec GMixObj_Model
  EM_Model EM_Spec EM_Proofs EMResult_Proofs EMThm_Proofs EMCex_Proofs EMExample_Proofs EMLike_Proofs.
Local Open Scope R_scope.

Lemma four_counts : counts_given four 0 [round 1 0] P0.
Proof.
  split; [|split; [lra|split; [constructor; [cbn; lra|constructor]|split; [discriminate|constructor; [cbn; lra|constructor]]]]].
  apply Forall_forall. intros p Hp. apply four_in in Hp. lra.
Qed.
Lemma four_kept : no_correction Free P0 st0.
Proof.
  intros _ g [<-|[]]. cbv zeta.
  assert (AF : att_flux P0 st0 (round 1 0) = 4). { unfold att_flux. rewrite four_att. cbn [four map]. rewrite !rsum_cons, rsum_nil. ring. }
  unfold att_mean. rewrite AF, !four_att, cov_P0. cbn [four map]. rewrite !rsum_cons, !rsum_nil. cbn [px_v px_u round gauss2d_set g_row g_col g_irr g_irc g_icc xx xy yy].
  assert (/ 10 ^ 200 <= 1). { rewrite <- Rinv_1. apply Rinv_le_contravar; [lra|]. apply pow_R1_Rle. lra. }
  set (e := / 10 ^ 200) in *. clearbody e. split; [lra|]. split; [lra|]. lra.
Qed.
Lemma four_cut p : In p four -> cut_light P0 (m_gm st0) p <= 0 * (full_model P0 (m_gm st0) p + m_sky st0).
Proof.
  intros Hp. unfold cut_light. cbn [st0 m_gm]. rewrite views_point. cbn [map]. rewrite rsum_cons, rsum_nil, fresh_round, (four_dist p Hp). destruct (Rlt_dec 2 25); lra.
Qed.
Lemma four_climbs : exists f m obs guess sky px s G P h t t', ran f m obs guess sky px s G P h /\ counts_given px s G P /\ f_kind f = Free /\ length P = 1%nat /\
  nth_error h 0 = Some t /\ nth_error h 1 = Some t' /\ t <> t' /\ no_correction (f_kind f) P t /\
  forall p, In p px -> cut_light P (m_gm t) p <= 0 * (full_model P (m_gm t) p + m_sky t).
Proof.
  destruct (guess_exists 0) as (h & G). set (m := mkEm h [four] [img 1]). set (o := mkEo 0 (img 1) J1 0 None).
  destruct (guess_is 0 h [four] [img 1] G) as (Gg & GF).
  assert (EV : forall p, Forall evaluable (views P0 [round p 0])).
  { intros p. rewrite views_point. constructor; [rewrite fresh_round; apply round_evaluable|constructor]. }
  exists (mkFit Free 1 1 (/ 10) false), m, o, 0%nat, (Some 0), four, 0, [round 1 0], P0, [st0; mkEM [round 4 0] four 0], st0, (mkEM [round 4 0] four 0).
  split; [|split; [exact four_counts|split; [reflexivity|split; [reflexivity|split; [reflexivity|split; [reflexivity|split; [|split; [exact four_kept|exact four_cut]]]]]]]].
  - split; [split; reflexivity|]. split; [exact Gg|]. split; [reflexivity|]. split; [reflexivity|]. split.
    + intros [|[|i]] a b A B; cbn in A, B; try discriminate. injection A as <-. injection B as <-. apply four_step. reflexivity.
    + intros a [<-|[<-|[]]]; apply EV.
  - intros K. injection K. lra.
Qed.
