(** C144: pre-PSF moments in turned sky coordinates. *)
From Verif Require Import Base XReal Flags_Model Moments_Model Jacobian_Model Pixels_Model MomResult_Model PrePSF_Model PrePSF_Spec PrePSFCex_Proofs Motion_Spec Turn_Spec PrePSFTurn_Spec PrePSFTurn_Proofs PrePSFTurnCex_Proofs.
Local Open Scope R_scope.

(** whatever the fitter, the stamps and the angle: the same outcome; moments and covariance are turned, size, flux, s2n,
    their errors and flags are the same, and so is an unflagged shape but for the turn *)
Theorem C144_go : forall t f o o' no_psf, stamps_turned t o o' ->
  same_go (fun r r' => moments_turned t r r' /\ (m_flags r = 0%Z -> m_flags r' = 0%Z -> shape_turned t r r')) (go f o no_psf) (go f o' no_psf).
Proof. exact go_turned. Qed.
Print Assumptions C144_go.
(** and such coordinates always exist *)
Theorem C144_can_be_turned : forall t o, exists o', stamps_turned t o o'.
Proof. intros t o. exists (turned_stamps t o). apply turned_stamps_ok. Qed.
Print Assumptions C144_can_be_turned.
(** the overall flags do depend on the angle: every object that is measured without flags is flagged at some angle *)
Theorem C144_every_object_is_flagged_at_some_angle : forall f o no_psf r, go f o no_psf = Some (Ok r) -> m_flags r = 0%Z ->
  exists t o' r', stamps_turned t o o' /\ go f o' no_psf = Some (Ok r') /\ m_flags r' <> 0%Z.
Proof. intros f o np r G Z. destruct (flagged_somewhere f o np r G Z) as (t & r' & G' & F). exists t, (turned_stamps t o), r'. split; [apply turned_stamps_ok|]. split; assumption. Qed.
Print Assumptions C144_every_object_is_flagged_at_some_angle.
(** the same object and fitter: no flags along one pair of axes, a variance that is not positive along another *)
Theorem C144_flags_refuted : exists f o o' t r r', stamps_turned t o o' /\ go f o false = Some (Ok r) /\ go f o' false = Some (Ok r') /\ m_flags r = 0%Z /\ m_flags r' = NONPOS_VAR.
Proof.
  destruct ex_root as (z & Hz & E). destruct (d_result z (PI / 8) Hz E) as (r & G & A & _). destruct (d_result z 0 Hz E) as (r' & G' & _ & B).
  exists (ex_f z), (turned_stamps (PI / 8) d_o), (turned_stamps 0 d_o), (0 - PI / 8), r, r'. split; [apply stamps_between|]. split; [exact G|]. split; [exact G'|].
  split; [apply A; apply eighth|]. apply B. rewrite Rmult_0_r. apply sin_0.
Qed.
Print Assumptions C144_flags_refuted.
(** an object that is measured without flags in two sets of coordinates at 45 degrees *)
Example C144_hypotheses_hold : exists f o o' t r r', t = PI / 4 /\ stamps_turned t o o' /\ go f o false = Some (Ok r) /\ go f o' false = Some (Ok r') /\ m_flags r = 0%Z /\ m_flags r' = 0%Z.
Proof.
  destruct ex_root as (z & Hz & E). destruct (d_result z (- (PI / 8)) Hz E) as (r & G & A & _). destruct (d_result z (PI / 8) Hz E) as (r' & G' & A' & _).
  exists (ex_f z), (turned_stamps (- (PI / 8)) d_o), (turned_stamps (PI / 8) d_o), (PI / 8 - - (PI / 8)), r, r'. split; [field|]. split; [apply stamps_between|]. split; [exact G|]. split; [exact G'|].
  split; [apply A; apply eighth'|apply A'; apply eighth].
Qed.
Print Assumptions C144_hypotheses_hold.
