(** C145: adaptive moments in turned and shifted coordinates *)
From Verif Require Import Base XReal Jacobian_Model Pixels_Model GMix_Model GMixObj_Model GMixObj_Proofs Flags_Model Admom_Model Admom4_Proofs Units_Spec Motion_Spec AmTurn_Spec AmTurn_Proofs AmTurn2_Proofs AmTurnCex_Proofs.
Local Open Scope R_scope.

(** any shift, with a turn by a multiple of 90 degrees; the guess is in the same coordinates as the pixels *)
Theorem C145_run : forall t a b px px' j j' c w w', pix_moved t a b px px' -> quarter t -> jac_moved t a b j j' -> Forall2 (gauss_moved 1 t a b) w w' ->
  let x := am_run c (mkAo px j) w in let x' := am_run c (mkAo px' j') w' in
  Forall2 (gauss_moved 1 t a b) (fst x) (fst x') /\ same_outcome (adaptive_moved t a b) (snd x) (snd x').
Proof. intros t a b px px' j j' c w w' P Q J W. exact (run_moved t a b px px' P Q j j' J c w w' W). Qed.
Print Assumptions C145_run.
(** the method: the mixture passed as guess holds the final weight, which is moved too *)
Theorem C145_go : forall t a b px px' j j' c h h' i g g', pix_moved t a b px px' -> quarter t -> jac_moved t a b j j' -> wf h -> wf h' ->
  read h i = Some g -> read h' i = Some g' -> mix_moved 1 t a b g g' ->
  exists h1 r h1' r' g1 g1', am_go c h (mkAo px j) (GObj i) = Some (h1, r) /\ am_go c h' (mkAo px' j') (GObj i) = Some (h1', r') /\
    same_outcome (adaptive_moved t a b) r r' /\ read h1 i = Some g1 /\ read h1' i = Some g1' /\ mix_moved 1 t a b g1 g1'.
Proof. exact go_moved. Qed.
Print Assumptions C145_go.
(** the mixture of the result *)
Theorem C145_mixture : forall t a b d d', adaptive_moved t a b d d' ->
  same_outcome (fun g g' => Forall2 (gauss_moved 1 t a b) (o_data g) (o_data g')) (am_get_gmix d) (am_get_gmix d').
Proof. exact gmix_moved. Qed.
Print Assumptions C145_mixture.
(** a tilted object, turned by 90 degrees and shifted *)
Example C145_hypotheses_hold : let j' := mkJac 4 4 0 (-1) 1 0 1 1 in
  quarter (PI / 2) /\ pix_moved (PI / 2) 2 (-3) pxW (map turned_pixel pxW) /\ jac_moved (PI / 2) 2 (-3) jac1 j' /\ Forall2 (gauss_moved 1 (PI / 2) 2 (-3)) [gW] [gauss2d_set 1 2 (-3) 8 (-2) 2] /\
  exists d, snd (am_run confP (mkAo pxW jac1) [gW]) = Ok d /\ d_flags d = 0%Z /\ d_numiter d = 2%nat /\ d_T d = Fin 10.
Proof. exact (conj quarter_90 moved_sample). Qed.
(** at any angle the weights correspond as long as the loop goes on in both *)
Theorem C145_weights_at_any_angle_partial : forall t a b px px' c n w w' v v', pix_moved t a b px px' -> Forall2 (gauss_moved 1 t a b) w w' ->
  weight_after c px n w = Some v -> weight_after c px' n w' = Some v' -> Forall2 (gauss_moved 1 t a b) v v'.
Proof. intros t a b px px' c n w w' v v' P. exact (weight_after_moved t a b px px' P c n w w' v v'). Qed.
Print Assumptions C145_weights_at_any_angle_partial.
Example C145_weights_hypotheses_hold : pix_moved (PI / 2) 2 (-3) pxW (map turned_pixel pxW) /\ Forall2 (gauss_moved 1 (PI / 2) 2 (-3)) [gW] [gauss2d_set 1 2 (-3) 8 (-2) 2] /\
  exists v v', weight_after confP pxW 1 [gW] = Some v /\ weight_after confP (map turned_pixel pxW) 1 [gauss2d_set 1 2 (-3) 8 (-2) 2] = Some v'.
Proof. destruct moved_sample as (P & _ & W & _). exact (conj P (conj W sample_goes_on)). Qed.
(** but where it stops depends on the angle: the limits on the shift of the centre are along the axes *)
Theorem C145_any_angle_refuted : exists px' j' d d', pix_moved (PI / 4) 0 0 (onep 6 0) px' /\ jac_moved (PI / 4) 0 0 jacP j' /\ Forall2 (gauss_moved 1 (PI / 4) 0 0) [g4] [g4] /\
  snd (am_run confP (mkAo (onep 6 0) jacP) [g4]) = Ok d /\ snd (am_run confP (mkAo px' j') [g4]) = Ok d' /\ d_flux_flags d = CEN_SHIFT /\ d_flux_flags d' = NONPOS_SIZE.
Proof. exact depends_on_angle. Qed.
Print Assumptions C145_any_angle_refuted.
