(** C145: the centre finder *)
From Verif Require Import Base XReal Jacobian_Model Pixels_Model GMix_Model GMixObj_Model GMixObj_Proofs Admom_Model Admom4_Proofs Units_Spec Motion_Spec AmTurn_Spec AmTurnCen_Spec AmTurnCex_Proofs AmTurnCen_Proofs.
Local Open Scope R_scope.

(** one try, the default: the centre is moved with the pixels and the weight function *)
Theorem C145_find_cen : forall t a b px px' j j' c h h' w w' rng rng', pix_moved t a b px px' -> quarter t -> jac_moved t a b j j' -> wf h -> wf h' -> weights_moved t a b h h' w w' ->
  exists h1 r h1' r', find_cen_admom c h (mkAo px j) w 1 rng = Some (h1, r) /\ find_cen_admom c h' (mkAo px' j') w' 1 rng' = Some (h1', r') /\
    same_outcome (fun x x' => adaptive_moved t a b (fst x) (fst x') /\ found_moved t a b (snd x) (snd x')) r r'.
Proof. exact find_cen_moved. Qed.
Print Assumptions C145_find_cen.
(** the tilted object of C145_hypotheses_hold *)
Example C145_find_cen_hypotheses_hold : let j' := mkJac 4 4 0 (-1) 1 0 1 1 in
  let h := alloc empty_heap (mkObj KFull 1 6 [] [gW]) in let h' := alloc empty_heap (mkObj KFull 1 6 [] [gauss2d_set 1 2 (-3) 8 (-2) 2]) in
  quarter (PI / 2) /\ pix_moved (PI / 2) 2 (-3) pxW (map turned_pixel pxW) /\ jac_moved (PI / 2) 2 (-3) jac1 j' /\ wf h /\ wf h' /\
  weights_moved (PI / 2) 2 (-3) h h' (WGmix 0) (WGmix 0) /\ weights_moved (PI / 2) 0 0 h h' (WFwhm 1) (WFwhm 1).
Proof.
  cbv zeta. destruct moved_sample as (P & J & W & _). split; [exact quarter_90|]. split; [exact P|]. split; [exact J|]. split; [apply alloc_wf, empty_wf|]. split; [apply alloc_wf, empty_wf|].
  split; [|cbn; auto]. do 2 eexists. split; [reflexivity|]. split; [reflexivity|]. split; [reflexivity|]. split; [reflexivity|]. split; [reflexivity|exact W].
Qed.
