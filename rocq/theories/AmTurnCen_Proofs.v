(** Proofs for C145: the centre finder *)
From Verif Require Import Base XReal Pixels_Model Shape_Model Shape_Proofs Jacobian_Model Moments_Model GMix_Model GMixObj_Model GMixObj_Proofs WSums_Model Admom_Model Units_Spec Units_Proofs Fit_Model Motion_Spec Motion_Proofs Motion2_Proofs AmTurn_Spec AmTurnCen_Spec AmTurn_Proofs AmTurn2_Proofs.
Local Open Scope R_scope.

Lemma cen_moved t a b w w' : Forall2 (gauss_moved 1 t a b) w w' ->
  match gm_get_cen w, gm_get_cen w' with
  | Some c, Some c' => c' = (moved_v t a (fst c) (snd c), moved_u t b (fst c) (snd c))
  | None, None => True
  | _, _ => False
  end.
Proof.
  intros F.
  assert (S : rsum (map g_p w') = rsum (map g_p w) /\
    rsum (map (fun g => g_row g * g_p g) w') = cos t * rsum (map (fun g => g_row g * g_p g) w) - sin t * rsum (map (fun g => g_col g * g_p g) w) + a * rsum (map g_p w) /\
    rsum (map (fun g => g_col g * g_p g) w') = sin t * rsum (map (fun g => g_row g * g_p g) w) + cos t * rsum (map (fun g => g_col g * g_p g) w) + b * rsum (map g_p w)).
  { induction F as [|g g' w w' (E1 & E2 & E3 & _) _ (I1 & I2 & I3)]; cbn [map]; rewrite ?rsum_nil, ?rsum_cons; [repeat split; ring|]. rewrite I1, I2, I3, E1, E2, E3. unfold moved_v, moved_u. repeat split; ring. }
  destruct S as (S1 & S2 & S3). unfold gm_get_cen, np_div. rewrite S1, S2, S3. destruct (Reqb_spec (rsum (map g_p w)) 0) as [Z|N]; [exact I|]. cbn [fst snd]. unfold moved_v, moved_u. f_equal; field; exact N.
Qed.
Lemma turned_zero t : turned_1 t 0 0 = 0 /\ turned_2 t 0 0 = 0.
Proof. unfold turned_1, turned_2. split; ring. Qed.
Lemma weight_moved t a b h h' w w' : weights_moved t a b h h' w w' ->
  exists r r', cen_weight h w = Some r /\ cen_weight h' w' = Some r' /\ same_outcome (fun g g' => Forall2 (gauss_moved 1 t a b) (o_data g) (o_data g')) r r'.
Proof.
  destruct w as [i|f|], w' as [i'|f'|]; cbn [weights_moved cen_weight]; try contradiction.
  - intros (g & g' & E & E' & K & K' & N & D). rewrite E, E'. do 2 eexists. split; [reflexivity|]. split; [reflexivity|]. unfold obj_copy. rewrite K, K'. exact D.
  - intros (-> & -> & ->). do 2 eexists. split; [reflexivity|]. split; [reflexivity|].
    pose proof (model_moved t 0 0 (FName Mgauss) [0; 0; 0; 0; fwhm_to_T f; 1] [0; 0; 0; 0; fwhm_to_T f; 1]) as H.
    cbn [make_model] in H. assert (PM : pars_moved t 0 0 [0; 0; 0; 0; fwhm_to_T f; 1] [0; 0; 0; 0; fwhm_to_T f; 1]).
    { exists 0, 0, 0, 0, [fwhm_to_T f; 1]. split; [reflexivity|]. destruct (turned_zero t) as [-> ->]. unfold moved_v, moved_u. f_equal; [ring|]. f_equal. ring. }
    specialize (H PM I). destruct (new_model _ _); cbn [same_outcome] in *; [apply H|exact H].
  - intros _. do 2 eexists. split; [reflexivity|]. split; reflexivity.
Qed.
Theorem find_cen_moved t a b px px' j j' k h h' w w' rng rng' : pix_moved t a b px px' -> quarter t -> jac_moved t a b j j' -> wf h -> wf h' -> weights_moved t a b h h' w w' ->
  exists h1 r h1' r', find_cen_admom k h (mkAo px j) w 1 rng = Some (h1, r) /\ find_cen_admom k h' (mkAo px' j') w' 1 rng' = Some (h1', r') /\
    same_outcome (fun x x' => adaptive_moved t a b (fst x) (fst x') /\ found_moved t a b (snd x) (snd x')) r r'.
Proof.
  intros P Q J W W' HW. destruct (weight_moved t a b h h' w w' HW) as (r & r' & E & E' & H). unfold find_cen_admom. cbn [Nat.ltb Nat.leb andb]. rewrite E, E'.
  destruct r as [g|e], r' as [g'|e']; cbn [same_outcome] in H; try contradiction; [|subst e'; do 4 eexists; split; [reflexivity|]; split; reflexivity].
  cbn [cen_loop am_go]. rewrite !read_alloc_new. rename H into D.
  pose proof (run_moved t a b px px' P Q j j' J (mkAc (ac_maxiter k) (ac_shiftmax k) (ac_etol k) (ac_Ttol k) true) _ _ D) as R. cbv zeta in R.
  destruct (am_run _ (mkAo px j) (o_data g)) as [v r], (am_run _ (mkAo px' j') (o_data g')) as [v' r']. cbn [fst snd] in R. destruct R as [_ R].
  destruct r as [d|e], r' as [d'|e']; cbn [same_outcome] in R; try contradiction; [|subst e'; do 4 eexists; split; [reflexivity|]; split; reflexivity].
  pose proof R as (EF & _). rewrite EF. destruct (Z.eqb (d_flags d) 0) eqn:Z0.
  - do 4 eexists. split; [reflexivity|]. split; [reflexivity|]. rewrite EF, Z0. eapply same_bind; [apply gmix_moved, R|]. intros x x' X. pose proof (cen_moved _ _ _ _ _ X) as C.
    destruct (gm_get_cen (o_data x)) as [[r1 c1]|], (gm_get_cen (o_data x')) as [[r2 c2]|]; try contradiction; (split; [exact R|]); [|left; auto].
    right. cbn [fst snd] in *. injection C as -> ->. eauto.
  - do 4 eexists. split; [reflexivity|]. split; [reflexivity|]. rewrite EF, Z0. split; [exact R|left; auto].
Qed.
