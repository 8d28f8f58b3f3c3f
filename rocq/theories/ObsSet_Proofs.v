(** A setter that returns has assigned exactly the named attribute. *)
From Verif Require Import Base Jacobian_Model Pixels_Model Pixels_Proofs Obs_Model Obs_Spec ObsZone_Proofs Obs_Proofs ObsThm_Proofs.

Lemma shown_grow m m' o k : grow m m' -> okobs m o -> shown m' o k = shown m o k.
Proof.
  intros G [(im & w & A & B & _) (j & C & _) D _ _ _]. destruct k as [| | |s]; cbn [shown].
  - rewrite A. eapply grow_content; eauto.
  - rewrite B. eapply grow_content; eauto.
  - rewrite C. eapply grow_content; eauto.
  - destruct (ob_opt o s) as [a|] eqn:E; [|reflexivity]. destruct (D s a E) as (x & X). rewrite X. eapply grow_content; eauto.
Qed.
(** what the theorem says *)
Definition done (m : mem) (i : nat) (o : obs) (k : attr) (c : option content) (m' : mem) : Prop :=
  exists o', nth_error (m_obs m') i = Some o' /\ shown m' o' k = c /\ (forall k', k' <> k -> shown m' o' k' = shown m o k') /\ same_rest o o' /\
    (forall j x, j <> i -> nth_error (m_obs m) j = Some x -> nth_error (m_obs m') j = Some x) /\
    (forall a x, content_at m a = Some x -> content_at m' a = Some x) /\
    (forall d x, nth_error (m_metas m) d = Some x -> nth_error (m_metas m') d = Some x).
Lemma finish m m1 i o o1 o2 k c : grow m m1 -> nth_error (m_obs m) i = Some o -> okobs m o -> same_rest o o2 ->
  (forall k', shown m1 o2 k' = shown m1 o1 k') ->
  shown m1 o1 k = c -> (forall k', k' <> k -> shown m1 o1 k' = shown m1 o k') ->
  done m i o k c (setobs m1 i o2).
Proof.
  intros G N O H S0 S1 S2. exists o2. pose proof (grow_obs _ _ _ _ G N) as N1.
  split; [cbn; eapply nth_upd_same; exact N1|]. split; [change (shown m1 o2 k = c); rewrite S0; exact S1|].
  split. { intros k' K. change (shown m1 o2 k' = shown m o k'). rewrite S0, S2 by exact K. apply shown_grow; assumption. }
  split; [exact H|]. split. { intros j x J E. cbn. rewrite nth_upd_ne by auto. eapply grow_obs; eauto. }
  split. { intros a x E. rewrite setobs_content. eapply grow_content; eauto. }
  intros d x E. cbn. eapply grow_meta; eauto.
Qed.
Tactic Notation "bi" ident(E) ident(m) ident(a) ident(E1) := apply bindM_inv in E; destruct E as [(?e & _ & ?X)|(m & a & E1 & E)]; [discriminate|].
Ltac got E := unfold bindM at 1 in E; unfold get_obs at 1 in E.

Definition grows {A} (x : M A) (Q : A -> mem -> Prop) : Prop := alloc false (fun _ => True) x Q.
Lemma grows_use {A} (x : M A) Q m m' a : grows x Q -> good false m -> x m = (m', Ok a) -> good false m' /\ grow m m' /\ Q a m'.
Proof. intros H G E. destruct (H m m' _ G Logic.I E) as (A1 & A2 & A3). auto. Qed.

Lemma weight_none sh : grows (weight_value sh ANone) (fun x m => content_at m x = Some (C2 (mkArr (fst sh) (snd sh) (fun _ _ => 1)))).
Proof. apply alloc_new_arr. Qed.
Lemma jac_none sh : grows (jac_value sh JNone) (fun x m =>
  content_at m x = Some (CJ (mkJac ((INR (fst sh) - 1) / 2) ((INR (snd sh) - 1) / 2) 1 0 0 1 1 1))).
Proof.
  intros m m' r I _ E. unfold jac_value in E. unfold UnitJacobian_init, DiagonalJacobian_init, Jacobian_init in E. cbn in E.
  unfold bindM, lift, finish_init in E. replace (1 * 1 - 0 * 0) with 1 in E by ring. rewrite Rabs_R1, sqrt_1 in E.
  destruct (alloc_new_arr false (fun _ => True) _ true m m' r I Logic.I E) as (A & B & C). split; [exact A|]. split; [exact B|].
  intros x Hx. apply C. exact Hx.
Qed.

Lemma contig_value m a cv m1 x m2 : good false m -> ascontig a cv m = (m1, Ok x) -> grow m1 m2 -> content_at m2 x = content_at m a.
Proof.
  intros G E L. destruct (content_at m a) as [d|] eqn:D.
  - destruct (grows_use _ _ _ _ _ (alloc_ascontig false _ _ _) G E) as (_ & L1 & c & C1 & C2).
    rewrite (grow_content _ _ _ _ L1 D) in C1. rewrite (grow_content _ _ _ _ L C2). congruence.
  - exfalso. revert E. unfold ascontig, bindM, contents, bindM, get_arr, get_buf. unfold content_at in D.
    destruct (nth_error (m_arrs m) a) as [r|]; [|discriminate]. unfold bindM.
    destruct (nth_error (m_bufs m) (a_buf r)); discriminate.
Qed.
Lemma image_shape m i o m1 sh : good false m -> nth_error (m_obs m) i = Some o -> shape2 (ob_image o) m = (m1, Ok sh) ->
  m1 = m /\ exists im, shown m o VImage = Some (C2 im) /\ sh = (nrow im, ncol im).
Proof.
  intros G N E. unfold shape2, contents, bindM, get_arr, get_buf in E.
  cbn [shown]. unfold content_at. destruct (nth_error (m_arrs m) (ob_image o)) as [r|]; [|discriminate].
  destruct (nth_error (m_bufs m) (a_buf r)) as [b|]; [|discriminate]. cbn [option_map]. unfold ret in E.
  destruct (b_data b) as [im| |] eqn:D; try discriminate. injection E as <- <-. split; [reflexivity|]. exists im. auto.
Qed.

Theorem setter_assigns p x i k c m' u o : let m := exec empty_mem p in
  nth_error (m_obs m) i = Some o -> assigns m o x i k c -> step x m = (m', Ok u) -> done m i o k c m'.
Proof.
  intros m N A E. pose proof (reach_good p) as G. fold m in G. pose proof (good_ok _ _ _ _ G N) as O.
  destruct x; cbn [assigns] in A; try contradiction; cbn [step] in E; unfold unit_ in E; apply bindM_inv in E;
    (destruct E as [(e & _ & X)|(mz & v & E & X)]; [discriminate|]); injection X as <- _.
  - (* image *) destruct A as (-> & -> & ->). unfold set_image in E. got E. rewrite N in E.
    bi E m1 a1 E1. destruct (grows_use _ _ _ _ _ (alloc_ascontig false _ _ _) G E1) as (G1 & L1 & cc & C1 & C2).
    bi E m2 a2 E2. destruct (grows_use _ _ _ _ _ (alloc_shape2 false _ _) G1 E2) as (G2 & L2 & im & I1 & ->).
    bi E m3 a3 E3. destruct (grows_use _ _ _ _ _ (alloc_shape2 false _ _) G2 E3) as (G3 & L3 & im0 & I2 & ->).
    bi E m4 a4 E4. destruct (grows_use _ _ _ _ _ (alloc_assert false _ _ _) G3 E4) as (G4 & L4 & SH). apply shape_eqb_true in SH.
    assert (L' : grow m1 m4) by (eapply grow_trans; [exact L2|]; eapply grow_trans; [exact L3|exact L4]).
    assert (L : grow m m4) by (eapply grow_trans; [exact L1|exact L']).
    assert (OO : okobs m4 (with_image o a1)).
    { eapply ok_with_image; [eapply grow_okobs; [exact L|exact O]| | |exact SH].
      - eapply grow_content; [|exact I1]. eapply grow_trans; eassumption.
      - eapply grow_content; [exact L4|]. exact I2. }
    destruct (put_update false _ _ _ _ _ _ G4 (grow_obs _ _ _ _ L N) OO E) as [(_ & _ & q & -> & _)|(_ & e & X & _)]; [|discriminate].
    eapply (finish m m4 i o (with_image o a1)); eauto.
    + unfold same_rest. cbn. auto 10.
    + cbn [shown with_image ob_image]. eapply contig_value; eauto.
    + intros [] K; try reflexivity. congruence.
  - (* weight *) assert (A' : i0 = i /\ k = VWeight) by (destruct w; tauto). destruct A' as [-> ->].
    unfold set_weight in E. got E. rewrite N in E. bi E m1 a1 E1. apply view_check_mem in E1 as ->.
    bi E m2 a2 E2. destruct (image_shape _ _ _ _ _ G N E2) as (-> & im & SI & ->).
    bi E m3 a3 E3. destruct (grows_use _ _ _ _ _ (alloc_weight_value false _ _ _) G E3) as (G3 & L3 & AI).
    assert (OO : okobs m3 (with_weight o a3)).
    { eapply ok_with_weight; [eapply grow_okobs; [exact L3|exact O]|eapply grow_content; [exact L3|exact SI]|exact AI]. }
    destruct (put_update false _ _ _ _ _ _ G3 (grow_obs _ _ _ _ L3 N) OO E) as [(_ & _ & q & -> & _)|(_ & e & X & _)]; [|discriminate].
    eapply (finish m m3 i o (with_weight o a3)); eauto.
    + unfold same_rest. cbn. auto 10.
    + cbn [shown with_weight ob_weight]. destruct w as [|a cv].
      * destruct A as (_ & _ & im' & SI' & ->). rewrite SI in SI'. injection SI' as <-.
        destruct (grows_use _ _ _ _ _ (weight_none _) G E3) as (_ & _ & Q). exact Q.
      * destruct A as (_ & _ & ->). unfold weight_value in E3. bi E3 m4 a4 E4. bi E3 m5 a5 E5. bi E3 m6 a6 E6. injection E3 as <- <-.
        destruct (grows_use _ _ _ _ _ (alloc_ascontig false _ _ _) G E4) as (G4 & _ & _).
        destruct (grows_use _ _ _ _ _ (alloc_shape2 false _ _) G4 E5) as (G5 & L5 & _).
        destruct (grows_use _ _ _ _ _ (alloc_assert false _ _ _) G5 E6) as (_ & L6 & _).
        eapply contig_value; [exact G|exact E4|]. eapply grow_trans; eassumption.
    + intros [] K; try reflexivity. congruence.
  - (* masks, noise, mfrac *) assert (A' : i0 = i /\ k = VOpt s) by (destruct w; tauto). destruct A' as [-> ->].
    unfold set_opt in E. got E. rewrite N in E. bi E m1 a1 E1.
    assert (m1 = m) as ->. { destruct w; [injection E1 as <- _; reflexivity|apply view_check_mem in E1; exact E1]. }
    bi E m2 a2 E2. destruct (image_shape _ _ _ _ _ G N E2) as (-> & im & SI & ->).
    bi E m3 a3 E3. destruct (grows_use _ _ _ _ _ (alloc_opt_value false _ _ _) G E3) as (G3 & L3 & AI).
    injection E as <- _. change (done m i o (VOpt s) c (setobs m3 i (with_opt o s a3))).
    eapply (finish m m3 i o (with_opt o s a3)); eauto.
    + unfold same_rest. cbn. auto 10.
    + cbn [shown with_opt ob_opt]. replace (slot_eqb s s) with true by (destruct s; reflexivity). destruct w as [|a cv].
      * destruct A as (_ & _ & ->). injection E3 as _ <-. reflexivity.
      * destruct A as (_ & _ & ->). unfold opt_value in E3. bi E3 m4 a4 E4. bi E3 m5 a5 E5. bi E3 m6 a6 E6. injection E3 as <- <-.
        destruct (grows_use _ _ _ _ _ (alloc_ascontig false _ _ _) G E4) as (G4 & _ & _).
        destruct (grows_use _ _ _ _ _ (alloc_shape2 false _ _) G4 E5) as (G5 & L5 & _).
        destruct (grows_use _ _ _ _ _ (alloc_assert false _ _ _) G5 E6) as (_ & L6 & _).
        eapply contig_value; [exact G|exact E4|]. eapply grow_trans; eassumption.
    + intros [| | |s'] K; try reflexivity. cbn [shown with_opt ob_opt]. replace (slot_eqb s s') with false; [reflexivity|].
      destruct s, s'; try reflexivity; congruence.
  - (* jacobian *) assert (A' : i0 = i /\ k = VJac) by (destruct j; tauto). destruct A' as [-> ->].
    unfold set_jacobian in E. got E. rewrite N in E. bi E m1 a1 E1.
    assert (m1 = m) as ->. { destruct j; [apply view_check_mem in E1; exact E1| |]; injection E1 as <- _; reflexivity. }
    bi E m2 a2 E2. destruct (image_shape _ _ _ _ _ G N E2) as (-> & im & SI & ->).
    bi E m3 a3 E3. destruct (grows_use _ _ _ _ _ (alloc_jac_value false _ _ _) G E3) as (G3 & L3 & AI).
    assert (OO : okobs m3 (with_jac o a3)).
    { eapply ok_with_jac; [eapply grow_okobs; [exact L3|exact O]|exact AI]. }
    destruct (put_update false _ _ _ _ _ _ G3 (grow_obs _ _ _ _ L3 N) OO E) as [(_ & _ & q & -> & _)|(_ & e & X & _)]; [|discriminate].
    eapply (finish m m3 i o (with_jac o a3)); eauto.
    + unfold same_rest. cbn. auto 10.
    + cbn [shown with_jac ob_jac]. destruct j as [|j|]; [| |contradiction].
      * destruct A as (_ & _ & im' & SI' & ->). rewrite SI in SI'. injection SI' as <-.
        destruct (grows_use _ _ _ _ _ (jac_none _) G E3) as (_ & _ & Q). exact Q.
      * destruct A as (_ & _ & j' & Cj & ->). destruct AI as (jj & Q & _ & H). specialize (H j eq_refl). congruence.
    + intros [] K; try reflexivity. congruence.
Qed.
