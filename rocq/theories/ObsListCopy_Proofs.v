(** Proofs on copies of containers of observations. *)
From Verif Require Import Base Jacobian_Model Pixels_Model Obs_Model Obs_Spec ObsZone_Proofs Obs_Proofs ObsThm_Proofs ObsEq_Model ObsList_Model ObsList_Spec ObsList_Proofs.
From Coq Require Import ZArith.
Local Open Scope R_scope.

Lemma copy_facts m i m' i' : reached m -> step (CopyObs i) m = (m', Ok i') ->
  grow m m' /\ (length (m_obs m) <= i')%nat /\ exists v, reads m i v /\ reads m' i' v.
Proof.
  intros [p ->] E. destruct (copy_equal p i m' i' E) as (v & A & B & _). cbn [step] in E.
  pose proof (inv_zold _ (reach_inv p)) as I.
  destruct (safe_copy_obs _ _ (fun _ => True) i _ _ _ I Logic.I E) as (_ & _ & F).
  destruct (copy_exists _ (fun _ => True) i ltac:(apply keeps_pure) _ _ _ (reach_good p) Logic.I E) as (_ & G & _).
  split; auto. split; [|eauto]. destruct (F i' eq_refl) as [_ Z]. cbn [zo zold] in Z. apply Nat.ltb_ge in Z. auto.
Qed.
Lemma reached_good m : reached m -> good false m. Proof. intros [p ->]. apply reach_good. Qed.
Lemma reached_inv m : reached m -> Inv nowhere m. Proof. intros [p ->]. apply reach_inv. Qed.
Lemma grow_len m m' : grow m m' -> (length (m_obs m) <= length (m_obs m'))%nat /\ (length (m_metas m) <= length (m_metas m'))%nat.
Proof. intros [_ _ [x ->] [y ->]]. rewrite !app_length. lia. Qed.
Lemma list_value_grow m m' l v : grow (l_mem m) (l_mem m') -> (forall c, nth_error (l_conts m) l = Some c -> nth_error (l_conts m') l = Some c) ->
  list_value m l v -> list_value m' l v.
Proof.
  intros G N (c & A & B & C & D). exists c. split; [auto|]. split; [auto|]. split; [eapply grow_meta; eauto|].
  induction D as [|x u xs us (i & E & H) _ IH]; constructor; auto. exists i. split; auto. apply (keeps_reads i u _ _ G H).
Qed.
Lemma base_copy i m m' x : (ldo i' <- base (fun b => copy_obs (length (m_obs b)) i b) ;; lret (RObs i')) m = (m', Ok x) ->
  exists b i', x = RObs i' /\ m' = mkL b (l_conts m) (l_kobs m) /\ step (CopyObs i) (l_mem m) = (b, Ok i').
Proof.
  unfold lbind, base. cbn [step]. destruct (copy_obs (length (m_obs (l_mem m))) i (l_mem m)) as [b [i'|e]]; [|discriminate].
  unfold lret. intros [= <- <-]. eauto.
Qed.
Lemma append_ok l x m m' u c : append l x m = (m', Ok u) -> nth_error (l_conts m) l = Some c ->
  class_of m x = Some (elem (ct_cls c)) /\ m' = with_items m l c (ct_items c ++ [x]).
Proof.
  rewrite append_eq. intros E N. rewrite N in E. destruct (class_of m x) as [k|]; [|discriminate].
  destruct (cls_eqb (elem (ct_cls c)) k) eqn:Q; [|discriminate]. apply cls_eqb_eq in Q. injection E as <- _. split; [congruence|auto].
Qed.
Lemma step_reached m m' o r : reached m -> step o m = (m', r) -> reached m'.
Proof. intros R E. pose proof (reached_step m o R) as H. rewrite E in H. exact H. Qed.

(** new objects *)
Definition new_obs_ref (m : lmem) (x : ref) : Prop := exists i, x = RObs i /\ (length (m_obs (l_mem m)) <= i)%nat.
Definition copied_obs (m m' : lmem) (x y : ref) : Prop :=
  exists i i' v, x = RObs i /\ y = RObs i' /\ (length (m_obs (l_mem m)) <= i')%nat /\ reads (l_mem m) i v /\ reads (l_mem m') i' v.
Lemma class_obs m x : class_of m x = Some COb -> exists i, x = RObs i /\ (i < length (m_obs (l_mem m)))%nat.
Proof.
  destruct x as [i|i|k|]; unfold class_of; try discriminate.
  - destruct (Nat.ltb_spec i (length (m_obs (l_mem m)))); [eauto|discriminate].
  - destruct (Nat.ltb i (length (l_kobs m))); discriminate.
  - destruct (nth_error (l_conts m) k); discriminate.
Qed.
Lemma class_cont m x k : class_of m x = Some (CC k) -> exists l c, x = RCont l /\ nth_error (l_conts m) l = Some c /\ ct_cls c = k.
Proof.
  destruct x as [i|i|l|]; unfold class_of; try discriminate.
  - destruct (Nat.ltb i (length (m_obs (l_mem m)))); discriminate.
  - destruct (Nat.ltb i (length (l_kobs m))); discriminate.
  - destruct (nth_error (l_conts m) l) as [c|] eqn:Q; [|discriminate]. cbn. intros [= E]. exists l, c. auto.
Qed.
Lemma copy_items_obs depth l' xs : forall m m' u dn d, reached (l_mem m) ->
  nth_error (l_conts m) l' = Some (mkCont CList dn d) -> Forall (fun x => class_of m x = Some COb) xs ->
  copy_items (copy_ref (S depth)) l' xs m = (m', Ok u) ->
  exists ys, nth_error (l_conts m') l' = Some (mkCont CList (dn ++ ys) d) /\ grow (l_mem m) (l_mem m') /\
    (forall k, k <> l' -> nth_error (l_conts m') k = nth_error (l_conts m) k) /\ length (l_conts m') = length (l_conts m) /\
    Forall2 (copied_obs m m') xs ys.
Proof.
  induction xs as [|x xs IH]; intros m m' u dn d R N F E.
  - injection E as <- _. exists []. rewrite app_nil_r. split; [auto|]. split; [apply grow_refl|]. auto.
  - apply Forall_cons_iff in F as [Fx F]. destruct (class_obs _ _ Fx) as (i & -> & Hi).
    cbn [copy_items] in E. apply lbind_inv in E as [(e & E & H)|(m1 & y & E1 & E)]; [discriminate H|].
    cbn [copy_ref] in E1. apply base_copy in E1 as (b & i' & -> & -> & E1).
    destruct (copy_facts _ _ _ _ R E1) as (G1 & Li & v & Rv & Rv').
    apply lbind_inv in E as [(e & E & H)|(m2 & u2 & E2 & E)]; [discriminate H|].
    destruct (append_ok _ _ _ _ _ _ E2 N) as [_ ->].
    set (m2 := with_items (mkL b (l_conts m) (l_kobs m)) l' (mkCont CList dn d) (dn ++ [RObs i'])) in *.
    assert (R2 : reached (l_mem m2)) by (eapply step_reached; eauto).
    assert (LG : lgrow m m2).
    { eapply lgrow_trans; [|apply lgrow_items; exact N]. split; cbn; eauto. apply (grow_len _ _ G1). }
    assert (N2 : nth_error (l_conts m2) l' = Some (mkCont CList (dn ++ [RObs i']) d)).
    { cbn. apply nth_upd_same. apply nth_error_Some. congruence. }
    assert (F2 : Forall (fun x => class_of m2 x = Some COb) xs) by (eapply Forall_impl; [|exact F]; cbv beta; intros; eapply class_grow; eauto).
    destruct (IH m2 m' u _ _ R2 N2 F2 E) as (ys & A1 & A2 & A3 & A4 & A5).
    exists (RObs i' :: ys). split; [rewrite A1, <- app_assoc; auto|]. split; [eapply grow_trans; eauto|].
    split; [intros k K; rewrite (A3 k K); cbn; apply nth_upd_ne; auto|]. split; [rewrite A4; cbn; apply upd_length'|].
    constructor.
    + exists i, i', v. split; [auto|]. split; [auto|]. split; [auto|]. split; [auto|]. apply (keeps_reads i' v _ _ A2). exact Rv'.
    + clear - A5 F G1 R. induction A5 as [|x y xs ys (j & j' & w & -> & -> & H1 & H2 & H3) _ IH]; constructor.
      * apply Forall_cons_iff in F as [Fx _]. destruct (class_obs _ _ Fx) as (j0 & [= <-] & Hj).
        exists j, j', w. split; [auto|]. split; [auto|]. pose proof (proj1 (grow_len _ _ G1)). split; [cbn in H1; lia|]. split; [|auto].
        eapply reads_before; [apply reached_good; exact R|exact G1|exact H2|exact Hj].
      * apply IH. apply Forall_cons_iff in F as [_ F]. auto.
Qed.
(** container k of m' is a new list of new observations *)
Definition new_list (m m' : lmem) (k : nat) : Prop :=
  (length (l_conts m) <= k)%nat /\ exists c, nth_error (l_conts m') k = Some c /\
    (length (m_metas (l_mem m)) <= ct_meta c)%nat /\ Forall (new_obs_ref m) (ct_items c).
Lemma Forall2_map_ex {A B C} (P : A -> B -> C -> Prop) xs ys : Forall2 (fun x y => exists v, P x y v) xs ys ->
  exists vs, Forall2 (fun x v => exists y, P x y v) xs vs /\ Forall2 (fun y v => exists x, P x y v) ys vs.
Proof.
  intros H. induction H as [|x y xs ys (v & Hv) _ (vs & H1 & H2)]; [exists []; split; constructor|].
  exists (v :: vs). split; constructor; eauto.
Qed.
Lemma push_meta_facts (m : lmem) d cl : let m1 := mkL (mkMem (m_bufs (l_mem m)) (m_arrs (l_mem m)) (m_metas (l_mem m) ++ [d]) (m_obs (l_mem m)))
    (l_conts m ++ [mkCont cl [] (length (m_metas (l_mem m)))]) (l_kobs m) in
  grow (l_mem m) (l_mem m1) /\ lgrow m m1 /\ (reached (l_mem m) -> reached (l_mem m1)) /\ (typed m -> typed m1) /\
  nth_error (l_conts m1) (length (l_conts m)) = Some (mkCont cl [] (length (m_metas (l_mem m)))) /\
  nth_error (m_metas (l_mem m1)) (length (m_metas (l_mem m))) = Some d.
Proof.
  intros m1.
  assert (G : grow (l_mem m) (l_mem m1)).
  { split; cbn; [exists []|exists []|exists [d]|exists []]; rewrite ?app_nil_r; auto. }
  assert (LG : lgrow m m1). { split; cbn; auto. intros l c H. exists c. split; auto. apply nth_error_app_l; auto. }
  split; [exact G|]. split; [exact LG|]. split; [intros R; apply (reached_step _ (NewMeta d) R)|]. split.
  - intros T l c N. cbn in N. destruct (Nat.lt_ge_cases l (length (l_conts m))) as [L|L].
    + rewrite nth_error_app1 in N by auto. eapply Forall_impl; [|apply (T l c N)]. cbv beta. intros y. apply class_grow; auto.
    + rewrite nth_error_app2 in N by auto. destruct (l - length (l_conts m))%nat as [|k] eqn:K; cbn in N.
      * injection N as <-. constructor.
      * destruct k; discriminate.
  - cbn. rewrite !nth_error_app2, !Nat.sub_diag by lia. auto.
Qed.
(** what copy_ref does with a container *)
Lemma copy_cont_inv depth l m m' x : copy_ref (S depth) (RCont l) m = (m', Ok x) ->
  exists c d u, nth_error (l_conts m) l = Some c /\ (ct_cls c = CList \/ ct_cls c = CMb) /\ nth_error (m_metas (l_mem m)) (ct_meta c) = Some d /\
    x = RCont (length (l_conts m)) /\
    copy_items (copy_ref depth) (length (l_conts m)) (ct_items c)
      (mkL (mkMem (m_bufs (l_mem m)) (m_arrs (l_mem m)) (m_metas (l_mem m) ++ [d]) (m_obs (l_mem m)))
        (l_conts m ++ [mkCont (ct_cls c) [] (length (m_metas (l_mem m)))]) (l_kobs m)) = (m', Ok u).
Proof.
  cbn [copy_ref]. intros E. apply lbind_inv in E as [(e & E & H)|(m1 & c & E1 & E)]; [discriminate H|].
  unfold get_cont in E1. destruct (nth_error (l_conts m) l) as [c0|] eqn:N; [|discriminate]. injection E1 as <- <-.
  assert (Q : (ct_cls c0 = CList \/ ct_cls c0 = CMb) /\ (ldo d <- base (get_meta (ct_meta c0)) ;; ldo d' <- base (new_meta d) ;;
     ldo l' <- push_cont (mkCont (ct_cls c0) [] d') ;; ldo _ <- copy_items (copy_ref depth) l' (ct_items c0) ;; lret (RCont l')) m = (m', Ok x)).
  { destruct (ct_cls c0); try discriminate E; auto. }
  clear E. destruct Q as [Q E].
  apply lbind_inv in E as [(e & E & H)|(m2 & d & E1 & E)]; [discriminate H|].
  unfold base, get_meta in E1. destruct (nth_error (m_metas (l_mem m)) (ct_meta c0)) as [d0|] eqn:D; [|discriminate]. injection E1 as <- <-.
  apply lbind_inv in E as [(e & E & H)|(m3 & d' & E1 & E)]; [discriminate H|]. injection E1 as <- <-.
  apply lbind_inv in E as [(e & E & H)|(m4 & l' & E1 & E)]; [discriminate H|]. injection E1 as <- <-.
  apply lbind_inv in E as [(e & E & H)|(m5 & u & E1 & E)]; [discriminate H|]. injection E as <- <-.
  exists c0, d0, u. cbn in E1. destruct m as [mm mc mk]. cbn in *. auto 6.
Qed.
Lemma copy_list_facts depth l m m' x c : reached (l_mem m) -> typed m -> nth_error (l_conts m) l = Some c -> ct_cls c = CList ->
  copy_ref (S (S depth)) (RCont l) m = (m', Ok x) ->
  exists v l', x = RCont l' /\ l' = length (l_conts m) /\ grow (l_mem m) (l_mem m') /\ length (l_conts m') = S (length (l_conts m)) /\
    (forall k, (k < length (l_conts m))%nat -> nth_error (l_conts m') k = nth_error (l_conts m) k) /\
    list_value m l v /\ list_value m' l' v /\ new_list m m' l'.
Proof.
  intros R T N K E. destruct (copy_cont_inv _ _ _ _ _ E) as (c0 & d & u & N0 & _ & D & -> & E1).
  rewrite N in N0. injection N0 as <-. rewrite K in E1.
  destruct (push_meta_facts m d CList) as (G & LG & R1 & T1 & N1 & D1). cbv zeta in *.
  set (m1 := mkL _ _ _) in *.
  pose proof (T l c N) as F. rewrite K in F. cbn [elem] in F.
  assert (F1 : Forall (fun x => class_of m1 x = Some COb) (ct_items c)) by (eapply Forall_impl; [|exact F]; cbv beta; intros; eapply class_grow; eauto).
  destruct (copy_items_obs depth _ _ m1 m' u [] _ (R1 R) N1 F1 E1) as (ys & A1 & A2 & A3 & A4 & A5). cbn [app] in A1.
  assert (B : Forall2 (copied_obs m m') (ct_items c) ys).
  { clear - A5 F R G. induction A5 as [|y z xs ys (j & j' & w & -> & -> & H1 & H2 & H3) _ IH]; constructor.
    - apply Forall_cons_iff in F as [Fx _]. destruct (class_obs _ _ Fx) as (j0 & [= <-] & Hj).
      exists j, j', w. split; [auto|]. split; [auto|]. pose proof (proj1 (grow_len _ _ G)). split; [lia|]. split; [|auto].
      eapply reads_before; [apply reached_good; exact R|exact G|exact H2|exact Hj].
    - apply IH. apply Forall_cons_iff in F as [_ F]. auto. }
  assert (B' : Forall2 (fun y z => exists v, exists i i', y = RObs i /\ z = RObs i' /\ (length (m_obs (l_mem m)) <= i')%nat /\ reads (l_mem m) i v /\ reads (l_mem m') i' v) (ct_items c) ys).
  { clear - B. induction B as [|y z ? ? (i & i' & v & H) _ IH]; constructor; auto. exists v, i, i'. exact H. }
  apply Forall2_map_ex in B' as (vs & V1 & V2).
  exists (mkOL vs d), (length (l_conts m)). split; [auto|]. split; [auto|]. split; [eapply grow_trans; eauto|].
  split; [rewrite A4; cbn; rewrite app_length; cbn; lia|].
  split. { intros k Hk. rewrite A3 by lia. cbn. apply nth_error_app1. auto. }
  split; [|split].
  - exists c. split; [auto|]. split; [auto|]. split; [auto|]. cbn [ol_items]. clear - V1. induction V1 as [|y v ? ? (z & i & i' & H) _ IH]; constructor; auto.
    exists i. tauto.
  - eexists. split; [exact A1|]. split; [auto|]. cbn [ct_meta ct_items ol_meta ol_items]. split; [eapply grow_meta; [exact A2|exact D1]|].
    clear - V2. induction V2 as [|y v ? ? (z & i & i' & H) _ IH]; constructor; auto. exists i'. tauto.
  - split; [lia|]. eexists. split; [exact A1|]. cbn [ct_meta ct_items]. split; [lia|].
    clear - B. induction B as [|y z ? ? (i & i' & v & H) _ IH]; constructor; auto. exists i'. tauto.
Qed.
Definition copied_list (m m' : lmem) (x y : ref) : Prop :=
  exists l l' v, x = RCont l /\ y = RCont l' /\ list_value m l v /\ list_value m' l' v /\ new_list m m' l'.
Lemma new_list_grow m m1 m' l : (length (l_conts m) <= length (l_conts m1))%nat -> (length (m_metas (l_mem m)) <= length (m_metas (l_mem m1)))%nat ->
  (length (m_obs (l_mem m)) <= length (m_obs (l_mem m1)))%nat -> new_list m1 m' l -> new_list m m' l.
Proof.
  intros A B C (H1 & c & H2 & H3 & H4). split; [lia|]. exists c. split; [auto|]. split; [lia|].
  eapply Forall_impl; [|exact H4]. intros x (i & -> & Hi). exists i. split; auto. lia.
Qed.
Lemma list_value_before m m1 l v : reached (l_mem m) -> typed m -> (l < length (l_conts m))%nat -> grow (l_mem m) (l_mem m1) ->
  nth_error (l_conts m1) l = nth_error (l_conts m) l -> (forall c, nth_error (l_conts m) l = Some c -> (ct_meta c < length (m_metas (l_mem m)))%nat) ->
  list_value m1 l v -> list_value m l v.
Proof.
  intros R T L G N Mt (c & A & B & C & D). rewrite N in A. exists c. split; [auto|]. split; [auto|].
  assert (F : Forall (fun x => class_of m x = Some COb) (ct_items c)). { pose proof (T l c A) as F. rewrite B in F. exact F. }
  split.
  - destruct (nth_error (m_metas (l_mem m)) (ct_meta c)) as [d|] eqn:E.
    + rewrite (grow_meta _ _ _ _ G E) in C. auto.
    + apply nth_error_None in E. specialize (Mt c A). lia.
  - clear - D F R G. induction D as [|x u xs us (i & -> & H) _ IH]; constructor.
    + apply Forall_cons_iff in F as [Fx _]. destruct (class_obs _ _ Fx) as (j0 & [= <-] & Hj). exists i. split; auto.
      eapply reads_before; [apply reached_good; exact R|exact G|exact H|exact Hj].
    + apply IH. apply Forall_cons_iff in F as [_ F]. auto.
Qed.
(** dictionaries of containers exist *)
Definition metas_exist (m : lmem) : Prop := forall l c, nth_error (l_conts m) l = Some c -> (ct_meta c < length (m_metas (l_mem m)))%nat.
Lemma copy_items_list depth b' xs : forall m m' u dn d, reached (l_mem m) -> typed m -> metas_exist m ->
  nth_error (l_conts m) b' = Some (mkCont CMb dn d) -> Forall (fun x => class_of m x = Some (CC CList)) xs ->
  copy_items (copy_ref (S (S depth))) b' xs m = (m', Ok u) ->
  exists ys, nth_error (l_conts m') b' = Some (mkCont CMb (dn ++ ys) d) /\ grow (l_mem m) (l_mem m') /\
    (forall k, k <> b' -> (k < length (l_conts m))%nat -> nth_error (l_conts m') k = nth_error (l_conts m) k) /\ (length (l_conts m) <= length (l_conts m'))%nat /\
    Forall2 (copied_list m m') xs ys.
Proof.
  induction xs as [|x xs IH]; intros m m' u dn d R T Me N F E.
  - injection E as <- _. exists []. rewrite app_nil_r. split; [auto|]. split; [apply grow_refl|]. auto.
  - apply Forall_cons_iff in F as [Fx F]. destruct (class_cont _ _ _ Fx) as (l & c & -> & Nl & Kl).
    assert (Ll : (l < length (l_conts m))%nat) by (apply nth_error_Some; congruence).
    assert (Lb : (b' < length (l_conts m))%nat) by (apply nth_error_Some; congruence).
    cbn [copy_items] in E. apply lbind_inv in E as [(e & E & H)|(m1 & y & E1 & E)]; [discriminate H|].
    destruct (kt_copy _ _ _ _ _ R T E1) as (R1 & T1 & LG1).
    destruct (copy_list_facts depth l m m1 y c R T Nl Kl E1) as (v & l' & -> & Hl' & G1 & L1 & S1 & V1 & V1' & W1).
    apply lbind_inv in E as [(e & E & H)|(m2 & u2 & E2 & E)]; [discriminate H|].
    assert (N1 : nth_error (l_conts m1) b' = Some (mkCont CMb dn d)) by (rewrite S1; auto).
    destruct (kt'_of _ (lp_append b' (RCont l')) (kt_append b' (RCont l')) _ _ _ R1 T1 E2) as (R2 & T2 & LG2).
    destruct (append_ok _ _ _ _ _ _ E2 N1) as [_ ->].
    set (m2 := with_items m1 b' (mkCont CMb dn d) (dn ++ [RCont l'])) in *.
    assert (N2 : nth_error (l_conts m2) b' = Some (mkCont CMb (dn ++ [RCont l']) d)).
    { cbn. apply nth_upd_same. lia. }
    assert (F2 : Forall (fun x => class_of m2 x = Some (CC CList)) xs).
    { eapply Forall_impl; [|exact F]; cbv beta; intros; eapply class_grow; [|eassumption]. eapply lgrow_trans; eauto. }
    assert (Me2 : metas_exist m2).
    { intros k ck Hk. change (l_mem m2) with (l_mem m1). destruct (grow_len _ _ G1) as [_ GL]. destruct (Nat.eq_dec b' k) as [<-|Dk].
      - rewrite N2 in Hk. injection Hk as <-. cbn. specialize (Me _ _ N). cbn in Me. lia.
      - cbn in Hk. rewrite nth_upd_ne in Hk by auto. destruct (Nat.lt_ge_cases k (length (l_conts m))) as [Lk|Lk].
        + rewrite S1 in Hk by auto. specialize (Me _ _ Hk). lia.
        + assert (k = l'). { assert (k < length (l_conts m1))%nat by (apply nth_error_Some; congruence). lia. } subst k.
          destruct V1' as (c1 & Q1 & _ & Q2 & _). assert (ck = c1) by congruence. subst. apply nth_error_Some. congruence. }
    destruct (IH m2 m' u _ _ R2 T2 Me2 N2 F2 E) as (ys & A1 & A2 & A3 & A4 & A5).
    assert (LL : length (l_conts m2) = S (length (l_conts m))) by (cbn; rewrite upd_length'; auto).
    exists (RCont l' :: ys). split; [rewrite A1, <- app_assoc; auto|]. split; [eapply grow_trans; eauto|].
    split. { intros k K Hk. rewrite (A3 k K) by lia. cbn. rewrite nth_upd_ne by auto. apply S1; auto. }
    split; [lia|].
    assert (Nl' : nth_error (l_conts m') l' = nth_error (l_conts m1) l').
    { rewrite A3 by lia. cbn. apply nth_upd_ne. lia. }
    constructor.
    + exists l, l', v. split; [auto|]. split; [auto|]. split; [auto|]. split.
      * eapply list_value_grow; [exact A2| |].
        2:{ destruct V1' as (c1 & Q1 & Q2 & Q3 & Q4). exists c1. split; [|split; [exact Q2|split; [exact Q3|exact Q4]]]. cbn. rewrite nth_upd_ne by lia. exact Q1. }
        intros c1 Q. rewrite Nl'. cbn in Q. rewrite nth_upd_ne in Q by lia. exact Q.
      * destruct W1 as (W1 & c1 & W2 & W3 & W4). split; [auto|]. exists c1. split; [congruence|auto].
    + clear - A5 F G1 R T Me S1 L1 LL LG1 N Lb. assert (G2 : grow (l_mem m) (l_mem m2)) by exact G1.
      destruct (grow_len _ _ G1) as [GL1 GL2].
      induction A5 as [|x y xs ys (j & j' & w & -> & -> & H1 & H2 & H3) _ IH]; constructor.
      * apply Forall_cons_iff in F as [Fx _]. destruct (class_cont _ _ _ Fx) as (j0 & cj & [= <-] & Nj & Kj).
        assert (Lj : (j < length (l_conts m))%nat) by (apply nth_error_Some; congruence).
        assert (Dj : b' <> j). { intros <-. rewrite N in Nj. injection Nj as <-. discriminate Kj. }
        exists j, j', w. split; [auto|]. split; [auto|]. split; [|split; [auto|]].
        -- eapply list_value_before; [exact R|exact T|exact Lj|exact G2| |exact (Me j)|exact H1].
           cbn. rewrite nth_upd_ne by auto. apply S1. auto.
        -- eapply new_list_grow; [| | |exact H3]; [lia|exact GL2|exact GL1].
      * apply IH. apply Forall_cons_iff in F as [_ F]. auto.
Qed.
Definition new_mb (m m' : lmem) (k : nat) : Prop :=
  (length (l_conts m) <= k)%nat /\ exists c, nth_error (l_conts m') k = Some c /\
    (length (m_metas (l_mem m)) <= ct_meta c)%nat /\ Forall (fun x => exists l, x = RCont l /\ new_list m m' l) (ct_items c).
Lemma copy_mb_facts depth b m m' x c : reached (l_mem m) -> typed m -> metas_exist m -> nth_error (l_conts m) b = Some c -> ct_cls c = CMb ->
  copy_ref (S (S (S depth))) (RCont b) m = (m', Ok x) ->
  exists v b', x = RCont b' /\ b' = length (l_conts m) /\ grow (l_mem m) (l_mem m') /\ (length (l_conts m) <= length (l_conts m'))%nat /\
    (forall k, (k < length (l_conts m))%nat -> nth_error (l_conts m') k = nth_error (l_conts m) k) /\
    mb_value m b v /\ mb_value m' b' v /\ new_mb m m' b'.
Proof.
  intros R T Me N K E. destruct (copy_cont_inv _ _ _ _ _ E) as (c0 & d & u & N0 & _ & D & -> & E1).
  rewrite N in N0. injection N0 as <-. rewrite K in E1.
  destruct (push_meta_facts m d CMb) as (G & LG & R1 & T1 & N1 & D1). cbv zeta in *.
  set (m1 := mkL _ _ _) in *.
  assert (L1 : length (l_conts m1) = S (length (l_conts m))) by (cbn; rewrite app_length; cbn; lia).
  pose proof (T b c N) as F. rewrite K in F. cbn [elem] in F.
  assert (F1 : Forall (fun x => class_of m1 x = Some (CC CList)) (ct_items c)) by (eapply Forall_impl; [|exact F]; cbv beta; intros; eapply class_grow; eauto).
  assert (Me1 : metas_exist m1).
  { intros k ck Hk. cbn. rewrite app_length. cbn. cbn in Hk. destruct (Nat.lt_ge_cases k (length (l_conts m))) as [Lk|Lk].
    - rewrite nth_error_app1 in Hk by auto. specialize (Me _ _ Hk). lia.
    - rewrite nth_error_app2 in Hk by auto. destruct (k - length (l_conts m))%nat as [|j]; cbn in Hk; [injection Hk as <-; cbn; lia|destruct j; discriminate]. }
  destruct (copy_items_list depth _ _ m1 m' u [] _ (R1 R) (T1 T) Me1 N1 F1 E1) as (ys & A1 & A2 & A3 & A4 & A5). cbn [app] in A1.
  destruct (grow_len _ _ G) as [GL1 GL2].
  assert (B : Forall2 (copied_list m m') (ct_items c) ys).
  { clear - A5 F R T Me G GL1 GL2 L1. induction A5 as [|y z xs ys (j & j' & w & -> & -> & H1 & H2 & H3) _ IH]; constructor.
    - apply Forall_cons_iff in F as [Fx _]. destruct (class_cont _ _ _ Fx) as (j0 & cj & [= <-] & Nj & Kj).
      assert (Lj : (j < length (l_conts m))%nat) by (apply nth_error_Some; congruence).
      exists j, j', w. split; [auto|]. split; [auto|]. split; [|split; [auto|]].
      + eapply list_value_before; [exact R|exact T|exact Lj|exact G| |exact (Me j)|exact H1]. cbn. apply nth_error_app1. auto.
      + eapply new_list_grow; [| | |exact H3]; [lia|exact GL2|exact GL1].
    - apply IH. apply Forall_cons_iff in F as [_ F]. auto. }
  assert (B' : Forall2 (fun y z => exists v, exists l l', y = RCont l /\ z = RCont l' /\ list_value m l v /\ list_value m' l' v) (ct_items c) ys).
  { clear - B. induction B as [|y z ? ? (i & i' & v & H1 & H2 & H3 & H4 & _) _ IH]; constructor; auto. exists v, i, i'. auto. }
  apply Forall2_map_ex in B' as (vs & V1 & V2).
  exists (mkOL vs d), (length (l_conts m)). split; [auto|]. split; [auto|]. split; [eapply grow_trans; eauto|].
  split; [lia|].
  split. { intros k Hk. rewrite A3 by lia. cbn. apply nth_error_app1. auto. }
  split; [|split].
  - exists c. split; [auto|]. split; [auto|]. split; [auto|]. cbn [ol_items]. clear - V1. induction V1 as [|y v ? ? (z & i & i' & H) _ IH]; constructor; auto.
    exists i. tauto.
  - eexists. split; [exact A1|]. split; [auto|]. cbn [ct_meta ct_items ol_meta ol_items]. split; [eapply grow_meta; [exact A2|exact D1]|].
    clear - V2. induction V2 as [|y v ? ? (z & i & i' & H) _ IH]; constructor; auto. exists i'. tauto.
  - split; [lia|]. eexists. split; [exact A1|]. cbn [ct_meta ct_items]. split; [lia|].
    clear - B. induction B as [|y z ? ? (i & i' & v & H) _ IH]; constructor; auto. exists i'. tauto.
Qed.

(** ---- nothing in a zone is changed by calls that mention nothing in it ---- *)
Definition ends (zc : nat -> bool) (m : lmem) : Prop := forall l, (length (l_conts m) <= l)%nat -> zc l = false.
Record llater (Z : zone) (zc : nat -> bool) (m m' : lmem) : Prop := mkLL {
  ll_inv : Inv Z (l_mem m'); ll_later : later Z (l_mem m) (l_mem m'); ll_len : (length (l_conts m) <= length (l_conts m'))%nat;
  ll_same : forall l, zc l = true -> nth_error (l_conts m') l = nth_error (l_conts m) l }.
Definition lsafe {A} (Z : zone) (zc : nat -> bool) (x : LM A) (Q : A -> Prop) : Prop :=
  forall m m' r, Inv Z (l_mem m) -> ends zc m -> x m = (m', r) -> llater Z zc m m' /\ forall a, r = Ok a -> Q a.
Lemma ends_later Z zc m m' : ends zc m -> llater Z zc m m' -> ends zc m'.
Proof. intros E [] l H. apply E. lia. Qed.
Lemma ll_trans Z zc a b c : llater Z zc a b -> llater Z zc b c -> llater Z zc a c.
Proof. intros [] []. split; [auto|eapply later_trans; eauto|lia|]. intros l H. rewrite ll_same1, ll_same0; auto. Qed.
Lemma ls_bind {A B} Z zc (x : LM A) (f : A -> LM B) Q P : lsafe Z zc x Q -> (forall a, Q a -> lsafe Z zc (f a) P) -> lsafe Z zc (lbind x f) P.
Proof.
  intros Hx Hf m m' r I En E. apply lbind_inv in E as [(e & E & ->)|(m1 & a & E & E2)].
  - destruct (Hx _ _ _ I En E) as [L _]. split; auto. discriminate.
  - destruct (Hx _ _ _ I En E) as [L Qa]. destruct (Hf a (Qa a eq_refl) _ _ _ (ll_inv _ _ _ _ L) (ends_later _ _ _ _ En L) E2) as [L2 P2].
    split; auto. eapply ll_trans; eauto.
Qed.
Lemma ls_weak {A} Z zc (x : LM A) (Q P : A -> Prop) : lsafe Z zc x Q -> (forall a, Q a -> P a) -> lsafe Z zc x P.
Proof. intros H I m m' r X En E. destruct (H _ _ _ X En E). split; auto. Qed.
Lemma ls_same {A} Z zc (x : LM A) : (forall m, l_mem (fst (x m)) = l_mem m /\ l_conts (fst (x m)) = l_conts m) -> lsafe Z zc x (fun _ => True).
Proof.
  intros H m m' r I En E. specialize (H m). rewrite E in H. cbn in H. destruct H as [H1 H2]. split; auto.
  split; rewrite ?H1, ?H2; auto using later_refl.
Qed.
Lemma ls_ret {A} Z zc (a : A) (Q : A -> Prop) : Q a -> lsafe Z zc (lret a) Q.
Proof. intros H m m' r I En E. injection E as <- <-. split; [split; auto using later_refl|]. intros b [= <-]. auto. Qed.
Lemma ls_fail {A} Z zc e (Q : A -> Prop) : lsafe Z zc (lfail e) Q.
Proof. intros m m' r I En E. injection E as <- <-. split; [split; auto using later_refl|]. discriminate. Qed.
Lemma ls_base {A} Z zc (x : M A) Q : safe Z (fun _ => True) x Q -> lsafe Z zc (base x) (fun _ => True).
Proof.
  intros H m m' r I En E. unfold base in E. destruct (x (l_mem m)) as [b r'] eqn:X. injection E as <- <-.
  destruct (H _ _ _ I Logic.I X) as (I' & L & _). split; auto. split; cbn; auto.
Qed.
Lemma ls_push_cont Z zc c : lsafe Z zc (push_cont c) (fun l => zc l = false).
Proof.
  intros m m' r I En E. injection E as <- <-. split; [|intros a [= <-]; apply En; auto].
  split; cbn; auto using later_refl; [rewrite app_length; lia|]. intros l H. apply nth_error_app1.
  destruct (Nat.lt_ge_cases l (length (l_conts m))) as [L|L]; auto. rewrite (En l L) in H. discriminate.
Qed.
Lemma ls_put_items Z zc l xs : zc l = false -> lsafe Z zc (put_items l xs) (fun _ => True).
Proof.
  intros H m m' r I En E. unfold put_items in E. destruct (nth_error (l_conts m) l); injection E as <- <-; (split; [|auto]); split; cbn; auto using later_refl.
  - rewrite upd_length'. auto.
  - intros k K. apply nth_upd_ne. congruence.
Qed.
Lemma ls_any {A} Z zc (x : LM A) Q : lsafe Z zc x Q -> lsafe Z zc x (fun _ => True).
Proof. intros H. eapply ls_weak; eauto. Qed.
Ltac ls := repeat first [match goal with |- lsafe _ _ (lbind _ _) _ => eapply ls_bind; [|intros] end
  | match goal with |- lsafe _ _ (lret _) _ => apply ls_ret; auto end | match goal with |- lsafe _ _ (lfail _) _ => apply ls_fail end
  | match goal with |- lsafe _ _ (lassert _ _) _ => apply ls_same; intros; unfold lassert; match goal with |- context[if ?b then _ else _] => destruct b end; auto end
  | match goal with |- lsafe _ _ (isinstance _ _) _ => apply ls_same; intros; auto end
  | match goal with |- lsafe _ _ (get_cont _) _ => apply ls_same; intros; unfold get_cont; match goal with |- context[nth_error ?a ?b] => destruct (nth_error a b) end; auto end
  | match goal with |- lsafe _ _ (get_kobs _) _ => apply ls_same; intros; unfold get_kobs; match goal with |- context[nth_error ?a ?b] => destruct (nth_error a b) end; auto end
  | match goal with |- lsafe _ _ (put_kpsf _ _) _ => apply ls_same; intros; unfold put_kpsf; match goal with |- context[nth_error ?a ?b] => destruct (nth_error a b) end; auto end
  | match goal with |- lsafe _ _ (push_cont _) _ => apply ls_push_cont end
  | match goal with |- lsafe _ _ (put_items _ _) _ => apply ls_put_items; auto end ].
Lemma ls_append Z zc l x : zc l = false -> lsafe Z zc (append l x) (fun _ => True).
Proof. intros H. unfold append. ls. Qed.
Lemma ls_setitem Z zc l i x : zc l = false -> lsafe Z zc (setitem l i x) (fun _ => True).
Proof. intros H. unfold setitem. ls. destruct list_index; ls. Qed.
Lemma ls_setslice Z zc l a b x : zc l = false -> lsafe Z zc (setslice l a b x) (fun _ => True).
Proof. intros H. unfold setslice. ls. destruct x; ls. Qed.
Lemma ls_new_cont Z zc c d : okmeta Z d -> lsafe Z zc (new_cont c d) (fun l => zc l = false).
Proof. intros H. unfold new_cont. ls. eapply ls_base. apply safe_meta_value. auto. Qed.
Lemma ls_copy Z zc depth : forall x, lsafe Z zc (copy_ref depth x) (fun _ => True).
Proof.
  induction depth as [|depth IH]; intros x; cbn [copy_ref]; ls. destruct x as [i|i|l|]; ls.
  - eapply ls_base. intros m m' r I _ E. exact (safe_copy_obs Z _ (fun _ => True) i m m' r I Logic.I E).
  - assert (B : forall d, lsafe Z zc (base (get_meta d)) (fun _ => True)) by (intros; eapply ls_base; apply safe_get_meta).
    assert (B2 : forall d, lsafe Z zc (base (new_meta d)) (fun _ => True)) by (intros; eapply ls_base; apply safe_new_meta).
    assert (C : forall xs l', zc l' = false -> lsafe Z zc (copy_items (copy_ref depth) l' xs) (fun _ => True)).
    { induction xs; intros l0 Hz; cbn [copy_items]; ls; [apply IH|apply ls_append; auto|auto]. }
    destruct (ct_cls a); ls; auto.
Qed.
Lemma ls_multi Z zc co cl cm x : lsafe Z zc (to_multiband co cl cm x) (fun _ => True).
Proof.
  assert (K : okmeta Z DNone) by (intros a []).
  unfold to_multiband. do 3 (ls; try match goal with |- lsafe _ _ (if ?x then _ else _) _ => destruct x end; ls; try (apply ls_new_cont; auto); try (apply ls_append; auto)).
Qed.
Lemma ls_kset_psf Z zc i p : lsafe Z zc (kset_psf i p) (fun _ => True).
Proof. unfold kset_psf. ls. destruct p as [x|]; ls. destruct x; ls. Qed.
Definition lavoids (Z : zone) (zc : nat -> bool) (o : lop) : Prop :=
  (forall a, In a (lop_arrs o) -> za Z a = false) /\ (forall a, In a (lop_obs o) -> zo Z a = false) /\
  (forall a, In a (lop_metas o) -> zm Z a = false) /\ (forall a, In a (lop_conts o) -> zc a = false).
Lemma ls_step Z zc o : lavoids Z zc o -> lsafe Z zc (lstep o) (fun _ => True).
Proof.
  intros (A & B & C & D). destruct o; cbn [lstep lop_arrs lop_obs lop_metas lop_conts] in *; unfold done.
  - ls. eapply ls_base. apply step_safe. split; [auto|split; auto].
  - ls. eapply ls_any. apply ls_new_cont. exact C.
  - ls. apply ls_append. apply D. left; auto.
  - ls. apply ls_setitem. apply D. left; auto.
  - ls. apply ls_setslice. apply D. left; auto.
  - unfold extend. ls. apply D. left; auto.
  - unfold insert. ls. apply D. left; auto.
  - intros m. apply ls_copy.
  - apply ls_multi.
  - apply ls_multi.
  - unfold new_kobs. eapply ls_bind; [|intros a _; apply ls_ret; exact Logic.I]. apply (ls_bind Z zc _ _ (fun _ => True)); [apply ls_same; auto|]. intros a _. apply (ls_bind Z zc _ _ (fun _ => True)); [apply ls_kset_psf|]. intros b _. apply (ls_ret Z zc a (fun _ => True)). exact Logic.I.
  - apply (ls_bind Z zc _ _ (fun _ => True)); [apply ls_kset_psf|]. intros a _. apply ls_ret. exact Logic.I.
Qed.
Lemma ls_exec Z zc p : forall m, Inv Z (l_mem m) -> ends zc m -> Forall (lavoids Z zc) p -> llater Z zc m (lexec m p).
Proof.
  induction p as [|o p IH]; intros m I En F; cbn [lexec]; [split; auto using later_refl|].
  apply Forall_cons_iff in F as [Fo F]. destruct (lstep o m) as [m1 r] eqn:E. cbn [fst].
  destruct (ls_step Z zc o Fo m m1 r I En E) as [L _]. eapply ll_trans; [exact L|]. apply IH; auto; [apply L|eapply ends_later; eauto].
Qed.
(** dictionaries exist *)
Definition mex {A} (x : LM A) : Prop := forall m m' r, reached (l_mem m) -> metas_exist m -> x m = (m', r) -> reached (l_mem m') /\ metas_exist m'.
Lemma mex_bind {A B} (x : LM A) (f : A -> LM B) : mex x -> (forall a, mex (f a)) -> mex (lbind x f).
Proof.
  intros Hx Hf m m' r R H E. apply lbind_inv in E as [(e & E & _)|(m1 & a & E & E2)]; [eapply Hx; eauto|].
  destruct (Hx _ _ _ R H E). eapply Hf; eauto.
Qed.
Lemma mex_same {A} (x : LM A) : (forall m, l_mem (fst (x m)) = l_mem m /\ l_conts (fst (x m)) = l_conts m) -> mex x.
Proof. intros H m m' r R Me E. specialize (H m). rewrite E in H. cbn in H. destruct H as [H1 H2]. unfold metas_exist. rewrite H1, H2. auto. Qed.
Lemma mex_base {A} (x : M A) : (forall m, bgrow m (fst (x m))) -> mex (base x).
Proof.
  intros H m m' r R Me E. unfold base in E. specialize (H (l_mem m)). destruct (x (l_mem m)) as [b r'] eqn:X. injection E as <- <-. cbn in H.
  split; [eapply reached_grow; eauto|]. intros l c N. cbn in *. specialize (Me l c N). pose proof (bgrow_metas _ _ R H). lia.
Qed.
Lemma mex_put_items l xs : mex (put_items l xs).
Proof.
  intros m m' r R Me E. unfold put_items in E. destruct (nth_error (l_conts m) l) as [c|] eqn:N; injection E as <- <-; auto. split; auto.
  intros k x K. cbn in *. destruct (Nat.eq_dec l k) as [<-|D]; [apply nth_upd_eq' in K as ->; cbn; eauto|]. rewrite nth_upd_ne in K by auto. eauto.
Qed.
Lemma mex_push (d : M nat) (cl : ccls) : (forall m, bgrow m (fst (d m))) -> (forall m i, snd (d m) = Ok i -> (i < length (m_metas (fst (d m))))%nat) ->
  mex (ldo x <- base d ;; push_cont (mkCont cl [] x)).
Proof.
  intros G H m m' r R Me E. apply lbind_inv in E as [(e & E & _)|(m1 & i & E1 & E)]; [eapply mex_base; eauto|].
  destruct (mex_base d G m m1 _ R Me E1) as [R1 Me1]. injection E as <- <-. split; auto.
  assert (Hi : (i < length (m_metas (l_mem m1)))%nat).
  { specialize (H (l_mem m) i). unfold base in E1. destruct (d (l_mem m)) as [b r']. injection E1 as <- ->. cbn in *. auto. }
  intros k x K. cbn in *. destruct (Nat.lt_ge_cases k (length (l_conts m1))) as [L|L].
  - rewrite nth_error_app1 in K by auto. eauto.
  - rewrite nth_error_app2 in K by auto. destruct (k - length (l_conts m1))%nat as [|j]; cbn in K; [injection K as <-; auto|destruct j; discriminate].
Qed.
Ltac mx := repeat first [match goal with |- mex (lbind _ _) => apply mex_bind; [|intros] end
  | match goal with |- mex (lret _) => apply mex_same; auto end | match goal with |- mex (lfail _) => apply mex_same; auto end
  | match goal with |- mex (lassert ?b _) => apply mex_same; destruct b; auto end
  | match goal with |- mex (isinstance _ _) => apply mex_same; intros; auto end
  | match goal with |- mex (get_cont _) => apply mex_same; intros; unfold get_cont; match goal with |- context[nth_error ?a ?b] => destruct (nth_error a b) end; auto end
  | match goal with |- mex (get_kobs _) => apply mex_same; intros; unfold get_kobs; match goal with |- context[nth_error ?a ?b] => destruct (nth_error a b) end; auto end
  | match goal with |- mex (put_kpsf _ _) => apply mex_same; intros; unfold put_kpsf; match goal with |- context[nth_error ?a ?b] => destruct (nth_error a b) end; auto end
  | match goal with |- mex (put_items _ _) => apply mex_put_items end ].
Lemma mex_new_cont c d : mex (new_cont c d).
Proof.
  apply mex_push; [apply bgrow_meta_value|]. intros m i. destruct d as [|j|]; cbn.
  - intros [= <-]. rewrite app_length. cbn. lia.
  - unfold bindM, get_meta. destruct (nth_error (m_metas m) j) eqn:N; cbn; [intros [= <-]; apply nth_error_Some; congruence|discriminate].
  - discriminate.
Qed.
Lemma mex_append l x : mex (append l x). Proof. unfold append. mx. Qed.
Lemma lbind_assoc {A B C} (x : LM A) (f : A -> LM B) (g : B -> LM C) m : lbind x (fun a => lbind (f a) g) m = lbind (lbind x f) g m.
Proof. unfold lbind. destruct (x m) as [m1 [a|e]]; auto. Qed.
Lemma mex_copy depth : forall x, mex (copy_ref depth x).
Proof.
  induction depth as [|depth IH]; intros x; cbn [copy_ref]; mx. destruct x as [i|i|l|]; mx.
  - apply mex_base. intros m. apply (bgrow_step m (CopyObs i)).
  - assert (Q : forall c, mex (ldo d <- base (get_meta (ct_meta a)) ;; ldo d' <- base (new_meta d) ;; ldo l' <- push_cont (mkCont c [] d') ;;
        ldo _ <- copy_items (copy_ref depth) l' (ct_items a) ;; lret (RCont l'))).
    { intros c. apply mex_bind; [apply mex_base; intros m; unfold get_meta; destruct nth_error; apply bgrow_refl|]. intros d.
      intros m m' r R Me E. rewrite lbind_assoc in E. revert R Me E. generalize m m' r.
      match goal with |- forall m m' r, reached _ -> _ -> ?t m = _ -> _ => change (mex t) end.
      apply mex_bind.
      - apply mex_push; [intros; apply (bgrow_step _ (NewMeta d))|]. intros b i. cbn. intros [= <-]. rewrite app_length. cbn. lia.
      - intros l'. mx. generalize (ct_items a). intros xs. induction xs; cbn [copy_items]; mx; auto using mex_append. }
    destruct (ct_cls a); first [apply Q | mx].
Qed.
Lemma mex_step o : mex (lstep o).
Proof.
  destruct o; cbn [lstep]; unfold done; mx; auto using mex_new_cont, mex_append.
  - apply mex_base. intros m. apply bgrow_step.
  - unfold setitem. mx. destruct list_index; mx.
  - unfold setslice. mx. destruct x; mx.
  - unfold extend. mx.
  - unfold insert. mx.
  - intros m. apply mex_copy.
  - unfold get_mb_obs, to_multiband. do 3 (mx; try match goal with |- mex (if ?x then _ else _) => destruct x end; mx; auto using mex_new_cont, mex_append).
  - unfold get_kmb_obs, to_multiband. do 3 (mx; try match goal with |- mex (if ?x then _ else _) => destruct x end; mx; auto using mex_new_cont, mex_append).
  - unfold new_kobs. mx; [apply mex_same; auto|]. unfold kset_psf. mx. destruct p as [x|]; mx. destruct x; mx.
  - unfold kset_psf. mx. destruct p as [x|]; mx. destruct x; mx.
Qed.
Lemma mex_exec p : forall m, reached (l_mem m) -> metas_exist m -> metas_exist (lexec m p).
Proof.
  induction p as [|o p IH]; intros m R H; cbn [lexec]; auto. destruct (lstep o m) as [m1 r] eqn:E. destruct (mex_step o _ _ _ R H E). apply IH; auto.
Qed.
Lemma program_metas p : metas_exist (lexec empty_lmem p).
Proof. apply mex_exec; [apply empty_reached|]. intros l c N. destruct l; discriminate. Qed.

(** ---- C33 for containers ---- *)
Lemma list_frame Z zc m m' l v : Inv Z (l_mem m) -> llater Z zc m m' -> zc l = true ->
  (forall c, nth_error (l_conts m) l = Some c -> zm Z (ct_meta c) = true /\ forall i, In (RObs i) (ct_items c) -> zo Z i = true) ->
  list_value m l v -> list_value m' l v.
Proof.
  intros I L Zl H (c & A & B & C & D). destruct (H c A) as [Hm Hi]. exists c. split; [rewrite (ll_same _ _ _ _ L); auto|]. split; [auto|].
  split; [rewrite (same_m _ _ _ (ll_later _ _ _ _ L)); auto|].
  assert (K : forall x, In x (ct_items c) -> forall i, x = RObs i -> zo Z i = true) by (intros x Hx i ->; auto).
  clear Hi. revert K. induction D as [|x u xs us (i & -> & R) _ IH]; intros K; constructor.
  - exists i. split; auto. eapply frame_reads; [exact I|apply L|exact R|]. apply (K (RObs i)); [left|]; auto.
  - apply IH. intros y Hy. apply K. right; auto.
Qed.
Lemma mb_frame Z zc m m' b v : Inv Z (l_mem m) -> llater Z zc m m' -> zc b = true ->
  (forall c, nth_error (l_conts m) b = Some c -> zm Z (ct_meta c) = true /\ forall l, In (RCont l) (ct_items c) -> zc l = true /\
     forall c, nth_error (l_conts m) l = Some c -> zm Z (ct_meta c) = true /\ forall i, In (RObs i) (ct_items c) -> zo Z i = true) ->
  mb_value m b v -> mb_value m' b v.
Proof.
  intros I L Zl H (c & A & B & C & D). destruct (H c A) as [Hm Hi]. exists c. split; [rewrite (ll_same _ _ _ _ L); auto|]. split; [auto|].
  split; [rewrite (same_m _ _ _ (ll_later _ _ _ _ L)); auto|].
  assert (K : forall x, In x (ct_items c) -> forall l, x = RCont l -> zc l = true /\
     forall c, nth_error (l_conts m) l = Some c -> zm Z (ct_meta c) = true /\ forall i, In (RObs i) (ct_items c) -> zo Z i = true) by (intros x Hx i ->; auto).
  clear Hi. revert K. induction D as [|x u xs us (l & -> & R) _ IH]; intros K; constructor.
  - exists l. split; auto. destruct (K (RCont l) ltac:(left; auto) l eq_refl) as [K1 K2]. eapply list_frame; eauto.
  - apply IH. intros y Hy. apply K. right; auto.
Qed.
Lemma copy_depth l m m' x : lstep (LCopy l) m = (m', Ok x) -> exists d, copy_ref (S (S (S d))) (RCont l) m = (m', Ok x) /\ (l < length (l_conts m))%nat.
Proof.
  cbn [lstep]. intros E. assert (L : (l < length (l_conts m))%nat).
  { apply nth_error_Some. intros N. cbn [copy_ref] in E. unfold lbind, get_cont in E. rewrite N in E. discriminate. }
  destruct (length (l_conts m)) as [|d]; [lia|]. exists d. auto.
Qed.
Lemma mb_value_same m m' b v : grow (l_mem m) (l_mem m') -> typed m ->
  (forall k c, nth_error (l_conts m) k = Some c -> nth_error (l_conts m') k = Some c) -> mb_value m b v -> mb_value m' b v.
Proof.
  intros G T N (c & A & B & C & D). exists c. split; [auto|]. split; [auto|]. split; [eapply grow_meta; eauto|].
  induction D as [|x u xs us (l & -> & R) _ IH]; constructor; auto. exists l. split; auto. eapply list_value_grow; eauto.
Qed.
Theorem copy_container p l m' x : Forall checked p -> let m := lexec empty_lmem p in lstep (LCopy l) m = (m', Ok x) ->
  exists l', x = RCont l' /\
   ((exists v, list_value m l v /\ list_value m' l v /\ list_value m' l' v) \/
    (exists v, mb_value m l v /\ mb_value m' l v /\ mb_value m' l' v)).
Proof.
  intros F m E. pose proof (types_invariant p F) as T. pose proof (lexec_reached p _ empty_reached) as R. pose proof (program_metas p) as Me. fold m in T, R, Me.
  destruct (copy_depth _ _ _ _ E) as (d & E1 & L). destruct (copy_cont_inv _ _ _ _ _ E1) as (c & _ & _ & N & [K|K] & _).
  - destruct (copy_list_facts _ l m m' x c R T N K E1) as (v & l' & -> & _ & G & _ & S & V1 & V2 & _). exists l'. split; auto. left. exists v.
    split; [auto|]. split; [|auto]. eapply list_value_grow; eauto. intros c0 H. rewrite S; auto.
  - destruct (copy_mb_facts _ l m m' x c R T Me N K E1) as (v & l' & -> & _ & G & _ & S & V1 & V2 & _). exists l'. split; auto. right. exists v.
    split; [auto|]. split; [|auto]. eapply mb_value_same; eauto. intros k c0 H. rewrite S; auto. apply nth_error_Some. congruence.
Qed.
Definition between (a b c : nat) : bool := negb (Nat.ltb c a) && Nat.ltb c b.
Lemma between_false a b c : (c < a \/ b <= c)%nat -> between a b c = false.
Proof. unfold between. intros [H|H]; [apply Nat.ltb_lt in H; rewrite H; auto|apply Nat.ltb_ge in H; rewrite H; apply andb_false_r]. Qed.
Lemma between_true a b c : (a <= c)%nat -> (c < b)%nat -> between a b c = true.
Proof. unfold between. intros H1 H2. apply Nat.ltb_ge in H1. apply Nat.ltb_lt in H2. rewrite H1, H2. auto. Qed.
Lemma reads_lt m i v : reads m i v -> (i < length (m_obs m))%nat.
Proof. intros H. destruct H; apply nth_error_Some; congruence. Qed.
Theorem copy_container_independent p l m' l' : Forall checked p -> let m := lexec empty_lmem p in lstep (LCopy l) m = (m', Ok (RCont l')) ->
  (forall q, Forall (later_only m) q -> forall k,
     (forall v, list_value m k v -> list_value (lexec m' q) k v) /\ (forall v, mb_value m k v -> mb_value (lexec m' q) k v)) /\
  (forall q, Forall (none_between m m') q ->
     (forall v, list_value m' l' v -> list_value (lexec m' q) l' v) /\ (forall v, mb_value m' l' v -> mb_value (lexec m' q) l' v)).
Proof.
  intros F m E. pose proof (types_invariant p F) as T. pose proof (lexec_reached p _ empty_reached) as R. pose proof (program_metas p) as Me. fold m in T, R, Me.
  destruct (copy_depth _ _ _ _ E) as (d & E1 & L).
  pose proof (inv_zold _ (reached_inv _ R)) as I. set (Z := zold (l_mem m)) in *. set (zc := fun k => Nat.ltb k (length (l_conts m))).
  assert (En : ends zc m) by (intros k Hk; apply Nat.ltb_ge; auto).
  destruct (ls_copy Z zc _ _ _ _ _ I En E1) as [L1 _].
  split.
  - intros q Hq k.
    assert (L2 : llater Z zc m (lexec m' q)).
    { eapply ll_trans; [exact L1|]. apply ls_exec; [apply L1|eapply ends_later; eauto|]. eapply Forall_impl; [|exact Hq].
      intros o (A & B & C & D). rewrite Forall_forall in A, B, C, D. split; [|split; [|split]]; intros a Ha; apply Nat.ltb_ge; auto. }
    assert (K : forall k v, list_value m k v -> zc k = true /\ forall c, nth_error (l_conts m) k = Some c -> zm Z (ct_meta c) = true /\ forall i, In (RObs i) (ct_items c) -> zo Z i = true).
    { intros k0 v (c & A & B & C & D). split; [apply Nat.ltb_lt; apply nth_error_Some; congruence|]. intros c0 A0. rewrite A in A0. injection A0 as <-.
      split; [apply Nat.ltb_lt; apply (Me k0 c A)|]. intros i Hi. apply Nat.ltb_lt.
      pose proof (T k0 c A) as Ft. rewrite B, Forall_forall in Ft. specialize (Ft _ Hi). destruct (class_obs _ _ Ft) as (j & [= <-] & J). auto. }
    split.
    + intros v V. destruct (K k v V) as [K1 K2]. eapply list_frame; eauto.
    + intros v V. eapply mb_frame; eauto.
      * destruct V as (c & A & _). apply Nat.ltb_lt; apply nth_error_Some; congruence.
      * destruct V as (c & A & B & C & D). intros c0 A0. rewrite A in A0. injection A0 as <-. split; [apply Nat.ltb_lt; apply (Me k c A)|].
        intros l0 Hl0. pose proof D as D'. clear - D' Hl0 K. induction D' as [|x u xs us (l1 & -> & V1) _ IH]; [destruct Hl0|].
        destruct Hl0 as [[= <-]|Hl0]; [eapply K; eauto|auto].
  - intros q Hq.
    pose proof (inv_znew _ _ (ll_inv _ _ _ _ L1)) as I2. set (Z2 := znew (l_mem m) (l_mem m')) in *.
    set (zc2 := between (length (l_conts m)) (length (l_conts m'))).
    assert (En2 : ends zc2 m') by (intros k Hk; apply between_false; auto).
    assert (L2 : llater Z2 zc2 m' (lexec m' q)).
    { apply ls_exec; auto. eapply Forall_impl; [|exact Hq].
      intros o (A & B & C & D). rewrite Forall_forall in A, B, C, D. split; [|split; [|split]]; intros a Ha; [apply (between_false _ _ _ (A a Ha))|
        apply (between_false _ _ _ (B a Ha))|apply (between_false _ _ _ (C a Ha))|apply (between_false _ _ _ (D a Ha))]. }
    assert (K : forall k v, new_list m m' k -> list_value m' k v -> zc2 k = true /\ forall c, nth_error (l_conts m') k = Some c -> zm Z2 (ct_meta c) = true /\ forall i, In (RObs i) (ct_items c) -> zo Z2 i = true).
    { intros k v (W1 & c1 & W2 & W3 & W4) (c & A & B & C & D). assert (c1 = c) by congruence. subst c1.
      split; [apply between_true; auto; apply nth_error_Some; congruence|]. intros c0 A0. rewrite A in A0. injection A0 as <-.
      split; [apply between_true; auto; apply nth_error_Some; congruence|]. intros i Hi.
      rewrite Forall_forall in W4. destruct (W4 _ Hi) as (j & [= <-] & J). apply between_true; auto.
      clear - D Hi. induction D as [|x u xs us (l1 & -> & V1) _ IH]; [destruct Hi|]. destruct Hi as [[= <-]|Hi]; [eapply reads_lt; eauto|auto]. }
    destruct (copy_cont_inv _ _ _ _ _ E1) as (c & _ & _ & N & Kc & _).
    destruct Kc as [Kc|Kc].
    + destruct (copy_list_facts _ l m m' _ c R T N Kc E1) as (v0 & l0 & [= <-] & _ & G & _ & S & V1 & V2 & W). split.
      * intros v V. destruct (K _ _ W V). eapply list_frame; eauto.
      * intros v (c1 & A & B & _). destruct V2 as (c2 & A2 & B2 & _). congruence.
    + destruct (copy_mb_facts _ l m m' _ c R T Me N Kc E1) as (v0 & l0 & [= <-] & _ & G & _ & S & V1 & V2 & W). split.
      * intros v (c1 & A & B & _). destruct V2 as (c2 & A2 & B2 & _). congruence.
      * intros v V. destruct W as (W1 & c1 & W2 & W3 & W4). eapply mb_frame; eauto.
        -- apply between_true; auto. apply nth_error_Some. congruence.
        -- intros c2 A2. rewrite W2 in A2. injection A2 as <-. destruct V as (c2 & A & B & C & D). assert (c2 = c1) by congruence. subst c2.
           split; [apply between_true; auto; apply nth_error_Some; congruence|]. intros k Hk. rewrite Forall_forall in W4.
           destruct (W4 _ Hk) as (k0 & [= <-] & Wk). clear - D Hk K Wk.
           induction D as [|x u xs us (l1 & -> & V1) _ IH]; [destruct Hk|]. destruct Hk as [[= <-]|Hk]; [eapply K; eauto|auto].
Qed.
