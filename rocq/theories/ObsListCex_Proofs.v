(** Executions on containers that violate what a user expects, and examples. *)
From Verif Require Import Base Jacobian_Model Pixels_Model Obs_Model Obs_Spec ObsZone_Proofs Obs_Proofs ObsThm_Proofs ObsCex_Proofs ObsEq_Model ObsList_Model ObsList_Spec ObsList_Proofs.
From Coq Require Import ZArith.
Local Open Scope R_scope.

(** obs = Observation(im); ol = ObsList(); ol.append(obs); mb = MultiBandObsList(); mb.append(ol) *)
Definition plist : list lop := map LBase p1 ++ [LNew CList DNone; LAppend 0 (RObs 0); LNew CMb DNone; LAppend 1 (RCont 0)].
Lemma lexec_app m p q : lexec m (p ++ q) = lexec (lexec m p) q.
Proof. revert m. induction p as [|o p IH]; intros m; cbn [app lexec]; auto. Qed.
Lemma lexec_base p : forall m, lexec m (map LBase p) = mkL (exec (l_mem m) p) (l_conts m) (l_kobs m).
Proof.
  induction p as [|o p IH]; intros m; cbn [map lexec exec]; [destruct m; auto|]. rewrite IH. cbn [lstep]. unfold lbind, base.
  destruct (step o (l_mem m)) as [b [r|e]]; cbn; auto.
Qed.
Definition lm1 : lmem := mkL (mkMem (m_bufs s1) (m_arrs s1) [[]; []; []] (m_obs s1)) [mkCont CList [RObs 0] 1; mkCont CMb [RCont 0] 2] [].
Lemma run_plist : lexec empty_lmem plist = lm1.
Proof. unfold plist. rewrite lexec_app, lexec_base. cbn [empty_lmem l_mem]. rewrite run1. reflexivity. Qed.
Lemma plist_checked : Forall checked plist.
Proof. repeat constructor. Qed.
Theorem slice_breaks : exists m', let m := lexec empty_lmem plist in
  lstep (LSetSlice 1 0 1 (RCont 0)) m = (m', Ok ROther) /\ typed m /\ ~ typed m' /\
  exists c, nth_error (l_conts m') 1 = Some c /\ ct_cls c = CMb /\ ct_items c = [RObs 0].
Proof.
  exists (mkL (l_mem lm1) [mkCont CList [RObs 0] 1; mkCont CMb [RObs 0] 2] []). cbv zeta.
  split; [rewrite run_plist; reflexivity|]. split; [apply types_invariant, plist_checked|]. split.
  - intros T. specialize (T 1%nat _ eq_refl). apply Forall_cons_iff in T as [T _]. discriminate.
  - eexists. split; [reflexivity|]. split; reflexivity.
Qed.
Theorem inherited_breaks m l c : nth_error (l_conts m) l = Some c ->
  (exists m', lstep (LExtend l [ROther]) m = (m', Ok ROther) /\ ~ typed m') /\
  (exists m', lstep (LInsert l 0 ROther) m = (m', Ok ROther) /\ ~ typed m').
Proof.
  intros N. assert (L : (l < length (l_conts m))%nat) by (apply nth_error_Some; congruence).
  cbn [lstep]. unfold done, extend, insert, lbind, get_cont, put_items. rewrite !N.
  split; eexists; (split; [reflexivity|]); intros T; specialize (T l); cbn [l_conts] in T;
    rewrite (nth_upd_same (l_conts m) l _ L) in T; specialize (T _ eq_refl); cbn [ct_items ct_cls] in T.
  - apply Forall_app in T as [_ T]. apply Forall_cons_iff in T as [T _]. discriminate.
  - cbn [firstn app] in T. apply Forall_cons_iff in T as [T _]. discriminate.
Qed.
Theorem kobs_type m i a : nth_error (l_kobs m) i = Some a ->
  exists m' a', lstep (LSetPsfK i (Some ROther)) m = (m', Raise AssertionError) /\ nth_error (l_kobs m') i = Some a' /\ ko_psf a' = None.
Proof.
  intros N. cbn [lstep]. unfold done, kset_psf, lbind, put_kpsf. rewrite N. cbn. do 2 eexists. split; [reflexivity|]. cbn.
  split; [apply nth_upd_same; apply nth_error_Some; congruence|reflexivity].
Qed.
Lemma kobs_shape m i k a b : nth_error (l_kobs m) i = Some a -> nth_error (l_kobs m) k = Some b ->
  ko_shape b <> ko_shape a -> i <> k ->
  exists m' a', lstep (LSetPsfK i (Some (RKObs k))) m = (m', Raise ValueError) /\ nth_error (l_kobs m') i = Some a' /\ ko_psf a' = Some k.
Proof.
  intros N K S D. assert (Li : (i < length (l_kobs m))%nat) by (apply nth_error_Some; congruence). assert (Lk : (k < length (l_kobs m))%nat) by (apply nth_error_Some; congruence).
  cbn [lstep]. unfold done, kset_psf, lbind at 1 2. unfold put_kpsf at 1. rewrite N. unfold lbind at 1, isinstance, class_of. cbn [l_kobs l_mem].
  rewrite upd_length'. apply Nat.ltb_lt in Lk. rewrite Lk. unfold lassert at 1. cbn [cls_eqb]. unfold lbind at 1, lret at 1.
  unfold lbind at 1, put_kpsf. cbn [l_kobs]. rewrite nth_upd_same by auto. cbn [l_mem l_conts ko_shape ko_scale].
  unfold lbind at 1, get_kobs at 1. cbn [l_kobs]. rewrite nth_upd_same by (rewrite upd_length'; auto).
  unfold lbind at 1, get_kobs at 1. cbn [l_kobs]. rewrite !nth_upd_ne by auto. rewrite K. cbn [ko_shape].
  assert (E : shape_eqb (ko_shape b) (ko_shape a) = false).
  { unfold shape_eqb. destruct (ko_shape b) as [x y], (ko_shape a) as [x' y']. cbn. destruct (Nat.eqb_spec x x'), (Nat.eqb_spec y y'); auto. subst. congruence. }
  rewrite E. unfold lbind, lassert, lfail. do 2 eexists. split; [reflexivity|]. cbn [l_kobs].
  split; [apply nth_upd_same; rewrite upd_length'; auto|reflexivity].
Qed.
Theorem accepted m l c x : nth_error (l_conts m) l = Some c -> class_of m x = Some (elem (ct_cls c)) ->
  (exists m', lstep (LAppend l x) m = (m', Ok ROther)) /\
  (forall k, (k < length (ct_items c))%nat -> exists m', lstep (LSetItem l (Z.of_nat k) x) m = (m', Ok ROther)) /\
  (forall k, (k < length (ct_items c))%nat -> exists m', lstep (LSetItem l (Z.of_nat k - Z.of_nat (length (ct_items c))) x) m = (m', Ok ROther)).
Proof.
  intros N K. assert (T : forall a, cls_eqb a a = true) by (intros; apply cls_eqb_eq; auto). cbn [lstep]. unfold done, lbind.
  split; [|split; intros k Hk].
  - rewrite append_eq, N, K, T. eexists. reflexivity.
  - rewrite setitem_eq, N, K, T. unfold list_index.
    destruct (Z.leb_spec 0 (Z.of_nat k)); [|lia]. destruct (Z.ltb_spec (Z.of_nat k) (Z.of_nat (length (ct_items c)))); [|lia]. eexists. reflexivity.
  - rewrite setitem_eq, N, K, T. unfold list_index.
    destruct (Z.leb_spec 0 (Z.of_nat k - Z.of_nat (length (ct_items c)))); [lia|].
    destruct (Z.leb_spec (- Z.of_nat (length (ct_items c))) (Z.of_nat k - Z.of_nat (length (ct_items c)))); [|lia]. eexists. reflexivity.
Qed.
Lemma copy_o1 : exists m', copy_obs 1 0 (mkMem (m_bufs s1) (m_arrs s1) [[]; []; []; []; []] (m_obs s1)) = (m', Ok 1%nat) /\ length (m_obs m') = 2%nat.
Proof.
  unfold s1, o1. cbn [copy_obs m_obs m_bufs m_arrs]. unfold copy_opt, copy_view, view_check, get_meta, new_meta, none_opts.
  open_step. rewrite jac1_copy. compute_mem. mkpix (im1 1) (im1 1) jac1 true. rewrite (mp1 1 1 jac1 true) by lra. eexists; split; reflexivity.
Qed.
Lemma example_copy_mb : exists m', lstep (LCopy 1) (lexec empty_lmem plist) = (m', Ok (RCont 2)).
Proof.
  rewrite run_plist. cbn [lstep]. destruct copy_o1 as (m1 & E & L).
  unfold lm1. cbn [l_conts length copy_ref]. unfold lbind at 1, get_cont at 1. cbn [l_conts nth_error ct_cls ct_meta ct_items].
  unfold lbind at 1, base at 1. cbn [l_mem get_meta m_metas nth_error l_conts l_kobs]. unfold get_meta at 1. cbn [m_metas nth_error].
  unfold lbind at 1, base at 1, new_meta at 1. cbn [l_mem m_metas app m_bufs m_arrs m_obs l_conts l_kobs length].
  unfold lbind at 1, push_cont at 1. cbn [l_mem app l_conts l_kobs length copy_items copy_ref].
  unfold lbind at 1. unfold lbind at 1. unfold lbind at 1, get_cont at 1. cbn [l_conts nth_error ct_cls ct_meta ct_items].
  unfold lbind at 1, base at 1, get_meta at 1. cbn [l_mem m_metas nth_error l_conts l_kobs].
  unfold lbind at 1, base at 1, new_meta at 1. cbn [l_mem m_metas app m_bufs m_arrs m_obs l_conts l_kobs length].
  unfold lbind at 1, push_cont at 1. cbn [l_mem app l_conts l_kobs length copy_items copy_ref].
  unfold lbind at 1. unfold lbind at 1. unfold lbind at 1. unfold base at 1. cbn [l_mem l_conts l_kobs m_obs].
  change (length (m_obs s1)) with 1%nat. match goal with |- context[copy_obs 1 0 ?x] => change (copy_obs 1 0 x) with (copy_obs 1 0 (mkMem (m_bufs s1) (m_arrs s1) [[]; []; []; []; []] (m_obs s1))) end. rewrite E. unfold lret at 1.
  unfold lbind at 1. rewrite append_eq. cbn [l_conts nth_error class_of l_mem]. rewrite L. cbn [Nat.ltb Nat.leb ct_cls elem cls_eqb].
  unfold lret. unfold lbind at 1. rewrite append_eq. cbn. eexists. reflexivity.
Qed.
Lemma shape_eqb_spec a b : shape_eqb a b = true <-> a = b.
Proof.
  unfold shape_eqb. destruct a as [x y], b as [x' y']. cbn. destruct (Nat.eqb_spec x x'), (Nat.eqb_spec y y'); subst; cbn; split; intros; auto; try congruence; discriminate.
Qed.
Lemma kset_eq m i k a b : nth_error (l_kobs m) i = Some a -> nth_error (l_kobs m) k = Some b -> i <> k ->
  exists mm, lstep (LSetPsfK i (Some (RKObs k))) m = (mm, if shape_eqb (ko_shape b) (ko_shape a) then if allclose (ko_scale b) (ko_scale a) then Ok ROther else Raise AssertionError else Raise ValueError) /\
    nth_error (l_kobs mm) i = Some (mkKobs (ko_shape a) (ko_scale a) (Some k)) /\ nth_error (l_kobs mm) k = Some b.
Proof.
  intros N K D. assert (Li : (i < length (l_kobs m))%nat) by (apply nth_error_Some; congruence). assert (Lk : (k < length (l_kobs m))%nat) by (apply nth_error_Some; congruence).
  cbn [lstep]. unfold done, kset_psf, lbind at 1 2. unfold put_kpsf at 1. rewrite N. unfold lbind at 1, isinstance, class_of. cbn [l_kobs l_mem].
  rewrite upd_length'. pose proof Lk as Lk'. apply Nat.ltb_lt in Lk'. rewrite Lk'. unfold lassert at 1. cbn [cls_eqb]. unfold lbind at 1, lret at 1.
  unfold lbind at 1, put_kpsf. cbn [l_kobs]. rewrite nth_upd_same by auto. cbn [l_mem l_conts ko_shape ko_scale].
  unfold lbind at 1, get_kobs at 1. cbn [l_kobs]. rewrite nth_upd_same by (rewrite upd_length'; auto).
  unfold lbind at 1, get_kobs at 1. cbn [l_kobs]. rewrite !nth_upd_ne by auto. rewrite K. cbn [ko_shape ko_scale].
  set (mm := mkL _ _ _).
  assert (G : nth_error (l_kobs mm) i = Some (mkKobs (ko_shape a) (ko_scale a) (Some k)) /\ nth_error (l_kobs mm) k = Some b).
  { cbn. rewrite nth_upd_same by (rewrite upd_length'; auto). rewrite !nth_upd_ne by auto. auto. }
  exists mm. split; [|exact G]. unfold lbind, lassert. destruct shape_eqb; [|reflexivity]. cbn. destruct allclose; reflexivity.
Qed.
Theorem kobs_accepted m i k a b : nth_error (l_kobs m) i = Some a -> nth_error (l_kobs m) k = Some b -> i <> k ->
  ((exists m', lstep (LSetPsfK i (Some (RKObs k))) m = (m', Ok ROther)) <->
     ko_shape b = ko_shape a /\ Rabs (ko_scale b - ko_scale a) <= / 10 ^ 8 + / 10 ^ 5 * Rabs (ko_scale a)) /\
  (forall m', lstep (LSetPsfK i (Some (RKObs k))) m = (m', Ok ROther) ->
     nth_error (l_kobs m') i = Some (mkKobs (ko_shape a) (ko_scale a) (Some k)) /\ nth_error (l_kobs m') k = Some b).
Proof.
  intros N K D. destruct (kset_eq m i k a b N K D) as (mm & -> & G). unfold allclose. pose proof (shape_eqb_spec (ko_shape b) (ko_shape a)) as S.
  destruct (shape_eqb (ko_shape b) (ko_shape a)).
  - assert (E : ko_shape b = ko_shape a) by tauto. unfold Rleb. destruct Rle_dec as [H|H].
    + split; [split; [auto|intros _; eexists; reflexivity]|]. intros m' Em. injection Em as <-. auto.
    + split; [split; [intros (m' & Em); discriminate|intros [_ H2]; contradiction]|intros m' Em; discriminate].
  - assert (E : ko_shape b <> ko_shape a) by (intros E; apply S in E; discriminate). split; [split; [intros (m' & Em); discriminate|intros [H2 _]; contradiction]|intros m' Em; discriminate].
Qed.
