(** Theorems on ObsList, MultiBandObsList, get_mb_obs and KObservation: C33, C35, C36, C37. *)
From Verif Require Import Base Jacobian_Model Pixels_Model Obs_Model Obs_Spec ObsCex_Proofs ObsEq_Model ObsList_Model ObsList_Spec
  ObsList_Proofs ObsListCopy_Proofs ObsListCex_Proofs ObsS2N_Proofs.
From Coq Require Import ZArith Permutation.
Local Open Scope R_scope.

(** ---- C33: copies of containers ---- *)
Theorem C33_container_copy_equal : forall p l m' x, Forall checked p -> let m := lexec empty_lmem p in
  lstep (LCopy l) m = (m', Ok x) ->
  exists l', x = RCont l' /\
   ((exists v, list_value m l v /\ list_value m' l v /\ list_value m' l' v) \/
    (exists v, mb_value m l v /\ mb_value m' l v /\ mb_value m' l' v)).
Proof. exact copy_container. Qed.
Print Assumptions C33_container_copy_equal.
Theorem C33_container_copy_independent : forall p l m' l', Forall checked p -> let m := lexec empty_lmem p in
  lstep (LCopy l) m = (m', Ok (RCont l')) ->
  (forall q, Forall (later_only m) q -> forall k,
     (forall v, list_value m k v -> list_value (lexec m' q) k v) /\
     (forall v, mb_value m k v -> mb_value (lexec m' q) k v)) /\
  (forall q, Forall (none_between m m') q ->
     (forall v, list_value m' l' v -> list_value (lexec m' q) l' v) /\
     (forall v, mb_value m' l' v -> mb_value (lexec m' q) l' v)).
Proof. exact copy_container_independent. Qed.
Print Assumptions C33_container_copy_independent.
Example C33_container_hypotheses_hold : exists m' l', Forall checked plist /\
  lstep (LCopy 1) (lexec empty_lmem plist) = (m', Ok (RCont l')).
Proof. destruct example_copy_mb as (m' & E). exists m', 2%nat. split; [exact plist_checked|exact E]. Qed.

(** ---- C35: KObservation.set_psf ---- *)
(** a KObservation is accepted as psf exactly if the shapes are equal and the scales close *)
Theorem C35_kobs_accepted : forall m i k a b, nth_error (l_kobs m) i = Some a -> nth_error (l_kobs m) k = Some b -> i <> k ->
  ((exists m', lstep (LSetPsfK i (Some (RKObs k))) m = (m', Ok ROther)) <->
     ko_shape b = ko_shape a /\ Rabs (ko_scale b - ko_scale a) <= / 10 ^ 8 + / 10 ^ 5 * Rabs (ko_scale a)) /\
  (forall m', lstep (LSetPsfK i (Some (RKObs k))) m = (m', Ok ROther) ->
     nth_error (l_kobs m') i = Some (mkKobs (ko_shape a) (ko_scale a) (Some k)) /\ nth_error (l_kobs m') k = Some b).
Proof. exact kobs_accepted. Qed.
Print Assumptions C35_kobs_accepted.
(** a psf of another shape stays after the ValueError *)
Theorem C35_kobs_shape_refuted : forall m i k a b, nth_error (l_kobs m) i = Some a -> nth_error (l_kobs m) k = Some b ->
  ko_shape b <> ko_shape a -> i <> k ->
  exists m' a', lstep (LSetPsfK i (Some (RKObs k))) m = (m', Raise ValueError) /\
    nth_error (l_kobs m') i = Some a' /\ ko_psf a' = Some k.
Proof. exact kobs_shape. Qed.
Print Assumptions C35_kobs_shape_refuted.
(** any other object removes the psf that was there *)
Theorem C35_kobs_type_refuted : forall m i a, nth_error (l_kobs m) i = Some a ->
  exists m' a', lstep (LSetPsfK i (Some ROther)) m = (m', Raise AssertionError) /\
    nth_error (l_kobs m') i = Some a' /\ ko_psf a' = None.
Proof. exact kobs_type. Qed.
Print Assumptions C35_kobs_type_refuted.
Example C35_kobs_hypotheses_hold : let m := lexec empty_lmem [LNewK (1, 1)%nat 1 None; LNewK (2, 2)%nat 1 None] in
  exists a b, nth_error (l_kobs m) 0 = Some a /\ nth_error (l_kobs m) 1 = Some b /\ ko_shape b <> ko_shape a /\ 0%nat <> 1%nat.
Proof. do 2 eexists. split; [reflexivity|]. split; [reflexivity|]. split; discriminate. Qed.

(** ---- C36: the containers hold what they promise ---- *)
(** after every program that uses only append, item assignment with integers, copy and
    get_mb_obs, besides the constructors and everything that can be done with observations *)
Theorem C36_types_partial : forall p, Forall checked p -> typed (lexec empty_lmem p).
Proof. exact types_invariant. Qed.
Print Assumptions C36_types_partial.
Example C36_hypotheses_hold : Forall checked plist /\ exists c, nth_error (l_conts (lexec empty_lmem plist)) 1 = Some c /\ ct_items c = [RCont 0].
Proof. split; [exact plist_checked|]. rewrite run_plist. eexists. split; reflexivity. Qed.
Theorem C36_append : forall m l x m', lstep (LAppend l x) m = (m', Ok ROther) ->
  exists c, nth_error (l_conts m) l = Some c /\ class_of m x = Some (elem (ct_cls c)) /\
    nth_error (l_conts m') l = Some (mkCont (ct_cls c) (ct_items c ++ [x]) (ct_meta c)) /\
    (forall k, k <> l -> nth_error (l_conts m') k = nth_error (l_conts m) k) /\ l_mem m' = l_mem m.
Proof. exact append_effect. Qed.
Print Assumptions C36_append.
Theorem C36_setitem : forall m l i x m', lstep (LSetItem l i x) m = (m', Ok ROther) ->
  exists c k, nth_error (l_conts m) l = Some c /\ class_of m x = Some (elem (ct_cls c)) /\ (k < length (ct_items c))%nat /\
    (i = Z.of_nat k \/ i = Z.of_nat k - Z.of_nat (length (ct_items c)))%Z /\
    nth_error (l_conts m') l = Some (mkCont (ct_cls c) (upd (ct_items c) k x) (ct_meta c)) /\
    (forall k, k <> l -> nth_error (l_conts m') k = nth_error (l_conts m) k) /\ l_mem m' = l_mem m.
Proof. exact setitem_effect. Qed.
Print Assumptions C36_setitem.
Theorem C36_failed_unchanged : forall m o e m', (exists l x, o = LAppend l x) \/ (exists l i x, o = LSetItem l i x) ->
  lstep o m = (m', Raise e) -> m' = m.
Proof. exact failed_unchanged. Qed.
Print Assumptions C36_failed_unchanged.
(** objects of the right class are accepted *)
Theorem C36_accepted : forall m l c x, nth_error (l_conts m) l = Some c -> class_of m x = Some (elem (ct_cls c)) ->
  (exists m', lstep (LAppend l x) m = (m', Ok ROther)) /\
  (forall k, (k < length (ct_items c))%nat -> exists m', lstep (LSetItem l (Z.of_nat k) x) m = (m', Ok ROther)) /\
  (forall k, (k < length (ct_items c))%nat -> exists m', lstep (LSetItem l (Z.of_nat k - Z.of_nat (length (ct_items c))) x) m = (m', Ok ROther)).
Proof. exact accepted. Qed.
Print Assumptions C36_accepted.
Example C36_accepted_hypotheses_hold : let m := lexec empty_lmem plist in
  exists c, nth_error (l_conts m) 0 = Some c /\ class_of m (RObs 0) = Some (elem (ct_cls c)).
Proof. cbv zeta. rewrite run_plist. eexists. split; reflexivity. Qed.
Theorem C36_get_mb_obs : forall m,
  (forall i, (i < length (m_obs (l_mem m)))%nat -> exists m' b l, lstep (LGetMb (RObs i)) m = (m', Ok (RCont b)) /\ same_before m m' /\
     is_mb m' b [l] /\ is_list m' l [i]) /\
  (forall l is, is_list m l is -> exists m' b, lstep (LGetMb (RCont l)) m = (m', Ok (RCont b)) /\ same_before m m' /\
     is_mb m' b [l] /\ is_list m' l is) /\
  (forall b ls, is_mb m b ls -> lstep (LGetMb (RCont b)) m = (m, Ok (RCont b))) /\
  (forall x, class_of m x <> Some COb -> class_of m x <> Some (CC CList) -> class_of m x <> Some (CC CMb) ->
     lstep (LGetMb x) m = (m, Raise ValueError)).
Proof. exact get_mb_spec. Qed.
Print Assumptions C36_get_mb_obs.
Example C36_get_mb_hypotheses_hold : let m := lexec empty_lmem plist in
  (0 < length (m_obs (l_mem m)))%nat /\ is_list m 0 [0%nat] /\ is_mb m 1 [0%nat].
Proof. cbv zeta. rewrite run_plist. split; [cbn; lia|]. split; eexists; split; [reflexivity|split; reflexivity|reflexivity|split; reflexivity]. Qed.
(** mbobs[0:1] = obslist passes the check and puts Observations into the MultiBandObsList *)
Theorem C36_slice_refuted : exists m', let m := lexec empty_lmem plist in
  lstep (LSetSlice 1 0 1 (RCont 0)) m = (m', Ok ROther) /\ typed m /\ ~ typed m' /\
  exists c, nth_error (l_conts m') 1 = Some c /\ ct_cls c = CMb /\ ct_items c = [RObs 0].
Proof. exact slice_breaks. Qed.
Print Assumptions C36_slice_refuted.
(** the methods inherited from list do not check anything *)
Theorem C36_inherited_refuted : forall m l c, nth_error (l_conts m) l = Some c ->
  (exists m', lstep (LExtend l [ROther]) m = (m', Ok ROther) /\ ~ typed m') /\
  (exists m', lstep (LInsert l 0 ROther) m = (m', Ok ROther) /\ ~ typed m').
Proof. exact inherited_breaks. Qed.
Print Assumptions C36_inherited_refuted.

(** ---- C37: signal to noise ---- *)
Theorem C37_observation : forall v, exists n, obsval_sums v = (i_sum v, v_sum v, n) /\ INR n = n_sum v /\
  (has_weight v -> s2n (obsval_sums v) = i_sum v / sqrt (v_sum v) /\ 0 < v_sum v) /\
  (~ has_weight v -> s2n (obsval_sums v) = -9999).
Proof. exact obs_s2n. Qed.
Print Assumptions C37_observation.
Theorem C37_list : forall l, exists n, obslist_sums l = (rsum (map i_sum l), rsum (map v_sum l), n) /\
  INR n = rsum (map n_sum l) /\
  ((exists v, In v l /\ has_weight v) ->
     s2n (obslist_sums l) = rsum (map i_sum l) / sqrt (rsum (map v_sum l)) /\ 0 < rsum (map v_sum l)) /\
  (~ (exists v, In v l /\ has_weight v) -> s2n (obslist_sums l) = -9999).
Proof. exact list_s2n. Qed.
Print Assumptions C37_list.
Theorem C37_multiband : forall b, exists n, mbobs_sums b = (rsum (map i_sum (concat b)), rsum (map v_sum (concat b)), n) /\
  INR n = rsum (map n_sum (concat b)) /\
  ((exists l v, In l b /\ In v l /\ has_weight v) ->
     s2n (mbobs_sums b) = rsum (map i_sum (concat b)) / sqrt (rsum (map v_sum (concat b))) /\ 0 < rsum (map v_sum (concat b))) /\
  (~ (exists l v, In l b /\ In v l /\ has_weight v) -> s2n (mbobs_sums b) = -9999).
Proof. exact mb_s2n. Qed.
Print Assumptions C37_multiband.
Theorem C37_order : forall l l', Permutation l l' -> obslist_sums l = obslist_sums l'.
Proof. exact s2n_order. Qed.
Print Assumptions C37_order.
Theorem C37_multiband_order : forall b b', Permutation (concat b) (concat b') -> mbobs_sums b = mbobs_sums b'.
Proof. exact mb_s2n_order. Qed.
Print Assumptions C37_multiband_order.
Definition ov1 (i w : R) : obsval := OV (im1 i) (im1 w) jac1 (fun _ => None) None [] false true None.
Example C37_hypotheses_hold : has_weight (ov1 3 (1/4)) /\ ~ has_weight (ov1 3 0) /\
  Permutation [ov1 3 (1/4); ov1 3 0] [ov1 3 0; ov1 3 (1/4)] /\ v_sum (ov1 3 (1/4)) = 4 /\ i_sum (ov1 3 (1/4)) = 3.
Proof.
  split; [exists 0%nat, 0%nat; cbn; repeat split; auto; lra|]. split; [intros (r & c & _ & _ & H); cbn in H; lra|].
  split; [apply perm_swap|]. unfold v_sum, i_sum, ov1, pixel_sum, im1. cbn [nrow ncol at2 seq map]. destruct (Rlt_dec 0 (1 / 4)); [|lra].
  rewrite !rsum_cons, !rsum_nil. split; lra.
Qed.
