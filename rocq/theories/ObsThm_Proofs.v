(** The theorems on Observation. *)
From Verif Require Import Base Jacobian_Model Pixels_Model Pixels_Proofs Obs_Model Obs_Spec ObsZone_Proofs Obs_Proofs.
From Coq Require String.

Lemma reach_good p : good false (exec empty_mem p).
Proof. apply exec_good, good_empty. Qed.

(** ---- C30 ---- *)
Theorem pixels_invariant p : disciplined empty_mem p ->
  forall i o, nth_error (m_obs (exec empty_mem p)) i = Some o -> ob_wr o = false -> pixels_match (exec empty_mem p) o.
Proof. intros D i o N W. destruct (disciplined_good p empty_mem (good_empty true) D i o N) as [_ H]. auto. Qed.

(** computations that end with assignment and update_pixels *)
Definition remade {A} (i : nat) (P : mem -> Prop) (x : M A) : Prop :=
  forall m m' u, good false m -> P m -> x m = (m', Ok u) -> exists o, nth_error (m_obs m') i = Some o /\ pixels_match m' o.
Lemma remade_bind {A B} i P Q (x : M A) (f : A -> M B) : keeps P -> alloc false P x Q ->
  (forall a, remade i (fun m => P m /\ Q a m) (f a)) -> remade i P (bindM x f).
Proof.
  intros SP Hx Hf m m' u I Pm E. apply bindM_inv in E. destruct E as [(e & E & X)|(m1 & a & E & E2)]; [discriminate|].
  destruct (Hx _ _ _ I Pm E) as (I' & L & Q1). apply (Hf a m1 m' u I' (conj (SP _ _ L Pm) (Q1 a eq_refl)) E2).
Qed.
Lemma remade_conseq {A} i (P P' : mem -> Prop) (x : M A) : remade i P x -> (forall m, P' m -> P m) -> remade i P' x.
Proof. intros H HP m m' u I Pm E. apply (H m m' u I (HP _ Pm) E). Qed.
Lemma remade_update i o : remade i (fun m => nth_error (m_obs m) i = Some o /\ okobs m o) (update_pixels i).
Proof.
  intros m m' u I [N O] E. destruct (update_inv i o m m' _ N O E) as [(p & _ & -> & P)|(_ & e & X & _)]; [|discriminate].
  exists (with_pix o p). split; [cbn; eapply nth_upd_same; eauto|]. unfold pixels_match, pix_is in *. cbn. destruct (ob_store o); auto.
Qed.
Lemma remade_put_update i o o' : remade i (fun m => nth_error (m_obs m) i = Some o /\ okobs m o') (do _ <- put_obs i o' ;; update_pixels i).
Proof.
  intros m m' u I [N O] E. destruct (put_update false _ _ _ _ _ _ I N O E) as [(_ & G & p & -> & P)|(_ & e & X & _)]; [|discriminate].
  exists (with_pix o' p). split; [cbn; eapply nth_upd_same; eauto|exact P].
Qed.
Lemma remade_unit i P x : remade i P x -> remade i P (unit_ x).
Proof.
  intros H m m' u I Pm E. unfold unit_ in E. apply bindM_inv in E. destruct E as [(e & E & X)|(m1 & a & E & E2)]; [discriminate|].
  injection E2 as <- <-. apply (H _ _ _ I Pm E).
Qed.
Ltac keep3 := cbv beta; repeat first
  [ apply keeps_pure | apply keeps_content | apply keeps_nth_obs | apply keeps_nth_meta | apply keeps_lto | apply keeps_ltm
  | apply keeps_okobs | apply keeps_match | apply keeps_arr_is | apply keeps_opt_is | apply keeps_jac_is | apply keeps_psf_is
  | apply keeps_meta_is | apply keeps_pix_is | apply keeps_reads | apply keeps_copied_opt | apply keeps_is_copy
  | match goal with H : keeps _ |- _ => apply H end
  | apply keeps_and | apply keeps_ex; intro | apply keeps_imp | apply keeps_all; intro ].
Ltac rbind := eapply remade_bind; [keep3 | | cbv beta; intros].

Theorem remakes_match p x i m' u : remakes_pixels x i -> step x (exec empty_mem p) = (m', Ok u) ->
  exists o, nth_error (m_obs m') i = Some o /\ pixels_match m' o.
Proof.
  intros R E. apply (fun H : remade i (fun _ => True) (step x) => H _ _ _ (reach_good p) Logic.I E). clear E.
  destruct x; cbn [remakes_pixels step] in *; try contradiction; subst; apply remade_unit.
  - unfold set_image. rbind; [apply alloc_get_obs'|]. rbind; [apply alloc_ascontig|]. rbind; [apply alloc_shape2|].
    rbind; [apply alloc_shape2|]. rbind; [apply alloc_assert|].
    eapply remade_conseq; [eapply remade_put_update|]. cbv beta. intros m H.
    destruct H as (((((_ & N & O & _) & c & H1 & H2) & im & H3 & ->) & im0 & H4 & ->) & H5).
    split; [exact N|]. apply shape_eqb_true in H5. eapply ok_with_image; eauto.
  - unfold set_weight. rbind; [apply alloc_get_obs'|]. rbind; [apply alloc_view_check|]. rbind; [apply alloc_shape2|].
    rbind; [apply alloc_weight_value|].
    eapply remade_conseq; [eapply remade_put_update|]. cbv beta. intros m H.
    destruct H as ((((_ & N & O & _) & _) & im & H3 & ->) & H4). split; [exact N|]. eapply ok_with_weight; eauto.
  - unfold set_jacobian. rbind; [apply alloc_get_obs'|].
    rbind. { instantiate (1 := fun _ _ => True). destruct j; [apply alloc_view_check| |]; apply alloc_ret; auto. }
    rbind; [apply alloc_shape2|]. rbind; [apply alloc_jac_value|].
    eapply remade_conseq; [eapply remade_put_update|]. cbv beta. intros m H.
    destruct H as ((((_ & N & O & _) & _) & im & H3 & ->) & H4). split; [exact N|]. eapply ok_with_jac; eauto.
  - intros m m1 u0 I _ E. destruct (nth_error (m_obs m) i) as [o|] eqn:N.
    + apply (remade_update i o m m1 u0 I (conj N (good_ok _ _ _ _ I N)) E).
    + unfold update_pixels, bindM, get_obs in E. rewrite N in E. discriminate.
  - unfold exit_. rbind; [apply alloc_get_obs'|].
    eapply remade_conseq; [eapply remade_put_update|]. cbv beta. intros m (_ & N & O & _). split; [exact N|].
    apply ok_with_flags; auto.
Qed.
Theorem created_match p x i m' : (exists a b c d e f g h q j k l n, x = NewObs a b c d e f g h q j k l n) \/ (exists k, x = CopyObs k) ->
  step x (exec empty_mem p) = (m', Ok i) -> exists o, nth_error (m_obs m') i = Some o /\ ob_wr o = false /\ pixels_match m' o.
Proof.
  intros [(a & b & c & d & e & f & g & h & q & j & k & l & n & ->)|(k & ->)] E; cbn [step] in E.
  - destruct (alloc_new_obs false (fun _ => True) a b c d e f g h q j k l n _ _ _ (reach_good p) Logic.I E) as (_ & _ & H).
    destruct (H i eq_refl) as (o & N & B). exists o. unfold built_from in B. tauto.
  - destruct (alloc_copy_obs false _ (fun _ => False) k _ _ _ (reach_good p) ltac:(intros v []) E) as (_ & _ & H).
    destruct (H i eq_refl) as (o & N & W & PM & _). eauto.
Qed.

(** ---- C31 ---- *)
(** array objects are never changed or removed *)
Definition appends {A} (x : M A) : Prop := forall m, exists l, m_arrs (fst (x m)) = m_arrs m ++ l.
Lemma appends_refl {A} (x : M A) : (forall m, m_arrs (fst (x m)) = m_arrs m) -> appends x.
Proof. intros H m. exists []. rewrite app_nil_r. auto. Qed.
Lemma appends_bind {A B} (x : M A) (f : A -> M B) : appends x -> (forall a, appends (f a)) -> appends (bindM x f).
Proof.
  intros Hx Hf m. unfold bindM. destruct (Hx m) as [l1 E1]. destruct (x m) as [m1 [a|e]]; cbn in *; [|eauto].
  destruct (Hf a m1) as [l2 E2]. exists (l1 ++ l2). rewrite E2, E1, app_assoc. auto.
Qed.
Lemma ap_ret {A} (a : A) : appends (ret a). Proof. apply appends_refl; auto. Qed.
Lemma ap_fail {A} e : appends (@fail A e). Proof. apply appends_refl; auto. Qed.
Lemma ap_lift {A} (r : res A) : appends (lift r). Proof. apply appends_refl; auto. Qed.
Lemma ap_assert b e : appends (assert b e). Proof. destruct b; [apply ap_ret|apply ap_fail]. Qed.
Lemma ap_get_obs i : appends (get_obs i). Proof. apply appends_refl. intros m; unfold get_obs; destruct nth_error; auto. Qed.
Lemma ap_get_arr i : appends (get_arr i). Proof. apply appends_refl. intros m; unfold get_arr; destruct nth_error; auto. Qed.
Lemma ap_get_buf i : appends (get_buf i). Proof. apply appends_refl. intros m; unfold get_buf; destruct nth_error; auto. Qed.
Lemma ap_get_meta i : appends (get_meta i). Proof. apply appends_refl. intros m; unfold get_meta; destruct nth_error; auto. Qed.
Lemma ap_put_obs i o : appends (put_obs i o). Proof. apply appends_refl; auto. Qed.
Lemma ap_push_obs o : appends (push_obs o). Proof. apply appends_refl; auto. Qed.
Lemma ap_put_meta i o : appends (put_meta i o). Proof. apply appends_refl; auto. Qed.
Lemma ap_new_meta o : appends (new_meta o). Proof. apply appends_refl; auto. Qed.
Lemma ap_new_arr c w : appends (new_arr c w). Proof. intros m. eexists; reflexivity. Qed.
Ltac ap := repeat first
  [ apply ap_ret | apply ap_fail | apply ap_lift | apply ap_assert | apply ap_get_obs | apply ap_get_arr | apply ap_get_buf
  | apply ap_get_meta | apply ap_put_obs | apply ap_push_obs | apply ap_put_meta | apply ap_new_meta | apply ap_new_arr
  | match goal with H : forall i, appends (?f i) |- appends (?f _) => apply H end
  | match goal with |- appends (bindM _ _) => apply appends_bind; [|intros] end | match goal with |- appends (match ?x with _ => _ end) => destruct x end
  | match goal with |- appends (if ?x then _ else _) => destruct x end ].
Lemma ap_new_obs a b c d e f g h i j k l n : appends (new_obs a b c d e f g h i j k l n).
Proof.
  unfold new_obs, ascontig, contents, shape2, weight_value, opt_value, jac_value, pixels_value, gmix_value, psf_value, meta_value,
    view_check, ascontig, shape2, contents. ap.
Qed.
Lemma ap_copy depth : forall i, appends (copy_obs depth i).
Proof.
  induction depth as [|depth IH]; intros i; cbn [copy_obs]; [ap|].
  unfold copy_opt, copy_view, view_check, contents.
  repeat first [apply ap_new_obs | progress ap].
Qed.
Lemma ap_step x : appends (step x).
Proof.
  destruct x; cbn [step]; unfold unit_.
  all: try (unfold set_image, set_weight, set_opt, set_jacobian, set_psf, set_gmix, set_meta, update_meta, set_store, set_ign, enter, exit_,
    update_pixels, pixels_value, weight_value, opt_value, jac_value, psf_value, gmix_value, meta_value, ascontig, shape2, view_check, contents; ap; fail).
  - apply appends_bind; [|intros; apply ap_ret]. unfold write_arr. ap. apply appends_refl; auto.
  - apply ap_new_obs.
  - unfold getattr, get_view. ap. intros m. eexists; reflexivity.
  - intros m. apply ap_copy.
Qed.
Lemma ap_exec p : forall m, exists l, m_arrs (exec m p) = m_arrs m ++ l.
Proof.
  induction p as [|x p IH]; intros m; cbn [exec]; [exists []; rewrite app_nil_r; auto|].
  destruct (ap_step x m) as [l1 E1]. destruct (IH (fst (step x m))) as [l2 E2]. exists (l1 ++ l2). rewrite E2, E1, app_assoc. auto.
Qed.
Lemma exec_app p q m : exec m (p ++ q) = exec (exec m p) q.
Proof. revert m. induction p as [|x p IH]; intros m; cbn; auto. Qed.

Lemma getattr_inv i k m m' v o : step (GetAttr i k) m = (m', Ok v) -> nth_error (m_obs m) i = Some o ->
  exists a x, attr_ref o k = Some a /\ nth_error (m_arrs m) a = Some x /\
    v = length (m_arrs m) /\ m' = mkMem (m_bufs m) (m_arrs m ++ [mkAr (a_buf x) (ob_wr o)]) (m_metas m) (m_obs m).
Proof.
  cbn [step]. unfold getattr, bindM at 1, get_obs. intros E N. rewrite N in E. destruct (attr_ref o k) as [a|]; [|discriminate].
  destruct (get_view_inv _ _ _ _ _ E) as [[e X]|(x & b & X1 & X2 & X3 & X4 & X5)]; [destruct X; discriminate|].
  injection X5 as <-. exists a, x. auto.
Qed.

Theorem read_only_view p i k o m' v : let m := exec empty_mem p in
  nth_error (m_obs m) i = Some o -> ob_wr o = false -> step (GetAttr i k) m = (m', Ok v) ->
  forall q c, step (Write v c) (exec m' q) = (exec m' q, Raise ValueError).
Proof.
  intros m N W E q c. destruct (getattr_inv _ _ _ _ _ _ E N) as (a & x & A1 & A2 & -> & E').
  set (v := length (m_arrs m)) in *.
  assert (R : exec m' q = exec empty_mem (p ++ GetAttr i k :: q)).
  { rewrite exec_app. fold m. cbn [exec]. rewrite E. reflexivity. }
  pose proof (reach_inv (p ++ GetAttr i k :: q)) as I. rewrite <- R in I.
  destruct (ap_exec q m') as [l El]. rewrite E' in El. cbn in El.
  assert (Nv : nth_error (m_arrs (exec m' q)) v = Some (mkAr (a_buf x) (ob_wr o))).
  { rewrite E', El, <- app_assoc, nth_error_app2; unfold v; auto. rewrite Nat.sub_diag. auto. }
  destruct (inv_arr _ _ I _ _ Nv) as [Lb _]. cbn in Lb. apply nth_error_Some in Lb.
  cbn [step]. unfold unit_, write_arr, bindM, get_arr. rewrite Nv. unfold get_buf. cbn [a_buf a_w].
  destruct (nth_error (m_bufs (exec m' q)) (a_buf x)) as [b|]; [|congruence].
  rewrite W. reflexivity.
Qed.

(** with obs.writeable(): obs.image[...] = im' *)
Definition attr_content (m : mem) (o : obs) (k : attr) : option content :=
  match attr_ref o k with None => None | Some a => content_at m a end.
Lemma write_result v c m m' : step (Write v c) m = (m', Ok 0%nat) ->
  exists x b c', nth_error (m_arrs m) v = Some x /\ nth_error (m_bufs m) (a_buf x) = Some b /\ a_w x = true /\
    overwrite (b_data b) c = Some c' /\ m' = mkMem (upd (m_bufs m) (a_buf x) (mkBuf c' (b_own b))) (m_arrs m) (m_metas m) (m_obs m).
Proof.
  cbn [step]. unfold unit_. intros E. apply bindM_inv in E. destruct E as [(e & _ & X)|(m1 & u & E & E2)]; [discriminate|].
  injection E2 as ->. destruct (write_inv _ _ _ _ _ E) as [(_ & e & X)|(x & b & c' & X1 & X2 & X3 & X4 & X5 & _)]; [discriminate|].
  exists x, b, c'. auto.
Qed.
Theorem block_write p i o im m1 m2 v m3 m4 : let m := exec empty_mem p in
  nth_error (m_obs m) i = Some o -> step (Enter i) m = (m1, Ok 0%nat) -> step (GetAttr i VImage) m1 = (m2, Ok v) ->
  step (Write v (C2 im)) m2 = (m3, Ok 0%nat) -> step (Exit i) m3 = (m4, Ok 0%nat) ->
  exists o', nth_error (m_obs m4) i = Some o' /\ content_at m4 (ob_image o') = Some (C2 im) /\ pixels_match m4 o'.
Proof.
  intros m N E1 E2 E3 E4.
  assert (R : m3 = exec empty_mem (p ++ [Enter i; GetAttr i VImage; Write v (C2 im)])).
  { rewrite exec_app. fold m. cbn [exec]. rewrite E1. cbn [fst]. rewrite E2. cbn [fst]. rewrite E3. reflexivity. }
  assert (PM : exists o', nth_error (m_obs m4) i = Some o' /\ pixels_match m4 o').
  { rewrite R in E4. eapply remakes_match; [|exact E4]. reflexivity. }
  destruct PM as (o' & N' & PM). exists o'. split; [auto|split; [|auto]].
  assert (H1 : m1 = setobs m i (with_flags o (ob_store o) (ob_ign o) true)).
  { cbn [step] in E1. unfold unit_, enter, bindM, get_obs in E1. rewrite N in E1. cbn in E1. injection E1 as <-. reflexivity. }
  assert (N1 : nth_error (m_obs m1) i = Some (with_flags o (ob_store o) (ob_ign o) true)).
  { rewrite H1. cbn. eapply nth_upd_same; eauto. }
  destruct (getattr_inv _ _ _ _ _ _ E2 N1) as (a & x & A1 & A2 & -> & A3). cbn in A1. injection A1 as <-.
  destruct (write_result _ _ _ _ E3) as (x' & b & c' & W1 & W2 & W3 & W4 & W5).
  rewrite A3 in W1. cbn in W1. rewrite nth_error_app2 in W1 by auto. rewrite Nat.sub_diag in W1. injection W1 as <-. cbn [a_buf] in *.
  set (o1 := with_flags o (ob_store o) (ob_ign o) true) in *.
  assert (N3 : nth_error (m_obs m3) i = Some o1). { rewrite W5, A3. exact N1. }
  assert (C3 : content_at m3 (ob_image o) = Some c').
  { unfold content_at. rewrite W5, A3. cbn. rewrite (nth_app_some _ _ _ _ A2). erewrite nth_upd_same; [reflexivity|].
    rewrite A3 in W2. exact W2. }
  assert (Ec : c' = C2 im).
  { unfold overwrite in W4. destruct (b_data b); try discriminate. destruct shape_eqb; [congruence|discriminate]. }
  cbn [step] in E4. unfold unit_ in E4. apply bindM_inv in E4. destruct E4 as [(e & _ & X)|(mm & u & E & E5)]; [discriminate|].
  injection E5 as ->. unfold exit_ in E. unfold bindM at 1, get_obs in E. rewrite N3 in E.
  assert (G3 : good false m3) by (rewrite R; apply reach_good).
  destruct (put_update false _ _ _ _ _ _ G3 N3 (ok_with_flags _ _ _ _ _ (good_ok _ _ _ _ G3 N3)) E) as [(_ & _ & q & -> & _)|(_ & e & X & _)]; [|discriminate].
  cbn in N'. erewrite nth_upd_same in N' by eauto. injection N' as <-. cbn. rewrite setobs_content. congruence.
Qed.

(** ---- C33 ---- *)
Lemma okobs_view m o pv : okobs m o -> exists v, view1 m o v /\ val_psf v = pv.
Proof.
  intros [(im & w & A & B & _) (j & D & _) Hopt _ _ Hm].
  destruct (nth_error (m_metas m) (ob_meta o)) as [d|] eqn:Ed; [|apply nth_error_None in Ed; lia].
  exists (OV im w j (fun s => match ob_opt o s with None => None | Some a => content_at m a end) (ob_gmix o) d (ob_store o) (ob_ign o) pv).
  split; [|reflexivity]. split; [auto|]. split; [auto|]. split; [auto|]. split; [|auto].
  intros s. specialize (Hopt s). destruct (ob_opt o s) as [a|]; auto. destruct (Hopt a eq_refl) as (c & Hc). eauto.
Qed.
(** values do not depend on objects created later *)
Lemma reads_before m m' i v : good false m -> grow m m' -> reads m' i v -> (i < length (m_obs m))%nat -> reads m i v.
Proof.
  intros G L H. revert G. induction H using reads_ind; intros Gd Li.
  - assert (N : nth_error (m_obs m) i = Some o).
    { destruct (nth_error (m_obs m) i) as [o1|] eqn:E; [|apply nth_error_None in E; lia].
      rewrite (grow_obs _ _ _ _ L E) in H. congruence. }
    pose proof (good_ok _ _ _ _ Gd N) as Ok1. destruct (okobs_view m o (Some pv) Ok1) as (v & V1 & V2).
    destruct v as [im' w' j' opts' g' d' st' ig' p']. cbn in V2. subst p'.
    pose proof (keeps_view1 _ _ _ _ L V1) as V1'. destruct V1 as (A1 & A2 & A3 & A4 & A5 & A6 & A7 & A8).
    destruct V1' as (B1 & B2 & B3 & B4 & B5 & B6 & B7 & B8).
    rewrite H0 in B1. rewrite H1 in B2. rewrite H2 in B3. rewrite H4 in B6. injection B1 as <-. injection B2 as <-. injection B3 as <-. injection B6 as <-.
    eapply Reads; eauto.
    + intros s. specialize (A4 s). specialize (B4 s). specialize (H3 s). destruct (ob_opt o s) as [a|]; auto.
      destruct H3 as (c & H3a & H3b), A4 as (c2 & A4a & A4b), B4 as (c3 & B4a & B4b). exists c. split; [congruence|auto].
    + apply IHreads; auto. apply (ok_psf _ _ Ok1 _ H5).
  - assert (N : nth_error (m_obs m) i = Some o).
    { destruct (nth_error (m_obs m) i) as [o1|] eqn:E; [|apply nth_error_None in E; lia].
      rewrite (grow_obs _ _ _ _ L E) in H. congruence. }
    pose proof (good_ok _ _ _ _ Gd N) as Ok1. destruct (okobs_view m o None Ok1) as (v & V1 & V2).
    destruct v as [im' w' j' opts' g' d' st' ig' p']. cbn in V2. subst p'.
    pose proof (keeps_view1 _ _ _ _ L V1) as V1'. destruct V1 as (A1 & A2 & A3 & A4 & A5 & A6 & A7 & A8).
    destruct V1' as (B1 & B2 & B3 & B4 & B5 & B6 & B7 & B8).
    rewrite H0 in B1. rewrite H1 in B2. rewrite H2 in B3. rewrite H4 in B6. injection B1 as <-. injection B2 as <-. injection B3 as <-. injection B6 as <-.
    eapply ReadsNoPsf; eauto.
    intros s. specialize (A4 s). specialize (B4 s). specialize (H3 s). destruct (ob_opt o s) as [a|]; auto.
    destruct H3 as (c & H3a & H3b), A4 as (c2 & A4a & A4b), B4 as (c3 & B4a & B4b). exists c. split; [congruence|auto].
Qed.
Ltac ab := eapply alloc_bind; [keep3 | | cbv beta; intros].
(** an observation that can be copied has a value *)
Lemma copy_exists depth : forall P i, keeps P -> alloc false P (copy_obs depth i) (fun _ m => exists v, reads m i v).
Proof.
  induction depth as [|depth IH]; intros P i KP; [apply alloc_fail|].
  cbn [copy_obs]. ab; [apply alloc_get_obs'|]. rename a into o.
  do 3 (ab; [apply alloc_copy_opt|]).
  ab. { instantiate (1 := fun _ _ => True). destruct (ob_gmix o); [|apply alloc_ret; auto]. ab; [apply alloc_lift|]. apply alloc_ret; auto. }
  ab.
  { instantiate (1 := fun _ m => match ob_psf o with None => True | Some p => exists v, reads m p v end).
    destruct (ob_psf o) as [p|]; [|apply alloc_ret; auto]. ab; [apply IH; keep3|]. apply alloc_ret. intros m H. apply H. }
  assert (Kp : keeps (fun m => match ob_psf o with None => True | Some p => exists v, reads m p v end)) by (destruct (ob_psf o); keep3).
  ab; [apply alloc_copy_opt|]. ab; [apply alloc_get_meta|]. ab; [apply alloc_new_meta|].
  ab; [apply alloc_copy_view|]. ab; [apply alloc_copy_view|]. ab; [apply alloc_contents|].
  match goal with x : content |- _ => destruct x as [?|jj|? ?]; try apply alloc_fail end.
  intros m m' r I H E.
  destruct (alloc_new_obs false (fun _ => True) _ _ _ _ _ _ _ _ _ _ _ _ _ m m' r I Logic.I E) as (G1 & G2 & G3).
  split; [auto|split; [auto|]]. intros x Hx.
  assert (N : nth_error (m_obs m) i = Some o) by tauto.
  assert (Pv : match ob_psf o with None => True | Some p => exists v, reads m p v end) by tauto.
  enough (exists v, reads m i v) as [v Hv] by (exists v; apply (keeps_reads i v m m' G2); auto).
  destruct (ob_psf o) as [p|] eqn:Ep.
  - destruct Pv as (pv & Pv). destruct (okobs_view m o (Some pv) (good_ok _ _ _ _ I N)) as (v & V1 & V2).
    exists v. eapply reads_intro; eauto. rewrite Ep. eauto.
  - destruct (okobs_view m o None (good_ok _ _ _ _ I N)) as (v & V1 & V2).
    exists v. eapply reads_intro; eauto. rewrite Ep. eauto.
Qed.
Theorem copy_equal p i m' i' : let m := exec empty_mem p in
  step (CopyObs i) m = (m', Ok i') ->
  exists v, reads m i v /\ reads m' i' v /\ forall k u, reads m k u -> reads m' k u.
Proof.
  intros m E. cbn [step] in E. pose proof (reach_good p) as G. fold m in G.
  destruct (copy_exists _ (fun _ => True) i ltac:(apply keeps_pure) _ _ _ G Logic.I E) as (_ & L & H).
  destruct (H i' eq_refl) as (v & Hv).
  assert (Rv : reads m i v).
  { apply (reads_before m m' i v G L Hv). destruct (length (m_obs m)) eqn:El; [discriminate|]. cbn [copy_obs] in E.
    unfold bindM at 1, get_obs in E. destruct (nth_error (m_obs m) i) eqn:N; [|discriminate].
    rewrite <- El. apply nth_error_Some. congruence. }
  exists v. split; [auto|]. split.
  - destruct (alloc_copy_obs false _ (fun u => u = v) i _ _ _ G ltac:(intros u ->; exact Rv) E) as (_ & _ & Hc).
    destruct (Hc i' eq_refl) as (o & _ & _ & _ & Hr). auto.
  - intros k u Hk. apply (keeps_reads k u m m' L Hk).
Qed.
(** a new index, and nothing that existed refers to the new objects or vice versa *)
Lemma avoid_old m x : only_later_objects m x -> avoids (zold m) x.
Proof.
  intros (A & B & C). rewrite Forall_forall in A, B, C.
  split; [|split]; intros a H; cbn [za zb zm zo zold]; apply Nat.ltb_ge; auto.
Qed.
Lemma avoid_new m m' x : no_object_between m m' x -> avoids (znew m m') x.
Proof.
  assert (K : forall a b c, (c < a \/ b <= c)%nat -> negb (Nat.ltb c a) && Nat.ltb c b = false).
  { intros a b c [H|H]; [apply Nat.ltb_lt in H; rewrite H; auto|apply Nat.ltb_ge in H; rewrite H; apply andb_false_r]. }
  intros (A & B & C). rewrite Forall_forall in A, B, C.
  split; [|split]; intros a H; cbn [za zb zm zo znew]; apply K; auto.
Qed.
Lemma Forall_weaken {A} (P Q : A -> Prop) l : (forall x, P x -> Q x) -> Forall P l -> Forall Q l.
Proof. intros H F. eapply Forall_impl; eauto. Qed.
Theorem copy_independent p i m' i' : let m := exec empty_mem p in
  step (CopyObs i) m = (m', Ok i') ->
  (forall q, Forall (only_later_objects m) q -> forall k v, reads m k v -> reads (exec m' q) k v) /\
  (forall q, Forall (no_object_between m m') q -> forall v, reads m' i' v -> reads (exec m' q) i' v).
Proof.
  intros m E. cbn [step] in E. pose proof (inv_zold m (reach_inv p)) as I.
  destruct (safe_copy_obs (zold m) _ (fun _ => True) i _ _ _ I Logic.I E) as (I' & L & F).
  pose proof (reach_good p) as G. fold m in G.
  destruct (copy_exists _ (fun _ => True) i ltac:(apply keeps_pure) _ _ _ G Logic.I E) as (_ & Lg & _).
  split.
  - intros q Hq k v Hv. destruct (exec_safe (zold m) q m' I' (Forall_weaken _ _ _ (avoid_old m) Hq)) as [_ L2].
    eapply frame_reads; [exact I'|exact L2|apply (keeps_reads k v m m' Lg Hv)|].
    cbn [zo zold]. apply Nat.ltb_lt. destruct Hv; apply nth_error_Some; congruence.
  - intros q Hq v Hv. pose proof (inv_znew m m' I') as I2.
    destruct (exec_safe (znew m m') q m' I2 (Forall_weaken _ _ _ (avoid_new m m') Hq)) as [_ L2].
    eapply frame_reads; [exact I2|exact L2|exact Hv|].
    specialize (F i' eq_refl). unfold freeO in F. cbn [zo zold znew] in *.
    apply andb_true_iff. split; [destruct F as [_ F]; rewrite F; auto|].
    apply Nat.ltb_lt. destruct Hv; apply nth_error_Some; congruence.
Qed.

(** ---- C34 ---- *)
Theorem converted_snapshot p image w bm om no j g mf st ig m' i : let m := exec empty_mem p in
  converted w -> converted bm -> converted om -> converted no -> converted mf ->
  step (NewObs image true w bm om no j g PNone DNone mf st ig) m = (m', Ok i) ->
  forall q, Forall (no_object_between m m') q -> forall v, reads m' i v -> reads (exec m' q) i v.
Proof.
  intros m Hw Hbm Hom Hno Hmf E q Hq v Hv. cbn [step] in E. pose proof (inv_zold m (reach_inv p)) as I.
  assert (K : forall x, converted x -> okarg (zold m) x).
  { intros x Hx a cv ->. left. exact Hx. }
  destruct (safe_new_obs (zold m) (fun _ => True) image true w bm om no j g PNone DNone mf st ig
    (or_introl eq_refl) (K _ Hw) (K _ Hbm) (K _ Hom) (K _ Hno) (K _ Hmf) ltac:(intros a []) ltac:(intros a []) _ _ _ I Logic.I E) as (I' & L & F).
  pose proof (inv_znew m m' I') as I2.
  destruct (exec_safe (znew m m') q m' I2 (Forall_weaken _ _ _ (avoid_new m m') Hq)) as [_ L2].
  eapply frame_reads; [exact I2|exact L2|exact Hv|].
  specialize (F i eq_refl). unfold freeO in F. cbn [zo zold znew] in *.
  apply andb_true_iff. split; [destruct F as [_ F]; rewrite F; auto|].
  apply Nat.ltb_lt. destruct Hv; apply nth_error_Some; congruence.
Qed.

(** ---- C35 ---- *)
Ltac cbind := eapply clean_bind; [keep3 | | | cbv beta; intros].
Lemma clean_unit P x : clean false P x -> clean false P (unit_ x).
Proof.
  intros H m m' e I Pm E NE. unfold unit_ in E. apply bindM_inv in E. destruct E as [(e1 & E & X)|(m1 & u & E & E2)].
  - injection X as <-. apply (H _ _ _ I Pm E NE).
  - discriminate.
Qed.
(** the observation is looked up first *)
Lemma clean_get_obs {A} i (f : obs -> M A) (W : obs -> Prop) :
  (forall o, W o -> clean false (fun m => nth_error (m_obs m) i = Some o /\ okobs m o) (f o)) ->
  forall m m' e, good false m -> (forall o, nth_error (m_obs m) i = Some o -> W o) ->
    bindM (get_obs i) f m = (m', Raise e) -> e <> GMixFatalError -> grow m m' /\ m_obs m' = m_obs m.
Proof.
  intros H m m' e G HW E NE. unfold bindM, get_obs in E. destruct (nth_error (m_obs m) i) as [o|] eqn:N.
  - apply (H o (HW o eq_refl) m m' e G (conj N (good_ok _ _ _ _ G N)) E NE).
  - injection E as <- <-. split; [apply grow_refl|auto].
Qed.
Lemma grow_unchanged m m' : grow m m' -> m_obs m' = m_obs m -> unchanged m m'.
Proof.
  intros G E. split; [auto|split].
  - intros a c. apply grow_content; auto.
  - intros d x. apply grow_meta; auto.
Qed.
Theorem failed_setter p x i e m' : let m := exec empty_mem p in
  checked_setter x i -> (forall o, nth_error (m_obs m) i = Some o -> ob_wr o = false) ->
  step x m = (m', Raise e) -> e <> GMixFatalError -> unchanged m m'.
Proof.
  intros m C W E NE. pose proof (reach_good p) as G. fold m in G.
  enough (grow m m' /\ m_obs m' = m_obs m) as [A B] by (apply grow_unchanged; auto).
  destruct x; cbn [checked_setter step] in *; try contradiction; subst;
    unfold unit_ in E; apply bindM_inv in E; destruct E as [(e1 & E & X)|(m1 & u & E & E2)]; try discriminate; injection X as <-.
  - unfold set_image in E. refine (clean_get_obs i _ (fun o => ob_wr o = false) _ _ _ _ G W E NE). intros o Wo.
    cbind; [apply alloc_ascontig|apply quiet_ascontig|]. cbind; [apply alloc_shape2|apply quiet_shape2|].
    cbind; [apply alloc_shape2|apply quiet_shape2|]. cbind; [apply alloc_assert|apply quiet_assert|].
    eapply clean_conseq; [eapply clean_put_update; exact Wo|]. cbv beta. intros m0 H.
    destruct H as (((((N & O) & c & H1 & H2) & im & H3 & ->) & im0 & H4 & ->) & H5).
    split; [exact N|]. apply shape_eqb_true in H5. eapply ok_with_image; eauto.
  - unfold set_weight in E. refine (clean_get_obs i _ (fun o => ob_wr o = false) _ _ _ _ G W E NE). intros o Wo.
    cbind; [apply alloc_view_check|apply quiet_view_check|]. cbind; [apply alloc_shape2|apply quiet_shape2|].
    cbind; [apply alloc_weight_value|apply quiet_weight_value|].
    eapply clean_conseq; [eapply clean_put_update; exact Wo|]. cbv beta. intros m0 H.
    destruct H as ((((N & O) & _) & im & H3 & ->) & H4). split; [exact N|]. eapply ok_with_weight; eauto.
  - unfold set_opt in E. refine (clean_get_obs i _ (fun o => ob_wr o = false) _ _ _ _ G W E NE). intros o Wo.
    cbind. { instantiate (1 := fun _ _ => True). destruct w; [apply alloc_ret; auto|apply alloc_view_check]. }
    { destruct w; [apply quiet_ret|apply quiet_view_check]. }
    cbind; [apply alloc_shape2|apply quiet_shape2|]. cbind; [apply alloc_opt_value|apply quiet_opt_value|]. apply clean_put.
  - unfold set_jacobian in E. refine (clean_get_obs i _ (fun o => ob_wr o = false) _ _ _ _ G W E NE). intros o Wo.
    cbind. { instantiate (1 := fun _ _ => True). destruct j; [apply alloc_view_check| |]; apply alloc_ret; auto. }
    { destruct j; [apply quiet_view_check|apply quiet_ret|apply quiet_ret]. }
    cbind; [apply alloc_shape2|apply quiet_shape2|]. cbind; [apply alloc_jac_value|apply quiet_jac_value|].
    eapply clean_conseq; [eapply clean_put_update; exact Wo|]. cbv beta. intros m0 H.
    destruct H as ((((N & O) & _) & im & H3 & ->) & H4). split; [exact N|]. eapply ok_with_jac; eauto.
  - unfold set_meta in E. refine (clean_get_obs i _ (fun o => ob_wr o = false) _ _ _ _ G W E NE). intros o Wo.
    cbind; [apply alloc_meta_value|apply quiet_meta_value|]. apply clean_put.
  - unfold update_meta in E. refine (clean_get_obs i _ (fun o => ob_wr o = false) _ _ _ _ G W E NE). intros o Wo.
    destruct d as [d|].
    + cbind; [apply alloc_get_meta|apply quiet_get_meta|]. intros ? ? ? ? ? X _. discriminate X.
    + intros m0 m1 e0 _ _ X _. injection X as <- <-. split; [apply grow_refl|auto].
Qed.

(** set_psf and set_gmix delete the old value first *)
Theorem failed_psf m i x e m' o : nth_error (m_obs m) i = Some o -> step (SetPsf i x) m = (m', Raise e) ->
  m' = mkMem (m_bufs m) (m_arrs m) (m_metas m) (upd (m_obs m) i (with_psf o None)).
Proof.
  intros N E. cbn [step] in E. unfold unit_ in E. apply bindM_inv in E. destruct E as [(e1 & E & X)|(m1 & u & E & E2)]; [|discriminate].
  injection X as <-. unfold set_psf, bindM, get_obs in E. rewrite N in E. cbn [put_obs] in E. unfold put_obs in E.
  destruct x; cbn in E.
  - discriminate.
  - unfold bindM, get_obs in E. cbn in E. match type of E with context[nth_error ?a ?b] => destruct (nth_error a b) end; [discriminate|]. injection E as <- <-. reflexivity.
  - injection E as <- <-. reflexivity.
Qed.
Theorem failed_gmix m i x e m' o : nth_error (m_obs m) i = Some o -> step (SetGmix i x) m = (m', Raise e) ->
  m' = mkMem (m_bufs m) (m_arrs m) (m_metas m) (upd (m_obs m) i (with_gmix o None)).
Proof.
  intros N E. cbn [step] in E. unfold unit_ in E. apply bindM_inv in E. destruct E as [(e1 & E & X)|(m1 & u & E & E2)]; [|discriminate].
  injection X as <-. unfold set_gmix, bindM, get_obs in E. rewrite N in E. unfold put_obs in E.
  destruct x; cbn [gmix_value] in E.
  - discriminate.
  - unfold bindM, lift in E. destruct (gm_copy g); [discriminate|]. injection E as <- <-. reflexivity.
  - injection E as <- <-. reflexivity.
Qed.
Theorem failed_absent m i x e m' o : nth_error (m_obs m) i = Some o ->
  ((exists q, x = SetPsf i q) /\ ob_psf o = None) \/ ((exists q, x = SetGmix i q) /\ ob_gmix o = None) ->
  step x m = (m', Raise e) -> m' = m.
Proof.
  intros N [[(q & ->) H]|[(q & ->) H]] E; [rewrite (failed_psf _ _ _ _ _ _ N E)|rewrite (failed_gmix _ _ _ _ _ _ N E)];
    [unfold with_psf; rewrite <- H|unfold with_gmix; rewrite <- H]; destruct o; cbn; rewrite (upd_same _ _ _ N); destruct m; reflexivity.
Qed.
