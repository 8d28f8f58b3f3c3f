From Verif Require Import Base Jacobian_Model Jacobian_Spec Pixels_Model Pixels_Spec Pixels_Proofs Obs_Model Obs_Spec ObsZone_Proofs.
From Verif Require GMixObj_Model.

(** ---- copies are fixpoints of copying ---- *)
Lemma jac_copy_fix j j' : Jacobian_copy j = Ok j' -> Jacobian_copy j' = Ok j'.
Proof. unfold Jacobian_copy, Jacobian_init; cbn. intros [= <-]. cbn. reflexivity. Qed.
Lemma unit_fix r c j : UnitJacobian_init (mkKw None None (Some r) (Some c) None None None None None None None None None) = Ok j ->
  Jacobian_copy j = Ok j.
Proof. unfold UnitJacobian_init, DiagonalJacobian_init, Jacobian_init; cbn. intros [= <-]. reflexivity. Qed.
Lemma jac_write_fix j r c : Jacobian_copy j = Ok j -> Jacobian_copy (set_col0 (set_row0 j r) c) = Ok (set_col0 (set_row0 j r) c).
Proof.
  destruct j as [r0 c0 a b d e det sc]. unfold Jacobian_copy, Jacobian_init; cbn. intros [= H1 H2]. unfold set_row0, set_col0, finish_init; cbn.
  rewrite H2, H1. reflexivity.
Qed.
Lemma jac_copy_ok j : exists j', Jacobian_copy j = Ok j'.
Proof. unfold Jacobian_copy, Jacobian_init; cbn. eauto. Qed.

Module G := GMixObj_Model.
Lemma finish_kind k n np pars c : G.finish (G.obj__fill (G.blank k n np) pars) = Ok c -> G.o_kind c = k /\ G.o_pars c = pars.
Proof.
  unfold G.finish, G.obj__fill. cbn. destruct (G.fill_func k n pars); cbn; [|discriminate]. intros [= <-]. auto.
Qed.
Lemma finish_kind' k n np pars c : G.finish (G.obj_fill (G.blank k n np) pars) = Ok c -> G.o_kind c = k /\ G.o_pars c = pars.
Proof.
  unfold G.obj_fill. destruct (negb _); [discriminate|]. apply finish_kind.
Qed.
Lemma gm_copy_fix g c : gm_copy g = Ok c -> gm_copy c = Ok c.
Proof.
  unfold gm_copy, G.obj_copy. destruct (G.o_kind g) as [|mm|f t tf|] eqn:K.
  - intros [= <-]. reflexivity.
  - intros H. assert (G.o_kind c = G.KModel mm /\ G.o_pars c = G.o_pars g) as [-> ->]; [|exact H].
    destruct mm; cbn in H; try discriminate; apply finish_kind' in H; exact H.
  - intros H. unfold G.new_cm in *. destruct (GMix_Model.get_cm_Tfactor f t) eqn:T; cbn [bind] in H; [|discriminate].
    destruct (finish_kind' _ _ _ _ _ H) as [-> ->]. rewrite T; cbn [bind]. exact H.
  - intros H. unfold G.new_coellip in *. destruct (negb _) eqn:N; [discriminate|]. destruct (Nat.ltb _ 4) eqn:N2; [discriminate|].
    destruct (finish_kind _ _ _ _ _ H) as [-> ->]. rewrite N, N2. exact H.
Qed.

(** ---- memory that only grows ---- *)
Record grow (m m' : mem) : Prop := mkGrow {
  gr_b : exists x, m_bufs m' = m_bufs m ++ x;
  gr_a : exists x, m_arrs m' = m_arrs m ++ x;
  gr_m : exists x, m_metas m' = m_metas m ++ x;
  gr_o : exists x, m_obs m' = m_obs m ++ x }.
Lemma grow_refl m : grow m m.
Proof. split; exists []; rewrite app_nil_r; auto. Qed.
Lemma grow_trans a b c : grow a b -> grow b c -> grow a c.
Proof.
  intros [[b1 B1] [a1 A1] [m1 M1] [o1 O1]] [[b2 B2] [a2 A2] [m2 M2] [o2 O2]].
  split; eexists; [rewrite B2, B1|rewrite A2, A1|rewrite M2, M1|rewrite O2, O1]; rewrite <- app_assoc; reflexivity.
Qed.
Lemma nth_app_some {A} (l x : list A) i y : nth_error l i = Some y -> nth_error (l ++ x) i = Some y.
Proof. intros H. rewrite nth_error_app1; auto. apply nth_error_Some. congruence. Qed.
Lemma grow_content m m' a c : grow m m' -> content_at m a = Some c -> content_at m' a = Some c.
Proof.
  intros [[b B] [x A] _ _]. unfold content_at. rewrite A, B. destruct (nth_error (m_arrs m) a) eqn:N; [|discriminate].
  rewrite (nth_app_some _ _ _ _ N). destruct (nth_error (m_bufs m) (a_buf a0)) eqn:N2; [|discriminate].
  rewrite (nth_app_some _ _ _ _ N2). auto.
Qed.
Lemma grow_obs m m' i o : grow m m' -> nth_error (m_obs m) i = Some o -> nth_error (m_obs m') i = Some o.
Proof. intros [_ _ _ [x X]] H. rewrite X. apply nth_app_some; auto. Qed.
Lemma grow_meta m m' i o : grow m m' -> nth_error (m_metas m) i = Some o -> nth_error (m_metas m') i = Some o.
Proof. intros [_ _ [x X] _] H. rewrite X. apply nth_app_some; auto. Qed.
Lemma grow_len_o m m' : grow m m' -> (length (m_obs m) <= length (m_obs m'))%nat.
Proof. intros [_ _ _ [x X]]. rewrite X, app_length. lia. Qed.
Lemma grow_len_m m m' : grow m m' -> (length (m_metas m) <= length (m_metas m'))%nat.
Proof. intros [_ _ [x X] _]. rewrite X, app_length. lia. Qed.
Lemma grow_match m m' o : grow m m' -> pixels_match m o -> pixels_match m' o.
Proof.
  intros G. unfold pixels_match. destruct (ob_store o); auto.
  intros (im & w & j & l & H1 & H2 & H3 & H4 & H5). exists im, w, j, l.
  repeat split; auto; eapply grow_content; eauto.
Qed.

(** ---- the invariant ---- *)
Definition same_shape (a b : arr2 R) : Prop := nrow a = nrow b /\ ncol a = ncol b.
Record okobs (m : mem) (o : obs) : Prop := mkOkobs {
  ok_img : exists im w, content_at m (ob_image o) = Some (C2 im) /\ content_at m (ob_weight o) = Some (C2 w) /\ same_shape w im;
  ok_jac : exists j, content_at m (ob_jac o) = Some (CJ j) /\ Jacobian_copy j = Ok j;
  ok_opt : forall s a, ob_opt o s = Some a -> exists im, content_at m a = Some (C2 im);
  ok_gmix : forall g, ob_gmix o = Some g -> gm_copy g = Ok g;
  ok_psf : forall p, ob_psf o = Some p -> (p < length (m_obs m))%nat;
  ok_meta : (ob_meta o < length (m_metas m))%nat }.
Lemma grow_okobs m m' o : grow m m' -> okobs m o -> okobs m' o.
Proof.
  intros G []. split.
  - destruct ok_img0 as (im & w & A & B & C). exists im, w. repeat split; try apply C; eapply grow_content; eauto.
  - destruct ok_jac0 as (j & A & B). exists j. split; auto. eapply grow_content; eauto.
  - intros s a H. destruct (ok_opt0 s a H) as (im & A). exists im. eapply grow_content; eauto.
  - auto.
  - intros p H. specialize (ok_psf0 p H). pose proof (grow_len_o _ _ G). lia.
  - pose proof (grow_len_m _ _ G). lia.
Qed.
Section Strict.
(** strict: the pixels of observations outside writeable() blocks match as well *)
Variable strict : bool.
Definition good (m : mem) : Prop :=
  forall i o, nth_error (m_obs m) i = Some o -> okobs m o /\ (strict = true -> ob_wr o = false -> pixels_match m o).
Lemma good_same_obs m m' : grow m m' -> m_obs m' = m_obs m -> good m -> good m'.
Proof.
  intros G E H i o N. rewrite E in N. destruct (H i o N) as [A B]. split; [eapply grow_okobs; eauto|].
  intros S W. eapply grow_match; eauto.
Qed.

(** ---- correctness triples for computations that only allocate ---- *)
Definition alloc {A} (P : mem -> Prop) (x : M A) (Q : A -> mem -> Prop) : Prop :=
  forall m m' r, good m -> P m -> x m = (m', r) -> good m' /\ grow m m' /\ (forall a, r = Ok a -> Q a m').
Definition keeps (P : mem -> Prop) : Prop := forall m m', grow m m' -> P m -> P m'.

Lemma alloc_bind {A B} P Q R (x : M A) (f : A -> M B) : keeps P -> alloc P x Q ->
  (forall a, alloc (fun m => P m /\ Q a m) (f a) R) -> alloc P (bindM x f) R.
Proof.
  intros SP Hx Hf m m' r I Pm E. apply bindM_inv in E. destruct E as [(e & E & ->)|(m1 & a & E & E2)].
  - destruct (Hx _ _ _ I Pm E) as (I' & L & _). split; [auto|split; [auto|discriminate]].
  - destruct (Hx _ _ _ I Pm E) as (I' & L & Q1).
    destruct (Hf a m1 m' r I' (conj (SP _ _ L Pm) (Q1 a eq_refl)) E2) as (I2 & L2 & R2).
    split; [auto|split; [eapply grow_trans; eauto | auto]].
Qed.
Lemma alloc_conseq {A} (P P' : mem -> Prop) (x : M A) (Q Q' : A -> mem -> Prop) :
  alloc P x Q -> (forall m, P' m -> P m) -> (forall a m, Q a m -> Q' a m) -> alloc P' x Q'.
Proof. intros H HP HQ m m' r I Pm E. destruct (H m m' r I (HP _ Pm) E) as (a & b & c). auto. Qed.
Lemma alloc_ret {A} (P : mem -> Prop) (a : A) (Q : A -> mem -> Prop) : (forall m, P m -> Q a m) -> alloc P (ret a) Q.
Proof. intros H m m' r I Pm E. injection E as <- <-. split; [auto|split; [apply grow_refl|]]. intros x [= <-]. auto. Qed.
Lemma alloc_fail {A} P e (Q : A -> mem -> Prop) : alloc P (fail e) Q.
Proof. intros m m' r I Pm E. injection E as <- <-. split; [auto|split; [apply grow_refl|discriminate]]. Qed.
Lemma alloc_lift {A} P (x : res A) : alloc P (lift x) (fun a _ => x = Ok a).
Proof. intros m m' r I Pm E. injection E as <- <-. split; [auto|split; [apply grow_refl|auto]]. Qed.
Lemma alloc_assert P b e : alloc P (assert b e) (fun _ _ => b = true).
Proof. destruct b; [apply alloc_ret; auto | apply alloc_fail]. Qed.
Lemma alloc_get_obs P i : alloc P (get_obs i) (fun o m => nth_error (m_obs m) i = Some o).
Proof.
  intros m m' r I Pm E. unfold get_obs in E. destruct (nth_error (m_obs m) i) eqn:N; injection E as <- <-;
    (split; [auto|split; [apply grow_refl|]]); intros a [= <-]; auto.
Qed.
Lemma alloc_get_meta P i : alloc P (get_meta i) (fun o m => nth_error (m_metas m) i = Some o).
Proof.
  intros m m' r I Pm E. unfold get_meta in E. destruct (nth_error (m_metas m) i) eqn:N; injection E as <- <-;
    (split; [auto|split; [apply grow_refl|]]); intros a [= <-]; auto.
Qed.
Lemma contents_eq a m : contents a m = (m, match content_at m a with Some c => Ok c | None => Raise OtherError end).
Proof.
  unfold contents, bindM, get_arr, get_buf, ret, content_at. destruct (nth_error (m_arrs m) a); auto.
  destruct (nth_error (m_bufs m) (a_buf a0)); auto.
Qed.
Lemma alloc_contents P a : alloc P (contents a) (fun c m => content_at m a = Some c).
Proof.
  intros m m' r I Pm E. rewrite contents_eq in E. injection E as <- <-.
  split; [auto|split; [apply grow_refl|]]. intros c. destruct (content_at m a); [intros [= <-]; auto|discriminate].
Qed.
Lemma alloc_new_arr P c w : alloc P (new_arr c w) (fun a m => content_at m a = Some c).
Proof.
  intros m m' r I Pm E. injection E as <- <-.
  assert (G : grow m (mkMem (m_bufs m ++ [mkBuf c w]) (m_arrs m ++ [mkAr (length (m_bufs m)) w]) (m_metas m) (m_obs m))).
  { split; cbn; eexists; try reflexivity; instantiate (1 := []); rewrite app_nil_r; auto. }
  split; [eapply good_same_obs; eauto|]. split; [auto|]. intros a [= <-]. unfold content_at; cbn.
  rewrite nth_error_app2, Nat.sub_diag by lia. cbn. rewrite nth_error_app2, Nat.sub_diag by lia. reflexivity.
Qed.
Lemma alloc_new_meta P d : alloc P (new_meta d) (fun a m => nth_error (m_metas m) a = Some d).
Proof.
  intros m m' r I Pm E. injection E as <- <-.
  assert (G : grow m (mkMem (m_bufs m) (m_arrs m) (m_metas m ++ [d]) (m_obs m))).
  { split; cbn; eexists; try reflexivity; instantiate (1 := []); rewrite app_nil_r; auto. }
  split; [eapply good_same_obs; eauto|]. split; [auto|]. intros a [= <-]. cbn.
  rewrite nth_error_app2, Nat.sub_diag by lia. reflexivity.
Qed.
Lemma alloc_push_obs o : alloc (fun m => okobs m o /\ pixels_match m o) (push_obs o) (fun i m => nth_error (m_obs m) i = Some o).
Proof.
  intros m m' r I [O1 O2] E. injection E as <- <-.
  assert (G : grow m (mkMem (m_bufs m) (m_arrs m) (m_metas m) (m_obs m ++ [o]))).
  { split; cbn; eexists; try reflexivity; instantiate (1 := []); rewrite app_nil_r; auto. }
  split; [|split; auto].
  - intros i x N; cbn in N. destruct (Nat.lt_ge_cases i (length (m_obs m))).
    + rewrite nth_error_app1 in N by auto. destruct (I i x N) as [A B]. split; [eapply grow_okobs; eauto|].
      intros. eapply grow_match; eauto.
    + rewrite nth_error_app2 in N by auto. destruct (i - length (m_obs m))%nat as [|[|n]]; cbn in N; try discriminate.
      injection N as <-. split; [eapply grow_okobs; eauto|]. intros. eapply grow_match; eauto.
  - intros i [= <-]. cbn. rewrite nth_error_app2, Nat.sub_diag by lia. reflexivity.
Qed.

Lemma keeps_pure (P : Prop) : keeps (fun _ => P). Proof. intros m m' _ H; exact H. Qed.
Lemma keeps_and P Q : keeps P -> keeps Q -> keeps (fun m => P m /\ Q m).
Proof. intros HP HQ m m' L [A B]. split; [apply (HP _ _ L A) | apply (HQ _ _ L B)]. Qed.
Lemma keeps_ex {A} (P : A -> mem -> Prop) : (forall a, keeps (P a)) -> keeps (fun m => exists a, P a m).
Proof. intros H m m' L [a X]. exists a. apply (H a _ _ L X). Qed.
Lemma keeps_all {A} (P : A -> mem -> Prop) : (forall a, keeps (P a)) -> keeps (fun m => forall a, P a m).
Proof. intros H m m' L X a. apply (H a _ _ L (X a)). Qed.
Lemma keeps_imp (Q : Prop) P : keeps P -> keeps (fun m => Q -> P m).
Proof. intros H m m' L X q. apply (H m m' L). auto. Qed.
Lemma keeps_content a c : keeps (fun m => content_at m a = Some c).
Proof. intros m m' G. apply grow_content; auto. Qed.
Lemma keeps_nth_obs a c : keeps (fun m => nth_error (m_obs m) a = Some c).
Proof. intros m m' G. apply grow_obs; auto. Qed.
Lemma keeps_nth_meta a c : keeps (fun m => nth_error (m_metas m) a = Some c).
Proof. intros m m' G. apply grow_meta; auto. Qed.
Lemma keeps_lto n : keeps (fun m => (n < length (m_obs m))%nat).
Proof. intros m m' G H. pose proof (grow_len_o _ _ G). lia. Qed.
Lemma keeps_ltm n : keeps (fun m => (n < length (m_metas m))%nat).
Proof. intros m m' G H. pose proof (grow_len_m _ _ G). lia. Qed.
Lemma keeps_okobs o : keeps (fun m => okobs m o). Proof. intros m m' G. apply grow_okobs; auto. Qed.
Lemma keeps_match o : keeps (fun m => pixels_match m o). Proof. intros m m' G. apply grow_match; auto. Qed.
Ltac keep := cbv beta; repeat first
  [ apply keeps_pure | apply keeps_content | apply keeps_nth_obs | apply keeps_nth_meta | apply keeps_lto | apply keeps_ltm
  | apply keeps_okobs | apply keeps_match
  | apply keeps_and | apply keeps_ex; intro | apply keeps_imp | apply keeps_all; intro ].
Ltac abind := eapply alloc_bind; [keep | | cbv beta; intros].
Ltac start P := eapply (alloc_conseq (fun _ => True) P); [| auto | intros ? ? H__; exact H__].

Lemma alloc_ascontig P a cv : alloc P (ascontig a cv) (fun x m => exists c, content_at m a = Some c /\ content_at m x = Some c).
Proof.
  start P. unfold ascontig. abind; [apply alloc_contents|]. destruct cv.
  - intros m m' r I [_ H] E. destruct (alloc_new_arr (fun _ => True) a0 true m m' r I Logic.I E) as (A & B & C).
    split; [auto|split; [auto|]]. intros x Hx. exists a0. split; auto. eapply grow_content; eauto.
  - apply alloc_ret. intros m [_ H]. eauto.
Qed.
Lemma alloc_shape2 P a : alloc P (shape2 a) (fun sh m => exists im, content_at m a = Some (C2 im) /\ sh = (nrow im, ncol im)).
Proof.
  start P. unfold shape2. abind; [apply alloc_contents|]. destruct a0; try apply alloc_fail. apply alloc_ret. intros m [_ H]. eauto.
Qed.
Lemma view_check_mem a wr m m' r : view_check a wr m = (m', r) -> m' = m.
Proof.
  unfold view_check, bindM, get_arr, get_buf, assert, ret, fail. destruct (nth_error (m_arrs m) a); [|congruence].
  destruct (nth_error (m_bufs m) (a_buf a0)); [|congruence]. destruct (_ || _); congruence.
Qed.
Lemma alloc_view_check P a wr : alloc P (view_check a wr) (fun _ _ => True).
Proof. intros m m' r I Pm E. apply view_check_mem in E as ->. split; [auto|split; [apply grow_refl|auto]]. Qed.
Lemma shape_eqb_true a b : shape_eqb a b = true -> a = b.
Proof. destruct a, b. unfold shape_eqb; cbn. rewrite andb_true_iff, !Nat.eqb_eq. intros [-> ->]; auto. Qed.
Definition arr_is (m : mem) (sh : nat * nat) (w : arg_arr) (x : nat) : Prop :=
  exists im, content_at m x = Some (C2 im) /\ (nrow im, ncol im) = sh /\
    (forall a cv, w = AArr a cv -> content_at m a = Some (C2 im)).
Lemma keeps_arr_is sh w x : keeps (fun m => arr_is m sh w x). Proof. unfold arr_is. keep. Qed.
Ltac keep1 := cbv beta; repeat first
  [ apply keeps_pure | apply keeps_content | apply keeps_nth_obs | apply keeps_nth_meta | apply keeps_lto | apply keeps_ltm
  | apply keeps_okobs | apply keeps_match | apply keeps_arr_is
  | apply keeps_and | apply keeps_ex; intro | apply keeps_imp | apply keeps_all; intro ].
Lemma alloc_weight_value P sh w : alloc P (weight_value sh w) (fun x m => arr_is m sh w x).
Proof.
  start P. unfold weight_value. destruct w as [|a cv].
  - eapply alloc_conseq; [apply (alloc_new_arr (fun _ => True)) | auto |]. cbv beta. intros x m H.
    eexists; split; [exact H|]. cbn. split; [destruct sh; auto|discriminate].
  - abind; [apply alloc_ascontig|]. abind; [apply alloc_shape2|]. abind; [apply alloc_assert|].
    apply alloc_ret. intros m H. destruct H as (((_ & c & H1 & H2) & im & H3 & ->) & H4).
    apply shape_eqb_true in H4 as <-. exists im. rewrite H2 in H3. injection H3 as ->.
    repeat split; auto. intros a' cv' [= <- <-]. auto.
Qed.
Definition opt_is (m : mem) (sh : nat * nat) (w : arg_arr) (x : option nat) : Prop :=
  match x with None => w = ANone | Some x => w <> ANone /\ arr_is m sh w x end.
Lemma keeps_opt_is sh w x : keeps (fun m => opt_is m sh w x).
Proof. destruct x; unfold opt_is; keep1. Qed.
Lemma alloc_opt_value P sh w : alloc P (opt_value sh w) (fun x m => opt_is m sh w x).
Proof.
  start P. unfold opt_value. destruct w as [|a cv].
  - apply alloc_ret. cbn. auto.
  - abind; [apply alloc_ascontig|]. abind; [apply alloc_shape2|]. abind; [apply alloc_assert|].
    apply alloc_ret. intros m H. destruct H as (((_ & c & H1 & H2) & im & H3 & ->) & H4).
    apply shape_eqb_true in H4 as <-. split; [discriminate|]. exists im. rewrite H2 in H3. injection H3 as ->.
    repeat split; auto. intros a' cv' [= <- <-]. auto.
Qed.
Definition jac_is (m : mem) (j : arg_jac) (x : nat) : Prop :=
  exists jj, content_at m x = Some (CJ jj) /\ Jacobian_copy jj = Ok jj /\ (forall j0, j = JJac j0 -> Jacobian_copy j0 = Ok jj).
Lemma keeps_jac_is j x : keeps (fun m => jac_is m j x). Proof. unfold jac_is. keep. Qed.
Lemma alloc_jac_value P sh j : alloc P (jac_value sh j) (fun x m => jac_is m j x).
Proof.
  start P. destruct j as [|j|]; cbn [jac_value]; [| |apply alloc_fail].
  - abind; [apply alloc_lift|]. intros m m' r I [_ H] E.
    destruct (alloc_new_arr (fun _ => True) (CJ a) true m m' r I Logic.I E) as (A & B & C).
    split; [auto|split; [auto|]]. intros x Hx. exists a. split; [auto|split; [eapply unit_fix; eauto|discriminate]].
  - abind; [apply alloc_lift|]. intros m m' r I [_ H] E.
    destruct (alloc_new_arr (fun _ => True) (CJ a) true m m' r I Logic.I E) as (A & B & C).
    split; [auto|split; [auto|]]. intros x Hx. exists a. split; [auto|split; [eapply jac_copy_fix; eauto|]].
    intros j0 [= <-]; auto.
Qed.
Definition gmix_is (g : arg_gmix) (x : option gmobj) : Prop :=
  match x with None => g = GNone | Some c => gm_copy c = Ok c /\ exists g0, g = GObj g0 /\ gm_copy g0 = Ok c end.
Lemma alloc_gmix_value P g : alloc P (gmix_value g) (fun x _ => gmix_is g x).
Proof.
  start P. destruct g as [|g|]; cbn [gmix_value]; [apply alloc_ret; cbn; auto| |apply alloc_fail].
  abind; [apply alloc_lift|]. apply alloc_ret. intros m [_ H]. cbn. split; [eapply gm_copy_fix; eauto|eauto].
Qed.
Definition psf_is (m : mem) (p : arg_psf) (x : option nat) : Prop :=
  match x with None => p = PNone | Some i => p = PObs i /\ (i < length (m_obs m))%nat end.
Lemma keeps_psf_is p x : keeps (fun m => psf_is m p x). Proof. destruct x; unfold psf_is; keep. Qed.
Lemma alloc_psf_value P p : alloc P (psf_value p) (fun x m => psf_is m p x).
Proof.
  start P. destruct p as [|i|]; cbn [psf_value]; [apply alloc_ret; cbn; auto| |apply alloc_fail].
  abind; [apply alloc_get_obs|]. apply alloc_ret. intros m [_ H]. split; auto. apply nth_error_Some. congruence.
Qed.
Definition meta_is (m : mem) (d : arg_meta) (x : nat) : Prop :=
  (x < length (m_metas m))%nat /\ (forall i, d = DDict i -> x = i) /\ (d = DNone -> nth_error (m_metas m) x = Some []).
Lemma keeps_meta_is d x : keeps (fun m => meta_is m d x). Proof. unfold meta_is; keep. Qed.
Lemma alloc_meta_value P d : alloc P (meta_value d) (fun x m => meta_is m d x).
Proof.
  start P. destruct d as [|i|]; cbn [meta_value]; [| |apply alloc_fail].
  - eapply alloc_conseq; [apply (alloc_new_meta (fun _ => True))|auto|]. cbv beta. intros x m H. split; [|split; [discriminate|auto]].
    apply nth_error_Some. congruence.
  - abind; [apply alloc_get_meta|]. apply alloc_ret. intros m [_ H]. split; [apply nth_error_Some; congruence|].
    split; [|discriminate]. intros j [= <-]. auto.
Qed.
Definition pix_is (m : mem) (image weight j : nat) (store ign : bool) (p : option (list (pixel R))) : Prop :=
  if store then
    exists im w jj l, content_at m image = Some (C2 im) /\ content_at m weight = Some (C2 w) /\
      content_at m j = Some (CJ jj) /\ make_pixels im w jj ign = Ok l /\ p = Some l
  else p = None.
Lemma keeps_pix_is a b c d e p : keeps (fun m => pix_is m a b c d e p). Proof. unfold pix_is; destruct d; keep. Qed.

Lemma pixels_value_inv a w j st ig wr m m' r : pixels_value a w j st ig wr m = (m', r) ->
  m' = m /\ (forall p, r = Ok p -> pix_is m a w j st ig p).
Proof.
  unfold pixels_value. destruct st; cbn [negb].
  2: { intros [= <- <-]. split; auto. intros p [= <-]. reflexivity. }
  unfold bindM at 1. destruct (view_check a wr m) as [m1 [u|e]] eqn:V1; pose proof (view_check_mem _ _ _ _ _ V1) as ->.
  2: { intros [= <- <-]. split; auto; discriminate. }
  unfold bindM at 1. destruct (view_check w wr m) as [m1 [u1|e]] eqn:V2; pose proof (view_check_mem _ _ _ _ _ V2) as ->.
  2: { intros [= <- <-]. split; auto; discriminate. }
  unfold bindM. rewrite !contents_eq.
  destruct (content_at m a) as [ci|] eqn:E1; [|intros [= <- <-]; split; auto; discriminate].
  destruct (content_at m w) as [cw|] eqn:E2; [|intros [= <- <-]; split; auto; discriminate].
  destruct (content_at m j) as [cj|] eqn:E3; [|intros [= <- <-]; split; auto; discriminate].
  unfold lift, ret, fail.
  destruct ci as [im| |], cw as [wt| |], cj as [|jj|]; try (intros [= <- <-]; split; auto; discriminate).
  destruct (make_pixels im wt jj ig) as [l|e] eqn:MP; intros [= <- <-]; split; auto; intros p [= <-].
  exists im, wt, jj, l. auto.
Qed.
Lemma alloc_pixels_value P a w j st ig wr : alloc P (pixels_value a w j st ig wr) (fun p m => pix_is m a w j st ig p).
Proof.
  intros m m' r I Pm E. apply pixels_value_inv in E as [-> H]. split; [auto|split; [apply grow_refl|auto]].
Qed.
Ltac keep2 := cbv beta; repeat first
  [ apply keeps_pure | apply keeps_content | apply keeps_nth_obs | apply keeps_nth_meta | apply keeps_lto | apply keeps_ltm
  | apply keeps_okobs | apply keeps_match | apply keeps_arr_is | apply keeps_opt_is | apply keeps_jac_is | apply keeps_psf_is
  | apply keeps_meta_is | apply keeps_pix_is
  | apply keeps_and | apply keeps_ex; intro | apply keeps_imp | apply keeps_all; intro ].
Ltac abind2 := eapply alloc_bind; [keep2 | | cbv beta; intros].

(** what the constructor builds *)
Definition built_from (m : mem) (image : nat) (w bm om no mf : arg_arr) (j : arg_jac) (g : arg_gmix) (p : arg_psf) (d : arg_meta)
    (st ig : bool) (o : obs) : Prop :=
  ob_wr o = false /\ ob_store o = st /\ ob_ign o = ig /\ okobs m o /\ pixels_match m o /\
  (exists im, content_at m image = Some (C2 im) /\ content_at m (ob_image o) = Some (C2 im)) /\
  (exists sh, arr_is m sh w (ob_weight o) /\ opt_is m sh bm (ob_opt o SBmask) /\ opt_is m sh om (ob_opt o SOrmask) /\
     opt_is m sh no (ob_opt o SNoise) /\ opt_is m sh mf (ob_opt o SMfrac)) /\
  jac_is m j (ob_jac o) /\ gmix_is g (ob_gmix o) /\ psf_is m p (ob_psf o) /\ meta_is m d (ob_meta o).

Lemma alloc_new_obs P image cv w bm om no j g p d mf st ig :
  alloc P (new_obs image cv w bm om no j g p d mf st ig)
    (fun i m => exists o, nth_error (m_obs m) i = Some o /\ built_from m image w bm om no mf j g p d st ig o).
Proof.
  start P. unfold new_obs.
  abind2; [apply alloc_ascontig|]. abind2; [apply alloc_shape2|]. abind2; [apply alloc_weight_value; auto|].
  abind2; [apply alloc_jac_value|]. abind2; [apply alloc_pixels_value|]. abind2; [apply alloc_meta_value; auto|].
  abind2; [apply alloc_opt_value; auto|]. abind2; [apply alloc_opt_value; auto|]. abind2; [apply alloc_opt_value; auto|].
  abind2; [apply alloc_gmix_value|]. abind2; [apply alloc_psf_value; auto|]. abind2; [apply alloc_opt_value; auto|].
  rename a0 into sh.
  match goal with |- alloc _ (push_obs ?x) _ => set (o := x) end.
  intros m m' r I H E.
  destruct H as ((((((((((((_ & c & Hc1 & Hc2) & im & Hc3 & ->) & Hw) & Hj) & Hp) & Hd) & Hbm) & Hom) & Hno) & Hg) & Hpsf) & Hmf).
  rewrite Hc2 in Hc3. injection Hc3 as ->.
  assert (B : okobs m o /\ pixels_match m o).
  { split.
    - destruct Hw as (wi & W1 & W2 & W3). destruct Hj as (jj & J1 & J2 & J3). split.
      + exists im, wi. injection W2 as W2 W4. repeat split; auto.
      + exists jj. auto.
      + intros s b Hb. destruct s; cbn in Hb.
        * rewrite Hb in Hbm. destruct Hbm as [_ (x & X & _)]. eauto.
        * rewrite Hb in Hom. destruct Hom as [_ (x & X & _)]. eauto.
        * rewrite Hb in Hno. destruct Hno as [_ (x & X & _)]. eauto.
        * rewrite Hb in Hmf. destruct Hmf as [_ (x & X & _)]. eauto.
      + intros g' Hg'. cbn in Hg'. rewrite Hg' in Hg. apply Hg.
      + intros p' Hp'. cbn in Hp'. rewrite Hp' in Hpsf. apply Hpsf.
      + apply Hd.
    - exact Hp. }
  destruct (alloc_push_obs o m m' r I B E) as (A1 & A2 & A3).
  split; [auto|split; [auto|]]. intros i Hi. exists o. split; [auto|].
  split; [reflexivity|split; [reflexivity|split; [reflexivity|]]].
  split; [eapply grow_okobs; [eauto|apply B]|]. split; [eapply grow_match; [eauto|apply B]|].
  split; [exists im; split; eapply grow_content; eauto|].
  split.
  { exists (nrow im, ncol im). split; [apply (keeps_arr_is _ _ _ m m' A2); auto|].
    split; [apply (keeps_opt_is _ _ _ m m' A2); auto|]. split; [apply (keeps_opt_is _ _ _ m m' A2); auto|].
    split; apply (keeps_opt_is _ _ _ m m' A2); auto. }
  split; [apply (keeps_jac_is _ _ m m' A2); auto|]. split; [exact Hg|].
  split; [apply (keeps_psf_is _ _ m m' A2); auto|]. apply (keeps_meta_is _ _ m m' A2); auto.
Qed.

(** ---- reading values ---- *)
Definition val_psf (v : obsval) : option obsval := let '(OV _ _ _ _ _ _ _ _ p) := v in p.
Definition view1 (m : mem) (o : obs) (v : obsval) : Prop :=
  let '(OV im w j opts g d st ig _) := v in
  content_at m (ob_image o) = Some (C2 im) /\ content_at m (ob_weight o) = Some (C2 w) /\
  content_at m (ob_jac o) = Some (CJ j) /\
  (forall s, match ob_opt o s with
             | None => opts s = None
             | Some a => exists c, content_at m a = Some c /\ opts s = Some c end) /\
  ob_gmix o = g /\ nth_error (m_metas m) (ob_meta o) = Some d /\ ob_store o = st /\ ob_ign o = ig.
Lemma reads_inv m i v : reads m i v -> exists o, nth_error (m_obs m) i = Some o /\ view1 m o v /\
  match ob_psf o with
  | None => val_psf v = None
  | Some p => exists pv, val_psf v = Some pv /\ reads m p pv end.
Proof. intros []; exists o; cbn; rewrite H5; eauto 20. Qed.
Lemma reads_intro m i o v : nth_error (m_obs m) i = Some o -> view1 m o v ->
  match ob_psf o with
  | None => val_psf v = None
  | Some p => exists pv, val_psf v = Some pv /\ reads m p pv end -> reads m i v.
Proof.
  destruct v as [im w j opts g d st ig p]. intros N (A & B & C & D & <- & F & <- & <-). cbn.
  destruct (ob_psf o) eqn:P.
  - intros (pv & -> & R). eapply Reads; eauto.
  - intros ->. eapply ReadsNoPsf; eauto.
Qed.
Lemma keeps_view1 o v : keeps (fun m => view1 m o v).
Proof.
  destruct v as [im w j opts g d st ig p]. intros m m' G (A & B & C & D & F1 & F & F2 & F3).
  repeat split; auto; try (eapply grow_content; eauto); [|eapply grow_meta; eauto].
  intros s. specialize (D s). destruct (ob_opt o s); auto. destruct D as (c & D1 & D2). exists c; split; auto. eapply grow_content; eauto.
Qed.
Lemma keeps_reads i v : keeps (fun m => reads m i v).
Proof.
  intros m m' G H. induction H.
  - eapply Reads; eauto using grow_content, grow_obs, grow_meta.
    intros s. specialize (H3 s). destruct (ob_opt o s); auto. destruct H3 as (c & D1 & D2). exists c; split; auto. eapply grow_content; eauto.
  - eapply ReadsNoPsf; eauto using grow_content, grow_obs, grow_meta.
    intros s. specialize (H3 s). destruct (ob_opt o s); auto. destruct H3 as (c & D1 & D2). exists c; split; auto. eapply grow_content; eauto.
Qed.

(** ---- copying ---- *)
Lemma alloc_copy_view P a wr : alloc P (copy_view a wr) (fun x m => exists c, content_at m a = Some c /\ content_at m x = Some c).
Proof.
  start P. unfold copy_view. abind2; [apply alloc_view_check|]. abind2; [apply alloc_contents|].
  intros m m' r I [_ H] E. destruct (alloc_new_arr (fun _ => True) a1 true m m' r I Logic.I E) as (A & B & C).
  split; [auto|split; [auto|]]. intros x Hx. exists a1. split; auto. eapply grow_content; eauto.
Qed.
(** argument x stands for a copy of attribute s of o *)
Definition copied_opt (m : mem) (o : obs) (s : slot) (x : arg_arr) : Prop :=
  match ob_opt o s with
  | None => x = ANone
  | Some a => exists a' c, x = AArr a' false /\ content_at m a = Some c /\ content_at m a' = Some c
  end.
Lemma keeps_copied_opt o s x : keeps (fun m => copied_opt m o s x).
Proof. unfold copied_opt. destruct (ob_opt o s); keep2. Qed.
Lemma alloc_copy_opt P o s : alloc P (copy_opt o s) (fun x m => copied_opt m o s x).
Proof.
  start P. unfold copy_opt, copied_opt. destruct (ob_opt o s) as [a|]; [|apply alloc_ret; auto].
  abind2; [apply alloc_copy_view|]. apply alloc_ret. intros m (_ & c & H1 & H2). exists a0, c. auto.
Qed.
(** the result of a copy: every value of the original is the value of the copy *)
Definition is_copy (V : obsval -> Prop) (m : mem) (i : nat) : Prop :=
  exists o, nth_error (m_obs m) i = Some o /\ ob_wr o = false /\ pixels_match m o /\ (forall v, V v -> reads m i v).
Lemma keeps_is_copy V i : keeps (fun m => is_copy V m i).
Proof.
  intros m m' G (o & A & B & D & C). exists o. split; [eapply grow_obs; eauto|split; [auto|split; [eapply grow_match; eauto|]]].
  intros v Hv. apply (keeps_reads i v m m' G). auto.
Qed.
Ltac keep3 := cbv beta; repeat first
  [ apply keeps_pure | apply keeps_content | apply keeps_nth_obs | apply keeps_nth_meta | apply keeps_lto | apply keeps_ltm
  | apply keeps_okobs | apply keeps_match | apply keeps_arr_is | apply keeps_opt_is | apply keeps_jac_is | apply keeps_psf_is
  | apply keeps_meta_is | apply keeps_pix_is | apply keeps_reads | apply keeps_copied_opt | apply keeps_is_copy
  | match goal with H : keeps _ |- _ => apply H end
  | apply keeps_and | apply keeps_ex; intro | apply keeps_imp | apply keeps_all; intro ].
Ltac ab := eapply alloc_bind; [keep3 | | cbv beta; intros].
Lemma copied_opt_is m sh o s x y : copied_opt m o s x -> opt_is m sh x y ->
  forall opts, match ob_opt o s with None => opts = None | Some a => exists c, content_at m a = Some c /\ opts = Some c end ->
  match y with None => opts = None | Some a => exists c, content_at m a = Some c /\ opts = Some c end.
Proof.
  unfold copied_opt, opt_is, arr_is. intros H1 H2 opts H3. destruct (ob_opt o s) as [a|].
  - destruct H1 as (a' & c & -> & E1 & E2). destruct y as [y|]; [|discriminate].
    destruct H2 as (_ & im & X1 & X2 & X3). specialize (X3 a' false eq_refl).
    destruct H3 as (c' & Y1 & ->). exists c'. split; auto. congruence.
  - subst x. destruct y; auto. destruct H2 as [H2 _]. congruence.
Qed.

Lemma alloc_copy_obs depth : forall (V : obsval -> Prop) i, alloc (fun m => forall v, V v -> reads m i v) (copy_obs depth i) (fun x m => is_copy V m x).
Proof.
  induction depth as [|depth IH]; intros V i; [apply alloc_fail|].
  assert (KV : forall i (V : obsval -> Prop), keeps (fun m => forall v, V v -> reads m i v)).
  { intros i0 V0 m m' G H v Hv. apply (keeps_reads _ v m m' G). auto. }
  cbn [copy_obs].
  eapply alloc_bind; [apply KV|apply alloc_get_obs|cbv beta; intros o].
  do 3 (ab; [apply alloc_copy_opt|]).
  ab. { instantiate (1 := fun x m => match ob_gmix o with None => x = GNone | Some g => exists c, x = GObj c /\ gm_copy g = Ok c end).
    destruct (ob_gmix o); [|apply alloc_ret; auto]. ab; [apply alloc_lift|]. apply alloc_ret. intros m H. exists a2. split; [auto|apply H]. }
  assert (KG : keeps (fun m : mem => match ob_gmix o with None => a2 = GNone | Some g => exists c, a2 = GObj c /\ gm_copy g = Ok c end)) by apply keeps_pure.
  set (V' := fun pv => exists v, V v /\ val_psf v = Some pv).
  ab.
  { instantiate (1 := fun x m => match ob_psf o with None => x = PNone | Some p => exists p', x = PObs p' /\ is_copy V' m p' end).
    destruct (ob_psf o) as [p|] eqn:EP; [|apply alloc_ret; auto].
    eapply alloc_bind; [keep3| |].
    - eapply alloc_conseq; [apply (IH V' p)| |intros ? ? H__; exact H__].
      cbv beta. intros m H pv (v & Hv & Ep). destruct H as (((((H & No) & _) & _) & _) & _).
      destruct (reads_inv _ _ _ (H v Hv)) as (o' & N' & _ & Q). rewrite No in N'. injection N' as <-. rewrite EP in Q.
      destruct Q as (pv' & Q1 & Q2). congruence.
    - cbv beta. intros p'. apply alloc_ret. intros m [_ H]. eauto. }
  assert (KP : keeps (fun m => match ob_psf o with None => a3 = PNone | Some p => exists p', a3 = PObs p' /\ is_copy V' m p' end)).
  { destruct (ob_psf o); keep3. }
  ab; [apply alloc_copy_opt|]. ab; [apply alloc_get_meta|]. ab; [apply alloc_new_meta|].
  ab; [apply alloc_copy_view|]. ab; [apply alloc_copy_view|]. ab; [apply alloc_contents|].
  match goal with x : content |- _ => destruct x as [?|jj|? ?]; try apply alloc_fail end.
  intros m m' r I H E.
  destruct (alloc_new_obs (fun _ => True) _ _ _ _ _ _ _ _ _ _ _ _ _ m m' r I Logic.I E) as (G1 & G2 & G3).
  split; [auto|split; [auto|]]. intros x Hx. destruct (G3 x Hx) as (o' & N' & B).
  exists o'. split; auto. split; [apply B|]. split; [apply B|]. intros v Hv.
  destruct H as ((((((((((((H & No) & Hbm) & Hom) & Hno) & Hg) & Hp) & Hmf) & Hd) & Hd') & Him) & Hw) & Hj).
  specialize (H v Hv). destruct (reads_inv _ _ _ H) as (o1 & N1 & V1 & P1).
  rewrite No in N1. injection N1 as <-.
  destruct B as (B1 & B2 & B3 & _ & _ & (im' & B4a & B4b) & (sh & B5 & B6 & B7 & B8 & B9) & Bj & Bg & Bp & Bd).
  pose proof (keeps_view1 o v m m' G2 V1) as V2.
  apply (reads_intro m' x o' v N').
  - destruct v as [im w j opts g d st ig p]. destruct V2 as (U1 & U2 & U3 & U4 & U5 & U6 & U7 & U8).
    destruct Him as (c & M1 & M2). destruct Hw as (cw & W1 & W2).
    pose proof (grow_content _ _ _ _ G2 M1) as M1'. pose proof (grow_content _ _ _ _ G2 M2) as M2'.
    pose proof (grow_content _ _ _ _ G2 W1) as W1'. pose proof (grow_content _ _ _ _ G2 W2) as W2'.
    pose proof (grow_content _ _ _ _ G2 Hj) as Hj'.
    split; [congruence|]. split.
    { destruct B5 as (wi & X1 & X2 & X3). specialize (X3 _ _ eq_refl). congruence. }
    split.
    { destruct Bj as (j' & X1 & X2 & X3). specialize (X3 _ eq_refl). rewrite X1.
      rewrite U3 in Hj'. injection Hj' as <-.
      destruct (I i o No) as [[_ (j0 & O1 & O2) _ _ _ _] _]. pose proof (grow_content _ _ _ _ G2 O1) as O1'. congruence. }
    split.
    { intros s. specialize (U4 s).
      destruct s; [eapply copied_opt_is; [|exact B6|exact U4]|eapply copied_opt_is; [|exact B7|exact U4]
                  |eapply copied_opt_is; [|exact B8|exact U4]|eapply copied_opt_is; [|exact B9|exact U4]];
        apply (keeps_copied_opt _ _ _ m m' G2); auto. }
    split.
    { rewrite <- U5. destruct (ob_gmix o) as [g0|] eqn:Eg.
      - destruct Hg as (c' & -> & Hc). pose proof (proj1 (I i o No)) as [_ _ _ K _ _]. rewrite (K _ Eg) in Hc. injection Hc as <-.
        destruct (ob_gmix o') as [g1|]; [|discriminate]. destruct Bg as (_ & g2 & [= <-] & X). rewrite (K _ Eg) in X. congruence.
      - subst. destruct (ob_gmix o'); auto. destruct Bg as (_ & g2 & X & _). discriminate. }
    split; [|split; congruence].
    destruct Bd as (_ & Bd & _). rewrite (Bd _ eq_refl).
    pose proof (grow_meta _ _ _ _ G2 Hd) as Hd2. pose proof (grow_meta _ _ _ _ G2 Hd') as Hd3. congruence.
  - destruct (ob_psf o) as [p|].
    + destruct P1 as (pv & P1a & P1b). destruct Hp as (p' & -> & Hp). destruct (ob_psf o') as [q|]; [|discriminate].
      destruct Bp as [[= <-] _]. exists pv. split; auto. apply (keeps_reads _ _ m m' G2). destruct Hp as (o2 & _ & _ & _ & Hp). apply Hp. exists v. auto.
    + subst. destruct (ob_psf o'); auto. destruct Bp; discriminate.
Qed.

(** ---- calls that change an observation ---- *)
Definition setobs (m : mem) (i : nat) (o : obs) : mem := mkMem (m_bufs m) (m_arrs m) (m_metas m) (upd (m_obs m) i o).
Lemma upd_upd {A} (l : list A) i x y : upd (upd l i x) i y = upd l i y.
Proof. revert i; induction l; destruct i; cbn; auto. f_equal; auto. Qed.
Lemma nth_upd_same {A} (l : list A) i x y : nth_error l i = Some y -> nth_error (upd l i x) i = Some x.
Proof. revert i; induction l; destruct i; cbn; try discriminate; auto. Qed.
Lemma upd_same {A} (l : list A) i x : nth_error l i = Some x -> upd l i x = l.
Proof. revert i; induction l; destruct i; cbn; try discriminate; intros; [congruence|f_equal; auto]. Qed.
Lemma setobs_content m i o a : content_at (setobs m i o) a = content_at m a. Proof. reflexivity. Qed.
Lemma setobs_okobs m i x o : okobs m o -> okobs (setobs m i x) o.
Proof.
  intros []. split; auto. intros p H. cbn. rewrite upd_length'. auto.
Qed.
Lemma setobs_match m i x o : pixels_match m o -> pixels_match (setobs m i x) o.
Proof. auto. Qed.
Lemma good_put m i o : good m -> okobs m o -> (strict = true -> ob_wr o = false -> pixels_match m o) -> good (setobs m i o).
Proof.
  intros G O1 O2 k x N. cbn in N. destruct (Nat.eq_dec i k) as [<-|D].
  - apply nth_upd_eq' in N as ->. split; [apply setobs_okobs; auto|auto].
  - rewrite nth_upd_ne in N by auto. destruct (G k x N). split; [apply setobs_okobs; auto|auto].
Qed.

Lemma view_check_raises a wr m m' e c : content_at m a = Some c -> view_check a wr m = (m', Raise e) -> wr = true.
Proof.
  unfold content_at, view_check, bindM, get_arr, get_buf, assert, ret, fail.
  destruct (nth_error (m_arrs m) a) as [x|]; [|discriminate]. destruct (nth_error (m_bufs m) (a_buf x)) as [b|]; [|discriminate].
  intros _. destruct wr; auto. cbn. discriminate.
Qed.
Lemma pixels_value_raises o m m' e st ig wr : okobs m o ->
  pixels_value (ob_image o) (ob_weight o) (ob_jac o) st ig wr m = (m', Raise e) -> e = GMixFatalError \/ wr = true.
Proof.
  intros [(im & w & A & B & C1 & C2) (j & D & _) _ _ _ _]. unfold pixels_value. destruct st; cbn [negb]; [|discriminate].
  unfold bindM at 1. destruct (view_check (ob_image o) wr m) as [m1 [u|e1]] eqn:V1; pose proof (view_check_mem _ _ _ _ _ V1) as ->.
  2: { intros _. right. eapply view_check_raises; [exact A|exact V1]. }
  unfold bindM at 1. destruct (view_check (ob_weight o) wr m) as [m1 [u1|e1]] eqn:V2; pose proof (view_check_mem _ _ _ _ _ V2) as ->.
  2: { intros _. right. eapply view_check_raises; [exact B|exact V2]. }
  unfold bindM. rewrite !contents_eq, A, B, D. unfold lift, ret.
  destruct (make_pixels_spec im w j ig C1 C2) as [(-> & _)|(idx & l & -> & _)]; intros [= <- <-]. auto.
Qed.
Lemma update_inv i o m m' r : nth_error (m_obs m) i = Some o -> okobs m o -> update_pixels i m = (m', r) ->
  (exists p, r = Ok tt /\ m' = setobs m i (with_pix o p) /\ pix_is m (ob_image o) (ob_weight o) (ob_jac o) (ob_store o) (ob_ign o) p) \/
  (m' = m /\ exists e, r = Raise e /\ (e = GMixFatalError \/ ob_wr o = true)).
Proof.
  intros N O. unfold update_pixels. unfold bindM at 1. unfold get_obs. rewrite N.
  unfold bindM. destruct (pixels_value (ob_image o) (ob_weight o) (ob_jac o) (ob_store o) (ob_ign o) (ob_wr o) m) as [m1 [p|e]] eqn:E.
  - destruct (pixels_value_inv _ _ _ _ _ _ _ _ _ E) as [-> H]. intros [= <- <-]. left. exists p. auto.
  - destruct (pixels_value_inv _ _ _ _ _ _ _ _ _ E) as [-> H]. intros [= <- <-]. right. split; auto. exists e. split; auto.
    eapply pixels_value_raises; eauto.
Qed.
Lemma okobs_pix m o p : okobs m o -> okobs m (with_pix o p).
Proof. intros []. split; auto. Qed.
(** assignment followed by update_pixels *)
Lemma put_update m i o o' m' r : good m -> nth_error (m_obs m) i = Some o -> okobs m o' ->
  (do _ <- put_obs i o' ;; update_pixels i) m = (m', r) ->
  (r = Ok tt /\ good m' /\ exists p, m' = setobs m i (with_pix o' p) /\ pixels_match m (with_pix o' p)) \/
  (m' = setobs m i o' /\ exists e, r = Raise e /\ (e = GMixFatalError \/ ob_wr o' = true)).
Proof.
  intros G N O E. unfold bindM, put_obs in E. fold (setobs m i o') in E.
  apply (update_inv i o') in E; [| cbn; eapply nth_upd_same; eauto | apply setobs_okobs; auto].
  destruct E as [(p & -> & -> & P)|(-> & e & -> & H)]; [left|right; eauto].
  split; auto. assert (X : setobs (setobs m i o') i (with_pix o' p) = setobs m i (with_pix o' p)) by (unfold setobs; cbn; rewrite upd_upd; auto).
  rewrite X. assert (PM : pixels_match m (with_pix o' p)).
  { unfold pixels_match, pix_is in *. cbn. destruct (ob_store o'); auto. }
  split; [apply good_put; auto; apply okobs_pix; auto|]. exists p. auto.
Qed.

Definition gok {A} (P : mem -> Prop) (x : M A) : Prop :=
  forall m m' r, good m -> P m -> x m = (m', r) -> (strict = true -> r <> Raise GMixFatalError) -> good m'.
Lemma gok_bind {A B} P Q (x : M A) (f : A -> M B) : keeps P -> alloc P x Q ->
  (forall a, gok (fun m => P m /\ Q a m) (f a)) -> gok P (bindM x f).
Proof.
  intros SP Hx Hf m m' r I Pm E NE. apply bindM_inv in E. destruct E as [(e & E & ->)|(m1 & a & E & E2)].
  - apply (Hx _ _ _ I Pm E).
  - destruct (Hx _ _ _ I Pm E) as (I' & L & Q1). apply (Hf a m1 m' r I' (conj (SP _ _ L Pm) (Q1 a eq_refl)) E2 NE).
Qed.
Lemma gok_alloc {A} P (x : M A) Q : alloc P x Q -> gok P x.
Proof. intros H m m' r I Pm E _. apply (H _ _ _ I Pm E). Qed.
Lemma gok_conseq {A} (P P' : mem -> Prop) (x : M A) : gok P x -> (forall m, P' m -> P m) -> gok P' x.
Proof. intros H HP m m' r I Pm E. apply (H m m' r I (HP _ Pm) E). Qed.
Lemma gok_put i o' : gok (fun m => okobs m o' /\ (strict = true -> ob_wr o' = false -> pixels_match m o')) (put_obs i o').
Proof. intros m m' r I [H1 H2] E _. injection E as <- <-. apply good_put; auto. Qed.
Lemma gok_put_update i o o' : gok (fun m => nth_error (m_obs m) i = Some o /\ okobs m o') (do _ <- put_obs i o' ;; update_pixels i).
Proof.
  intros m m' r I [H1 H2] E NE. destruct (put_update _ _ _ _ _ _ I H1 H2 E) as [(_ & G & _)|(-> & e & -> & [->|W])]; auto.
  - apply good_put; auto. intros S. specialize (NE S). congruence.
  - apply good_put; auto. congruence.
Qed.
Ltac gbind := eapply gok_bind; [keep3 | | cbv beta; intros].

(** a call that failed changed nothing *)
Definition quiet {A} (x : M A) : Prop := forall m, m_obs (fst (x m)) = m_obs m.
Definition clean {A} (P : mem -> Prop) (x : M A) : Prop :=
  forall m m' e, good m -> P m -> x m = (m', Raise e) -> e <> GMixFatalError -> grow m m' /\ m_obs m' = m_obs m.
Lemma quiet_bind {A B} (x : M A) (f : A -> M B) : quiet x -> (forall a, quiet (f a)) -> quiet (bindM x f).
Proof. intros H1 H2 m. unfold bindM. specialize (H1 m). destruct (x m) as [m1 [a|e]]; cbn in *; auto. rewrite H2; auto. Qed.
Lemma quiet_ret {A} (a : A) : quiet (ret a). Proof. intros m; auto. Qed.
Lemma quiet_fail {A} e : quiet (@fail A e). Proof. intros m; auto. Qed.
Lemma quiet_lift {A} (r : res A) : quiet (lift r). Proof. intros m; auto. Qed.
Lemma quiet_assert b e : quiet (assert b e). Proof. destruct b; intros m; auto. Qed.
Lemma quiet_get_obs i : quiet (get_obs i). Proof. intros m; unfold get_obs; destruct nth_error; auto. Qed.
Lemma quiet_get_arr i : quiet (get_arr i). Proof. intros m; unfold get_arr; destruct nth_error; auto. Qed.
Lemma quiet_get_buf i : quiet (get_buf i). Proof. intros m; unfold get_buf; destruct nth_error; auto. Qed.
Lemma quiet_get_meta i : quiet (get_meta i). Proof. intros m; unfold get_meta; destruct nth_error; auto. Qed.
Lemma quiet_new_arr c w : quiet (new_arr c w). Proof. intros m; auto. Qed.
Lemma quiet_new_meta d : quiet (new_meta d). Proof. intros m; auto. Qed.
Ltac quiet_tac := repeat first
  [ apply quiet_ret | apply quiet_fail | apply quiet_lift | apply quiet_assert | apply quiet_get_obs | apply quiet_get_arr
  | apply quiet_get_buf | apply quiet_get_meta | apply quiet_new_arr | apply quiet_new_meta
  | apply quiet_bind; [|intros] | match goal with |- quiet (match ?x with _ => _ end) => destruct x end
  | match goal with |- quiet (if ?x then _ else _) => destruct x end ].
Lemma quiet_contents a : quiet (contents a). Proof. unfold contents; quiet_tac. Qed.
Lemma quiet_ascontig a b : quiet (ascontig a b). Proof. unfold ascontig, contents; quiet_tac. Qed.
Lemma quiet_shape2 a : quiet (shape2 a). Proof. unfold shape2, contents; quiet_tac. Qed.
Lemma quiet_view_check a b : quiet (view_check a b). Proof. unfold view_check, contents; quiet_tac. Qed.
Lemma quiet_weight_value a b : quiet (weight_value a b). Proof. unfold weight_value, ascontig, shape2, contents; quiet_tac. Qed.
Lemma quiet_opt_value a b : quiet (opt_value a b). Proof. unfold opt_value, ascontig, shape2, contents; quiet_tac. Qed.
Lemma quiet_jac_value a b : quiet (jac_value a b). Proof. unfold jac_value; quiet_tac. Qed.
Lemma quiet_gmix_value a : quiet (gmix_value a). Proof. unfold gmix_value; quiet_tac. Qed.
Lemma quiet_psf_value a : quiet (psf_value a). Proof. unfold psf_value; quiet_tac. Qed.
Lemma quiet_meta_value a : quiet (meta_value a). Proof. unfold meta_value; quiet_tac. Qed.
Lemma clean_bind {A B} P Q (x : M A) (f : A -> M B) : keeps P -> alloc P x Q -> quiet x ->
  (forall a, clean (fun m => P m /\ Q a m) (f a)) -> clean P (bindM x f).
Proof.
  intros SP Hx HQ Hf m m' e I Pm E NE. apply bindM_inv in E. destruct E as [(e1 & E & E')|(m1 & a & E & E2)].
  - destruct (Hx _ _ _ I Pm E) as (I' & L & Q1). split; auto. specialize (HQ m). rewrite E in HQ. auto.
  - destruct (Hx _ _ _ I Pm E) as (I' & L & Q1).
    destruct (Hf a m1 m' e I' (conj (SP _ _ L Pm) (Q1 a eq_refl)) E2 NE) as [G Eo].
    split; [eapply grow_trans; eauto|]. specialize (HQ m). rewrite E in HQ. cbn in HQ. congruence.
Qed.
Lemma clean_put P i o' : clean P (put_obs i o').
Proof. intros m m' e I H E. discriminate. Qed.
Lemma clean_put_update i o o' : ob_wr o' = false ->
  clean (fun m => nth_error (m_obs m) i = Some o /\ okobs m o') (do _ <- put_obs i o' ;; update_pixels i).
Proof.
  intros W m m' e I [H1 H2] E NE. destruct (put_update _ _ _ _ _ _ I H1 H2 E) as [(X & _)|(-> & e' & [= ->] & [->|W'])]; congruence.
Qed.
Lemma clean_conseq {A} (P P' : mem -> Prop) (x : M A) : clean P x -> (forall m, P' m -> P m) -> clean P' x.
Proof. intros H HP m m' r I Pm E. apply (H m m' r I (HP _ Pm) E). Qed.
Ltac cbind := eapply clean_bind; [keep3 | | | cbv beta; intros].

(** the part of a setter before the assignment, and the value assigned *)
Lemma good_ok m i o : good m -> nth_error (m_obs m) i = Some o -> okobs m o.
Proof. intros G N. apply (G i o N). Qed.
Lemma alloc_get_obs' P i : alloc P (get_obs i) (fun o m => nth_error (m_obs m) i = Some o /\ okobs m o /\ (strict = true -> ob_wr o = false -> pixels_match m o)).
Proof.
  intros m m' r I Pm E. destruct (alloc_get_obs P i m m' r I Pm E) as (A & B & C). split; [auto|split; [auto|]].
  intros o Ho. split; auto. apply (A i o (C o Ho)).
Qed.
Lemma ok_with_image m o a im0 im : okobs m o -> content_at m a = Some (C2 im) -> content_at m (ob_image o) = Some (C2 im0) ->
  (nrow im, ncol im) = (nrow im0, ncol im0) -> okobs m (with_image o a).
Proof.
  intros [(i1 & w & A & B & C1 & C2) ? ? ? ? ?] H1 H2 [= H3 H4]. rewrite A in H2. injection H2 as <-. split; auto; cbn.
  exists im, w. repeat split; auto; congruence.
Qed.
Lemma ok_with_weight m o a im : okobs m o -> content_at m (ob_image o) = Some (C2 im) -> forall w, arr_is m (nrow im, ncol im) w a -> okobs m (with_weight o a).
Proof.
  intros [(i1 & w & A & B & C1 & C2) ? ? ? ? ?] H1 w' (wi & X1 & [= X2 X3] & _). rewrite A in H1. injection H1 as <-. split; auto; cbn.
  exists i1, wi. repeat split; auto.
Qed.
Lemma ok_with_jac m o a j : okobs m o -> jac_is m j a -> okobs m (with_jac o a).
Proof. intros [] (jj & A & B & _). split; auto; cbn. eauto. Qed.
Lemma ok_with_opt m o s a sh w : okobs m o -> opt_is m sh w a -> okobs m (with_opt o s a).
Proof.
  intros [] H. split; auto; cbn. intros s' b Hb. destruct (slot_eqb s s'); eauto. subst a. destruct H as (_ & im & X & _). eauto.
Qed.
Lemma ok_with_gmix m o g x : okobs m o -> gmix_is g x -> okobs m (with_gmix o x).
Proof. intros [] H. split; auto; cbn. intros y ->. apply H. Qed.
Lemma ok_with_psf m o p x : okobs m o -> psf_is m p x -> okobs m (with_psf o x).
Proof. intros [] H. split; auto; cbn. intros y ->. apply H. Qed.
Lemma ok_with_meta m o d x : okobs m o -> meta_is m d x -> okobs m (with_meta o x).
Proof. intros [] H. split; auto; cbn. apply H. Qed.
Lemma ok_with_flags m o a b c : okobs m o -> okobs m (with_flags o a b c).
Proof. intros []. split; auto. Qed.

Lemma gok_unit P x : gok P x -> gok P (unit_ x).
Proof.
  intros H m m' r I Pm E NE. unfold unit_ in E. apply bindM_inv in E. destruct E as [(e & E & ->)|(m1 & u & E & E2)].
  - apply (H _ _ _ I Pm E). intros S; specialize (NE S). congruence.
  - injection E2 as <- <-. apply (H _ _ _ I Pm E). congruence.
Qed.
Lemma gok_update_pixels i : gok (fun _ => True) (update_pixels i).
Proof.
  intros m m' r I _ E NE. unfold update_pixels in E. unfold bindM at 1, get_obs in E.
  destruct (nth_error (m_obs m) i) as [o|] eqn:N; [|injection E as <- <-; auto].
  assert (E' : update_pixels i m = (m', r)). { unfold update_pixels, bindM at 1, get_obs. rewrite N. exact E. }
  destruct (update_inv i o m m' r N (good_ok _ _ _ I N) E') as [(p & -> & -> & P)|(-> & _)]; auto.
  apply good_put; [exact I|apply okobs_pix; apply (good_ok _ _ _ I N)|].
  intros _ _. unfold pixels_match, pix_is in *. cbn. destruct (ob_store o); auto.
Qed.
Lemma gok_set_image i a cv : gok (fun _ => True) (set_image i a cv).
Proof.
  unfold set_image. gbind; [apply alloc_get_obs'|]. gbind; [apply alloc_ascontig|]. gbind; [apply alloc_shape2|].
  gbind; [apply alloc_shape2|]. gbind; [apply alloc_assert|].
  eapply gok_conseq; [eapply gok_put_update|]. cbv beta. intros m H.
  destruct H as (((((_ & N & O & _) & c & H1 & H2) & im & H3 & ->) & im0 & H4 & ->) & H5).
  split; [exact N|]. apply shape_eqb_true in H5. eapply ok_with_image; eauto.
Qed.
Lemma gok_set_weight i w : gok (fun _ => True) (set_weight i w).
Proof.
  unfold set_weight. gbind; [apply alloc_get_obs'|]. gbind; [apply alloc_view_check|]. gbind; [apply alloc_shape2|].
  gbind; [apply alloc_weight_value|].
  eapply gok_conseq; [eapply gok_put_update|]. cbv beta. intros m H.
  destruct H as ((((_ & N & O & _) & _) & im & H3 & ->) & H4). split; [exact N|]. eapply ok_with_weight; eauto.
Qed.
Lemma gok_set_jacobian i w : gok (fun _ => True) (set_jacobian i w).
Proof.
  unfold set_jacobian. gbind; [apply alloc_get_obs'|].
  gbind. { instantiate (1 := fun _ _ => True). destruct w; [apply alloc_view_check| |]; apply alloc_ret; auto. }
  gbind; [apply alloc_shape2|]. gbind; [apply alloc_jac_value|].
  eapply gok_conseq; [eapply gok_put_update|]. cbv beta. intros m H.
  destruct H as ((((_ & N & O & _) & _) & im & H3 & ->) & H4). split; [exact N|]. eapply ok_with_jac; eauto.
Qed.
Lemma match_with_opt m o s a : pixels_match m o -> pixels_match m (with_opt o s a). Proof. auto. Qed.
Lemma gok_set_opt i s w : gok (fun _ => True) (set_opt i s w).
Proof.
  unfold set_opt. gbind; [apply alloc_get_obs'|].
  gbind. { instantiate (1 := fun _ _ => True). destruct w; [apply alloc_ret; auto|apply alloc_view_check]. }
  gbind; [apply alloc_shape2|]. gbind; [apply alloc_opt_value|].
  eapply gok_conseq; [eapply gok_put|]. cbv beta. intros m H.
  destruct H as ((((_ & N & O & PM) & _) & im & H3 & ->) & H4). split; [eapply ok_with_opt; eauto|exact PM].
Qed.
Lemma gok_set_meta i d : gok (fun _ => True) (set_meta i d).
Proof.
  unfold set_meta. gbind; [apply alloc_get_obs'|]. gbind; [apply alloc_meta_value|].
  eapply gok_conseq; [eapply gok_put|]. cbv beta. intros m ((_ & N & O & PM) & H).
  split; [eapply ok_with_meta; eauto|exact PM].
Qed.
Lemma gok_set_psf i p : gok (fun _ => True) (set_psf i p).
Proof.
  unfold set_psf. gbind; [apply alloc_get_obs'|]. rename a into o.
  intros m m' r I (_ & N & O & PM) E NE. unfold bindM at 1, put_obs at 1 in E. fold (setobs m i (with_psf o None)) in E.
  assert (G1 : good (setobs m i (with_psf o None))). { apply good_put; auto. apply (ok_with_psf m o PNone None O). reflexivity. }
  revert E NE. apply (gok_bind (fun m => okobs m o /\ (strict = true -> ob_wr o = false -> pixels_match m o)) (fun v m => psf_is m p v)); auto.
  - keep3.
  - apply alloc_psf_value.
  - intros v. eapply gok_conseq; [apply gok_put|]. cbv beta. intros m1 ((A & B) & C). split; [eapply ok_with_psf; eauto|exact B].
  - split; [apply setobs_okobs; auto|exact PM].
Qed.
Lemma gok_set_gmix i p : gok (fun _ => True) (set_gmix i p).
Proof.
  unfold set_gmix. gbind; [apply alloc_get_obs'|]. rename a into o.
  intros m m' r I (_ & N & O & PM) E NE. unfold bindM at 1, put_obs at 1 in E. fold (setobs m i (with_gmix o None)) in E.
  assert (G1 : good (setobs m i (with_gmix o None))). { apply good_put; auto. apply (ok_with_gmix m o GNone None O). reflexivity. }
  revert E NE. apply (gok_bind (fun m => okobs m o /\ (strict = true -> ob_wr o = false -> pixels_match m o)) (fun v m => gmix_is p v)); auto.
  - keep3.
  - apply alloc_gmix_value.
  - intros v. eapply gok_conseq; [apply gok_put|]. cbv beta. intros m1 ((A & B) & C). split; [eapply ok_with_gmix; eauto|exact B].
  - split; [apply setobs_okobs; auto|exact PM].
Qed.
Lemma good_put_meta m i d : good m -> good (mkMem (m_bufs m) (m_arrs m) (upd (m_metas m) i d) (m_obs m)).
Proof.
  intros G k o N. destruct (G k o N) as [[] M0]. split; [|exact M0]. split; auto. cbn. rewrite upd_length'. auto.
Qed.
Lemma gok_update_meta i d : gok (fun _ => True) (update_meta i d).
Proof.
  unfold update_meta. gbind; [apply alloc_get_obs'|]. destruct d; [|eapply gok_alloc, (alloc_fail _ _ (fun _ _ => True))].
  gbind; [apply alloc_get_meta|]. intros m m' r I _ E _. injection E as <- <-. apply good_put_meta; auto.
Qed.
Lemma gok_set_store i b : gok (fun _ => True) (set_store i b).
Proof.
  unfold set_store. gbind; [apply alloc_get_obs'|]. rename a into o. destruct (Bool.eqb b (ob_store o)) eqn:B.
  - apply Bool.eqb_prop in B as ->. intros m m' r I (_ & N & O & PM) E _. injection E as <- <-.
    apply good_put; auto. apply ok_with_flags; auto.
  - eapply gok_conseq; [eapply gok_put_update|]. cbv beta. intros m (_ & N & O & PM). split; [exact N|apply ok_with_flags; auto].
Qed.
Lemma gok_set_ign i b : gok (fun _ => True) (set_ign i b).
Proof.
  unfold set_ign. gbind; [apply alloc_get_obs'|]. rename a into o. destruct (Bool.eqb b (ob_ign o)) eqn:B.
  - apply Bool.eqb_prop in B as ->. intros m m' r I (_ & N & O & PM) E _. injection E as <- <-.
    apply good_put; auto. apply ok_with_flags; auto.
  - eapply gok_conseq; [eapply gok_put_update|]. cbv beta. intros m (_ & N & O & PM). split; [exact N|apply ok_with_flags; auto].
Qed.
Lemma gok_enter i : gok (fun _ => True) (enter i).
Proof.
  unfold enter. gbind; [apply alloc_get_obs'|]. eapply gok_conseq; [eapply gok_put|]. cbv beta. intros m (_ & N & O & PM).
  split; [apply ok_with_flags; auto|discriminate].
Qed.
Lemma gok_exit i : gok (fun _ => True) (exit_ i).
Proof.
  unfold exit_. gbind; [apply alloc_get_obs'|]. eapply gok_conseq; [eapply gok_put_update|]. cbv beta. intros m (_ & N & O & PM).
  split; [exact N|apply ok_with_flags; auto].
Qed.
Lemma gok_getattr i k : gok (fun _ => True) (getattr i k).
Proof.
  intros m m' r I _ E NE. unfold getattr in E. apply bindM_inv in E. destruct E as [(e & E & ->)|(m1 & o & E & E2)].
  - apply (alloc_get_obs (fun _ => True) i m m' (Raise e) I Logic.I E).
  - destruct (alloc_get_obs (fun _ => True) i _ _ _ I Logic.I E) as (I1 & _).
    destruct (attr_ref o k); [|injection E2 as <- <-; auto].
    apply get_view_inv in E2. destruct E2 as [[-> _]|(x & b & N & N2 & W & -> & ->)]; auto.
    eapply good_same_obs; [| |exact I1]; auto. split; cbn; eexists; try reflexivity; instantiate (1 := []); rewrite app_nil_r; auto.
Qed.

(** ---- writing through an array ---- *)
Lemma overwrite_c2 old c c' im : overwrite old c = Some c' -> old = C2 im -> exists im', c' = C2 im' /\ nrow im' = nrow im /\ ncol im' = ncol im.
Proof.
  intros H ->. destruct c as [b| |]; cbn in H; try discriminate. destruct (shape_eqb _ _) eqn:S; [|discriminate].
  injection H as <-. apply shape_eqb_true in S. injection S as S1 S2. eauto.
Qed.
Lemma overwrite_cj old c c' j : overwrite old c = Some c' -> old = CJ j -> Jacobian_copy j = Ok j -> exists j', c' = CJ j' /\ Jacobian_copy j' = Ok j'.
Proof.
  intros H -> F. destruct c as [|j'|]; cbn in H; try discriminate. injection H as <-. eexists; split; [reflexivity|].
  apply jac_write_fix; auto.
Qed.
Lemma write_good a c m m' r : good m -> write_arr a c m = (m', r) ->
  (strict = true -> forall i o b, nth_error (m_obs m) i = Some o -> ob_wr o = false -> buffer_of m a = Some b -> ~ pixel_buffer m o b) -> good m'.
Proof.
  intros G E D. apply write_inv in E. destruct E as [[-> _]|(x & b & c' & N & N2 & W & O & -> & ->)]; auto.
  set (m' := mkMem _ _ _ _).
  assert (Hc : forall k, content_at m' k = match nth_error (m_arrs m) k with
     | None => None | Some y => if Nat.eqb (a_buf y) (a_buf x) then Some c' else content_at m k end).
  { intros k. unfold content_at; cbn. destruct (nth_error (m_arrs m) k) as [y|]; auto. destruct (Nat.eqb_spec (a_buf y) (a_buf x)) as [->|Ne].
    - rewrite (nth_upd_same _ _ _ _ N2). reflexivity.
    - rewrite nth_upd_ne by auto. reflexivity. }
  assert (H2 : forall k im, content_at m k = Some (C2 im) -> exists im', content_at m' k = Some (C2 im') /\ nrow im' = nrow im /\ ncol im' = ncol im).
  { intros k im Hk. rewrite Hc. unfold content_at in Hk. destruct (nth_error (m_arrs m) k) as [y|] eqn:Ny; [|discriminate].
    destruct (Nat.eqb_spec (a_buf y) (a_buf x)) as [Eb|Ne].
    - rewrite Eb, N2 in Hk. cbn in Hk. injection Hk as Hk. destruct (overwrite_c2 _ _ _ _ O Hk) as (im' & -> & X). eauto.
    - exists im. split; auto. unfold content_at. rewrite Ny. auto. }
  assert (HJ : forall k j, content_at m k = Some (CJ j) -> Jacobian_copy j = Ok j -> exists j', content_at m' k = Some (CJ j') /\ Jacobian_copy j' = Ok j').
  { intros k j Hk F. rewrite Hc. unfold content_at in Hk. destruct (nth_error (m_arrs m) k) as [y|] eqn:Ny; [|discriminate].
    destruct (Nat.eqb_spec (a_buf y) (a_buf x)) as [Eb|Ne].
    - rewrite Eb, N2 in Hk. cbn in Hk. injection Hk as Hk. destruct (overwrite_cj _ _ _ _ O Hk F) as (im' & -> & X). eauto.
    - exists j. split; auto. unfold content_at. rewrite Ny. auto. }
  intros i o Ni. cbn in Ni. destruct (G i o Ni) as [[] PM]. split.
  - split; auto.
    + destruct ok_img0 as (im & w & A & B & C1 & C2').
      destruct (H2 _ _ A) as (im' & A1 & A2 & A3). destruct (H2 _ _ B) as (w' & B1 & B2 & B3).
      exists im', w'. repeat split; auto; congruence.
    + destruct ok_jac0 as (j & A & B). destruct (HJ _ _ A B) as (j' & X). eauto.
    + intros s k Hk. destruct (ok_opt0 s k Hk) as (im & A). destruct (H2 _ _ A) as (im' & X & _). eauto.
  - intros S Wr. specialize (PM S Wr).
    assert (Bx : buffer_of m a = Some (a_buf x)) by (unfold buffer_of; rewrite N; auto).
    specialize (D S i o (a_buf x) Ni Wr Bx).
    assert (Same : forall k, ~ buffer_of m k = Some (a_buf x) -> content_at m' k = content_at m k).
    { intros k Hk. rewrite Hc. unfold buffer_of in Hk. unfold content_at. destruct (nth_error (m_arrs m) k) as [y|]; auto.
      destruct (Nat.eqb_spec (a_buf y) (a_buf x)) as [Eb|Ne]; auto. cbn in Hk. congruence. }
    unfold pixel_buffer in D. unfold pixels_match in *. destruct (ob_store o); auto.
    destruct PM as (im & w & j & l & P1 & P2 & P3 & P4 & P5). exists im, w, j, l.
    rewrite !Same by tauto. auto.
Qed.

Theorem step_good x m m' r : good m -> step x m = (m', r) -> (strict = true -> r <> Raise GMixFatalError) ->
  (strict = true -> forall a c, x = Write a c -> forall i o b, nth_error (m_obs m) i = Some o -> ob_wr o = false ->
     buffer_of m a = Some b -> ~ pixel_buffer m o b) -> good m'.
Proof.
  intros G E NE D.
  assert (K : forall P (y : M nat), gok P y -> P m -> y m = (m', r) -> good m').
  { intros P y H Pm E'. apply (H m m' r G Pm E' NE). }
  destruct x; cbn [step] in E.
  - eapply K; [eapply gok_alloc, (alloc_new_arr (fun _ => True))|exact Logic.I|exact E].
  - unfold unit_ in E. apply bindM_inv in E. destruct E as [(e & E & ->)|(m1 & u & E & E2)].
    + eapply write_good; eauto.
    + injection E2 as <- <-. eapply write_good; eauto.
  - eapply K; [eapply gok_alloc, (alloc_new_meta (fun _ => True))|exact Logic.I|exact E].
  - eapply K; [apply gok_unit|exact Logic.I|exact E]. gbind; [apply alloc_get_meta|].
    intros n n' q I _ Eq _. injection Eq as <- <-. apply good_put_meta; auto.
  - eapply K; [eapply gok_alloc, (alloc_new_obs (fun _ => True))|exact Logic.I|exact E].
  - eapply K; [apply gok_unit, gok_set_image|exact Logic.I|exact E].
  - eapply K; [apply gok_unit, gok_set_weight|exact Logic.I|exact E].
  - eapply K; [apply gok_unit, gok_set_opt|exact Logic.I|exact E].
  - eapply K; [apply gok_unit, gok_set_jacobian|exact Logic.I|exact E].
  - eapply K; [apply gok_unit, gok_set_psf|exact Logic.I|exact E].
  - eapply K; [apply gok_unit, gok_set_gmix|exact Logic.I|exact E].
  - eapply K; [apply gok_unit, gok_set_meta|exact Logic.I|exact E].
  - eapply K; [apply gok_unit, gok_update_meta|exact Logic.I|exact E].
  - eapply K; [apply gok_unit, gok_set_store|exact Logic.I|exact E].
  - eapply K; [apply gok_unit, gok_set_ign|exact Logic.I|exact E].
  - eapply K; [apply gok_unit, gok_update_pixels|exact Logic.I|exact E].
  - eapply K; [apply gok_unit, gok_enter|exact Logic.I|exact E].
  - eapply K; [apply gok_unit, gok_exit|exact Logic.I|exact E].
  - eapply K; [apply gok_getattr|exact Logic.I|exact E].
  - apply (alloc_copy_obs (length (m_obs m)) (fun _ => False) i m m' r G); auto. intros v [].
Qed.

End Strict.

Theorem disciplined_good : forall p m, good true m -> disciplined m p -> good true (exec m p).
Proof.
  induction p as [|x p IH]; intros m G D; cbn [exec]; auto. destruct D as (D1 & D2 & D3).
  destruct (step x m) as [m1 r] eqn:E. apply IH; auto. cbn [fst]. eapply step_good; eauto.
Qed.
Theorem exec_good : forall p m, good false m -> good false (exec m p).
Proof.
  induction p as [|x p IH]; intros m G; cbn [exec]; auto.
  destruct (step x m) as [m1 r] eqn:E. apply IH. cbn [fst]. eapply step_good; eauto; discriminate.
Qed.
Lemma good_empty b : good b empty_mem.
Proof. intros i o H. destruct i; discriminate. Qed.
