(** Proofs on containers of observations. *)
From Verif Require Import Base Jacobian_Model Pixels_Model Obs_Model Obs_Spec ObsZone_Proofs Obs_Proofs ObsThm_Proofs ObsEq_Model ObsList_Model ObsList_Spec.
From Coq Require Import ZArith.
Local Open Scope R_scope.

Lemma lbind_inv {A B} (x : LM A) (f : A -> LM B) m m' r : lbind x f m = (m', r) ->
  (exists e, x m = (m', Raise e) /\ r = Raise e) \/ (exists m1 a, x m = (m1, Ok a) /\ f a m1 = (m', r)).
Proof.
  unfold lbind. destruct (x m) as [m1 [a|e]] eqn:E; intros H.
  - right. eauto.
  - left. injection H as <- <-. eauto.
Qed.
Lemma cls_eqb_eq a b : cls_eqb a b = true <-> a = b.
Proof. destruct a as [| |[]], b as [| |[]]; cbn; split; intros; congruence. Qed.

Lemma nth_error_app_l {A} (l l' : list A) i x : nth_error l i = Some x -> nth_error (l ++ l') i = Some x.
Proof. intros H. rewrite nth_error_app1; auto. apply nth_error_Some. congruence. Qed.

(** ---- growth ---- *)
Record lgrow (m m' : lmem) : Prop := mkLG {
  lg_o : (length (m_obs (l_mem m)) <= length (m_obs (l_mem m')))%nat;
  lg_k : (length (l_kobs m) <= length (l_kobs m'))%nat;
  lg_c : forall l c, nth_error (l_conts m) l = Some c -> exists c', nth_error (l_conts m') l = Some c' /\ ct_cls c' = ct_cls c }.
Lemma lgrow_refl m : lgrow m m. Proof. split; [lia|lia|eauto]. Qed.
Lemma lgrow_trans a b c : lgrow a b -> lgrow b c -> lgrow a c.
Proof.
  intros [] []. split; [lia|lia|]. intros l x H. destruct (lg_c0 l x H) as (y & Y & E). destruct (lg_c1 l y Y) as (z & Z & E2).
  exists z; split; auto; congruence.
Qed.
Lemma class_grow m m' x c : lgrow m m' -> class_of m x = Some c -> class_of m' x = Some c.
Proof.
  intros G. destruct x as [i|i|l|]; unfold class_of; auto.
  - destruct (Nat.ltb_spec i (length (m_obs (l_mem m)))); [|discriminate]. intros E. pose proof (lg_o _ _ G).
    destruct (Nat.ltb_spec i (length (m_obs (l_mem m')))); auto; lia.
  - destruct (Nat.ltb_spec i (length (l_kobs m))); [|discriminate]. intros E. pose proof (lg_k _ _ G).
    destruct (Nat.ltb_spec i (length (l_kobs m'))); auto; lia.
  - destruct (nth_error (l_conts m) l) as [y|] eqn:E; [|discriminate]. destruct (lg_c _ _ G l y E) as (y' & -> & E2).
    cbn. congruence.
Qed.

(** ---- types ---- *)
Definition keeps_types {A} (x : LM A) : Prop := forall m m' r, typed m -> x m = (m', r) -> typed m' /\ lgrow m m'.
Lemma kt_bind {A B} (x : LM A) (f : A -> LM B) : keeps_types x -> (forall a, keeps_types (f a)) -> keeps_types (lbind x f).
Proof.
  intros Hx Hf m m' r T E. apply lbind_inv in E. destruct E as [(e & E & _)|(m1 & a & E & E2)].
  - eapply Hx; eauto.
  - destruct (Hx _ _ _ T E) as [T1 G1]. destruct (Hf a _ _ _ T1 E2) as [T2 G2]. split; auto. eapply lgrow_trans; eauto.
Qed.
Lemma kt_same {A} (x : LM A) : (forall m, fst (x m) = m) -> keeps_types x.
Proof. intros H m m' r T E. specialize (H m). rewrite E in H. cbn in H. subst. split; auto using lgrow_refl. Qed.
Lemma kt_ret {A} (a : A) : keeps_types (lret a). Proof. apply kt_same. auto. Qed.
Lemma kt_fail {A} e : keeps_types (@lfail A e). Proof. apply kt_same. auto. Qed.
Lemma kt_assert b e : keeps_types (lassert b e). Proof. destruct b; [apply kt_ret|apply kt_fail]. Qed.
Lemma kt_isinstance x c : keeps_types (isinstance x c). Proof. apply kt_same. auto. Qed.
Lemma kt_get_cont l : keeps_types (get_cont l). Proof. apply kt_same. intros m. unfold get_cont. destruct nth_error; auto. Qed.
Lemma kt_get_kobs l : keeps_types (get_kobs l). Proof. apply kt_same. intros m. unfold get_kobs. destruct nth_error; auto. Qed.
Lemma typed_grow m m' : typed m -> lgrow m m' -> l_conts m' = l_conts m -> typed m'.
Proof.
  intros T G E l c N. rewrite E in N. eapply Forall_impl; [|apply (T l c N)]. cbv beta. intros x. apply class_grow; auto.
Qed.
Lemma kt_base {A} (x : M A) : (forall m, (length (m_obs m) <= length (m_obs (fst (x m))))%nat) -> keeps_types (base x).
Proof.
  intros H m m' r T E. unfold base in E. specialize (H (l_mem m)). destruct (x (l_mem m)) as [b r'] eqn:X. injection E as <- <-. cbn in H.
  assert (G : lgrow m (mkL b (l_conts m) (l_kobs m))) by (split; cbn; eauto). split; auto. eapply typed_grow; eauto.
Qed.
Lemma kt_push_cont c : ct_items c = [] -> keeps_types (push_cont c).
Proof.
  intros E0 m m' r T E. injection E as <- <-.
  assert (G : lgrow m (mkL (l_mem m) (l_conts m ++ [c]) (l_kobs m))).
  { split; cbn; auto. intros l x H. exists x. split; auto. apply nth_error_app_l; auto. }
  split; auto. intros l x N. cbn in N. destruct (Nat.lt_ge_cases l (length (l_conts m))) as [L|L].
  - rewrite nth_error_app1 in N by auto. eapply Forall_impl; [|apply (T l x N)]. cbv beta. intros y. apply class_grow; auto.
  - rewrite nth_error_app2 in N by auto. destruct (l - length (l_conts m))%nat as [|k] eqn:K; cbn in N.
    + injection N as <-. rewrite E0. constructor.
    + destruct k; discriminate.
Qed.
Definition with_items (m : lmem) (l : nat) (c : cont) (xs : list ref) : lmem :=
  mkL (l_mem m) (upd (l_conts m) l (mkCont (ct_cls c) xs (ct_meta c))) (l_kobs m).
Lemma nth_upd_same {A} (l : list A) i x : (i < length l)%nat -> nth_error (upd l i x) i = Some x.
Proof. revert i. induction l as [|y l IH]; intros [|i] H; cbn in *; try lia; auto. apply IH. lia. Qed.
Lemma lgrow_items m l c xs : nth_error (l_conts m) l = Some c -> lgrow m (with_items m l c xs).
Proof.
  intros N. split; cbn; auto. intros k x K. destruct (Nat.eq_dec l k) as [<-|D].
  - rewrite nth_upd_same by (apply nth_error_Some; congruence). eexists. split; [reflexivity|]. cbn. congruence.
  - rewrite nth_upd_ne by auto. eauto.
Qed.
Lemma typed_items m l c xs : typed m -> nth_error (l_conts m) l = Some c ->
  Forall (fun x => class_of m x = Some (elem (ct_cls c))) xs -> typed (with_items m l c xs).
Proof.
  intros T N F k x K. cbn in K. pose proof (lgrow_items m l c xs N) as G. destruct (Nat.eq_dec l k) as [<-|D].
  - apply nth_upd_eq' in K as ->. cbn. eapply Forall_impl; [|exact F]. cbv beta. intros y. apply class_grow; auto.
  - rewrite nth_upd_ne in K by auto. eapply Forall_impl; [|apply (T _ _ K)]. cbv beta. intros y. apply class_grow; auto.
Qed.
Lemma append_eq l x m : append l x m =
  match nth_error (l_conts m) l with
  | None => (m, Raise OtherError)
  | Some c => match class_of m x with
              | Some k => if cls_eqb (elem (ct_cls c)) k then (with_items m l c (ct_items c ++ [x]), Ok tt) else (m, Raise AssertionError)
              | None => (m, Raise AssertionError)
              end
  end.
Proof.
  unfold append, lbind, get_cont. destruct (nth_error (l_conts m) l) as [c|] eqn:N; auto. unfold isinstance.
  destruct (class_of m x) as [k|]; [destruct (cls_eqb (elem (ct_cls c)) k)|]; cbn [lassert lret lfail]; auto. unfold put_items. rewrite N. reflexivity.
Qed.
Lemma setitem_eq l i x m : setitem l i x m =
  match nth_error (l_conts m) l with
  | None => (m, Raise OtherError)
  | Some c => match class_of m x with
              | Some k => if cls_eqb (elem (ct_cls c)) k then
                            match list_index (length (ct_items c)) i with
                            | Some j => (with_items m l c (upd (ct_items c) j x), Ok tt)
                            | None => (m, Raise IndexError)
                            end
                          else (m, Raise AssertionError)
              | None => (m, Raise AssertionError)
              end
  end.
Proof.
  unfold setitem, lbind, get_cont. destruct (nth_error (l_conts m) l) as [c|] eqn:N; auto. unfold isinstance.
  destruct (class_of m x) as [k|]; [destruct (cls_eqb (elem (ct_cls c)) k)|]; cbn [lassert lret lfail]; auto.
  destruct (list_index _ i); auto. unfold put_items. rewrite N. reflexivity.
Qed.
Lemma kt_append l x : keeps_types (append l x).
Proof.
  intros m m' r T E. rewrite append_eq in E. destruct (nth_error (l_conts m) l) as [c|] eqn:N; [|injection E as <- <-; auto using lgrow_refl].
  destruct (class_of m x) as [k|] eqn:K; [|injection E as <- <-; auto using lgrow_refl].
  destruct (cls_eqb (elem (ct_cls c)) k) eqn:Q; injection E as <- <-; [|auto using lgrow_refl].
  apply cls_eqb_eq in Q. split; [|apply lgrow_items; auto]. apply typed_items; auto. apply Forall_app. split; [apply (T _ _ N)|].
  constructor; auto. congruence.
Qed.
Lemma Forall_upd {A} (P : A -> Prop) l i x : Forall P l -> P x -> Forall P (upd l i x).
Proof. intros F X. revert i. induction F; intros [|i]; cbn; constructor; auto. Qed.
Lemma kt_setitem l i x : keeps_types (setitem l i x).
Proof.
  intros m m' r T E. rewrite setitem_eq in E. destruct (nth_error (l_conts m) l) as [c|] eqn:N; [|injection E as <- <-; auto using lgrow_refl].
  destruct (class_of m x) as [k|] eqn:K; [|injection E as <- <-; auto using lgrow_refl].
  destruct (cls_eqb (elem (ct_cls c)) k) eqn:Q; [|injection E as <- <-; auto using lgrow_refl].
  apply cls_eqb_eq in Q. destruct (list_index _ i); injection E as <- <-; [|auto using lgrow_refl].
  split; [|apply lgrow_items; auto]. apply typed_items; auto. apply Forall_upd; [apply (T _ _ N)|congruence].
Qed.

(** ---- the memory of observations is that of a program ---- *)
Definition reached (m : mem) : Prop := exists p, m = exec empty_mem p.
Lemma reached_step m o : reached m -> reached (fst (step o m)).
Proof. intros [p ->]. exists (p ++ [o]). rewrite exec_app. reflexivity. Qed.
Definition bgrow (m m' : mem) : Prop := exists q, m' = exec m q.
Lemma bgrow_refl m : bgrow m m. Proof. exists []. reflexivity. Qed.
Lemma bgrow_trans a b c : bgrow a b -> bgrow b c -> bgrow a c.
Proof. intros [p ->] [q ->]. exists (p ++ q). rewrite exec_app. reflexivity. Qed.
Lemma bgrow_step m o : bgrow m (fst (step o m)). Proof. exists [o]. reflexivity. Qed.
Lemma reached_grow m m' : reached m -> bgrow m m' -> reached m'.
Proof. intros [p ->] [q ->]. exists (p ++ q). rewrite exec_app. reflexivity. Qed.
Lemma bgrow_obs m m' : reached m -> bgrow m m' -> (length (m_obs m) <= length (m_obs m'))%nat.
Proof.
  intros [p ->] [q ->]. destruct (exec_safe nowhere q (exec empty_mem p) (reach_inv p)) as [_ L].
  - apply Forall_forall. intros x _. repeat split; auto.
  - destruct L; auto.
Qed.
Lemma bgrow_metas m m' : reached m -> bgrow m m' -> (length (m_metas m) <= length (m_metas m'))%nat.
Proof.
  intros [p ->] [q ->]. destruct (exec_safe nowhere q (exec empty_mem p) (reach_inv p)) as [_ L].
  - apply Forall_forall. intros x _. repeat split; auto.
  - destruct L; auto.
Qed.
Lemma bgrow_meta_value d m : bgrow m (fst (meta_value d m)).
Proof.
  destruct d as [|i|]; cbn [meta_value].
  - apply (bgrow_step m (NewMeta [])).
  - unfold bindM, get_meta. destruct (nth_error (m_metas m) i); apply bgrow_refl.
  - apply bgrow_refl.
Qed.
Definition lprog {A} (x : LM A) : Prop := forall m, bgrow (l_mem m) (l_mem (fst (x m))).
Lemma lp_bind {A B} (x : LM A) (f : A -> LM B) : lprog x -> (forall a, lprog (f a)) -> lprog (lbind x f).
Proof.
  intros Hx Hf m. unfold lbind. specialize (Hx m). destruct (x m) as [m1 [a|e]]; cbn [fst] in *; auto.
  eapply bgrow_trans; [exact Hx|apply Hf].
Qed.
Lemma lp_same {A} (x : LM A) : (forall m, l_mem (fst (x m)) = l_mem m) -> lprog x.
Proof. intros H m. rewrite H. apply bgrow_refl. Qed.
Lemma lp_ret {A} (a : A) : lprog (lret a). Proof. apply lp_same. auto. Qed.
Lemma lp_fail {A} e : lprog (@lfail A e). Proof. apply lp_same. auto. Qed.
Lemma lp_assert b e : lprog (lassert b e). Proof. destruct b; [apply lp_ret|apply lp_fail]. Qed.
Lemma lp_isinstance x c : lprog (isinstance x c). Proof. apply lp_same. auto. Qed.
Lemma lp_get_cont l : lprog (get_cont l). Proof. apply lp_same. intros m. unfold get_cont. destruct nth_error; auto. Qed.
Lemma lp_get_kobs l : lprog (get_kobs l). Proof. apply lp_same. intros m. unfold get_kobs. destruct nth_error; auto. Qed.
Lemma lp_push_cont l : lprog (push_cont l). Proof. apply lp_same. auto. Qed.
Lemma lp_put_items l x : lprog (put_items l x). Proof. apply lp_same. intros m. unfold put_items. destruct nth_error; auto. Qed.
Lemma lp_put_kpsf l x : lprog (put_kpsf l x). Proof. apply lp_same. intros m. unfold put_kpsf. destruct nth_error; auto. Qed.
Lemma lp_base {A} (x : M A) : (forall m, bgrow m (fst (x m))) -> lprog (base x).
Proof. intros H m. unfold base. specialize (H (l_mem m)). destruct (x (l_mem m)); auto. Qed.
Ltac lp := repeat first [match goal with |- lprog (lbind _ _) => apply lp_bind; [|intros] end | apply lp_ret | apply lp_fail | apply lp_assert | apply lp_isinstance | apply lp_get_cont
  | apply lp_get_kobs | apply lp_push_cont | apply lp_put_items | apply lp_put_kpsf].
Lemma lp_append l x : lprog (append l x). Proof. unfold append. lp. Qed.
Lemma lp_new_cont c d : lprog (new_cont c d). Proof. unfold new_cont. lp. apply lp_base. apply bgrow_meta_value. Qed.
Lemma lp_setitem l i x : lprog (setitem l i x). Proof. unfold setitem. lp. destruct list_index; lp. Qed.
Lemma lp_setslice l a b x : lprog (setslice l a b x). Proof. unfold setslice. lp. destruct x; lp. Qed.
Lemma lp_copy depth : forall x, lprog (copy_ref depth x).
Proof.
  induction depth as [|depth IH]; intros x; cbn [copy_ref]; lp. destruct x as [i|i|l|]; lp.
  - apply lp_base. intros m. apply (bgrow_step m (CopyObs i)).
  - destruct (ct_cls a); lp.
    + apply lp_base. intros m. unfold get_meta. destruct nth_error; apply bgrow_refl.
    + apply lp_base. intros m. apply (bgrow_step m (NewMeta a0)).
    + generalize (ct_items a). intros xs. induction xs; cbn [copy_items]; lp; auto using lp_append.
    + apply lp_base. intros m. unfold get_meta. destruct nth_error; apply bgrow_refl.
    + apply lp_base. intros m. apply (bgrow_step m (NewMeta a0)).
    + generalize (ct_items a). intros xs. induction xs; cbn [copy_items]; lp; auto using lp_append.
Qed.
Lemma lp_multi a b c x : lprog (to_multiband a b c x).
Proof.
  unfold to_multiband. do 3 (lp; try match goal with |- lprog (if ?x then _ else _) => destruct x end; lp; auto using lp_new_cont, lp_append).
Qed.
Lemma lp_kset_psf i p : lprog (kset_psf i p).
Proof. unfold kset_psf. lp. destruct p as [x|]; lp. destruct x; lp. Qed.
Lemma lp_step o : lprog (lstep o).
Proof.
  destruct o; cbn [lstep]; unfold done; lp; auto using lp_new_cont, lp_append, lp_setitem, lp_setslice, lp_kset_psf, lp_multi.
  - apply lp_base. intros m. apply bgrow_step.
  - unfold extend. lp.
  - unfold insert. lp.
  - intros m. apply lp_copy.
  - apply lp_multi.
  - apply lp_multi.
  - unfold new_kobs. lp; [apply lp_same; auto|]. apply lp_kset_psf.
Qed.
Lemma lexec_reached p : forall m, reached (l_mem m) -> reached (l_mem (lexec m p)).
Proof.
  induction p as [|o p IH]; intros m H; cbn [lexec]; auto. apply IH. eapply reached_grow; [exact H|]. apply lp_step.
Qed.
Lemma empty_reached : reached (l_mem empty_lmem). Proof. exists []. reflexivity. Qed.

(** ---- C36: types ---- *)
(** base computations never lose observations, on reachable memories *)
Definition kt' {A} (x : LM A) : Prop := forall m m' r, reached (l_mem m) -> typed m -> x m = (m', r) -> reached (l_mem m') /\ typed m' /\ lgrow m m'.
Lemma kt'_of {A} (x : LM A) : lprog x -> keeps_types x -> kt' x.
Proof.
  intros L K m m' r R T E. split; [|eapply K; eauto]. eapply reached_grow; [exact R|]. specialize (L m). rewrite E in L. exact L.
Qed.
Lemma kt'_bind {A B} (x : LM A) (f : A -> LM B) : kt' x -> (forall a, kt' (f a)) -> kt' (lbind x f).
Proof.
  intros Hx Hf m m' r R T E. apply lbind_inv in E. destruct E as [(e & E & _)|(m1 & a & E & E2)].
  - eapply Hx; eauto.
  - destruct (Hx _ _ _ R T E) as (R1 & T1 & G1). destruct (Hf a _ _ _ R1 T1 E2) as (R2 & T2 & G2). split; [auto|split; [auto|]]. eapply lgrow_trans; eauto.
Qed.
Lemma kt'_base {A} (x : M A) : (forall m, bgrow m (fst (x m))) -> kt' (base x).
Proof.
  intros H m m' r R T E. unfold base in E. specialize (H (l_mem m)). destruct (x (l_mem m)) as [b r'] eqn:X. injection E as <- <-. cbn in H.
  split; [eapply reached_grow; eauto|]. pose proof (bgrow_obs _ _ R H).
  assert (G : lgrow m (mkL b (l_conts m) (l_kobs m))) by (split; cbn; eauto). split; auto. eapply typed_grow; eauto.
Qed.
Ltac kt := repeat first [match goal with |- kt' (lbind _ _) => apply kt'_bind; [|intros] end | apply kt'_of; [apply lp_ret|apply kt_ret] | apply kt'_of; [apply lp_fail|apply kt_fail]
  | apply kt'_of; [apply lp_assert|apply kt_assert] | apply kt'_of; [apply lp_isinstance|apply kt_isinstance]
  | apply kt'_of; [apply lp_get_cont|apply kt_get_cont] | apply kt'_of; [apply lp_get_kobs|apply kt_get_kobs]
  | apply kt'_of; [apply lp_append|apply kt_append] | apply kt'_of; [apply lp_setitem|apply kt_setitem]
  | apply kt'_of; [apply lp_push_cont|apply kt_push_cont; reflexivity] ].
Lemma kt_new_cont c d : kt' (new_cont c d).
Proof. unfold new_cont. kt. apply kt'_base. apply bgrow_meta_value. Qed.
Lemma kt_copy depth : forall x, kt' (copy_ref depth x).
Proof.
  induction depth as [|depth IH]; intros x; cbn [copy_ref]; kt. destruct x as [i|i|l|]; kt.
  - apply kt'_base. intros m. apply (bgrow_step m (CopyObs i)).
  - destruct (ct_cls a); kt.
    + apply kt'_base. intros m. unfold get_meta. destruct nth_error; apply bgrow_refl.
    + apply kt'_base. intros m. apply (bgrow_step m (NewMeta a0)).
    + generalize (ct_items a). intros xs. induction xs; cbn [copy_items]; kt; auto.
    + apply kt'_base. intros m. unfold get_meta. destruct nth_error; apply bgrow_refl.
    + apply kt'_base. intros m. apply (bgrow_step m (NewMeta a0)).
    + generalize (ct_items a). intros xs. induction xs; cbn [copy_items]; kt; auto.
Qed.
Lemma kt_multi a b c x : kt' (to_multiband a b c x).
Proof.
  unfold to_multiband. do 3 (kt; try match goal with |- kt' (if ?x then _ else _) => destruct x end; kt; try apply kt_new_cont).
Qed.
Lemma kt_kobs {A} (x : LM A) : (forall m, l_mem (fst (x m)) = l_mem m /\ l_conts (fst (x m)) = l_conts m /\ (length (l_kobs m) <= length (l_kobs (fst (x m))))%nat) -> kt' x.
Proof.
  intros H m m' r R T E. specialize (H m). rewrite E in H. cbn in H. destruct H as (A1 & A2 & A3).
  assert (G : lgrow m m'). { split; [rewrite A1; auto|auto|rewrite A2; eauto]. }
  split; [rewrite A1; auto|]. split; auto. eapply typed_grow; eauto.
Qed.
Lemma kt_put_kpsf i p : kt' (put_kpsf i p).
Proof. apply kt_kobs. intros m. unfold put_kpsf. destruct nth_error; cbn; rewrite ?upd_length'; auto. Qed.
Lemma kt_kset_psf i p : kt' (kset_psf i p).
Proof. unfold kset_psf. kt; [apply kt_put_kpsf|]. destruct p as [x|]; kt. destruct x; kt; apply kt_put_kpsf. Qed.
Lemma kt_step o : checked o -> kt' (lstep o).
Proof.
  destruct o; cbn [lstep checked]; intros C; try contradiction; unfold done; kt.
  - apply kt'_base. intros m. apply bgrow_step.
  - apply kt_new_cont.
  - intros m m' r R T E. eapply kt_copy; eauto.
  - apply kt_multi.
  - apply kt_multi.
  - unfold new_kobs. kt; [|apply kt_kset_psf]. apply kt_kobs. intros m. cbn. rewrite app_length. cbn. split; [auto|split; [auto|lia]].
  - apply kt_kset_psf.
Qed.
Theorem types_kept p : Forall checked p -> forall m, reached (l_mem m) -> typed m -> typed (lexec m p).
Proof.
  intros F. induction F as [|o p H _ IH]; intros m R T; cbn [lexec]; auto.
  destruct (lstep o m) as [m' r] eqn:E. destruct (kt_step o H m m' r R T E) as (R1 & T1 & _). apply IH; auto.
Qed.
Theorem types_invariant p : Forall checked p -> typed (lexec empty_lmem p).
Proof. intros F. apply types_kept; auto using empty_reached. intros l c N. destruct l; discriminate. Qed.

(** effects of append and item assignment *)
Theorem append_effect m l x m' : lstep (LAppend l x) m = (m', Ok ROther) ->
  exists c, nth_error (l_conts m) l = Some c /\ class_of m x = Some (elem (ct_cls c)) /\
    nth_error (l_conts m') l = Some (mkCont (ct_cls c) (ct_items c ++ [x]) (ct_meta c)) /\
    (forall k, k <> l -> nth_error (l_conts m') k = nth_error (l_conts m) k) /\ l_mem m' = l_mem m.
Proof.
  cbn [lstep]. unfold done, lbind. rewrite append_eq. destruct (nth_error (l_conts m) l) as [c|] eqn:N; [|discriminate].
  destruct (class_of m x) as [k|] eqn:K; [|discriminate]. destruct (cls_eqb (elem (ct_cls c)) k) eqn:Q; [|discriminate]. apply cls_eqb_eq in Q.
  intros [= <-]. exists c. split; [auto|]. split; [congruence|]. cbn. split; [apply nth_upd_same; apply nth_error_Some; congruence|].
  split; auto. intros j J. apply nth_upd_ne. auto.
Qed.
Theorem setitem_effect m l i x m' : lstep (LSetItem l i x) m = (m', Ok ROther) ->
  exists c k, nth_error (l_conts m) l = Some c /\ class_of m x = Some (elem (ct_cls c)) /\ (k < length (ct_items c))%nat /\
    (i = Z.of_nat k \/ i = Z.of_nat k - Z.of_nat (length (ct_items c)))%Z /\
    nth_error (l_conts m') l = Some (mkCont (ct_cls c) (upd (ct_items c) k x) (ct_meta c)) /\
    (forall k, k <> l -> nth_error (l_conts m') k = nth_error (l_conts m) k) /\ l_mem m' = l_mem m.
Proof.
  cbn [lstep]. unfold done, lbind. rewrite setitem_eq. destruct (nth_error (l_conts m) l) as [c|] eqn:N; [|discriminate].
  destruct (class_of m x) as [k|] eqn:K; [|discriminate]. destruct (cls_eqb (elem (ct_cls c)) k) eqn:Q; [|discriminate]. apply cls_eqb_eq in Q.
  unfold list_index. set (n := length (ct_items c)).
  assert (X : forall j, (j < n)%nat -> (i = Z.of_nat j \/ i = Z.of_nat j - Z.of_nat n)%Z ->
    (with_items m l c (upd (ct_items c) j x), @Ok ref ROther) = (m', Ok ROther) -> exists c0 k0,
    Some c = Some c0 /\ Some k = Some (elem (ct_cls c0)) /\ (k0 < length (ct_items c0))%nat /\ (i = Z.of_nat k0 \/ i = Z.of_nat k0 - Z.of_nat (length (ct_items c0)))%Z /\
    nth_error (l_conts m') l = Some (mkCont (ct_cls c0) (upd (ct_items c0) k0 x) (ct_meta c0)) /\
    (forall k, k <> l -> nth_error (l_conts m') k = nth_error (l_conts m) k) /\ l_mem m' = l_mem m).
  { intros j J1 J2 [= <-]. exists c, j. fold n. split; [auto|]. split; [congruence|]. split; [auto|]. split; [auto|]. cbn.
    split; [apply nth_upd_same; apply nth_error_Some; congruence|]. split; auto. intros y J. apply nth_upd_ne. auto. }
  destruct (Z.leb_spec 0 i).
  - destruct (Z.ltb_spec i (Z.of_nat n)); [|discriminate]. apply X; lia.
  - destruct (Z.leb_spec (- Z.of_nat n) i); [|discriminate]. apply X; lia.
Qed.
Theorem failed_unchanged m o e m' : (exists l x, o = LAppend l x) \/ (exists l i x, o = LSetItem l i x) ->
  lstep o m = (m', Raise e) -> m' = m.
Proof.
  intros [(l & x & ->)|(l & i & x & ->)]; cbn [lstep]; unfold done, lbind; rewrite ?append_eq, ?setitem_eq;
    (destruct (nth_error (l_conts m) l) as [c|]; [|intros [= <- _]; auto]);
    (destruct (class_of m x) as [k|]; [|intros [= <- _]; auto]); destruct (cls_eqb (elem (ct_cls c)) k); try (intros [= <- _]; auto; fail); try discriminate.
  destruct (list_index _ i); [discriminate|intros [= <- _]; auto].
Qed.

(** ---- get_mb_obs ---- *)
Lemma same_before_refl m : same_before m m. Proof. repeat split; auto. Qed.
Definition pushed (m : lmem) (c : cont) : lmem :=
  mkL (mkMem (m_bufs (l_mem m)) (m_arrs (l_mem m)) (m_metas (l_mem m) ++ [[]]) (m_obs (l_mem m))) (l_conts m ++ [c]) (l_kobs m).
Lemma new_cont_eq c m :
  new_cont c DNone m = (pushed m (mkCont c [] (length (m_metas (l_mem m)))), Ok (length (l_conts m))).
Proof. reflexivity. Qed.
Lemma upd_last {A} (l : list A) x y : upd (l ++ [x]) (length l) y = l ++ [y].
Proof. induction l; cbn; auto. f_equal. auto. Qed.
Lemma class_pushed m c x k : class_of m x = Some k -> class_of (pushed m c) x = Some k.
Proof.
  apply class_grow. split; cbn; auto. intros l y H. exists y. split; auto. apply nth_error_app_l; auto.
Qed.
Lemma append_new m c x : class_of m x = Some (elem c) ->
  append (length (l_conts m)) x (pushed m (mkCont c [] (length (m_metas (l_mem m))))) =
    (pushed m (mkCont c [x] (length (m_metas (l_mem m)))), Ok tt).
Proof.
  intros H. rewrite append_eq. cbn [pushed l_conts]. rewrite nth_error_app2, Nat.sub_diag by lia. cbn [nth_error].
  rewrite (class_pushed m _ x _ H). cbn [ct_cls]. destruct (cls_eqb (elem c) (elem c)) eqn:E.
  - unfold with_items, pushed. cbn [l_mem l_conts l_kobs ct_cls ct_items ct_meta app]. rewrite upd_last. reflexivity.
  - assert (cls_eqb (elem c) (elem c) = true) by (apply cls_eqb_eq; auto). congruence.
Qed.
Lemma same_pushed m c : same_before m (pushed m c).
Proof.
  repeat split; cbn; auto; intros; apply nth_error_app_l; auto.
Qed.
Lemma same_before_trans a b c : same_before a b -> same_before b c -> same_before a c.
Proof.
  intros (A1 & A2 & A3 & A4 & A5 & A6) (B1 & B2 & B3 & B4 & B5 & B6).
  split; [congruence|split; [congruence|split; [congruence|split; [eauto|split; [eauto|congruence]]]]].
Qed.
Lemma multi_cases co cl cm x m : co <> CC cl -> co <> CC cm -> cl <> cm -> elem cl = co -> elem cm = CC cl ->
  (class_of m x = Some co -> exists m' l b, to_multiband co cl cm x m = (m', Ok (RCont b)) /\ same_before m m' /\
     nth_error (l_conts m) l = None /\ nth_error (l_conts m) b = None /\
     (exists d, nth_error (l_conts m') l = Some (mkCont cl [x] d)) /\ (exists d, nth_error (l_conts m') b = Some (mkCont cm [RCont l] d))) /\
  (class_of m x = Some (CC cl) -> exists m' b, to_multiband co cl cm x m = (m', Ok (RCont b)) /\ same_before m m' /\
     nth_error (l_conts m) b = None /\ (exists d, nth_error (l_conts m') b = Some (mkCont cm [x] d))) /\
  (class_of m x = Some (CC cm) -> to_multiband co cl cm x m = (m, Ok x)) /\
  (class_of m x <> Some co -> class_of m x <> Some (CC cl) -> class_of m x <> Some (CC cm) -> to_multiband co cl cm x m = (m, Raise ValueError)).
Proof.
  intros D1 D2 D3 E1 E2. unfold to_multiband.
  assert (T : forall a, cls_eqb a a = true) by (intros; apply cls_eqb_eq; auto).
  assert (N : forall a b, a <> b -> cls_eqb a b = false). { intros a b H. destruct (cls_eqb a b) eqn:E; auto. apply cls_eqb_eq in E. congruence. }
  split; [|split; [|split]].
  - intros K. unfold lbind at 1, isinstance. rewrite K, T. unfold lbind. rewrite new_cont_eq. rewrite append_new by congruence.
    set (m1 := pushed m (mkCont cl [x] (length (m_metas (l_mem m))))). rewrite new_cont_eq.
    assert (K1 : class_of m1 (RCont (length (l_conts m))) = Some (elem cm)).
    { unfold m1. cbn. rewrite nth_error_app2, Nat.sub_diag by lia. cbn. congruence. }
    rewrite (append_new m1 cm _ K1). unfold lret. do 3 eexists. split; [reflexivity|]. split; [eapply same_before_trans; apply same_pushed|].
    split; [apply nth_error_None; reflexivity|]. split; [apply nth_error_None; unfold m1; cbn; rewrite app_length; cbn; lia|].
    unfold m1; cbn [pushed l_conts l_mem m_metas]. split.
    + eexists. rewrite nth_error_app1 by (rewrite app_length; cbn; lia). rewrite nth_error_app2, Nat.sub_diag by lia. reflexivity.
    + eexists. rewrite nth_error_app2, Nat.sub_diag by lia. reflexivity.
  - intros K. unfold lbind at 1, isinstance at 1. rewrite K, (N co (CC cl)) by auto. unfold lbind at 1, isinstance at 1. rewrite K, T.
    unfold lbind. rewrite new_cont_eq. rewrite append_new by congruence. do 2 eexists. split; [reflexivity|]. split; [apply same_pushed|].
    split; [apply nth_error_None; lia|]. eexists. cbn. rewrite nth_error_app2, Nat.sub_diag by lia. reflexivity.
  - intros K. unfold lbind at 1, isinstance at 1. rewrite K, (N co (CC cm)) by auto. unfold lbind at 1, isinstance at 1. rewrite K, (N (CC cl) (CC cm)) by congruence.
    unfold lbind at 1, isinstance at 1. rewrite K, T. reflexivity.
  - intros K1 K2 K3. destruct (class_of m x) as [k|] eqn:K.
    + unfold lbind at 1, isinstance at 1. rewrite K, (N co k) by congruence. unfold lbind at 1, isinstance at 1. rewrite K, (N (CC cl) k) by congruence.
      unfold lbind at 1, isinstance at 1. rewrite K, (N (CC cm) k) by congruence. reflexivity.
    + do 3 (unfold lbind at 1, isinstance at 1; rewrite K). reflexivity.
Qed.
Lemma class_list m l c : nth_error (l_conts m) l = Some c -> class_of m (RCont l) = Some (CC (ct_cls c)).
Proof. intros N. cbn. rewrite N. auto. Qed.
Theorem get_mb_spec m :
  (forall i, (i < length (m_obs (l_mem m)))%nat -> exists m' b l, get_mb_obs (RObs i) m = (m', Ok (RCont b)) /\ same_before m m' /\
     is_mb m' b [l] /\ is_list m' l [i]) /\
  (forall l is, is_list m l is -> exists m' b, get_mb_obs (RCont l) m = (m', Ok (RCont b)) /\ same_before m m' /\
     is_mb m' b [l] /\ is_list m' l is) /\
  (forall b ls, is_mb m b ls -> get_mb_obs (RCont b) m = (m, Ok (RCont b))) /\
  (forall x, class_of m x <> Some COb -> class_of m x <> Some (CC CList) -> class_of m x <> Some (CC CMb) -> get_mb_obs x m = (m, Raise ValueError)).
Proof.
  assert (D : COb <> CC CList /\ COb <> CC CMb /\ CList <> CMb) by (repeat split; discriminate). destruct D as (D1 & D2 & D3).
  pose proof (fun x => multi_cases COb CList CMb x m D1 D2 D3 eq_refl eq_refl) as C.
  split; [|split; [|split]].
  - intros i H. destruct (C (RObs i)) as (C1 & _). destruct C1 as (m' & l & b & E & S & _ & _ & (d1 & H1) & (d2 & H2)).
    { unfold class_of. apply Nat.ltb_lt in H. rewrite H. auto. }
    exists m', b, l. split; [exact E|]. split; [exact S|]. split; eexists; split; [exact H2|split; reflexivity|exact H1|split; reflexivity].
  - intros l is (c & N & K & I). destruct (C (RCont l)) as (_ & C2 & _). destruct C2 as (m' & b & E & S & _ & (d & H)).
    { rewrite (class_list _ _ _ N), K. auto. }
    exists m', b. split; [exact E|]. split; [exact S|]. split.
    + eexists; split; [exact H|split; reflexivity].
    + exists c. split; [|split; auto]. apply S. auto.
  - intros b ls (c & N & K & I). destruct (C (RCont b)) as (_ & _ & C3 & _). apply C3. rewrite (class_list _ _ _ N), K. auto.
  - intros x. apply C.
Qed.
(** in a typed memory the lists are lists of observations *)
Lemma typed_list m l c : typed m -> nth_error (l_conts m) l = Some c -> ct_cls c = CList -> exists is, is_list m l is /\ Forall (fun i => i < length (m_obs (l_mem m)))%nat is.
Proof.
  intros T N K. pose proof (T l c N) as F. rewrite K in F. cbn [elem] in F.
  enough (exists is, ct_items c = map RObs is /\ Forall (fun i => i < length (m_obs (l_mem m)))%nat is) as (is & H & G) by (exists is; split; auto; exists c; auto).
  induction (ct_items c) as [|x xs IH]; [exists []; auto|]. apply Forall_cons_iff in F as [F1 F2]. destruct (IH F2) as (is & -> & Q).
  destruct x as [i|i|k|]; unfold class_of in F1; try discriminate.
  - exists (i :: is). split; auto. constructor; auto. destruct (Nat.ltb_spec i (length (m_obs (l_mem m)))); auto; discriminate.
  - destruct (Nat.ltb i (length (l_kobs m))); discriminate.
  - destruct (nth_error (l_conts m) k); discriminate.
Qed.
