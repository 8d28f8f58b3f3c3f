(** Frame reasoning for the Observation model: a zone is a set of objects; a program that
    does not mention them leaves them alone. *)
From Verif Require Import Base Jacobian_Model Pixels_Model Obs_Model Obs_Spec.

Lemma bindM_inv {A B} (x : M A) (f : A -> M B) m m' r : bindM x f m = (m', r) ->
  (exists e, x m = (m', Raise e) /\ r = Raise e) \/ (exists m1 a, x m = (m1, Ok a) /\ f a m1 = (m', r)).
Proof.
  unfold bindM. destruct (x m) as [m1 [a|e]] eqn:E; intros H.
  - right. exists m1, a. auto.
  - left. exists e. injection H as <- <-. auto.
Qed.

(** membership of arrays, buffers, dictionaries and observations *)
Record zone := mkZone { za : nat -> bool; zb : nat -> bool; zm : nat -> bool; zo : nat -> bool }.

Definition refs_in (Z : zone) (m : mem) (k : bool) (o : obs) : Prop :=
  let okA a := (a < length (m_arrs m))%nat /\ za Z a = k in
  okA (ob_image o) /\ okA (ob_weight o) /\ okA (ob_jac o) /\
  (forall s a, ob_opt o s = Some a -> okA a) /\
  (forall p, ob_psf o = Some p -> (p < length (m_obs m))%nat /\ zo Z p = k) /\
  ((ob_meta o < length (m_metas m))%nat /\ zm Z (ob_meta o) = k).

Record Inv (Z : zone) (m : mem) : Prop := mkInv {
  inv_arr : forall a x, nth_error (m_arrs m) a = Some x -> (a_buf x < length (m_bufs m))%nat /\ zb Z (a_buf x) = za Z a;
  inv_obs : forall i o, nth_error (m_obs m) i = Some o -> refs_in Z m (zo Z i) o;
  inv_newa : forall a, (length (m_arrs m) <= a)%nat -> za Z a = false;
  inv_newb : forall a, (length (m_bufs m) <= a)%nat -> zb Z a = false;
  inv_newm : forall a, (length (m_metas m) <= a)%nat -> zm Z a = false;
  inv_newo : forall a, (length (m_obs m) <= a)%nat -> zo Z a = false }.

(** the memory may only have grown, and the zone is as it was *)
Record later (Z : zone) (m m' : mem) : Prop := mkLater {
  lt_a : (length (m_arrs m) <= length (m_arrs m'))%nat;
  lt_b : (length (m_bufs m) <= length (m_bufs m'))%nat;
  lt_m : (length (m_metas m) <= length (m_metas m'))%nat;
  lt_o : (length (m_obs m) <= length (m_obs m'))%nat;
  same_a : forall a, za Z a = true -> nth_error (m_arrs m') a = nth_error (m_arrs m) a;
  same_b : forall a, zb Z a = true -> nth_error (m_bufs m') a = nth_error (m_bufs m) a;
  same_m : forall a, zm Z a = true -> nth_error (m_metas m') a = nth_error (m_metas m) a;
  same_o : forall a, zo Z a = true -> nth_error (m_obs m') a = nth_error (m_obs m) a }.

Lemma later_refl Z m : later Z m m. Proof. split; auto. Qed.
Lemma later_trans Z a b c : later Z a b -> later Z b c -> later Z a c.
Proof.
  intros [] []. split; try lia; intros x H.
  - rewrite same_a1 by auto. auto.
  - rewrite same_b1 by auto. auto.
  - rewrite same_m1 by auto. auto.
  - rewrite same_o1 by auto. auto.
Qed.

Definition freeA Z m a := (a < length (m_arrs m))%nat /\ za Z a = false.
Definition freeO Z m a := (a < length (m_obs m))%nat /\ zo Z a = false.
Definition freeM Z m a := (a < length (m_metas m))%nat /\ zm Z a = false.

Definition stable (Z : zone) (P : mem -> Prop) : Prop := forall m m', later Z m m' -> P m -> P m'.
Lemma stable_freeA Z a : stable Z (fun m => freeA Z m a).
Proof. intros m m' [] [H1 H2]; split; auto; lia. Qed.
Lemma stable_freeO Z a : stable Z (fun m => freeO Z m a).
Proof. intros m m' [] [H1 H2]; split; auto; lia. Qed.
Lemma stable_freeM Z a : stable Z (fun m => freeM Z m a).
Proof. intros m m' [] [H1 H2]; split; auto; lia. Qed.
Lemma stable_refs Z k o : stable Z (fun m => refs_in Z m k o).
Proof.
  intros m m' L (H1 & H2 & H3 & H4 & H5 & H6). destruct L.
  repeat split; try apply H1; try apply H2; try apply H3; try apply H6;
    try (destruct H1, H2, H3, H6; lia); intros.
  - specialize (H4 _ _ H). lia.
  - apply (H4 _ _ H).
  - specialize (H5 _ H). lia.
  - apply (H5 _ H).
Qed.
Lemma stable_and Z P Q : stable Z P -> stable Z Q -> stable Z (fun m => P m /\ Q m).
Proof. intros HP HQ m m' L [A B]. split; [apply (HP _ _ L A) | apply (HQ _ _ L B)]. Qed.
Lemma stable_true Z : stable Z (fun _ => True). Proof. intros m m' _ _; exact I. Qed.
Lemma stable_forall Z A (P : A -> mem -> Prop) : (forall a, stable Z (P a)) -> stable Z (fun m => forall a, P a m).
Proof. intros H m m' L X a. apply (H a m m' L). auto. Qed.
Lemma stable_imp Z (Q : Prop) P : stable Z P -> stable Z (fun m => Q -> P m).
Proof. intros H m m' L X q. apply (H m m' L). auto. Qed.

(** partial correctness with the zone as frame *)
Definition safe {A} (Z : zone) (P : mem -> Prop) (x : M A) (Q : A -> mem -> Prop) : Prop :=
  forall m m' r, Inv Z m -> P m -> x m = (m', r) ->
    Inv Z m' /\ later Z m m' /\ (forall a, r = Ok a -> Q a m').

Lemma safe_bind {A B} Z P Q R (x : M A) (f : A -> M B) : stable Z P -> safe Z P x Q ->
  (forall a, safe Z (fun m => P m /\ Q a m) (f a) R) -> safe Z P (bindM x f) R.
Proof.
  intros SP Hx Hf m m' r I Pm E. apply bindM_inv in E. destruct E as [(e & E & ->)|(m1 & a & E & E2)].
  - destruct (Hx _ _ _ I Pm E) as (I' & L & _). split; [auto|split; [auto|discriminate]].
  - destruct (Hx _ _ _ I Pm E) as (I' & L & Q1).
    destruct (Hf a m1 m' r I' (conj (SP _ _ L Pm) (Q1 a eq_refl)) E2) as (I2 & L2 & R2).
    split; [auto|split; [eapply later_trans; eauto | auto]].
Qed.
Lemma safe_conseq {A} Z (P P' : mem -> Prop) (x : M A) (Q Q' : A -> mem -> Prop) :
  safe Z P x Q -> (forall m, P' m -> P m) -> (forall a m, Q a m -> Q' a m) -> safe Z P' x Q'.
Proof. intros H HP HQ m m' r I Pm E. destruct (H m m' r I (HP _ Pm) E) as (a & b & c). auto. Qed.
(** facts that stay true may be kept *)
Lemma safe_keep {A} Z P R (x : M A) Q : stable Z R -> safe Z P x Q ->
  safe Z (fun m => P m /\ R m) x (fun a m => Q a m /\ R m).
Proof.
  intros SR H m m' r I [Pm Rm] E. destruct (H m m' r I Pm E) as (a & b & c).
  split; [auto|split; [auto|]]. intros y Hy. split; [auto|]. apply (SR m m' b Rm).
Qed.

Lemma safe_ret {A} Z (P : mem -> Prop) (a : A) (Q : A -> mem -> Prop) : (forall m, P m -> Q a m) -> safe Z P (ret a) Q.
Proof. intros H m m' r I Pm E. injection E as <- <-. split; [auto|split; [apply later_refl|]]. intros x [= <-]. auto. Qed.
Lemma safe_fail {A} Z P e (Q : A -> mem -> Prop) : safe Z P (fail e) Q.
Proof. intros m m' r I Pm E. injection E as <- <-. split; [auto|split; [apply later_refl|discriminate]]. Qed.
Lemma safe_lift {A} Z P (x : res A) : safe Z P (lift x) (fun _ _ => True).
Proof. intros m m' r I Pm E. injection E as <- <-. split; [auto|split; [apply later_refl|auto]]. Qed.
Lemma safe_assert Z P b e : safe Z P (assert b e) (fun _ _ => b = true).
Proof. destruct b; [apply safe_ret; auto | apply safe_fail]. Qed.

Lemma safe_get_obs Z P i : safe Z P (get_obs i) (fun o m => refs_in Z m (zo Z i) o).
Proof.
  intros m m' r I Pm E. unfold get_obs in E. destruct (nth_error (m_obs m) i) eqn:N; injection E as <- <-;
    split; auto; split; auto using later_refl; intros o' [= <-]. apply (inv_obs Z m I _ _ N).
Qed.
Lemma safe_get_arr Z P i : safe Z P (get_arr i)
  (fun x m => (i < length (m_arrs m))%nat /\ (a_buf x < length (m_bufs m))%nat /\ zb Z (a_buf x) = za Z i).
Proof.
  intros m m' r I Pm E. unfold get_arr in E. destruct (nth_error (m_arrs m) i) eqn:N; injection E as <- <-;
    split; auto; split; auto using later_refl; intros o' [= <-].
  destruct (inv_arr Z m I _ _ N). repeat split; auto. apply nth_error_Some. congruence.
Qed.
Lemma safe_get_meta Z P i : safe Z P (get_meta i) (fun _ m => (i < length (m_metas m))%nat).
Proof.
  intros m m' r I Pm E. unfold get_meta in E. destruct (nth_error (m_metas m) i) eqn:N; injection E as <- <-;
    split; auto; split; auto using later_refl; intros o' [= <-]. apply nth_error_Some. congruence.
Qed.
Lemma safe_get_buf Z P i : safe Z P (get_buf i) (fun _ _ => True).
Proof.
  intros m m' r I Pm E. unfold get_buf in E. destruct (nth_error (m_bufs m) i) eqn:N; injection E as <- <-;
    split; auto; split; auto using later_refl.
Qed.

Lemma nth_app_false {A} (l : list A) x a (z : nat -> bool) : (forall a, length l <= a -> z a = false)%nat ->
  z a = true -> nth_error (l ++ x) a = nth_error l a.
Proof.
  intros H Ha. destruct (Nat.lt_ge_cases a (length l)) as [L|L].
  - apply nth_error_app1; auto.
  - rewrite H in Ha by auto. discriminate.
Qed.
Lemma upd_length' {A} (l : list A) i x : length (upd l i x) = length l.
Proof. revert i; induction l; destruct i; cbn; auto. Qed.
Lemma nth_upd_eq' {A} (l : list A) i x y : nth_error (upd l i x) i = Some y -> y = x.
Proof. revert i; induction l; destruct i; cbn; try discriminate; intros; try congruence. eauto. Qed.
Lemma nth_upd_ne {A} (l : list A) i k x : i <> k -> nth_error (upd l i x) k = nth_error l k.
Proof. revert i k; induction l; destruct i, k; cbn; intros; auto; try congruence. Qed.

Lemma safe_new_arr Z P c w : safe Z P (new_arr c w) (fun a m => freeA Z m a).
Proof.
  intros m m' r I Pm E. injection E as <- <-. destruct I.
  split; [|split].
  - split; cbn.
    + intros a x H. destruct (Nat.lt_ge_cases a (length (m_arrs m))) as [L|L].
      * rewrite nth_error_app1 in H by auto. destruct (inv_arr0 _ _ H). rewrite app_length; cbn; split; auto; lia.
      * rewrite nth_error_app2 in H by auto. destruct (a - length (m_arrs m))%nat as [|[|n]]; cbn in H; try discriminate.
        injection H as <-. cbn. rewrite app_length; cbn. rewrite inv_newa0, inv_newb0 by lia. split; auto; lia.
    + intros i o H. specialize (inv_obs0 i o H). revert inv_obs0. apply (stable_refs Z (zo Z i) o m).
      split; cbn; try (rewrite ?app_length; lia); intros; auto.
      * eapply nth_app_false; eauto.
      * eapply nth_app_false; eauto.
    + intros a. rewrite app_length; cbn. intros; apply inv_newa0; lia.
    + intros a. rewrite app_length; cbn. intros; apply inv_newb0; lia.
    + auto.
    + auto.
  - split; cbn; try (rewrite ?app_length; lia); intros; auto.
    + eapply nth_app_false; eauto.
    + eapply nth_app_false; eauto.
  - intros a [= <-]. split; cbn; [rewrite app_length; cbn; lia | apply inv_newa0; lia].
Qed.
Lemma safe_new_meta Z P d : safe Z P (new_meta d) (fun a m => freeM Z m a).
Proof.
  intros m m' r I Pm E. injection E as <- <-. pose proof I as I0. destruct I.
  assert (L : later Z m (mkMem (m_bufs m) (m_arrs m) (m_metas m ++ [d]) (m_obs m))).
  { split; cbn; auto; try (rewrite ?app_length; lia). intros; eapply nth_app_false; eauto. }
  split; [|split]; auto.
  - split; cbn; auto.
    + intros i o H. apply (stable_refs Z (zo Z i) o m _ L). auto.
    + intros a. rewrite app_length; cbn. intros; apply inv_newm0; lia.
  - intros a [= <-]. split; cbn; [rewrite app_length; cbn; lia | apply inv_newm0; lia].
Qed.
Lemma safe_put_obs Z i o : safe Z (fun m => freeO Z m i /\ refs_in Z m false o) (put_obs i o) (fun _ _ => True).
Proof.
  intros m m' r I [F1 F2] E. injection E as <- <-. destruct I, F1 as [F0 F1].
  assert (L : later Z m (mkMem (m_bufs m) (m_arrs m) (m_metas m) (upd (m_obs m) i o))).
  { split; cbn; auto; try (rewrite ?upd_length'; lia). intros. apply nth_upd_ne. intros <-. congruence. }
  split; [|split]; auto.
  split; cbn; auto.
  - intros k x H. destruct (Nat.eq_dec i k) as [<-|N].
    + apply nth_upd_eq' in H as ->. rewrite F1. apply (stable_refs Z false o m _ L). auto.
    + rewrite nth_upd_ne in H by auto. apply (stable_refs Z (zo Z k) x m _ L). auto.
  - rewrite upd_length'. auto.
Qed.
Lemma safe_push_obs Z o : safe Z (fun m => refs_in Z m false o) (push_obs o) (fun i m => freeO Z m i).
Proof.
  intros m m' r I F E. injection E as <- <-. destruct I.
  assert (L : later Z m (mkMem (m_bufs m) (m_arrs m) (m_metas m) (m_obs m ++ [o]))).
  { split; cbn; auto; try (rewrite ?app_length; lia). intros; eapply nth_app_false; eauto. }
  split; [|split]; auto.
  - split; cbn; auto.
    + intros k x H. destruct (Nat.lt_ge_cases k (length (m_obs m))) as [L'|L'].
      * rewrite nth_error_app1 in H by auto. apply (stable_refs Z (zo Z k) x m _ L). auto.
      * rewrite nth_error_app2 in H by auto. destruct (k - length (m_obs m))%nat as [|[|n]] eqn:D; cbn in H; try discriminate.
        injection H as <-. rewrite inv_newo0 by lia. apply (stable_refs Z false o m _ L). auto.
    + intros a. rewrite app_length; cbn. intros; apply inv_newo0; lia.
  - intros a [= <-]. split; cbn; [rewrite app_length; cbn; lia | apply inv_newo0; lia].
Qed.
Lemma safe_put_meta Z i d : safe Z (fun m => freeM Z m i) (put_meta i d) (fun _ _ => True).
Proof.
  intros m m' r I F E. injection E as <- <-. destruct I, F as [F0 F1].
  assert (L : later Z m (mkMem (m_bufs m) (m_arrs m) (upd (m_metas m) i d) (m_obs m))).
  { split; cbn; auto; try (rewrite ?upd_length'; lia). intros. apply nth_upd_ne. intros <-. congruence. }
  split; [|split]; auto.
  split; cbn; auto.
  - intros k x H. apply (stable_refs Z (zo Z k) x m _ L). auto.
  - rewrite upd_length'. auto.
Qed.

Lemma stable_pure Z (P : Prop) : stable Z (fun _ => P). Proof. intros m m' _ H; exact H. Qed.
Lemma stable_lta Z n : stable Z (fun m => (n < length (m_arrs m))%nat). Proof. intros m m' [] H; lia. Qed.
Lemma stable_ltb Z n : stable Z (fun m => (n < length (m_bufs m))%nat). Proof. intros m m' [] H; lia. Qed.
Lemma stable_ltm Z n : stable Z (fun m => (n < length (m_metas m))%nat). Proof. intros m m' [] H; lia. Qed.
Lemma stable_lto Z n : stable Z (fun m => (n < length (m_obs m))%nat). Proof. intros m m' [] H; lia. Qed.
Ltac stab := cbv beta; repeat first
  [ apply stable_pure | apply stable_freeA | apply stable_freeO | apply stable_freeM | apply stable_refs
  | apply stable_lta | apply stable_ltb | apply stable_ltm | apply stable_lto
  | apply stable_and | apply stable_forall; intro | apply stable_imp ].
Ltac sbind := eapply safe_bind; [stab | | cbv beta; intros].
(** drop the precondition *)
Ltac weak H := eapply safe_conseq; [apply H | cbv beta; intros; try exact I | cbv beta; intros; eauto].

Lemma safe_contents Z P a : safe Z P (contents a) (fun _ m => (a < length (m_arrs m))%nat).
Proof.
  apply (safe_conseq Z (fun _ => True) P _ (fun _ m => (a < length (m_arrs m))%nat) _); auto.
  unfold contents. sbind; [apply safe_get_arr|]. sbind; [apply safe_get_buf|]. apply safe_ret. cbv beta; tauto.
Qed.

Definition okarg Z (w : arg_arr) : Prop := forall a cv, w = AArr a cv -> cv = true \/ za Z a = false.

Lemma safe_ascontig Z (P : mem -> Prop) a cv : (cv = true \/ za Z a = false) -> safe Z P (ascontig a cv) (fun x m => freeA Z m x).
Proof.
  intros H. apply (safe_conseq Z (fun _ => True) P _ (fun x m => freeA Z m x) _); auto.
  unfold ascontig. sbind; [apply safe_contents|]. destruct cv; [apply safe_new_arr|].
  apply safe_ret. unfold freeA. destruct H; [discriminate|]. tauto.
Qed.
Lemma safe_shape2 Z P a : safe Z P (shape2 a) (fun _ _ => True).
Proof.
  apply (safe_conseq Z (fun _ => True) P _ (fun _ _ => True) _); auto.
  unfold shape2. sbind; [apply safe_contents|]. destruct a0; try apply safe_fail. apply safe_ret; auto.
Qed.
Lemma safe_view_check Z P a wr : safe Z P (view_check a wr) (fun _ _ => True).
Proof.
  apply (safe_conseq Z (fun _ => True) P _ (fun _ _ => True) _); auto.
  unfold view_check. sbind; [apply safe_get_arr|]. sbind; [apply safe_get_buf|].
  eapply safe_conseq; [apply (safe_assert Z (fun _ => True)) | intros; exact I | intros; exact I].
Qed.
Lemma safe_weight_value Z P sh w : okarg Z w -> safe Z P (weight_value sh w) (fun x m => freeA Z m x).
Proof.
  intros H. apply (safe_conseq Z (fun _ => True) P _ (fun x m => freeA Z m x) _); auto.
  unfold weight_value. destruct w as [|a cv]; [apply safe_new_arr|].
  sbind; [apply safe_ascontig; apply (H _ _ eq_refl)|]. sbind; [apply safe_shape2|]. sbind; [apply safe_assert|].
  apply safe_ret. tauto.
Qed.
Lemma safe_opt_value Z P sh w : okarg Z w -> safe Z P (opt_value sh w) (fun x m => forall a, x = Some a -> freeA Z m a).
Proof.
  intros H. apply (safe_conseq Z (fun _ => True) P _ (fun x m => forall a, x = Some a -> freeA Z m a) _); auto.
  unfold opt_value. destruct w as [|a cv]; [apply safe_ret; discriminate|].
  sbind; [apply safe_ascontig; apply (H _ _ eq_refl)|]. sbind; [apply safe_shape2|]. sbind; [apply safe_assert|].
  apply safe_ret. intros m Hm x [= <-]. tauto.
Qed.
Lemma safe_jac_value Z P sh j : safe Z P (jac_value sh j) (fun x m => freeA Z m x).
Proof.
  apply (safe_conseq Z (fun _ => True) P _ (fun x m => freeA Z m x) _); auto.
  destruct j; cbn [jac_value]; try apply safe_fail; (sbind; [apply safe_lift|apply safe_new_arr]).
Qed.
Lemma safe_gmix_value Z P g : safe Z P (gmix_value g) (fun _ _ => True).
Proof.
  apply (safe_conseq Z (fun _ => True) P _ (fun _ _ => True) _); auto.
  destruct g; cbn [gmix_value]; try apply safe_fail; [apply safe_ret; auto|]. sbind; [apply safe_lift|apply safe_ret; auto].
Qed.
Definition okpsf Z (w : arg_psf) : Prop := forall a, In a (psf_ids w) -> zo Z a = false.
Definition okmeta Z (w : arg_meta) : Prop := forall a, In a (meta_ids w) -> zm Z a = false.
Lemma get_obs_lt Z P i : safe Z P (get_obs i) (fun _ m => (i < length (m_obs m))%nat).
Proof.
  intros m m' r I Pm E. unfold get_obs in E. destruct (nth_error (m_obs m) i) eqn:N; injection E as <- <-;
    split; auto; split; auto using later_refl; intros o' [= <-]. apply nth_error_Some. congruence.
Qed.
Lemma safe_psf_value Z P p : okpsf Z p -> safe Z P (psf_value p) (fun x m => forall i, x = Some i -> freeO Z m i).
Proof.
  intros H. apply (safe_conseq Z (fun _ => True) P _ (fun x m => forall i, x = Some i -> freeO Z m i) _); auto.
  destruct p; cbn [psf_value]; try apply safe_fail; [apply safe_ret; discriminate|].
  sbind; [apply get_obs_lt|]. apply safe_ret. intros m Hm x [= <-]. split; [tauto|]. apply H; cbn; auto.
Qed.
Lemma safe_meta_value Z P p : okmeta Z p -> safe Z P (meta_value p) (fun x m => freeM Z m x).
Proof.
  intros H. apply (safe_conseq Z (fun _ => True) P _ (fun x m => freeM Z m x) _); auto.
  destruct p; cbn [meta_value]; try apply safe_fail; [apply safe_new_meta|].
  sbind; [apply safe_get_meta|]. apply safe_ret. intros m Hm. split; [tauto|]. apply H; cbn; auto.
Qed.
Lemma safe_pixels_value Z P a b c d e f : safe Z P (pixels_value a b c d e f) (fun _ _ => True).
Proof.
  apply (safe_conseq Z (fun _ => True) P _ (fun _ _ => True) _); auto.
  unfold pixels_value. destruct (negb d); [apply safe_ret; auto|].
  sbind; [apply safe_view_check|]. sbind; [apply safe_view_check|].
  do 3 (sbind; [apply safe_contents|]).
  repeat match goal with x : content |- _ => destruct x; try apply safe_fail end.
  sbind; [apply safe_lift|apply safe_ret; auto].
Qed.

Lemma safe_new_obs Z P image cv w bm om no j g p d mf st ig :
  (cv = true \/ za Z image = false) -> okarg Z w -> okarg Z bm -> okarg Z om -> okarg Z no -> okarg Z mf -> okpsf Z p -> okmeta Z d ->
  safe Z P (new_obs image cv w bm om no j g p d mf st ig) (fun i m => freeO Z m i).
Proof.
  intros Hi Hw Hbm Hom Hno Hmf Hp Hd.
  apply (safe_conseq Z (fun _ => True) P _ (fun i m => freeO Z m i) _); auto.
  unfold new_obs.
  sbind; [apply safe_ascontig; auto|]. sbind; [apply safe_shape2|]. sbind; [apply safe_weight_value; auto|].
  sbind; [apply safe_jac_value|]. sbind; [apply safe_pixels_value|]. sbind; [apply safe_meta_value; auto|].
  sbind; [apply safe_opt_value; auto|]. sbind; [apply safe_opt_value; auto|]. sbind; [apply safe_opt_value; auto|].
  sbind; [apply safe_gmix_value|]. sbind; [apply safe_psf_value; auto|]. sbind; [apply safe_opt_value; auto|].
  eapply safe_conseq; [apply safe_push_obs | | auto].
  cbv beta. intros m H. repeat match goal with H : _ /\ _ |- _ => destruct H end.
  unfold freeA, freeM, freeO in *. unfold refs_in; cbn.
  repeat split; try tauto; intros; try (match goal with H : match ?s with _ => _ end = _ |- _ => destruct s end);
    try (match goal with H : (forall a, ?x = Some a -> _), E : ?x = Some _ |- _ => specialize (H _ E); tauto end).
Qed.

(** reading an observation of the zone is allowed as long as only copies are kept *)
Lemma safe_copy_view Z P a wr : safe Z P (copy_view a wr) (fun x m => freeA Z m x).
Proof.
  apply (safe_conseq Z (fun _ => True) P _ (fun i m => freeA Z m i) _); auto.
  unfold copy_view. sbind; [apply safe_view_check|]. sbind; [apply safe_contents|]. apply safe_new_arr.
Qed.
Lemma safe_copy_opt Z P o s : safe Z P (copy_opt o s) (fun x m => okarg Z x).
Proof.
  apply (safe_conseq Z (fun _ => True) P _ (fun x m => okarg Z x) _); auto.
  unfold copy_opt. destruct (ob_opt o s).
  - sbind; [apply safe_copy_view|]. apply safe_ret. intros m H b cv [= <- <-]. right. apply H.
  - apply safe_ret. intros m _ b cv [=].
Qed.
Lemma get_obs_any Z P i : safe Z P (get_obs i) (fun _ _ => True).
Proof. weak get_obs_lt. Qed.
Lemma safe_copy_obs Z depth : forall P i, safe Z P (copy_obs depth i) (fun x m => freeO Z m x).
Proof.
  induction depth as [|depth IH]; intros P i; [apply safe_fail|].
  apply (safe_conseq Z (fun _ => True) P _ (fun x m => freeO Z m x) _); auto.
  cbn [copy_obs].
  sbind; [apply get_obs_any|]. rename a into o.
  do 3 (sbind; [apply safe_copy_opt|]).
  sbind. { instantiate (1 := fun _ _ => True). destruct (ob_gmix o); [sbind; [apply safe_lift|]|]; apply safe_ret; auto. }
  sbind. { instantiate (1 := fun x m => okpsf Z x). destruct (ob_psf o) as [j|].
    - sbind; [apply IH|]. apply safe_ret. intros m H b [<-|[]]. apply H.
    - apply safe_ret. intros m _ b []. }
  sbind; [apply safe_copy_opt|]. sbind; [apply safe_get_meta|]. sbind; [apply safe_new_meta|].
  sbind; [apply safe_copy_view|]. sbind; [apply safe_copy_view|]. sbind; [apply safe_contents|].
  match goal with x : content |- _ => destruct x as [?|jj|? ?]; try apply safe_fail end.
  intros m m' r Iv H E. repeat match goal with H : _ /\ _ |- _ => destruct H end.
  eapply (safe_new_obs Z (fun _ => True)); [| | | | | | | |exact Iv|exact Logic.I|exact E]; try assumption;
    try (intros b cv [= <- <-]); try (intros b [<-|[]]); try right; match goal with H : _ |- _ => apply H end.
Qed.

(** ---- the operations ---- *)
Definition avoids (Z : zone) (x : op) : Prop :=
  (forall a, In a (op_arrs x) -> za Z a = false) /\ (forall a, In a (op_obs x) -> zo Z a = false) /\
  (forall a, In a (op_metas x) -> zm Z a = false).

Lemma safe_get_obs_free Z P i : zo Z i = false -> safe Z P (get_obs i) (fun o m => refs_in Z m false o /\ freeO Z m i).
Proof.
  intros F m m' r I Pm E. unfold get_obs in E. destruct (nth_error (m_obs m) i) eqn:N; injection E as <- <-;
    split; auto; split; auto using later_refl; intros o' [= <-].
  split; [rewrite <- F; apply (inv_obs Z m I _ _ N)|]. split; auto. apply nth_error_Some. congruence.
Qed.

Lemma refs_with_image Z m o a : refs_in Z m false o -> freeA Z m a -> refs_in Z m false (with_image o a).
Proof. unfold refs_in, freeA; cbn; tauto. Qed.
Lemma refs_with_weight Z m o a : refs_in Z m false o -> freeA Z m a -> refs_in Z m false (with_weight o a).
Proof. unfold refs_in, freeA; cbn; tauto. Qed.
Lemma refs_with_jac Z m o a : refs_in Z m false o -> freeA Z m a -> refs_in Z m false (with_jac o a).
Proof. unfold refs_in, freeA; cbn; tauto. Qed.
Lemma refs_with_flags Z m o a b c : refs_in Z m false o -> refs_in Z m false (with_flags o a b c).
Proof. unfold refs_in, freeA; cbn; tauto. Qed.
Lemma refs_with_pix Z m o a : refs_in Z m false o -> refs_in Z m false (with_pix o a).
Proof. unfold refs_in, freeA; cbn; tauto. Qed.
Lemma refs_with_gmix Z m o a : refs_in Z m false o -> refs_in Z m false (with_gmix o a).
Proof. unfold refs_in, freeA; cbn; tauto. Qed.
Lemma refs_with_meta Z m o a : refs_in Z m false o -> freeM Z m a -> refs_in Z m false (with_meta o a).
Proof. unfold refs_in, freeM; cbn; tauto. Qed.
Lemma refs_with_psf Z m o a : refs_in Z m false o -> (forall i, a = Some i -> freeO Z m i) -> refs_in Z m false (with_psf o a).
Proof. unfold refs_in, freeO; cbn; tauto. Qed.
Lemma refs_with_opt Z m o s a : refs_in Z m false o -> (forall i, a = Some i -> freeA Z m i) -> refs_in Z m false (with_opt o s a).
Proof.
  intros (H1 & H2 & H3 & H4 & H5 & H6) H. unfold refs_in, freeA in *; cbn.
  split; [auto|split; [auto|split; [auto|split; [|split; auto]]]].
  intros s' b Hb. destruct (slot_eqb s s'); [apply (H _ Hb) | apply (H4 _ _ Hb)].
Qed.

Ltac sput := eapply safe_conseq; [apply safe_put_obs | cbv beta; intros ? ?; split; [tauto|] | intros ? ? H__; exact H__].

Lemma safe_update_pixels Z P i : zo Z i = false -> safe Z P (update_pixels i) (fun _ _ => True).
Proof.
  intros F. apply (safe_conseq Z (fun _ => True) P _ (fun _ _ => True) _); auto.
  unfold update_pixels. sbind; [apply safe_get_obs_free; auto|]. sbind; [apply safe_pixels_value|].
  sput. apply refs_with_pix. tauto.
Qed.
Lemma safe_set_image Z P i a cv : zo Z i = false -> (cv = true \/ za Z a = false) -> safe Z P (set_image i a cv) (fun _ _ => True).
Proof.
  intros F Fa. apply (safe_conseq Z (fun _ => True) P _ (fun _ _ => True) _); auto.
  unfold set_image. sbind; [apply safe_get_obs_free; auto|]. sbind; [apply safe_ascontig; auto|].
  do 2 (sbind; [apply safe_shape2|]). sbind; [apply safe_assert|].
  sbind; [|apply safe_update_pixels; auto]. sput. apply refs_with_image; tauto.
Qed.
Lemma safe_set_weight Z P i w : zo Z i = false -> okarg Z w -> safe Z P (set_weight i w) (fun _ _ => True).
Proof.
  intros F Fa. apply (safe_conseq Z (fun _ => True) P _ (fun _ _ => True) _); auto.
  unfold set_weight. sbind; [apply safe_get_obs_free; auto|]. sbind; [apply safe_view_check; auto|].
  sbind; [apply safe_shape2|]. sbind; [apply safe_weight_value; auto|].
  sbind; [|apply safe_update_pixels; auto]. sput. apply refs_with_weight; tauto.
Qed.
Lemma safe_set_opt Z P i s w : zo Z i = false -> okarg Z w -> safe Z P (set_opt i s w) (fun _ _ => True).
Proof.
  intros F Fa. apply (safe_conseq Z (fun _ => True) P _ (fun _ _ => True) _); auto.
  unfold set_opt. sbind; [apply safe_get_obs_free; auto|].
  sbind. { instantiate (1 := fun _ _ => True). destruct w; [apply safe_ret; auto|apply safe_view_check; auto]. }
  sbind; [apply safe_shape2|]. sbind; [apply safe_opt_value; auto|].
  sput. apply refs_with_opt; tauto.
Qed.
Lemma safe_set_jacobian Z P i w : zo Z i = false -> safe Z P (set_jacobian i w) (fun _ _ => True).
Proof.
  intros F. apply (safe_conseq Z (fun _ => True) P _ (fun _ _ => True) _); auto.
  unfold set_jacobian. sbind; [apply safe_get_obs_free; auto|].
  sbind. { instantiate (1 := fun _ _ => True). destruct w; [apply safe_view_check; auto| |]; apply safe_ret; auto. }
  sbind; [apply safe_shape2|]. sbind; [apply safe_jac_value; auto|].
  sbind; [|apply safe_update_pixels; auto]. sput. apply refs_with_jac; tauto.
Qed.
Lemma safe_set_psf Z P i p : zo Z i = false -> okpsf Z p -> safe Z P (set_psf i p) (fun _ _ => True).
Proof.
  intros F Fa. apply (safe_conseq Z (fun _ => True) P _ (fun _ _ => True) _); auto.
  unfold set_psf. sbind; [apply safe_get_obs_free; auto|].
  sbind. { sput. apply refs_with_psf; [tauto|discriminate]. }
  sbind; [apply safe_psf_value; auto|]. sput. apply refs_with_psf; tauto.
Qed.
Lemma safe_set_gmix Z P i g : zo Z i = false -> safe Z P (set_gmix i g) (fun _ _ => True).
Proof.
  intros F. apply (safe_conseq Z (fun _ => True) P _ (fun _ _ => True) _); auto.
  unfold set_gmix. sbind; [apply safe_get_obs_free; auto|].
  sbind. { sput. apply refs_with_gmix; tauto. }
  sbind; [apply safe_gmix_value; auto|]. sput. apply refs_with_gmix; tauto.
Qed.
Lemma safe_set_meta Z P i d : zo Z i = false -> okmeta Z d -> safe Z P (set_meta i d) (fun _ _ => True).
Proof.
  intros F Fa. apply (safe_conseq Z (fun _ => True) P _ (fun _ _ => True) _); auto.
  unfold set_meta. sbind; [apply safe_get_obs_free; auto|].
  sbind; [apply safe_meta_value; auto|]. sput. apply refs_with_meta; tauto.
Qed.
Lemma safe_update_meta Z P i d : zo Z i = false -> safe Z P (update_meta i d) (fun _ _ => True).
Proof.
  intros F. apply (safe_conseq Z (fun _ => True) P _ (fun _ _ => True) _); auto.
  unfold update_meta. sbind; [apply safe_get_obs_free; auto|]. destruct d; [|apply safe_fail].
  sbind; [apply safe_get_meta|].
  eapply safe_conseq; [apply safe_put_meta | cbv beta; intros ? ? | auto].
  unfold refs_in, freeM in *. tauto.
Qed.
Lemma safe_set_store Z P i b : zo Z i = false -> safe Z P (set_store i b) (fun _ _ => True).
Proof.
  intros F. apply (safe_conseq Z (fun _ => True) P _ (fun _ _ => True) _); auto.
  unfold set_store. sbind; [apply safe_get_obs_free; auto|].
  sbind. { sput. apply refs_with_flags; tauto. }
  destruct Bool.eqb; [apply safe_ret; auto | apply safe_update_pixels; auto].
Qed.
Lemma safe_set_ign Z P i b : zo Z i = false -> safe Z P (set_ign i b) (fun _ _ => True).
Proof.
  intros F. apply (safe_conseq Z (fun _ => True) P _ (fun _ _ => True) _); auto.
  unfold set_ign. sbind; [apply safe_get_obs_free; auto|].
  sbind. { sput. apply refs_with_flags; tauto. }
  destruct Bool.eqb; [apply safe_ret; auto | apply safe_update_pixels; auto].
Qed.
Lemma safe_enter Z P i : zo Z i = false -> safe Z P (enter i) (fun _ _ => True).
Proof.
  intros F. apply (safe_conseq Z (fun _ => True) P _ (fun _ _ => True) _); auto.
  unfold enter. sbind; [apply safe_get_obs_free; auto|]. sput. apply refs_with_flags; tauto.
Qed.
Lemma safe_exit Z P i : zo Z i = false -> safe Z P (exit_ i) (fun _ _ => True).
Proof.
  intros F. apply (safe_conseq Z (fun _ => True) P _ (fun _ _ => True) _); auto.
  unfold exit_. sbind; [apply safe_get_obs_free; auto|].
  sbind; [|apply safe_update_pixels; auto]. sput. apply refs_with_flags; tauto.
Qed.

Lemma get_view_inv a wr m m' r : get_view a wr m = (m', r) ->
  (m' = m /\ exists e, r = Raise e) \/
  (exists x b, nth_error (m_arrs m) a = Some x /\ nth_error (m_bufs m) (a_buf x) = Some b /\
     negb wr || b_own b = true /\
     m' = mkMem (m_bufs m) (m_arrs m ++ [mkAr (a_buf x) wr]) (m_metas m) (m_obs m) /\ r = Ok (length (m_arrs m))).
Proof.
  unfold get_view, bindM, get_arr, get_buf, assert, ret, fail.
  destruct (nth_error (m_arrs m) a) as [x|] eqn:N; [|intros [= <- <-]; left; eauto].
  destruct (nth_error (m_bufs m) (a_buf x)) as [b|] eqn:N2; [|intros [= <- <-]; left; eauto].
  destruct (negb wr || b_own b) eqn:W; intros [= <- <-]; [right|left; eauto].
  exists x, b. auto.
Qed.
Lemma write_inv a c m m' r : write_arr a c m = (m', r) ->
  (m' = m /\ exists e, r = Raise e) \/
  (exists x b c', nth_error (m_arrs m) a = Some x /\ nth_error (m_bufs m) (a_buf x) = Some b /\
     a_w x = true /\ overwrite (b_data b) c = Some c' /\
     m' = mkMem (upd (m_bufs m) (a_buf x) (mkBuf c' (b_own b))) (m_arrs m) (m_metas m) (m_obs m) /\ r = Ok tt).
Proof.
  unfold write_arr, bindM, get_arr, get_buf, assert, ret, fail.
  destruct (nth_error (m_arrs m) a) as [x|] eqn:N; [|intros [= <- <-]; left; eauto].
  destruct (nth_error (m_bufs m) (a_buf x)) as [b|] eqn:N2; [|intros [= <- <-]; left; eauto].
  destruct (a_w x) eqn:W; [|intros [= <- <-]; left; eauto].
  destruct (overwrite (b_data b) c) as [c'|] eqn:O; intros [= <- <-]; [right|left; eauto].
  exists x, b, c'. rewrite O. auto 10.
Qed.

Lemma safe_get_view Z P a wr : za Z a = false -> safe Z P (get_view a wr) (fun x m => freeA Z m x).
Proof.
  intros F m m' r I Pm E. apply get_view_inv in E.
  destruct E as [[-> [e ->]]|(x & b & N & N2 & W & -> & ->)]; [split; [auto|split; [apply later_refl|discriminate]]|].
  destruct I. destruct (inv_arr0 _ _ N) as [I1 I2].
  assert (L : later Z m (mkMem (m_bufs m) (m_arrs m ++ [mkAr (a_buf x) wr]) (m_metas m) (m_obs m))).
  { split; cbn; auto; try (rewrite ?app_length; lia). intros; eapply nth_app_false; eauto. }
  split; [|split]; auto.
  - split; cbn; auto.
    + intros k y H. destruct (Nat.lt_ge_cases k (length (m_arrs m))) as [L'|L'].
      * rewrite nth_error_app1 in H by auto. auto.
      * rewrite nth_error_app2 in H by auto. destruct (k - length (m_arrs m))%nat as [|[|n]] eqn:D; cbn in H; try discriminate.
        injection H as <-. cbn. split; auto. rewrite I2, F. rewrite inv_newa0; auto.
    + intros k o H. apply (stable_refs Z (zo Z k) o m _ L). auto.
    + intros k. rewrite app_length; cbn. intros; apply inv_newa0; lia.
  - intros k [= <-]. split; cbn; [rewrite app_length; cbn; lia | apply inv_newa0; lia].
Qed.
Lemma safe_getattr Z P i k : zo Z i = false -> safe Z P (getattr i k) (fun _ _ => True).
Proof.
  intros F. apply (safe_conseq Z (fun _ => True) P _ (fun _ _ => True) _); auto.
  unfold getattr. sbind; [apply safe_get_obs_free; auto|]. destruct (attr_ref a k) as [x|] eqn:E; [|apply safe_fail].
  intros m m' r I (_ & H & _) E2.
  assert (Fx : za Z x = false).
  { destruct H as (H1 & H2 & H3 & H4 & _). destruct k; cbn in E; try (injection E as <-); try tauto. apply (H4 _ _ E). }
  destruct (safe_get_view Z (fun _ => True) x (ob_wr a) Fx m m' r I Logic.I E2) as (A & B & C). auto.
Qed.
Lemma safe_write Z P a c : za Z a = false -> safe Z P (write_arr a c) (fun _ _ => True).
Proof.
  intros F m m' r I Pm E. apply write_inv in E.
  destruct E as [[-> [e ->]]|(x & b & c' & N & N2 & W & O & -> & ->)]; [split; [auto|split; [apply later_refl|auto]]|].
  destruct I. destruct (inv_arr0 _ _ N) as [I1 I2].
  assert (L : later Z m (mkMem (upd (m_bufs m) (a_buf x) (mkBuf c' (b_own b))) (m_arrs m) (m_metas m) (m_obs m))).
  { split; cbn; auto; try (rewrite ?upd_length'; lia). intros. apply nth_upd_ne. intros <-. congruence. }
  split; [|split]; auto.
  split; cbn; auto.
  - intros k y H. rewrite upd_length'. auto.
  - rewrite upd_length'. auto.
Qed.

Lemma safe_unit Z P x : safe Z P x (fun _ _ => True) -> safe Z P (unit_ x) (fun _ _ => True).
Proof.
  intros H m m' r I Pm E. unfold unit_ in E. apply bindM_inv in E. destruct E as [(e & E & ->)|(m1 & u & E & E2)].
  - destruct (H _ _ _ I Pm E) as (A & B & _). split; [auto|split; [auto|auto]].
  - injection E2 as <- <-. destruct (H _ _ _ I Pm E) as (A & B & _). auto.
Qed.
Lemma safe_any {A} Z P (x : M A) Q : safe Z P x Q -> safe Z P x (fun _ _ => True).
Proof. intros H m m' r I Pm E. destruct (H _ _ _ I Pm E) as (a & b & _). auto. Qed.

Lemma okarg_of Z w (l : list nat) : (forall a, In a l -> za Z a = false) -> incl (arg_ids w) l -> okarg Z w.
Proof. intros H I a cv ->. right. apply H, I. cbn; auto. Qed.

Theorem step_safe Z x : avoids Z x -> safe Z (fun _ => True) (step x) (fun _ _ => True).
Proof.
  intros (HA & HO & HM). destruct x; cbn [step op_arrs op_obs op_metas] in *;
  try apply safe_unit;
  try (assert (Fi : zo Z i = false) by (apply HO; cbn; auto)).
  - eapply safe_any, safe_new_arr.
  - apply safe_write. apply HA; cbn; auto.
  - eapply safe_any, safe_new_meta.
  - sbind; [apply safe_get_meta|]. eapply safe_conseq; [apply safe_put_meta| |auto].
    cbv beta. intros m [_ H]. split; auto. apply HM; cbn; auto.
  - eapply safe_any, safe_new_obs; try (intros a Ha; first [apply HO | apply HM]; cbn; rewrite ?in_app_iff; tauto);
      try (eapply okarg_of; [exact HA|]; intros a Ha; cbn; rewrite ?in_app_iff; tauto).
    right. apply HA; cbn; auto.
  - apply safe_set_image; auto. right. apply HA; cbn; auto.
  - apply safe_set_weight; auto. eapply okarg_of; [exact HA|apply incl_refl].
  - apply safe_set_opt; auto. eapply okarg_of; [exact HA|apply incl_refl].
  - apply safe_set_jacobian; auto.
  - apply safe_set_psf; auto. intros a Ha. apply HO; cbn; auto.
  - apply safe_set_gmix; auto.
  - apply safe_set_meta; auto.
  - apply safe_update_meta; auto.
  - apply safe_set_store; auto.
  - apply safe_set_ign; auto.
  - apply safe_update_pixels; auto.
  - apply safe_enter; auto.
  - apply safe_exit; auto.
  - apply safe_getattr; auto.
  - intros m m' r I _ E. destruct (safe_copy_obs Z (length (m_obs m)) (fun _ => True) i m m' r I Logic.I E) as (A & B & C). auto.
Qed.

Theorem exec_safe Z : forall p m, Inv Z m -> Forall (avoids Z) p -> Inv Z (exec m p) /\ later Z m (exec m p).
Proof.
  induction p as [|x p IH]; intros m I F; cbn [exec]; [split; auto using later_refl|].
  apply Forall_cons_iff in F as [Fx Fp].
  destruct (step x m) as [m1 r] eqn:E. destruct (step_safe Z x Fx m m1 r I Logic.I E) as (I1 & L1 & _). cbn [fst].
  destruct (IH m1 I1 Fp) as [A B]. split; auto. eapply later_trans; eauto.
Qed.

(** values are determined by the zone that contains the observation *)
Lemma frame_content Z m m' a c : Inv Z m -> later Z m m' -> za Z a = true -> content_at m a = Some c -> content_at m' a = Some c.
Proof.
  intros I L A. unfold content_at. rewrite (same_a Z m m' L a A). destruct (nth_error (m_arrs m) a) as [x|] eqn:N; [|discriminate].
  destruct (inv_arr Z m I _ _ N) as [_ B]. rewrite (same_b Z m m' L); auto. congruence.
Qed.
Lemma frame_reads Z m m' : Inv Z m -> later Z m m' -> forall i v, reads m i v -> zo Z i = true -> reads m' i v.
Proof.
  intros I L i v H. induction H; intros Zi; pose proof (inv_obs Z m I _ _ H) as R; rewrite Zi in R;
    destruct R as (R1 & R2 & R3 & R4 & R5 & R6).
  - eapply Reads; eauto.
    + rewrite (same_o Z m m' L); auto.
    + eapply frame_content; eauto; apply R1.
    + eapply frame_content; eauto; apply R2.
    + eapply frame_content; eauto; apply R3.
    + intros s. specialize (H3 s). destruct (ob_opt o s) eqn:E; auto. destruct H3 as (c & X & Y). exists c; split; auto.
      eapply frame_content; eauto. apply (R4 _ _ E).
    + rewrite (same_m Z m m' L); auto. apply R6.
    + apply IHreads. apply (R5 _ H5).
  - eapply ReadsNoPsf; eauto.
    + rewrite (same_o Z m m' L); auto.
    + eapply frame_content; eauto; apply R1.
    + eapply frame_content; eauto; apply R2.
    + eapply frame_content; eauto; apply R3.
    + intros s. specialize (H3 s). destruct (ob_opt o s) eqn:E; auto. destruct H3 as (c & X & Y). exists c; split; auto.
      eapply frame_content; eauto. apply (R4 _ _ E).
    + rewrite (same_m Z m m' L); auto. apply R6.
Qed.

(** ---- zones of interest ---- *)
Definition nowhere : zone := mkZone (fun _ => false) (fun _ => false) (fun _ => false) (fun _ => false).
Lemma inv_empty : Inv nowhere empty_mem.
Proof. split; cbn; auto; intros a x H; destruct a; discriminate. Qed.
Lemma reach_inv p : Inv nowhere (exec empty_mem p).
Proof.
  apply exec_safe; [apply inv_empty|]. apply Forall_forall. intros x _. repeat split; auto.
Qed.
(** everything that exists in m *)
Definition zold (m : mem) : zone :=
  mkZone (fun a => Nat.ltb a (length (m_arrs m))) (fun a => Nat.ltb a (length (m_bufs m)))
         (fun a => Nat.ltb a (length (m_metas m))) (fun a => Nat.ltb a (length (m_obs m))).
Lemma inv_zold m : Inv nowhere m -> Inv (zold m) m.
Proof.
  intros []. assert (Lt : forall a b, (a < b)%nat -> Nat.ltb a b = true) by (intros; apply Nat.ltb_lt; auto).
  split; cbn [za zb zm zo zold]; try (intros; apply Nat.ltb_ge; auto; fail).
  - intros a x H. destruct (inv_arr0 a x H) as [A _]. split; auto. rewrite !Lt; auto. apply nth_error_Some. congruence.
  - intros i o H. destruct (inv_obs0 i o H) as (R1 & R2 & R3 & R4 & R5 & R6).
    assert (Hi : (i < length (m_obs m))%nat) by (apply nth_error_Some; congruence). rewrite (Lt _ _ Hi).
    unfold refs_in; cbn [za zb zm zo zold]. repeat split; try apply Lt; try apply R1; try apply R2; try apply R3; try apply R6.
    + apply (R4 _ _ H0).
    + apply (R4 _ _ H0).
    + apply (R5 _ H0).
    + apply (R5 _ H0).
Qed.
(** everything created between m and m' *)
Definition znew (m m' : mem) : zone :=
  let z a b c := negb (Nat.ltb c a) && Nat.ltb c b in
  mkZone (z (length (m_arrs m)) (length (m_arrs m'))) (z (length (m_bufs m)) (length (m_bufs m')))
         (z (length (m_metas m)) (length (m_metas m'))) (z (length (m_obs m)) (length (m_obs m'))).
Lemma inv_znew m m' : Inv (zold m) m' -> Inv (znew m m') m'.
Proof.
  intros []. assert (Lt : forall a b, (a < b)%nat -> Nat.ltb a b = true) by (intros; apply Nat.ltb_lt; auto).
  assert (Ge : forall a b, (b <= a)%nat -> Nat.ltb a b = false) by (intros; apply Nat.ltb_ge; auto).
  split; cbn [za zb zm zo znew zold] in *; try (intros; rewrite (Ge _ _ H), andb_false_r; auto).
  - intros a x H. destruct (inv_arr0 a x H) as [A B]. split; auto.
    rewrite (Lt _ _ A), B, (Lt a (length (m_arrs m'))); auto. apply nth_error_Some. congruence.
  - intros i o H. destruct (inv_obs0 i o H) as (R1 & R2 & R3 & R4 & R5 & R6).
    assert (Hi : (i < length (m_obs m'))%nat) by (apply nth_error_Some; congruence). rewrite (Lt _ _ Hi), andb_true_r.
    unfold refs_in in *; cbn [za zb zm zo znew zold] in *.
    assert (K : forall n b c (k : bool), (n < b)%nat /\ Nat.ltb n c = k -> (n < b)%nat /\ negb (Nat.ltb n c) && Nat.ltb n b = negb k).
    { intros n b c k [A <-]. rewrite (Lt _ _ A), andb_true_r. auto. }
    split; [apply K; exact R1|split; [apply K; exact R2|split; [apply K; exact R3|split; [|split; [|apply K; exact R6]]]]].
    + intros s a Hs. apply K, (R4 _ _ Hs).
    + intros q Hq. apply K, (R5 _ Hq).
Qed.
Lemma later_true_old m m' : later (zold m) m m' -> forall i v, Inv (zold m) m -> reads m i v -> reads m' i v.
Proof.
  intros L i v I H. eapply frame_reads; eauto. destruct H; apply Nat.ltb_lt; apply nth_error_Some; congruence.
Qed.
