From Verif Require Import Base Jacobian_Model ObsList_Model GMixLists_Model GMixLists_Spec.
From Coq Require Import ZArith List Lia.
Import ListNotations.

Lemma gupd_same : forall {A} (l : list A) k x, (k < length l)%nat -> nth_error (upd l k x) k = Some x.
Proof. induction l; intros [|k] x H; cbn in *; try lia; auto. apply IHl. lia. Qed.
Lemma gupd_other : forall {A} (l : list A) k x j, j <> k -> nth_error (upd l k x) j = nth_error l j.
Proof. induction l; intros [|k] x [|j] H; cbn; auto; try congruence. Qed.
Lemma gupd_length : forall {A} (l : list A) k x, length (upd l k x) = length l.
Proof. induction l; intros [|k] x; cbn; auto. Qed.
Lemma gupd_in : forall {A} (l : list A) k x (P : A -> Prop), Forall P l -> P x -> Forall P (upd l k x).
Proof. induction l; intros [|k] x P H Hx; cbn; auto; inversion H; subst; constructor; auto. Qed.

Lemma lt_nth : forall {A} (l : list A) k x, nth_error l k = Some x -> (k < length l)%nat.
Proof. intros. apply nth_error_Some. congruence. Qed.

Lemma put_only : forall m l c xs, nth_error m l = Some c -> only_items m (upd m l (mkGl (gl_cls c) xs)) l xs.
Proof.
  intros m l c xs E. split; [apply gupd_length|]. split.
  - exists c. split; [exact E|]. apply gupd_same. eapply lt_nth; eauto.
  - intros k Hk. apply gupd_other; auto.
Qed.

Lemma accepts_iff : forall m c x, exists b, gl_accepts c x m = (m, Ok b) /\ (b = true <-> allowed m c x).
Proof.
  intros m [|] x; destruct x as [i|l|]; cbn; eexists; (split; [reflexivity|]); try (split; intros H; [discriminate|]).
  - split; auto. intros _. exists i. reflexivity.
  - destruct H as (i & Hi); discriminate.
  - destruct H as (i & Hi); discriminate.
  - destruct H as (k & xs & Hi & _); discriminate.
  - destruct (nth_error m l) as [[[|] ys]|] eqn:E; split; intros H; try discriminate; auto.
    + exists l, ys. auto.
    + destruct H as (k & xs & Hi & E2). injection Hi as <-. congruence.
    + destruct H as (k & xs & Hi & E2). injection Hi as <-. congruence.
  - destruct H as (k & xs & Hi & _); discriminate.
Qed.

(** ---- classes of lists do not change ---- *)
Lemma only_allowed : forall m m' l xs, only_items m m' l xs -> forall c x, allowed m c x -> allowed m' c x.
Proof.
  intros m m' l xs (_ & (c0 & E0 & E1) & H) [|] x Hx; cbn in *; auto.
  destruct Hx as (k & ys & -> & E). destruct (Nat.eq_dec k l) as [->|N].
  - rewrite E in E0. injection E0 as <-. exists l, xs. auto.
  - exists k, ys. split; auto. rewrite H; auto.
Qed.
Lemma only_typed : forall m m' l xs, lists_typed m -> only_items m m' l xs ->
  (forall c, nth_error m l = Some c -> Forall (allowed m (gl_cls c)) xs) -> lists_typed m'.
Proof.
  intros m m' l xs T O F k c E. pose proof O as (_ & (c0 & E0 & E1) & H).
  destruct (Nat.eq_dec k l) as [->|N].
  - rewrite E1 in E. injection E as <-. cbn. eapply Forall_impl; [|exact (F _ E0)]. intros a. apply (only_allowed _ _ _ _ O).
  - rewrite H in E by auto. eapply Forall_impl; [|exact (T _ _ E)]. intros a. apply (only_allowed _ _ _ _ O).
Qed.

(** ---- append ---- *)
Lemma append_cases : forall m l x c, nth_error m l = Some c ->
  (allowed m (gl_cls c) x /\ gl_append l x m = (upd m l (mkGl (gl_cls c) (gl_items c ++ [x])), Ok tt)) \/
  (~ allowed m (gl_cls c) x /\ gl_append l x m = (m, Raise AssertionError)).
Proof.
  intros m l x c E. unfold gl_append, gbind, gl_get. rewrite E.
  destruct (accepts_iff m (gl_cls c) x) as (b & -> & Hb). destruct b.
  - left. split; [apply Hb; auto|]. unfold gl_put. rewrite E. reflexivity.
  - right. split; [|reflexivity]. intros H. apply Hb in H. discriminate.
Qed.
Lemma append_spec : forall m l x c, nth_error m l = Some c ->
  (allowed m (gl_cls c) x -> exists m', gstep (OAppend l x) m = (m', Ok tt) /\ only_items m m' l (gl_items c ++ [x])) /\
  (~ allowed m (gl_cls c) x -> gstep (OAppend l x) m = (m, Raise AssertionError)).
Proof.
  intros m l x c E. cbn [gstep]. destruct (append_cases m l x c E) as [(H & ->)|(H & ->)]; split; intros H'; try contradiction; auto.
  eexists. split; [reflexivity|]. apply put_only. exact E.
Qed.

Definition at_index (n : nat) (i : Z) (k : nat) : Prop :=
  (k < n)%nat /\ (i = Z.of_nat k \/ i = Z.of_nat k - Z.of_nat n)%Z.
Lemma index_some : forall n i k, list_index n i = Some k <-> at_index n i k.
Proof.
  intros n i k. unfold list_index, at_index.
  destruct (Z.leb_spec 0 i); [destruct (Z.ltb_spec i (Z.of_nat n))|destruct (Z.leb_spec (- Z.of_nat n) i)];
    (split; [intros E; try discriminate; injection E as <-; lia|intros [H1 H2]]); try lia; f_equal; lia.
Qed.

Lemma setitem_cases : forall m l i x c, nth_error m l = Some c ->
  (allowed m (gl_cls c) x /\ exists k, at_index (length (gl_items c)) i k /\
     gl_setitem l i x m = (upd m l (mkGl (gl_cls c) (upd (gl_items c) k x)), Ok tt)) \/
  (allowed m (gl_cls c) x /\ (forall k, ~ at_index (length (gl_items c)) i k) /\ gl_setitem l i x m = (m, Raise IndexError)) \/
  (~ allowed m (gl_cls c) x /\ gl_setitem l i x m = (m, Raise AssertionError)).
Proof.
  intros m l i x c E. unfold gl_setitem, gbind, gl_get. rewrite E.
  destruct (accepts_iff m (gl_cls c) x) as (b & -> & Hb). destruct b.
  - destruct (list_index (length (gl_items c)) i) as [k|] eqn:K.
    + left. split; [apply Hb; auto|]. exists k. split; [apply index_some; auto|]. unfold gl_put. rewrite E. reflexivity.
    + right. left. split; [apply Hb; auto|]. split; [|reflexivity]. intros k Hk. apply index_some in Hk. congruence.
  - right. right. split; [|reflexivity]. intros H. apply Hb in H. discriminate.
Qed.
Lemma setitem_spec : forall m l i x c, nth_error m l = Some c ->
  (forall k, allowed m (gl_cls c) x -> (k < length (gl_items c))%nat ->
     (i = Z.of_nat k \/ i = Z.of_nat k - Z.of_nat (length (gl_items c)))%Z ->
     exists m' ys, gstep (OSetItem l i x) m = (m', Ok tt) /\ only_items m m' l ys /\ length ys = length (gl_items c) /\
       nth_error ys k = Some x /\ forall j, j <> k -> nth_error ys j = nth_error (gl_items c) j) /\
  (allowed m (gl_cls c) x -> (i < - Z.of_nat (length (gl_items c)) \/ Z.of_nat (length (gl_items c)) <= i)%Z ->
     gstep (OSetItem l i x) m = (m, Raise IndexError)) /\
  (~ allowed m (gl_cls c) x -> gstep (OSetItem l i x) m = (m, Raise AssertionError)).
Proof.
  intros m l i x c E. cbn [gstep].
  destruct (setitem_cases m l i x c E) as [(H & k & (K1 & K2) & ->)|[(H & N & ->)|(H & ->)]].
  - split; [|split]; [|intros _ B; lia|intros; contradiction].
    intros k' _ K3 K4. assert (k' = k) as -> by lia. do 2 eexists. split; [reflexivity|].
    split; [apply put_only; exact E|]. split; [apply gupd_length|]. split; [apply gupd_same; auto|]. intros. apply gupd_other; auto.
  - split; [|split]; [|auto|intros; contradiction]. intros k _ K1 K2. exfalso. apply (N k). split; auto.
  - split; [|split]; intros; try contradiction. reflexivity.
Qed.

Lemma refused_unchanged : forall m o e m', (exists l x, o = OAppend l x) \/ (exists l i x, o = OSetItem l i x) \/
    (exists l a b x, o = OSetSlice l a b x) \/ (exists l i, o = ODelItem l i) ->
  gstep o m = (m', Raise e) -> m' = m.
Proof.
  intros m o e m' [(l & x & ->)|[(l & i & x & ->)|[(l & a & b & x & ->)|(l & i & ->)]]]; cbn [gstep]; intros H;
    destruct (nth_error m l) as [c|] eqn:E.
  - destruct (append_cases m l x c E) as [(_ & K)|(_ & K)]; congruence.
  - unfold gl_append, gbind, gl_get in H. rewrite E in H. congruence.
  - destruct (setitem_cases m l i x c E) as [(_ & k & _ & K)|[(_ & _ & K)|(_ & K)]]; congruence.
  - unfold gl_setitem, gbind, gl_get in H. rewrite E in H. congruence.
  - unfold gl_setslice, gbind, gl_get in H. rewrite E in H.
    destruct (accepts_iff m (gl_cls c) x) as (t & A & _). rewrite A in H. destruct t; [|cbv in H; congruence].
    destruct x as [j|j|]; [unfold gfail in H; congruence| |unfold gfail in H; congruence].
    destruct (nth_error m j) as [d|]; [|congruence]. unfold gl_put in H. rewrite E in H. congruence.
  - unfold gl_setslice, gbind, gl_get in H. rewrite E in H. congruence.
  - unfold gl_delitem, gbind, gl_get in H. rewrite E in H.
    destruct (list_index _ _); unfold gl_put, gfail in H; [rewrite E in H|]; congruence.
  - unfold gl_delitem, gbind, gl_get in H. rewrite E in H. congruence.
Qed.

(** ---- the invariant ---- *)
Lemma typed_new : forall m c, lists_typed m -> lists_typed (m ++ [mkGl c []]).
Proof.
  intros m c T l d E. destruct (Nat.lt_ge_cases l (length m)) as [L|L].
  - rewrite nth_error_app1 in E by auto. eapply Forall_impl; [|exact (T _ _ E)].
    intros x. destruct (gl_cls d); cbn; auto. intros (k & xs & -> & K). exists k, xs. split; auto.
    rewrite nth_error_app1; auto. eapply lt_nth; eauto.
  - rewrite nth_error_app2 in E by auto. destruct (l - length m)%nat as [|n]; [|destruct n; discriminate].
    injection E as <-. constructor.
Qed.
Lemma del_in : forall {A} (P : A -> Prop) l k, Forall P l -> Forall P (firstn k l ++ skipn (S k) l).
Proof.
  intros A P l k H. rewrite Forall_forall in H. apply Forall_app. split; apply Forall_forall; intros x I; apply H.
  - rewrite <- (firstn_skipn k l). apply in_or_app. left. exact I.
  - rewrite <- (firstn_skipn (S k) l). apply in_or_app. right. exact I.
Qed.
Lemma typed_step : forall o m, gchecked o -> lists_typed m -> lists_typed (fst (gstep o m)).
Proof.
  intros o m C T. destruct o as [c xs|l x|l i x| | | |l i]; cbn [gchecked] in C; try contradiction; cbn [gstep].
  - subst. apply typed_new. exact T.
  - destruct (nth_error m l) as [c|] eqn:E.
    + destruct (append_cases m l x c E) as [(H & ->)|(H & ->)]; cbn; auto.
      eapply only_typed; [exact T|apply put_only; exact E|]. intros c' E'. rewrite E in E'. injection E' as <-.
      apply Forall_app. split; auto. apply (T _ _ E).
    + unfold gl_append, gbind, gl_get. rewrite E. exact T.
  - destruct (nth_error m l) as [c|] eqn:E.
    + destruct (setitem_cases m l i x c E) as [(H & k & _ & ->)|[(_ & _ & ->)|(_ & ->)]]; cbn; auto.
      eapply only_typed; [exact T|apply put_only; exact E|]. intros c' E'. rewrite E in E'. injection E' as <-.
      apply gupd_in; auto. apply (T _ _ E).
    + unfold gl_setitem, gbind, gl_get. rewrite E. exact T.
  - unfold gl_delitem, gbind, gl_get. destruct (nth_error m l) as [c|] eqn:E; auto.
    destruct (list_index _ _) as [k|]; auto. unfold gl_put. rewrite E.
    eapply only_typed; [exact T|apply put_only; exact E|]. intros c' E'. rewrite E in E'. injection E' as <-.
    apply del_in. apply (T _ _ E).
Qed.
Lemma typed_exec : forall p m, Forall gchecked p -> lists_typed m -> lists_typed (gexec m p).
Proof. induction p; intros m C T; cbn; auto. inversion C; subst. apply IHp; auto. apply typed_step; auto. Qed.
Lemma typed_empty : lists_typed [].
Proof. intros [|l] c E; discriminate. Qed.
Lemma gtypes_invariant : forall p, Forall gchecked p -> lists_typed (gexec [] p).
Proof. intros p C. apply typed_exec; [exact C|exact typed_empty]. Qed.

(** ---- where the promise is broken ---- *)
Lemma slice_glist : forall m l c a b x, nth_error m l = Some c -> gl_cls c = GList ->
  exists e, gstep (OSetSlice l a b x) m = (m, Raise e).
Proof.
  intros m l c a b x E K. cbn [gstep]. unfold gl_setslice, gbind, gl_get. rewrite E, K.
  destruct x; cbn; eexists; reflexivity.
Qed.
Lemma slice_multi : forall m l c a b k d, nth_error m l = Some c -> gl_cls c = GMulti ->
  nth_error m k = Some d -> gl_cls d = GList -> gl_items d <> [] -> lists_typed m ->
  exists m', gstep (OSetSlice l a b (GRef k)) m = (m', Ok tt) /\
    only_items m m' l (firstn a (gl_items c) ++ gl_items d ++ skipn b (gl_items c)) /\ ~ lists_typed m'.
Proof.
  intros m l c a b k d E K E' K' N T. cbn [gstep]. unfold gl_setslice, gbind, gl_get. rewrite E, K. unfold gl_accepts.
  rewrite E'. destruct d as [dc di]. cbn in K'. subst dc. cbv beta iota. rewrite ?E'. cbv beta iota. cbn [gl_items]. unfold gl_put. rewrite E.
  eexists. split; [reflexivity|]. pose proof (put_only m l c (firstn a (gl_items c) ++ di ++ skipn b (gl_items c)) E) as O.
  split; [exact O|]. intros T'. destruct O as (_ & (c0 & E0 & E1) & _). rewrite E in E0. injection E0 as <-.
  specialize (T' _ _ E1). cbn in T'. rewrite K in T'. apply Forall_app in T' as [_ T']. apply Forall_app in T' as [T' _].
  pose proof (T _ _ E') as T2. cbn in T2. cbn in N. destruct di as [|x di]; [congruence|].
  inversion T'; subst. inversion T2; subst. destruct H1 as (j & q & -> & _). destruct H3 as (i & Hi). discriminate.
Qed.
Lemma not_allowed_else : forall m c, ~ allowed m c GElse.
Proof. intros m [|]; cbn; [intros (i & H)|intros (l & xs & H & _)]; discriminate. Qed.
Lemma broken : forall m m' l xs, only_items m m' l xs -> In GElse xs -> ~ lists_typed m'.
Proof.
  intros m m' l xs (_ & (c & E & E1) & _) I T. specialize (T _ _ E1). cbn in T. rewrite Forall_forall in T.
  exact (not_allowed_else _ _ (T _ I)).
Qed.
Lemma inherited_unchecked : forall m l c k, nth_error m l = Some c ->
  (exists m', gstep (OExtend l [GElse]) m = (m', Ok tt) /\ ~ lists_typed m') /\
  (exists m', gstep (OInsert l k GElse) m = (m', Ok tt) /\ ~ lists_typed m') /\
  (exists m', gstep (ONew (gl_cls c) [GElse]) m = (m', Ok tt) /\ ~ lists_typed m').
Proof.
  intros m l c k E. cbn [gstep]. unfold gl_extend, gl_insert, gl_new, gl_put, gbind, gl_get. cbv beta. rewrite !E, ?E.
  split; [|split]; eexists; (split; [reflexivity|]).
  - eapply broken; [apply put_only; exact E|]. apply in_or_app. right. left. reflexivity.
  - eapply broken; [apply put_only; exact E|]. apply in_or_app. right. left. reflexivity.
  - intros T. specialize (T (length m) (mkGl (gl_cls c) [GElse])). rewrite nth_error_app2, Nat.sub_diag in T by lia.
    specialize (T eq_refl). inversion T; subst. exact (not_allowed_else _ _ H1).
Qed.

(** ---- the lists of a fit ---- *)
Definition mixtures (gms : list (gref * gref)) : Prop := Forall (fun p => is_mixture (fst p) /\ is_mixture (snd p)) gms.

Lemma append_ok : forall m l c x, nth_error m l = Some c -> allowed m (gl_cls c) x ->
  gl_append l x m = (upd m l (mkGl (gl_cls c) (gl_items c ++ [x])), Ok tt).
Proof. intros m l c x E A. destruct (append_cases m l x c E) as [(_ & H)|(H & _)]; [exact H|contradiction]. Qed.

Lemma init_band_run : forall gms m l0 l xs0 xs, l0 <> l -> mixtures gms ->
  nth_error m l0 = Some (mkGl GList xs0) -> nth_error m l = Some (mkGl GList xs) ->
  exists m', init_band l0 l gms m = (m', Ok tt) /\ length m' = length m /\
    nth_error m' l0 = Some (mkGl GList (xs0 ++ map fst gms)) /\ nth_error m' l = Some (mkGl GList (xs ++ map snd gms)) /\
    forall k, k <> l0 -> k <> l -> nth_error m' k = nth_error m k.
Proof.
  induction gms as [|[g0 g] r IH]; intros m l0 l xs0 xs N M E0 E.
  - exists m. cbn. rewrite !app_nil_r. repeat split; auto.
  - inversion M as [|? ? [M1 M2] M3]; subst. cbn in M1, M2. cbn [init_band]. unfold gbind.
    rewrite (append_ok m l0 _ g0 E0 M1). cbn [gl_cls gl_items].
    set (m1 := upd m l0 _).
    assert (E1 : nth_error m1 l = Some (mkGl GList xs)) by (unfold m1; rewrite gupd_other; auto).
    rewrite (append_ok m1 l _ g E1 M2). cbn [gl_cls gl_items]. set (m2 := upd m1 l _).
    destruct (IH m2 l0 l (xs0 ++ [g0]) (xs ++ [g]) N M3) as (m' & R & L & F0 & F & O).
    + unfold m2. rewrite gupd_other by auto. unfold m1. apply gupd_same. eapply lt_nth; eauto.
    + unfold m2. apply gupd_same. eapply lt_nth; eauto.
    + exists m'. rewrite R. split; [reflexivity|]. split; [|split; [|split]].
      * rewrite L. unfold m2, m1. rewrite !gupd_length. reflexivity.
      * rewrite F0, <- app_assoc. reflexivity.
      * rewrite F, <- app_assoc. reflexivity.
      * intros k K0 K. rewrite O by auto. unfold m2, m1. rewrite !gupd_other by auto. reflexivity.
Qed.

Lemma nth_snoc : forall {A} (m : list A) x, nth_error (m ++ [x]) (length m) = Some x.
Proof. intros. rewrite nth_error_app2, Nat.sub_diag by lia. reflexivity. Qed.

Lemma init_bands_run : forall bands m a0 a is0 is, a0 <> a -> Forall mixtures bands ->
  nth_error m a0 = Some (mkGl GMulti is0) -> nth_error m a = Some (mkGl GMulti is) ->
  exists m' ls0 ls, init_bands a0 a bands m = (m', Ok tt) /\
    nth_error m' a0 = Some (mkGl GMulti (is0 ++ map GRef ls0)) /\ nth_error m' a = Some (mkGl GMulti (is ++ map GRef ls)) /\
    Forall2 (fun k xs => nth_error m' k = Some (mkGl GList xs)) ls0 (map (map fst) bands) /\
    Forall2 (fun k xs => nth_error m' k = Some (mkGl GList xs)) ls (map (map snd) bands) /\
    Forall (fun k => length m <= k)%nat (ls0 ++ ls) /\ NoDup (ls0 ++ ls) /\
    (forall k, (k < length m)%nat -> k <> a0 -> k <> a -> nth_error m' k = nth_error m k).
Proof.
  induction bands as [|gms r IH]; intros m a0 a is0 is N M E0 E.
  - exists m, [], []. cbn. rewrite !app_nil_r. repeat split; auto; constructor.
  - inversion M as [|? ? M1 M2]; subst. pose proof (lt_nth _ _ _ E0) as L0. pose proof (lt_nth _ _ _ E) as L.
    cbn [init_bands]. unfold gbind, gl_new.
    set (m1 := m ++ [mkGl GList []]). set (m2 := m1 ++ [mkGl GList []]).
    assert (Lm1 : length m1 = S (length m)) by (unfold m1; rewrite app_length; cbn; lia).
    assert (Lm2 : length m2 = S (S (length m))) by (unfold m2; rewrite app_length; cbn; lia).
    assert (Old : forall k, (k < length m)%nat -> nth_error m2 k = nth_error m k).
    { intros k K. unfold m2. rewrite nth_error_app1 by lia. unfold m1. apply nth_error_app1. exact K. }
    destruct (init_band_run gms m2 (length m) (length m1) [] []) as (m3 & R & Lm3 & F0 & F & O).
    { lia. } { exact M1. }
    { unfold m2. rewrite nth_error_app1 by lia. apply nth_snoc. }
    { unfold m2. apply nth_snoc. }
    cbn [app] in F0, F. rewrite R.
    assert (A0 : nth_error m3 a0 = Some (mkGl GMulti is0)) by (rewrite O, Old; auto; lia).
    assert (A : nth_error m3 a = Some (mkGl GMulti is)) by (rewrite O, Old; auto; lia).
    rewrite (append_ok m3 a0 _ (GRef (length m)) A0) by (exists (length m), (map fst gms); auto).
    cbn [gl_cls gl_items]. set (m4 := upd m3 a0 _).
    assert (A4 : nth_error m4 a = Some (mkGl GMulti is)) by (unfold m4; rewrite gupd_other; auto).
    assert (B4 : nth_error m4 (length m1) = Some (mkGl GList (map snd gms))) by (unfold m4; rewrite gupd_other; [auto|lia]).
    rewrite (append_ok m4 a _ (GRef (length m1)) A4) by (exists (length m1), (map snd gms); auto).
    cbn [gl_cls gl_items]. set (m5 := upd m4 a _).
    assert (Lm5 : length m5 = S (S (length m))) by (unfold m5, m4; rewrite !gupd_length; lia).
    assert (K5 : forall k, k <> a0 -> k <> a -> nth_error m5 k = nth_error m3 k).
    { intros k K1 K2. unfold m5, m4. rewrite !gupd_other by auto. reflexivity. }
    destruct (IH m5 a0 a (is0 ++ [GRef (length m)]) (is ++ [GRef (length m1)]) N M2)
      as (m' & ls0 & ls & R' & G0 & G & H0 & H & B & D & P).
    { unfold m5. rewrite gupd_other by auto. unfold m4. apply gupd_same. lia. }
    { unfold m5. apply gupd_same. unfold m4. rewrite gupd_length. lia. }
    exists m', (length m :: ls0), (length m1 :: ls). rewrite R'. split; [reflexivity|].
    rewrite G0, G, <- !app_assoc. split; [reflexivity|]. split; [reflexivity|].
    rewrite Lm5 in B, P.
    split; [|split; [|split; [|split]]].
    + cbn [map]. constructor; auto. rewrite P by lia. rewrite K5 by lia. exact F0.
    + cbn [map]. constructor; auto. rewrite P by lia. rewrite K5 by lia. exact F.
    + apply Forall_app in B as [B1 B2]. cbn [app]. constructor; [lia|]. apply Forall_app. split.
      * eapply Forall_impl; [|exact B1]. cbn. lia.
      * constructor; [lia|]. eapply Forall_impl; [|exact B2]. cbn. lia.
    + rewrite Forall_forall in B. cbn [app]. constructor.
      * rewrite in_app_iff. cbn [In]. intros [I|[I|I]]; [|lia|].
        -- specialize (B (length m) (in_or_app _ _ _ (or_introl I))). lia.
        -- specialize (B (length m) (in_or_app _ _ _ (or_intror I))). lia.
      * apply NoDup_Add with (a := length m1) (l := ls0 ++ ls); [apply Add_app|]. split; auto.
        intros I. specialize (B _ I). lia.
    + intros k K K1 K2. rewrite P by lia. rewrite K5 by auto. rewrite O by lia. apply Old. exact K.
Qed.

Lemma fit_lists : forall bands m, Forall mixtures bands ->
  exists m' a0 a ls0 ls, init_gmix_all bands m = (m', Ok (a0, a)) /\
    holds_bands m' a0 ls0 (map (map fst) bands) /\ holds_bands m' a ls (map (map snd) bands) /\
    NoDup (a0 :: a :: ls0 ++ ls) /\ (forall k, In k (a0 :: a :: ls0 ++ ls) -> nth_error m k = None) /\
    forall k c, nth_error m k = Some c -> nth_error m' k = Some c.
Proof.
  intros bands m M. unfold init_gmix_all, gbind, gl_new.
  set (m1 := m ++ [mkGl GMulti []]). set (m2 := m1 ++ [mkGl GMulti []]).
  assert (Lm1 : length m1 = S (length m)) by (unfold m1; rewrite app_length; cbn; lia).
  assert (Lm2 : length m2 = S (S (length m))) by (unfold m2; rewrite app_length; cbn; lia).
  destruct (init_bands_run bands m2 (length m) (length m1) [] []) as (m' & ls0 & ls & R & G0 & G & H0 & H & B & D & P).
  { lia. } { exact M. }
  { unfold m2. rewrite nth_error_app1 by lia. apply nth_snoc. }
  { unfold m2. apply nth_snoc. }
  exists m', (length m), (length m1), ls0, ls. rewrite R. split; [reflexivity|].
  split; [split; auto|]. split; [split; auto|]. rewrite Forall_forall in B.
  split; [|split].
  - constructor; [|constructor; auto].
    + cbn [In]. intros [I|I]; [lia|]. specialize (B _ I). lia.
    + intros I. specialize (B _ I). lia.
  - intros k [I|[I|I]]; apply nth_error_None; [lia|lia|]. specialize (B _ I). lia.
  - intros k c E. pose proof (lt_nth _ _ _ E) as L. rewrite P by lia. unfold m2. rewrite nth_error_app1 by lia.
    unfold m1. rewrite nth_error_app1 by lia. exact E.
Qed.

(** an example: two bands, the first with two observations *)
Definition gprog : list gop :=
  [ONew GList []; OAppend 0 (GMixture 0); OAppend 0 GElse; OAppend 0 (GMixture 1); ONew GMulti []; OAppend 1 (GRef 0);
   OAppend 1 (GMixture 0); OSetItem 0 (-1) (GMixture 2)].
Lemma gprog_run : gexec [] gprog = [mkGl GList [GMixture 0; GMixture 2]; mkGl GMulti [GRef 0]].
Proof. reflexivity. Qed.
Lemma gprog_checked : Forall gchecked gprog.
Proof. repeat constructor. Qed.
