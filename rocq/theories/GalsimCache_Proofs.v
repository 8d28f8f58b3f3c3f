(** The cache of galsim objects: lemmas. *)
From Coq Require Import String.
From Verif Require Import Base XReal GalsimCache_Model GalsimCache_Spec.
Local Open Scope list_scope.

Lemma xeqb_true a b : xeqb a b = true -> a = b.
Proof. destruct a, b; cbn; try discriminate; try reflexivity. intros H. apply Reqb_true in H. congruence. Qed.
Lemma list_eqb_true {A} (eq : A -> A -> bool) : (forall x y, eq x y = true -> x = y) -> forall a b, list_eqb eq a b = true -> a = b.
Proof.
  intros H. induction a as [|x a IH]; intros [|y b] E; cbn in E; try discriminate; [reflexivity|].
  apply andb_prop in E as [E1 E2]. rewrite (H _ _ E1), (IH _ E2). reflexivity.
Qed.
Lemma ckey_eqb_true a b : ckey_eqb a b = true -> a = b.
Proof.
  destruct a as [[i w] x], b as [[j v] y]. cbn. intros H. apply andb_prop in H as [H H3]. apply andb_prop in H as [H1 H2].
  apply String.eqb_eq in H2, H3. apply (list_eqb_true _ (list_eqb_true _ xeqb_true)) in H1. congruence.
Qed.
Lemma ckey_refl img w x : no_nan img -> ckey_eqb (img, w, x) (img, w, x) = true.
Proof.
  intros H. cbn. rewrite !String.eqb_refl, !andb_true_r. induction H as [|r img Hr H IH]; [reflexivity|]. cbn. rewrite IH, andb_true_r.
  clear - Hr. induction Hr as [|p r Hp H IH]; [reflexivity|]. cbn. rewrite IH, andb_true_r. destruct p; cbn; try reflexivity; [|congruence]. apply Reqb_t. reflexivity.
Qed.

Section Cache.
Context {W V : Type}.
Variable impl : list (list xr) -> W -> string -> res V.
Variable wrepr : W -> string.
Variable weval : string -> res W.
Notation body := (cached_body impl weval).
Notation call := (galsim_stuff impl wrepr weval).
Notation step := (cstep impl wrepr weval).
Notation run := (crun impl wrepr weval).

Lemma take_spec (d : list (ckey * V)) k v d' : take d k = Some (v, d') ->
  exists a b, d = a ++ (k, v) :: b /\ d' = a ++ b /\ Forall (fun e => ckey_eqb (fst e) k = false) a.
Proof.
  revert v d'. induction d as [|[k0 v0] d IH]; intros v d' H; [discriminate|]. cbn in H. destruct (ckey_eqb k0 k) eqn:E.
  - injection H as <- <-. apply ckey_eqb_true in E. subst. exists [], d. auto.
  - destruct (take d k) as [[u e]|] eqn:T; [|discriminate]. injection H as <- <-. destruct (IH _ _ eq_refl) as (a & b & -> & -> & F).
    exists ((k0, v0) :: a), b. repeat split. constructor; [exact E|exact F].
Qed.
Lemma take_none (d : list (ckey * V)) k : take d k = None -> Forall (fun e => ckey_eqb (fst e) k = false) d.
Proof.
  induction d as [|[k0 v0] d IH]; intros H; [constructor|]. cbn in H. destruct (ckey_eqb k0 k) eqn:E; [discriminate|].
  destruct (take d k) as [[u e]|]; [discriminate|]. constructor; auto.
Qed.

(** every entry is what the function returned for its key *)
Definition right (s : cstate) : Prop := Forall (fun e => body (fst e) = Ok (snd e)) (@cs_entries V s) /\ (List.length (cs_entries s) <= maxsize)%nat.
Lemma right_start : right start.
Proof. split; [constructor|cbn; lia]. Qed.
Lemma firstn_forall {A} (P : A -> Prop) n l : Forall P l -> Forall P (firstn n l).
Proof. revert n. induction l; intros [|n] H; cbn; auto. inversion H; subst. constructor; auto. Qed.
Lemma call_right s img w x : right s -> right (fst (fst (call s img w x))).
Proof.
  intros [H L]. unfold galsim_stuff. destruct (cs_use s); [|split; assumption]. unfold lru.
  destruct (take (cs_entries s) (img, wrepr w, x)) as [[v d]|] eqn:T.
  - destruct (take_spec _ _ _ _ T) as (a & b & E & -> & _). rewrite E in *. apply Forall_app in H as [H1 H2]. inversion H2; subst.
    split; [constructor; [assumption|apply Forall_app; auto]|]. cbn. rewrite app_length in *. cbn in L. lia.
  - destruct (body (img, wrepr w, x)) as [v|e] eqn:B; [|split; assumption]. split.
    + cbn [fst cs_entries]. apply firstn_forall. constructor; [exact B|exact H].
    + cbn [fst cs_entries]. rewrite firstn_length. lia.
Qed.
Lemma step_right s o : right s -> right (step s o).
Proof. intros H. destruct o; [exact H|apply right_start|apply call_right; exact H]. Qed.
Lemma run_right l : forall s, right s -> right (run s l).
Proof. induction l as [|o l IH]; intros s H; [exact H|]. apply IH, step_right, H. Qed.

Lemma call_result s img w x : faithful_repr wrepr weval -> right s -> snd (fst (call s img w x)) = impl img w x.
Proof.
  intros Hr [H _]. unfold galsim_stuff. destruct (cs_use s); [|reflexivity]. unfold lru.
  assert (B : body (img, wrepr w, x) = impl img w x) by (cbn; rewrite Hr; reflexivity).
  destruct (take (cs_entries s) (img, wrepr w, x)) as [[v d]|] eqn:T.
  - destruct (take_spec _ _ _ _ T) as (a & b & E & _ & _). rewrite E in H. apply Forall_app in H as [_ H]. inversion H; subst. cbn [fst snd] in *. congruence.
  - rewrite B. destruct (impl img w x); reflexivity.
Qed.
Lemma transparent l img w x : faithful_repr wrepr weval -> snd (fst (call (run start l) img w x)) = impl img w x.
Proof. intros Hr. apply call_result; [exact Hr|]. apply run_right, right_start. Qed.
Lemma bounded l : (List.length (cs_entries (run start l)) <= 128)%nat.
Proof. apply (run_right l start right_start). Qed.
Lemma off_empty l : cs_use (run start l) = false -> cs_entries (run start l) = [].
Proof.
  assert (G : forall l s, (cs_use s = false -> cs_entries s = []) -> cs_use (run s l) = false -> cs_entries (run s l) = []).
  { clear l. induction l as [|o l IH]; intros s H; [exact H|]. apply IH. destruct o; cbn; [discriminate|reflexivity|].
    unfold galsim_stuff. destruct (cs_use s) eqn:U; [|cbn; intros _; apply H; reflexivity]. destruct (lru _ _ _) as [[? ?] ?]. discriminate. }
  apply G. reflexivity.
Qed.

(** the entries before the one of k are among U *)
Definition front (U : list ckey) (k : ckey) (s : cstate) : Prop :=
  cs_use s = true /\ exists v a b, @cs_entries V s = a ++ (k, v) :: b /\ NoDup (map fst a) /\ Forall (fun e => In (fst e) U /\ fst e <> k) a.
Lemma front_small U k (a : list (ckey * V)) : NoDup (map fst a) -> Forall (fun e => In (fst e) U /\ fst e <> k) a -> (List.length a <= List.length U)%nat.
Proof.
  intros N F. rewrite <- (map_length fst). apply NoDup_incl_length; [exact N|]. intros e He. apply in_map_iff in He as (p & <- & Hp).
  rewrite Forall_forall in F. apply (F p Hp).
Qed.
Lemma split_two {A} (x y : A) a : forall a1 b b1, a ++ x :: b = a1 ++ y :: b1 -> x <> y ->
  (exists c, a = a1 ++ y :: c /\ b1 = c ++ x :: b) \/ (exists c, a1 = a ++ x :: c /\ b = c ++ y :: b1).
Proof.
  induction a as [|e a IH]; intros [|e1 a1] b b1 E Hn; cbn in E; injection E as E1 E2; subst.
  - congruence.
  - right. exists a1. auto.
  - left. exists a. auto.
  - destruct (IH _ _ _ E2 Hn) as [(c & -> & ->)|(c & -> & ->)]; [left|right]; exists c; auto.
Qed.
Lemma nodup_front {A B} (x : A * B) a c : NoDup (map fst (a ++ x :: c)) -> NoDup (map fst (x :: a ++ c)).
Proof. rewrite !map_app. cbn [map]. rewrite map_app. intros H. apply NoDup_remove in H as [H1 H2]. constructor; assumption. Qed.
Lemma keep_front (A : list (ckey * V)) x b : (List.length A <= 127)%nat -> firstn maxsize (A ++ x :: b) = A ++ x :: firstn (127 - List.length A) b.
Proof.
  intros H. rewrite firstn_app. rewrite firstn_all2 by (unfold maxsize; lia). f_equal.
  replace (maxsize - List.length A)%nat with (S (127 - List.length A)) by (unfold maxsize; lia). reflexivity.
Qed.
Lemma front_step U k s o : (List.length U <= 127)%nat ->
  match o with CCall img w x => no_nan img /\ In (img, wrepr w, x) U | COn => True | COff => False end -> front U k s -> front U k (step s o).
Proof.
  intros LU Ho (Us & v & a & b & E & N & F). destruct o as [| |img w x]; [|contradiction|]; [split; [reflexivity|exists v, a, b; auto]|].
  destruct Ho as [Hn Hu]. set (q := (img, wrepr w, x)) in *.
  assert (Rq : ckey_eqb q q = true) by (apply ckey_refl; exact Hn).
  cbn [cstep]. unfold galsim_stuff. rewrite Us, E. fold q. unfold lru.
  destruct (take (a ++ (k, v) :: b) q) as [[u d]|] eqn:T.
  - destruct (take_spec _ _ _ _ T) as (a1 & b1 & E1 & -> & F1). split; [reflexivity|]. cbn [fst cs_entries].
    destruct (ckey_eqb k q) eqn:Ek.
    + apply ckey_eqb_true in Ek. rewrite <- Ek. exists u, [], (a1 ++ b1). repeat split; [constructor|constructor].
    + assert (Hk : q <> k) by (intros Q; rewrite <- Q in Ek; congruence).
      destruct (split_two _ _ _ _ _ _ E1 ltac:(congruence)) as [(c & -> & ->)|(c & -> & ->)].
      * exists v, ((q, u) :: a1 ++ c), b. split; [cbn; rewrite app_assoc; reflexivity|]. split; [apply nodup_front; exact N|].
        apply Forall_app in F as [Fa Fc]. inversion Fc; subst. constructor; [assumption|]. apply Forall_app. auto.
      * exists v, ((q, u) :: a), (c ++ b1). split; [cbn; rewrite <- app_assoc; reflexivity|]. apply Forall_app in F1 as [F1 _]. split.
        -- constructor; [|exact N]. intros Hi. apply in_map_iff in Hi as (p & Hp & Hi). rewrite Forall_forall in F1. specialize (F1 p Hi). rewrite Hp in F1. cbn [fst] in F1. congruence.
        -- constructor; [auto|exact F].
  - apply take_none in T. apply Forall_app in T as [Ta Tk]. inversion Tk as [|? ? Tk1 _]; subst. cbn [fst] in Tk1.
    destruct (body q) as [r|]; [|split; [reflexivity|exists v, a, b; auto]]. split; [reflexivity|]. cbn [fst cs_entries].
    assert (N2 : NoDup (map fst ((q, r) :: a))).
    { constructor; [|exact N]. intros Hi. apply in_map_iff in Hi as (p & Hp & Hi). rewrite Forall_forall in Ta. specialize (Ta p Hi). destruct p as [kp vp]. cbn [fst] in *. subst kp. congruence. }
    assert (F2 : Forall (fun e => In (fst e) U /\ fst e <> k) ((q, r) :: a)).
    { constructor; [|exact F]. split; [exact Hu|]. cbn [fst]. intros Q. rewrite <- Q in Tk1. congruence. }
    exists v, ((q, r) :: a), (firstn (127 - List.length ((q, r) :: a)) b). split; [|split; assumption].
    change ((q, r) :: a ++ (k, v) :: b) with (((q, r) :: a) ++ (k, v) :: b). apply keep_front.
    exact (Nat.le_trans _ _ _ (front_small _ _ _ N2 F2) LU).
Qed.
Lemma front_run U k : (List.length U <= 127)%nat -> forall l s, calls_among wrepr U l -> front U k s -> front U k (run s l).
Proof.
  intros LU. induction l as [|o l IH]; intros s H Hf; [exact Hf|]. inversion H; subst. apply IH; [assumption|]. apply front_step; assumption.
Qed.
Lemma call_front U s img w x v : faithful_repr wrepr weval -> cs_use s = true -> impl img w x = Ok v -> front U (img, wrepr w, x) (fst (fst (call s img w x))).
Proof.
  intros Hr Us Hv. unfold galsim_stuff. rewrite Us. unfold lru. destruct (take _ _) as [[u d]|].
  - split; [reflexivity|]. exists u, [], d. repeat split; constructor.
  - cbn [cached_body]. rewrite Hr. cbn [bind]. rewrite Hv. split; [reflexivity|]. exists v, [], (firstn 127 (cs_entries s)). repeat split; constructor.
Qed.
Lemma front_hit U s img w x : no_nan img -> front U (img, wrepr w, x) s -> snd (call s img w x) = false.
Proof.
  intros Hn (Us & v & a & b & E & _). unfold galsim_stuff. rewrite Us. unfold lru. destruct (take (cs_entries s) (img, wrepr w, x)) as [[u d]|] eqn:T; [reflexivity|].
  apply take_none in T. rewrite E in T. apply Forall_app in T as [_ T]. inversion T as [|? ? T1 _]; subst. cbn [fst] in T1. rewrite (ckey_refl _ _ _ Hn) in T1. discriminate.
Qed.
Lemma remembered l img w x v U mid : faithful_repr wrepr weval -> cs_use (run start l) = true -> impl img w x = Ok v -> no_nan img ->
  (List.length U <= 127)%nat -> calls_among wrepr U mid ->
  snd (call (run (fst (fst (call (run start l) img w x))) mid) img w x) = false.
Proof. intros Hr Us Hv Hn LU Hm. eapply front_hit; [exact Hn|]. apply (front_run U); [exact LU|exact Hm|]. eapply call_front; eassumption. Qed.
Lemma failed_not_kept l img w x e : faithful_repr wrepr weval -> impl img w x = Raise e -> fst (fst (call (run start l) img w x)) = run start l.
Proof.
  intros Hr He. pose proof (run_right l start right_start) as [Hs _]. unfold galsim_stuff. destruct (run start l) as [u d]. cbn [cs_use cs_entries] in *. destruct u; [|reflexivity]. unfold lru.
  assert (B : body (img, wrepr w, x) = Raise e) by (cbn; rewrite Hr; exact He). rewrite B.
  destruct (take d (img, wrepr w, x)) as [[v d']|] eqn:T; [|reflexivity].
  destruct (take_spec _ _ _ _ T) as (a & b & E & _ & _). rewrite E in Hs. apply Forall_app in Hs as [_ Hs]. inversion Hs as [|? ? B2 _]; subst. cbn [fst snd] in B2. congruence.
Qed.
End Cache.
