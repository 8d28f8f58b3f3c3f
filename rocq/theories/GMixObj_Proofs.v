From Coq Require Import Permutation.
From Verif Require Import Base Shape_Model Shape_Spec Moments_Model Moments_Spec Jacobian_Model Jacobian_Spec Pixels_Model
  GMix_Model GMix_Spec GMix_Proofs Render_Model Render_Spec Render_Proofs WSums_Model GMixObj_Model GMixObj_Spec.

(** ** memory *)
Definition wf (h : heap) : Prop :=
  length (h_pars h) = length (h_data h) /\
  NoDup (map r_pars (h_objs h)) /\ NoDup (map r_data (h_objs h)) /\
  Forall (fun r => (r_pars r < length (h_pars h))%nat /\ (r_data r < length (h_data h))%nat) (h_objs h).

Lemma nth_upd_same {A} (l : list A) i x : (i < length l)%nat -> nth_error (upd l i x) i = Some x.
Proof. revert i; induction l as [|y l IH]; intros [|i] H; cbn in *; try lia; [reflexivity|]. apply IH; lia. Qed.
Lemma nth_upd_other {A} (l : list A) i j x : i <> j -> nth_error (upd l i x) j = nth_error l j.
Proof. revert i j; induction l as [|y l IH]; intros [|i] [|j] H; cbn; try congruence; auto. Qed.

Lemma wf_lookup h i r : wf h -> nth_error (h_objs h) i = Some r ->
  exists p d, nth_error (h_pars h) (r_pars r) = Some p /\ nth_error (h_data h) (r_data r) = Some d.
Proof.
  intros (_ & _ & _ & F) E. apply nth_error_In in E. rewrite Forall_forall in F. destruct (F _ E) as [A B].
  apply nth_error_Some in A, B. destruct (nth_error (h_pars h) (r_pars r)); [|congruence].
  destruct (nth_error (h_data h) (r_data r)); [|congruence]. eauto.
Qed.
Lemma nodup_inj {A} (f : A -> nat) l i j a b : NoDup (map f l) -> nth_error l i = Some a -> nth_error l j = Some b -> i <> j -> f a <> f b.
Proof.
  intros N Ea Eb H K. apply H. eapply NoDup_nth_error; [exact N| |].
  - rewrite map_length. apply nth_error_Some. congruence.
  - rewrite !nth_error_map, Ea, Eb. cbn. congruence.
Qed.

Lemma read_write_same h i o x : wf h -> read h i = Some x ->
  o_kind o = o_kind x -> o_ngauss o = o_ngauss x -> o_npars o = o_npars x -> read (write h i o) i = Some o.
Proof.
  intros W E K1 K2 K3. unfold read, write in *. destruct (nth_error (h_objs h) i) as [r|] eqn:Er; [|discriminate].
  cbn [h_objs h_pars h_data]. rewrite Er. pose proof W as (_ & _ & _ & F). apply nth_error_In in Er. rewrite Forall_forall in F.
  destruct (F _ Er) as [A B]. rewrite !nth_upd_same by assumption.
  destruct (nth_error (h_pars h) (r_pars r)); [|discriminate]. destruct (nth_error (h_data h) (r_data r)); [|discriminate].
  injection E as <-. cbn in *. rewrite <- K1, <- K2, <- K3. destruct o; reflexivity.
Qed.
Lemma read_write_other h i j o : wf h -> i <> j -> read (write h i o) j = read h j.
Proof.
  intros (_ & N1 & N2 & _) H. unfold read, write. destruct (nth_error (h_objs h) i) as [r|] eqn:Er; [|reflexivity].
  cbn [h_objs h_pars h_data]. destruct (nth_error (h_objs h) j) as [q|] eqn:Eq; [|reflexivity].
  rewrite (nth_upd_other (h_pars h)) by (exact (nodup_inj r_pars _ _ _ _ _ N1 Er Eq H)).
  rewrite (nth_upd_other (h_data h)) by (exact (nodup_inj r_data _ _ _ _ _ N2 Er Eq H)). reflexivity.
Qed.
Lemma write_wf h i o : wf h -> wf (write h i o).
Proof.
  intros (L & N1 & N2 & F). unfold write. destruct (nth_error (h_objs h) i); [|split; auto].
  unfold wf; cbn [h_objs h_pars h_data]. rewrite !upd_length. auto.
Qed.

Lemma read_app h i : wf h -> forall p d objs, (forall r, nth_error (h_objs h) i = Some r -> nth_error objs i = Some r) -> (i < length (h_objs h))%nat ->
  read (mkHeap (h_pars h ++ p) (h_data h ++ d) objs) i = read h i.
Proof.
  intros W p d objs Ho Hi. unfold read; cbn [h_objs h_pars h_data]. apply nth_error_Some in Hi.
  destruct (nth_error (h_objs h) i) as [r|] eqn:Er; [|congruence]. rewrite (Ho r eq_refl).
  destruct W as (_ & _ & _ & F). apply nth_error_In in Er. rewrite Forall_forall in F. destruct (F _ Er) as [A B].
  rewrite (nth_error_app1 (h_pars h)) by exact A. rewrite (nth_error_app1 (h_data h)) by exact B. reflexivity.
Qed.
Lemma read_alloc_old h o i : wf h -> (i < length (h_objs h))%nat -> read (alloc h o) i = read h i.
Proof. intros W Hi. unfold alloc. apply read_app; auto. intros r Hr. rewrite nth_error_app1; auto. Qed.
Lemma nth_app_new {A} (l : list A) x : nth_error (l ++ [x]) (length l) = Some x.
Proof. rewrite nth_error_app2, Nat.sub_diag by lia. reflexivity. Qed.
Lemma read_alloc_new h o : read (alloc h o) (length (h_objs h)) = Some o.
Proof.
  unfold read, alloc; cbn [h_objs h_pars h_data]. rewrite nth_app_new. cbn [r_pars r_data]. rewrite !nth_app_new.
  destruct o; reflexivity.
Qed.
Lemma nodup_app_fresh {A} (f : A -> nat) l x n : NoDup (map f l) -> f x = n -> Forall (fun r => (f r < n)%nat) l -> NoDup (map f (l ++ [x])).
Proof.
  intros N E F. rewrite map_app. cbn [map].
  eapply Permutation_NoDup; [apply Permutation_cons_append|].
  constructor; [|exact N]. intros K. apply in_map_iff in K. destruct K as (y & Ey & Hy). rewrite Forall_forall in F. specialize (F y Hy). lia.
Qed.
Lemma alloc_wf h o : wf h -> wf (alloc h o).
Proof.
  intros (L & N1 & N2 & F). unfold alloc, wf; cbn [h_objs h_pars h_data]. rewrite !app_length. cbn [length].
  split; [lia|]. split; [|split].
  - eapply nodup_app_fresh; [exact N1|reflexivity|]. eapply Forall_impl; [|exact F]. cbn. intros; lia.
  - eapply nodup_app_fresh; [exact N2|reflexivity|]. eapply Forall_impl; [|exact F]. cbn. intros; lia.
  - apply Forall_app. split; [eapply Forall_impl; [|exact F]; cbn; intros; lia|]. constructor; [cbn; lia|constructor].
Qed.

Lemma upd_in {A} (l : list A) i x y : In y (upd l i x) -> y = x \/ In y l.
Proof. revert i; induction l as [|z l IH]; intros [|i] H; cbn in *; auto; destruct H as [<-|H]; auto. destruct (IH _ H); auto. Qed.
Lemma map_upd {A B} (f : A -> B) l i x : map f (upd l i x) = upd (map f l) i (f x).
Proof. revert i; induction l; intros [|i]; cbn; auto. f_equal; auto. Qed.
Lemma nodup_upd_fresh (l : list nat) i n : NoDup l -> Forall (fun k => (k < n)%nat) l -> NoDup (upd l i n).
Proof.
  intros N. revert i; induction N as [|a l Ha N IH]; intros [|i] F; cbn; [constructor|constructor| |].
  - apply Forall_cons_iff in F. destruct F as [_ F]. constructor; [|exact N]. intros K. rewrite Forall_forall in F. specialize (F _ K). lia.
  - apply Forall_cons_iff in F. destruct F as [Fa F]. constructor; [|apply IH; exact F].
    intros K. apply upd_in in K. destruct K as [->|K]; [lia|contradiction].
Qed.
Lemma rebind_wf h i o : wf h -> wf (rebind h i o).
Proof.
  intros (L & N1 & N2 & F). unfold rebind, wf; cbn [h_objs h_pars h_data]. rewrite !app_length, !map_upd. cbn [length r_pars r_data].
  split; [lia|]. split; [|split].
  - apply nodup_upd_fresh; [exact N1|]. apply Forall_map. eapply Forall_impl; [|exact F]. cbn. intros; lia.
  - apply nodup_upd_fresh; [exact N2|]. apply Forall_map. eapply Forall_impl; [|exact F]. cbn. intros; lia.
  - apply Forall_forall. intros r Hr. apply upd_in in Hr. destruct Hr as [->|Hr]; [cbn; lia|].
    rewrite Forall_forall in F. specialize (F r Hr). lia.
Qed.
Lemma read_rebind_other h i j o : wf h -> i <> j -> read (rebind h i o) j = read h j.
Proof.
  intros W H. destruct (le_lt_dec (length (h_objs h)) j) as [Hj|Hj].
  - unfold read, rebind; cbn [h_objs]. rewrite nth_upd_other by exact H.
    apply nth_error_None in Hj. rewrite Hj. reflexivity.
  - unfold rebind. apply read_app; auto. intros r Hr. rewrite nth_upd_other by exact H. exact Hr.
Qed.
Lemma read_lt h i x : read h i = Some x -> (i < length (h_objs h))%nat.
Proof. unfold read. intros H. apply nth_error_Some. destruct (nth_error (h_objs h) i); congruence. Qed.
Lemma read_rebind_same h i o x : read h i = Some x -> read (rebind h i o) i = Some o.
Proof.
  intros E. apply read_lt in E. unfold read, rebind; cbn [h_objs h_pars h_data]. rewrite nth_upd_same by exact E.
  cbn [r_pars r_data]. rewrite !nth_app_new. destruct o; reflexivity.
Qed.

(** kind and sizes never change *)
Lemma call_kind o m o' r : call o m = Some (o', r) ->
  o_kind o' = o_kind o /\ o_ngauss o' = o_ngauss o /\ o_npars o' = o_npars o.
Proof.
  destruct m; cbn [call].
  - unfold obj_fill, obj__fill. destruct (negb _); [intros E; injection E as <- _; auto|].
    destruct (fill_func _ _ _); intros E; injection E as <- _; auto.
  - intros E; injection E as <- _; auto.
  - destruct (gm_set_flux _ _); [|discriminate]. intros E; injection E as <- _; auto.
  - destruct (gm_set_cen _ _ _); [|discriminate]. destruct (o_kind o) eqn:K; try destruct (set2 (o_pars o) row col); intros E; injection E as <- _; cbn; auto.
  - destruct (gmix_set_norms _). intros E; injection E as <- _; auto.
  - destruct (set_norms_if_needed _). intros E; injection E as <- _; auto.
Qed.

Lemma empty_wf : wf empty_heap.
Proof. repeat split; constructor. Qed.
Lemma add_wf h x h' r : wf h -> add h x = Some (h', r) -> wf h'.
Proof. intros W. unfold add. destruct x; intros E; injection E as <- _; auto using alloc_wf. Qed.
Lemma step_wf h o h' r : wf h -> step h o = Some (h', r) -> wf h'.
Proof.
  intros W. destruct o; cbn [step]; try (apply add_wf; exact W).
  - destruct (read h i) as [x|]; [|discriminate]. destruct (call x m) as [[x' r']|]; [|discriminate].
    intros E; injection E as <- _. destruct m; auto using write_wf, rebind_wf.
  - destruct (read h i) as [x|]; [|discriminate]. destruct (make x n); [|discriminate]. apply add_wf; exact W.
  - destruct (read h i) as [x|]; [|discriminate]. destruct (read h j) as [y|]; [|discriminate]. apply add_wf; exact W.
Qed.
Lemma run_wf l : forall h h', wf h -> run h l = Some h' -> wf h'.
Proof.
  induction l as [|o l IH]; intros h h' W; cbn [run]; [intros E; injection E as <-; exact W|].
  destruct (step h o) as [[h1 r]|] eqn:E; [|discriminate]. apply IH. eapply step_wf; eauto.
Qed.

(** the object i a step acts on, if any *)
Lemma step_frame l h o h' r j x : run empty_heap l = Some h -> step h o = Some (h', r) ->
  (forall m, o <> OCall j m) -> read h j = Some x -> read h' j = Some x.
Proof.
  intros HR E Hj Hx. pose proof (run_wf _ _ _ empty_wf HR) as W.
  assert (A : forall y h1 r1, add h y = Some (h1, r1) -> read h1 j = Some x).
  { intros y h1 r1. unfold add. destruct y; intros K; injection K as <- _; [|exact Hx]. rewrite read_alloc_old; auto. eapply read_lt; eauto. }
  destruct o; cbn [step] in E; try (eapply A; exact E).
  - assert (Hij : i <> j) by (intros ->; apply (Hj m); reflexivity).
    destruct (read h i) as [y|]; [|discriminate]. destruct (call y m) as [[y' r']|]; [|discriminate].
    injection E as <- _. rewrite <- Hx. destruct m; first [apply read_rebind_other|apply read_write_other]; assumption.
  - destruct (read h i) as [y|]; [|discriminate]. destruct (make y n); [|discriminate]. eapply A; exact E.
  - destruct (read h i) as [y|]; [|discriminate]. destruct (read h j0) as [z|]; [|discriminate]. eapply A; exact E.
Qed.
(** a call behaves on memory as on the value of its object *)
Lemma step_call l h i m x x' r : run empty_heap l = Some h -> read h i = Some x -> call x m = Some (x', r) ->
  exists h', step h (OCall i m) = Some (h', r) /\ read h' i = Some x'.
Proof.
  intros HR Hx Hc. pose proof (run_wf _ _ _ empty_wf HR) as W. cbn [step]. rewrite Hx, Hc. eexists; split; [reflexivity|].
  destruct (call_kind _ _ _ _ Hc) as (A & B & C').
  destruct m; first [eapply read_rebind_same; exact Hx | eapply read_write_same; eauto].
Qed.
Lemma step_make l h i n x y : run empty_heap l = Some h -> read h i = Some x -> make x n = Some (Ok y) ->
  exists h', step h (OMake i n) = Some (h', Ok tt) /\ read h' (length (h_objs h)) = Some y /\ read h' i = Some x.
Proof.
  intros HR Hx Hm. pose proof (run_wf _ _ _ empty_wf HR) as W. cbn [step]. rewrite Hx, Hm. cbn [add]. eexists; split; [reflexivity|].
  split; [apply read_alloc_new|]. rewrite read_alloc_old; auto. eapply read_lt; eauto.
Qed.

(** after a copy, calls on the copy leave the original alone and calls on the original leave
    the copy alone, however many *)
Lemma run_frame l2 : forall l1 h h' j x, run empty_heap l1 = Some h -> run h l2 = Some h' ->
  (forall m, ~ In (OCall j m) l2) -> read h j = Some x -> read h' j = Some x.
Proof.
  induction l2 as [|o l2 IH]; intros l1 h h' j x H1 H2 Hn Hx; cbn [run] in H2; [congruence|].
  destruct (step h o) as [[h1 r]|] eqn:E; [|discriminate].
  apply (IH (l1 ++ [o]) h1 h'); auto.
  - clear - H1 E. revert H1. generalize empty_heap. induction l1 as [|a l1 IH]; intros h0 H; cbn [run app] in *.
    + injection H as ->. rewrite E. reflexivity.
    + destruct (step h0 a) as [[h2 r2]|]; [|discriminate]. apply IH. exact H.
  - intros m K. apply (Hn m). right; exact K.
  - eapply step_frame; eauto. intros m ->. apply (Hn m). left; reflexivity.
Qed.

(** ** copies of plain mixtures *)
Lemma full_copy o : o_kind o = KFull -> exists c, obj_copy o = Ok c /\ o_kind c = KFull /\ o_ngauss c = o_ngauss o /\ o_data c = o_data o.
Proof. intros K. unfold obj_copy. rewrite K. eexists; split; [reflexivity|]. cbn. auto. Qed.

(** ** model mixtures: fill puts every component at the same place *)
Definition place (r c : R) (g : gauss) : gauss :=
  mkGauss (g_p g) r c (g_irr g) (g_irc g) (g_icc g) (g_det g) (g_norm_set g) (g_nrm g).
Lemma mapM_rmap {A B} (f f' : A -> res B) (g : B -> B) l : (forall x, f' x = rmap g (f x)) -> mapM f' l = rmap (map g) (mapM f l).
Proof.
  intros H. induction l as [|x l IH]; [reflexivity|]. cbn [mapM]. rewrite H, IH.
  destruct (f x); cbn [rmap bind]; [|reflexivity]. destruct (mapM f l); reflexivity.
Qed.
Lemma fill_place k n r c r0 c0 rest : k <> KFull ->
  fill_func k n (r :: c :: rest) = rmap (map (place r c)) (fill_func k n (r0 :: c0 :: rest)).
Proof.
  intros Hk.
  assert (S : forall f p, gmix_fill_simple n f p (r :: c :: rest) = rmap (map (place r c)) (gmix_fill_simple n f p (r0 :: c0 :: rest))).
  { intros f p. unfold gmix_fill_simple, getp. cbn [nth_error bind].
    do 4 (destruct rest as [|? rest]; [reflexivity|]; cbn [nth_error bind]).
    destruct (g1g2_to_e1e2_nb _ _) as [[e1 e2]|]; [|reflexivity]. cbn [bind]. apply mapM_rmap. intros i.
    destruct (nth_error f i); [|reflexivity]. destruct (nth_error p i); reflexivity. }
  assert (G : forall fd td e1 e2 T flux i, cm_gauss fd td r c e1 e2 T flux i = rmap (place r c) (cm_gauss fd td r0 c0 e1 e2 T flux i)).
  { intros. unfold cm_gauss, getp. destruct (Nat.ltb i 6).
    - destruct (nth_error pvals_exp i); [|reflexivity]. cbn [bind]. destruct (nth_error fvals_exp i); reflexivity.
    - destruct (nth_error pvals_dev (i - 6)); [|reflexivity]. cbn [bind]. destruct (nth_error fvals_dev (i - 6)); reflexivity. }
  destruct k as [|m|fd td tf|]; [congruence|destruct m|..]; cbn [fill_func];
    [exact (S _ _)|exact (S _ _)|exact (S _ _)|exact (S _ _)| | |reflexivity| |].
  - unfold gmix_fill_bd, getp. cbn [nth_error bind]. do 6 (destruct rest as [|? rest]; [reflexivity|]; cbn [nth_error bind]).
    destruct (get_cm_Tfactor _ _); [|reflexivity]. cbn [bind]. destruct (g1g2_to_e1e2_nb _ _) as [[e1 e2]|]; [|reflexivity].
    cbn [bind]. apply mapM_rmap. intros; apply G.
  - unfold gmix_fill_bdf, getp. cbn [nth_error bind]. do 5 (destruct rest as [|? rest]; [reflexivity|]; cbn [nth_error bind]).
    destruct (get_cm_Tfactor _ _); [|reflexivity]. cbn [bind]. destruct (g1g2_to_e1e2_nb _ _) as [[e1 e2]|]; [|reflexivity].
    cbn [bind]. apply mapM_rmap. intros; apply G.
  - unfold gmix_fill_cm, getp. cbn [nth_error bind]. do 4 (destruct rest as [|? rest]; [reflexivity|]; cbn [nth_error bind]).
    destruct (g1g2_to_e1e2_nb _ _) as [[e1 e2]|]; [|reflexivity].
    cbn [bind]. apply mapM_rmap. intros; apply G.
  - unfold gmix_fill_coellip, getp. cbn [nth_error bind]. do 2 (destruct rest as [|? rest]; [reflexivity|]; cbn [nth_error bind]).
    destruct (g1g2_to_e1e2_nb _ _) as [[e1 e2]|]; [|reflexivity].
    cbn [bind]. apply mapM_rmap. intros i. cbn [Nat.add nth_error].
    destruct (nth_error rest i); [|reflexivity]. cbn [bind]. destruct (nth_error rest (n + i)); reflexivity.
Qed.

Definition shape_ok (o : gmobj) : Prop :=
  match o_kind o with
  | KFull => False
  | KModel m => m <> Mbdc /\ o_ngauss o = model_ngauss m /\ o_npars o = model_npars m
  | KCM f t tf => get_cm_Tfactor f t = Ok tf /\ o_ngauss o = 16%nat /\ o_npars o = 6%nat
  | KCoellip => o_npars o = (4 + 2 * o_ngauss o)%nat
  end.
Definition tracks (o : gmobj) : Prop :=
  shape_ok o /\ length (o_pars o) = o_npars o /\
  exists d, fill_func (o_kind o) (o_ngauss o) (o_pars o) = Ok d /\ same_gmix d (o_data o).

Lemma same_sym a b : same_gmix a b -> same_gmix b a.
Proof. intros H. induction H as [|x y l l' E _ IH]; constructor; auto. unfold same_gauss in *. intuition congruence. Qed.
Lemma same_trans a b c : same_gmix a b -> same_gmix b c -> same_gmix a c.
Proof.
  intros H. revert c. induction H as [|x y l l' E _ IH]; intros c K; inversion K; subst; constructor; [|apply IH; assumption].
  unfold same_gauss in *. intuition congruence.
Qed.
Lemma same_norms gm : same_gmix gm (fst (gmix_set_norms gm)).
Proof.
  induction gm as [|g gm IH]; [constructor|]. cbn [gmix_set_norms]. unfold gauss2d_set_norm.
  destruct (Rltb (g_det g) GMIX_LOW_DETVAL); [apply same_gmix_refl|].
  destruct (Rleb (g_irr g + g_icc g) GMIX_LOW_DETVAL); [apply same_gmix_refl|].
  destruct (gmix_set_norms gm) as [rest r]. constructor; [unfold same_gauss; cbn; tauto|exact IH].
Qed.
Lemma same_norms_if gm : same_gmix gm (fst (set_norms_if_needed gm)).
Proof. destruct gm as [|g gm]; [constructor|]. unfold set_norms_if_needed. destruct (negb _); [apply same_norms|apply same_gmix_refl]. Qed.

(** copies rebuild the tracked components *)
Lemma tracks_copy o : tracks o -> exists c, obj_copy o = Ok c /\ o_kind c = o_kind o /\ o_ngauss c = o_ngauss o /\
  o_pars c = o_pars o /\ fill_func (o_kind o) (o_ngauss o) (o_pars o) = Ok (o_data c) /\ same_gmix (o_data c) (o_data o).
Proof.
  intros (S & L & d & E & Hd). destruct o as [k n np ps dt]; cbn [o_kind o_ngauss o_npars o_pars o_data] in *.
  unfold obj_copy, shape_ok in *; cbn [o_kind o_ngauss o_npars o_pars o_data] in *. destruct k as [|m|f t tf|]; [contradiction|..].
  - destruct S as (Hm & -> & ->).
    assert (K : finish (obj_fill (blank (KModel m) (model_ngauss m) (model_npars m)) ps) =
                Ok (mkObj (KModel m) (model_ngauss m) (model_npars m) ps d)).
    { unfold obj_fill, obj__fill, finish, blank; cbn [o_kind o_ngauss o_npars o_pars o_data]. rewrite L, Nat.eqb_refl, E. reflexivity. }
    exists (mkObj (KModel m) (model_ngauss m) (model_npars m) ps d). split; [|cbn; auto].
    unfold new_model. destruct m; congruence.
  - destruct S as (Ht & -> & ->). unfold new_cm. rewrite Ht. cbn [bind].
    unfold obj_fill, obj__fill, finish, blank; cbn [o_kind o_ngauss o_npars o_pars o_data]. rewrite L, Nat.eqb_refl, E. cbn [negb bind].
    eexists; split; [reflexivity|]. cbn. auto.
  - unfold new_coellip. subst np. rewrite L.
    replace (Z.of_nat (4 + 2 * n) - 4)%Z with (Z.of_nat n * 2)%Z by lia. rewrite Z.mod_mul by lia.
    replace ((4 + 2 * n - 4) / 2)%nat with n by (replace (4 + 2 * n - 4)%nat with (n * 2)%nat by lia; rewrite Nat.div_mul; lia).
    rewrite (proj2 (Nat.ltb_ge (4 + 2 * n) 4)) by lia. cbn [negb Z.eqb].
    unfold obj__fill, finish, blank; cbn [o_kind o_ngauss o_npars o_pars o_data with_pars with_data]. rewrite E.
    eexists; split; [reflexivity|]. cbn. auto.
Qed.

Lemma built_tracks o : built o -> o_kind o = KFull \/ tracks o.
Proof.
  intros [(p & E)|[(n & ->)|[(m & p & E)|[(f & t & p & E)|(p & E)]]]].
  - left. revert E. unfold new_full. destruct (negb _); [discriminate|]. unfold obj__fill, finish, blank. cbn [o_kind o_ngauss fill_func].
    destruct (gmix_fill_full _ _); [|discriminate]. intros E; injection E as <-; reflexivity.
  - left; reflexivity.
  - right. revert E. assert (G : finish (obj_fill (blank (KModel m) (model_ngauss m) (model_npars m)) p) = Ok o -> m <> Mbdc -> tracks o).
    { unfold obj_fill, obj__fill, finish, blank; cbn [o_kind o_ngauss o_npars o_pars o_data].
      destruct (Nat.eqb_spec (length p) (model_npars m)) as [L|]; [|discriminate]. cbn [negb].
      destruct (fill_func (KModel m) (model_ngauss m) p) as [d|e] eqn:F; [|discriminate]. intros E Hm; injection E as <-.
      split; [cbn; auto|]. split; [exact L|]. exists d. split; [exact F|]. apply same_gmix_refl. }
    unfold new_model. destruct m; try discriminate; intros E; apply G; (exact E || discriminate).
  - right. revert E. unfold new_cm. destruct (get_cm_Tfactor f t) as [tf|] eqn:Ht; [|discriminate]. cbn [bind].
    unfold obj_fill, obj__fill, finish, blank; cbn [o_kind o_ngauss o_npars o_pars o_data].
    destruct (Nat.eqb_spec (length p) 6) as [L|]; [|discriminate]. cbn [negb].
    destruct (fill_func (KCM f t tf) 16 p) as [d|e] eqn:F; [|discriminate]. intros E; injection E as <-.
    split; [cbn; auto|]. split; [exact L|]. exists d. split; [exact F|]. apply same_gmix_refl.
  - right. revert E. unfold new_coellip. destruct (Z.eqb_spec ((Z.of_nat (length p) - 4) mod 2) 0) as [M|]; [|discriminate]. cbn [negb].
    destruct (Nat.ltb_spec (length p) 4) as [|L]; [discriminate|].
    unfold obj__fill, finish, blank; cbn [o_kind o_ngauss o_npars o_pars o_data with_pars with_data].
    destruct (fill_func KCoellip ((length p - 4) / 2) p) as [d|e] eqn:F; [|discriminate]. intros E; injection E as <-.
    split; [|split; [reflexivity|]]; [|exists d; split; [exact F|apply same_gmix_refl]].
    unfold shape_ok; cbn [o_kind o_npars o_ngauss].
    pose proof (Nat.div_mod (length p - 4) 2 ltac:(lia)) as D.
    assert ((length p - 4) mod 2 = 0)%nat.
    { apply Nat2Z.inj. rewrite Nat2Z.inj_mod. rewrite Nat2Z.inj_sub by lia. exact M. }
    rewrite H in D. change (length p = 4 + 2 * ((length p - 4) / 2))%nat. rewrite <- (Nat.add_0_r (2 * _)), <- D. lia.
Qed.

(** same components, up to the relation, give the same centre *)
Lemma same_map {B} (f : gauss -> B) a b : (forall x y, same_gauss x y -> f x = f y) -> same_gmix a b -> map f a = map f b.
Proof. intros H K. induction K as [|x y l l' E _ IH]; [reflexivity|]. cbn. f_equal; auto. Qed.
Lemma place_sums r c d : rsum (map (fun g => g_row g * g_p g) (map (place r c) d)) = r * rsum (map g_p d) /\
  rsum (map (fun g => g_col g * g_p g) (map (place r c) d)) = c * rsum (map g_p d) /\ rsum (map g_p (map (place r c) d)) = rsum (map g_p d).
Proof.
  induction d as [|g d (IH1 & IH2 & IH3)]; [cbn; repeat split; lra|]. cbn [map]. rewrite !rsum_cons, IH1, IH2, IH3. cbn. lra.
Qed.
Lemma place_place r c r' c' g : place r c (place r' c' g) = place r c g. Proof. reflexivity. Qed.

Lemma shape_len o : shape_ok o -> length (o_pars o) = o_npars o -> (4 <= length (o_pars o))%nat.
Proof.
  unfold shape_ok. intros S L. destruct (o_kind o) as [|m|f t tf|]; [contradiction|..].
  - destruct S as (Hm & _ & S). destruct m; cbn in S; lia.
  - destruct S as (_ & _ & S). lia.
  - lia.
Qed.
Lemma shape_notfull o : shape_ok o -> o_kind o <> KFull.
Proof. unfold shape_ok. destruct (o_kind o); [contradiction|discriminate..]. Qed.

Lemma tracks_set_cen o row col o' r : tracks o -> call o (MSetCen row col) = Some (o', r) -> tracks o' /\ r = Ok tt.
Proof.
  intros (S & L & d & E & Hd). pose proof (shape_len o S L) as HL. pose proof (shape_notfull o S) as HK.
  cbn [call]. unfold gm_set_cen. destruct (gm_get_cen (o_data o)) as [[row0 col0]|] eqn:G; [|discriminate].
  destruct (o_pars o) as [|r0 [|c0 rest]] eqn:P; [cbn in HL; lia|cbn in HL; lia|].
  assert (Dd : d = map (place r0 c0) d).
  { pose proof (fill_place (o_kind o) (o_ngauss o) r0 c0 r0 c0 rest HK) as Q. rewrite E in Q. cbn [rmap] in Q. congruence. }
  assert (Cen : row0 = r0 /\ col0 = c0).
  { revert G. unfold gm_get_cen, np_div.
    rewrite <- !(same_map (fun g => g_row g * g_p g) d (o_data o)), <- !(same_map (fun g => g_col g * g_p g) d (o_data o)), <- !(same_map g_p d (o_data o))
      by (auto; intros x y K; unfold same_gauss in K; intuition congruence).
    rewrite Dd. destruct (place_sums r0 c0 d) as (A1 & A2 & A3). rewrite A1, A2, A3.
    destruct (Reqb_spec (rsum (map g_p d)) 0) as [|N]; [discriminate|]. intros K; injection K as <- <-. split; field; exact N. }
  destruct Cen as [-> ->].
  assert (Hk : match o_kind o with KFull => Some (with_data o (map (shift_gauss (row - r0) (col - c0)) (o_data o)), Ok tt)
     | _ => let (p, r) := set2 (r0 :: c0 :: rest) row col in Some (with_pars (with_data o (map (shift_gauss (row - r0) (col - c0)) (o_data o))) p, r) end
     = Some (with_pars (with_data o (map (shift_gauss (row - r0) (col - c0)) (o_data o))) (row :: col :: rest), Ok tt)).
  { destruct (o_kind o); [contradiction|reflexivity..]. }
  rewrite Hk. clear Hk. intros K; injection K as <- <-. split; [|reflexivity].
  split; [exact S|]. cbn [with_pars with_data o_pars o_npars o_kind o_ngauss o_data]. split; [cbn in L |- *; exact L|].
  exists (map (place row col) d). rewrite (fill_place _ _ row col r0 c0 rest HK), E. split; [reflexivity|].
  rewrite Dd. rewrite map_map. clear - Hd Dd. rewrite Dd in Hd. clear Dd. revert Hd. generalize (o_data o).
  induction d as [|g d IH]; intros l Hl; inversion Hl; subst; constructor; [|apply IH; assumption].
  unfold same_gauss in *. cbn in *. intuition; try congruence; lra.
Qed.

Lemma getp_zero n i : (i < n)%nat -> getp (repeat 0 n) i = Ok 0.
Proof.
  intros H. unfold getp. assert (E : nth_error (repeat 0 n) i = Some 0).
  { revert i H. induction n; intros [|i] H; cbn; try lia; [reflexivity|]. apply IHn. lia. }
  rewrite E. reflexivity.
Qed.
Lemma g2e_zero : g1g2_to_e1e2_nb 0 0 = Ok (0, 0).
Proof.
  unfold g1g2_to_e1e2_nb. replace (0 * 0 + 0 * 0) with 0 by ring. rewrite sqrt_0, Rleb_f by lra. rewrite Reqb_t by reflexivity. reflexivity.
Qed.
Lemma mapM_zero {A} (f : A -> res gauss) l : (forall x, In x l -> exists g, f x = Ok g /\ same_gauss g gauss_zero) ->
  exists d, mapM f l = Ok d /\ same_gmix d (gmix_zeros (length l)).
Proof.
  induction l as [|x l IH]; intros H; [exists []; split; [reflexivity|constructor]|].
  destruct (H x (or_introl eq_refl)) as (g & E & S). destruct IH as (d & Ed & Sd); [intros; apply H; right; assumption|].
  cbn [mapM]. rewrite E, Ed. cbn [bind]. eexists; split; [reflexivity|]. constructor; assumption.
Qed.
Lemma cm_gauss_zero fd td i : (i < 16)%nat -> exists g, cm_gauss fd td 0 0 0 0 0 0 i = Ok g /\ same_gauss g gauss_zero.
Proof.
  intros H. unfold cm_gauss, getp.
  destruct (Nat.ltb_spec i 6) as [L|L].
  - destruct (nth_error pvals_exp i) eqn:Ep; [|apply nth_error_None in Ep; change (length pvals_exp) with 6%nat in Ep; lia].
    destruct (nth_error fvals_exp i) eqn:Ef; [|apply nth_error_None in Ef; change (length fvals_exp) with 6%nat in Ef; lia].
    cbn [bind]. clear. eexists; split; [reflexivity|].
    unfold same_gauss, gauss2d_set, gauss_zero; cbn [g_p g_row g_col g_irr g_irc g_icc g_det]; repeat split; ring.
  - destruct (nth_error pvals_dev (i - 6)) eqn:Ep; [|apply nth_error_None in Ep; change (length pvals_dev) with 10%nat in Ep; lia].
    destruct (nth_error fvals_dev (i - 6)) eqn:Ef; [|apply nth_error_None in Ef; change (length fvals_dev) with 10%nat in Ef; lia].
    cbn [bind]. clear. eexists; split; [reflexivity|].
    unfold same_gauss, gauss2d_set, gauss_zero; cbn [g_p g_row g_col g_irr g_irc g_icc g_det]; repeat split; ring.
Qed.
Lemma simple_zero n f p : (n <= length f)%nat -> (n <= length p)%nat ->
  exists d, gmix_fill_simple n f p (repeat 0 6) = Ok d /\ same_gmix d (gmix_zeros n).
Proof.
  intros Hf Hp. unfold gmix_fill_simple. rewrite !getp_zero by lia. cbn [bind]. rewrite g2e_zero. cbn [bind].
  replace (gmix_zeros n) with (gmix_zeros (length (seq 0 n))) by (rewrite seq_length; reflexivity).
  apply mapM_zero. intros i Hi. apply in_seq in Hi. unfold getp.
  destruct (nth_error f i) eqn:Ef; [|apply nth_error_None in Ef; lia].
  destruct (nth_error p i) eqn:Ep; [|apply nth_error_None in Ep; lia].
  cbn [bind]. eexists; split; [reflexivity|]. unfold same_gauss, gauss2d_set, gauss_zero; cbn [g_p g_row g_col g_irr g_irc g_icc g_det]; repeat split; ring.
Qed.
Lemma fill_zero o : shape_ok o ->
  exists d, fill_func (o_kind o) (o_ngauss o) (repeat 0 (o_npars o)) = Ok d /\ same_gmix d (gmix_zeros (o_ngauss o)).
Proof.
  unfold shape_ok. destruct (o_kind o) as [|m|f t tf|]; [contradiction|..].
  - intros (Hm & -> & ->). destruct m; cbn [fill_func model_ngauss model_npars];
      [exact (simple_zero 1 fvals_gauss pvals_gauss (le_n _) (le_n _))|exact (simple_zero 3 fvals_turb pvals_turb (le_n _) (le_n _))
      |exact (simple_zero 6 fvals_exp pvals_exp (le_n _) (le_n _))|exact (simple_zero 10 fvals_dev pvals_dev (le_n _) (le_n _))| | |congruence].
    + unfold gmix_fill_bd. rewrite !getp_zero by lia. cbn [bind]. rewrite Tfactor_eq.
      destruct (Reqb_spec (cm_sum 0 (Rpower 10 0)) 0) as [Z|_].
      { pose proof (cm_sum_pos 0 (Rpower 10 0) ltac:(lra) ltac:(apply exp_pos)). lra. }
      cbn [bind]. rewrite g2e_zero. cbn [bind]. change 16%nat with (length (seq 0 16)) at 2. apply mapM_zero. intros i Hi. apply in_seq in Hi.
      rewrite Rmult_0_l. apply cm_gauss_zero. lia.
    + unfold gmix_fill_bdf. rewrite !getp_zero by lia. cbn [bind]. rewrite Tfactor_eq.
      destruct (Reqb_spec (cm_sum 0 1) 0) as [Z|_].
      { pose proof (cm_sum_pos 0 1 ltac:(lra) ltac:(lra)). lra. }
      cbn [bind]. rewrite g2e_zero. cbn [bind]. change 16%nat with (length (seq 0 16)) at 2. apply mapM_zero. intros i Hi. apply in_seq in Hi.
      rewrite Rmult_0_l. apply cm_gauss_zero. lia.
  - intros (_ & -> & ->). cbn [fill_func]. unfold gmix_fill_cm. rewrite !getp_zero by lia. cbn [bind]. rewrite g2e_zero. cbn [bind].
    change 16%nat with (length (seq 0 16)) at 2. apply mapM_zero. intros i Hi. apply in_seq in Hi. rewrite Rmult_0_l. apply cm_gauss_zero. lia.
  - intros ->. cbn [fill_func]. unfold gmix_fill_coellip. rewrite !getp_zero by lia. cbn [bind]. rewrite g2e_zero. cbn [bind].
    replace (gmix_zeros (o_ngauss o)) with (gmix_zeros (length (seq 0 (o_ngauss o)))) by (rewrite seq_length; reflexivity).
    apply mapM_zero. intros i Hi. apply in_seq in Hi. rewrite !getp_zero by lia. cbn [bind]. eexists; split; [reflexivity|].
    unfold same_gauss, gauss2d_set, gauss_zero; cbn [g_p g_row g_col g_irr g_irc g_icc g_det]; repeat split; ring.
Qed.

Lemma tracks_call o m o' r : tracks o -> keeps_pars o m -> call o m = Some (o', r) -> tracks o'.
Proof.
  intros T K E. destruct m as [pars| |f|row col| |].
  - cbn [call] in E. unfold keeps_pars, call in K. unfold obj_fill in *.
    destruct (Nat.eqb_spec (length pars) (o_npars o)) as [L|L]; cbn [negb] in *; [|injection E as <- _; exact T].
    destruct (K L) as (o2 & K2). rewrite K2 in E. injection E as <- <-. clear K. revert K2. unfold obj__fill.
    destruct (fill_func (o_kind o) (o_ngauss o) pars) as [d|] eqn:F; [|discriminate]. intros Q; injection Q as <-.
    destruct T as (S & _). split; [exact S|]. split; [exact L|]. exists d. split; [exact F|apply same_gmix_refl].
  - injection E as <- _. destruct T as (S & _). split; [exact S|]. split; [apply repeat_length|]. exact (fill_zero o S).
  - contradiction.
  - eapply tracks_set_cen; eauto.
  - cbn [call] in E. destruct T as (S & L & d & F & Hd). pose proof (same_norms (o_data o)) as N. destruct (gmix_set_norms (o_data o)) as [dd rr].
    injection E as <- _. split; [exact S|]. split; [exact L|]. exists d. split; [exact F|]. exact (same_trans _ _ _ Hd N).
  - cbn [call] in E. destruct T as (S & L & d & F & Hd). pose proof (same_norms_if (o_data o)) as N. destruct (set_norms_if_needed (o_data o)) as [dd rr].
    injection E as <- _. split; [exact S|]. split; [exact L|]. exists d. split; [exact F|]. exact (same_trans _ _ _ Hd N).
Qed.
Lemma kind_full_call o m o' r : o_kind o = KFull -> call o m = Some (o', r) -> o_kind o' = KFull.
Proof. intros K E. apply call_kind in E. destruct E as (-> & _). exact K. Qed.

Lemma copy_after_calls l : forall o o', (o_kind o = KFull \/ tracks o) -> all_keep o l -> calls o l = Some o' ->
  o_kind o' = KFull \/ tracks o'.
Proof.
  induction l as [|m l IH]; intros o o' T K E; cbn [calls all_keep] in *; [injection E as <-; exact T|].
  destruct K as [K1 K2]. destruct (call o m) as [[o1 r]|] eqn:C; [|discriminate]. apply (IH o1); auto.
  destruct T as [T|T]; [left; eapply kind_full_call; eauto|right; eapply tracks_call; eauto].
Qed.
Lemma copy_equal l o o' : built o -> all_keep o l -> calls o l = Some o' ->
  exists c, obj_copy o' = Ok c /\ o_kind c = o_kind o' /\ o_ngauss c = o_ngauss o' /\ gmix_eq (o_data o') (o_data c) = Ok true.
Proof.
  intros B K E. assert (T : o_kind o' = KFull \/ tracks o') by (eapply copy_after_calls; eauto; apply built_tracks; exact B).
  assert (Q : exists c, obj_copy o' = Ok c /\ o_kind c = o_kind o' /\ o_ngauss c = o_ngauss o' /\ same_gmix (o_data o') (o_data c)).
  { destruct T as [T|T].
    - destruct (full_copy o' T) as (c & A & B' & C' & D). exists c. rewrite D, T. repeat split; auto. apply same_gmix_refl.
    - destruct (tracks_copy o' T) as (c & A & B' & C' & _ & _ & S). exists c. repeat split; auto. apply same_sym. exact S. }
  destruct Q as (c & A & B' & C' & S). exists c. repeat split; auto.
  destruct (gmix_eq_same_length (o_data o') (o_data c)) as (b & Eb & Hb).
  { clear - S. induction S; cbn; congruence. }
  rewrite Eb. f_equal. apply Hb. exact S.
Qed.
(** the copy of a plain mixture, whatever happened to it before *)
Lemma full_copy_equal o : o_kind o = KFull ->
  exists c, obj_copy o = Ok c /\ o_kind c = KFull /\ o_ngauss c = o_ngauss o /\ o_data c = o_data o /\ gmix_eq (o_data o) (o_data c) = Ok true.
Proof.
  intros K. destruct (full_copy o K) as (c & A & B & C' & D). exists c. repeat split; auto. rewrite D.
  destruct (gmix_eq_same_length (o_data o) (o_data o) eq_refl) as (b & Eb & Hb). rewrite Eb. f_equal. apply Hb, same_gmix_refl.
Qed.

(** ** what copies of model mixtures lose *)
Lemma built_tracks_model o : built o -> o_kind o <> KFull -> tracks o.
Proof. intros B K. destruct (built_tracks o B); [contradiction|assumption]. Qed.
Lemma copy_ext o o' : o_kind o = o_kind o' -> o_pars o = o_pars o' -> o_kind o <> KFull -> obj_copy o = obj_copy o'.
Proof. intros K P N. unfold obj_copy. rewrite <- K, <- P. destruct (o_kind o); [congruence|reflexivity..]. Qed.

Lemma set_flux_lost o f o' : built o -> o_kind o <> KFull -> call o (MSetFlux f) = Some (o', Ok tt) ->
  flux_of (o_data o') = f /\ exists c, obj_copy o' = Ok c /\ flux_of (o_data c) = flux_of (o_data o).
Proof.
  intros B K E. cbn [call] in E. unfold gm_set_flux, np_div in E.
  destruct (Reqb_spec (rsum (map g_p (o_data o))) 0) as [|N]; [discriminate|]. injection E as <-. cbn [with_data o_data].
  split.
  - unfold flux_of. rewrite map_map.
    rewrite (rsum_map_ext _ (fun g => f / rsum (map g_p (o_data o)) * g_p g)) by (intros; cbn; ring).
    rewrite rsum_map_mult. field. exact N.
  - destruct (tracks_copy o (built_tracks_model o B K)) as (c & Ec & _ & _ & _ & _ & S). exists c. split.
    + rewrite <- Ec. apply copy_ext; auto.
    + unfold flux_of. f_equal. apply same_map; [intros x y H; apply H|exact S].
Qed.
Lemma shear_is_copy o s1 s2 x : built o -> o_kind o <> KFull -> make o (NShear s1 s2) = Some (Ok x) -> obj_copy x = obj_copy o.
Proof.
  intros B K E. cbn [make] in E. destruct (tracks_copy o (built_tracks_model o B K)) as (c & Ec & K1 & _ & P & _ & S).
  rewrite Ec in E. cbn [bind] in E. destruct (gmix_shear (o_data c) s1 s2); [|discriminate]. injection E as <-.
  apply copy_ext; cbn; congruence.
Qed.
Lemma shear_twice o s1 s2 t1 t2 x : built o -> o_kind o <> KFull -> make o (NShear s1 s2) = Some (Ok x) ->
  make x (NShear t1 t2) = make o (NShear t1 t2).
Proof. intros B K E. cbn [make]. rewrite (shear_is_copy _ _ _ _ B K E). reflexivity. Qed.
Lemma failed_fill o pars o' e : built o -> o_kind o <> KFull -> length pars = o_npars o ->
  call o (MFill pars) = Some (o', Raise e) -> o_data o' = o_data o /\ obj_copy o' = Raise e.
Proof.
  intros B K L E. cbn [call] in E. unfold obj_fill in E. rewrite L, Nat.eqb_refl in E. cbn [negb] in E. unfold obj__fill in E.
  destruct (fill_func (o_kind o) (o_ngauss o) pars) as [d|e'] eqn:F; [discriminate|]. injection E as <- <-. split; [reflexivity|].
  destruct (built_tracks_model o B K) as (S & _). unfold shape_ok in S. unfold obj_copy; cbn [with_pars o_kind o_pars].
  destruct (o_kind o) as [|m|f t tf|]; [contradiction|..].
  - destruct S as (Hm & Hn & Hp). assert (G : finish (obj_fill (blank (KModel m) (model_ngauss m) (model_npars m)) pars) = Raise e').
    { unfold obj_fill, obj__fill, finish, blank; cbn [o_kind o_ngauss o_npars]. rewrite <- Hp, L, Nat.eqb_refl. cbn [negb]. rewrite <- Hn, F. reflexivity. }
    unfold new_model. destruct m; congruence.
  - destruct S as (Ht & Hn & Hp). unfold new_cm. rewrite Ht. cbn [bind]. unfold obj_fill, obj__fill, finish, blank; cbn [o_kind o_ngauss o_npars].
    rewrite L, Hp, Nat.eqb_refl. cbn [negb]. rewrite <- Hn, F. reflexivity.
  - unfold new_coellip. rewrite L, S.
    replace (Z.of_nat (4 + 2 * o_ngauss o) - 4)%Z with (Z.of_nat (o_ngauss o) * 2)%Z by lia. rewrite Z.mod_mul by lia.
    replace ((4 + 2 * o_ngauss o - 4) / 2)%nat with (o_ngauss o) by (replace (4 + 2 * o_ngauss o - 4)%nat with (o_ngauss o * 2)%nat by lia; rewrite Nat.div_mul; lia).
    rewrite (proj2 (Nat.ltb_ge (4 + 2 * o_ngauss o) 4)) by lia. cbn [negb Z.eqb].
    unfold obj__fill, finish, blank; cbn [o_kind o_ngauss o_npars o_pars o_data with_pars with_data]. rewrite F. reflexivity.
Qed.
(** the sheared object of a mixture whose copy is faithful *)
Lemma shear_api o s1 s2 : (o_kind o = KFull \/ tracks o) ->
  Forall (fun g => posdef (gcov g)) (o_data o) -> in_disk (s1,s2) ->
  exists x, make o (NShear s1 s2) = Some (Ok x) /\ o_kind x = o_kind o /\
    Forall2 (fun g g' => g_p g' = g_p g /\ g_row g' = g_row g /\ g_col g' = g_col g /\
               gcov g' = sheared s1 s2 (gcov g) /\ coherent g' /\ g_norm_set g' = false) (o_data o) (o_data x).
Proof.
  intros T H Hs.
  assert (Q : exists c, obj_copy o = Ok c /\ o_kind c = o_kind o /\ same_gmix (o_data o) (o_data c)).
  { destruct T as [T|T].
    - destruct (full_copy o T) as (c & A & B' & C' & D). exists c. rewrite D, T. repeat split; auto. apply same_gmix_refl.
    - destruct (tracks_copy o T) as (c & A & B' & C' & _ & _ & S). exists c. repeat split; auto. apply same_sym. exact S. }
  destruct Q as (c & Ec & Kc & S). cbn [make]. rewrite Ec. cbn [bind].
  assert (H' : Forall (fun g => posdef (gcov g)) (o_data c)).
  { clear - H S. induction S as [|a b l l' E _ IH]; constructor; apply Forall_cons_iff in H; destruct H as [H1 H2]; auto.
    unfold same_gauss in E. unfold gcov in *. destruct E as (_ & _ & _ & E1 & E2 & E3 & _). rewrite <- E1, <- E2, <- E3. exact H1. }
  destruct (shear_spec (o_data c) s1 s2 H' Hs) as (d & Ed & F). rewrite Ed. cbn [bind]. eexists; split; [reflexivity|]. split; [exact Kc|].
  cbn [with_data o_data]. clear - S F. revert d F. induction S as [|a b l l' E _ IH]; intros d F; inversion F; subst; constructor; [|apply IH; assumption].
  unfold same_gauss, gcov in *. destruct E as (E0 & E0' & E0'' & E1 & E2 & E3 & _). rewrite E0, E0', E0'', E1, E2, E3. assumption.
Qed.

(** ** make_round *)
Lemma round_components gm b gm' : gmix_make_round gm b = Some (Ok gm') -> exists factor, Forall2 (rounded factor) gm gm'.
Proof.
  unfold gmix_make_round. destruct (round_factor gm b) as [[f|]|]; try discriminate. cbn [bind]. intros E; injection E as <-.
  exists f. clear. induction gm as [|g gm IH]; constructor; [|exact IH]. unfold rounded, round_gauss; cbn. repeat split. field.
Qed.
Lemma eigmax_spec irr irc icc : let x := eigmax irr irc icc in
  x * x - trace2 (cov irr irc icc) * x + det2 (cov irr irc icc) = 0 /\
  (forall y, y * y - trace2 (cov irr irc icc) * y + det2 (cov irr irc icc) = 0 -> y <= x).
Proof.
  unfold eigmax, trace2, det2, cov; cbn [xx xy yy]. cbn zeta.
  set (s := sqrt (((irr - icc) / 2) ^ 2 + irc ^ 2)).
  assert (Hs : s * s = ((irr - icc) / 2) ^ 2 + irc ^ 2).
  { apply sqrt_sqrt. pose proof (pow2_ge_0 ((irr - icc) / 2)). pose proof (pow2_ge_0 irc). lra. }
  assert (0 <= s) by apply sqrt_pos. cbn [pow] in Hs.
  split; [nra|]. intros y Hy. apply Rnot_lt_le. intros K. nra.
Qed.
Lemma eigmax_e2mom e1 e2 T irr irc icc : e2mom e1 e2 T = (irr, irc, icc) -> has_shape (cov irr irc icc) e1 e2 T.
Proof.
  unfold e2mom, has_shape, trace2, cov; cbn [xx xy yy]. intros E; injection E as <- <- <-. repeat split; field.
Qed.
Lemma has_shape_unique m m' e1 e2 T : has_shape m e1 e2 T -> has_shape m' e1 e2 T -> m = m'.
Proof.
  destruct m, m'; unfold has_shape, trace2; cbn. intros (A & B & C) (A' & B' & C'). f_equal; lra.
Qed.
(** sizes after rounding: default sqrt(det), preserve_size the largest eigenvalue *)
Lemma round_size_map gm : flux_of gm <> 0 -> posdef (cov_of gm) ->
  (exists f, gmix_make_round gm false = Some (Ok (map (round_gauss f) gm)) /\
     f * trace2 (cov_of gm) = 2 * sqrt (det2 (cov_of gm))) /\
  (exists f lam, gmix_make_round gm true = Some (Ok (map (round_gauss f) gm)) /\
     f * trace2 (cov_of gm) = 2 * lam /\
     lam * lam - trace2 (cov_of gm) * lam + det2 (cov_of gm) = 0 /\
     (forall y, y * y - trace2 (cov_of gm) * y + det2 (cov_of gm) = 0 -> y <= lam)).
Proof.
  intros Hf Hp.
  assert (Ht : 0 < trace2 (cov_of gm)).
  { destruct Hp as [P1 P2]. unfold det2, trace2 in *. assert (0 < xx (cov_of gm) * yy (cov_of gm)) by nra. nra. }
  split.
  - destruct (g1g2T_get gm Hf Hp) as (g1 & g2 & E & D & e & Hge & Hs).
    unfold gmix_make_round, round_factor. rewrite E. cbn [bind]. eexists. split; [reflexivity|].
    set (f := get_round_factor g1 g2). set (T := trace2 (cov_of gm)) in *.
    assert (Hf2 : 0 < f /\ f * f = 1 - (fst e * fst e + snd e * snd e)).
    { unfold f, get_round_factor. unfold in_disk, cmod2 in D; cbn [fst snd] in D. unfold e_of_g, cmod2 in Hge; cbn [fst snd] in Hge.
      destruct Hge as [He1 He2]. replace (g1 ^ 2 + g2 ^ 2) with (g1 * g1 + g2 * g2) by ring.
      set (q := g1 * g1 + g2 * g2) in *. assert (0 <= q) by (unfold q; nra).
      replace (fst e) with (2 * g1 / (1 + q)) by (rewrite <- He1; field; lra).
      replace (snd e) with (2 * g2 / (1 + q)) by (rewrite <- He2; field; lra).
      split; [apply Rdiv_lt_0_compat; lra|].
      assert (HQ : g1 * g1 + g2 * g2 = q) by reflexivity. clearbody q.
      replace (2 * g1 / (1 + q) * (2 * g1 / (1 + q)) + 2 * g2 / (1 + q) * (2 * g2 / (1 + q))) with (4 * (g1 * g1 + g2 * g2) / ((1 + q) * (1 + q))) by (field; lra).
      rewrite HQ. field. lra. }
    destruct Hf2 as [Hf0 Hf2]. destruct Hs as (_ & S1 & S2). fold T in S1, S2.
    assert (Hd : det2 (cov_of gm) = (f * T / 2) * (f * T / 2)).
    { replace (f * T / 2 * (f * T / 2)) with (f * f * (T * T / 4)) by field. rewrite Hf2.
      replace ((1 - (fst e * fst e + snd e * snd e)) * (T * T / 4)) with ((T * T - (fst e * T) * (fst e * T) - (snd e * T) * (snd e * T)) / 4) by field.
      rewrite S1, S2. unfold T, trace2, det2. field. }
    rewrite Hd, sqrt_square; [field|]. apply Rlt_le. apply Rdiv_lt_0_compat; [apply Rmult_lt_0_compat; assumption|lra].
  - destruct (getters_spec gm Hf) as (_ & _ & _ & _ & G). destruct (G (Rgt_not_eq _ _ Ht)) as (e1 & e2 & T & E & S).
    unfold gmix_make_round, round_factor. rewrite E. destruct (e2mom e1 e2 T) as [[irr irc] icc] eqn:EM. cbn [bind].
    pose proof (has_shape_unique _ _ _ _ _ S (eigmax_e2mom _ _ _ _ _ _ EM)) as HC.
    do 2 eexists. split; [reflexivity|]. rewrite HC. destruct (eigmax_spec irr irc icc) as [Q1 Q2].
    split; [|exact (conj Q1 Q2)].
    destruct S as (HT & _). rewrite HT, HC. field. rewrite <- HC. lra.
Qed.

Lemma round_map f gm : Forall2 (rounded f) gm (map (round_gauss f) gm).
Proof. induction gm as [|g gm IH]; constructor; [|exact IH]. unfold rounded, round_gauss; cbn. repeat split. field. Qed.
Lemma round_size gm : flux_of gm <> 0 -> posdef (cov_of gm) ->
  (exists gm' f, gmix_make_round gm false = Some (Ok gm') /\ Forall2 (rounded f) gm gm' /\
     f * trace2 (cov_of gm) = 2 * sqrt (det2 (cov_of gm))) /\
  (exists gm' f lam, gmix_make_round gm true = Some (Ok gm') /\ Forall2 (rounded f) gm gm' /\
     f * trace2 (cov_of gm) = 2 * lam /\
     lam * lam - trace2 (cov_of gm) * lam + det2 (cov_of gm) = 0 /\
     (forall y, y * y - trace2 (cov_of gm) * y + det2 (cov_of gm) = 0 -> y <= lam)).
Proof.
  intros Hf Hp. destruct (round_size_map gm Hf Hp) as [(f & E & F) (f' & lam & E' & F')]. split.
  - do 2 eexists. split; [exact E|]. split; [apply round_map|exact F].
  - do 3 eexists. split; [exact E'|]. split; [apply round_map|exact F'].
Qed.

Lemma round_coelliptical gm row col e1 e2 FT : coelliptical gm row col e1 e2 FT ->
  flux_of gm <> 0 -> posdef (cov_of gm) ->
  exists gm', gmix_make_round gm false = Some (Ok gm') /\ Forall coherent gm' /\ flux_of gm' = flux_of gm /\
    row_of gm' = row /\ col_of gm' = col /\ has_shape (cov_of gm') 0 0 (2 * sqrt (det2 (cov_of gm))).
Proof.
  intros H Hf Hp. pose proof (coelliptical_sums _ _ _ _ _ _ H) as [EF ES]. destruct (ES Hf) as (Er & Ec & Hsh).
  assert (Ht : 0 < trace2 (cov_of gm)).
  { destruct Hp as [P1 P2]. unfold det2, trace2 in *. assert (0 < xx (cov_of gm) * yy (cov_of gm)) by nra. nra. }
  destruct (round_size_map gm Hf Hp) as [(f & E & Hfac) _]. exists (map (round_gauss f) gm). split; [exact E|].
  assert (Hf2 : f * f = 1 - (e1 * e1 + e2 * e2)).
  { assert (0 <= det2 (cov_of gm)) by (destruct Hp; lra).
    assert (S2 : sqrt (det2 (cov_of gm)) * sqrt (det2 (cov_of gm)) = det2 (cov_of gm)) by (apply sqrt_sqrt; assumption).
    assert (Sf : sqrt (det2 (cov_of gm)) = f * trace2 (cov_of gm) / 2) by lra.
    rewrite Sf in S2. destruct Hsh as (HT & S1' & S2'). rewrite HT in *.
    set (T := trace2 (cov_of gm)) in *.
    assert (HH : f * f * (T * T) = (1 - (e1 * e1 + e2 * e2)) * (T * T)).
    { replace (f * f * (T * T)) with (4 * (f * T / 2 * (f * T / 2))) by field. rewrite S2.
      replace ((1 - (e1 * e1 + e2 * e2)) * (T * T)) with (T * T - (e1 * T) * (e1 * T) - (e2 * T) * (e2 * T)) by ring.
      rewrite S1', S2'. unfold T, trace2, det2. ring. }
    apply Rmult_eq_reg_r with (T * T); [exact HH|]. apply Rgt_not_eq. apply Rmult_lt_0_compat; assumption. }
  assert (C2 : coelliptical (map (round_gauss f) gm) row col 0 0 (map (fun ft => (fst ft, f * snd ft)) FT) /\ Forall coherent (map (round_gauss f) gm)).
  { clear - H Hf2. induction H as [|g ft gm FT (B1 & B2 & B3 & B4 & B5 & _) _ [I1 I2]].
    - split; constructor.
    - assert (CO : coherent (round_gauss f g)).
      { unfold coherent in *. unfold has_shape, trace2, det2, gcov, cov, round_gauss in *; cbn [xx xy yy g_det g_irr g_irc g_icc] in *. rewrite B5.
        destruct B4 as (B4a & B4b & B4c).
        replace (/ 2 * (g_irr g + g_icc g) * f * (/ 2 * (g_irr g + g_icc g) * f) - 0 * 0) with (f * f * (snd ft * snd ft / 4)) by (rewrite B4a; field). rewrite Hf2.
        replace ((1 - (e1 * e1 + e2 * e2)) * (snd ft * snd ft / 4)) with ((snd ft * snd ft - (e1 * snd ft) * (e1 * snd ft) - (e2 * snd ft) * (e2 * snd ft)) / 4) by field.
        rewrite B4b, B4c, B4a. field. }
      split; [|constructor; assumption]. cbn [map]. constructor; [|exact I1]. cbn [fst snd].
      split; [exact B1|]. split; [exact B2|]. split; [exact B3|]. split; [|split; [exact CO|reflexivity]].
      unfold has_shape, trace2, gcov, cov, round_gauss in *; cbn [xx xy yy g_irr g_irc g_icc] in *. destruct B4 as (B4a & _). rewrite B4a. repeat split; field. }
  destruct C2 as [C2 CO]. split; [exact CO|].
  assert (FE : flux_of (map (round_gauss f) gm) = flux_of gm) by (unfold flux_of; rewrite map_map; reflexivity).
  split; [exact FE|]. destruct (coelliptical_sums _ _ _ _ _ _ C2) as [_ CS]. rewrite FE in CS. destruct (CS Hf) as (R1 & R2 & R3).
  split; [exact R1|]. split; [exact R2|].
  replace (2 * sqrt (det2 (cov_of gm))) with (rsum (map (fun ft => fst ft * snd ft) (map (fun ft => (fst ft, f * snd ft)) FT)) / flux_of gm); [exact R3|].
  rewrite <- Hfac. destruct Hsh as (HT & _). rewrite <- HT. rewrite map_map. cbn [fst snd].
  rewrite (rsum_map_ext _ (fun ft => f * (fst ft * snd ft))) by (intros; ring). rewrite rsum_map_mult. field. exact Hf.
Qed.

(** ** the cached normalisations *)
Definition cinv (gm : gmix) : Prop :=
  Forall coherent gm /\
  forall g rest, gm = g :: rest -> g_norm_set g = true -> Forall (fun g => norms_right g /\ evaluable g) gm.
Definition raw (g : gauss) : Prop := coherent g /\ g_norm_set g = false.
Lemma raw_cinv gm : Forall raw gm -> cinv gm.
Proof.
  intros H. split; [eapply Forall_impl; [|exact H]; intros g [? _]; assumption|].
  intros g rest -> E. apply Forall_cons_iff in H. destruct H as [[_ K] _]. congruence.
Qed.
Lemma raw_set p row col irr irc icc : raw (gauss2d_set p row col irr irc icc).
Proof. split; [|reflexivity]. unfold coherent, gcov, cov, det2, gauss2d_set; cbn. ring. Qed.
Lemma mapM_Forall {A} (P : gauss -> Prop) (f : A -> res gauss) l d : (forall x g, f x = Ok g -> P g) -> mapM f l = Ok d -> Forall P d.
Proof.
  intros H. revert d. induction l as [|x l IH]; intros d; cbn [mapM]; [intros E; injection E as <-; constructor|].
  destruct (f x) as [g|] eqn:Ex; [|discriminate]. cbn [bind]. destruct (mapM f l) as [d'|] eqn:Ed; [|discriminate]. cbn [bind].
  intros E; injection E as <-. constructor; [eapply H; exact Ex|apply IH; reflexivity].
Qed.
Lemma bind_ok {A B} (x : res A) (f : A -> res B) y : bind x f = Ok y -> exists a, x = Ok a /\ f a = Ok y.
Proof. destruct x; [eauto|discriminate]. Qed.
Lemma simple_raw n f p pars d : gmix_fill_simple n f p pars = Ok d -> Forall raw d.
Proof.
  unfold gmix_fill_simple. intros H. repeat (apply bind_ok in H; destruct H as (? & _ & H)). destruct x5 as [e1 e2].
  revert H. apply mapM_Forall. intros i g E. repeat (apply bind_ok in E; destruct E as (? & _ & E)). injection E as <-. apply raw_set.
Qed.
Lemma cm_raw fd td r c e1 e2 T fl i g : cm_gauss fd td r c e1 e2 T fl i = Ok g -> raw g.
Proof. unfold cm_gauss. intros E. apply bind_ok in E. destruct E as ([p f] & _ & E). injection E as <-. apply raw_set. Qed.
Lemma fill_raw k n pars d : fill_func k n pars = Ok d -> Forall raw d.
Proof.
  destruct k as [|m|f t tf|]; [|destruct m|..]; cbn [fill_func]; [|exact (simple_raw _ _ _ _ _)|exact (simple_raw _ _ _ _ _)|exact (simple_raw _ _ _ _ _)|exact (simple_raw _ _ _ _ _)| | |discriminate| |].
  - unfold gmix_fill_full. apply mapM_Forall. intros i g E. repeat (apply bind_ok in E; destruct E as (? & _ & E)). injection E as <-. apply raw_set.
  - unfold gmix_fill_bd. intros H. repeat (apply bind_ok in H; destruct H as (? & _ & H)). destruct x8 as [e1 e2].
    revert H. apply mapM_Forall. intros i g. apply cm_raw.
  - unfold gmix_fill_bdf. intros H. repeat (apply bind_ok in H; destruct H as (? & _ & H)). destruct x7 as [e1 e2].
    revert H. apply mapM_Forall. intros i g. apply cm_raw.
  - unfold gmix_fill_cm. intros H. repeat (apply bind_ok in H; destruct H as (? & _ & H)). destruct x5 as [e1 e2].
    revert H. apply mapM_Forall. intros i g. apply cm_raw.
  - unfold gmix_fill_coellip. intros H. repeat (apply bind_ok in H; destruct H as (? & _ & H)). destruct x3 as [e1 e2].
    revert H. apply mapM_Forall. intros i g E. repeat (apply bind_ok in E; destruct E as (? & _ & E)). injection E as <-. apply raw_set.
Qed.
Lemma zeros_raw n : Forall raw (gmix_zeros n).
Proof. apply Forall_forall. intros g Hg. apply repeat_spec in Hg. subst g. split; [|reflexivity]. unfold coherent, gcov, cov, det2, gauss_zero; cbn. ring. Qed.

Lemma evaluable_of g : coherent g -> Rltb (g_det g) GMIX_LOW_DETVAL = false -> Rleb (g_irr g + g_icc g) GMIX_LOW_DETVAL = false -> evaluable g.
Proof.
  intros C A B. unfold evaluable. rewrite <- C. unfold GMIX_LOW_DETVAL in *.
  destruct (Rltb_spec (g_det g) (/ 10 ^ 200)); [discriminate|]. destruct (Rleb_spec (g_irr g + g_icc g) (/ 10 ^ 200)); [discriminate|].
  unfold trace2, gcov, cov; cbn [xx yy]. lra.
Qed.
Lemma set_norms_cinv gm gm' : Forall coherent gm -> gmix_set_norms gm = (gm', Ok tt) ->
  Forall coherent gm' /\ Forall (fun g => norms_right g /\ evaluable g) gm'.
Proof.
  revert gm'. induction gm as [|g gm IH]; intros gm' C E; cbn [gmix_set_norms] in E; [injection E as <-; split; constructor|].
  apply Forall_cons_iff in C. destruct C as [Cg C].
  destruct (Rltb (g_det g) GMIX_LOW_DETVAL) eqn:D1; [unfold gauss2d_set_norm in E; rewrite D1 in E; discriminate|].
  destruct (Rleb (g_irr g + g_icc g) GMIX_LOW_DETVAL) eqn:D2; [unfold gauss2d_set_norm in E; rewrite D1, D2 in E; discriminate|].
  pose proof (evaluable_of g Cg D1 D2) as Ev. destruct (set_norm_ok g Cg Ev) as (g' & Eg & Sg & Ng). rewrite Eg in E.
  destruct (gmix_set_norms gm) as [rest r]. injection E as <- ->. destruct (IH rest C eq_refl) as [I1 I2].
  unfold same_gauss in Sg. destruct Sg as (_ & _ & _ & S1 & S2 & S3 & S4).
  split; constructor; auto; [|split; [exact Ng|]]; unfold coherent, evaluable, gcov in *; rewrite <- S1, <- S2, <- S3; [rewrite <- S4|]; assumption.
Qed.
Lemma norms_right_shift dr dc g : norms_right g -> norms_right (shift_gauss dr dc g).
Proof. unfold norms_right, shift_gauss; cbn. tauto. Qed.

Lemma call_cinv o m o' r : cinv (o_data o) -> call o m = Some (o', r) -> (match m with MSetNorms | MEval => r = Ok tt | _ => True end) -> cinv (o_data o').
Proof.
  intros H E K. destruct m as [pars| |f|row col| |]; cbn [call] in E.
  - unfold obj_fill, obj__fill in E. destruct (negb _); [injection E as <- _; exact H|].
    destruct (fill_func _ _ pars) as [d|] eqn:F; injection E as <- _; [|exact H]. apply raw_cinv. eapply fill_raw; exact F.
  - injection E as <- _. apply raw_cinv, zeros_raw.
  - unfold gm_set_flux in E. destruct (np_div f _); [|discriminate]. injection E as <- _. apply raw_cinv. cbn [with_data o_data].
    apply Forall_map. destruct H as [C _]. eapply Forall_impl; [|exact C]. intros g Cg. split; [exact Cg|reflexivity].
  - assert (G : forall dr dc, cinv (map (shift_gauss dr dc) (o_data o))).
    { intros dr dc. destruct H as [C N]. split; [apply Forall_map; exact C|].
      intros g rest Em En. destruct (o_data o) as [|g0 l]; [discriminate|]. cbn [map] in Em. injection Em as <- <-.
      specialize (N g0 l eq_refl En). apply Forall_map. eapply Forall_impl; [|exact N]. intros x [A B]. split; [apply norms_right_shift; exact A|exact B]. }
    unfold gm_set_cen in E. destruct (gm_get_cen _) as [[r0 c0]|]; [|discriminate].
    destruct (o_kind o); try destruct (set2 (o_pars o) row col); injection E as <- _; apply G.
  - subst r. destruct (gmix_set_norms (o_data o)) as [d rr] eqn:F. injection E as <- ->. destruct H as [C _].
    destruct (set_norms_cinv _ _ C F) as [C1 C2]. split; [exact C1|]. intros; exact C2.
  - subst r. destruct (set_norms_if_needed (o_data o)) as [d rr] eqn:F. injection E as <- ->. unfold set_norms_if_needed in F.
    destruct (o_data o) as [|g l] eqn:D; [discriminate|]. destruct (g_norm_set g) eqn:Es; cbn [negb] in F.
    + injection F as <-. exact H.
    + destruct H as [C _]. destruct (set_norms_cinv _ _ C F) as [C1 C2]. split; [exact C1|]. intros; exact C2.
Qed.
Lemma finish_raw o p x : finish (obj__fill o p) = Ok x -> Forall raw (o_data x).
Proof. unfold finish, obj__fill. destruct (fill_func _ _ p) as [d|] eqn:F; [|discriminate]. intros E; injection E as <-. eapply fill_raw; exact F. Qed.
Lemma finish_raw' o p x : finish (obj_fill o p) = Ok x -> Forall raw (o_data x).
Proof. unfold obj_fill. destruct (negb _); [discriminate|]. apply finish_raw. Qed.
Lemma new_model_raw m p x : new_model m p = Ok x -> Forall raw (o_data x).
Proof. unfold new_model. destruct m; try apply finish_raw'; discriminate. Qed.
Lemma new_cm_raw f t p x : new_cm f t p = Ok x -> Forall raw (o_data x).
Proof. unfold new_cm. destruct (get_cm_Tfactor f t); [|discriminate]. apply finish_raw'. Qed.
Lemma new_coellip_raw p x : new_coellip p = Ok x -> Forall raw (o_data x).
Proof. unfold new_coellip. destruct (negb _); [discriminate|]. destruct (Nat.ltb _ _); [discriminate|]. apply finish_raw. Qed.
Lemma new_full_raw p x : new_full p = Ok x -> Forall raw (o_data x).
Proof. unfold new_full. destruct (negb _); [discriminate|]. apply finish_raw. Qed.
Lemma copy_cinv o c : cinv (o_data o) -> obj_copy o = Ok c -> cinv (o_data c).
Proof.
  intros H. unfold obj_copy. destruct (o_kind o).
  - intros E; injection E as <-. exact H.
  - intros E. apply raw_cinv. eapply new_model_raw; exact E.
  - intros E. apply raw_cinv. eapply new_cm_raw; exact E.
  - intros E. apply raw_cinv. eapply new_coellip_raw; exact E.
Qed.
Lemma shear_raw gm s1 s2 d : gmix_shear gm s1 s2 = Ok d -> Forall raw d.
Proof.
  unfold gmix_shear. apply mapM_Forall. intros g g' E. unfold shear_gauss in E.
  destruct (get_sheared_moments _ _ _ s1 s2) as [[[a b] c]|]; [|discriminate]. injection E as <-.
  split; [|reflexivity]. unfold coherent, gcov, cov, det2; cbn. ring.
Qed.
Lemma convolve_raw gm psf d : gmix_convolve gm psf = Ok d -> Forall raw d.
Proof.
  unfold gmix_convolve. destruct (gmix_get_cen psf) as [[[a b] c]|]; [|discriminate]. cbn [bind]. intros E; injection E as <-.
  apply Forall_flat_map. apply Forall_forall. intros og _. apply Forall_map. apply Forall_forall. intros pg _. apply raw_set.
Qed.

Definition hinv (h : heap) : Prop := forall i o, read h i = Some o -> cinv (o_data o).
Lemma add_hinv h x h' r : wf h -> hinv h -> (forall o, x = Ok o -> cinv (o_data o)) -> add h x = Some (h', r) -> hinv h'.
Proof.
  intros W H Hx. unfold add. destruct x as [o|]; intros E; injection E as <- _; [|exact H].
  intros i x Hi. assert (L : (i < length (h_objs (alloc h o)))%nat) by (eapply read_lt; exact Hi).
  unfold alloc in L; cbn [h_objs] in L. rewrite app_length in L. cbn [length] in L.
  destruct (Nat.eq_dec i (length (h_objs h))) as [->|Ni].
  - rewrite read_alloc_new in Hi. injection Hi as <-. apply Hx. reflexivity.
  - rewrite read_alloc_old in Hi by (auto; lia). eapply H; exact Hi.
Qed.
Lemma step_hinv h o h' r : wf h -> hinv h -> clean_step o r -> step h o = Some (h', r) -> hinv h'.
Proof.
  intros W H K E. destruct o as [p|n|m p|f t p|p|i m|i n|i j]; cbn [step] in E.
  - eapply add_hinv; eauto. intros o Ho. apply raw_cinv. eapply new_full_raw; exact Ho.
  - eapply add_hinv; eauto. intros o Ho. injection Ho as <-. apply raw_cinv, zeros_raw.
  - eapply add_hinv; eauto. intros o Ho. apply raw_cinv. eapply new_model_raw; exact Ho.
  - eapply add_hinv; eauto. intros o Ho. apply raw_cinv. eapply new_cm_raw; exact Ho.
  - eapply add_hinv; eauto. intros o Ho. apply raw_cinv. eapply new_coellip_raw; exact Ho.
  - destruct (read h i) as [x|] eqn:Rx; [|discriminate]. destruct (call x m) as [[x' r']|] eqn:Cx; [|discriminate].
    injection E as <- <-. assert (Kx : cinv (o_data x')).
    { eapply call_cinv; [eapply H; exact Rx|exact Cx|]. destruct m; cbn in K; auto. }
    destruct (call_kind _ _ _ _ Cx) as (A & B & C').
    intros j o Hj. destruct (Nat.eq_dec i j) as [<-|Nj].
    + assert (o = x') by (destruct m; first [rewrite (read_rebind_same _ _ _ _ Rx) in Hj | rewrite (read_write_same _ _ _ _ W Rx A B C') in Hj]; congruence).
      subst o. exact Kx.
    + assert (Hj' : read h j = Some o) by (rewrite <- Hj; destruct m; symmetry; first [apply read_rebind_other|apply read_write_other]; assumption).
      eapply H; exact Hj'.
  - destruct (read h i) as [x|] eqn:Rx; [|discriminate]. destruct (make x n) as [y|] eqn:Mx; [|discriminate].
    eapply add_hinv; eauto. intros o ->. destruct n as [|s1 s2|b]; cbn [make] in Mx.
    + injection Mx as Mx. eapply copy_cinv; [eapply H; exact Rx|exact Mx].
    + injection Mx as Mx. apply bind_ok in Mx. destruct Mx as (c & _ & Mx). apply bind_ok in Mx. destruct Mx as (d & Sd & Mx). injection Mx as <-.
      apply raw_cinv. eapply shear_raw; exact Sd.
    + contradiction.
  - destruct (read h i) as [x|] eqn:Rx; [|discriminate]. destruct (read h j) as [y|] eqn:Ry; [|discriminate].
    eapply add_hinv; eauto. intros o Ho. unfold obj_convolve in Ho. apply bind_ok in Ho. destruct Ho as (d & Hd & Ho). injection Ho as <-.
    apply raw_cinv. eapply convolve_raw; exact Hd.
Qed.
Lemma run_hinv l : forall h h', wf h -> hinv h -> clean h l -> run h l = Some h' -> hinv h'.
Proof.
  induction l as [|o l IH]; intros h h' W H K E; cbn [run clean] in *; [injection E as <-; exact H|].
  destruct (step h o) as [[h1 r]|] eqn:S; [|discriminate]. destruct K as [K1 K2]. eapply (IH h1); eauto; [eapply step_wf|eapply step_hinv]; eauto.
Qed.
Lemma empty_hinv : hinv empty_heap.
Proof. intros i o E. unfold read in E. cbn in E. destruct i; discriminate. Qed.

(** two components with the same fields and the right normalisations are the same *)
Lemma norms_unique a b : same_gmix a b -> Forall norms_right a -> Forall norms_right b -> a = b.
Proof.
  intros S. induction S as [|x y l l' E _ IH]; intros A B; [reflexivity|]. apply Forall_cons_iff in A, B. destruct A as [A1 A2], B as [B1 B2].
  f_equal; auto. destruct x, y. unfold same_gauss, norms_right in *; cbn in *.
  destruct E as (-> & -> & -> & -> & -> & -> & ->). destruct A1 as (-> & n & -> & N1 & N2 & N3 & N4 & N5). destruct B1 as (-> & m & -> & M1 & M2 & M3 & M4 & M5).
  do 2 f_equal. destruct n, m; cbn in *; congruence.
Qed.
Lemma fresh_same gm : Forall coherent gm -> same_gmix gm (map fresh gm) /\ Forall raw (map fresh gm).
Proof.
  intros H. split.
  - induction H as [|g l C _ IH]; constructor; auto. unfold same_gauss, fresh, gauss2d_set; cbn. repeat split.
    unfold coherent, gcov, cov, det2 in C; cbn in C. lra.
  - apply Forall_map. apply Forall_forall. intros g _. apply raw_set.
Qed.
Lemma cinv_norms gm : gm <> [] -> cinv gm ->
  exists d f r, set_norms_if_needed gm = (d, r) /\ set_norms_if_needed (map fresh gm) = (f, r) /\ (r = Ok tt -> d = f) /\ (r = Ok tt \/ r = Raise GMixRangeError).
Proof.
  intros Hn [C N]. destruct (fresh_same gm C) as [S R].
  assert (EV : Forall evaluable gm \/ ~ Forall evaluable gm).
  { clear. induction gm as [|g l IH]; [left; constructor|].
    assert (D : evaluable g \/ ~ evaluable g).
    { unfold evaluable. destruct (Rle_dec (/ 10 ^ 200) (det2 (gcov g))); [|tauto]. destruct (Rlt_dec (/ 10 ^ 200) (trace2 (gcov g))); tauto. }
    rewrite Forall_cons_iff. tauto. }
  assert (Hn' : map fresh gm <> []) by (destruct gm; [congruence|discriminate]).
  destruct (raw_cinv _ R) as [RC RN].
  assert (Rhead : forall g rest, map fresh gm = g :: rest -> g_norm_set g = false).
  { intros g rest Eq. rewrite Eq in R. apply Forall_cons_iff in R. apply R. }
  destruct EV as [EV|EV].
  - assert (EV' : Forall evaluable (map fresh gm)) by (apply Forall_map; exact EV).
    destruct (norms_if_needed gm) as (d & Ed & Sd & Nd).
    { split; [exact Hn|]. split; [exact C|]. split; [exact EV|]. intros g rest Eq Es. eapply Forall_impl; [|exact (N g rest Eq Es)]. intros x [Hx _]; exact Hx. }
    destruct (norms_if_needed (map fresh gm)) as (f & Ef & Sf & Nf).
    { split; [exact Hn'|]. split; [exact RC|]. split; [exact EV'|]. intros g rest Eq Es. rewrite (Rhead g rest Eq) in Es. discriminate. }
    exists d, f, (Ok tt). split; [exact Ed|]. split; [exact Ef|]. split; [|auto]. intros _. apply norms_unique; auto.
    eapply same_trans; [apply same_sym; exact Sd|]. eapply same_trans; [exact S|exact Sf].
  - assert (EV' : ~ Forall evaluable (map fresh gm)) by (intros K; apply EV; rewrite Forall_map in K; exact K).
    pose proof (norms_if_needed_bad (map fresh gm) Hn' RC EV' Rhead) as B2.
    assert (B1 : snd (set_norms_if_needed gm) = Raise GMixRangeError).
    { apply norms_if_needed_bad; auto. intros g rest Eq. destruct (g_norm_set g) eqn:Es; [|reflexivity]. exfalso. apply EV.
      eapply Forall_impl; [|exact (N g rest Eq Es)]. intros x [_ Hx]; exact Hx. }
    destruct (set_norms_if_needed gm) as [d r1], (set_norms_if_needed (map fresh gm)) as [f r2]. cbn in B1, B2. subst r1 r2.
    exists d, f, (Raise GMixRangeError). repeat split; auto. discriminate.
Qed.

(** everything that evaluates the mixture starts with set_norms_if_needed *)
Lemma cinv_use gm : gm <> [] -> cinv gm -> same_use gm (map fresh gm).
Proof.
  intros Hn H. destruct (cinv_norms gm Hn H) as (d & f & r & Ed & Ef & Hr & Ho).
  split; [|split; [|split; [|split]]].
  - intros. unfold make_image. destruct (match j with Some _ => _ | None => _ end); [|reflexivity]. destruct (make_coords nr nc j0); [|reflexivity].
    unfold render. rewrite Ed, Ef. destruct Ho as [->| ->]; [rewrite (Hr eq_refl)|]; reflexivity.
  - intros. unfold get_loglike. rewrite Ed, Ef. destruct Ho as [->| ->]; [rewrite (Hr eq_refl)|]; reflexivity.
  - intros. unfold GMix_fill_fdiff. destruct (_ <? _)%Z; [reflexivity|]. unfold fill_fdiff. rewrite Ed, Ef. destruct Ho as [->| ->]; [rewrite (Hr eq_refl)|]; reflexivity.
  - intros. unfold get_model_s2n, get_model_s2n_sum. rewrite Ed, Ef. destruct Ho as [->| ->]; [rewrite (Hr eq_refl)|]; reflexivity.
  - intros. unfold get_weighted_sums. rewrite Ed, Ef. destruct Ho as [->| ->]; [rewrite (Hr eq_refl)|]; reflexivity.
Qed.
Lemma clean_use l h i o : clean empty_heap l -> run empty_heap l = Some h -> read h i = Some o -> o_data o <> [] ->
  exists fr, GMix_pars (gm_get_full_pars (o_data o)) = Ok fr /\ same_use (o_data o) fr.
Proof.
  intros K E Hi Hn. pose proof (run_hinv l _ _ empty_wf empty_hinv K E i o Hi) as C.
  exists (map fresh (o_data o)). split; [apply GMix_pars_of_full|]. apply cinv_use; assumption.
Qed.

(** ** what breaks it *)
Lemma low_lt_1 : / 10 ^ 200 < 1.
Proof. replace 1 with (/ 1) by apply Rinv_1. apply Rinv_lt_contravar; [rewrite Rmult_1_l; apply pow_lt; lra|]. apply Rlt_pow_R1; [lra|lia]. Qed.
(** a failed normalisation is forgotten: the first component's flag says all is well *)
Lemma failed_norms_forgotten g1 g2 : raw g1 -> evaluable g1 -> raw g2 -> ~ evaluable g2 ->
  exists d, set_norms_if_needed [g1; g2] = (d, Raise GMixRangeError) /\ set_norms_if_needed d = (d, Ok tt) /\
    gm_get_full_pars d = gm_get_full_pars [g1; g2].
Proof.
  intros [C1 U1] E1 [C2 U2] E2. destruct (set_norm_ok g1 C1 E1) as (g1' & N1 & S1 & R1).
  unfold set_norms_if_needed. rewrite U1. cbn [negb gmix_set_norms]. rewrite N1, (set_norm_bad g2 C2 E2).
  eexists; split; [reflexivity|]. destruct R1 as [-> _]. split; [reflexivity|].
  unfold same_gauss in S1. destruct S1 as (P1 & P2 & P3 & P4 & P5 & P6 & _).
  cbn [gm_get_full_pars flat_map]. rewrite P1, P2, P3, P4, P5, P6. reflexivity.
Qed.
Definition plain (g : gauss) := g_row g = 0 /\ g_col g = 0 /\ / 10 ^ 200 <= g_det g /\ / 10 ^ 200 < g_irr g + g_icc g /\ g_norm_set g = false.
Lemma center_eval gm area : Forall plain gm -> exists d, gmix_set_norms gm = (d, Ok tt) /\
  gmix_eval_pixel d 0 0 area = Some (rsum (map (fun g => g_p g / (2 * PI * sqrt (g_det g))) gm) * area).
Proof.
  intros H. unfold gmix_eval_pixel.
  assert (G : exists d, gmix_set_norms gm = (d, Ok tt) /\ forall s,
    fold_left (fun model_val g => nan_add model_val (gauss2d_eval_pixel g 0 0 area)) d (Some s) =
    Some (s + rsum (map (fun g => g_p g / (2 * PI * sqrt (g_det g))) gm) * area)).
  { induction H as [|g l (P1 & P2 & P3 & P4 & P5) _ (d & Ed & Hd)]; [exists []; split; [reflexivity|]; intros s; cbn; f_equal; ring|].
    cbn [gmix_set_norms]. unfold gauss2d_set_norm, GMIX_LOW_DETVAL. rewrite Rltb_f by lra. rewrite Rleb_f by lra. rewrite Ed.
    eexists; split; [reflexivity|]. intros s. cbn [fold_left]. unfold gauss2d_eval_pixel at 2. cbn [g_nrm g_row g_col]. rewrite P1, P2.
    cbn [nan_add]. rewrite Hd. f_equal. cbn [map]. rewrite rsum_cons. unfold gauss_chi2. cbn [n_dcc n_drr n_drc n_pnorm].
    match goal with |- context [exp ?x] => replace x with 0 by (unfold Rdiv; ring) end. rewrite exp_0. unfold Rdiv. ring. }
  destruct G as (d & Ed & Hd). exists d. split; [exact Ed|]. rewrite Hd. f_equal. ring.
Qed.
Lemma center_image gm j : gm <> [] -> Forall plain gm -> row0 j = 0 -> col0 j = 0 ->
  exists im, snd (make_image gm 1 1 (Some j) false) = Ok im /\
    at2 im 0 0 = Some (rsum (map (fun g => g_p g / (2 * PI * sqrt (g_det g))) gm) * jscale j ^ 2).
Proof.
  intros Hn H J1 J2. destruct (center_eval gm (jscale j ^ 2) H) as (d & Ed & Hd).
  assert (Es : set_norms_if_needed gm = (d, Ok tt)).
  { destruct gm as [|g l]; [congruence|]. unfold set_norms_if_needed. apply Forall_cons_iff in H. destruct H as [(_ & _ & _ & _ & ->) _]. exact Ed. }
  destruct (make_image_gen gm 1 1 j false (fun d k => gmix_eval_pixel d (cd_v k) (cd_u k) (cd_area k)) d Es) as (im & Ei & _ & _ & V).
  { intros c. reflexivity. }
  exists im. rewrite Ei. split; [reflexivity|]. destruct (V 0%nat 0%nat) as (k & (Kv & Ku) & Ka & ->); [lia|lia|].
  rewrite J1, J2 in *. cbn [INR] in Kv, Ku.
  replace (cd_v k) with 0 by (rewrite Kv; ring). replace (cd_u k) with 0 by (rewrite Ku; ring). rewrite Ka, Hd. cbn [nan_add]. f_equal. ring.
Qed.
Lemma stale_norms : exists l h o fr, run empty_heap l = Some h /\ read h 0 = Some o /\
  GMix_pars (gm_get_full_pars (o_data o)) = Ok fr /\
  (forall nr nc j fast, snd (make_image fr nr nc (Some j) fast) = Raise GMixRangeError) /\
  (forall nr nc j fast, exists im, snd (make_image (o_data o) nr nc (Some j) fast) = Ok im).
Proof.
  set (g1 := gauss2d_set 1 0 0 1 0 1). set (g2 := gauss2d_set 1 0 0 0 0 0).
  pose proof low_lt_1 as L1. pose proof low_pos as L0.
  assert (E1 : evaluable g1) by (unfold evaluable, gcov, cov, det2, trace2, g1, gauss2d_set; cbn [g_irr g_irc g_icc xx xy yy]; lra).
  assert (E2 : ~ evaluable g2) by (unfold evaluable, gcov, cov, det2, trace2, g2, gauss2d_set; cbn [g_irr g_irc g_icc xx xy yy]; lra).
  destruct (failed_norms_forgotten g1 g2 (raw_set _ _ _ _ _ _) E1 (raw_set _ _ _ _ _ _) E2) as (d & Ed & Ed' & Ep).
  exists [ONewFull [1;0;0;1;0;1;1;0;0;0;0;0]; OCall 0 MEval].
  exists (mkHeap [[1;0;0;1;0;1;1;0;0;0;0;0]] [d] [mkRef KFull 2 12 0 0]), (mkObj KFull 2 12 [1;0;0;1;0;1;1;0;0;0;0;0] d), (map fresh [g1; g2]).
  split; [|split; [|split; [|split]]].
  - cbn [run step].
    assert (NF : new_full [1;0;0;1;0;1;1;0;0;0;0;0] = Ok (mkObj KFull 2 12 [1;0;0;1;0;1;1;0;0;0;0;0] [g1; g2])) by reflexivity.
    rewrite NF. cbn [add]. unfold read, alloc, empty_heap; cbn [h_objs h_pars h_data nth_error app length r_pars r_data r_kind r_ngauss r_npars o_kind o_ngauss o_npars o_pars o_data].
    cbn [call o_data]. rewrite Ed. cbn [with_data o_kind o_ngauss o_npars o_pars o_data]. reflexivity.
  - reflexivity.
  - cbn [o_data]. rewrite Ep. apply GMix_pars_of_full.
  - intros nr nc j fast. apply make_image_raises; [discriminate| | |].
    + repeat constructor; unfold coherent, gcov, cov, det2; cbn; ring.
    + intros K. rewrite Forall_map in K. apply Forall_cons_iff in K. destruct K as [_ K]. apply Forall_cons_iff in K. destruct K as [K _]. exact (E2 K).
    + intros g rest Eq. injection Eq as <- _. reflexivity.
  - intros nr nc j fast. cbn [o_data]. destruct fast.
    + destruct (make_image_gen d nr nc j true (fun d k => Some (fastval d (cd_v k) (cd_u k) (cd_area k))) d Ed') as (im & -> & _).
      { intros c. rewrite fastval_eq. reflexivity. } exists im; reflexivity.
    + destruct (make_image_gen d nr nc j false (fun d k => gmix_eval_pixel d (cd_v k) (cd_u k) (cd_area k)) d Ed') as (im & -> & _).
      { intros c. reflexivity. } exists im; reflexivity.
Qed.
(** make_round: the determinant of the unrounded components stays *)
Lemma mean2 f a b : rsum (map (fun g => g_p g * f g) [a; b]) = g_p a * f a + g_p b * f b.
Proof. cbn [map]. rewrite !rsum_cons. unfold rsum; cbn. ring. Qed.
Lemma stale_round_from gm b gm' : gmix_make_round gm b = Some (Ok gm') -> gm' <> [] -> Forall plain gm' -> Forall plain (map fresh gm') ->
  rsum (map (fun g => g_p g / (2 * PI * sqrt (g_det g))) gm') <> rsum (map (fun g => g_p g / (2 * PI * sqrt (g_det g))) (map fresh gm')) ->
  exists fr im im', GMix_pars (gm_get_full_pars gm') = Ok fr /\
    snd (make_image gm' 1 1 (Some j1) false) = Ok im /\ snd (make_image fr 1 1 (Some j1) false) = Ok im' /\ at2 im 0 0 <> at2 im' 0 0.
Proof.
  intros E Hn H H' D. exists (map fresh gm').
  destruct (center_image gm' j1 Hn H eq_refl eq_refl) as (im & Ei & Hi).
  destruct (center_image (map fresh gm') j1 ltac:(destruct gm'; [congruence|discriminate]) H' eq_refl eq_refl) as (im' & Ei' & Hi').
  exists im, im'. split; [apply GMix_pars_of_full|]. split; [exact Ei|]. split; [exact Ei'|]. rewrite Hi, Hi'. unfold j1; cbn [jscale]. intros K.
  injection K as K. apply D. lra.
Qed.
Lemma sqrt4 : sqrt 4 = 2. Proof. replace 4 with (2 * 2) by ring. apply sqrt_square. lra. Qed.
Lemma stale_preserve : exists gm', gmix_make_round [gauss2d_set 1 0 0 1 0 4] true = Some (Ok gm') /\
  exists fr im im', GMix_pars (gm_get_full_pars gm') = Ok fr /\
    snd (make_image gm' 1 1 (Some j1) false) = Ok im /\ snd (make_image fr 1 1 (Some j1) false) = Ok im' /\ at2 im 0 0 <> at2 im' 0 0.
Proof.
  set (g := gauss2d_set 1 0 0 1 0 4).
  assert (F : flux_of [g] = 1) by (unfold flux_of, g; cbn; ring).
  assert (C : cov_of [g] = cov 1 0 4).
  { unfold cov_of. assert (R : row_of [g] = 0 /\ col_of [g] = 0) by (unfold row_of, col_of, mean_of; rewrite F; unfold g; cbn; split; field).
    destruct R as [-> ->]. unfold mean_of. rewrite F. unfold g; cbn. f_equal; field. }
  destruct (round_size_map [g]) as [_ (f & lam & E & Hf & Hl & Hm)]; [rewrite F; lra|rewrite C; unfold posdef, det2, cov; cbn; lra|].
  rewrite C in *. unfold trace2, det2, cov in *; cbn [xx xy yy] in *.
  assert (lam = 4). { apply Rle_antisym; [|apply Hm; lra]. apply Rnot_lt_le. intros K. nra. }
  assert (f = 8/5) by lra. subst f lam. eexists; split; [exact E|]. pose proof low_lt_1. pose proof low_pos.
  eapply stale_round_from; [exact E|discriminate| | |].
  - repeat constructor; cbn; lra.
  - repeat constructor; cbn; lra.
  - cbn [map fresh round_gauss g_p g_det g_irr g_icc g_irc g gauss2d_set].
    replace (1 * 4 - 0 * 0) with 4 by ring. replace (/ 2 * (1 + 4) * (8 / 5) * (/ 2 * (1 + 4) * (8 / 5)) - 0 * 0) with (4 * 4) by field.
    rewrite sqrt4, sqrt_square by lra. rewrite !rsum_cons. unfold rsum; cbn [fold_right]. pose proof PI_RGT_0.
    intros K. assert (K2 : 1 / (2 * PI * 2) * (8 * PI) = 1 / (2 * PI * 4) * (8 * PI)) by (f_equal; lra).
    replace (1 / (2 * PI * 2) * (8 * PI)) with 2 in K2 by (field; lra). replace (1 / (2 * PI * 4) * (8 * PI)) with 1 in K2 by (field; lra). lra.
Qed.
Lemma stale_default : exists gm', gmix_make_round [gauss2d_set 1 0 0 1 0 4; gauss2d_set 1 0 0 4 0 1] false = Some (Ok gm') /\
  exists fr im im', GMix_pars (gm_get_full_pars gm') = Ok fr /\
    snd (make_image gm' 1 1 (Some j1) false) = Ok im /\ snd (make_image fr 1 1 (Some j1) false) = Ok im' /\ at2 im 0 0 <> at2 im' 0 0.
Proof.
  set (a := gauss2d_set 1 0 0 1 0 4). set (b := gauss2d_set 1 0 0 4 0 1).
  assert (F : flux_of [a; b] = 2) by (unfold flux_of, a, b; cbn; ring).
  assert (C : cov_of [a; b] = cov (5/2) 0 (5/2)).
  { unfold cov_of. assert (R : row_of [a; b] = 0 /\ col_of [a; b] = 0) by (unfold row_of, col_of, mean_of; rewrite F; unfold a, b; cbn; split; field).
    destruct R as [-> ->]. unfold mean_of. rewrite F. unfold a, b; cbn. f_equal; field. }
  destruct (round_size_map [a; b]) as [(f & E & Hf) _]; [rewrite F; lra|rewrite C; unfold posdef, det2, cov; cbn; lra|].
  rewrite C in *. unfold trace2, det2, cov in *; cbn [xx xy yy] in *.
  replace (5 / 2 * (5 / 2) - 0 * 0) with (5 / 2 * (5 / 2)) in Hf by ring. rewrite sqrt_square in Hf by lra.
  assert (f = 1) by lra. subst f. eexists; split; [exact E|]. pose proof low_lt_1. pose proof low_pos.
  eapply stale_round_from; [exact E|discriminate| | |].
  - repeat constructor; cbn; lra.
  - repeat constructor; cbn; lra.
  - cbn [map fresh round_gauss g_p g_det g_irr g_icc g_irc a b gauss2d_set].
    replace (1 * 4 - 0 * 0) with 4 by ring. replace (4 * 1 - 0 * 0) with 4 by ring.
    replace (/ 2 * (1 + 4) * 1 * (/ 2 * (1 + 4) * 1) - 0 * 0) with (5/2 * (5/2)) by field.
    replace (/ 2 * (4 + 1) * 1 * (/ 2 * (4 + 1) * 1) - 0 * 0) with (5/2 * (5/2)) by field.
    rewrite sqrt4, sqrt_square by lra. rewrite !rsum_cons. unfold rsum; cbn [fold_right]. pose proof PI_RGT_0.
    intros K. assert (K2 : 1 / (2 * PI * 2) * (10 * PI) = 1 / (2 * PI * (5/2)) * (10 * PI)) by (f_equal; lra).
    replace (1 / (2 * PI * 2) * (10 * PI)) with (5/2) in K2 by (field; lra). replace (1 / (2 * PI * (5/2)) * (10 * PI)) with 2 in K2 by (field; lra). lra.
Qed.
(** the components keep their own centres *)
Lemma round_centres : exists gm', gmix_make_round [gauss2d_set 1 1 0 1 0 1; gauss2d_set 1 (-1) 0 1 0 1] false = Some (Ok gm') /\
  map g_row gm' = [1; -1].
Proof.
  set (a := gauss2d_set 1 1 0 1 0 1). set (b := gauss2d_set 1 (-1) 0 1 0 1).
  assert (F : flux_of [a; b] = 2) by (unfold flux_of, a, b; cbn; ring).
  assert (C : cov_of [a; b] = cov 2 0 1).
  { unfold cov_of. assert (R : row_of [a; b] = 0 /\ col_of [a; b] = 0) by (unfold row_of, col_of, mean_of; rewrite F; unfold a, b; cbn; split; field).
    destruct R as [-> ->]. unfold mean_of. rewrite F. unfold a, b; cbn. f_equal; field. }
  destruct (round_size_map [a; b]) as [(f & E & Hf) _]; [rewrite F; lra|rewrite C; unfold posdef, det2, cov; cbn; lra|].
  eexists; split; [exact E|]. reflexivity.
Qed.

Lemma mapM_length {A B} (f : A -> res B) l : forall d, mapM f l = Ok d -> length d = length l.
Proof.
  induction l as [|x l IH]; intros d; cbn [mapM]; [intros E; injection E as <-; reflexivity|].
  destruct (f x); [|discriminate]. cbn [bind]. destruct (mapM f l) as [d'|]; [|discriminate]. cbn [bind]. intros E; injection E as <-.
  cbn. f_equal. apply IH; reflexivity.
Qed.
Lemma new_model_spec m pars :
  (doc_npars m = Some (length pars) -> match doc_fill m pars with
     | Ok d => exists o, new_model m pars = Ok o /\ o_data o = d /\ o_kind o = KModel m /\ o_ngauss o = length d /\ o_pars o = pars
     | Raise e => new_model m pars = Raise e end) /\
  (doc_npars m <> Some (length pars) -> new_model m pars = Raise ValueError).
Proof.
  split.
  - intros H. assert (L : length pars = model_npars m /\ m <> Mbdc) by (destruct m; cbn in *; split; congruence).
    destruct L as [L Hm].
    assert (F : doc_fill m pars = fill_func (KModel m) (model_ngauss m) pars) by (destruct m; reflexivity || congruence).
    assert (N : new_model m pars = finish (obj_fill (blank (KModel m) (model_ngauss m) (model_npars m)) pars)) by (destruct m; reflexivity || congruence).
    rewrite F, N. unfold obj_fill, obj__fill, finish, blank; cbn [o_kind o_ngauss o_npars o_pars o_data]. rewrite L, Nat.eqb_refl. cbn [negb].
    destruct (fill_func (KModel m) (model_ngauss m) pars) as [d|] eqn:E; [|reflexivity]. eexists; split; [reflexivity|]. cbn. repeat split.
    destruct m; cbn [fill_func model_ngauss] in *; [..|congruence].
    1,2,3,4: revert E; unfold gmix_fill_gauss, gmix_fill_turb, gmix_fill_exp, gmix_fill_dev, gmix_fill_simple; intros E.
    1,2,3,4: repeat (apply bind_ok in E; destruct E as (? & _ & E)); destruct x5; apply mapM_length in E; rewrite E, seq_length; reflexivity.
    + unfold gmix_fill_bd in E. repeat (apply bind_ok in E; destruct E as (? & _ & E)); destruct x8; apply mapM_length in E; rewrite E, seq_length; reflexivity.
    + unfold gmix_fill_bdf in E. repeat (apply bind_ok in E; destruct E as (? & _ & E)); destruct x7; apply mapM_length in E; rewrite E, seq_length; reflexivity.
  - intros H. assert (L : length pars <> model_npars m \/ m = Mbdc) by (destruct m; auto; left; cbn in *; congruence).
    destruct L as [L| ->]; [|reflexivity].
    assert (N : new_model m pars = finish (obj_fill (blank (KModel m) (model_ngauss m) (model_npars m)) pars) \/ m = Mbdc) by (destruct m; auto).
    destruct N as [N| ->]; [|reflexivity]. rewrite N. unfold obj_fill. cbn [o_npars blank]. apply Nat.eqb_neq in L. rewrite L. reflexivity.
Qed.
