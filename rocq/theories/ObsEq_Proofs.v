(** Proofs on equality of observations. *)
From Verif Require Import Base XReal Jacobian_Model Jacobian_Proofs Pixels_Model GMix_Spec GMix_Proofs Obs_Model Obs_Spec Obs_Proofs ObsThm_Proofs ObsCex_Proofs ObsEq_Model ObsEq_Spec.
From Verif Require GMix_Model GMixObj_Model.
From Coq Require String.

Definition decided (r : res bool) (P : Prop) : Prop := exists b, r = Ok b /\ (b = true <-> P).
Lemma decided_and x y P Q : decided x P -> decided y Q -> decided (andM x y) (P /\ Q).
Proof.
  intros (b & -> & B) (c & -> & C). unfold andM; cbn [bind]. destruct b.
  - exists c. split; auto. tauto.
  - exists false. split; auto. split; [discriminate|]. intros [H _]. apply B in H. discriminate.
Qed.
Lemma decided_ok b P : (b = true <-> P) -> decided (Ok b) P.
Proof. intros H. exists b. auto. Qed.
Lemma decided_iff r P Q : decided r P -> (P <-> Q) -> decided r Q.
Proof. intros (b & E & H) I. exists b. split; auto. tauto. Qed.

Lemma arr_decided a b : same_size (C2 a) (C2 b) -> decided (arr2_eq Reqb a b) (same_arr a b).
Proof.
  intros [H1 H2]. unfold arr2_eq, bdim. rewrite <- H1, <- H2, !Nat.eqb_refl. apply decided_ok.
  rewrite forallb_forall. unfold same_arr.
  assert (K : forall n r, (r < n)%nat -> bidx n r = r).
  { intros n r L. unfold bidx. destruct (Nat.eqb_spec n 1); auto. subst. lia. }
  split.
  - intros H. split; auto. split; auto. intros r c Hr Hc. specialize (H r). rewrite in_seq, forallb_forall in H.
    specialize (H ltac:(lia) c). rewrite in_seq in H. specialize (H ltac:(lia)). rewrite !K in H by auto.
    destruct (Reqb_spec (at2 a r c) (at2 b r c)); auto; discriminate.
  - intros (_ & _ & H) r Hr. apply in_seq in Hr. rewrite forallb_forall. intros c Hc. apply in_seq in Hc.
    rewrite !K by lia. rewrite H by lia. apply Reqb_t. auto.
Qed.
Lemma content_decided a b : same_size a b -> decided (content_eq a b) (same_content a b).
Proof. destruct a, b; cbn; try tauto. apply arr_decided. Qed.
Lemma opt_decided {A} e (eq : A -> A -> res bool) (F P : A -> A -> Prop) a b :
  (forall x y, a = Some x -> b = Some y -> F x y -> decided (eq x y) (P x y)) -> both F a b -> decided (opt_eq e eq a b) (both P a b).
Proof.
  intros H B. destruct a, b; cbn in *; try tauto; [apply H; auto|]. apply decided_ok. tauto.
Qed.

Lemma dict_get_in d k v : NoDup (map fst d) -> dict_get d k = Some v <-> In (k, v) d.
Proof.
  induction d as [|[k' v'] d IH]; cbn; [split; [discriminate|tauto]|]. intros N. apply NoDup_cons_iff in N as [N1 N2].
  destruct (String.eqb_spec k k').
  - subst. split; [intros [= ->]; auto|]. intros [[= ->]|H]; auto. exfalso. apply N1. apply (in_map fst) in H. exact H.
  - rewrite IH by auto. split; auto. intros [[= -> ->]|H]; [congruence|auto].
Qed.
Lemma dict_decided a b : NoDup (map fst a) -> NoDup (map fst b) -> (dict_eqb a b = true <-> same_dict a b).
Proof.
  intros Na Nb. unfold dict_eqb. rewrite andb_true_iff, Nat.eqb_eq, forallb_forall. unfold same_dict.
  assert (Pa : NoDup a) by (eapply NoDup_map_inv; eauto). assert (Pb : NoDup b) by (eapply NoDup_map_inv; eauto).
  assert (K : (forall x, In x a -> match dict_get b (fst x) with Some v => String.eqb (snd x) v | None => false end = true) <-> incl a b).
  { split.
    - intros H [k v] Hx. specialize (H _ Hx). cbn in H. destruct (dict_get b k) eqn:E; [|discriminate].
      apply String.eqb_eq in H. subst. apply dict_get_in; auto.
    - intros H [k v] Hx. apply H in Hx. apply dict_get_in in Hx; auto. cbn. rewrite Hx. apply String.eqb_refl. }
  rewrite K. split.
  - intros [L I] kv. split; [apply I|]. intros Hb. apply (NoDup_length_incl Pa) in I; [apply I; auto|lia].
  - intros H. split; [|intros x; apply H]. apply Nat.le_antisymm; apply NoDup_incl_length; auto; intros x; apply H.
Qed.
Lemma gmobj_decided a b : gm_copy a = Ok a -> gm_copy b = Ok b ->
  length (GMixObj_Model.o_data a) = length (GMixObj_Model.o_data b) ->
  decided (gmobj_eq a b) (same_gmix (GMixObj_Model.o_data a) (GMixObj_Model.o_data b)).
Proof.
  intros Ha Hb L. unfold gmobj_eq. rewrite Ha, Hb. cbn [bind]. destruct (gmix_eq_same_length _ _ L) as (r & E & I). exists r. auto.
Qed.
Lemma jac_decided a b : Jacobian_eq a b = true <-> a = b.
Proof.
  unfold Jacobian_eq. rewrite !andb_true_iff. destruct a, b; cbn.
  split.
  - intros H. decompose [and] H. repeat match goal with X : Reqb ?x ?y = true |- _ => destruct (Reqb_spec x y); [|discriminate]; clear X end.
    subst. auto.
  - intros [= -> -> -> -> -> -> -> ->]. repeat split; apply Reqb_t; auto.
Qed.

Definition obsval_ind' (P : obsval -> Prop)
  (H : forall im w j opts g d st ig p, match p with None => True | Some x => P x end -> P (OV im w j opts g d st ig p)) : forall v, P v :=
  fix F v := match v with
             | OV im w j opts g d st ig p =>
                 H im w j opts g d st ig p (match p with None => Logic.I | Some x => F x end)
             end.

Theorem obs_eq_decided a : forall b, proper a -> proper b -> same_form a b -> decided (obs_eq a b) (same_value a b).
Proof.
  induction a as [im w j opts g d st ig p IH] using obsval_ind'. intros [im' w' j' opts' g' d' st' ig' p'].
  intros (N & O & G & P) (N' & O' & G' & P') (F1 & F2 & F3 & F4 & F5). cbn [obs_eq same_value].
  assert (D : forall s, decided (opt_eq AttributeError content_eq (opts s) (opts' s)) (both same_content (opts s) (opts' s))).
  { intros s. eapply opt_decided; [|apply F3]. intros x y _ _. apply content_decided. }
  eapply decided_iff.
  - apply decided_and; [apply decided_ok, dict_decided; auto|].
    apply decided_and; [apply arr_decided; auto|]. apply decided_and; [apply arr_decided; auto|].
    apply decided_and; [apply D|]. apply decided_and; [apply D|]. apply decided_and; [apply D|]. apply decided_and; [apply D|].
    apply decided_and.
    { instantiate (1 := match p, p' with None, None => True | Some x, Some y => same_value x y | _, _ => False end).
      destruct p as [x|], p' as [y|]; cbn in F4; try tauto; [apply IH; auto|apply decided_ok; tauto]. }
    apply decided_and.
    { eapply opt_decided; [|exact F5]. intros x y Ex Ey. apply gmobj_decided; auto. }
    apply decided_and; [apply decided_ok, jac_decided|]. apply decided_ok, dict_decided; auto.
  - split.
    + intros H. repeat (split; [tauto|]). split; [intros []; tauto|tauto].
    + intros (A & B & C & Q1 & Q2 & Q3 & Q4).
      exact (conj Q4 (conj A (conj B (conj (C SBmask) (conj (C SOrmask) (conj (C SMfrac) (conj (C SNoise) (conj Q1 (conj Q2 (conj Q3 Q4)))))))))).
Qed.

(** ---- same_value is an equivalence ---- *)
Lemma same_arr_refl a : same_arr a a. Proof. repeat split. Qed.
Lemma same_arr_sym a b : same_arr a b -> same_arr b a.
Proof. intros (A & B & C). split; [auto|split; [auto|]]. intros. symmetry. apply C; congruence. Qed.
Lemma same_arr_trans a b c : same_arr a b -> same_arr b c -> same_arr a c.
Proof. intros (A & B & C) (A' & B' & C'). split; [congruence|split; [congruence|]]. intros. rewrite C by auto. apply C'; congruence. Qed.
Lemma both_sym {A} (P : A -> A -> Prop) a b : (forall x y, P x y -> P y x) -> both P a b -> both P b a.
Proof. destruct a, b; cbn; auto. Qed.
Lemma both_trans {A} (P : A -> A -> Prop) a b c : (forall x y z, P x y -> P y z -> P x z) -> both P a b -> both P b c -> both P a c.
Proof. destruct a, b, c; cbn; try tauto. eauto. Qed.
Lemma same_content_sym a b : same_content a b -> same_content b a.
Proof. destruct a, b; cbn; auto using same_arr_sym. Qed.
Lemma same_content_trans a b c : same_content a b -> same_content b c -> same_content a c.
Proof. destruct a, b, c; cbn; try tauto. apply same_arr_trans. Qed.
Lemma same_gauss_sym a b : same_gauss a b -> same_gauss b a. Proof. unfold same_gauss. intuition. Qed.
Lemma same_gauss_trans a b c : same_gauss a b -> same_gauss b c -> same_gauss a c.
Proof. unfold same_gauss. intros H1 H2. decompose [and] H1. decompose [and] H2. repeat split; congruence. Qed.
Lemma same_gmix_refl a : same_gmix a a. Proof. induction a; constructor; auto. unfold same_gauss; tauto. Qed.
Lemma same_gmix_sym a b : same_gmix a b -> same_gmix b a.
Proof. intros H; induction H; constructor; auto using same_gauss_sym. Qed.
Lemma same_gmix_trans a b c : same_gmix a b -> same_gmix b c -> same_gmix a c.
Proof.
  intros H. revert c. induction H; intros c K; apply Forall2_length' in K as L; destruct c; try discriminate; constructor.
  - eapply same_gauss_trans; eauto. inversion K; auto.
  - apply IHForall2. inversion K; auto.
Qed.
Lemma same_value_refl a : proper a -> same_value a a.
Proof.
  induction a as [im w j opts g d st ig p IH] using obsval_ind'. intros (N & O & G & P). cbn.
  split; [apply same_arr_refl|]. split; [apply same_arr_refl|]. split.
  { intros s. destruct (opts s) as [c|] eqn:E; cbn; auto. destruct (O _ _ E) as [x ->]. apply same_arr_refl. }
  split; [destruct p; auto|]. split; [destruct g; cbn; auto using same_gmix_refl|]. split; auto. intros kv; tauto.
Qed.
Lemma same_value_sym a : forall b, same_value a b -> same_value b a.
Proof.
  induction a as [im w j opts g d st ig p IH] using obsval_ind'. intros [im' w' j' opts' g' d' st' ig' p']. cbn.
  intros (A & B & C & D & E & F & G). split; [apply same_arr_sym; auto|]. split; [apply same_arr_sym; auto|].
  split; [intros s; apply both_sym; auto using same_content_sym|].
  split; [destruct p, p'; auto|]. split; [apply both_sym; auto using same_gmix_sym|]. split; auto. intros kv. symmetry. apply G.
Qed.
Lemma same_value_trans a : forall b c, same_value a b -> same_value b c -> same_value a c.
Proof.
  induction a as [im w j opts g d st ig p IH] using obsval_ind'. intros [im' w' j' opts' g' d' st' ig' p'] [im2 w2 j2 opts2 g2 d2 st2 ig2 p2]. cbn.
  intros (A & B & C & D & E & F & G) (A2 & B2 & C2 & D2 & E2 & F2 & G2).
  split; [eapply same_arr_trans; eauto|]. split; [eapply same_arr_trans; eauto|].
  split; [intros s; eapply both_trans; eauto using same_content_trans|].
  split. { destruct p, p', p2; try tauto. eapply IH; eauto. }
  split. { eapply both_trans; [|exact E|exact E2]. cbv beta. intros. eapply same_gmix_trans; eauto. }
  split; [congruence|]. intros kv. specialize (G kv). specialize (G2 kv). tauto.
Qed.
Lemma same_form_refl a : proper a -> same_form a a.
Proof.
  induction a as [im w j opts g d st ig p IH] using obsval_ind'. intros (N & O & G & P). cbn.
  split; [auto|]. split; [auto|]. split.
  { intros s. destruct (opts s) as [c|] eqn:E; cbn; auto. destruct (O _ _ E) as [x ->]. cbn; auto. }
  split; [destruct p; auto|]. destruct g; cbn; auto.
Qed.
Theorem obs_eq_refl a : proper a -> obs_eq a a = Ok true.
Proof.
  intros H. destruct (obs_eq_decided a a H H (same_form_refl a H)) as (b & E & I). rewrite E. f_equal. apply I. apply same_value_refl; auto.
Qed.
Lemma decided_eq x y P Q : decided x P -> decided y Q -> (P <-> Q) -> x = y.
Proof.
  intros (b & -> & B) (c & -> & C) I. f_equal. destruct b, c; auto; exfalso.
  - assert (false = true) by tauto. discriminate.
  - assert (false = true) by tauto. discriminate.
Qed.
Lemma both_sym_form {A} (P : A -> A -> Prop) a b : (forall x y, P x y -> P y x) -> both P a b -> both P b a.
Proof. apply both_sym. Qed.
Lemma same_size_sym a b : same_size a b -> same_size b a. Proof. destruct a, b; cbn; intuition. Qed.
Lemma same_form_sym a : forall b, same_form a b -> same_form b a.
Proof.
  induction a as [im w j opts g d st ig p IH] using obsval_ind'. intros [im' w' j' opts' g' d' st' ig' p']. cbn [same_form].
  intros (A & B & C & D & E). split; [apply same_size_sym; auto|]. split; [apply same_size_sym; auto|].
  split; [intros s; apply both_sym; auto using same_size_sym|]. split; [destruct p, p'; auto|].
  apply both_sym; auto.
Qed.
Theorem obs_eq_sym a b : proper a -> proper b -> same_form a b -> obs_eq a b = obs_eq b a.
Proof.
  intros Pa Pb F. eapply decided_eq; [apply obs_eq_decided; auto|apply obs_eq_decided; auto using same_form_sym|].
  split; apply same_value_sym.
Qed.
Lemma same_value_form a : forall b, same_value a b -> same_form a b.
Proof.
  induction a as [im w j opts g d st ig p IH] using obsval_ind'. intros [im' w' j' opts' g' d' st' ig' p']. cbn [same_form same_value].
  intros ((A1 & A2 & _) & (B1 & B2 & _) & C & D & E & _). split; [cbn; auto|]. split; [cbn; auto|].
  split. { intros s. specialize (C s). destruct (opts s) as [[]|], (opts' s) as [[]|]; cbn in *; try tauto. destruct C as (X & Y & _); auto. }
  split; [destruct p, p'; auto|]. destruct g, g'; cbn in *; try tauto. eapply Forall2_length'; eauto.
Qed.
Theorem obs_eq_trans a b c : proper a -> proper b -> proper c -> same_form a b -> same_form b c ->
  obs_eq a b = Ok true -> obs_eq b c = Ok true -> obs_eq a c = Ok true.
Proof.
  intros Pa Pb Pc F1 F2 E1 E2.
  destruct (obs_eq_decided a b Pa Pb F1) as (x & X & I1). destruct (obs_eq_decided b c Pb Pc F2) as (y & Y & I2).
  assert (S : same_value a c). { eapply same_value_trans; [apply I1; congruence|apply I2; congruence]. }
  destruct (obs_eq_decided a c Pa Pc (same_value_form _ _ S)) as (z & Z & I3). rewrite Z. f_equal. apply I3. auto.
Qed.

(** ---- lists ---- *)
Theorem items_eq_refl {A} (eq : A -> A -> res bool) l : Forall (fun x => eq x x = Ok true) l -> items_eq eq l l = Ok true.
Proof. induction l as [|x l IH]; cbn; auto. intros H. apply Forall_cons_iff in H as [H1 H2]. rewrite H1. cbn. auto. Qed.
Theorem list_eq_true {A} (eq : A -> A -> res bool) a b :
  list_eq eq a b = Ok true <-> Forall2 (fun x y => eq x y = Ok true) (ol_items a) (ol_items b).
Proof.
  unfold list_eq. destruct (Nat.eqb_spec (length (ol_items a)) (length (ol_items b))) as [L|L]; cbn [negb].
  - revert L. generalize (ol_items a) (ol_items b). induction l as [|x l IH]; intros [|y l'] L; try discriminate; cbn [items_eq].
    + split; auto.
    + split.
      * destruct (eq x y) as [[]|] eqn:E; cbn; try discriminate. intros H. constructor; auto. apply IH; auto.
      * intros H. inversion H; subst. rewrite H3. cbn. apply IH; auto.
  - split; [discriminate|]. intros H. apply Forall2_length' in H. congruence.
Qed.

(** ---- wrong answers ---- *)
Definition ov1 (b : option content) (g : option gmobj) (p : option obsval) (v : R) : obsval :=
  OV (im1 v) (im1 1) jac1 (fun s => match s with SBmask => b | _ => None end) g [] true true p.
Lemma arr_refl a : arr2_eq Reqb a a = Ok true.
Proof. destruct (arr_decided a a) as (b & E & I); [cbn; auto|]. rewrite E. f_equal. apply I. apply same_arr_refl. Qed.
Lemma jac_eq_refl j : Jacobian_eq j j = true. Proof. apply jac_decided. auto. Qed.
Lemma missing_bmask v c : obs_eq (ov1 None None None v) (ov1 (Some c) None None v) = Ok true /\
  obs_eq (ov1 (Some c) None None v) (ov1 None None None v) = Raise AttributeError.
Proof. unfold ov1; cbn [obs_eq]. rewrite !arr_refl, jac_eq_refl. split; reflexivity. Qed.
Lemma missing_psf v q : obs_eq (ov1 None None None v) (ov1 None None (Some q) v) = Ok true /\
  obs_eq (ov1 None None (Some q) v) (ov1 None None None v) = Raise RuntimeError.
Proof. unfold ov1; cbn [obs_eq]. rewrite !arr_refl, jac_eq_refl. split; reflexivity. Qed.
Lemma missing_gmix v g : obs_eq (ov1 None None None v) (ov1 None (Some g) None v) = Ok true /\
  obs_eq (ov1 None (Some g) None v) (ov1 None None None v) = Raise RuntimeError.
Proof. unfold ov1; cbn [obs_eq]. rewrite !arr_refl, jac_eq_refl. split; reflexivity. Qed.
Lemma forallb_true {A} (l : list A) f : (forall x, f x = true) -> forallb f l = true.
Proof. intros H. apply forallb_forall. auto. Qed.
Lemma broadcast_eq v n m : arr2_eq Reqb (im1 v) (mkArr n m (fun _ _ => v)) = Ok true.
Proof.
  unfold arr2_eq, bdim. cbn [im1 nrow ncol at2].
  assert (T : Reqb v v = true) by (apply Reqb_t; auto).
  destruct (Nat.eqb 1 n), (Nat.eqb 1 m); cbn [Nat.eqb]; f_equal; apply forallb_true; intros; apply forallb_true; intros; auto.
Qed.
Lemma broadcast_obs v n m :
  obs_eq (OV (im1 v) (im1 1) jac1 (fun _ => None) None [] true true None)
         (OV (mkArr n m (fun _ _ => v)) (mkArr n m (fun _ _ => 1)) jac1 (fun _ => None) None [] true true None) = Ok true.
Proof. cbn [obs_eq]. rewrite !broadcast_eq, jac_eq_refl. reflexivity. Qed.
Lemma wrong_shape_raises : exists a b, arr2_eq Reqb a b = Raise ValueError.
Proof. exists (mkArr 2 2 (fun _ _ => 0)), (mkArr 3 3 (fun _ _ => 0)). reflexivity. Qed.
Lemma wrong_shape_obs :
  obs_eq (OV (mkArr 2 2 (fun _ _ => 0)) (mkArr 2 2 (fun _ _ => 1)) jac1 (fun _ => None) None [] true true None)
         (OV (mkArr 3 3 (fun _ _ => 0)) (mkArr 3 3 (fun _ _ => 1)) jac1 (fun _ => None) None [] true true None) = Raise ValueError.
Proof. reflexivity. Qed.
Lemma nan_not_equal : exists a : arr2 xr, arr2_eq xeqb a a = Ok false.
Proof. exists (mkArr 1 1 (fun _ _ => NaN)). reflexivity. Qed.
Lemma metas_ignored (d d' : dict) (l : list obsval) : Forall proper l -> obslist_eq (mkOL l d) (mkOL l d') = Ok true.
Proof.
  intros H. apply list_eq_true. cbn. induction H; constructor; auto using obs_eq_refl.
Qed.

(** every observation of a program has a proper value if its dictionaries are *)
Lemma reads_proper p i v : (forall d, In d (m_metas (exec empty_mem p)) -> NoDup (map fst d)) ->
  reads (exec empty_mem p) i v -> proper v.
Proof.
  intros HD H. pose proof (reach_good p) as G. induction H.
  - pose proof (good_ok _ _ _ _ G H) as O. cbn. split; [apply HD; eapply nth_error_In; eauto|]. split.
    { intros s c Hs. specialize (H3 s). destruct (ob_opt o s) as [a|] eqn:E; [|congruence].
      destruct H3 as (c' & A & B). destruct (ok_opt _ _ O s a E) as (im' & C). exists im'. congruence. }
    split; [intros x Hx; apply (ok_gmix _ _ O); auto|auto].
  - pose proof (good_ok _ _ _ _ G H) as O. cbn. split; [apply HD; eapply nth_error_In; eauto|]. split.
    { intros s c Hs. specialize (H3 s). destruct (ob_opt o s) as [a|] eqn:E; [|congruence].
      destruct H3 as (c' & A & B). destruct (ok_opt _ _ O s a E) as (im' & C). exists im'. congruence. }
    split; [intros x Hx; apply (ok_gmix _ _ O); auto|auto].
Qed.
