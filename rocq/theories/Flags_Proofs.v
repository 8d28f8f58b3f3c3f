From Coq Require Import String Ascii DecimalString Sorted.
From Verif Require Import Base Flags_Model Flags_Spec.
Open Scope Z_scope.

Lemma land_pow2 v p : 0 <= p -> (Z.land v (2 ^ p) =? 0) = negb (Z.testbit v p).
Proof.
  intros Hp. destruct (Z.testbit v p) eqn:E; cbn [negb].
  - apply Z.eqb_neq. intros K. assert (T : Z.testbit (Z.land v (2 ^ p)) p = true).
    { rewrite Z.land_spec, E, Z.pow2_bits_true by exact Hp. reflexivity. }
    rewrite K, Z.bits_0 in T. discriminate.
  - apply Z.eqb_eq. apply Z.bits_inj'. intros n Hn. rewrite Z.land_spec, Z.bits_0, Z.pow2_bits_eqb by exact Hp.
    destruct (Z.eqb_spec p n) as [<-|]; [rewrite E|rewrite andb_false_r]; reflexivity.
Qed.
Lemma lookup_in m k s : lookup m k = Some s -> In (k, s) m.
Proof.
  induction m as [|[k' v] m IH]; cbn [lookup]; [discriminate|]. destruct (Z.eqb_spec k k') as [->|]; [intros E; injection E as ->; left; reflexivity|].
  intros E; right; apply IH; exact E.
Qed.
Lemma lookup_none m k : lookup m k = None -> forall s, ~ In (k, s) m.
Proof.
  induction m as [|[k' v] m IH]; cbn [lookup]; [intros _ s []|]. destruct (Z.eqb_spec k k') as [->|N]; [discriminate|].
  intros E s [K|K]; [injection K as -> _; congruence|exact (IH E s K)].
Qed.
Definition name (m : list (Z * string)) (p : nat) : string :=
  match lookup m (2 ^ Z.of_nat p) with Some s => s | None => String.append "bit 2**" (dec p) end.
Lemma name_describes m p : describes m p (name m p).
Proof.
  unfold describes, name. destruct (lookup m _) eqn:E; [left; apply lookup_in; exact E|right; split; [apply lookup_none; exact E|reflexivity]].
Qed.
Definition bits (v : Z) (n : nat) : list nat := filter (fun p => Z.testbit v (Z.of_nat p)) (seq 0 n).
Lemma sorted_seq n : forall a, StronglySorted lt (seq a n).
Proof. induction n; intros a; cbn; constructor; auto. apply Forall_forall. intros x Hx. apply in_seq in Hx. lia. Qed.
Lemma sorted_filter f l : StronglySorted lt l -> StronglySorted lt (filter f l).
Proof.
  induction 1 as [|x l S IH F]; [constructor|]. cbn [filter]. destruct (f x); [|exact IH]. constructor; [exact IH|].
  apply Forall_forall. intros y Hy. apply filter_In in Hy. rewrite Forall_forall in F. apply F, Hy.
Qed.
Lemma bits_spec v : 0 <= v < 2 ^ 31 -> set_bits v (bits v 31).
Proof.
  intros H. split; [apply sorted_filter, sorted_seq|]. intros p. unfold bits. rewrite filter_In, in_seq. split; [tauto|].
  intros T. split; [|exact T]. split; [lia|]. destruct (le_lt_dec 31 p) as [L|L]; [|lia]. exfalso.
  rewrite Z.bits_above_log2 in T; [discriminate|lia|]. destruct (Z.eq_dec v 0) as [->|]; [cbn; lia|].
  assert (Z.log2 v < 31) by (apply Z.log2_lt_pow2; lia). lia.
Qed.
Lemma concat_joined l : joined l (String.concat "|" l).
Proof. induction l as [|s [|t l] IH]; [constructor|constructor|]. change (String.concat "|" (s :: t :: l)) with (String.append s (String.append "|" (String.concat "|" (t :: l)))). constructor. exact IH. Qed.
Lemma loop_eq v m l acc :
  fold_left (fun nstrs pow =>
      let fval := 2 ^ Z.of_nat pow in
      if negb (Z.land v fval =? 0) then
        match lookup m fval with
        | Some s => (nstrs ++ [s])%list
        | None => (nstrs ++ [String.append "bit 2**" (dec pow)])%list
        end
      else nstrs) l acc = (acc ++ map (name m) (filter (fun p => Z.testbit v (Z.of_nat p)) l))%list.
Proof.
  revert acc. induction l as [|p l IH]; intros acc; cbn [fold_left filter map]; [rewrite app_nil_r; reflexivity|].
  cbn zeta. rewrite land_pow2 by lia. rewrite negb_involutive. rewrite IH. destruct (Z.testbit v (Z.of_nat p)); [|reflexivity].
  cbn [map]. unfold name at 2. destruct (lookup m _); rewrite <- app_assoc; reflexivity.
Qed.
Lemma flags_str_eq v m : 0 <= v < 2 ^ 32 -> get_flags_str v m = Ok (String.concat "|" (map (name m) (bits v 31))).
Proof.
  intros H. unfold get_flags_str. rewrite (proj2 (Z.ltb_ge v 0)) by lia. rewrite (proj2 (Z.leb_gt (2 ^ 32) v)) by lia.
  unfold bits. generalize (seq 0 31). intros l. cbv zeta. rewrite loop_eq, app_nil_l. reflexivity.
Qed.
Lemma flags_str_spec v m : 0 <= v < 2 ^ 31 -> exists ps names s, get_flags_str v m = Ok s /\ set_bits v ps /\
  Forall2 (describes m) ps names /\ joined names s.
Proof.
  intros H. exists (bits v 31), (map (name m) (bits v 31)). eexists. split; [apply flags_str_eq; lia|].
  split; [apply bits_spec; exact H|]. split; [|apply concat_joined].
  induction (bits v 31); constructor; auto. apply name_describes.
Qed.
Lemma flags_str_neg v m : v < 0 -> get_flags_str v m = Raise ValueError.
Proof. intros H. unfold get_flags_str. rewrite (proj2 (Z.ltb_lt v 0)) by lia. reflexivity. Qed.
Lemma bit31 m : get_flags_str (2 ^ 31) m = Ok EmptyString.
Proof. rewrite flags_str_eq by lia. reflexivity. Qed.

(** the string determines the flags *)
Fixpoint no_pipe (s : string) : bool :=
  match s with EmptyString => true | String c s => negb (Ascii.eqb c "|"%char) && no_pipe s end.
Lemma append_pipe_inj a : forall b x y, no_pipe a = true -> no_pipe b = true ->
  String.append a (String "|" x) = String.append b (String "|" y) -> a = b /\ x = y.
Proof.
  induction a as [|c a IH]; intros [|d b] x y A B E; cbn in *.
  - injection E as <-. auto.
  - injection E as <- _. discriminate.
  - injection E as -> _. discriminate.
  - injection E as <- E. apply andb_true_iff in A, B. destruct (IH b x y) as [-> ->]; tauto.
Qed.
Lemma append_pipe_none a : forall b x, no_pipe b = true -> String.append a (String "|" x) <> b.
Proof.
  induction a as [|c a IH]; intros b x B E; cbn in E; subst b; cbn in B; [discriminate|].
  apply andb_true_iff in B. exact (IH _ x (proj2 B) eq_refl).
Qed.
Lemma concat_inj l : forall l', Forall (fun s => no_pipe s = true /\ s <> EmptyString) l -> Forall (fun s => no_pipe s = true /\ s <> EmptyString) l' ->
  String.concat "|" l = String.concat "|" l' -> l = l'.
Proof.
  induction l as [|s l IH]; intros l' A B E.
  - destruct l' as [|t l']; [reflexivity|]. exfalso. apply Forall_cons_iff in B. destruct B as [[B1 B2] _]. destruct l' as [|u l'].
    + cbn in E. congruence.
    + change (String.concat "|" (t :: u :: l')) with (String.append t (String "|" (String.concat "|" (u :: l')))) in E.
      destruct t; discriminate.
  - apply Forall_cons_iff in A. destruct A as [[A1 A2] A]. destruct l' as [|t l'].
    + exfalso. destruct l as [|u l]; [cbn in E; congruence|].
      change (String.concat "|" (s :: u :: l)) with (String.append s (String "|" (String.concat "|" (u :: l)))) in E. destruct s; discriminate.
    + apply Forall_cons_iff in B. destruct B as [[B1 B2] B]. destruct l as [|u l], l' as [|w l'].
      * cbn in E. congruence.
      * exfalso. change (String.concat "|" (t :: w :: l')) with (String.append t (String "|" (String.concat "|" (w :: l')))) in E. cbn [String.concat] in E.
        symmetry in E. exact (append_pipe_none _ _ _ A1 E).
      * exfalso. change (String.concat "|" (s :: u :: l)) with (String.append s (String "|" (String.concat "|" (u :: l)))) in E. cbn [String.concat] in E.
        exact (append_pipe_none _ _ _ B1 E).
      * change (String.concat "|" (s :: u :: l)) with (String.append s (String "|" (String.concat "|" (u :: l)))) in E.
        change (String.concat "|" (t :: w :: l')) with (String.append t (String "|" (String.concat "|" (w :: l')))) in E.
        apply append_pipe_inj in E; auto. destruct E as [-> E]. f_equal. apply IH; auto.
Qed.
Lemma names_good : forallb (fun p => no_pipe (name NAME_MAP p) && negb (String.eqb (name NAME_MAP p) EmptyString)) (seq 0 31) = true.
Proof. vm_compute. reflexivity. Qed.
Lemma names_inj : forallb (fun p => forallb (fun q => Nat.eqb p q || negb (String.eqb (name NAME_MAP p) (name NAME_MAP q))) (seq 0 31)) (seq 0 31) = true.
Proof. vm_compute. reflexivity. Qed.
Lemma name_inj p q : (p < 31)%nat -> (q < 31)%nat -> name NAME_MAP p = name NAME_MAP q -> p = q.
Proof.
  intros Hp Hq E. pose proof names_inj as H. rewrite forallb_forall in H. specialize (H p (proj2 (in_seq _ _ _) (conj (Nat.le_0_l _) Hp))).
  rewrite forallb_forall in H. specialize (H q (proj2 (in_seq _ _ _) (conj (Nat.le_0_l _) Hq))).
  apply orb_true_iff in H. destruct H as [H|H]; [apply Nat.eqb_eq; exact H|]. rewrite E, String.eqb_refl in H. discriminate.
Qed.
Lemma bits_lt v p : In p (bits v 31) -> (p < 31)%nat.
Proof. unfold bits. rewrite filter_In, in_seq. lia. Qed.
Lemma map_inj_on {A B} (f : A -> B) l : forall l', (forall x y, In x l -> In y l' -> f x = f y -> x = y) -> map f l = map f l' -> l = l'.
Proof.
  induction l as [|x l IH]; intros [|y l'] H E; try discriminate; [reflexivity|]. cbn in E. injection E as E1 E2. f_equal.
  - apply H; [left|left|]; auto.
  - apply IH; [intros; apply H; [right|right|]; auto|exact E2].
Qed.
Lemma flags_str_injective v w : 0 <= v < 2 ^ 31 -> 0 <= w < 2 ^ 31 -> get_flags_str v NAME_MAP = get_flags_str w NAME_MAP -> v = w.
Proof.
  intros Hv Hw E. rewrite !flags_str_eq in E by lia. injection E as E.
  assert (G : forall v, Forall (fun s => no_pipe s = true /\ s <> EmptyString) (map (name NAME_MAP) (bits v 31))).
  { intros z. apply Forall_map, Forall_forall. intros p Hp. apply bits_lt in Hp. pose proof names_good as N. rewrite forallb_forall in N.
    specialize (N p (proj2 (in_seq _ _ _) (conj (Nat.le_0_l _) Hp))). apply andb_true_iff in N. destruct N as [N1 N2]. split; [exact N1|].
    apply negb_true_iff in N2. apply String.eqb_neq in N2. exact N2. }
  apply concat_inj in E; try apply G. apply map_inj_on in E; [|intros x y Hx Hy; apply name_inj; eapply bits_lt; eassumption].
  apply Z.bits_inj'. intros n Hn. destruct (bits_spec v Hv) as [_ Bv]. destruct (bits_spec w Hw) as [_ Bw]. rewrite E in Bv.
  specialize (Bv (Z.to_nat n)). specialize (Bw (Z.to_nat n)). rewrite Z2Nat.id in * by exact Hn.
  apply Bool.eq_iff_eq_true. revert Bv Bw. generalize (In (Z.to_nat n) (bits w 31)). tauto.
Qed.
