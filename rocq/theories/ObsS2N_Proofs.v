(** Proofs on the signal to noise of containers. *)
From Verif Require Import Base Pixels_Model Obs_Model Obs_Spec ObsEq_Model ObsList_Model ObsList_Spec.
From Coq Require Import Permutation.
Local Open Scope R_scope.

Lemma rsum_flat_map {A} (f : A -> list R) l : rsum (flat_map f l) = rsum (map (fun x => rsum (f x)) l).
Proof. induction l as [|x l IH]; cbn [flat_map map]; [reflexivity|]. rewrite rsum_app, rsum_cons, IH. reflexivity. Qed.
Lemma map_flat_map {A B C} (g : B -> C) (f : A -> list B) l : map g (flat_map f l) = flat_map (fun x => map g (f x)) l.
Proof. induction l as [|x l IH]; cbn [flat_map map]; auto. rewrite map_app, IH. auto. Qed.
Lemma filter_flat_map {A B} (g : B -> bool) (f : A -> list B) l : filter g (flat_map f l) = flat_map (fun x => filter g (f x)) l.
Proof. induction l as [|x l IH]; cbn [flat_map]; auto. rewrite filter_app, IH. auto. Qed.
Lemma rsum_filter {A} (g : A -> bool) (h : A -> R) l : rsum (map h (filter g l)) = rsum (map (fun x => if g x then h x else 0) l).
Proof. induction l as [|x l IH]; cbn [filter map]; auto. rewrite rsum_cons, <- IH. destruct (g x); [apply rsum_cons|lra]. Qed.

Lemma good_sum im w (h : R -> R -> R) : rsum (map (fun x => h (fst x) (snd x)) (good_pixels im w)) = pixel_sum im w h.
Proof.
  unfold good_pixels, pixel_sum. rewrite filter_flat_map, map_flat_map, rsum_flat_map. apply rsum_map_ext. intros r _.
  rewrite rsum_filter, map_map. apply rsum_map_ext. intros c _. cbn [fst snd]. unfold Rltb. destruct (Rlt_dec 0 (at2 w r c)); auto.
Qed.
Lemma rsum_ones {A} (l : list A) : rsum (map (fun _ => 1) l) = INR (length l).
Proof. induction l as [|x l IH]; [reflexivity|]. cbn [map]. rewrite rsum_cons, IH. cbn [length]. rewrite S_INR. lra. Qed.
Lemma obs_sums_spec v : obsval_sums v = (i_sum v, v_sum v, snd (obsval_sums v)) /\ INR (snd (obsval_sums v)) = n_sum v.
Proof.
  destruct v as [im w ? ? ? ? ? ? ?]. unfold obsval_sums, obs_sums, i_sum, v_sum, n_sum.
  rewrite <- !good_sum. destruct (Nat.ltb_spec 0 (length (good_pixels im w))) as [L|L]; cbn [fst snd].
  - rewrite !fold_left_rsum. split; [f_equal; f_equal|].
    + rewrite Rplus_0_l. auto.
    + rewrite Rplus_0_l. apply rsum_map_ext. intros. unfold Rdiv. lra.
    + rewrite rsum_ones. auto.
  - destruct (good_pixels im w); [|cbn in L; lia]. cbn. auto.
Qed.
Lemma add_sums_from {A} (sums : A -> R * R * nat) l : forall i v n,
  fold_left (fun acc x => let '(i, v, n) := acc in let '(ti, tv, tn) := sums x in (i + ti, v + tv, (n + tn)%nat)) l (i, v, n) =
  (i + rsum (map (fun x => fst (fst (sums x))) l), v + rsum (map (fun x => snd (fst (sums x))) l), (n + list_sum (map (fun x => snd (sums x)) l))%nat).
Proof.
  induction l as [|x l IH]; intros i v n; cbn [fold_left map].
  - rewrite !rsum_nil, !Rplus_0_r. cbn. rewrite Nat.add_0_r. auto.
  - destruct (sums x) as [[a b] c] eqn:E. rewrite IH, !rsum_cons. cbn [fst snd list_sum fold_right]. rewrite !Rplus_assoc.
    f_equal. change (fold_right Init.Nat.add 0%nat) with list_sum. lia.
Qed.
Lemma list_sum_INR l : INR (list_sum l) = rsum (map INR l).
Proof. induction l as [|x l IH]; [reflexivity|]. cbn [list_sum fold_right map]. rewrite plus_INR, rsum_cons. rewrite <- IH. auto. Qed.
Lemma list_sums_spec l : exists n, obslist_sums l = (rsum (map i_sum l), rsum (map v_sum l), n) /\ INR n = rsum (map n_sum l).
Proof.
  unfold obslist_sums, add_sums. rewrite add_sums_from. eexists. split; [f_equal; f_equal; rewrite Rplus_0_l; apply rsum_map_ext|].
  - intros v _. destruct (obs_sums_spec v) as [-> _]. auto.
  - intros v _. destruct (obs_sums_spec v) as [-> _]. auto.
  - rewrite Nat.add_0_l, list_sum_INR, map_map. apply rsum_map_ext. intros v _. apply obs_sums_spec.
Qed.
Lemma rsum_concat (l : list (list R)) : rsum (concat l) = rsum (map rsum l).
Proof. induction l as [|x l IH]; [reflexivity|]. cbn [concat map]. rewrite rsum_app, rsum_cons, IH. auto. Qed.
Lemma mb_sums_spec b : exists n, mbobs_sums b = (rsum (map i_sum (concat b)), rsum (map v_sum (concat b)), n) /\ INR n = rsum (map n_sum (concat b)).
Proof.
  unfold mbobs_sums, add_sums. rewrite add_sums_from. rewrite !concat_map, !rsum_concat, !map_map.
  eexists. split; [f_equal; f_equal; rewrite Rplus_0_l; apply rsum_map_ext|].
  - intros l _. destruct (list_sums_spec l) as (n & -> & _). auto.
  - intros l _. destruct (list_sums_spec l) as (n & -> & _). auto.
  - rewrite Nat.add_0_l, list_sum_INR, map_map. apply rsum_map_ext. intros l _. destruct (list_sums_spec l) as (n & -> & H). auto.
Qed.
Lemma rsum_nn l : Forall (fun x => 0 <= x) l -> 0 <= rsum l.
Proof. induction 1; rewrite ?rsum_nil, ?rsum_cons; lra. Qed.
Lemma v_sum_nonneg v : 0 <= v_sum v.
Proof.
  destruct v as [im w ? ? ? ? ? ? ?]. unfold v_sum, pixel_sum. apply rsum_nn. apply Forall_forall. intros x H.
  apply in_map_iff in H as (r & <- & _). apply rsum_nn. apply Forall_forall. intros x H.
  apply in_map_iff in H as (c & <- & _). destruct (Rlt_dec 0 (at2 w r c)); [|lra]. apply Rlt_le. apply Rinv_0_lt_compat. auto.
Qed.
Lemma rsum_pos_one l : Forall (fun x => 0 <= x) l -> (0 < rsum l <-> exists x, In x l /\ 0 < x).
Proof.
  induction l as [|x l IH]; intros F.
  - rewrite rsum_nil. split; [lra|intros (y & [] & _)].
  - apply Forall_cons_iff in F as [F1 F2]. specialize (IH F2). rewrite rsum_cons. pose proof (rsum_nn l F2). split.
    + intros P. destruct (Rlt_dec 0 x) as [L|L]; [exists x; split; [left|]; auto|]. destruct IH as [IH _]. destruct IH as (y & Y1 & Y2); [lra|]. exists y. split; [right|]; auto.
    + intros (y & [<-|Y1] & Y2); [lra|]. destruct IH as [_ IH]. assert (0 < rsum l) by (apply IH; eauto). lra.
Qed.
Lemma v_sum_pos v : 0 < v_sum v <-> has_weight v.
Proof.
  destruct v as [im w ? ? ? ? ? ? ?]. unfold v_sum, has_weight, pixel_sum. clear.
  assert (Q : forall r, Forall (fun x => 0 <= x) (map (fun c => if Rlt_dec 0 (at2 w r c) then / at2 w r c else 0) (seq 0 (ncol w)))).
  { intros r. apply Forall_forall. intros x H. apply in_map_iff in H as (c & <- & _). destruct (Rlt_dec 0 (at2 w r c)); [|lra]. apply Rlt_le, Rinv_0_lt_compat; auto. }
  rewrite rsum_pos_one.
  - split.
    + intros (x & H & P). apply in_map_iff in H as (r & <- & Hr). apply rsum_pos_one in P; auto. destruct P as (y & Y & P).
      apply in_map_iff in Y as (c & <- & Hc). apply in_seq in Hr, Hc. exists r, c. destruct (Rlt_dec 0 (at2 w r c)); [repeat split; auto; lia|lra].
    + intros (r & c & Hr & Hc & P). eexists. split; [apply in_map_iff; exists r; split; [reflexivity|apply in_seq; lia]|].
      apply rsum_pos_one; auto. eexists. split; [apply in_map_iff; exists c; split; [reflexivity|apply in_seq; lia]|].
      destruct (Rlt_dec 0 (at2 w r c)); [apply Rinv_0_lt_compat; auto|lra].
  - apply Forall_forall. intros x H. apply in_map_iff in H as (r & <- & _). apply rsum_nn. auto.
Qed.
Lemma v_total_pos l : 0 < rsum (map v_sum l) <-> exists v, In v l /\ has_weight v.
Proof.
  rewrite rsum_pos_one; [|apply Forall_forall; intros x H; apply in_map_iff in H as (v & <- & _); apply v_sum_nonneg]. split.
  - intros (x & H & P). apply in_map_iff in H as (v & <- & Hv). exists v. split; auto. apply v_sum_pos; auto.
  - intros (v & Hv & P). exists (v_sum v). split; [apply in_map; auto|apply v_sum_pos; auto].
Qed.
Lemma s2n_spec l n : 
  ((exists v, In v l /\ has_weight v) -> s2n (rsum (map i_sum l), rsum (map v_sum l), n) = rsum (map i_sum l) / sqrt (rsum (map v_sum l)) /\ 0 < rsum (map v_sum l)) /\
  (~ (exists v, In v l /\ has_weight v) -> s2n (rsum (map i_sum l), rsum (map v_sum l), n) = -9999).
Proof.
  unfold s2n, Rltb. rewrite <- v_total_pos. destruct (Rlt_dec 0 (rsum (map v_sum l))); split; intros; auto; tauto.
Qed.
Theorem obs_s2n v : exists n, obsval_sums v = (i_sum v, v_sum v, n) /\ INR n = n_sum v /\
  (has_weight v -> s2n (obsval_sums v) = i_sum v / sqrt (v_sum v) /\ 0 < v_sum v) /\ (~ has_weight v -> s2n (obsval_sums v) = -9999).
Proof.
  destruct (obs_sums_spec v) as [E N]. exists (snd (obsval_sums v)). split; [auto|]. split; [auto|]. rewrite E. unfold s2n, Rltb. rewrite <- v_sum_pos.
  destruct (Rlt_dec 0 (v_sum v)); split; intros; auto; tauto.
Qed.
Theorem list_s2n l : exists n, obslist_sums l = (rsum (map i_sum l), rsum (map v_sum l), n) /\ INR n = rsum (map n_sum l) /\
  ((exists v, In v l /\ has_weight v) -> s2n (obslist_sums l) = rsum (map i_sum l) / sqrt (rsum (map v_sum l)) /\ 0 < rsum (map v_sum l)) /\
  (~ (exists v, In v l /\ has_weight v) -> s2n (obslist_sums l) = -9999).
Proof. destruct (list_sums_spec l) as (n & -> & N). exists n. split; [auto|]. split; [auto|]. apply s2n_spec. Qed.
Theorem mb_s2n b : exists n, mbobs_sums b = (rsum (map i_sum (concat b)), rsum (map v_sum (concat b)), n) /\ INR n = rsum (map n_sum (concat b)) /\
  ((exists l v, In l b /\ In v l /\ has_weight v) -> s2n (mbobs_sums b) = rsum (map i_sum (concat b)) / sqrt (rsum (map v_sum (concat b))) /\ 0 < rsum (map v_sum (concat b))) /\
  (~ (exists l v, In l b /\ In v l /\ has_weight v) -> s2n (mbobs_sums b) = -9999).
Proof.
  destruct (mb_sums_spec b) as (n & -> & N). exists n. split; [auto|]. split; [auto|]. destruct (s2n_spec (concat b) n) as [A B]. split.
  - intros (l & v & H1 & H2 & H3). apply A. exists v. split; auto. apply in_concat. eauto.
  - intros H. apply B. intros (v & H1 & H2). apply H. apply in_concat in H1 as (l & L1 & L2). eauto.
Qed.
Lemma rsum_permutation (l l' : list R) : Permutation l l' -> rsum l = rsum l'.
Proof. intros H. induction H; rewrite ?rsum_cons; lra. Qed.
Theorem s2n_order l l' : Permutation l l' -> obslist_sums l = obslist_sums l'.
Proof.
  intros H. destruct (list_sums_spec l) as (n & -> & N), (list_sums_spec l') as (n' & -> & N').
  rewrite (rsum_permutation _ _ (Permutation_map i_sum H)), (rsum_permutation _ _ (Permutation_map v_sum H)).
  rewrite (rsum_permutation _ _ (Permutation_map n_sum H)) in N. assert (n = n') by (apply INR_eq; lra). subst. auto.
Qed.
Theorem mb_s2n_order b b' : Permutation (concat b) (concat b') -> mbobs_sums b = mbobs_sums b'.
Proof.
  intros H. destruct (mb_sums_spec b) as (n & -> & N), (mb_sums_spec b') as (n' & -> & N').
  rewrite (rsum_permutation _ _ (Permutation_map i_sum H)), (rsum_permutation _ _ (Permutation_map v_sum H)).
  rewrite (rsum_permutation _ _ (Permutation_map n_sum H)) in N. assert (n = n') by (apply INR_eq; lra). subst. auto.
Qed.
