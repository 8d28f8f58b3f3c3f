(** Proofs for C73, C74, C75. *)
From Verif Require Import Base XReal Pixels_Model FastExp_Model PrePSF_Model PrePSF_Spec.
From Coq Require Import Psatz.
Local Open Scope R_scope.

(** ** Sums *)
Lemma sumn_0 f : sumn 0 f = 0. Proof. reflexivity. Qed.
Lemma sumn_ext n f g : (forall i, (i < n)%nat -> f i = g i) -> sumn n f = sumn n g.
Proof. intros H. unfold sumn. apply rsum_map_ext. intros i Hi. apply in_seq in Hi. apply H. lia. Qed.
Lemma seq_shift_map n a : seq a n = map (fun i => (a + i)%nat) (seq 0 n).
Proof.
  revert a. induction n as [|n IH]; intros a; [reflexivity|]. cbn [seq map]. rewrite Nat.add_0_r. f_equal.
  rewrite (IH (S a)), (IH 1%nat), map_map. apply map_ext. intros i. lia.
Qed.
Lemma sumn_add a b f : sumn (a + b) f = sumn a f + sumn b (fun i => f (a + i)%nat).
Proof. unfold sumn. rewrite seq_app, map_app, rsum_app. cbn [plus]. f_equal. rewrite (seq_shift_map b a), map_map. reflexivity. Qed.
Lemma sumn_S n f : sumn (S n) f = sumn n f + f n.
Proof. rewrite <- Nat.add_1_r, sumn_add. f_equal. unfold sumn. cbn. rewrite Nat.add_0_r. ring. Qed.
Lemma sumn_zero n f : (forall i, (i < n)%nat -> f i = 0) -> sumn n f = 0.
Proof. intros H. rewrite (sumn_ext n f (fun _ => 0) H). unfold sumn. apply rsum_zero. Qed.
Lemma sumn_plus n f g : sumn n (fun i => f i + g i) = sumn n f + sumn n g.
Proof. unfold sumn. apply rsum_map_plus. Qed.
Lemma sumn_scale n k f : sumn n (fun i => k * f i) = k * sumn n f.
Proof. unfold sumn. apply rsum_map_mult. Qed.
Lemma sumn_nonneg n f : (forall i, (i < n)%nat -> 0 <= f i) -> 0 <= sumn n f.
Proof. intros H. unfold sumn. apply rsum_nonneg. intros x Hx. apply in_map_iff in Hx. destruct Hx as (i & <- & Hi). apply in_seq in Hi. apply H. lia. Qed.
Lemma dsum_ext n m f g : (forall r c, (r < n)%nat -> (c < m)%nat -> f r c = g r c) -> dsum n m f = dsum n m g.
Proof. intros H. unfold dsum. apply sumn_ext. intros r Hr. apply sumn_ext. intros c Hc. auto. Qed.
(** a function that vanishes outside [b, b+n) *)
Lemma sumn_window n b t f : (b + n <= t)%nat -> (forall i, (i < b \/ b + n <= i)%nat -> f i = 0) -> sumn t f = sumn n (fun i => f (b + i)%nat).
Proof.
  intros H Hz. replace t with (b + (n + (t - b - n)))%nat by lia. rewrite sumn_add, sumn_add.
  rewrite (sumn_zero b), (sumn_zero (t - b - n)). { ring. }
  - intros i Hi. apply Hz. lia.
  - intros i Hi. apply Hz. lia.
Qed.
Lemma dsum_window n m b t u f : (b + n <= t)%nat -> (b + m <= u)%nat ->
  (forall r c, (r < b \/ b + n <= r \/ c < b \/ b + m <= c)%nat -> f r c = 0) ->
  dsum t u f = dsum n m (fun r c => f (b + r)%nat (b + c)%nat).
Proof.
  intros H1 H2 Hz. unfold dsum. rewrite (sumn_window n b t).
  - apply sumn_ext. intros r Hr. apply sumn_window; [exact H2|]. intros i Hi. apply Hz. lia.
  - exact H1.
  - intros i Hi. apply sumn_zero. intros c Hc. apply Hz. lia.
Qed.

(** ** Padding *)
Lemma zero_pad_spec a t : (nrow a <= t)%nat ->
  let b := ((t - nrow a) / 2)%nat in
  exists p, zero_pad a (Z.of_nat t) = Ok (p, Z.of_nat b, Z.of_nat (t - nrow a - b)) /\ pasted a b t p.
Proof.
  intros H b.
  assert (B : ((Z.of_nat t - Z.of_nat (nrow a)) / 2)%Z = Z.of_nat b).
  { unfold b. rewrite <- Nat2Z.inj_sub by exact H. change 2%Z with (Z.of_nat 2). rewrite <- Nat2Z.inj_div. reflexivity. }
  assert (D : (2 * b <= t - nrow a < 2 * b + 2)%nat).
  { unfold b. pose proof (Nat.div_mod (t - nrow a) 2 ltac:(lia)) as D. pose proof (Nat.mod_upper_bound (t - nrow a) 2 ltac:(lia)). lia. }
  assert (A : (if ((Z.of_nat t - Z.of_nat (nrow a)) mod 2 =? 0)%Z then Z.of_nat b else (Z.of_nat b + 1)%Z) = Z.of_nat (t - nrow a - b)).
  { rewrite Z.mod_eq by lia. rewrite B. destruct (Z.eqb_spec (Z.of_nat t - Z.of_nat (nrow a) - 2 * Z.of_nat b) 0); lia. }
  unfold zero_pad. cbv zeta. rewrite B, A. unfold np_pad.
  replace (Z.of_nat b <? 0)%Z with false by (symmetry; apply Z.ltb_ge; lia).
  replace (Z.of_nat (t - nrow a - b) <? 0)%Z with false by (symmetry; apply Z.ltb_ge; lia).
  cbn [orb bind]. rewrite !Nat2Z.id. eexists. split; [reflexivity|].
  repeat split; cbn [nrow ncol at2]; try lia.
  - intros r c Hr Hc.
    replace (Nat.leb b (b + r)) with true by (symmetry; apply Nat.leb_le; lia).
    replace (Nat.ltb (b + r) (b + nrow a)) with true by (symmetry; apply Nat.ltb_lt; lia).
    replace (Nat.leb b (b + c)) with true by (symmetry; apply Nat.leb_le; lia).
    replace (Nat.ltb (b + c) (b + ncol a)) with true by (symmetry; apply Nat.ltb_lt; lia).
    cbn [andb]. f_equal; lia.
  - intros r c Hrc.
    destruct (Nat.leb_spec b r), (Nat.ltb_spec r (b + nrow a)), (Nat.leb_spec b c), (Nat.ltb_spec c (b + ncol a)); cbn [andb]; try reflexivity. lia.
Qed.
Lemma zero_pad_refused a t : (t < Z.of_nat (nrow a))%Z -> zero_pad a t = Raise ValueError.
Proof.
  intros H. unfold zero_pad. cbv zeta. unfold np_pad.
  assert (B : ((t - Z.of_nat (nrow a)) / 2 < 0)%Z).
  { apply Z.div_lt_upper_bound; lia. }
  apply Z.ltb_lt in B. rewrite B. reflexivity.
Qed.
Lemma pasted_total a b t p : pasted a b t p -> total_of p = total_of a.
Proof.
  intros (H1 & H2 & H3 & Hin & Hout). unfold total_of. rewrite H1, H2.
  rewrite (dsum_window (nrow a) (ncol a) b); [|lia|lia|exact Hout].
  apply dsum_ext. intros r c Hr Hc. apply Hin; assumption.
Qed.

(** ** Apodisation *)
Lemma ap_kern_step x m h : 0 < h -> ap_kern x m h = smooth_step ((x - m) / (6 * h) + 1).
Proof.
  intros Hh. unfold ap_kern. cbv zeta. set (y := (x - m) / h + 3).
  assert (T : (x - m) / (6 * h) + 1 = (y + 3) / 6) by (unfold y; field; lra). rewrite T. unfold smooth_step.
  destruct (Rltb_spec y (-3)), (Rltb_spec ((y + 3) / 6) 0); try lra.
  destruct (Rltb_spec 3 y), (Rltb_spec 1 ((y + 3) / 6)); try lra.
Qed.
Lemma smooth_step_01 t : 0 <= smooth_step t <= 1.
Proof.
  unfold smooth_step. destruct (Rltb_spec t 0); [lra|]. destruct (Rltb_spec 1 t); [lra|].
  assert (E : 1 - t ^ 4 * (35 - 84 * t + 70 * t ^ 2 - 20 * t ^ 3) = (1 - t) ^ 4 * (1 + 4 * t + 10 * t ^ 2 + 20 * t ^ 3)) by ring.
  assert (E2 : 35 - 84 * t + 70 * t ^ 2 - 20 * t ^ 3 = 1 + 4 * (1 - t) + 10 * (1 - t) ^ 2 + 20 * (1 - t) ^ 3) by ring.
  set (s := 1 - t) in *.
  assert (0 <= t <= 1) by lra. assert (0 <= s) by (unfold s; lra).
  assert (P : forall x, 0 <= x -> 0 <= 1 + 4 * x + 10 * x ^ 2 + 20 * x ^ 3).
  { intros x Hx. pose proof (pow_le x 2 Hx). pose proof (pow_le x 3 Hx). lra. }
  pose proof (pow_le t 4 ltac:(lra)). pose proof (pow_le s 4 ltac:(lra)).
  pose proof (P t ltac:(lra)). pose proof (P s ltac:(lra)).
  split; [rewrite E2; apply Rmult_le_pos; assumption|].
  assert (0 <= s ^ 4 * (1 + 4 * t + 10 * t ^ 2 + 20 * t ^ 3)) by (apply Rmult_le_pos; assumption). lra.
Qed.
Lemma smooth_step_1 t : 1 <= t -> smooth_step t = 1.
Proof.
  intros H. unfold smooth_step. destruct (Rltb_spec t 0); [lra|]. destruct (Rltb_spec 1 t); [lra|].
  assert (t = 1) by lra. subst. lra.
Qed.
(** increasing *)
Lemma smooth_step_mono a b : a <= b -> smooth_step a <= smooth_step b.
Proof.
  intros H. destruct (Rle_lt_dec a 0) as [A|A].
  { destruct (Rle_lt_dec 0 a) as [A'|A'].
    - assert (a = 0) by lra. subst. unfold smooth_step at 1. rewrite (Rltb_f 0 0) by lra. rewrite (Rltb_f 1 0) by lra. pose proof (smooth_step_01 b). lra.
    - unfold smooth_step at 1. rewrite (Rltb_t a 0) by lra. pose proof (smooth_step_01 b). lra. }
  destruct (Rle_lt_dec 1 b) as [B|B].
  { rewrite (smooth_step_1 b B). pose proof (smooth_step_01 a). lra. }
  unfold smooth_step. rewrite (Rltb_f a 0), (Rltb_f b 0), (Rltb_f 1 a), (Rltb_f 1 b) by lra.
  set (P := fun t : R => t ^ 4 * (35 - 84 * t + 70 * t ^ 2 - 20 * t ^ 3)).
  assert (DP : forall t, derivable_pt_lim P t (140 * t ^ 3 * (1 - t) ^ 3)).
  { intros t. unfold P.
    assert (DP : forall n c, derivable_pt_lim (fun t => c * t ^ n) t (c * (INR n * t ^ pred n))).
    { intros n c. apply (derivable_pt_lim_scal (fun t => t ^ n) c t). apply derivable_pt_lim_pow. }
    apply (derivable_pt_lim_ext (fun t => 35 * t ^ 4 + (-84) * t ^ 5 + (70 * t ^ 6 + (-20) * t ^ 7)) _ t); [intros z; ring|].
    replace (140 * t ^ 3 * (1 - t) ^ 3) with (35 * (INR 4 * t ^ 3) + (-84) * (INR 5 * t ^ 4) + (70 * (INR 6 * t ^ 5) + (-20) * (INR 7 * t ^ 6))) by (cbn [INR]; ring).
    apply derivable_pt_lim_plus; apply derivable_pt_lim_plus; apply DP. }
  assert (D : derivable P) by (intros t; exists (140 * t ^ 3 * (1 - t) ^ 3); apply DP).
  destruct (Req_dec a b) as [->|Hab]; [lra|].
  destruct (MVT_cor2 P (fun t => 140 * t ^ 3 * (1 - t) ^ 3) a b) as (c & Hc & Hc1); [lra|intros; apply DP|].
  assert (0 <= 140 * c ^ 3 * (1 - c) ^ 3). { apply Rmult_le_pos; [|apply pow_le; lra]. pose proof (pow_le c 3 ltac:(lra)). lra. }
  fold (P a). fold (P b). assert (0 <= 140 * c ^ 3 * (1 - c) ^ 3 * (b - a)) by (apply Rmult_le_pos; lra). lra.
Qed.
Lemma edge_weight_inner h w d : 0 < h -> (w <= d)%nat -> edge_weight h w d = 1.
Proof.
  intros Hh Hd. unfold edge_weight. apply smooth_step_1. apply le_INR in Hd.
  assert (0 <= (INR d - INR w) / (6 * h)); [|lra]. unfold Rdiv. apply Rmult_le_pos; [lra|]. apply Rlt_le, Rinv_0_lt_compat. lra.
Qed.

(** ** The loops of _build_square_apodization_mask *)
Definition same_shape (a b : arr2 R) : Prop := nrow a = nrow b /\ ncol a = ncol b.
Definition pick (b : bool) (v : R) : R := if b then v else 1.
Lemma fold_S {A B} (f : A -> B -> A) (g : nat -> B) k a : fold_left (fun a i => f a (g i)) (seq 0 (S k)) a = f (fold_left (fun a i => f a (g i)) (seq 0 k) a) (g k).
Proof. rewrite seq_S, fold_left_app. reflexivity. Qed.
Lemma mul_at_at m r c v r' c' : at2 (mul_at m r c v) r' c' = at2 m r' c' * pick (Nat.eqb r' r && Nat.eqb c' c) v.
Proof. unfold mul_at, pick. cbn [at2]. destruct (Nat.eqb r' r && Nat.eqb c' c); ring. Qed.
Ltac bools := repeat match goal with
  | |- context [Nat.eqb ?a ?b] => destruct (Nat.eqb_spec a b)
  | |- context [Nat.ltb ?a ?b] => destruct (Nat.ltb_spec a b)
  end; subst; try lia.

Section Rows.
  Variables (ny nx : nat) (K : nat -> R).
  Let row_step (y : nat) (m : arr2 R) (x : nat) := mul_at (mul_at m y x (K y)) (ny - 1 - y) x (K y).
  Lemma row_inner n y m : same_shape (fold_left (row_step y) (seq 0 n) m) m /\
    forall r c, at2 (fold_left (row_step y) (seq 0 n) m) r c = at2 m r c * (pick (Nat.eqb r y && Nat.ltb c n) (K y) * pick (Nat.eqb r (ny - 1 - y) && Nat.ltb c n) (K y)).
  Proof.
    induction n as [|n [IH1 IH2]].
    - split; [split; reflexivity|]. intros r c. cbn [seq fold_left]. change (Nat.ltb c 0) with false. rewrite !andb_false_r. unfold pick. ring.
    - rewrite seq_S, fold_left_app. cbn [fold_left plus]. split.
      + destruct IH1. split; unfold row_step; cbn [mul_at nrow ncol]; assumption.
      + intros r c. unfold row_step at 1. rewrite !mul_at_at, IH2. unfold pick. bools; cbn [andb]; try ring.
  Qed.
  Lemma row_outer m k : (k <= ny)%nat -> nrow m = ny -> ncol m = nx ->
    let out := fold_left (fun m y => fold_left (row_step y) (seq 0 nx) m) (seq 0 k) m in
    same_shape out m /\ forall r c, (r < ny)%nat -> (c < nx)%nat ->
      at2 out r c = at2 m r c * (pick (Nat.ltb r k) (K r) * pick (Nat.ltb (ny - 1 - r) k) (K (ny - 1 - r)%nat)).
  Proof.
    intros Hk Hy Hx. cbv zeta. induction k as [|k IH].
    - split; [split; reflexivity|]. intros r c Hr Hc. cbn. unfold pick. ring.
    - destruct IH as [IH1 IH2]; [lia|]. rewrite seq_S, fold_left_app. cbn [fold_left plus].
      set (m' := fold_left _ (seq 0 k) m) in *. destruct (row_inner nx k m') as [I1 I2]. split.
      + destruct I1, IH1. split; congruence.
      + intros r c Hr Hc. rewrite I2, IH2 by assumption. unfold pick. bools; cbn [andb]; try ring;
        repeat match goal with |- context [K ?a] => progress replace a with k by lia end; ring.
  Qed.
End Rows.
Section Cols.
  Variables (ny nx : nat) (K : nat -> R).
  Let col_step (y : nat) (m : arr2 R) (x : nat) := mul_at (mul_at m y x (K x)) y (nx - 1 - x) (K x).
  Lemma col_inner k y m : (k <= nx)%nat -> same_shape (fold_left (col_step y) (seq 0 k) m) m /\
    forall r c, (c < nx)%nat -> at2 (fold_left (col_step y) (seq 0 k) m) r c =
      at2 m r c * pick (Nat.eqb r y) (pick (Nat.ltb c k) (K c) * pick (Nat.ltb (nx - 1 - c) k) (K (nx - 1 - c)%nat)).
  Proof.
    intros Hk. induction k as [|k IH].
    - split; [split; reflexivity|]. intros r c Hc. cbn [seq fold_left]. unfold pick. bools; cbn; ring.
    - destruct IH as [IH1 IH2]; [lia|]. rewrite seq_S, fold_left_app. cbn [fold_left plus]. split.
      + destruct IH1. split; unfold col_step; cbn [mul_at nrow ncol]; assumption.
      + intros r c Hc. unfold col_step at 1. rewrite !mul_at_at, IH2 by assumption. unfold pick. bools; cbn [andb]; try ring;
        repeat match goal with |- context [K ?a] => progress replace a with k by lia end; ring.
  Qed.
  Lemma col_outer m k n : (k <= nx)%nat ->
    let out := fold_left (fun m y => fold_left (col_step y) (seq 0 k) m) (seq 0 n) m in
    same_shape out m /\ forall r c, (r < n)%nat -> (c < nx)%nat ->
      at2 out r c = at2 m r c * (pick (Nat.ltb c k) (K c) * pick (Nat.ltb (nx - 1 - c) k) (K (nx - 1 - c)%nat)).
  Proof.
    intros Hk. cbv zeta.
    assert (G : same_shape (fold_left (fun m y => fold_left (col_step y) (seq 0 k) m) (seq 0 n) m) m /\ forall r c, (c < nx)%nat ->
      at2 (fold_left (fun m y => fold_left (col_step y) (seq 0 k) m) (seq 0 n) m) r c = at2 m r c * pick (Nat.ltb r n) (pick (Nat.ltb c k) (K c) * pick (Nat.ltb (nx - 1 - c) k) (K (nx - 1 - c)%nat))).
    { induction n as [|n [IH1 IH2]].
      - split; [split; reflexivity|]. intros r c Hc. cbn [seq fold_left]. unfold pick at 1. bools; ring.
      - rewrite seq_S, fold_left_app. cbn [fold_left plus]. set (m' := fold_left _ (seq 0 n) m) in *.
        destruct (col_inner k n m' Hk) as [I1 I2]. split.
        + destruct I1, IH1. split; congruence.
        + intros r c Hc. rewrite I2, IH2 by assumption. generalize (pick (c <? k)%nat (K c) * pick (nx - 1 - c <? k)%nat (K (nx - 1 - c)%nat)). intros z. unfold pick. bools; ring. }
    destruct G as [G1 G2]. split; [exact G1|]. intros r c Hr Hc. rewrite G2 by assumption. apply Nat.ltb_lt in Hr. rewrite Hr. reflexivity.
  Qed.
End Cols.

(** the mask is the product of the weights of the four edges *)
Lemma mask_closed h m : 0 < h ->
  let w := ap_range_of h in
  nrow (build_mask h m) = nrow m /\ ncol (build_mask h m) = ncol m /\
  forall r c, (r < nrow m)%nat -> (c < ncol m)%nat ->
    at2 (build_mask h m) r c = at2 m r c * (edge_weight h w r * edge_weight h w (nrow m - 1 - r)) * (edge_weight h w c * edge_weight h w (ncol m - 1 - c)).
Proof.
  intros Hh w. unfold build_mask. cbv zeta. fold w.
  pose (K := fun y : nat => ap_kern (INR y) (INR w) h).
  destruct (row_outer (nrow m) (ncol m) K m (Nat.min (w + 1) (nrow m)) ltac:(lia) eq_refl eq_refl) as [R1 R2].
  set (m1 := fold_left _ (seq 0 (Nat.min (w + 1) (nrow m))) m) in *.
  destruct (col_outer (ncol m) K m1 (Nat.min (w + 1) (ncol m)) (nrow m) ltac:(lia)) as [C1 C2].
  assert (PK : forall d n, (d < n)%nat -> pick (Nat.ltb d (Nat.min (w + 1) n)) (K d) = edge_weight h w d).
  { intros d n Hd. unfold pick. destruct (Nat.ltb_spec d (Nat.min (w + 1) n)).
    - unfold K. apply ap_kern_step. exact Hh.
    - symmetry. apply edge_weight_inner; [exact Hh|lia]. }
  split; [|split].
  - destruct C1 as [C1 _], R1 as [R1 _]. etransitivity; [exact C1|exact R1].
  - destruct C1 as [_ C1], R1 as [_ R1]. etransitivity; [exact C1|exact R1].
  - intros r c Hr Hc. etransitivity; [apply C2; assumption|]. rewrite R2 by assumption. rewrite !PK by lia. reflexivity.
Qed.
Lemma mul01 a b : 0 <= a <= 1 -> 0 <= b <= 1 -> 0 <= a * b <= 1.
Proof. intros. split; nra. Qed.
