(** Orthogonality of the modes, Parseval's identity; covariance; copies of the psf. *)
From Verif Require Import Base XReal Moments_Model Jacobian_Model Pixels_Model FastExp_Model MomResult_Model MomResult_Spec MomResult_Proofs PrePSF_Model PrePSF_Spec PrePSF_Proofs PrePSF2_Proofs PrePSF3_Proofs PrePSF4_Proofs.
From Coq Require Import Psatz.
Local Open Scope R_scope.

(** ** Orthogonality *)
Definition cadd (a b : cplx) : cplx := mkC (re a + re b) (im a + im b).
Definition csumn (n : nat) (f : nat -> cplx) : cplx := mkC (sumn n (fun i => re (f i))) (sumn n (fun i => im (f i))).
Lemma csumn_S n f : csumn (S n) f = cadd (csumn n f) (f n).
Proof. unfold csumn, cadd. cbn [re im]. rewrite !sumn_S. reflexivity. Qed.
Lemma geometric th n : cmul (cadd (cis th) (mkC (-1) 0)) (csumn n (fun i => cis (INR i * th))) = cadd (cis (INR n * th)) (mkC (-1) 0).
Proof.
  induction n as [|n IH].
  - unfold csumn. rewrite !sumn_0. cbn [INR]. rewrite Rmult_0_l, cis_0. apply ceq; cbn; ring.
  - rewrite csumn_S.
    assert (D : forall a b c, cmul a (cadd b c) = cadd (cmul a b) (cmul a c)) by (intros; apply ceq; cbn; ring).
    rewrite D, IH. replace (INR (S n) * th) with (th + INR n * th) by (rewrite S_INR; ring). rewrite <- cis_add. apply ceq; cbn; ring.
Qed.
Lemma cmul_eq0 a b : cmul a b = mkC 0 0 -> a <> mkC 0 0 -> b = mkC 0 0.
Proof.
  intros H Ha. apply csq_0. assert (E : csq a * csq b = 0) by (rewrite <- csq_mul, H; unfold csq; cbn; ring).
  apply Rmult_integral in E. destruct E as [E|E]; [|exact E]. apply csq_0 in E. contradiction.
Qed.
Lemma cis_1 th : - (2 * PI) < th < 2 * PI -> th <> 0 -> cadd (cis th) (mkC (-1) 0) <> mkC 0 0.
Proof.
  intros H N E. pose proof (f_equal re E) as C. cbn in C. assert (C1 : cos th = 1) by lra.
  replace th with (2 * (th / 2)) in C1 by field. rewrite cos_2a_sin in C1.
  assert (Z : sin (th / 2) = 0) by nra.
  destruct (Rtotal_order (th / 2) 0) as [L|[L|L]]; [|lra|].
  - assert (0 < sin (- (th / 2))) by (apply sin_gt_0; lra). rewrite sin_neg in H0. lra.
  - assert (0 < sin (th / 2)) by (apply sin_gt_0; lra). lra.
Qed.
Lemma fftfreq_range t k : (k < t)%nat -> - (1 / 2) <= fftfreq t k < 1 / 2.
Proof.
  intros H. assert (T : 0 < INR t) by (apply lt_0_INR; lia). unfold fftfreq.
  destruct (Nat.leb_spec (2 * k + 1) t) as [L|L].
  - apply le_INR in L. rewrite plus_INR, mult_INR in L. cbn [INR] in L. pose proof (pos_INR k). split.
    + assert (0 <= INR k / INR t) by (apply Rmult_le_pos; [lra|apply Rlt_le, Rinv_0_lt_compat; lra]). lra.
    + apply Rmult_lt_reg_r with (INR t); [lra|]. unfold Rdiv. rewrite Rmult_assoc, Rinv_l by lra. lra.
  - assert (L2 : (t <= 2 * k)%nat) by lia. apply le_INR in L2. rewrite mult_INR in L2. cbn [INR] in L2. apply lt_INR in H. split.
    + apply Rmult_le_reg_r with (INR t); [lra|]. unfold Rdiv. rewrite Rmult_assoc, Rinv_l by lra. lra.
    + apply Rmult_lt_reg_r with (INR t); [lra|]. unfold Rdiv at 1. rewrite Rmult_assoc, Rinv_l by lra. lra.
Qed.
Lemma fftfreq_int t k : (0 < t)%nat -> exists z : Z, INR t * fftfreq t k = IZR z.
Proof.
  intros H. assert (T : INR t <> 0) by (apply not_0_INR; lia). unfold fftfreq. destruct (Nat.leb _ _).
  - exists (Z.of_nat k). rewrite <- INR_IZR_INZ. field. exact T.
  - exists (Z.of_nat k - Z.of_nat t)%Z. rewrite minus_IZR, <- !INR_IZR_INZ. field. exact T.
Qed.
Lemma fftfreq_inj t k k' : (k < t)%nat -> (k' < t)%nat -> fftfreq t k = fftfreq t k' -> k = k'.
Proof.
  intros H H' E. assert (T : 0 < INR t) by (apply lt_0_INR; lia). unfold fftfreq in E.
  assert (M : forall a b : R, a / INR t = b / INR t -> a = b).
  { intros a b Hab. apply Rmult_eq_reg_r with (/ INR t); [exact Hab|]. apply Rinv_neq_0_compat. lra. }
  destruct (Nat.leb_spec (2 * k + 1) t) as [L|L], (Nat.leb_spec (2 * k' + 1) t) as [L'|L']; apply M in E.
  - apply INR_eq. exact E.
  - apply lt_INR in H'. pose proof (pos_INR k). lra.
  - apply lt_INR in H. pose proof (pos_INR k'). lra.
  - apply INR_eq. lra.
Qed.
Lemma cis_2pi_int z : cis (2 * PI * IZR z) = mkC 1 0.
Proof.
  destruct z as [|p|p].
  - rewrite Rmult_0_r. apply cis_0.
  - rewrite <- (cis_minus_period _ (Pos.to_nat p)). rewrite INR_IZR_INZ, positive_nat_Z. replace (_ - _) with 0 by ring. apply cis_0.
  - change (IZR (Z.neg p)) with (- IZR (Z.pos p)). replace (2 * PI * - IZR (Z.pos p)) with (0 - 2 * INR (Pos.to_nat p) * PI).
    + rewrite cis_minus_period. apply cis_0.
    + rewrite INR_IZR_INZ, positive_nat_Z. ring.
Qed.
Lemma orthogonal t k k' : (k < t)%nat -> (k' < t)%nat ->
  csumn t (fun r => cis (INR r * (2 * PI * (fftfreq t k - fftfreq t k')))) = if Nat.eqb k k' then mkC (INR t) 0 else mkC 0 0.
Proof.
  intros H H'. destruct (Nat.eqb_spec k k') as [->|N].
  - rewrite Rminus_eq_0. unfold csumn. f_equal.
    + rewrite (sumn_ext t _ (fun _ => 1)); [|intros i _; rewrite !Rmult_0_r; cbn; apply cos_0].
      clear H H'. induction t as [|t IH]; [reflexivity|]. rewrite sumn_S, IH, S_INR. reflexivity.
    + apply sumn_zero. intros i _. rewrite !Rmult_0_r. cbn. apply sin_0.
  - set (th := 2 * PI * (fftfreq t k - fftfreq t k')).
    apply (cmul_eq0 (cadd (cis th) (mkC (-1) 0))).
    + rewrite geometric. unfold th. destruct (fftfreq_int t k ltac:(lia)) as (z & Hz). destruct (fftfreq_int t k' ltac:(lia)) as (z' & Hz').
      replace (INR t * (2 * PI * (fftfreq t k - fftfreq t k'))) with (2 * PI * IZR (z - z')) by (rewrite minus_IZR, <- Hz, <- Hz'; ring).
      rewrite cis_2pi_int. apply ceq; cbn; ring.
    + pose proof (fftfreq_range t k H). pose proof (fftfreq_range t k' H'). pose proof PI_RGT_0.
      assert (fftfreq t k <> fftfreq t k') by (intros E; apply N; apply (fftfreq_inj t); assumption).
      apply cis_1; unfold th; [split; nra|]. intros E. apply Rmult_integral in E. destruct E as [E|E]; lra.
Qed.
Lemma dsum_prod n m f g : dsum n m (fun r c => f r * g c) = sumn n f * sumn m g.
Proof.
  unfold dsum. rewrite Rmult_comm, <- sumn_scale. apply sumn_ext. intros r _. rewrite sumn_scale. ring.
Qed.
Lemma orthogonal2 t kl kl' : (fst kl < t)%nat -> (snd kl < t)%nat -> (fst kl' < t)%nat -> (snd kl' < t)%nat ->
  let d r c := dot t kl (INR r) (INR c) - dot t kl' (INR r) (INR c) in
  dsum t t (fun r c => cos (d r c)) = (if Nat.eqb (fst kl) (fst kl') && Nat.eqb (snd kl) (snd kl') then INR t ^ 2 else 0) /\
  dsum t t (fun r c => sin (d r c)) = 0.
Proof.
  intros H1 H2 H3 H4 d.
  set (a := fun r : nat => INR r * (2 * PI * (fftfreq t (fst kl) - fftfreq t (fst kl')))).
  set (b := fun c : nat => INR c * (2 * PI * (fftfreq t (snd kl) - fftfreq t (snd kl')))).
  assert (D : forall r c, d r c = a r + b c) by (intros; unfold d, a, b, dot; ring).
  pose proof (orthogonal t _ _ H1 H3) as O1. pose proof (orthogonal t _ _ H2 H4) as O2. fold a in O1. fold b in O2.
  change (csumn t (fun r => cis (a r)) = if Nat.eqb (fst kl) (fst kl') then mkC (INR t) 0 else mkC 0 0) in O1.
  change (csumn t (fun c => cis (b c)) = if Nat.eqb (snd kl) (snd kl') then mkC (INR t) 0 else mkC 0 0) in O2.
  assert (C : dsum t t (fun r c => cos (d r c)) = sumn t (fun r => cos (a r)) * sumn t (fun c => cos (b c)) - sumn t (fun r => sin (a r)) * sumn t (fun c => sin (b c))).
  { rewrite <- !dsum_prod. rewrite (dsum_ext t t _ (fun r c => cos (a r) * cos (b c) + (-1) * (sin (a r) * sin (b c)))).
    - rewrite dsum_plus, dsum_scale. ring.
    - intros r c _ _. rewrite D, cos_plus. ring. }
  assert (S_ : dsum t t (fun r c => sin (d r c)) = sumn t (fun r => sin (a r)) * sumn t (fun c => cos (b c)) + sumn t (fun r => cos (a r)) * sumn t (fun c => sin (b c))).
  { rewrite <- !dsum_prod. rewrite <- dsum_plus. apply dsum_ext. intros r c _ _. rewrite D, sin_plus. ring. }
  rewrite C, S_. pose proof (f_equal re O1) as R1. pose proof (f_equal im O1) as I1. pose proof (f_equal re O2) as R2. pose proof (f_equal im O2) as I2.
  cbn [csumn re im cis] in R1, I1, R2, I2.
  rewrite R1, I1, R2, I2.
  destruct (Nat.eqb (fst kl) (fst kl')), (Nat.eqb (snd kl) (snd kl')); cbn [andb re im]; split; ring.
Qed.

(** ** Parseval *)
Definition lsum (l : list (nat * nat)) (f : nat * nat -> R) : R := rsum (map f l).
Definition field_at (t : nat) (l : list (nat * nat)) (z : nat * nat -> cplx) (r c : nat) : cplx :=
  mkC (lsum l (fun m => re (cmul (cis (- dot t m (INR r) (INR c))) (z m)))) (lsum l (fun m => im (cmul (cis (- dot t m (INR r) (INR c))) (z m)))).
Lemma cross_sum t m m' z z' : (fst m < t)%nat -> (snd m < t)%nat -> (fst m' < t)%nat -> (snd m' < t)%nat ->
  dsum t t (fun r c => re (cmul (cmul (cis (- dot t m (INR r) (INR c))) z) (cconj (cmul (cis (- dot t m' (INR r) (INR c))) z')))) =
  if Nat.eqb (fst m) (fst m') && Nat.eqb (snd m) (snd m') then INR t ^ 2 * re (cmul z (cconj z')) else 0.
Proof.
  intros H1 H2 H3 H4. destruct (orthogonal2 t m m' H1 H2 H3 H4) as [C S_]. cbv zeta in C, S_.
  rewrite (dsum_ext t t _ (fun r c => re (cmul z (cconj z')) * cos (dot t m (INR r) (INR c) - dot t m' (INR r) (INR c)) + im (cmul z (cconj z')) * sin (dot t m (INR r) (INR c) - dot t m' (INR r) (INR c)))).
  - rewrite dsum_plus, !dsum_scale, C, S_. destruct (_ && _); ring.
  - intros r c _ _. rewrite cos_minus, sin_minus. cbn. rewrite !cos_neg, !sin_neg. ring.
Qed.
Lemma csq_field t l z r c : csq (field_at t l z r c) =
  lsum l (fun m => lsum l (fun m' => re (cmul (cmul (cis (- dot t m (INR r) (INR c))) (z m)) (cconj (cmul (cis (- dot t m' (INR r) (INR c))) (z m')))))).
Proof.
  unfold csq, field_at. cbn [re im]. set (u := fun m => cmul (cis (- dot t m (INR r) (INR c))) (z m)).
  change (lsum l (fun m => re (u m)) ^ 2 + lsum l (fun m => im (u m)) ^ 2 = lsum l (fun m => lsum l (fun m' => re (cmul (u m) (cconj (u m')))))).
  unfold lsum. rewrite (rsum_map_ext (fun m => rsum (map (fun m' => re (cmul (u m) (cconj (u m')))) l)) (fun m => rsum (map (fun x => re (u x)) l) * re (u m) + rsum (map (fun x => im (u x)) l) * im (u m))).
  - rewrite rsum_map_plus, !rsum_map_mult. ring.
  - intros m _. rewrite (rsum_map_ext _ (fun m' => re (u m) * re (u m') + im (u m) * im (u m'))) by (intros; cbn; ring).
    rewrite rsum_map_plus, !rsum_map_mult. ring.
Qed.
Lemma pair_eqb m m' : Nat.eqb (fst m) (fst m') && Nat.eqb (snd m) (snd m') = true <-> m = m'.
Proof.
  rewrite andb_true_iff, !Nat.eqb_eq. destruct m, m'. cbn. split; [intros [-> ->]; reflexivity|intros [= -> ->]; auto].
Qed.
Lemma lsum_delta l m (v : nat * nat -> R) : NoDup l -> In m l ->
  lsum l (fun m' => if Nat.eqb (fst m) (fst m') && Nat.eqb (snd m) (snd m') then v m' else 0) = v m.
Proof.
  unfold lsum. induction l as [|x l IH]; intros Hd Hin; [destruct Hin|]. inversion Hd as [|? ? N Hd']; subst. cbn [map]. rewrite rsum_cons.
  destruct Hin as [->|Hin].
  - replace (_ && _) with true by (symmetry; apply pair_eqb; reflexivity).
    rewrite (rsum_map_ext _ (fun _ => 0)); [rewrite rsum_zero; ring|].
    intros y Hy. destruct (_ && _) eqn:E; [|reflexivity]. apply pair_eqb in E. subst y. contradiction.
  - rewrite IH by assumption. destruct (_ && _) eqn:E; [|ring]. apply pair_eqb in E. subst x. contradiction.
Qed.
Lemma parseval t l z : NoDup l -> (forall m, In m l -> (fst m < t)%nat /\ (snd m < t)%nat) ->
  dsum t t (fun r c => csq (field_at t l z r c)) = INR t ^ 2 * lsum l (fun m => csq (z m)).
Proof.
  intros Hd Hr. rewrite (dsum_ext t t _ _ (fun r c _ _ => csq_field t l z r c)). unfold lsum at 1. rewrite <- rsum_swap2.
  unfold lsum at 2. rewrite <- rsum_map_mult. apply rsum_map_ext. intros m Hm. unfold lsum. rewrite <- rsum_swap2.
  rewrite (rsum_map_ext _ (fun m' => if Nat.eqb (fst m) (fst m') && Nat.eqb (snd m) (snd m') then INR t ^ 2 * re (cmul (z m) (cconj (z m'))) else 0)).
  - pose proof (lsum_delta l m (fun m' => INR t ^ 2 * re (cmul (z m) (cconj (z m')))) Hd Hm) as E. unfold lsum in E. rewrite E. unfold csq. cbn. ring.
  - intros m' Hm'. destruct (Hr m Hm), (Hr m' Hm'). apply cross_sum; assumption.
Qed.
