From Verif Require Import Base FastExp_Model.

Lemma trunc_range x : -13 < x <= -5/10 ->
  exists k, trunc x = (- k)%Z /\ (0 <= k <= 12)%Z /\ IZR k <= - x < IZR k + 1.
Proof.
  intros H. unfold trunc. rewrite Rleb_f by lra. exists (Int_part (- x)). split; [reflexivity|].
  pose proof (base_Int_part (- x)) as [B1 B2].
  split; [|lra]. split.
  - apply Z.lt_succ_r. apply lt_IZR. rewrite succ_IZR. lra.
  - apply Z.lt_succ_r. apply lt_IZR. rewrite succ_IZR. lra.
Qed.

Lemma lookup_ok k : (0 <= k <= 15)%Z -> lookup (- k + 15) = Ok (exp (IZR (- k))).
Proof.
  intros H. unfold lookup. destruct (Z.ltb_spec (- k + 15) 0); [lia|].
  assert (E : nth_error EXP_LOOKUP (Z.to_nat (- k + 15)) = Some (exp (IZR (- k)))).
  { unfold EXP_LOOKUP, exp_lookup, exp_ivals.
    rewrite !nth_error_map. rewrite (nth_error_nth' (seq 0 (Z.to_nat (Z.abs (0 - -15) + 1))) 0%nat).
    - cbn [option_map]. rewrite seq_nth by (cbn; lia). do 3 f_equal. lia.
    - rewrite seq_length. cbn; lia. }
  rewrite E. reflexivity.
Qed.

(** exponential and its Taylor polynomials *)
Definition T3 f := 1 + f + f^2/2 + f^3/6.
Definition T4 f := T3 f + f^4/24.
Definition T5 f := T4 f + f^5/120.

Section Taylor.
  (** g = e^{-f} T(f), with g' = - e^{-f} f^n / n! *)
  Lemma deriv_g (T T' : R -> R) :
    (forall t, derivable_pt_lim T t (T' t)) ->
    forall t, derivable_pt_lim (fun f => exp (- f) * T f) t (- exp (- t) * T t + exp (- t) * T' t).
  Proof.
    intros HT t.
    assert (H1 : derivable_pt_lim (fun f => exp (- f)) t (exp (- t) * - (1))).
    { apply (derivable_pt_lim_comp (fun f => - f) exp).
      - apply (derivable_pt_lim_opp id). apply derivable_pt_lim_id.
      - apply derivable_pt_lim_exp. }
    replace (- exp (- t) * T t + exp (- t) * T' t) with (exp (- t) * - (1) * T t + exp (- t) * T' t) by ring.
    apply (derivable_pt_lim_mult (fun f => exp (- f)) T); auto.
  Qed.
End Taylor.


Lemma scal_pow n c t : derivable_pt_lim (fun f => f ^ S n / c) t (INR (S n) * t ^ n / c).
Proof.
  unfold Rdiv.
  pose proof (derivable_pt_lim_scal (fun f => f ^ S n) (/ c) t _ (derivable_pt_lim_pow t (S n))) as H.
  intros eps He. destruct (H eps He) as [d Hd]. exists d. intros h Hh Hb.
  specialize (Hd h Hh Hb). unfold mult_real_fct in Hd. cbn [pred] in Hd.
  replace (((t + h) ^ S n * / c - t ^ S n * / c) / h - INR (S n) * t ^ n * / c)
    with ((/ c * (t + h) ^ S n - / c * t ^ S n) / h - / c * (INR (S n) * t ^ n)); [exact Hd|].
  f_equal; [f_equal|]; ring.
Qed.

Lemma dT3 t : derivable_pt_lim T3 t (1 + t + t^2/2).
Proof.
  unfold T3. replace (1 + t + t^2/2) with (0 + 1 + (INR 2 * t^1/2) + (INR 3 * t^2/6)) by (cbn; field).
  apply derivable_pt_lim_plus; [apply derivable_pt_lim_plus; [apply derivable_pt_lim_plus|]|].
  - apply derivable_pt_lim_const.
  - apply derivable_pt_lim_id.
  - apply scal_pow.
  - apply scal_pow.
Qed.
Lemma dT4 t : derivable_pt_lim T4 t (T3 t).
Proof.
  unfold T4. replace (T3 t) with ((1 + t + t^2/2) + INR 4 * t^3/24) by (unfold T3; cbn; field).
  apply derivable_pt_lim_plus; [apply dT3|apply scal_pow].
Qed.
Lemma dT5 t : derivable_pt_lim T5 t (T4 t).
Proof.
  unfold T5. replace (T4 t) with (T3 t + INR 5 * t^4/120) by (unfold T4; cbn; field).
  apply derivable_pt_lim_plus; [apply dT4|apply scal_pow].
Qed.

Lemma exp_half_bound t : -1/2 <= t -> exp (- t) <= 1733/1000.
Proof.
  intros H. apply Rle_trans with (exp (1/2)).
  - destruct (Req_dec (-t) (1/2)) as [->|]; [lra|]. left. apply exp_increasing. lra.
  - pose proof exp_le_3 as E. replace 1 with (1/2 + 1/2) in E at 1 by field. rewrite exp_plus in E.
    pose proof (exp_pos (1/2)). destruct (Rle_lt_dec (exp (1/2)) (1733/1000)); [assumption|]. nra.
Qed.

(** a function with non-negative derivative on [a,b] increases *)
Lemma incr_on (h h' : R -> R) a b :
  a <= b -> (forall t, a <= t <= b -> derivable_pt_lim h t (h' t)) ->
  (forall t, a <= t <= b -> 0 <= h' t) -> h a <= h b.
Proof.
  intros Hab Hd Hp. destruct (Req_dec a b) as [->|Hn]; [lra|].
  destruct (MVT_cor2 h h' a b) as (c & E & Hc); [lra|intros; apply Hd; lra|].
  specialize (Hp c ltac:(lra)). nra.
Qed.

(** bounds for 1 - e^{-f} T_n(f) on [-1/2,1/2] *)
Lemma taylor5 f : -1/2 <= f <= 1/2 -> 0 <= 1 - exp (- f) * T5 f <= 1733/1000 * f^6/720.
Proof.
  intros Hf.
  set (g := fun f => exp (- f) * T5 f).
  assert (Dg : forall t, derivable_pt_lim g t (- (exp (- t) * (t^5/120)))).
  { intros t. replace (- (exp (- t) * (t^5/120))) with (- exp (- t) * T5 t + exp (- t) * T4 t) by (unfold T5; field).
    apply (deriv_g T5 T4). apply dT5. }
  assert (g0 : g 0 = 1) by (unfold g, T5, T4, T3; rewrite Ropp_0, exp_0; field).
  assert (Dq : forall t, derivable_pt_lim (fun f => 1733/1000 * f^6/720) t (1733/1000 * (t^5/120))).
  { intros t. replace (1733/1000 * (t^5/120)) with (INR 6 * t^5 / (720 * 1000/1733)) by (cbn; field).
    intros eps He. destruct (scal_pow 5 (720*1000/1733) t eps He) as [d Hd]. exists d. intros h Hh Hb.
    specialize (Hd h Hh Hb). replace (1733/1000 * (t+h)^6/720 - 1733/1000*t^6/720) with ((t+h)^6/(720*1000/1733) - t^6/(720*1000/1733)) by field. exact Hd. }
  change (exp (- f) * T5 f) with (g f).
  destruct (Rle_lt_dec 0 f) as [Hs|Hs].
  - split.
    + assert (H : (fun x => - g x) 0 <= (fun x => - g x) f).
      { apply (incr_on (fun x => - g x) (fun t => - - (exp (- t) * (t^5/120)))); [exact Hs|intros; apply (derivable_pt_lim_opp g); apply Dg|].
        intros t Ht. pose proof (exp_pos (- t)). assert (0 <= t^5) by (apply pow_le; lra). nra. }
      cbn in H. lra.
    + assert (H : (fun x => g x + 1733/1000 * x^6/720) 0 <= (fun x => g x + 1733/1000 * x^6/720) f).
      { apply (incr_on (fun x => g x + 1733/1000 * x^6/720) (fun t => - (exp (- t) * (t^5/120)) + 1733/1000 * (t^5/120))); [exact Hs|intros; apply (derivable_pt_lim_plus g (fun x => 1733/1000 * x^6/720)); [apply Dg|apply Dq]|].
        intros t Ht. pose proof (exp_half_bound t ltac:(lra)). assert (0 <= t^5) by (apply pow_le; lra). nra. }
      cbn beta in H. rewrite g0 in H. replace (1733/1000 * 0^6/720) with 0 in H by field. lra.
  - assert (P5 : forall t, f <= t <= 0 -> t^5 <= 0).
    { intros t Ht. replace (t^5) with (- ((-t)^5)) by ring. assert (0 <= (-t)^5) by (apply pow_le; lra). lra. }
    split.
    + assert (H : g f <= g 0).
      { apply (incr_on g (fun t => - (exp (- t) * (t^5/120)))); [lra|intros; apply Dg|].
        intros t Ht. pose proof (exp_pos (- t)). pose proof (P5 t Ht). nra. }
      lra.
    + assert (H : (fun x => - g x - 1733/1000 * x^6/720) f <= (fun x => - g x - 1733/1000 * x^6/720) 0).
      { apply (incr_on (fun x => - g x - 1733/1000 * x^6/720) (fun t => - - (exp (- t) * (t^5/120)) - 1733/1000 * (t^5/120))); [lra| |].
        - intros t Ht. apply (derivable_pt_lim_minus (fun x => - g x) (fun x => 1733/1000 * x^6/720)); [apply (derivable_pt_lim_opp g); apply Dg|apply Dq].
        - intros t Ht. pose proof (exp_half_bound t ltac:(lra)). pose proof (P5 t Ht). nra. }
      cbn beta in H. rewrite g0 in H. replace (1733/1000 * 0^6/720) with 0 in H by field. lra.
Qed.

Lemma pow6_bound f : -1/2 <= f <= 1/2 -> 0 <= f^6 <= 1/64.
Proof.
  intros H. assert (0 <= f^2 <= 1/4) by (cbn; nra). replace (f^6) with (f^2*f^2*f^2) by ring.
  assert (0 <= f^2*f^2 <= 1/16) by nra. nra.
Qed.

Lemma cell x : -125/10 < x <= 0 ->
  exists k, trunc (x - 5/10) = (- k)%Z /\ (0 <= k <= 12)%Z /\ -1/2 <= x - IZR (- k) <= 1/2.
Proof.
  intros H. destruct (trunc_range (x - 5/10) ltac:(lra)) as (k & E & Hk & B). exists k. split; [exact E|]. split; [exact Hk|].
  rewrite opp_IZR. lra.
Qed.

Lemma fexp_spec x : -125/10 < x <= 0 ->
  exists y, fexp x = Ok y /\ Rabs (y - exp x) < 4 / 100000 * exp x.
Proof.
  intros H. destruct (cell x H) as (k & E & Hk & Hf). unfold fexp. rewrite E.
  replace (- k - EXP_I0)%Z with (- k + 15)%Z by (unfold EXP_I0; lia). rewrite lookup_ok by lia. cbn [bind].
  eexists; split; [reflexivity|]. set (f := x - IZR (- k)) in *.
  replace (exp x) with (exp (IZR (- k)) * exp f) by (rewrite <- exp_plus; f_equal; unfold f; ring).
  pose proof (taylor5 f Hf) as [L U]. pose proof (pow6_bound f Hf).
  assert (ET : (120 + f * (120 + f * (60 + f * (20 + f * (5 + f))))) = 120 * T5 f) by (unfold T5, T4, T3; field).
  rewrite ET.
  set (g := exp (- f) * T5 f) in *.
  assert (EG : T5 f = exp f * g).
  { unfold g. rewrite <- Rmult_assoc, <- exp_plus, Rplus_opp_r, exp_0. ring. }
  rewrite EG. pose proof (exp_pos (IZR (- k))). pose proof (exp_pos f).
  assert (P : 0 < exp (IZR (- k)) * exp f) by nra.
  replace (exp (IZR (- k)) * (120 * (exp f * g) * (83333333 / 10000000000)) - exp (IZR (- k)) * exp f)
    with (exp (IZR (- k)) * exp f * (g * (120 * (83333333 / 10000000000)) - 1)) by ring.
  rewrite Rabs_mult, (Rabs_right (exp _ * exp f)) by lra. rewrite (Rmult_comm (4/100000)).
  apply Rmult_lt_compat_l; [exact P|]. clear EG ET. clearbody g. apply Rabs_def1; lra.
Qed.

Lemma index_range chi2 : 0 <= chi2 < 25 ->
  exists k, (trunc (- 5/10 * chi2 - 5/10) - EXP_I0)%Z = k /\ (3 <= k <= 15)%Z /\
    (0 <= k < Z.of_nat (length EXP_LOOKUP))%Z /\ nth_error EXP_LOOKUP (Z.to_nat k) = Some (exp (IZR (k - 15))).
Proof.
  intros H. destruct (cell (-5/10*chi2) ltac:(lra)) as (k & E & Hk & Hf). rewrite E. exists (- k + 15)%Z.
  unfold EXP_I0. split; [lia|]. split; [lia|]. split; [change (length EXP_LOOKUP) with 16%nat; lia|].
  pose proof (lookup_ok k ltac:(lia)) as L. unfold lookup in L. destruct (Z.ltb_spec (- k + 15) 0); [lia|].
  destruct (nth_error EXP_LOOKUP _); [|discriminate]. injection L as ->. do 3 f_equal. lia.
Qed.

(** the same for exp3 and exp4, bounds on the cell *)
Lemma exp4_spec x : -125/10 < x <= 0 ->
  exists y, exp4 x = Ok y /\ Rabs (y - exp x) < 5 / 10000 * exp x.
Proof.
  intros H. destruct (cell x H) as (k & E & Hk & Hf). unfold exp4. rewrite E.
  replace (- k - EXP_I0)%Z with (- k + 15)%Z by (unfold EXP_I0; lia). rewrite lookup_ok by lia. cbn [bind].
  eexists; split; [reflexivity|]. set (f := x - IZR (- k)) in *.
  replace (exp x) with (exp (IZR (- k)) * exp f) by (rewrite <- exp_plus; f_equal; unfold f; ring).
  pose proof (taylor5 f Hf) as [L U]. pose proof (pow6_bound f Hf).
  assert (ET : (24 + f * (24 + f * (12 + f * (4 + f)))) = 24 * (T5 f - f^5/120)) by (unfold T5, T4, T3; field).
  rewrite ET. pose proof (exp_half_bound f ltac:(lra)) as HB.
  set (g := exp (- f) * T5 f) in *.
  assert (EE : exp f * exp (- f) = 1) by (rewrite <- exp_plus, Rplus_opp_r; apply exp_0).
  assert (EG : T5 f - f^5/120 = exp f * (g - exp (- f) * (f^5/120))).
  { unfold g. transitivity (exp f * exp (- f) * (T5 f - f^5/120)); [rewrite EE; ring|ring]. }
  rewrite EG. pose proof (exp_pos (IZR (- k))). pose proof (exp_pos f). pose proof (exp_pos (- f)).
  assert (P : 0 < exp (IZR (- k)) * exp f) by nra.
  assert (F5 : -1/32 <= f^5 <= 1/32).
  { replace (f^5) with (f^2*f^2*f) by ring. assert (0 <= f^2 <= 1/4) by (cbn; nra). assert (0 <= f^2*f^2 <= 1/16) by nra. nra. }
  assert (Q : - (1733/1000/32/120) <= exp (- f) * (f^5/120) <= 1733/1000/32/120) by nra.
  set (q := exp (- f) * (f^5/120)) in *.
  replace (exp (IZR (- k)) * (24 * (exp f * (g - q)) * (41666666 / 1000000000)) - exp (IZR (- k)) * exp f)
    with (exp (IZR (- k)) * exp f * ((g - q) * (24 * (41666666 / 1000000000)) - 1)) by ring.
  rewrite Rabs_mult, (Rabs_right (exp _ * exp f)) by lra. rewrite (Rmult_comm (5/10000)).
  apply Rmult_lt_compat_l; [exact P|]. clear EG ET. clearbody g. apply Rabs_def1; lra.
Qed.

Lemma exp3_spec x : -125/10 < x <= 0 ->
  exists y, exp3 x = Ok y /\ Rabs (y - exp x) < 5 / 1000 * exp x.
Proof.
  intros H. destruct (cell x H) as (k & E & Hk & Hf). unfold exp3. rewrite E.
  replace (- k - EXP_I0)%Z with (- k + 15)%Z by (unfold EXP_I0; lia). rewrite lookup_ok by lia. cbn [bind].
  eexists; split; [reflexivity|]. set (f := x - IZR (- k)) in *.
  replace (exp x) with (exp (IZR (- k)) * exp f) by (rewrite <- exp_plus; f_equal; unfold f; ring).
  pose proof (taylor5 f Hf) as [L U]. pose proof (pow6_bound f Hf).
  assert (ET : (6 + f * (6 + f * (3 + f))) = 6 * (T5 f - (f^5/120 + f^4/24))) by (unfold T5, T4, T3; field).
  rewrite ET. pose proof (exp_half_bound f ltac:(lra)) as HB.
  set (g := exp (- f) * T5 f) in *.
  assert (EE : exp f * exp (- f) = 1) by (rewrite <- exp_plus, Rplus_opp_r; apply exp_0).
  assert (EG : T5 f - (f^5/120 + f^4/24) = exp f * (g - exp (- f) * (f^5/120 + f^4/24))).
  { unfold g. transitivity (exp f * exp (- f) * (T5 f - (f^5/120 + f^4/24))); [rewrite EE; ring|ring]. }
  rewrite EG. pose proof (exp_pos (IZR (- k))). pose proof (exp_pos f). pose proof (exp_pos (- f)).
  assert (P : 0 < exp (IZR (- k)) * exp f) by nra.
  assert (F45 : 0 <= f^5/120 + f^4/24 <= 1/16/24 * (11/10)).
  { replace (f^5/120 + f^4/24) with (f^2*f^2*(f/120+1/24)) by field.
    assert (0 <= f^2 <= 1/4) by (cbn; nra). assert (HA : 0 <= f^2*f^2 <= 1/16) by nra.
    revert HA. generalize (f^2*f^2). intros a HA. assert (0 <= f/120+1/24 <= 11/240) by lra. nra. }
  assert (Q : 0 <= exp (- f) * (f^5/120 + f^4/24) <= 1733/1000 * (1/16/24)).
  { destruct (Rle_lt_dec 0 f) as [Hs|Hs].
    - assert (exp (- f) <= 1). { destruct (Req_dec f 0) as [->|]; [rewrite Ropp_0, exp_0; lra|]. left. rewrite <- exp_0. apply exp_increasing. lra. }
      nra.
    - assert (f^5/120 + f^4/24 <= 1/16/24).
      { replace (f^5) with (f^2*f^2*f) by ring. replace (f^4) with (f^2*f^2) by ring.
        assert (0 <= f^2 <= 1/4) by (cbn; nra). assert (HA : 0 <= f^2*f^2 <= 1/16) by nra.
        revert HA. generalize (f^2*f^2). intros a HA. nra. }
      nra. }
  set (q := exp (- f) * (f^5/120 + f^4/24)) in *.
  replace (exp (IZR (- k)) * (6 * (exp f * (g - q)) * (16666666 / 100000000)) - exp (IZR (- k)) * exp f)
    with (exp (IZR (- k)) * exp f * ((g - q) * (6 * (16666666 / 100000000)) - 1)) by ring.
  rewrite Rabs_mult, (Rabs_right (exp _ * exp f)) by lra. rewrite (Rmult_comm (5/1000)).
  apply Rmult_lt_compat_l; [exact P|]. clear EG ET. clearbody g. apply Rabs_def1; lra.
Qed.

Lemma exp4_cex : ~ (forall x, -125/10 < x <= 0 -> exists y, exp4 x = Ok y /\ Rabs (y - exp x) <= 3 / 10000 * exp x).
Proof.
  intros C. destruct (C (-49/100) ltac:(lra)) as (y & E & B). clear C.
  destruct (cell (-49/100) ltac:(lra)) as (k & T & Hk & Hf).
  assert (K : k = 0%Z).
  { rewrite opp_IZR in Hf. assert (A1 : -1 < IZR k) by lra. assert (A2 : IZR k < 1) by lra.
    apply lt_IZR in A2. apply (lt_IZR (-1)) in A1. lia. }
  subst k. unfold exp4 in E. rewrite T in E.
  replace (- 0 - EXP_I0)%Z with (- 0 + 15)%Z in E by (unfold EXP_I0; lia). rewrite lookup_ok in E by lia. cbn [bind] in E.
  injection E as <-. replace (IZR (- 0)) with 0 in B by reflexivity. rewrite exp_0, Rminus_0_r in B. revert B.
  destruct (taylor5 (-49/100) ltac:(lra)) as [L U]. replace (- (-49/100)) with (49/100) in * by lra.
  pose proof (exp_pos (-49/100)) as P. set (e := exp (-49/100)) in *.
  assert (EE : e * exp (49/100) = 1). { unfold e. rewrite <- exp_plus. replace (-49/100 + 49/100) with 0 by lra. apply exp_0. }
  assert (EX : e <= 61264/100000).
  { assert (X : 1 - exp (49/100) * T5 (-49/100) <= 4 / 100000) by (refine (Rle_trans _ _ _ U _); lra).
    assert (Y : T5 (-49/100) <= 61261/100000) by (unfold T5, T4, T3; lra).
    assert (Z : e * (1 - exp (49/100) * T5 (-49/100)) <= e * (4/100000)) by (apply Rmult_le_compat_l; lra).
    replace (e * (1 - exp (49/100) * T5 (-49/100))) with (e - (e * exp (49/100)) * T5 (-49/100)) in Z by ring.
    rewrite EE in Z. lra. }
  intros B.
  assert (BB : 1 * ((24 + -49/100 * (24 + -49/100 * (12 + -49/100 * (4 + -49/100)))) * (41666666 / 1000000000)) - e <= 3/10000 * e).
  { exact (Rle_trans _ _ _ (Rle_abs _) B). }
  lra.
Qed.
