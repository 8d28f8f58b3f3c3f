From Coq Require Import String.
From Verif Require Import Base XReal Pixels_Model Jacobian_Model Moments_Model MomResult_Model PrePSF_Model Units_Spec Units_Proofs UnitsPP_Proofs Noise_Spec Noise_Proofs.
Local Open Scope R_scope.

Section PP.
Variable k : R.
Hypothesis K : 0 < k.

(** what measure_fft returns *)
Definition noise_triple (x x' : list xr * smat * R) : Prop :=
  let '(m, c, n) := x in let '(m', c', n') := x' in
  m' = m /\ n' = n /\ sm_n c' = sm_n c /\ (forall i, (i < 2)%nat -> nth i m NaN = NaN /\ sm_at c' i i = sm_at c i i) /\
  forall i j, (2 <= i)%nat -> (2 <= j)%nat -> sm_at c' i j = times (k ^ 2) (sm_at c i j).
Lemma numba_noise kim kpsf dim p Ker v :
  match measure_numba kim kpsf dim p Ker v, measure_numba kim kpsf dim p Ker (k ^ 2 * v) with
  | Some x, Some x' => noise_triple x x' | None, None => True | _, _ => False end.
Proof.
  unfold measure_numba. destruct (cdivs _ kpsf) as [inv|]; [|exact I].
  unfold noise_triple; cbn [sm_n sm_at]. split; [reflexivity|].
  split; [reflexivity|]. split; [reflexivity|]. split.
  - intros [|[|i]] Hi; [split; reflexivity|split; reflexivity|lia].
  - intros i j Hi Hj. destruct (Nat.leb_spec 2 i), (Nat.leb_spec 2 j); cbn [andb]; try lia. unfold times, xmul. f_equal. ring.
Qed.
Lemma measure_noise kim kpsf v p Ker dr dc :
  match measure_fft kim kpsf v p Ker dr dc, measure_fft kim kpsf (k ^ 2 * v) p Ker dr dc with
  | Some x, Some x' => same_outcome noise_triple x x' | None, None => True | _, _ => False end.
Proof.
  unfold measure_fft.
  destruct (select (nrow kim) (k_msk Ker) kim) as [kl|e]; [|reflexivity].
  destruct (select (nrow kim) (k_msk Ker) kpsf) as [pl|e]; [|reflexivity].
  destruct (deconvolve _ _ _ _) as [[[kl' pl'] mm]|]; [|exact I].
  match goal with |- context [measure_numba ?q ?a ?b ?c ?d v] => pose proof (numba_noise q a b c d v) as G;
    destruct (measure_numba q a b c d v), (measure_numba q a b c d (k ^ 2 * v)) end; auto.
Qed.

Theorem prepsf_noise f o o' no_psf : ppobs_noisier k o o' ->
  match go f o no_psf, go f o' no_psf with
  | Some r, Some r' => same_outcome (errors_times 2 k) r r' | None, None => True | _, _ => False end.
Proof.
  intros (HI & HW & HJ & HP). unfold go, check_obs. rewrite HI, HP, HJ.
  destruct (negb _); [reflexivity|].
  assert (MEAS : forall psf, match meas f o psf, meas f o' psf with
    | Some r, Some r' => same_outcome (errors_times 2 k) r r' | None, None => True | _, _ => False end).
  { intros psf. unfold meas. assert (ET : target_of f o' psf = target_of f o psf) by (unfold target_of; rewrite HI; reflexivity). rewrite ET, HI, HJ.
    destruct (Nat.eqb _ 0); [reflexivity|].
    destruct (pad_fft (pp_im o) _ _ _ _) as [[[kim ir] ic]|e]; [|reflexivity].
    match goal with |- context [match ?x with Ok _ => _ | Raise _ => _ end] => destruct x as [[[kpsf pr] pc]|e] end; [|reflexivity].
    destruct (make_kernels _ _ _) as [Ker|e]; [|reflexivity].
    rewrite (total_var_times k K _ _ HW).
    pose proof (measure_noise kim kpsf (total_var (pp_wt o)) (IZR (target_of f o psf) / INR (nrow (pp_im o))) Ker (ir - pr) (ic - pc)) as HM.
    destruct (measure_fft kim _ (total_var _) _ _ _ _) as [[[[m c] n]|e]|], (measure_fft kim _ (k ^ 2 * _) _ _ _ _) as [[[[m' c'] n']|e']|]; cbn [same_outcome] in HM; try contradiction; try exact I; [|exact HM].
    destruct HM as (-> & -> & C1 & C2 & C3). apply mom_noise; [exact K|lia|exact C1| |].
    - intros i j Hi Hj. apply C3; lia.
    - intros i Hi. destruct (C2 i Hi) as [A B]. rewrite B. split; [exact A|reflexivity]. }
  destruct no_psf; [apply MEAS|]. destruct (pp_psf o) as [p|]; [|reflexivity]. destruct (negb _); [reflexivity|apply MEAS].
Qed.

(** ** regularisation *)
Lemma regularize_core_noise low r r' fwhm : (low <= 2)%nat -> errors_times low k r r' ->
  (sm_n (m_cov r) = 6%nat -> forall i j, (low <= i < 6)%nat -> (low <= j < 6)%nat ->
     reg_cov (fwhm_to_T fwhm) (m_cov r') i j = times (k ^ 2) (reg_cov (fwhm_to_T fwhm) (m_cov r) i j)) ->
  (forall i, (i < low)%nat -> nth i (m_sums r) NaN = NaN /\ reg_cov (fwhm_to_T fwhm) (m_cov r') i i = reg_cov (fwhm_to_T fwhm) (m_cov r) i i) ->
  same_outcome (errors_times low k) (regularize_mom_shapes r fwhm) (regularize_mom_shapes r' fwhm).
Proof.
  intros L HS HC HL.
  pose proof HS as (F1 & F2 & F3 & F4 & F5 & F6 & F7 & F8 & F9 & F10 & F11 & F12 & F13 & F14 & F15 & F16 & F17 & F18).
  unfold regularize_mom_shapes. destruct (negb (Rltb 0 fwhm)); [exact HS|].
  rewrite F8, F15. destruct (negb _); [reflexivity|]. destruct (negb (Nat.eqb (sm_n (m_cov r)) 6)) eqn:E6; [reflexivity|].
  apply Bool.negb_false_iff, Nat.eqb_eq in E6. set (T := fwhm_to_T fwhm).
  apply same_bind with (P := errors_times low k).
  2:{ intros m m' HM. pose proof HM as (G1 & G2 & G3 & G4 & G5 & G6 & G7 & G8 & G9 & G10 & G11 & G12 & G13 & G14 & G15 & G16 & G17 & G18).
      cbn [same_outcome]. unfold errors_times; cbn [m_flags m_flux m_sums m_cov m_sums_norm m_flux_flags m_T_flags m_flux_err m_T m_T_err m_s2n m_e1 m_e2 m_e_err m_sums_err m_pars m_named].
      rewrite F1, G1. repeat (split; [first [reflexivity|assumption]|]). assumption. }
  cbv zeta. fold (reg_cov T (m_cov r)). fold (reg_cov T (m_cov r')).
  apply mom_noise; [exact K|exact L|reflexivity| |]; cbn [sm_n sm_at].
  - intros i j Hi Hj. apply HC; assumption.
  - intros i Hi. destruct (HL i Hi) as [A B]. split; [|unfold T; rewrite B; reflexivity].
    rewrite nth_map_seq. destruct (Nat.ltb_spec i 6); [|lia]. rewrite A. destruct i as [|[|i]]; [reflexivity|reflexivity|lia].
Qed.
Lemma regularize_noise r r' fwhm : errors_times 2 k r r' -> all_fin (m_cov r) -> all_fin (m_cov r') ->
  (forall i, (i < 2)%nat -> nth i (m_sums r) NaN = NaN /\ sm_at (m_cov r') i i = sm_at (m_cov r) i i) ->
  same_outcome (errors_times 2 k) (regularize_mom_shapes r fwhm) (regularize_mom_shapes r' fwhm).
Proof.
  intros HS FC FC' HL. set (T := fwhm_to_T fwhm).
  assert (VAL : forall c : smat, all_fin c -> forall i j, (i < 6)%nat -> (j < 6)%nat -> sm_at c i j = Fin (match sm_at c i j with Fin x => x | _ => 0 end)).
  { intros c Hc i j Hi Hj. destruct (Hc i j Hi Hj) as [x ->]. reflexivity. }
  pose proof (reg_cov_at T _ _ (VAL _ FC)) as R1. pose proof (reg_cov_at T _ _ (VAL _ FC')) as R2.
  apply regularize_core_noise; [lia|exact HS| |]; unfold reg_cov; fold T.
  - intros E6 i j Hi Hj. rewrite R1, R2 by lia. unfold times at 1, xmul at 1. f_equal.
    assert (SC : forall a b, (2 <= a < 6)%nat -> (2 <= b < 6)%nat ->
      match sm_at (m_cov r') a b with Fin x => x | _ => 0 end = k ^ 2 * match sm_at (m_cov r) a b with Fin x => x | _ => 0 end).
    { intros a b Ha Hb. destruct HS as (_ & _ & _ & _ & _ & _ & _ & _ & _ & _ & _ & _ & _ & _ & _ & F16 & _). rewrite F16 by lia. destruct (FC a b) as [x ->]; [lia|lia|]. reflexivity. }
    destruct (Nat.eqb i 4), (Nat.eqb j 4); rewrite !SC by lia; ring.
  - intros i Hi. destruct (HL i Hi) as [A B]. split; [exact A|]. rewrite R1, R2 by lia. destruct i as [|[|i]]; [| |lia]; cbn [Nat.eqb]; rewrite B; reflexivity.
Qed.
Theorem regularize_full_noise r r' fwhm : errors_times 0 k r r' ->
  same_outcome (errors_times 0 k) (regularize_mom_shapes r fwhm) (regularize_mom_shapes r' fwhm).
Proof.
  intros HS. pose proof (sq_pos k K) as K2. apply regularize_core_noise; [lia|exact HS| |intros; lia].
  intros E6 i j Hi Hj. destruct HS as (_ & _ & _ & _ & _ & _ & _ & _ & _ & _ & _ & _ & _ & _ & _ & F16 & _).
  unfold reg_cov. unfold xdot_mm at 1 3. rewrite <- (xsum_times _ K2), map_map. f_equal. apply map_ext_in. intros a Ha. apply in_seq in Ha.
  rewrite <- xmul_times_r by exact K2. f_equal. unfold xdot_mm. rewrite <- (xsum_times _ K2), map_map. f_equal. apply map_ext_in. intros b Hb. apply in_seq in Hb.
  rewrite F16 by lia. apply xmul_times_l, K2.
Qed.
Theorem prepsf_regularized_noise f o o' np fwhm : ppobs_noisier k o o' ->
  match go f o np, go f o' np with
  | Some r, Some r' => same_outcome (errors_times 2 k) (let* m := r in regularize_mom_shapes m fwhm) (let* m := r' in regularize_mom_shapes m fwhm)
  | None, None => True | _, _ => False end.
Proof.
  intros U. pose proof (prepsf_noise f o o' np U) as H.
  destruct (go f o np) as [[r|e]|] eqn:E, (go f o' np) as [[r'|e']|] eqn:E'; cbn [same_outcome] in H; try contradiction; [|exact H|exact I].
  cbn [bind]. destruct (go_low _ _ _ _ E) as [F L]. destruct (go_low _ _ _ _ E') as [F' L'].
  apply regularize_noise; [exact H|exact F|exact F'|]. intros i Hi. destruct (L i Hi) as [A B]. destruct (L' i Hi) as [_ B']. rewrite B, B'. auto.
Qed.

(** ** the pixels of an observation *)
Definition pix_noise (p p' : pixel R) : Prop :=
  px_v p' = px_v p /\ px_u p' = px_u p /\ px_area p' = px_area p /\ px_val p' = px_val p /\ px_ierr p' = px_ierr p / k.
Lemma noise_length l l' : Forall2 pix_noise l l' -> List.length l' = List.length l.
Proof. induction 1; cbn; congruence. Qed.
Lemma upd_noise l l' i p p' : Forall2 pix_noise l l' -> pix_noise p p' -> Forall2 pix_noise (upd l i p) (upd l' i p').
Proof. intros H. revert i. induction H as [|a a' l l' HA H IH]; intros [|i] HP; cbn; constructor; auto. Qed.
Lemma put_noise l l' i p p' : Forall2 pix_noise l l' -> pix_noise p p' -> same_outcome (Forall2 pix_noise) (put l i p) (put l' i p').
Proof.
  intros H HP. unfold put. rewrite (noise_length _ _ H). destruct (Nat.ltb _ _); [|reflexivity]. apply upd_noise; assumption.
Qed.
Lemma zeros_noise n : Forall2 pix_noise (zeros_pixels R 0 n) (zeros_pixels R 0 n).
Proof.
  unfold zeros_pixels. induction n; cbn [repeat]; constructor; [|exact IHn]. unfold pix_noise; cbn. repeat split; try ring. unfold Rdiv. ring.
Qed.
Theorem pixels_noise im w w' j ig : nrow w = nrow im -> ncol w = ncol im -> image_times (/ k ^ 2) w w' ->
  same_outcome (noisier k) (make_pixels im w j ig) (make_pixels im w' j ig).
Proof.
  intros N M (N2 & M2 & HW). pose proof (sq_pos k K) as K2.
  assert (KI : 0 < / k ^ 2) by (apply Rinv_0_lt_compat; exact K2).
  assert (LT : forall x, Rltb (/ k ^ 2 * x) 0 = Rltb x 0) by (intros; destruct (Rltb_spec x 0); [apply Rltb_t|apply Rltb_f]; nra).
  unfold make_pixels, make_pixels_gen.
  assert (EC : count_gt0 R (Rltb 0) w' = count_gt0 R (Rltb 0) w).
  { unfold count_gt0. rewrite N2, M2.
    assert (G : forall r, (r < nrow w)%nat -> forall l n, (forall c, In c l -> (c < ncol w)%nat) ->
      fold_left (fun n col => if Rltb 0 (at2 w' r col) then S n else n) l n = fold_left (fun n col => if Rltb 0 (at2 w r col) then S n else n) l n).
    { intros r Hr. induction l as [|c l IH]; intros n Hl; cbn [fold_left]; [reflexivity|].
      rewrite HW, (Rltb0_scale _ KI) by (assumption || (apply Hl; left; reflexivity)). apply IH. intros; apply Hl; right; assumption. }
    assert (G2 : forall l n, (forall r, In r l -> (r < nrow w)%nat) ->
      fold_left (fun n row => fold_left (fun n col => if Rltb 0 (at2 w' row col) then S n else n) (seq 0 (ncol w)) n) l n =
      fold_left (fun n row => fold_left (fun n col => if Rltb 0 (at2 w row col) then S n else n) (seq 0 (ncol w)) n) l n).
    { induction l as [|r l IH]; intros n Hl; cbn [fold_left]; [reflexivity|]. rewrite G. { apply IH. intros; apply Hl; right; assumption. }
      { apply Hl; left; reflexivity. } intros c. rewrite in_seq. lia. }
    apply G2. intros r. rewrite in_seq. lia. }
  rewrite EC.
  match goal with |- context [bind ?x _] => destruct x as [n|e] end; cbn [bind]; [|reflexivity].
  unfold fill_pixels.
  apply same_bind with (P := fun x x' => Forall2 pix_noise (fst x) (fst x') /\ snd x' = snd x).
  2:{ intros [l i] [l' i'] [A B]. cbn [fst snd] in A, B. subst i'. rewrite (noise_length _ _ A). destruct (Nat.eqb _ _); [exact A|reflexivity]. }
  apply same_foldM with (E := fun a b : nat => b = a /\ (a < nrow im)%nat); [apply seq_range| |split; [apply zeros_noise|reflexivity]].
  intros s s' r r' HS [-> Hr].
  apply same_foldM with (E := fun a b : nat => b = a /\ (a < ncol im)%nat); [apply seq_range| |exact HS].
  clear s s' HS. intros [l i] [l' i'] c c' [A B] [-> Hc]. cbn [fst snd] in A, B. subst i'. unfold fill_body.
  rewrite HW by lia. rewrite (Rleb0_scale _ KI), LT. destruct (_ && _)%bool; [split; [exact A|reflexivity]|].
  destruct (get_vu j (INR r) (INR c)) as [v u].
  apply same_bind with (P := Forall2 pix_noise).
  - apply put_noise; [exact A|]. unfold pix_noise; cbn [px_v px_u px_area px_val px_ierr]. repeat (split; [reflexivity|]).
    destruct (Rltb_spec (at2 w r c) 0). { rewrite sqrt_0. unfold Rdiv. ring. }
    rewrite sqrt_mult by lra. rewrite sqrt_inv. rewrite sqrt_pow2 by lra. unfold Rdiv. ring.
  - intros a a' H. split; [exact H|reflexivity].
Qed.
End PP.
