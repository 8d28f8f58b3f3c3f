From Coq Require Import String.
From Verif Require Import Base XReal Pixels_Model Jacobian_Model Moments_Model MomResult_Model PrePSF_Model Units_Spec Units_Proofs.
Local Open Scope R_scope.

Section PP.
Variable k : R.
Hypothesis K : 0 < k.

Lemma apodize_times a a' ap : image_times k a a' -> image_times k (apodize a ap) (apodize a' ap).
Proof.
  intros (N & M & H). unfold apodize. destruct (Rltb 0 ap); [|split; auto].
  unfold image_times, ones_like; cbn [nrow ncol at2]. rewrite N, M. split; [reflexivity|]. split; [reflexivity|].
  intros r c Hr Hc. rewrite H by assumption. ring.
Qed.
Lemma pad_times a a' b f : image_times k a a' -> same_outcome (image_times k) (np_pad a b f) (np_pad a' b f).
Proof.
  intros (N & M & H). unfold np_pad. destruct (_ || _)%bool; [reflexivity|]. cbn [same_outcome].
  unfold image_times; cbn [nrow ncol at2]. rewrite N, M. split; [reflexivity|]. split; [reflexivity|].
  intros r c _ _. destruct (Nat.leb_spec (Z.to_nat b) r); cbn [andb]; [|ring]. destruct (Nat.ltb_spec r (Z.to_nat b + nrow a)); cbn [andb]; [|ring].
  destruct (Nat.leb_spec (Z.to_nat b) c); cbn [andb]; [|ring]. destruct (Nat.ltb_spec c (Z.to_nat b + ncol a)); cbn [andb]; [|ring].
  apply H; lia.
Qed.
Definition modes_times (a a' : arr2 cplx) : Prop := nrow a' = nrow a /\ ncol a' = ncol a /\ forall i j, at2 a' i j = cscale k (at2 a i j).
Lemma total_times (f g : nat -> nat -> R) n m : (forall r c, (r < n)%nat -> (c < m)%nat -> g r c = k * f r c) ->
  rsum (flat_map (fun r => map (g r) (seq 0 m)) (seq 0 n)) = k * rsum (flat_map (fun r => map (f r) (seq 0 m)) (seq 0 n)).
Proof.
  intros H. assert (G : forall l, (forall r, In r l -> (r < n)%nat) ->
    rsum (flat_map (fun r => map (g r) (seq 0 m)) l) = k * rsum (flat_map (fun r => map (f r) (seq 0 m)) l)).
  { induction l as [|r l IH]; intros Hl; cbn [flat_map]. { rewrite rsum_nil. ring. }
    rewrite !rsum_app, IH by (intros; apply Hl; right; assumption).
    rewrite (rsum_map_ext (g r) (fun c => k * f r c)). { rewrite rsum_map_mult. ring. }
    intros c Hc. apply in_seq in Hc. apply H; [apply Hl; left; reflexivity|lia]. }
  apply G. intros r. rewrite in_seq. lia.
Qed.
Lemma fftn_times a a' : image_times k a a' -> same_outcome modes_times (fftn a) (fftn a').
Proof.
  intros (N & M & H). unfold fftn. rewrite N, M. destruct (_ || _)%bool; [reflexivity|]. cbn [same_outcome].
  split; [reflexivity|]. split; [reflexivity|]. intros i j. cbn [at2]. unfold cscale; cbn [re im]. f_equal.
  - apply total_times with (f := fun r c => at2 a r c * _). intros r c Hr Hc. rewrite H by assumption. apply Rmult_assoc.
  - apply total_times with (f := fun r c => - (at2 a r c * _)). intros r c Hr Hc. rewrite H by assumption. rewrite Rmult_assoc. ring.
Qed.
Lemma pad_fft_times a a' row col t ap : image_times k a a' ->
  same_outcome (fun x x' => modes_times (fst (fst x)) (fst (fst x')) /\ snd (fst x') = snd (fst x) /\ snd x' = snd x)
    (pad_fft a row col t ap) (pad_fft a' row col t ap).
Proof.
  intros H. pose proof (apodize_times _ _ ap H) as A. unfold pad_fft, zero_pad. pose proof A as (N & _ & _). rewrite N.
  pose proof (fun b f => pad_times _ _ b f A) as P.
  match goal with |- context [np_pad (apodize a ap) ?b ?f] => specialize (P b f); destruct (np_pad (apodize a ap) b f), (np_pad (apodize a' ap) b f) end;
    cbn [same_outcome] in P; try contradiction; cbn [bind]; [|exact P].
  pose proof (fftn_times _ _ P) as F. destruct (fftn a0), (fftn a1); cbn [same_outcome] in F; try contradiction; cbn [bind same_outcome]; [|exact F].
  cbn. auto.
Qed.
Lemma cplx_eq a b : re a = re b -> im a = im b -> a = b. Proof. destruct a, b; cbn; congruence. Qed.
Lemma cdiv_times a b : cdiv (cscale k a) b = option_map (cscale k) (cdiv a b).
Proof. unfold cdiv. destruct (Reqb _ 0); [reflexivity|]. cbn. f_equal. apply cplx_eq; cbn; ring. Qed.
Lemma cdivs_times a : forall b, cdivs (map (cscale k) a) b = option_map (map (cscale k)) (cdivs a b).
Proof.
  induction a as [|x a IH]; intros [|y b]; cbn [cdivs map option_map]; try reflexivity.
  rewrite cdiv_times, IH. destruct (cdiv x y), (cdivs a b); reflexivity.
Qed.
Lemma sum_re_times kim : forall f, sum_re (map (cscale k) kim) f = k * sum_re kim f.
Proof.
  unfold sum_re. induction kim as [|x l IH]; intros [|y f]; cbn [map combine]; rewrite ?rsum_nil, ?rsum_cons; try ring.
  rewrite IH. cbn. ring.
Qed.
Lemma phase_times kim : forall d r c dim, map (fun x => cmul (fst x) (cen_phase r c dim (snd x))) (combine (map (cscale k) kim) d)
  = map (cscale k) (map (fun x => cmul (fst x) (cen_phase r c dim (snd x))) (combine kim d)).
Proof.
  induction kim as [|x l IH]; intros [|y d] r c dim; cbn [map combine]; try reflexivity. f_equal; [|apply IH].
  cbn [fst snd]. apply cplx_eq; cbn; ring.
Qed.
(** what measure_fft returns *)
Definition same_triple (x x' : list xr * smat * R) : Prop :=
  let '(m, c, n) := x in let '(m', c', n') := x' in
  m' = map (times k) m /\ n' = n /\ sm_n c' = sm_n c /\ (forall i, (i < 2)%nat -> nth i m NaN = NaN /\ sm_at c' i i = sm_at c i i) /\
  forall i j, (2 <= i)%nat -> (2 <= j)%nat -> sm_at c' i j = times (k ^ 2) (sm_at c i j).
Lemma numba_times kim kpsf dim p Ker v :
  match measure_numba kim kpsf dim p Ker v, measure_numba (map (cscale k) kim) kpsf dim p Ker (k ^ 2 * v) with
  | Some x, Some x' => same_triple x x' | None, None => True | _, _ => False end.
Proof.
  unfold measure_numba. destruct (cdivs _ kpsf) as [inv|]; [|exact I]. rewrite !sum_re_times.
  unfold same_triple; cbn [sm_n sm_at map]. split. { repeat (apply (f_equal2 cons); [first [reflexivity|unfold times, xmul; apply f_equal; ring]|]). reflexivity. }
  split; [reflexivity|]. split; [reflexivity|]. split.
  - intros [|[|i]] Hi; [split; reflexivity|split; reflexivity|lia].
  - intros i j Hi Hj. destruct (Nat.leb_spec 2 i), (Nat.leb_spec 2 j); cbn [andb]; try lia. unfold times, xmul. f_equal. ring.
Qed.
Lemma select_times dim msk a a' : modes_times a a' -> select dim msk a' = rmap (map (cscale k)) (select dim msk a).
Proof.
  intros (N & M & H). unfold select. rewrite N, M. destruct (_ && _)%bool; [|reflexivity]. cbn [rmap]. f_equal.
  rewrite map_map. apply map_ext. intros. apply H.
Qed.
Lemma measure_times kim kim' kpsf v p Ker dr dc : modes_times kim kim' ->
  match measure_fft kim kpsf v p Ker dr dc, measure_fft kim' kpsf (k ^ 2 * v) p Ker dr dc with
  | Some x, Some x' => same_outcome same_triple x x' | None, None => True | _, _ => False end.
Proof.
  intros H. pose proof H as (N & _ & _). unfold measure_fft. rewrite N, (select_times _ _ _ _ H).
  destruct (select (nrow kim) (k_msk Ker) kim) as [kl|e]; cbn [rmap]; [|reflexivity].
  destruct (select (nrow kim) (k_msk Ker) kpsf) as [pl|e]; [|reflexivity].
  unfold deconvolve. rewrite cdivs_times. destruct (cdivs kl _) as [q|]; cbn [option_map]; [|exact I].
  destruct (_ && _)%bool.
  - pose proof (numba_times q (map (trunc_mode (MIN_PSF_FRAC * cabs (at2 kpsf 0 0))) pl) (nrow kim) p Ker v) as G.
    destruct (measure_numba q _ _ _ _ _), (measure_numba (map (cscale k) q) _ _ _ _ _); auto.
  - rewrite phase_times.
    match goal with |- context [map (cscale k) ?q] => pose proof (numba_times q (map (trunc_mode (MIN_PSF_FRAC * cabs (at2 kpsf 0 0))) pl) (nrow kim) p Ker v) as G;
      destruct (measure_numba q _ _ _ _ _), (measure_numba (map (cscale k) q) _ _ _ _ _) end; auto.
Qed.
Lemma total_var_times w w' : image_times (/ k ^ 2) w w' -> total_var w' = k ^ 2 * total_var w.
Proof.
  intros (N & M & H). unfold total_var. rewrite N, M. pose proof (sq_pos k K) as K2.
  assert (E : flat_map (fun r => map (at2 w' r) (seq 0 (ncol w))) (seq 0 (nrow w)) = map (fun x => / k ^ 2 * x) (flat_map (fun r => map (at2 w r) (seq 0 (ncol w))) (seq 0 (nrow w)))).
  { assert (G : forall l, (forall r, In r l -> (r < nrow w)%nat) -> flat_map (fun r => map (at2 w' r) (seq 0 (ncol w))) l = map (fun x => / k ^ 2 * x) (flat_map (fun r => map (at2 w r) (seq 0 (ncol w))) l)).
    { induction l as [|r l IH]; intros Hl; cbn [flat_map map]; [reflexivity|]. rewrite map_app, IH by (intros; apply Hl; right; assumption). f_equal.
      rewrite map_map. apply map_ext_in. intros c Hc. apply in_seq in Hc. apply H; [apply Hl; left; reflexivity|lia]. }
    apply G. intros r. rewrite in_seq. lia. }
  rewrite E. clear E. generalize (flat_map (fun r => map (at2 w r) (seq 0 (ncol w))) (seq 0 (nrow w))). intros l.
  assert (KI : 0 < / k ^ 2) by (apply Rinv_0_lt_compat; exact K2).
  induction l as [|x l IH]; cbn [map filter]. { rewrite rsum_nil. ring. }
  rewrite (Rltb0_scale _ KI). destruct (Rltb_spec 0 x) as [X|X]; [|exact IH]. cbn [map]. rewrite !rsum_cons, IH. field. split; [lra|]. intro; lra.
Qed.

Theorem prepsf_scaled f o o' no_psf : ppobs_other_units k o o' ->
  match go f o no_psf, go f o' no_psf with
  | Some r, Some r' => same_outcome (same_moments 2 k) r r' | None, None => True | _, _ => False end.
Proof.
  intros (HI & HW & HJ & HP). pose proof HI as (N & M & _). unfold go, check_obs. rewrite N, M, HP, HJ.
  destruct (negb _); [reflexivity|].
  assert (MEAS : forall psf, match meas f o psf, meas f o' psf with
    | Some r, Some r' => same_outcome (same_moments 2 k) r r' | None, None => True | _, _ => False end).
  { intros psf. unfold meas. assert (ET : target_of f o' psf = target_of f o psf) by (unfold target_of; rewrite N; reflexivity). rewrite ET, N, HJ.
    destruct (Nat.eqb _ 0); [reflexivity|].
    pose proof (pad_fft_times _ _ (row0 (pp_jac o)) (col0 (pp_jac o)) (target_of f o psf) (ft_ap f) HI) as HF.
    destruct (pad_fft (pp_im o) _ _ _ _) as [[[kim ir] ic]|e], (pad_fft (pp_im o') _ _ _ _) as [[[kim' ir'] ic']|e']; cbn [same_outcome fst snd] in HF; try contradiction; [|exact HF].
    destruct HF as (HK & -> & ->). pose proof HK as (NK & _ & _). rewrite NK.
    match goal with |- context [match ?x with Ok _ => _ | Raise _ => _ end] => destruct x as [[[kpsf pr] pc]|e] end; [|reflexivity].
    destruct (make_kernels _ _ _) as [Ker|e]; [|reflexivity].
    rewrite (total_var_times _ _ HW).
    pose proof (measure_times kim kim' kpsf (total_var (pp_wt o)) (IZR (target_of f o psf) / INR (nrow (pp_im o))) Ker (ir - pr) (ic - pc) HK) as HM.
    destruct (measure_fft kim _ _ _ _ _ _) as [[[[m c] n]|e]|], (measure_fft kim' _ _ _ _ _ _) as [[[[m' c'] n']|e']|]; cbn [same_outcome] in HM; try contradiction; try exact I; [|exact HM].
    destruct HM as (-> & -> & C1 & C2 & C3). apply mom_scaled; [exact K|lia|exact C1| |].
    - intros i j Hi Hj. apply C3; lia.
    - intros i Hi. destruct (C2 i Hi) as [A B]. rewrite B. split; [exact A|reflexivity]. }
  destruct no_psf; [apply MEAS|]. destruct (pp_psf o) as [p|]; [|reflexivity]. destruct (negb _); [reflexivity|apply MEAS].
Qed.
End PP.

(** ** regularisation *)
Section Reg.
Variable k : R.
Hypothesis K : 0 < k.
Lemma times_0 : times k (Fin 0) = Fin 0. Proof. unfold times, xmul. f_equal. ring. Qed.
Lemma xsum_times l : xsum (map (times k) l) = times k (xsum l).
Proof.
  unfold xsum. rewrite <- times_0 at 1. generalize (Fin 0). induction l as [|x l IH]; intros a; cbn [map fold_left]; [reflexivity|].
  rewrite xadd_times by exact K. apply IH.
Qed.
Lemma isnan_times x : isnan (times k x) = isnan x.
Proof. rewrite times_cases by exact K. destruct x; reflexivity. Qed.
Lemma nth_times i l : nth i (map (times k) l) NaN = times k (nth i l NaN).
Proof. change NaN with (times k NaN) at 1. apply map_nth. Qed.
Definition all_fin (c : smat) : Prop := forall i j, (i < 6)%nat -> (j < 6)%nat -> exists x, sm_at c i j = Fin x.

Lemma reg_cov_at T (c : nat -> nat -> R) (m : nat -> nat -> xr) : (forall i j, (i < 6)%nat -> (j < 6)%nat -> m i j = Fin (c i j)) ->
  forall i j, (i < 6)%nat -> (j < 6)%nat ->
  xdot_mm (amat T) (xdot_mm m (fun i j => amat T j i)) i j =
    Fin (if Nat.eqb i 4 then if Nat.eqb j 4 then c 4%nat 4%nat + T * c 4%nat 5%nat + T * (c 5%nat 4%nat + T * c 5%nat 5%nat) else c 4%nat j + T * c 5%nat j
         else if Nat.eqb j 4 then c i 4%nat + T * c i 5%nat else c i j).
Proof.
  intros H i j Hi Hj.
  assert (I1 : forall i j, (i < 6)%nat -> (j < 6)%nat -> xdot_mm m (fun i j => amat T j i) i j = Fin (if Nat.eqb j 4 then c i 4%nat + T * c i 5%nat else c i j)).
  { clear i j Hi Hj. intros i j Hi Hj. unfold xdot_mm. cbn [seq map]. rewrite !H by lia.
    do 6 (destruct j as [|j]; [unfold xsum, amat, xmul; cbn [fold_left Nat.eqb andb xadd]; f_equal; ring|]). lia. }
  unfold xdot_mm at 1. cbn [seq map]. rewrite !I1 by lia.
  do 6 (destruct i as [|i]; [unfold xsum, amat, xmul; cbn [fold_left Nat.eqb andb xadd]; f_equal; destruct (Nat.eqb j 4); ring|]). lia.
Qed.

Definition reg_cov (T : R) (c : smat) : nat -> nat -> xr := xdot_mm (amat T) (xdot_mm (sm_at c) (fun i j => amat T j i)).
Lemma regularize_core low r r' fwhm : (low <= 2)%nat -> same_moments low k r r' ->
  (sm_n (m_cov r) = 6%nat -> forall i j, (low <= i < 6)%nat -> (low <= j < 6)%nat ->
     reg_cov (fwhm_to_T fwhm) (m_cov r') i j = times (k ^ 2) (reg_cov (fwhm_to_T fwhm) (m_cov r) i j)) ->
  (forall i, (i < low)%nat -> nth i (m_sums r) NaN = NaN /\ reg_cov (fwhm_to_T fwhm) (m_cov r') i i = reg_cov (fwhm_to_T fwhm) (m_cov r) i i) ->
  same_outcome (same_moments low k) (regularize_mom_shapes r fwhm) (regularize_mom_shapes r' fwhm).
Proof.
  intros L HS HC HL.
  pose proof HS as (F1 & F2 & F3 & F4 & F5 & F6 & F7 & F8 & F9 & F10 & F11 & F12 & F13 & F14 & F15 & F16 & F17 & F18).
  unfold regularize_mom_shapes. destruct (negb (Rltb 0 fwhm)); [exact HS|].
  rewrite F12, map_length, F14. destruct (negb _); [reflexivity|]. destruct (negb (Nat.eqb (sm_n (m_cov r)) 6)) eqn:E6; [reflexivity|].
  apply Bool.negb_false_iff, Nat.eqb_eq in E6. set (T := fwhm_to_T fwhm).
  apply same_bind with (P := same_moments low k).
  2:{ intros m m' HM. pose proof HM as (G1 & G2 & G3 & G4 & G5 & G6 & G7 & G8 & G9 & G10 & G11 & G12 & G13 & G14 & G15 & G16 & G17 & G18).
      cbn [same_outcome]. unfold same_moments; cbn [m_flags m_flux m_sums m_cov m_sums_norm m_flux_flags m_T_flags m_flux_err m_T m_T_err m_s2n m_e1 m_e2 m_e_err m_sums_err m_pars m_named].
      rewrite F1, G1. repeat (split; [first [reflexivity|assumption]|]). assumption. }
  assert (ES : map (fun i => if (Nat.eqb i 0 || Nat.eqb i 1) && isnan (nth i (map (times k) (m_sums r)) NaN) then NaN
       else xdot_mv (amat T) (fun i => if (Nat.eqb i 0 || Nat.eqb i 1) && isnan (nth i (map (times k) (m_sums r)) NaN) then Fin 0 else nth i (map (times k) (m_sums r)) NaN) i) (seq 0 6)
     = map (times k) (map (fun i => if (Nat.eqb i 0 || Nat.eqb i 1) && isnan (nth i (m_sums r) NaN) then NaN
       else xdot_mv (amat T) (fun i => if (Nat.eqb i 0 || Nat.eqb i 1) && isnan (nth i (m_sums r) NaN) then Fin 0 else nth i (m_sums r) NaN) i) (seq 0 6))).
  { rewrite map_map. apply map_ext. intros i. rewrite nth_times, isnan_times. destruct (_ && _)%bool; [reflexivity|].
    unfold xdot_mv. rewrite <- xsum_times, map_map. f_equal. apply map_ext. intros j. rewrite nth_times, isnan_times.
    rewrite <- xmul_times_r by exact K. f_equal. destruct (_ && _)%bool; [rewrite times_0|]; reflexivity. }
  cbv zeta. rewrite ES. fold (reg_cov T (m_cov r)). fold (reg_cov T (m_cov r')).
  apply mom_scaled; [exact K|exact L|reflexivity| |]; cbn [sm_n sm_at].
  - intros i j Hi Hj. apply HC; assumption.
  - intros i Hi. destruct (HL i Hi) as [A B]. split; [|unfold T; rewrite B; reflexivity].
    rewrite nth_map_seq. destruct (Nat.ltb_spec i 6); [|lia]. rewrite A. destruct i as [|[|i]]; [reflexivity|reflexivity|lia].
Qed.
Theorem regularize_scaled r r' fwhm : same_moments 2 k r r' -> all_fin (m_cov r) -> all_fin (m_cov r') ->
  (forall i, (i < 2)%nat -> nth i (m_sums r) NaN = NaN /\ sm_at (m_cov r') i i = sm_at (m_cov r) i i) ->
  same_outcome (same_moments 2 k) (regularize_mom_shapes r fwhm) (regularize_mom_shapes r' fwhm).
Proof.
  intros HS FC FC' HL. set (T := fwhm_to_T fwhm).
  assert (VAL : forall c : smat, all_fin c -> forall i j, (i < 6)%nat -> (j < 6)%nat -> sm_at c i j = Fin (match sm_at c i j with Fin x => x | _ => 0 end)).
  { intros c Hc i j Hi Hj. destruct (Hc i j Hi Hj) as [x ->]. reflexivity. }
  pose proof (reg_cov_at T _ _ (VAL _ FC)) as R1. pose proof (reg_cov_at T _ _ (VAL _ FC')) as R2.
  apply regularize_core; [lia|exact HS| |]; unfold reg_cov; fold T.
  - intros E6 i j Hi Hj. rewrite R1, R2 by lia. unfold times at 1, xmul at 1. f_equal.
    assert (SC : forall a b, (2 <= a < 6)%nat -> (2 <= b < 6)%nat ->
      match sm_at (m_cov r') a b with Fin x => x | _ => 0 end = k ^ 2 * match sm_at (m_cov r) a b with Fin x => x | _ => 0 end).
    { intros a b Ha Hb. destruct HS as (_ & _ & _ & _ & _ & _ & _ & _ & _ & _ & _ & _ & _ & _ & F15 & _). rewrite F15 by lia. destruct (FC a b) as [x ->]; [lia|lia|]. reflexivity. }
    destruct (Nat.eqb i 4), (Nat.eqb j 4); rewrite !SC by lia; ring.
  - intros i Hi. destruct (HL i Hi) as [A B]. split; [exact A|]. rewrite R1, R2 by lia. destruct i as [|[|i]]; [| |lia]; cbn [Nat.eqb]; rewrite B; reflexivity.
Qed.
End Reg.

(** ** the pixels of an observation *)
Section Pix.
Variable k : R.
Hypothesis K : 0 < k.
Definition pix_rel (p p' : pixel R) : Prop :=
  px_v p' = px_v p /\ px_u p' = px_u p /\ px_area p' = px_area p /\ px_val p' = k * px_val p /\ px_ierr p' = px_ierr p / k.
Lemma rel_length l l' : Forall2 pix_rel l l' -> List.length l' = List.length l.
Proof. induction 1; cbn; congruence. Qed.
Lemma upd_rel l l' i p p' : Forall2 pix_rel l l' -> pix_rel p p' -> Forall2 pix_rel (upd l i p) (upd l' i p').
Proof. intros H. revert i. induction H as [|a a' l l' HA H IH]; intros [|i] HP; cbn; constructor; auto. Qed.
Lemma put_rel l l' i p p' : Forall2 pix_rel l l' -> pix_rel p p' -> same_outcome (Forall2 pix_rel) (put l i p) (put l' i p').
Proof.
  intros H HP. unfold put. rewrite (rel_length _ _ H). destruct (Nat.ltb _ _); [|reflexivity]. apply upd_rel; assumption.
Qed.
Lemma zeros_rel n : Forall2 pix_rel (zeros_pixels R 0 n) (zeros_pixels R 0 n).
Proof.
  unfold zeros_pixels. induction n; cbn [repeat]; constructor; [|exact IHn]. unfold pix_rel; cbn. repeat split; try ring. unfold Rdiv. ring.
Qed.
Lemma seq_range n : Forall2 (fun a b : nat => b = a /\ (a < n)%nat) (seq 0 n) (seq 0 n).
Proof.
  assert (H : forall m s, (s + m = n)%nat -> Forall2 (fun a b : nat => b = a /\ (a < n)%nat) (seq s m) (seq s m)).
  { induction m as [|m IH]; intros s Hs; cbn [seq]; constructor; [split; [reflexivity|lia]|apply IH; lia]. }
  apply H. reflexivity.
Qed.
Theorem pixels_scaled im im' w w' j ig : nrow w = nrow im -> ncol w = ncol im -> image_times k im im' -> image_times (/ k ^ 2) w w' ->
  same_outcome (other_units k) (make_pixels im w j ig) (make_pixels im' w' j ig).
Proof.
  intros N M (N1 & M1 & HI) (N2 & M2 & HW). pose proof (sq_pos k K) as K2.
  assert (KI : 0 < / k ^ 2) by (apply Rinv_0_lt_compat; exact K2).
  assert (LT : forall x, Rltb (/ k ^ 2 * x) 0 = Rltb x 0) by (intros; destruct (Rltb_spec x 0); [apply Rltb_t|apply Rltb_f]; nra).
  unfold make_pixels, make_pixels_gen. rewrite N1, M1.
  assert (EC : count_gt0 R (Rltb 0) w' = count_gt0 R (Rltb 0) w).
  { unfold count_gt0. rewrite N2, M2.
    assert (G : forall r, (r < nrow w)%nat -> forall l n, (forall c, In c l -> (c < ncol w)%nat) ->
      fold_left (fun n col => if Rltb 0 (at2 w' r col) then S n else n) l n = fold_left (fun n col => if Rltb 0 (at2 w r col) then S n else n) l n).
    { intros r Hr. induction l as [|c l IH]; intros n Hl; cbn [fold_left]; [reflexivity|].
      rewrite HW, (Rltb0_scale _ KI) by (assumption || (apply Hl; left; reflexivity)). apply IH. intros; apply Hl; right; assumption. }
    assert (G2 : forall l n, (forall r, In r l -> (r < nrow w)%nat) ->
      fold_left (fun n row => fold_left (fun n col => if Rltb 0 (at2 w' row col) then S n else n) (seq 0 (ncol w)) n) l n =
      fold_left (fun n row => fold_left (fun n col => if Rltb 0 (at2 w row col) then S n else n) (seq 0 (ncol w)) n) l n).
    { induction l as [|r l IH]; intros n Hl; cbn [fold_left]; [reflexivity|]. rewrite G. { apply IH. intros; apply Hl; right; assumption. }
      { apply Hl; left; reflexivity. } intros c. rewrite in_seq. lia. }
    apply G2. intros r. rewrite in_seq. lia. }
  rewrite EC.
  match goal with |- context [bind ?x _] => destruct x as [n|e] end; cbn [bind]; [|reflexivity].
  unfold fill_pixels. rewrite N1, M1.
  apply same_bind with (P := fun x x' => Forall2 pix_rel (fst x) (fst x') /\ snd x' = snd x).
  2:{ intros [l i] [l' i'] [A B]. cbn [fst snd] in A, B. subst i'. rewrite (rel_length _ _ A). destruct (Nat.eqb _ _); [exact A|reflexivity]. }
  apply same_foldM with (E := fun a b : nat => b = a /\ (a < nrow im)%nat); [apply seq_range| |split; [apply zeros_rel|reflexivity]].
  intros s s' r r' HS [-> Hr].
  apply same_foldM with (E := fun a b : nat => b = a /\ (a < ncol im)%nat); [apply seq_range| |exact HS].
  clear s s' HS. intros [l i] [l' i'] c c' [A B] [-> Hc]. cbn [fst snd] in A, B. subst i'. unfold fill_body.
  rewrite HW by lia. rewrite (Rleb0_scale _ KI), LT. destruct (_ && _)%bool; [split; [exact A|reflexivity]|].
  destruct (get_vu j (INR r) (INR c)) as [v u].
  apply same_bind with (P := Forall2 pix_rel).
  - apply put_rel; [exact A|]. unfold pix_rel; cbn [px_v px_u px_area px_val px_ierr]. rewrite HI by assumption. repeat (split; [reflexivity|]).
    destruct (Rltb_spec (at2 w r c) 0). { rewrite sqrt_0. unfold Rdiv. ring. }
    rewrite sqrt_mult by lra. rewrite sqrt_inv. rewrite sqrt_pow2 by lra. unfold Rdiv. ring.
  - intros a a' H. split; [exact H|reflexivity].
Qed.
End Pix.

(** ** the regularised result of full moments *)
Theorem regularize_full k r r' fwhm : 0 < k -> same_moments 0 k r r' ->
  same_outcome (same_moments 0 k) (regularize_mom_shapes r fwhm) (regularize_mom_shapes r' fwhm).
Proof.
  intros K HS. pose proof (sq_pos k K) as K2. apply regularize_core; [exact K|lia|exact HS| |intros; lia].
  intros E6 i j Hi Hj. destruct HS as (_ & _ & _ & _ & _ & _ & _ & _ & _ & _ & _ & _ & _ & _ & F15 & _).
  unfold reg_cov. unfold xdot_mm at 1 3. rewrite <- (xsum_times _ K2), map_map. f_equal. apply map_ext_in. intros a Ha. apply in_seq in Ha.
  rewrite <- xmul_times_r by exact K2. f_equal. unfold xdot_mm. rewrite <- (xsum_times _ K2), map_map. f_equal. apply map_ext_in. intros b Hb. apply in_seq in Hb.
  rewrite F15 by lia. apply xmul_times_l, K2.
Qed.

(** ** regularised pre-psf moments *)
Lemma mom_keeps s c n r : make_mom_result s c n = Ok r -> m_sums r = s /\ m_cov r = c.
Proof.
  unfold make_mom_result. destruct (_ && _)%bool; [discriminate|]. destruct (_ && _)%bool; [discriminate|].
  do 13 (match goal with |- bind ?x _ = _ -> _ => destruct x; cbn [bind]; [|discriminate] end).
  destruct (if xgtb x5 (Fin 0) then _ else _) as [[fe s2n] ff].
  match goal with |- bind ?x _ = _ -> _ => destruct x as [[[T Te] tf]|]; cbn [bind]; [|discriminate] end.
  destruct (if forallb _ _ then _ else _) as [se fl].
  match goal with |- bind ?x _ = _ -> _ => destruct x as [[[[[e1 e2] ee] p] f]|]; cbn [bind]; [|discriminate] end.
  match goal with |- bind ?x _ = _ -> _ => destruct x; cbn [bind]; [|discriminate] end.
  intros E. injection E as <-. split; reflexivity.
Qed.
Lemma go_low f o np r : go f o np = Some (Ok r) ->
  all_fin (m_cov r) /\ forall i, (i < 2)%nat -> nth i (m_sums r) NaN = NaN /\ sm_at (m_cov r) i i = Fin 1.
Proof.
  unfold go. destruct (check_obs o np) as [psf|e]; [|discriminate]. unfold meas. destruct (Nat.eqb _ _); [discriminate|].
  destruct (pad_fft _ _ _ _ _) as [[[kim ir] ic]|e]; [|discriminate].
  match goal with |- context [match ?x with Ok _ => _ | Raise _ => _ end] => destruct x as [[[kpsf pr] pc]|e] end; [|discriminate].
  destruct (make_kernels _ _ _) as [Ker|e]; [|discriminate]. unfold measure_fft.
  destruct (select _ _ kim) as [kl|e]; [|discriminate]. destruct (select _ _ kpsf) as [pl|e]; [|discriminate].
  destruct (deconvolve _ _ _ _) as [[[kl' pl'] m]|]; [|discriminate].
  match goal with |- context [measure_numba ?a ?b ?c ?d ?e ?g] => generalize a end. intros q. unfold measure_numba.
  destruct (cdivs _ pl') as [inv|]; [|discriminate]. intros E. injection E as E. apply mom_keeps in E. destruct E as [-> ->].
  split. { intros i j _ _. cbn [sm_at]. eexists. reflexivity. }
  intros [|[|i]] Hi; [split; reflexivity|split; reflexivity|lia].
Qed.
Theorem prepsf_regularized k f o o' np fwhm : 0 < k -> ppobs_other_units k o o' ->
  match go f o np, go f o' np with
  | Some r, Some r' => same_outcome (same_moments 2 k) (let* m := r in regularize_mom_shapes m fwhm) (let* m := r' in regularize_mom_shapes m fwhm)
  | None, None => True | _, _ => False end.
Proof.
  intros K U. pose proof (prepsf_scaled k K f o o' np U) as H.
  destruct (go f o np) as [[r|e]|] eqn:E, (go f o' np) as [[r'|e']|] eqn:E'; cbn [same_outcome] in H; try contradiction; [|exact H|exact I].
  cbn [bind]. destruct (go_low _ _ _ _ E) as [F L]. destruct (go_low _ _ _ _ E') as [F' L'].
  apply regularize_scaled; [exact K|exact H|exact F|exact F'|]. intros i Hi. destruct (L i Hi) as [A B]. destruct (L' i Hi) as [_ B']. rewrite B, B'. auto.
Qed.
