(** Kernels, and the whole measurement in closed form. *)
From Verif Require Import Base XReal Moments_Model Jacobian_Model Pixels_Model FastExp_Model MomResult_Model MomResult_Spec MomResult_Proofs PrePSF_Model PrePSF_Spec PrePSF_Proofs PrePSF2_Proofs PrePSF3_Proofs.
From Coq Require Import Psatz FinFun.
Local Open Scope R_scope.

(** ** Kernels *)
Lemma modes_in dim kl : In kl (modes dim) <-> (fst kl < dim)%nat /\ (snd kl < dim)%nat.
Proof.
  unfold modes. rewrite in_flat_map. split.
  - intros (k & Hk & Hl). apply in_map_iff in Hl. destruct Hl as (l & <- & Hl). apply in_seq in Hk, Hl. cbn. lia.
  - intros [H1 H2]. exists (fst kl). split; [apply in_seq; lia|]. apply in_map_iff. exists (snd kl). split; [destruct kl; reflexivity|apply in_seq; lia].
Qed.
Lemma NoDup_app {A} (a b : list A) : NoDup a -> NoDup b -> (forall x, In x a -> In x b -> False) -> NoDup (a ++ b).
Proof.
  induction a as [|x a IH]; intros Ha Hb H; [exact Hb|]. inversion Ha as [|? ? N Ha']; subst. cbn [app]. constructor.
  - rewrite in_app_iff. intros [I|I]; [contradiction|]. apply (H x); [left; reflexivity|exact I].
  - apply IH; [exact Ha'|exact Hb|]. intros y Hy. apply H. right. exact Hy.
Qed.
Lemma modes_nodup dim : NoDup (modes dim).
Proof.
  unfold modes. generalize (seq_NoDup dim 0). generalize (seq 0 dim) at 1 3 as ks. induction ks as [|k ks IH]; intros Hd; [constructor|].
  inversion Hd as [|? ? N Hd']; subst. cbn [flat_map]. apply NoDup_app.
  - apply FinFun.Injective_map_NoDup; [intros a b [= E]; exact E|apply seq_NoDup].
  - apply IH. exact Hd'.
  - intros x Hx Hy. apply in_map_iff in Hx. destruct Hx as (l & <- & _). apply in_flat_map in Hy. destruct Hy as (k' & Hk' & Hy).
    apply in_map_iff in Hy. destruct Hy as (l' & [= -> _] & _). contradiction.
Qed.
Lemma fftfreq_0 t : fftfreq t 0 = 0.
Proof. unfold fftfreq. destruct t as [|t]; cbn [Nat.leb Nat.mul Nat.add INR]; unfold Rdiv; [rewrite Rminus_0_r|]; ring. Qed.
Lemma fmag2_00 A t : fmag2_of A t (0%nat, 0%nat) = 0.
Proof. unfold fmag2_of, fu_of, fv_of. cbn [fst snd]. rewrite fftfreq_0. ring. Qed.
Lemma mapM_length {A B} (f : A -> res B) l r : mapM f l = Ok r -> length r = length l.
Proof.
  revert r. induction l as [|x l IH]; intros r H; cbn in H; [injection H as <-; reflexivity|].
  destruct (f x) as [y|]; [|discriminate]. cbn [bind] in H. destruct (mapM f l) as [ys|]; [|discriminate]. cbn [bind] in H. injection H as <-. cbn. rewrite (IH ys eq_refl). reflexivity.
Qed.
Lemma smooth_length fw l s : smooth_list fw l = Ok s -> length s = length l.
Proof. unfold smooth_list. destruct (Rltb 0 fw); [apply mapM_length|]. intros [= <-]. apply map_length. Qed.
Lemma filter_good g t K : (0 < t)%nat -> k_msk K = filter g (modes t) -> g (0%nat, 0%nat) = true -> (forall i, length (kern_at K i) = length (k_msk K)) -> good_kernels t K.
Proof.
  intros Ht M G L. constructor.
  - rewrite M. apply NoDup_filter. apply modes_nodup.
  - intros kl H. rewrite M in H. apply filter_In in H. apply modes_in. apply H.
  - rewrite M. apply filter_In. split; [apply modes_in; cbn; lia|exact G].
  - exact L.
Qed.
Lemma ksigma_good t fw j sm K : (0 < t)%nat -> ksigma_kernels t fw j sm = Ok K -> good_kernels t K.
Proof.
  intros Ht. unfold ksigma_kernels. destruct (Atinv j) as [A|]; [|discriminate]. cbn [bind].
  destruct (Reqb_spec (fwhm_to_sigma fw) 0) as [E|E]; [discriminate|]. set (s := fwhm_to_sigma fw) in *.
  destruct (negb _); [discriminate|]. set (msk := filter _ (modes t)).
  destruct (smooth_list sm (map (fmag2_of A t) msk)) as [sl|] eqn:S; [|discriminate]. cbn [bind]. intros [= <-].
  apply smooth_length in S. rewrite map_length in S.
  apply (filter_good (fun kl => Rltb (fmag2_of A t kl) (2 * 4 / s ^ 2))); [exact Ht|reflexivity| |].
  - rewrite fmag2_00. apply Rltb_t. apply Rdiv_lt_0_compat; [lra|]. assert (0 < s * s) by nra. nra.
  - cbn [k_msk]. intros i. unfold kern_at, at_moment, kern4. cbn [q_p q_c q_r q_f k_p k_c k_r k_f].
    destruct i as [|[|[|i]]]; rewrite map_length, combine_length, S; apply Nat.min_id.
Qed.
Lemma gauss_good t fw j sm K : (0 < t)%nat -> gauss_kernels t fw j sm = Ok K -> good_kernels t K.
Proof.
  intros Ht. unfold gauss_kernels. destruct (Atinv j) as [A|]; [|discriminate]. cbn [bind]. set (s := fwhm_to_sigma fw) in *.
  set (msk := filter _ (modes t)). destruct (mapM _ msk) as [ev|] eqn:EV; [|discriminate]. cbn [bind]. apply mapM_length in EV.
  destruct (negb _); [discriminate|]. 
  destruct (smooth_list sm (map (fmag2_of A t) msk)) as [sl|] eqn:S; [|discriminate]. cbn [bind]. intros [= <-].
  apply smooth_length in S. rewrite map_length in S.
  apply (filter_good (fun kl => Rltb (s * s / 2 * fmag2_of A t kl) (FASTEXP_MAX_CHI2 / 2) && Rleb 0 (s * s / 2 * fmag2_of A t kl))); [exact Ht|reflexivity| |].
  - rewrite fmag2_00, Rmult_0_r. unfold FASTEXP_MAX_CHI2. rewrite Rltb_t by lra. rewrite Rleb_t by lra. reflexivity.
  - cbn [k_msk]. intros i. unfold kern_at, at_moment, kern4. cbn [q_p q_c q_r q_f k_p k_c k_r k_f].
    destruct i as [|[|[|i]]]; rewrite ?map_length, ?combine_length, ?map_length, ?combine_length, ?map_length, ?S, ?EV; lia.
Qed.
Lemma kernels_good f t w K : (0 < t)%nat -> make_kernels f t w = Ok K -> good_kernels t K.
Proof. intros Ht. unfold make_kernels. destruct (ft_kind f); [apply ksigma_good|apply gauss_good]; exact Ht. Qed.

(** ** Moments as sums over the stamp *)
Lemma rsum_swap2 {A} (l : list A) n m (f : A -> nat -> nat -> R) : rsum (map (fun a => dsum n m (f a)) l) = dsum n m (fun r c => rsum (map (fun a => f a r c) l)).
Proof.
  induction l as [|x l IH]; cbn [map].
  - rewrite rsum_nil. symmetry. unfold dsum. apply sumn_zero. intros. apply sumn_zero. intros. reflexivity.
  - rewrite rsum_cons, IH. unfold dsum. rewrite <- sumn_plus. apply sumn_ext. intros r _. rewrite <- sumn_plus. apply sumn_ext. intros c _. rewrite rsum_cons. reflexivity.
Qed.
Lemma dsum_scale n m k f : dsum n m (fun r c => k * f r c) = k * dsum n m f.
Proof. unfold dsum. rewrite <- sumn_scale. apply sumn_ext. intros r _. apply sumn_scale. Qed.
Lemma dsum_plus n m f g : dsum n m (fun r c => f r c + g r c) = dsum n m f + dsum n m g.
Proof. unfold dsum. rewrite <- sumn_plus. apply sumn_ext. intros r _. apply sumn_plus. Qed.
Lemma dot_minus t kl a b x y : dot t kl (x - a) (y - b) = dot t kl x y - dot t kl a b.
Proof. unfold dot. ring. Qed.
Lemma cis_neg_re x z : re (cmul (cis (- x)) z) = cos x * re z + sin x * im z.
Proof. cbn. rewrite cos_neg, sin_neg. ring. Qed.
Lemma mode_moment_stamp t drow dcol a n b pinv msk fk :
  mode_moment t drow dcol (ft a n b t) pinv msk fk =
  dsum n n (fun r c => at2 a r c * psf_window t msk fk pinv (INR (b + r) - drow) (INR (b + c) - dcol)).
Proof.
  unfold mode_moment.
  rewrite (rsum_map_ext _ (fun z => dsum n n (fun r c => at2 a r c * (snd z * re (cmul (cis (- dot t (fst z) (INR (b + r) - drow) (INR (b + c) - dcol))) (pinv (fst z))))))).
  - rewrite rsum_swap2. unfold Rdiv. rewrite Rmult_comm, <- dsum_scale. apply dsum_ext. intros r c _ _.
    unfold psf_window. rewrite rsum_map_mult. unfold Rdiv. ring.
  - intros [kl fk1] _. cbn [fst snd].
    rewrite (dsum_ext n n _ (fun r c => (fk1 * re (cmul (pinv kl) (cis (dot t kl drow dcol)))) * (at2 a r c * cos (dot t kl (INR (b + r)) (INR (b + c))))
       + (- fk1 * im (cmul (pinv kl) (cis (dot t kl drow dcol)))) * (- (at2 a r c * sin (dot t kl (INR (b + r)) (INR (b + c))))))).
    + rewrite dsum_plus, !dsum_scale. rewrite <- cmul_assoc. unfold ft. generalize (cmul (pinv kl) (cis (dot t kl drow dcol))). intros z. cbn. ring.
    + intros r c _ _. rewrite dot_minus, cis_neg_re, cos_minus, sin_minus. cbn. ring.
Qed.

(** ** What _meas returns *)
Definition psf_ft (t : nat) (psf : option (arr2 R * jac)) : nat * nat -> cplx :=
  match psf with
  | None => fun kl => at2 (pixel_fft t) (fst kl) (snd kl)
  | Some (p, _) => ft p (nrow p) (pad_of (nrow p) t) t
  end.
Definition psf_cen (t : nat) (psf : option (arr2 R * jac)) : R * R :=
  match psf with None => (0, 0) | Some (p, j) => (row0 j + INR (pad_of (nrow p) t), col0 j + INR (pad_of (nrow p) t)) end.
Definition psf_fits (t : nat) (psf : option (arr2 R * jac)) : Prop :=
  match psf with None => True | Some (p, _) => nrow p = ncol p /\ (0 < nrow p <= t)%nat end.
Definition win (t : nat) (K : kernels) (psf : option (arr2 R * jac)) (i : nat) (x y : R) : R :=
  psf_window t (k_msk K) (kern_at K i) (psf_inv (psf_ft t psf)) (x + fst (psf_cen t psf)) (y + snd (psf_cen t psf)).
Record runs (f : fitter) (o : ppobs) (psf : option (arr2 R * jac)) (t : nat) (K : kernels) : Prop := {
  rn_sq : nrow (pp_im o) = ncol (pp_im o);
  rn_n : (0 < nrow (pp_im o) <= t)%nat;
  rn_t : target_of f o psf = Z.of_nat t;
  rn_psf : psf_fits t psf;
  rn_amp : 0 < cabs (psf_ft t psf (0%nat, 0%nat));
  rn_K : make_kernels f t (wcs_of (pp_jac o)) = Ok K }.
Definition stamp_moment f (o : ppobs) psf t K (i : nat) : R :=
  let n := nrow (pp_im o) in
  dsum n n (fun r c => at2 (apodize (pp_im o) (ft_ap f)) r c * win t K psf i (INR r - row0 (pp_jac o)) (INR c - col0 (pp_jac o))).
Definition stamp_cov (o : ppobs) psf t K (i j : nat) : R :=
  if Nat.leb 2 i && Nat.leb 2 j
  then mode_cov (psf_inv (psf_ft t psf)) (k_msk K) (kern_at K (Nat.min i j - 2)) (kern_at K (Nat.max i j - 2)) *
       (total_var (pp_wt o) * (INR t / INR (nrow (pp_im o))) ^ 2 / INR t ^ 4)
  else if Nat.eqb i j then 1 else 0.

Lemma apodize_0 a : apodize a 0 = a.
Proof. unfold apodize. rewrite Rltb_f by lra. reflexivity. Qed.
Lemma psf_pad_fft t psf dim : psf_fits t psf -> dim = t -> exists k,
  match psf with Some (pim, pj) => pad_fft pim (row0 pj) (col0 pj) (Z.of_nat t) 0 | None => Ok (pixel_fft dim, 0, 0) end = Ok (k, fst (psf_cen t psf), snd (psf_cen t psf)) /\
  nrow k = t /\ ncol k = t /\ forall kl, at2 k (fst kl) (snd kl) = psf_ft t psf kl.
Proof.
  intros H ->. destruct psf as [[p j]|].
  - destruct H as [H1 H2]. destruct (pad_fft_spec p (row0 j) (col0 j) t 0 H1 H2) as (k & Hk & K1 & K2 & K3). rewrite apodize_0 in K3.
    exists k. split; [exact Hk|]. split; [exact K1|]. split; [exact K2|]. intros [i l]. apply K3.
  - exists (pixel_fft t). repeat split.
Qed.
Lemma kern_mono_ext (F G pinv : nat * nat -> cplx) t a b msk fk : (forall kl, F kl = G kl) -> mode_moment t a b F pinv msk fk = mode_moment t a b G pinv msk fk.
Proof. intros H. unfold mode_moment. f_equal. apply rsum_map_ext. intros z _. rewrite H. reflexivity. Qed.
Lemma psf_inv_ext P Q kl : (forall x, P x = Q x) -> psf_inv P kl = psf_inv Q kl.
Proof. intros H. unfold psf_inv. rewrite !H. reflexivity. Qed.

Lemma meas_runs f o psf t K : runs f o psf t K -> exists cv,
  meas f o psf = Some (make_mom_result (NaN :: NaN :: map (fun i => Fin (stamp_moment f o psf t K i)) [0%nat; 1%nat; 2%nat; 3%nat]) cv (Some (Fin (k_00 K)))) /\
  sm_n cv = 6%nat /\ forall i j, (i < 6)%nat -> (j < 6)%nat -> sm_at cv i j = Fin (stamp_cov o psf t K i j).
Proof.
  intros [Hsq Hn Ht Hp Ha HK]. set (n := nrow (pp_im o)) in *.
  destruct (pad_fft_spec (pp_im o) (row0 (pp_jac o)) (col0 (pp_jac o)) t (ft_ap f) Hsq Hn) as (kim & Hk & K1 & K2 & K3).
  destruct (psf_pad_fft t psf (nrow kim) Hp K1) as (kpsf & Hk' & L1 & L2 & L3).
  assert (Pos : (0 < t)%nat) by lia.
  pose proof (kernels_good f t _ K Pos HK) as GK.
  set (b := pad_of (nrow (pp_im o)) t) in *.
  set (pr := fst (psf_cen t psf)) in *. set (pc := snd (psf_cen t psf)) in *.
  destruct (measure_closed t K kim kpsf (total_var (pp_wt o)) (INR t / INR n) (row0 (pp_jac o) + INR b - pr) (col0 (pp_jac o) + INR b - pc) (conj K1 K2) (conj L1 L2) GK) as (ms & cv & M & Hms & N6 & Hcv).
  { pose proof (L3 (0%nat, 0%nat)) as E. cbn [fst snd] in E. rewrite E. exact Ha. }
  { exact Pos. }
  exists cv. split; [|split; [exact N6|]].
  - unfold meas. cbv zeta. fold n. replace (Nat.eqb n 0) with false by (symmetry; apply Nat.eqb_neq; lia).
    rewrite Ht, Hk, Hk', Nat2Z.id, HK. rewrite <- INR_IZR_INZ, M. f_equal. f_equal. rewrite Hms. f_equal. f_equal.
    apply map_ext. intros i. f_equal.
    rewrite (kern_mono_ext _ (ft (apodize (pp_im o) (ft_ap f)) n b t)) by (intros [k l]; apply K3). rewrite mode_moment_stamp.
    unfold stamp_moment. cbv zeta. fold n. apply dsum_ext. intros r c _ _. f_equal. unfold win. fold pr pc. unfold psf_window. f_equal.
    apply rsum_map_ext. intros z _. f_equal. f_equal. f_equal; [|apply psf_inv_ext; exact L3].
    f_equal. f_equal. f_equal; rewrite plus_INR; ring.
  - intros i j Hi Hj. rewrite Hcv by assumption. f_equal. unfold stamp_cov. fold n. destruct (_ && _); [|reflexivity].
    f_equal. unfold mode_cov. apply rsum_map_ext. intros z _. f_equal. f_equal. apply psf_inv_ext. exact L3.
Qed.

(** only such inputs lead to a result *)
Lemma fftn_pos a k : fftn a = Ok k -> (0 < nrow a)%nat /\ (0 < ncol a)%nat.
Proof. unfold fftn. destruct (Nat.eqb_spec (nrow a) 0), (Nat.eqb_spec (ncol a) 0); cbn [orb]; try discriminate. intros _. lia. Qed.
Lemma pad_fft_pos a cr cc t h k x y : (0 < nrow a)%nat -> pad_fft a cr cc t h = Ok (k, x, y) -> exists m, t = Z.of_nat m /\ (nrow a <= m)%nat.
Proof.
  intros Ha H. destruct (Z_lt_le_dec t (Z.of_nat (nrow a))) as [L|L]; [rewrite pad_fft_small in H by exact L; discriminate|].
  exists (Z.to_nat t). lia.
Qed.
Lemma pad_fft_nonneg (a : arr2 R) t : (t < Z.of_nat (nrow a))%Z \/ exists m, t = Z.of_nat m /\ (nrow a <= m)%nat.
Proof. destruct (Z_lt_le_dec t (Z.of_nat (nrow a))) as [L|L]; [left; exact L|right]. exists (Z.to_nat t). lia. Qed.
Lemma trunc_zero : trunc_mode (MIN_PSF_FRAC * 0) (mkC 0 0) = mkC 0 0.
Proof.
  unfold trunc_mode. cbv zeta. rewrite (proj2 (cabs_0 (mkC 0 0)) eq_refl), Rmult_0_r, Rleb_t by lra. rewrite Reqb_t by reflexivity. reflexivity.
Qed.
Lemma measure_zero_amp kim kpsf tv eff K a b t : nrow kim = t -> ncol kim = t -> nrow kpsf = t -> ncol kpsf = t ->
  In (0%nat, 0%nat) (k_msk K) -> at2 kpsf 0 0 = mkC 0 0 -> measure_fft kim kpsf tv eff K a b = None.
Proof.
  intros A1 A2 B1 B2 I Z. unfold measure_fft. cbv zeta. unfold select. rewrite A1, A2, B1, B2, Nat.eqb_refl. cbn [andb].
  unfold deconvolve. cbv zeta. rewrite cdivs_none; [reflexivity|now rewrite !map_length|].
  exists (mkC 0 0). split; [|reflexivity]. rewrite Z, (proj2 (cabs_0 (mkC 0 0)) eq_refl). rewrite map_map. apply in_map_iff. exists (0%nat, 0%nat).
  split; [|exact I]. cbn [fst snd]. rewrite Z. apply trunc_zero.
Qed.
Lemma meas_only f o psf r : nrow (pp_im o) = ncol (pp_im o) -> meas f o psf = Some (Ok r) -> exists t K, runs f o psf t K.
Proof.
  intros Hsq H. unfold meas in H. cbv zeta in H.
  destruct (Nat.eqb_spec (nrow (pp_im o)) 0) as [E|E]; [discriminate|].
  destruct (pad_fft (pp_im o) (row0 (pp_jac o)) (col0 (pp_jac o)) (target_of f o psf) (ft_ap f)) as [[[kim ir] ic]|] eqn:P1; [|discriminate].
  destruct (pad_fft_pos (pp_im o) _ _ _ _ _ _ _ ltac:(lia) P1) as (t & Ht & Hn). rewrite Ht in *.
  destruct (pad_fft_shape _ _ _ _ _ _ _ _ P1 Hn) as [S1 S2].
  assert (Pos : (0 < t)%nat) by lia.
  destruct (match psf with Some (pim, pj) => pad_fft pim (row0 pj) (col0 pj) (Z.of_nat t) 0 | None => Ok (pixel_fft (nrow kim), 0, 0) end) as [[[kpsf pr] pc]|] eqn:P2; [|discriminate].
  rewrite Nat2Z.id in H. destruct (make_kernels f t (wcs_of (pp_jac o))) as [K|] eqn:HK; [|discriminate].
  pose proof (kernels_good f t _ K Pos HK) as GK. exists t, K.
  assert (Q : psf_fits t psf /\ nrow kpsf = t /\ ncol kpsf = t).
  { destruct psf as [[p j]|].
    - destruct (pad_fft_nonneg p (Z.of_nat t)) as [L|(m & Hm & L)].
      { rewrite pad_fft_small in P2 by exact L. discriminate. }
      apply Nat2Z.inj in Hm. subst m.
      destruct (pad_fft_shape _ _ _ _ _ _ _ _ P2 L) as [T1 T2].
      assert (C : ncol kpsf = t).
      { destruct (Nat.eq_dec (ncol kpsf) t) as [C|C]; [exact C|]. exfalso.
        unfold measure_fft in H. cbv zeta in H. unfold select in H. rewrite S1, S2, T1 in H.
        replace (Nat.eqb (ncol kpsf) t) with false in H by (symmetry; apply Nat.eqb_neq; exact C).
        replace (Nat.eqb (t - nrow (pp_im o) + ncol (pp_im o)) t) with true in H by (symmetry; apply Nat.eqb_eq; lia).
        rewrite Nat.eqb_refl in H. cbn [andb] in H. discriminate. }
      split; [|split; assumption]. cbn [psf_fits].
      destruct (Nat.eq_dec (nrow p) 0) as [E0|E0]; [|lia].
      (* an empty psf image leaves no flux *)
      exfalso. unfold pad_fft in P2. rewrite apodize_0 in P2.
      destruct (zero_pad_spec p t L) as (q & Hq & Q1 & Q2 & Q3 & Qin & Qout). rewrite Hq in P2. cbn [bind] in P2.
      destruct (fftn_square q t Q1 ltac:(lia) Pos) as (k & Hk & F1 & F2 & F3). rewrite Hk in P2. cbn [bind] in P2. injection P2 as <- _ _.
      rewrite (measure_zero_amp kim k _ _ K _ _ t) in H; [discriminate|exact S1|lia|exact T1|exact C|apply (gk_00 t K GK)|].
      rewrite F3. f_equal; unfold dsum; apply sumn_zero; intros r0 Hr0; apply sumn_zero; intros c0 Hc0; rewrite Qout by lia; ring.
    - injection P2 as <- _ _. cbn [psf_fits pixel_fft nrow ncol]. rewrite S1. repeat split. }
  destruct Q as (Hp & T1 & T2).
  destruct (psf_pad_fft t psf (nrow kim) Hp S1) as (kp & Hkp & L1 & L2 & L3). rewrite P2 in Hkp. injection Hkp as <- _ _.
  constructor; try assumption; try lia.
  destruct (Rle_lt_dec (cabs (psf_ft t psf (0%nat, 0%nat))) 0) as [Z|Z]; [|exact Z]. exfalso.
  pose proof (cabs_nonneg (psf_ft t psf (0%nat, 0%nat))) as N0. assert (Z0 : cabs (psf_ft t psf (0%nat, 0%nat)) = 0) by lra. apply cabs_0 in Z0.
  rewrite <- L3 in Z0. cbn [fst snd] in Z0.
  rewrite (measure_zero_amp kim kpsf _ _ K _ _ t) in H; [discriminate|exact S1|lia|exact T1|exact T2|apply (gk_00 t K GK)|exact Z0].
Qed.
