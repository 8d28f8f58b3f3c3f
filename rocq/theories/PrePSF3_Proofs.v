(** The discrete Fourier transform, and pre-PSF moments as sums over the stamp. *)
From Verif Require Import Base XReal Moments_Model Jacobian_Model Pixels_Model FastExp_Model MomResult_Model PrePSF_Model PrePSF_Spec PrePSF_Proofs PrePSF2_Proofs.
From Coq Require Import Psatz.
Local Open Scope R_scope.

(** the phase of a mode at a position *)
Definition dot (dim : nat) (kl : nat * nat) (x y : R) : R := 2 * PI * (fftfreq dim (fst kl) * x + fftfreq dim (snd kl) * y).
Lemma cis_add a b : cmul (cis a) (cis b) = cis (a + b).
Proof. apply ceq; cbn; [rewrite cos_plus|rewrite sin_plus]; ring. Qed.
Lemma cis_0 : cis 0 = mkC 1 0. Proof. unfold cis. rewrite cos_0, sin_0. reflexivity. Qed.
Lemma csq_cis a : csq (cis a) = 1.
Proof. unfold csq. cbn [cis re im]. pose proof (sin2_cos2 a) as H. unfold Rsqr in H. lra. Qed.
Lemma cen_phase_dot a b dim kl : cen_phase a b dim kl = cis (dot dim kl a b).
Proof. unfold cen_phase. rewrite cis_add. f_equal. unfold dot. ring. Qed.
(** both implementations of the phases agree *)
Lemma cen_phase_same a b dim kl : cen_phase a b dim kl = cen_phase_orig a b dim kl.
Proof. rewrite cen_phase_dot. unfold cen_phase_orig, dot. f_equal. ring. Qed.

Lemma cis_minus_period x n : cis (x - 2 * INR n * PI) = cis x.
Proof.
  unfold cis. rewrite <- (cos_period (x - 2 * INR n * PI) n), <- (sin_period (x - 2 * INR n * PI) n).
  replace (x - 2 * INR n * PI + 2 * INR n * PI) with x by ring. reflexivity.
Qed.
(** fftfreq and k/n are the same frequency on the pixels *)
Lemma freq_alias n k x r : (0 < n)%nat -> cis (x + 2 * PI * (INR k * INR r / INR n)) = cis (x + 2 * PI * (fftfreq n k * INR r)).
Proof.
  intros Hn. assert (INR n <> 0) by (apply not_0_INR; lia).
  unfold fftfreq. destruct (Nat.leb (2 * k + 1) n).
  - f_equal. field. assumption.
  - rewrite <- (cis_minus_period (x + 2 * PI * (INR k * INR r / INR n)) r). f_equal. field. assumption.
Qed.
Lemma alias2 n k l r c : (0 < n)%nat ->
  cis (2 * PI * (INR k * INR r / INR n + INR l * INR c / INR n)) = cis (dot n (k, l) (INR r) (INR c)).
Proof.
  intros Hn. rewrite Rmult_plus_distr_l, freq_alias by exact Hn. rewrite Rplus_comm, freq_alias by exact Hn.
  f_equal. unfold dot. cbn [fst snd]. ring.
Qed.

(** the transform of a square array *)
Lemma fftn_square a n : nrow a = n -> ncol a = n -> (0 < n)%nat ->
  exists k, fftn a = Ok k /\ nrow k = n /\ ncol k = n /\
    forall i j, at2 k i j = mkC (dsum n n (fun r c => at2 a r c * cos (dot n (i, j) (INR r) (INR c))))
                                (dsum n n (fun r c => - (at2 a r c * sin (dot n (i, j) (INR r) (INR c))))).
Proof.
  intros H1 H2 Hn. unfold fftn. rewrite H1, H2. replace (Nat.eqb n 0) with false by (symmetry; apply Nat.eqb_neq; lia). cbn [orb].
  eexists. split; [reflexivity|]. cbn [nrow ncol at2]. split; [reflexivity|]. split; [reflexivity|]. intros i j.
  assert (E : forall g : nat -> nat -> R, rsum (flat_map (fun r => map (g r) (seq 0 n)) (seq 0 n)) = dsum n n g).
  { intros g. unfold dsum, sumn. induction (seq 0 n) as [|x l IH] at 2 4; [reflexivity|]. cbn [flat_map map]. rewrite rsum_app, rsum_cons, IH. reflexivity. }
  rewrite !E. f_equal; apply dsum_ext; intros r c _ _.
  - f_equal. pose proof (f_equal re (alias2 n i j r c Hn)) as A. cbn in A. exact A.
  - f_equal. f_equal. pose proof (f_equal im (alias2 n i j r c Hn)) as A. cbn in A. exact A.
Qed.
Lemma fftn_shape a k : fftn a = Ok k -> nrow k = nrow a /\ ncol k = ncol a.
Proof. unfold fftn. destruct (_ || _); [discriminate|]. intros [= <-]. split; reflexivity. Qed.

(** ** Padded transforms *)
Definition pad_of (n t : nat) : nat := ((t - n) / 2)%nat.
Definition ft (a : arr2 R) (n b t : nat) (kl : nat * nat) : cplx :=
  mkC (dsum n n (fun r c => at2 a r c * cos (dot t kl (INR (b + r)) (INR (b + c)))))
      (dsum n n (fun r c => - (at2 a r c * sin (dot t kl (INR (b + r)) (INR (b + c)))))).
Lemma apodize_shape a h : nrow (apodize a h) = nrow a /\ ncol (apodize a h) = ncol a.
Proof. unfold apodize. destruct (Rltb 0 h); split; reflexivity. Qed.
Lemma pad_fft_spec a cr cc t h : nrow a = ncol a -> (0 < nrow a <= t)%nat ->
  let n := nrow a in let b := pad_of n t in
  exists k, pad_fft a cr cc (Z.of_nat t) h = Ok (k, cr + INR b, cc + INR b) /\ nrow k = t /\ ncol k = t /\
    forall i j, at2 k i j = ft (apodize a h) n b t (i, j).
Proof.
  intros Hsq Hn n b. destruct (apodize_shape a h) as [S1 S2].
  destruct (zero_pad_spec (apodize a h) t) as (p & Hp & P1 & P2 & P3 & Pin & Pout); [lia|].
  rewrite S1 in *. rewrite S2 in *. change ((t - nrow a) / 2)%nat with b in *.
  destruct (fftn_square p t P1 ltac:(lia) ltac:(lia)) as (k & Hk & K1 & K2 & K3).
  exists k. unfold pad_fft. rewrite Hp. cbn [bind]. rewrite Hk. cbn [bind]. rewrite <- INR_IZR_INZ.
  split; [reflexivity|]. split; [exact K1|]. split; [exact K2|]. intros i j. rewrite K3. unfold ft.
  f_equal; (rewrite (dsum_window n n b) by (try lia; intros r c Hrc; rewrite Pout by lia; ring)); apply dsum_ext; intros r c Hr Hc; rewrite Pin by lia; reflexivity.
Qed.
Lemma pad_fft_small a cr cc t h : (t < Z.of_nat (nrow a))%Z -> pad_fft a cr cc t h = Raise ValueError.
Proof. intros H. unfold pad_fft. rewrite zero_pad_refused; [reflexivity|]. destruct (apodize_shape a h) as [-> _]. exact H. Qed.
(** shape of the transform whatever the shape of the image *)
Lemma pad_fft_shape a cr cc t h k x y : pad_fft a cr cc (Z.of_nat t) h = Ok (k, x, y) -> (nrow a <= t)%nat ->
  nrow k = t /\ ncol k = (t - nrow a + ncol a)%nat.
Proof.
  intros H Hn. unfold pad_fft in H. destruct (apodize_shape a h) as [S1 S2].
  destruct (zero_pad_spec (apodize a h) t) as (p & Hp & P1 & P2 & _); [lia|]. rewrite Hp in H. cbn [bind] in H.
  destruct (fftn p) as [k'|] eqn:E; [|discriminate]. cbn [bind] in H. injection H as <- _ _. destruct (fftn_shape p k' E) as [-> ->].
  rewrite P1, P2, S1, S2. split; reflexivity.
Qed.

(** ** Lists over the modes *)
Lemma combine_map_map {A B C} (f : A -> B) (g : A -> C) l : combine (map f l) (map g l) = map (fun x => (f x, g x)) l.
Proof. induction l as [|x l IH]; cbn; [reflexivity|]. rewrite IH. reflexivity. Qed.
Lemma combine_map_l {A B C} (f : A -> B) l (m : list C) : combine (map f l) m = map (fun x => (f (fst x), snd x)) (combine l m).
Proof. revert m. induction l as [|x l IH]; intros [|y m]; cbn; try reflexivity. rewrite IH. reflexivity. Qed.
Lemma combine_map_self {A B} (f : A -> B) l : combine (map f l) l = map (fun x => (f x, x)) l.
Proof. induction l as [|x l IH]; cbn; [reflexivity|]. rewrite IH. reflexivity. Qed.

(** the window of a kernel, psf included: (1/t^2) sum of fk Re(exp(-i k.x) / psf) *)
Definition psf_window (t : nat) (msk : list (nat * nat)) (fk : list R) (pinv : nat * nat -> cplx) (x y : R) : R :=
  rsum (map (fun z => snd z * re (cmul (cis (- dot t (fst z) x y)) (pinv (fst z)))) (combine msk fk)) / INR t ^ 2.
Definition kern_at (K : kernels) (i : nat) : list R := at_moment (kern4 K) i.

Record good_kernels (t : nat) (K : kernels) : Prop := {
  gk_nodup : NoDup (k_msk K);
  gk_range : forall kl, In kl (k_msk K) -> (fst kl < t)%nat /\ (snd kl < t)%nat;
  gk_00 : In (0%nat, 0%nat) (k_msk K);
  gk_len : forall i, length (kern_at K i) = length (k_msk K) }.

Section Measure.
  Variables (t : nat) (K : kernels) (kim kpsf : arr2 cplx) (tot_var eff drow dcol : R).
  Hypothesis Hkim : nrow kim = t /\ ncol kim = t.
  Hypothesis Hpsf : nrow kpsf = t /\ ncol kpsf = t.
  Hypothesis HK : good_kernels t K.
  Hypothesis Hamp : 0 < cabs (at2 kpsf 0 0).
  Definition psf_inv (P : nat * nat -> cplx) (kl : nat * nat) : cplx := cinv (trunc_mode (MIN_PSF_FRAC * cabs (P (0%nat, 0%nat))) (P kl)).
  Let P (kl : nat * nat) := at2 kpsf (fst kl) (snd kl).
  Definition mode_moment (F pinv : nat * nat -> cplx) (msk : list (nat * nat)) (fk : list R) : R :=
    rsum (map (fun z => re (cmul (cmul (F (fst z)) (pinv (fst z))) (cis (dot t (fst z) drow dcol))) * snd z) (combine msk fk)) / INR t ^ 2.
  Definition mode_cov (pinv : nat * nat -> cplx) (msk : list (nat * nat)) (fa fb : list R) : R :=
    rsum (map (fun z => fst (snd z) * snd (snd z) * csq (pinv (fst z))) (combine msk (combine fa fb))).
  Let cov i j : R :=
    if Nat.leb 2 i && Nat.leb 2 j
    then mode_cov (psf_inv P) (k_msk K) (kern_at K (Nat.min i j - 2)) (kern_at K (Nat.max i j - 2)) * (tot_var * eff ^ 2 / INR t ^ 4)
    else if Nat.eqb i j then 1 else 0.

  Lemma cis_dot_00 kl : cis (dot t kl 0 0) = mkC 1 0.
  Proof. unfold dot. replace (2 * PI * _) with 0 by ring. apply cis_0. Qed.
  Lemma frac_pos : 0 < MIN_PSF_FRAC * cabs (at2 kpsf 0 0).
  Proof. unfold MIN_PSF_FRAC. nra. Qed.
  Lemma sum_conj_cov (Q : nat * nat -> cplx) msk fa fb : length fa = length msk -> length fb = length msk ->
    sum_conj (psf_kern fa (map Q msk)) (psf_kern fb (map Q msk)) =
    rsum (map (fun z => fst (snd z) * snd (snd z) * csq (Q (fst z))) (combine msk (combine fa fb))).
  Proof.
    unfold sum_conj, psf_kern. revert fa fb. induction msk as [|m msk IH]; intros [|a fa] [|b fb] La Lb; try discriminate; [reflexivity|].
    cbn [map combine fst snd]. rewrite !rsum_cons. rewrite IH by (cbn in *; lia). f_equal. unfold csq. cbn. ring.
  Qed.
  Lemma measure_closed : (0 < t)%nat -> exists ms cv,
    measure_fft kim kpsf tot_var eff K drow dcol = Some (Ok (ms, cv, k_00 K)) /\
    ms = NaN :: NaN :: map (fun i => Fin (mode_moment (fun kl => at2 kim (fst kl) (snd kl)) (psf_inv P) (k_msk K) (kern_at K i))) [0%nat; 1%nat; 2%nat; 3%nat] /\
    sm_n cv = 6%nat /\ forall i j, (i < 6)%nat -> (j < 6)%nat -> sm_at cv i j = Fin (cov i j).
  Proof.
    intros Ht. unfold measure_fft. cbv zeta. destruct Hkim as [A1 A2], Hpsf as [B1 B2]. rewrite A1.
    unfold select. rewrite A1, A2, B1, B2, Nat.eqb_refl. cbn [andb].
    rewrite deconvolve_some; [|now rewrite !map_length|apply frac_pos].
    set (msk := k_msk K). rewrite map_map. change (fun x => trunc_mode (MIN_PSF_FRAC * cabs (at2 kpsf 0 0)) (at2 kpsf (fst x) (snd x))) with
      (fun kl => trunc_mode (MIN_PSF_FRAC * cabs (P (0%nat, 0%nat))) (P kl)).
    rewrite combine_map_map, map_map. cbn [fst snd].
    set (F := fun kl : nat * nat => at2 kim (fst kl) (snd kl)).
    assert (KL : (if Reqb drow 0 && Reqb dcol 0 then map (fun x => cmul (at2 kim (fst x) (snd x)) (cinv (trunc_mode (MIN_PSF_FRAC * cabs (P (0%nat, 0%nat))) (P x)))) msk
       else map (fun x => cmul (fst x) (cen_phase drow dcol t (snd x))) (combine (map (fun x => cmul (at2 kim (fst x) (snd x)) (cinv (trunc_mode (MIN_PSF_FRAC * cabs (P (0%nat, 0%nat))) (P x)))) msk) msk))
      = map (fun kl => cmul (cmul (F kl) (psf_inv P kl)) (cis (dot t kl drow dcol))) msk).
    { destruct (Reqb drow 0 && Reqb dcol 0) eqn:E.
      - apply andb_true_iff in E. destruct E as [E1 E2]. apply Reqb_true in E1, E2. rewrite E1, E2. apply map_ext. intros kl. rewrite cis_dot_00, cmul_1. reflexivity.
      - rewrite combine_map_self, map_map. apply map_ext. intros kl. cbn [fst snd]. rewrite cen_phase_dot. reflexivity. }
    rewrite KL. unfold measure_numba. cbv zeta.
    rewrite cdivs_some; [|now rewrite map_length|].
    2:{ intros y Hy. apply in_map_iff in Hy. destruct Hy as (z & <- & _). apply trunc_nonzero. apply frac_pos. }
    assert (PI_ : map (fun x => cmul (fst x) (cinv (snd x))) (combine (map (fun _ => mkC 1 0) (map (fun kl => trunc_mode (MIN_PSF_FRAC * cabs (P (0%nat, 0%nat))) (P kl)) msk)) (map (fun kl => trunc_mode (MIN_PSF_FRAC * cabs (P (0%nat, 0%nat))) (P kl)) msk)) = map (psf_inv P) msk).
    { rewrite map_map, combine_map_map, map_map. apply map_ext. intros kl. cbn [fst snd]. rewrite cmul_comm, cmul_1. reflexivity. }
    rewrite PI_. do 2 eexists. split; [reflexivity|]. assert (T0 : INR t <> 0) by (apply not_0_INR; lia).
    assert (SM : forall fk, sum_re (map (fun kl => cmul (cmul (F kl) (psf_inv P kl)) (cis (dot t kl drow dcol))) msk) fk * (1 / INR t * (1 / INR t)) = mode_moment F (psf_inv P) msk fk).
    { intros fk. unfold sum_re, mode_moment. rewrite combine_map_l, map_map. cbn [fst snd]. field. exact T0. }
    split; [|split; [reflexivity|]].
    - cbn [map]. rewrite !SM. reflexivity.
    - intros i j Hi Hj. cbn [sm_at]. f_equal. unfold cov. destruct (Nat.leb 2 i && Nat.leb 2 j) eqn:E; [|reflexivity].
      apply andb_true_iff in E. destruct E as [E1 E2]. apply Nat.leb_le in E1, E2.
      assert (KA : forall a, (2 <= a < 6)%nat -> match a with 2%nat => k_p K | 3%nat => k_c K | 4%nat => k_r K | _ => k_f K end = kern_at K (a - 2)).
      { intros a Ha. do 6 (destruct a as [|a]; [first [lia|reflexivity]|]). lia. }
      rewrite !KA by lia. rewrite (sum_conj_cov (psf_inv P)) by (apply (gk_len t K HK)). fold msk. unfold mode_cov. field. exact T0.
  Qed.
End Measure.
