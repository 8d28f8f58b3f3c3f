(** C144: kernels, moments and covariances in turned coordinates. *)
From Verif Require Import Base XReal Moments_Model Jacobian_Model Jacobian_Spec Pixels_Model FastExp_Model MomResult_Model MomResult_Spec MomResult_Proofs PrePSF_Model PrePSF_Spec PrePSF_Proofs PrePSF2_Proofs PrePSF3_Proofs PrePSF6_Proofs Motion_Spec Turn_Spec Turn_Proofs PrePSFTurn_Spec.
From Coq Require Import Psatz Nsatz FunctionalExtensionality.
Local Open Scope R_scope.

(** ** linear combinations of kernels *)
Definition comb (a b : R) (p q : list R) : list R := map (fun z => a * fst z + b * snd z) (combine p q).
Definition bil (f g : list R) (q : list cplx) : R := rsum (map (fun z => fst (fst z) * snd (fst z) * csq (snd z)) (combine (combine f g) q)).
Lemma sum_conj_bil f g q : sum_conj (psf_kern f q) (psf_kern g q) = bil f g q.
Proof.
  unfold sum_conj, psf_kern, bil. revert g q. induction f as [|a f IH]; intros [|b g] [|c q]; try reflexivity.
  cbn [map combine fst snd]. rewrite !rsum_cons, IH. f_equal. unfold csq. cbn. ring.
Qed.
Lemma bil_sym f g q : bil f g q = bil g f q.
Proof.
  unfold bil. revert g q. induction f as [|a f IH]; intros [|b g] [|c q]; try reflexivity.
  cbn [map combine fst snd]. rewrite !rsum_cons, IH. f_equal. ring.
Qed.
Lemma bil_comb a b p p' g q : length p = length p' -> bil (comb a b p p') g q = a * bil p g q + b * bil p' g q.
Proof.
  unfold bil, comb. revert p' g q. induction p as [|x p IH]; intros [|y p'] g q L; try discriminate; [cbn; ring|].
  destruct g as [|z g]; [cbn; ring|]. destruct q as [|w q]; [cbn; ring|].
  injection L as L. cbn [map combine fst snd]. rewrite !rsum_cons, IH by exact L. ring.
Qed.
Lemma bil_nonneg f q : 0 <= bil f f q.
Proof.
  unfold bil. apply rsum_nonneg. intros x Hx. apply in_map_iff in Hx. destruct Hx as (z & <- & I).
  assert (S : fst (fst z) = snd (fst z)).
  { destruct z as [z w]. apply in_combine_l in I. destruct z as [x y]. cbn. clear w. revert I. generalize f at 1 2. intros l. clear. induction l as [|a l IH]; intros I; [destruct I|]. destruct I as [[= -> ->]|I]; auto. }
  rewrite S. apply Rmult_le_pos; [apply Rle_0_sqr|apply csq_nonneg].
Qed.
Lemma sum_re_comb a b p p' k : length p = length p' -> sum_re k (comb a b p p') = a * sum_re k p + b * sum_re k p'.
Proof.
  unfold sum_re, comb. revert p' k. induction p as [|x p IH]; intros [|y p'] k L; try discriminate; [destruct k; cbn; ring|].
  destruct k as [|z k]; [cbn; ring|]. injection L as L. cbn [map combine fst snd]. rewrite !rsum_cons, IH by exact L. ring.
Qed.
(** Cauchy-Schwarz *)
Lemma form_cauchy A C D : (forall a b, 0 <= a * a * A + 2 * (a * b) * C + b * b * D) -> C * C <= A * D.
Proof.
  intros H. destruct (Rlt_le_dec 0 D) as [P|P].
  - pose proof (H D (- C)) as Q. assert (0 <= D * (A * D - C * C)) by nra. apply Rmult_le_reg_l with D; [exact P|]. lra.
  - pose proof (H 0 1) as Q. assert (D = 0) by lra. subst D. destruct (Req_dec C 0) as [->|N]; [lra|].
    pose proof (H 1 (- (A + 1) / (2 * C))) as Q2. exfalso. replace (2 * (1 * (- (A + 1) / (2 * C))) * C) with (- (A + 1)) in Q2 by (field; exact N). lra.
Qed.
Lemma bil_cauchy f g q : length f = length g -> bil f g q * bil f g q <= bil f f q * bil g g q.
Proof.
  intros L. apply form_cauchy. intros a b. replace (a * a * bil f f q + 2 * (a * b) * bil f g q + b * b * bil g g q) with (bil (comb a b f g) (comb a b f g) q); [apply bil_nonneg|].
  rewrite bil_comb by exact L. rewrite (bil_sym f (comb a b f g)), (bil_sym g (comb a b f g)), !bil_comb by exact L. rewrite (bil_sym g f). ring.
Qed.

Section T.
Variable t : R.
Let c := cos t.
Let s := sin t.
Lemma cs1 : c * c + s * s = 1. Proof. unfold c, s. pose proof (sin2_cos2 t). unfold Rsqr in *. lra. Qed.
Lemma cs2 : cos (2 * t) * cos (2 * t) + sin (2 * t) * sin (2 * t) = 1. Proof. pose proof (sin2_cos2 (2 * t)). unfold Rsqr in *. lra. Qed.

(** ** jacobians *)
Definition wcs_turned (w w' : wcs2) : Prop :=
  a_vrow w' = c * a_vrow w - s * a_urow w /\ a_vcol w' = c * a_vcol w - s * a_ucol w /\
  a_urow w' = s * a_vrow w + c * a_urow w /\ a_ucol w' = s * a_vcol w + c * a_ucol w.
Lemma sky_wcs j j' : sky_turned t j j' -> wcs_turned (wcs_of j) (wcs_of j').
Proof.
  intros (R0 & C0 & H).
  destruct (H (row0 j + 1) (col0 j) _ _ _ _ (conj eq_refl eq_refl) (conj eq_refl eq_refl)) as [A B].
  destruct (H (row0 j) (col0 j + 1) _ _ _ _ (conj eq_refl eq_refl) (conj eq_refl eq_refl)) as [A' B'].
  unfold moved_v, moved_u in *. rewrite R0, C0 in *. unfold wcs_turned, c, s. cbn. repeat split; nra.
Qed.
Lemma same_wcs_iff a b : same_wcs a b = true <-> wcs_of a = wcs_of b.
Proof.
  unfold same_wcs, get_galsim_wcs, wcs_of. cbn. rewrite !andb_true_iff, !Reqb_true. split.
  - intros (((A & B) & D) & E). f_equal; assumption.
  - intros [= A B D E]. auto.
Qed.
Lemma wcs_back w w' x x' : wcs_turned w w' -> wcs_turned x x' -> (w = x <-> w' = x').
Proof.
  intros (A & B & D & E) (A' & B' & D' & E'). pose proof cs1 as H. split; intros X.
  - subst x. destruct w', x'. cbn in *. congruence.
  - subst x'. destruct w as [a b d e], x as [a' b' d' e'], w' as [p q y z]. cbn in *. rewrite A in A'. rewrite B in B'. rewrite D in D'. rewrite E in E'. f_equal; nsatz.
Qed.
Lemma same_wcs_turned a a' b b' : sky_turned t a a' -> sky_turned t b b' -> same_wcs a' b' = same_wcs a b.
Proof.
  intros H1 H2. pose proof (wcs_back _ _ _ _ (sky_wcs _ _ H1) (sky_wcs _ _ H2)) as X. apply eq_true_iff_eq. rewrite !same_wcs_iff. symmetry. exact X.
Qed.
Lemma inv_turned w w' : wcs_turned w w' -> match Atinv w, Atinv w' with Ok A, Ok A' => wcs_turned A A' | Raise e, Raise e' => e = e' | _, _ => False end.
Proof.
  intros (A & B & D & E). unfold Atinv. rewrite A, B, D, E. pose proof cs1 as H.
  replace ((c * a_vrow w - s * a_urow w) * (s * a_vcol w + c * a_ucol w) - (c * a_vcol w - s * a_ucol w) * (s * a_vrow w + c * a_urow w)) with (a_vrow w * a_ucol w - a_vcol w * a_urow w) by nsatz.
  destruct (Reqb_spec (a_vrow w * a_ucol w - a_vcol w * a_urow w) 0) as [Z|Z]; [reflexivity|]. unfold wcs_turned. cbn. repeat split; field; exact Z.
Qed.

(** ** kernels *)
Definition kernels_turned (K K' : kernels) : Prop :=
  k_msk K' = k_msk K /\ k_f K' = k_f K /\ k_r K' = k_r K /\ k_nrm K' = k_nrm K /\ k_00 K' = k_00 K /\
  length (k_p K) = length (k_c K) /\ length (k_r K) = length (k_c K) /\
  k_p K' = comb (cos (2 * t)) (sin (2 * t)) (k_p K) (k_c K) /\ k_c K' = comb (- sin (2 * t)) (cos (2 * t)) (k_p K) (k_c K).
Lemma comb_map {X} a b (f g : X -> R) l : comb a b (map f l) (map g l) = map (fun x => a * f x + b * g x) l.
Proof. unfold comb. rewrite combine_map_map, map_map. reflexivity. Qed.
Section K.
Variables (A A' : wcs2) (n : nat).
Hypothesis H : wcs_turned A A'.
Lemma fv_turned kl : fv_of A' n kl = c * fv_of A n kl - s * fu_of A n kl.
Proof. destruct H as (H1 & H2 & H3 & H4). unfold fv_of, fu_of. rewrite H1, H2. ring. Qed.
Lemma fu_turned kl : fu_of A' n kl = s * fv_of A n kl + c * fu_of A n kl.
Proof. destruct H as (H1 & H2 & H3 & H4). unfold fv_of, fu_of. rewrite H3, H4. ring. Qed.
Lemma fmag_turned : fmag2_of A' n = fmag2_of A n.
Proof. apply functional_extensionality. intros kl. unfold fmag2_of. rewrite fv_turned, fu_turned. transitivity ((c * c + s * s) * (fu_of A n kl ^ 2 + fv_of A n kl ^ 2)); [ring|]. rewrite cs1. ring. Qed.
Lemma det_turned : det_of A' = det_of A.
Proof. destruct H as (H1 & H2 & H3 & H4). unfold det_of. rewrite H1, H2, H3, H4. pose proof cs1. nsatz. Qed.
End K.
Lemma ksigma_turned n fw w w' sm : wcs_turned w w' ->
  match ksigma_kernels n fw w sm, ksigma_kernels n fw w' sm with Ok K, Ok K' => kernels_turned K K' | Raise e, Raise e' => e = e' | _, _ => False end.
Proof.
  intros H. unfold ksigma_kernels. pose proof (inv_turned w w' H) as I. destruct (Atinv w) as [A|e], (Atinv w') as [A'|e']; try contradiction; [|exact I]. cbn [bind].
  destruct (Reqb (fwhm_to_sigma fw) 0); [reflexivity|]. rewrite (fmag_turned A A' n I), (det_turned A A' I).
  destruct (negb _); [reflexivity|]. destruct (smooth_list _ _) as [sl|]; [|reflexivity]. cbn [bind].
  unfold kernels_turned. cbn [k_msk k_f k_r k_p k_c k_nrm k_00]. rewrite !map_length, !comb_map. repeat (split; [reflexivity|]).
  split; apply map_ext; intros [kl x]; rewrite (fv_turned A A' n I), (fu_turned A A' n I), cos_2a, sin_2a; fold c s; ring.
Qed.
Lemma gauss_turned n fw w w' sm : wcs_turned w w' ->
  match gauss_kernels n fw w sm, gauss_kernels n fw w' sm with Ok K, Ok K' => kernels_turned K K' | Raise e, Raise e' => e = e' | _, _ => False end.
Proof.
  intros H. unfold gauss_kernels. pose proof (inv_turned w w' H) as I. destruct (Atinv w) as [A|e], (Atinv w') as [A'|e']; try contradiction; [|exact I]. cbn [bind].
  rewrite (fmag_turned A A' n I), (det_turned A A' I). destruct (mapM _ _) as [ev|]; [|reflexivity]. cbn [bind].
  destruct (negb _); [reflexivity|]. destruct (smooth_list _ _) as [sl|]; [|reflexivity]. cbn [bind].
  unfold kernels_turned. cbn [k_msk k_f k_r k_p k_c k_nrm k_00]. rewrite !map_length, !comb_map. repeat (split; [reflexivity|]).
  split; apply map_ext; intros [kl x]; rewrite (fv_turned A A' n I), (fu_turned A A' n I), cos_2a, sin_2a; fold c s; ring.
Qed.
Lemma kernels_are_turned f n w w' : wcs_turned w w' ->
  match make_kernels f n w, make_kernels f n w' with Ok K, Ok K' => kernels_turned K K' | Raise e, Raise e' => e = e' | _, _ => False end.
Proof. intros H. unfold make_kernels. destruct (ft_kind f); [apply ksigma_turned|apply gauss_turned]; exact H. Qed.

(** ** moments and covariances *)
(** what is known about sums and covariance *)
Definition raw_turned (a a' : list xr * smat * R) : Prop :=
  exists p q r0 fl (V V' : nat -> nat -> R), a = ([NaN; NaN; Fin p; Fin q; Fin r0; Fin fl], snd (fst a), snd a) /\
    a' = ([NaN; NaN; Fin (turned_1 t p q); Fin (turned_2 t p q); Fin r0; Fin fl], snd (fst a'), snd a) /\
    sm_n (snd (fst a)) = 6%nat /\ sm_n (snd (fst a')) = 6%nat /\ sm_at (snd (fst a)) = (fun i j => Fin (V i j)) /\ sm_at (snd (fst a')) = (fun i j => Fin (V' i j)) /\
    V' 4%nat 4%nat = V 4%nat 4%nat /\ V' 5%nat 5%nat = V 5%nat 5%nat /\ V' 4%nat 5%nat = V 4%nat 5%nat /\
    V' 2%nat 4%nat = turned_1 t (V 2%nat 4%nat) (V 3%nat 4%nat) /\ V' 3%nat 4%nat = turned_2 t (V 2%nat 4%nat) (V 3%nat 4%nat) /\
    V' 2%nat 2%nat + V' 3%nat 3%nat = V 2%nat 2%nat + V 3%nat 3%nat /\
    (forall x, quad4 (fun i j => V' (2 + i)%nat (2 + j)%nat) (turn4 t x) = quad4 (fun i j => V (2 + i)%nat (2 + j)%nat) x) /\
    (forall i, 0 <= V i i) /\ (forall i, 0 <= V' i i) /\
    (forall i, i = 2%nat \/ i = 3%nat -> V i 4%nat * V i 4%nat <= V i i * V 4%nat 4%nat) /\ (forall i, i = 2%nat \/ i = 3%nat -> V' i 4%nat * V' i 4%nat <= V' i i * V' 4%nat 4%nat).
Lemma numba_turned kim kpsf dim eff K K' tv : 0 <= tv -> kernels_turned K K' ->
  match measure_numba kim kpsf dim eff K tv, measure_numba kim kpsf dim eff K' tv with Some a, Some a' => raw_turned a a' | None, None => True | _, _ => False end.
Proof.
  intros TV (M & F & Rr & N & Z & L & L2 & P & C). unfold measure_numba. rewrite F, Rr, Z, P, C.
  destruct (cdivs _ kpsf) as [inv|]; [|exact I]. set (w := tv * eff ^ 2 * _).
  assert (W : 0 <= w). { unfold w. apply Rmult_le_pos; [apply Rmult_le_pos; [exact TV|apply pow2_ge_0]|]. apply Rle_0_sqr. }
  rewrite !sum_re_comb by exact L.
  unfold raw_turned. cbn [fst snd sm_n sm_at].
  eexists _, _, _, _, (fun i j => if Nat.leb 2 i && Nat.leb 2 j then sum_conj (psf_kern (match Nat.min i j with 2%nat => k_p K | 3%nat => k_c K | 4%nat => k_r K | _ => k_f K end) inv) (psf_kern (match Nat.max i j with 2%nat => k_p K | 3%nat => k_c K | 4%nat => k_r K | _ => k_f K end) inv) * w else if Nat.eqb i j then 1 else 0), _.
  split; [reflexivity|]. split; [unfold turned_1, turned_2; do 2 f_equal; repeat (apply (f_equal2 cons); [try reflexivity; apply f_equal; ring|]); reflexivity|]. split; [reflexivity|]. split; [reflexivity|]. split; [reflexivity|]. split; [reflexivity|].
  cbv beta. cbn [Nat.leb andb Nat.min Nat.max]. rewrite !sum_conj_bil.
  set (p' := comb (cos (2 * t)) (sin (2 * t)) (k_p K) (k_c K)). set (c' := comb (- sin (2 * t)) (cos (2 * t)) (k_p K) (k_c K)).
  assert (Bp : forall g, bil p' g inv = cos (2 * t) * bil (k_p K) g inv + sin (2 * t) * bil (k_c K) g inv) by (intros; apply bil_comb; exact L).
  assert (Bc : forall g, bil c' g inv = - sin (2 * t) * bil (k_p K) g inv + cos (2 * t) * bil (k_c K) g inv) by (intros; apply bil_comb; exact L).
  assert (Lp : length p' = length (k_r K)) by (unfold p', comb; rewrite map_length, combine_length; lia). assert (Lc : length c' = length (k_r K)) by (unfold c', comb; rewrite map_length, combine_length; lia).
  pose proof cs2 as H2.
  split; [reflexivity|]. split; [reflexivity|]. split; [reflexivity|].
  split; [rewrite Bp; unfold turned_1; ring|]. split; [rewrite Bc; unfold turned_2; ring|].
  split.
  { rewrite Bp, Bc, (bil_sym (k_p K) p'), (bil_sym (k_c K) p'), (bil_sym (k_p K) c'), (bil_sym (k_c K) c'), !Bp, !Bc, (bil_sym (k_c K) (k_p K)). nsatz. }
  split.
  { intros x. unfold quad4. rewrite !dsum4, !sumn4. cbn [Nat.leb Nat.add andb Nat.min Nat.max turn4]. rewrite !sum_conj_bil.
    rewrite ?Bp, ?Bc, ?(bil_sym (k_p K) p'), ?(bil_sym (k_c K) p'), ?(bil_sym (k_p K) c'), ?(bil_sym (k_c K) c'), ?Bp, ?Bc, ?(bil_sym (k_c K) (k_p K)). unfold turned_1, turned_2. 
    generalize (bil (k_p K) (k_p K) inv), (bil (k_p K) (k_c K) inv), (bil (k_c K) (k_c K) inv), (bil (k_p K) (k_r K) inv), (bil (k_p K) (k_f K) inv), (bil (k_c K) (k_r K) inv), (bil (k_c K) (k_f K) inv), (bil (k_r K) (k_r K) inv), (bil (k_r K) (k_f K) inv), (bil (k_f K) (k_f K) inv), (x 0%nat), (x 1%nat), (x 2%nat), (x 3%nat).
    revert H2. generalize (cos (2 * t)), (sin (2 * t)). clear. intros. nsatz. }
  assert (NN : forall f g, f = g -> 0 <= sum_conj (psf_kern f inv) (psf_kern g inv) * w) by (intros f g ->; rewrite sum_conj_bil; apply Rmult_le_pos; [apply bil_nonneg|exact W]).
  split; [intros i; destruct (_ && _); [apply NN; rewrite Nat.max_id, Nat.min_id; reflexivity|destruct (Nat.eqb i i); lra]|].
  split; [intros i; destruct (_ && _); [apply NN; rewrite Nat.max_id, Nat.min_id; reflexivity|destruct (Nat.eqb i i); lra]|].
  assert (CC : forall f g, length f = length g -> (bil f g inv * w) * (bil f g inv * w) <= (bil f f inv * w) * (bil g g inv * w)).
  { intros f g E. pose proof (bil_cauchy f g inv E) as Q. assert (0 <= (bil f f inv * bil g g inv - bil f g inv * bil f g inv) * (w * w)) by (apply Rmult_le_pos; [lra|apply Rle_0_sqr]). lra. }
  split; intros i [->| ->]; cbn [Nat.leb andb Nat.min Nat.max]; rewrite !sum_conj_bil; apply CC; lia.
Qed.
Lemma fft_turned kim kpsf tv eff K K' dr dc : 0 <= tv -> kernels_turned K K' ->
  match measure_fft kim kpsf tv eff K dr dc, measure_fft kim kpsf tv eff K' dr dc with
  | Some (Ok a), Some (Ok a') => raw_turned a a' | Some (Raise e), Some (Raise e') => e' = e | None, None => True | _, _ => False end.
Proof.
  intros TV H. unfold measure_fft. rewrite (proj1 H). destruct (select _ _ kim); [|reflexivity]. destruct (select _ _ kpsf); [|reflexivity].
  destruct (deconvolve _ _ _ _) as [[[kl pl] mk]|]; [|exact I]. match goal with |- context [measure_numba ?k _ _ _ _ _] => set (kk := k) end.
  pose proof (numba_turned kk pl (nrow kim) eff K K' tv TV H) as Q. destruct (measure_numba _ _ _ _ K _), (measure_numba _ _ _ _ K' _); try contradiction; exact Q.
Qed.

(** ** results *)
Lemma mul_pos_inv x y : 0 < y -> 0 < x / y -> 0 < x.
Proof. intros Y X. replace x with (x / y * y) by (field; lra). apply Rmult_lt_0_compat; assumption. Qed.
Lemma unflagged p q r0 fl cov sn r (V : nat -> nat -> R) : make_mom_result [NaN; NaN; Fin p; Fin q; Fin r0; Fin fl] cov sn = Ok r -> sm_n cov = 6%nat -> sm_at cov = (fun i j => Fin (V i j)) ->
  m_flags r = 0%Z -> 0 < r0 /\ m_e1 r = Fin (p / r0) /\ m_e2 r = Fin (q / r0) /\
    m_e_err r = (Fin (sqrt (Rmax 0 (ratio_var p r0 (V 2%nat 2%nat) (V 4%nat 4%nat) (V 2%nat 4%nat)))), Fin (sqrt (Rmax 0 (ratio_var q r0 (V 3%nat 3%nat) (V 4%nat 4%nat) (V 3%nat 4%nat))))).
Proof.
  intros E N C Z. set (sums := [NaN; NaN; Fin p; Fin q; Fin r0; Fin fl]) in *.
  assert (S : shapes_ok sums cov) by (unfold shapes_ok; rewrite N; cbn; lia).
  destruct (mom_result_full sums cov sn S) as (r' & E' & _ & _ & _ & Tf & _ & _ & _ & _ & A & _). rewrite E in E'. injection E' as <-. rewrite Z in Tf.
  destruct (flags_zero _ _ _ Tf) as (D & P5 & P4 & E1 & E2). cbn in P5. assert (Q : xdiv (Fin r0) (Fin fl) = Fin (r0 / fl)) by (cbn; rewrite Reqb_f by lra; reflexivity).
  cbn [List.nth sums] in P4. rewrite Q in P4. cbn in P4. pose proof (mul_pos_inv _ _ P5 P4) as R0. split; [exact R0|].
  destruct (A D P5) as (B1 & B2 & a & b & Ga & Gb & Ee & _). { cbn [List.nth sums]. rewrite Q. exact P4. }
  cbn [List.nth sums] in B1, B2, Ga, Gb. rewrite B1, B2. cbn [xdiv]. rewrite Reqb_f by lra. split; [reflexivity|]. split; [reflexivity|].
  rewrite C in Ga, Gb.
  assert (NP : p <> 0). { intros ->. rewrite ratio_error_0 in Ga by lra. injection Ga as <-. cbn in Ee. rewrite Ee in E1. destruct E1 as (? & [=]). }
  assert (NQ : q <> 0). { intros ->. rewrite ratio_error_0 in Gb by lra. injection Gb as <-. rewrite andb_false_r in Ee. rewrite Ee in E1. destruct E1 as (? & [=]). }
  rewrite ratio_error_ok in Ga by lra. rewrite ratio_error_ok in Gb by lra. injection Ga as <-. injection Gb as <-. exact Ee.
Qed.
Lemma result_turned a a' r r' : raw_turned a a' -> make_mom_result (fst (fst a)) (snd (fst a)) (Some (Fin (snd a))) = Ok r -> make_mom_result (fst (fst a')) (snd (fst a')) (Some (Fin (snd a'))) = Ok r' ->
  moments_turned t r r' /\ (m_flags r = 0%Z -> m_flags r' = 0%Z -> shape_turned t r r').
Proof.
  intros (p & q & r0 & fl & V & V' & Ea & Ea' & N & N' & C & C' & V44 & V55 & V45 & V24 & V34 & VS & VQ & D & D' & Cs & Cs') E E'.
  destruct a as [[sm cv] kn], a' as [[sm' cv'] kn']. cbn [fst snd] in *. injection Ea as ->. injection Ea' as -> ->.
  destruct (mom_shape _ cv (Some (Fin kn)) (eq_refl : length [NaN; NaN; Fin p; Fin q; Fin r0; Fin fl] = 6%nat) N) as (x & X & X1 & X2 & X3). rewrite E in X. injection X as <-.
  destruct (mom_shape _ cv' (Some (Fin kn)) (eq_refl : length [NaN; NaN; Fin (turned_1 t p q); Fin (turned_2 t p q); Fin r0; Fin fl] = 6%nat) N') as (x & X & Y1 & Y2 & Y3). rewrite E' in X. injection X as <-.
  split.
  - unfold moments_turned. split; [exists (fun i => match i with 0%nat => p | 1%nat => q | 2%nat => r0 | _ => fl end); split; [exact X1|exact Y1]|].
    split.
    { intros y. specialize (VQ y). unfold cov4. rewrite X2, Y2, C, C'. exact VQ. }
    assert (SN : forall su c sn r, make_mom_result su c (Some sn) = Ok r -> m_sums_norm r = sn).
    { clear. intros su c0 sn r E. unfold make_mom_result in E. repeat (match type of E with (if ?b then _ else _) = _ => destruct b; [discriminate|] end).
      do 13 (match type of E with bind ?b _ = _ => destruct b; [|discriminate]; cbn [bind] in E end).
      destruct (if xgtb _ _ then _ else _) as [[? ?] ?] in E. match type of E with bind ?b _ = _ => destruct b as [[[? ?] ?]|]; [|discriminate] end. cbn [bind] in E.
      destruct (if forallb _ _ then _ else _) as [? ?] in E. match type of E with bind ?b _ = _ => destruct b as [[[[[? ?] ?] ?] ?]|]; [|discriminate] end. cbn [bind] in E.
      destruct (add_moments_by_name _ _); [|discriminate]. cbn [bind] in E. injection E as <-. reflexivity. }
    split; [rewrite (SN _ _ _ _ E), (SN _ _ _ _ E'); reflexivity|]. split; [rewrite X3, Y3; reflexivity|].
    destruct (same_parts _ _ _ _ _ _ _ _ E E') as [SS FE]; [reflexivity|reflexivity|..]; [rewrite !mget_ok by lia; rewrite C, C'; f_equal; f_equal; assumption..|]. split; [exact FE|exact SS].
  - intros Z Z'. destruct (unflagged _ _ _ _ _ _ _ V E N C Z) as (P0 & A1 & A2 & A3). destruct (unflagged _ _ _ _ _ _ _ V' E' N' C' Z') as (_ & B1 & B2 & B3).
    unfold shape_turned. do 6 eexists. split; [exact A1|]. split; [exact A2|]. split; [rewrite B1; f_equal; unfold turned_1; field; lra|]. split; [rewrite B2; f_equal; unfold turned_2; field; lra|].
    split; [exact A3|]. split; [exact B3|]. rewrite !Rmax_nonneg by (apply ratio_var_nonneg; [lra|apply D || apply D'|apply D || apply D'|(apply Cs || apply Cs'); auto]).
    rewrite !pow2_sqrt by (apply ratio_var_nonneg; [lra|apply D || apply D'|apply D || apply D'|(apply Cs || apply Cs'); auto]).
    rewrite V44, V24, V34. unfold turned_1, turned_2. apply spread_turned; [apply cs2|lra|exact VS].
Qed.
Lemma meas_turned f o o' psf psf' : pp_im o' = pp_im o -> pp_wt o' = pp_wt o -> sky_turned t (pp_jac o) (pp_jac o') ->
  match psf, psf' with Some (p, j), Some (p', j') => p' = p /\ sky_turned t j j' | None, None => True | _, _ => False end ->
  same_go (fun r r' => moments_turned t r r' /\ (m_flags r = 0%Z -> m_flags r' = 0%Z -> shape_turned t r r')) (meas f o psf) (meas f o' psf').
Proof.
  intros Hi Hw Hj Hp. unfold meas. assert (HT : target_of f o' psf' = target_of f o psf).
  { unfold target_of. rewrite Hi. destruct psf as [[p j]|], psf' as [[p' j']|]; try contradiction; [destruct Hp as [-> _]; reflexivity|reflexivity]. }
  rewrite HT, Hi, Hw, (proj1 Hj), (proj1 (proj2 Hj)). destruct (Nat.eqb _ 0); [reflexivity|].
  destruct (pad_fft (pp_im o) _ _ _ _) as [[[kim a] b]|]; [|reflexivity].
  assert (PF : match psf' with Some (pim, pj) => pad_fft pim (row0 pj) (col0 pj) (target_of f o psf) 0 | None => Ok (pixel_fft (nrow kim), 0, 0) end =
               match psf with Some (pim, pj) => pad_fft pim (row0 pj) (col0 pj) (target_of f o psf) 0 | None => Ok (pixel_fft (nrow kim), 0, 0) end).
  { destruct psf as [[p j]|], psf' as [[p' j']|]; try contradiction; [|reflexivity]. destruct Hp as (-> & R & C & _). rewrite R, C. reflexivity. }
  rewrite PF. destruct (match psf with Some _ => _ | None => _ end) as [[[kpsf a'] b']|]; [|reflexivity].
  pose proof (kernels_are_turned f (Z.to_nat (target_of f o psf)) _ _ (sky_wcs _ _ Hj)) as HK.
  destruct (make_kernels f _ (wcs_of (pp_jac o))) as [K|e], (make_kernels f _ (wcs_of (pp_jac o'))) as [K'|e']; try contradiction; [|symmetry; exact HK].
  pose proof (fft_turned kim kpsf (total_var (pp_wt o)) (IZR (target_of f o psf) / INR (nrow (pp_im o))) K K' (a - a') (b - b') (total_var_nonneg _) HK) as Q.
  destruct (measure_fft _ _ _ _ K _ _) as [[x|e]|], (measure_fft _ _ _ _ K' _ _) as [[x'|e']|]; try contradiction; [|exact Q|exact I].
  destruct x as [[sm cv] kn], x' as [[sm' cv'] kn'].
  assert (SH : exists r, make_mom_result sm cv (Some (Fin kn)) = Ok r) by (destruct Q as (p & q & r0 & fl & V & V' & Ea & _ & N & _); cbn in Ea, N; injection Ea as ->; destruct (mom_shape [NaN; NaN; Fin p; Fin q; Fin r0; Fin fl] cv (Some (Fin kn)) eq_refl N) as (r & X & _); exists r; exact X).
  assert (SH' : exists r, make_mom_result sm' cv' (Some (Fin kn')) = Ok r) by (destruct Q as (p & q & r0 & fl & V & V' & _ & Ea & _ & N & _); cbn in Ea, N; injection Ea as -> ->; destruct (mom_shape [NaN; NaN; Fin (turned_1 t p q); Fin (turned_2 t p q); Fin r0; Fin fl] cv' (Some (Fin kn)) eq_refl N) as (r & X & _); exists r; exact X).
  destruct SH as (r & E), SH' as (r' & E'). rewrite E, E'. apply (result_turned _ _ _ _ Q E E').
Qed.
Lemma go_turned f o o' np : stamps_turned t o o' ->
  same_go (fun r r' => moments_turned t r r' /\ (m_flags r = 0%Z -> m_flags r' = 0%Z -> shape_turned t r r')) (go f o np) (go f o' np).
Proof.
  intros (Hi & Hw & Hj & Hp). unfold go, check_obs. rewrite Hi. destruct (negb _); [reflexivity|]. destruct np; [apply meas_turned; auto; exact I|].
  destruct (pp_psf o) as [[p j]|], (pp_psf o') as [[p' j']|]; try contradiction; [|reflexivity]. cbn [snd].
  rewrite (same_wcs_turned _ _ _ _ (proj2 Hp) Hj). destruct (negb _); [reflexivity|]. apply meas_turned; assumption.
Qed.
End T.
