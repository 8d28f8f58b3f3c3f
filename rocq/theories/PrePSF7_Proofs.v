(** Moments as a fixed linear filter; copies of the psf; error bars. *)
From Verif Require Import Base XReal Moments_Model Jacobian_Model Pixels_Model FastExp_Model MomResult_Model MomResult_Spec MomResult_Proofs PrePSF_Model PrePSF_Spec PrePSF_Proofs PrePSF2_Proofs PrePSF3_Proofs PrePSF4_Proofs PrePSF5_Proofs PrePSF6_Proofs.
From Coq Require Import Psatz.
Local Open Scope R_scope.

(** ** Apodisation *)
Lemma edge_01 h w d : 0 <= edge_weight h w d <= 1. Proof. apply smooth_step_01. Qed.
Lemma mul_01 a b : 0 <= a <= 1 -> 0 <= b <= 1 -> 0 <= a * b <= 1.
Proof. intros. split; [apply Rmult_le_pos; lra|]. nra. Qed.
Lemma stamp_weight_01 h n r c : 0 <= stamp_weight h n r c <= 1.
Proof. unfold stamp_weight. destruct (Rltb 0 h); [|lra]. cbv zeta. repeat apply mul_01; apply edge_01. Qed.
Lemma stamp_weight_inner h n r c : (margin h <= r)%nat -> (r + margin h < n)%nat -> (margin h <= c)%nat -> (c + margin h < n)%nat -> stamp_weight h n r c = 1.
Proof.
  unfold margin, stamp_weight. destruct (Rltb_spec 0 h) as [H|H]; [|reflexivity]. intros. cbv zeta. rewrite !edge_weight_inner by (assumption || lia). ring.
Qed.
Lemma apodize_at a h r c : nrow a = ncol a -> (r < nrow a)%nat -> (c < ncol a)%nat -> at2 (apodize a h) r c = at2 a r c * stamp_weight h (nrow a) r c.
Proof.
  intros E Hr Hc. unfold apodize, stamp_weight. destruct (Rltb_spec 0 h) as [H|H]; [|ring]. cbv zeta. cbn [at2].
  destruct (mask_closed h (ones_like a) H) as (_ & _ & M). cbn [ones_like nrow ncol at2] in M. rewrite M by assumption. rewrite E. ring.
Qed.
Lemma stamp_moment_weight f o psf t K i : nrow (pp_im o) = ncol (pp_im o) ->
  stamp_moment f o psf t K i = dsum (nrow (pp_im o)) (nrow (pp_im o)) (fun r c => at2 (pp_im o) r c * (stamp_weight (ft_ap f) (nrow (pp_im o)) r c * win t K psf i (INR r - row0 (pp_jac o)) (INR c - col0 (pp_jac o)))).
Proof.
  intros E. unfold stamp_moment. cbv zeta. apply dsum_ext. intros r c Hr Hc. rewrite apodize_at by (assumption || lia). ring.
Qed.

(** ** C102: one window for all images, centres and stamp sizes *)
Lemma same_wcs_of a b c : same_wcs a b = true -> wcs_of b = wcs_of c -> same_wcs a c = true.
Proof.
  intros H E. unfold wcs_of in E. injection E as E1 E2 E3 E4. unfold same_wcs, get_galsim_wcs in *. cbn [w_dudx w_dudy w_dvdx w_dvdy] in *.
  rewrite <- E1, <- E2, <- E3, <- E4. exact H.
Qed.
Lemma one_window f o np r : go f o np = Some (Ok r) -> exists h : nat -> R -> R -> R,
  forall o', pp_psf o' = pp_psf o -> wcs_of (pp_jac o') = wcs_of (pp_jac o) -> nrow (pp_im o') = ncol (pp_im o') -> (0 < nrow (pp_im o'))%nat ->
    target_of f o' (the_psf o np) = target_of f o (the_psf o np) -> (Z.of_nat (nrow (pp_im o')) <= target_of f o (the_psf o np))%Z ->
  exists r', go f o' np = Some (Ok r') /\
    moments_are r' (fun i => dsum (nrow (pp_im o')) (nrow (pp_im o')) (fun a b => at2 (pp_im o') a b * stamp_weight (ft_ap f) (nrow (pp_im o')) a b * h i (INR a - row0 (pp_jac o')) (INR b - col0 (pp_jac o')))).
Proof.
  intros H. destruct (go_runs f o np r H) as (t & K & R & _). exists (win t K (the_psf o np)).
  intros o' Hp Hw Hsq Hn Ht Hle. assert (TP : the_psf o' np = the_psf o np) by (unfold the_psf; rewrite Hp; reflexivity).
  assert (R' : runs f o' (the_psf o np) t K).
  { destruct R as [A B C D E F]. constructor; try assumption; try congruence. rewrite C in Hle. lia. }
  destruct (runs_result f o' _ t K R') as (r' & M & (S1 & _)). exists r'. split.
  - apply go_cases in H. destruct H as (_ & Hps & _). apply go_cases. split; [exact Hsq|]. split; [|rewrite TP; exact M].
    destruct Hps as [->|(p & P1 & P2)]; [left; reflexivity|right]. exists p. split; [congruence|]. apply (same_wcs_of _ (pp_jac o)); [exact P2|]. symmetry. exact Hw.
  - unfold moments_are in *. rewrite S1. repeat f_equal; rewrite stamp_moment_weight by exact Hsq; apply dsum_ext; intros a b _ _; ring.
Qed.

(** ** C104: error bars of images with equal noise in every pixel *)
Lemma dsum_le n m f g : (forall r c, (r < n)%nat -> (c < m)%nat -> f r c <= g r c) -> dsum n m f <= dsum n m g.
Proof.
  intros H. assert (0 <= dsum n m (fun r c => g r c + (-1) * f r c)).
  { unfold dsum. apply sumn_nonneg. intros r Hr. apply sumn_nonneg. intros c Hc. specialize (H r c Hr Hc). lra. }
  rewrite dsum_plus, dsum_scale in H0. lra.
Qed.
Lemma sumn_le_more n m f : (n <= m)%nat -> (forall i, 0 <= f i) -> sumn n f <= sumn m f.
Proof. intros H Hf. replace m with (n + (m - n))%nat by lia. rewrite sumn_add. pose proof (sumn_nonneg (m - n) (fun i => f (n + i)%nat) (fun i _ => Hf _)). lra. Qed.
Lemma dsum_more n t f : (n <= t)%nat -> (forall r c, 0 <= f r c) -> dsum n n f <= dsum t t f.
Proof.
  intros H Hf. apply Rle_trans with (dsum n t f).
  - unfold dsum. assert (E : 0 <= sumn n (fun r => sumn t (f r) + (-1) * sumn n (f r))).
    { apply sumn_nonneg. intros r _. pose proof (sumn_le_more n t (f r) H (Hf r)). lra. }
    rewrite sumn_plus, sumn_scale in E. lra.
  - unfold dsum. apply sumn_le_more; [exact H|]. intros r. apply sumn_nonneg. intros c _. apply Hf.
Qed.
Lemma dsum_const n m k : dsum n m (fun _ _ => k) = INR n * INR m * k.
Proof.
  assert (S1 : forall n k, sumn n (fun _ => k) = INR n * k).
  { clear. intros n k. induction n as [|n IH]; [rewrite sumn_0; cbn; ring|]. rewrite sumn_S, IH, S_INR. ring. }
  unfold dsum. rewrite (sumn_ext n _ (fun _ => INR m * k)) by (intros; apply S1). rewrite S1. ring.
Qed.
Lemma total_var_uniform w s : 0 < s -> (forall r c, (r < nrow w)%nat -> (c < ncol w)%nat -> at2 w r c = 1 / s) -> total_var w = INR (nrow w) * INR (ncol w) * s.
Proof.
  intros Hs H. rewrite <- dsum_const. unfold total_var.
  assert (E : forall L, Forall (fun x => x = 1 / s) L -> rsum (map (fun x => 1 / x) (filter (fun x => Rltb 0 x) L)) = rsum (map (fun _ => s) L)).
  { induction 1 as [|x L Hx _ IH]; [reflexivity|]. cbn [filter]. subst x. rewrite Rltb_t by (apply Rdiv_lt_0_compat; lra). cbn [map]. rewrite !rsum_cons, IH. f_equal. field. lra. }
  rewrite E.
  - unfold dsum, sumn. clear. induction (seq 0 (nrow w)) as [|x l IH]; [reflexivity|]. cbn [flat_map map]. rewrite map_app, rsum_app, rsum_cons, IH, map_map. reflexivity.
  - apply Forall_forall. intros x Hx. apply in_flat_map in Hx. destruct Hx as (r & Hr & Hx). apply in_map_iff in Hx. destruct Hx as (c & <- & Hc). apply in_seq in Hr, Hc. apply H; lia.
Qed.
Lemma sumn_sq_le k a : 0 <= k <= 1 -> (k * a) ^ 2 <= a ^ 2.
Proof. intros H. assert (k ^ 2 <= 1) by nra. pose proof (pow2_ge_0 a). replace ((k * a) ^ 2) with (k ^ 2 * a ^ 2) by ring. nra. Qed.
Lemma window_power t K psf kf (x : nat -> R) n a b : good_kernels t K -> (forall i, kern_at K i = map (kf i) (k_msk K)) -> (0 < n <= t)%nat ->
  dsum n n (fun r c => sumn 4 (fun i => x i * win t K psf i (INR r - a) (INR c - b)) ^ 2) <=
  lsum (k_msk K) (fun m => sumn 4 (fun i => x i * kf i m) ^ 2 * csq (psf_inv (psf_ft t psf) m)) / INR t ^ 2.
Proof.
  intros G Hkf Hn. set (pinv := psf_inv (psf_ft t psf)). set (pr := fst (psf_cen t psf)). set (pc := snd (psf_cen t psf)).
  set (z := fun m => cscale (sumn 4 (fun i => x i * kf i m)) (cmul (pinv m) (cis (dot t m (a - pr) (b - pc))))).
  assert (T0 : 0 < INR t) by (apply lt_0_INR; lia).
  assert (E : forall r c, sumn 4 (fun i => x i * win t K psf i (INR r - a) (INR c - b)) = re (field_at t (k_msk K) z r c) / INR t ^ 2).
  { intros r c. unfold field_at. cbn [re].
    rewrite (sumn_ext 4 _ (fun i => x i * (lsum (k_msk K) (fun m => kf i m * re (cmul (cis (- dot t m (INR r - (a - pr)) (INR c - (b - pc)))) (pinv m))) / INR t ^ 2))).
    2:{ intros i _. unfold win. rewrite Hkf, psf_window_fun. fold pinv pr pc. replace (INR r - a + pr) with (INR r - (a - pr)) by ring. replace (INR c - b + pc) with (INR c - (b - pc)) by ring. reflexivity. }
    rewrite sumn4. unfold Rdiv. rewrite <- !Rmult_assoc, <- !Rmult_plus_distr_r. f_equal.
    unfold lsum. rewrite <- !rsum_map_mult, <- !rsum_map_plus. apply rsum_map_ext. intros m _.
    rewrite dot_minus, !cis_neg_re. unfold z. rewrite sumn4. cbn. rewrite cos_minus, sin_minus. ring. }
  assert (Z : forall m, csq (z m) = sumn 4 (fun i => x i * kf i m) ^ 2 * csq (pinv m)).
  { intros m. unfold z. rewrite csq_scale, csq_mul, csq_cis. ring. }
  apply Rle_trans with (dsum t t (fun r c => / INR t ^ 4 * csq (field_at t (k_msk K) z r c))).
  - apply Rle_trans with (dsum n n (fun r c => / INR t ^ 4 * csq (field_at t (k_msk K) z r c))).
    + apply dsum_le. intros r c _ _. rewrite E. unfold csq. replace ((re (field_at t (k_msk K) z r c) / INR t ^ 2) ^ 2) with (/ INR t ^ 4 * re (field_at t (k_msk K) z r c) ^ 2) by (field; lra).
      apply Rmult_le_compat_l; [apply Rlt_le, Rinv_0_lt_compat, pow_lt; lra|]. pose proof (pow2_ge_0 (im (field_at t (k_msk K) z r c))). lra.
    + apply dsum_more; [lia|]. intros r c. apply Rmult_le_pos; [apply Rlt_le, Rinv_0_lt_compat, pow_lt; lra|apply csq_nonneg].
  - rewrite dsum_scale, parseval by apply G. apply Req_le. rewrite (lsum_ext _ _ _ (fun m _ => Z m)). field. lra.
Qed.
Lemma errors_not_small f o np r s : go f o np = Some (Ok r) -> 0 < s ->
  nrow (pp_wt o) = nrow (pp_im o) -> ncol (pp_wt o) = ncol (pp_im o) ->
  (forall i j, (i < nrow (pp_wt o))%nat -> (j < ncol (pp_wt o))%nat -> at2 (pp_wt o) i j = 1 / s) ->
  let n := nrow (pp_im o) in
  exists w : nat -> nat -> nat -> R,
    (forall a, nrow a = n -> ncol a = n -> exists r', go f (with_image o a) np = Some (Ok r') /\
       moments_are r' (fun i => dsum n n (fun y x => at2 a y x * w i y x)) /\ (forall i j, (i < 4)%nat -> (j < 4)%nat -> cov4 r' i j = cov4 r i j)) /\
    forall x, s * dsum n n (fun y c => sumn 4 (fun i => x i * w i y c) ^ 2) <= quad4 (cov4 r) x.
Proof.
  intros H Hs W1 W2 Hw n. destruct (go_runs f o np r H) as (t & K & R & (M & N6 & C & _)).
  set (psf := the_psf o np) in *.
  pose proof (rn_sq _ _ _ _ _ R) as Hsq. pose proof (rn_n _ _ _ _ _ R) as Hn. fold n in Hsq, Hn.
  exists (fun i y x => stamp_weight (ft_ap f) n y x * win t K psf i (INR y - row0 (pp_jac o)) (INR x - col0 (pp_jac o))).
  split.
  - intros a A1 A2.
    assert (TG : target_of f (with_image o a) psf = target_of f o psf). { unfold target_of. cbn [with_image pp_im]. rewrite A1. reflexivity. }
    assert (R' : runs f (with_image o a) psf t K).
    { destruct R as [B1 B2 B3 B4 B5 B6]. constructor; cbn [with_image pp_im pp_jac]; try assumption; try lia. }
    destruct (runs_result f (with_image o a) psf t K R') as (r' & M' & (S1 & N1 & C1 & _)). exists r'. split; [|split].
    + apply go_cases in H. destruct H as (_ & Hp & _). apply go_cases. cbn [with_image pp_im pp_psf pp_jac]. split; [lia|]. split; [exact Hp|exact M'].
    + unfold moments_are in *. rewrite S1. repeat f_equal; rewrite stamp_moment_weight by (cbn [with_image pp_im]; lia); cbn [with_image pp_im pp_jac]; rewrite A1; reflexivity.
    + intros i j Hi Hj. unfold cov4. rewrite C, C1 by lia. unfold stamp_cov. cbn [with_image pp_im pp_wt]. rewrite A1. reflexivity.
  - intros x. assert (G : good_kernels t K). { apply (kernels_good f t (wcs_of (pp_jac o))); [lia|apply (rn_K _ _ _ _ _ R)]. }
    destruct (kern_fun t K G) as (kf & Hkf).
    assert (Q : quad4 (cov4 r) x = quad4 (fun i j => stamp_cov o psf t K (2 + i) (2 + j)) x).
    { unfold quad4. apply dsum_ext. intros i j Hi Hj. unfold cov4. rewrite C by lia. reflexivity. }
    rewrite Q, (stamp_cov_quad o psf t K kf Hkf). rewrite (total_var_uniform (pp_wt o) s Hs Hw), W1, W2. fold n. rewrite <- Hsq.
    assert (N0 : 0 < INR n) by (apply lt_0_INR; lia). assert (T0 : 0 < INR t) by (apply lt_0_INR; lia).
    set (L := lsum _ _). replace (L * (INR n * INR n * s * (INR t / INR n) ^ 2 / INR t ^ 4)) with (s * (L / INR t ^ 2)) by (field; lra).
    apply Rmult_le_compat_l; [lra|]. eapply Rle_trans; [|apply (window_power t K psf kf x n (row0 (pp_jac o)) (col0 (pp_jac o)) G Hkf Hn)].
    apply dsum_le. intros y c _ _.
    replace (sumn 4 (fun i => x i * (stamp_weight (ft_ap f) n y c * win t K psf i (INR y - row0 (pp_jac o)) (INR c - col0 (pp_jac o)))))
      with (stamp_weight (ft_ap f) n y c * sumn 4 (fun i => x i * win t K psf i (INR y - row0 (pp_jac o)) (INR c - col0 (pp_jac o)))) by (rewrite !sumn4; ring).
    apply sumn_sq_le. apply stamp_weight_01.
Qed.

(** ** C103: copies of the psf *)
Lemma shifted_sum p r0 c0 n g : (r0 + nrow p <= n)%nat -> (c0 + ncol p <= n)%nat ->
  dsum n n (fun r c => shifted p r0 c0 r c * g r c) = dsum (nrow p) (ncol p) (fun r c => at2 p r c * g (r0 + r)%nat (c0 + c)%nat).
Proof.
  intros H1 H2. unfold dsum. rewrite (sumn_window (nrow p) r0 n); [|exact H1|].
  - apply sumn_ext. intros r Hr. rewrite (sumn_window (ncol p) c0 n); [|exact H2|].
    + apply sumn_ext. intros c Hc. unfold shifted.
      replace (Nat.leb r0 (r0 + r)) with true by (symmetry; apply Nat.leb_le; lia).
      replace (Nat.ltb (r0 + r) (r0 + nrow p)) with true by (symmetry; apply Nat.ltb_lt; lia).
      replace (Nat.leb c0 (c0 + c)) with true by (symmetry; apply Nat.leb_le; lia).
      replace (Nat.ltb (c0 + c) (c0 + ncol p)) with true by (symmetry; apply Nat.ltb_lt; lia).
      cbn [andb]. f_equal. f_equal; lia.
    + intros c Hc. unfold shifted. destruct (Nat.leb_spec c0 c), (Nat.ltb_spec c (c0 + ncol p)); rewrite ?andb_false_r; cbn [andb]; try ring; lia.
  - intros r Hr. apply sumn_zero. intros c Hc. unfold shifted. destruct (Nat.leb_spec r0 r), (Nat.ltb_spec r (r0 + nrow p)); cbn [andb]; try ring. lia.
Qed.
Lemma rsum_dsum_swap {A} (l : list A) n m (f : A -> nat -> nat -> R) : dsum n m (fun r c => rsum (map (fun a => f a r c) l)) = rsum (map (fun a => dsum n m (f a)) l).
Proof. symmetry. apply rsum_swap2. Qed.
Lemma rsum_scale_r {A} (l : list A) (f : A -> R) k : rsum (map f l) * k = rsum (map (fun a => f a * k) l).
Proof. rewrite Rmult_comm, <- rsum_map_mult. apply rsum_map_ext. intros. ring. Qed.
Lemma dot_add t kl a b x y : dot t kl (a + x) (b + y) = dot t kl a b + dot t kl x y.
Proof. unfold dot. ring. Qed.
Lemma ft_power p t b kl : nrow p = ncol p -> csq (ft p (nrow p) b t kl) = power t p kl.
Proof.
  intros E. unfold power. cbv zeta. rewrite <- E. set (n := nrow p).
  set (C := dsum n n (fun r c => at2 p r c * cos (2 * PI * (fftfreq t (fst kl) * INR r + fftfreq t (snd kl) * INR c)))).
  set (S_ := dsum n n (fun r c => at2 p r c * sin (2 * PI * (fftfreq t (fst kl) * INR r + fftfreq t (snd kl) * INR c)))).
  set (d := dot t kl (INR b) (INR b)).
  assert (R1 : re (ft p n b t kl) = cos d * C - sin d * S_).
  { unfold ft. cbn [re]. unfold C, S_. unfold Rminus. rewrite <- dsum_scale, Ropp_mult_distr_l, <- dsum_scale, <- dsum_plus. apply dsum_ext. intros r c _ _. rewrite !plus_INR, dot_add, cos_plus. fold d. unfold dot. ring. }
  assert (I1 : im (ft p n b t kl) = - (sin d * C + cos d * S_)).
  { unfold ft. cbn [im]. unfold C, S_. rewrite <- !dsum_scale, <- dsum_plus. replace (- dsum n n (fun r c => sin d * (at2 p r c * cos (2 * PI * (fftfreq t (fst kl) * INR r + fftfreq t (snd kl) * INR c))) + cos d * (at2 p r c * sin (2 * PI * (fftfreq t (fst kl) * INR r + fftfreq t (snd kl) * INR c)))))
      with ((-1) * dsum n n (fun r c => sin d * (at2 p r c * cos (2 * PI * (fftfreq t (fst kl) * INR r + fftfreq t (snd kl) * INR c))) + cos d * (at2 p r c * sin (2 * PI * (fftfreq t (fst kl) * INR r + fftfreq t (snd kl) * INR c))))) by ring.
    rewrite <- dsum_scale. apply dsum_ext. intros r c _ _. rewrite !plus_INR, dot_add, sin_plus. fold d. unfold dot. ring. }
  unfold csq. rewrite R1, I1. pose proof (sin2_cos2 d) as SC. unfold Rsqr in SC.
  replace ((cos d * C - sin d * S_) ^ 2 + (- (sin d * C + cos d * S_)) ^ 2) with ((sin d * sin d + cos d * cos d) * (C ^ 2 + S_ ^ 2)) by ring. rewrite SC. ring.
Qed.
Lemma power_00 t p : power t p (0%nat, 0%nat) = total_of p ^ 2.
Proof.
  unfold power. cbn [fst snd]. rewrite fftfreq_0. unfold total_of.
  rewrite (dsum_ext _ _ (fun r c => at2 p r c * cos _) (at2 p)) by (intros; replace (2 * PI * (0 * INR r + 0 * INR c)) with 0 by ring; rewrite cos_0; ring).
  rewrite (dsum_ext _ _ (fun r c => at2 p r c * sin _) (fun _ _ => 0)) by (intros; replace (2 * PI * (0 * INR r + 0 * INR c)) with 0 by ring; rewrite sin_0; ring).
  rewrite dsum_const. ring.
Qed.
(** a mode that is kept *)
Lemma kept_inv t p j kl : nrow p = ncol p -> power t p kl > (MIN_PSF_FRAC * total_of p) ^ 2 ->
  psf_inv (psf_ft t (Some (p, j))) kl = cinv (psf_ft t (Some (p, j)) kl) /\ psf_ft t (Some (p, j)) kl <> mkC 0 0.
Proof.
  intros E H. cbn [psf_ft]. set (b := pad_of (nrow p) t). pose proof (ft_power p t b kl E) as P. pose proof (ft_power p t b (0%nat, 0%nat) E) as P0. rewrite power_00 in P0.
  set (z := ft p (nrow p) b t kl) in *. set (z0 := ft p (nrow p) b t (0%nat, 0%nat)) in *.
  assert (M0 : 0 <= MIN_PSF_FRAC) by (unfold MIN_PSF_FRAC; lra).
  assert (L : MIN_PSF_FRAC * cabs z0 < cabs z).
  { pose proof (cabs_nonneg z). pose proof (cabs_nonneg z0). pose proof (cabs_sq z). pose proof (cabs_sq z0).
    destruct (Rlt_le_dec (MIN_PSF_FRAC * cabs z0) (cabs z)) as [L|L]; [exact L|]. exfalso.
    assert (cabs z * cabs z <= (MIN_PSF_FRAC * cabs z0) * (MIN_PSF_FRAC * cabs z0)) by (apply Rmult_le_compat; assumption).
    rewrite H2, P in H4. replace (MIN_PSF_FRAC * cabs z0 * (MIN_PSF_FRAC * cabs z0)) with (MIN_PSF_FRAC ^ 2 * (cabs z0 * cabs z0)) in H4 by ring. rewrite H3, P0 in H4.
    replace ((MIN_PSF_FRAC * total_of p) ^ 2) with (MIN_PSF_FRAC ^ 2 * total_of p ^ 2) in H by ring. lra. }
  split.
  - unfold psf_inv. fold z0 z. unfold trunc_mode. cbv zeta. rewrite Rleb_f by exact L. reflexivity.
  - fold z. intros Z. rewrite Z in L. rewrite (proj2 (cabs_0 _) eq_refl) in L. pose proof (cabs_nonneg z0). nra.
Qed.
Lemma copy_window t p j msk fk a b : nrow p = ncol p -> (forall kl, In kl msk -> power t p kl > (MIN_PSF_FRAC * total_of p) ^ 2) ->
  let n := nrow p in let B := INR (pad_of n t) in
  dsum n n (fun r c => at2 p r c * psf_window t msk fk (psf_inv (psf_ft t (Some (p, j)))) (a + INR r + B) (b + INR c + B)) = window0 t msk fk a b.
Proof.
  intros E H n B. unfold psf_window, window0. unfold Rdiv.
  rewrite (dsum_ext n n _ (fun r c => / INR t ^ 2 * rsum (map (fun z => at2 p r c * (snd z * re (cmul (cis (- dot t (fst z) (a + INR r + B) (b + INR c + B))) (psf_inv (psf_ft t (Some (p, j))) (fst z))))) (combine msk fk)))).
  2:{ intros r c _ _. rewrite rsum_map_mult. ring. }
  rewrite dsum_scale, Rmult_comm. f_equal. rewrite rsum_dsum_swap. apply rsum_map_ext. intros [kl k] Hz. cbn [fst snd].
  assert (In kl msk) as Hk by (apply in_combine_l in Hz; exact Hz).
  destruct (kept_inv t p j kl E (H kl Hk)) as [-> NZ]. set (z := psf_ft t (Some (p, j)) kl) in *.
  assert (Z1 : re z = dsum n n (fun r c => at2 p r c * cos (dot t kl (INR (pad_of n t + r)) (INR (pad_of n t + c))))) by reflexivity.
  assert (Z2 : im z = dsum n n (fun r c => - (at2 p r c * sin (dot t kl (INR (pad_of n t + r)) (INR (pad_of n t + c)))))) by reflexivity.
  change (2 * PI * (fftfreq t (fst kl) * a + fftfreq t (snd kl) * b)) with (dot t kl a b).
  rewrite (dsum_ext n n _ (fun r c => (k * re (cmul (cis (- dot t kl a b)) (cinv z))) * (at2 p r c * cos (dot t kl (INR (pad_of n t + r)) (INR (pad_of n t + c))))
      + (- k * im (cmul (cis (- dot t kl a b)) (cinv z))) * (- (at2 p r c * sin (dot t kl (INR (pad_of n t + r)) (INR (pad_of n t + c))))))).
  - rewrite dsum_plus, !dsum_scale, <- Z1, <- Z2.
    pose proof (cinv_r z NZ) as I. pose proof (f_equal (fun u => re (cmul (cis (- dot t kl a b)) u)) I) as I2. cbv beta in I2. rewrite cmul_assoc in I2.
    assert (CZ : re (cmul (cis (- dot t kl a b)) (mkC 1 0)) = cos (dot t kl a b)) by (rewrite cmul_1; cbn; apply cos_neg). rewrite CZ in I2.
    rewrite <- I2. generalize (cmul (cis (- dot t kl a b)) (cinv z)). intros u. cbn. ring.
  - intros r c _ _. replace (a + INR r + B) with (a + INR (pad_of n t + r)) by (rewrite plus_INR; unfold B; ring). replace (b + INR c + B) with (b + INR (pad_of n t + c)) by (rewrite plus_INR; unfold B; ring).
    rewrite dot_add. replace (- (dot t kl a b + dot t kl (INR (pad_of n t + r)) (INR (pad_of n t + c)))) with (- dot t kl a b + - dot t kl (INR (pad_of n t + r)) (INR (pad_of n t + c))) by ring.
    rewrite <- cis_add. set (D := dot t kl (INR (pad_of n t + r)) (INR (pad_of n t + c))). rewrite (cmul_comm (cis (- dot t kl a b))), <- cmul_assoc, cis_neg_re. ring.
Qed.
Lemma psf_copies f o p j t K src : pp_psf o = Some (p, j) -> same_wcs j (pp_jac o) = true ->
  nrow (pp_im o) = ncol (pp_im o) -> nrow p = ncol p -> (0 < nrow p)%nat ->
  target_of f o (Some (p, j)) = Z.of_nat t -> (nrow (pp_im o) <= t)%nat -> (nrow p <= t)%nat -> make_kernels f t (wcs_of (pp_jac o)) = Ok K ->
  (forall kl, In kl (k_msk K) -> power t p kl > (MIN_PSF_FRAC * total_of p) ^ 2) ->
  (0 < nrow (pp_im o))%nat ->
  (forall a r0 c0, In (a, (r0, c0)) src -> (margin (ft_ap f) <= r0)%nat /\ (margin (ft_ap f) <= c0)%nat /\
     (r0 + nrow p + margin (ft_ap f) <= nrow (pp_im o))%nat /\ (c0 + ncol p + margin (ft_ap f) <= nrow (pp_im o))%nat) ->
  (forall r c, (r < nrow (pp_im o))%nat -> (c < nrow (pp_im o))%nat -> at2 (pp_im o) r c = copies_of p src r c) ->
  exists r, go f o false = Some (Ok r) /\
    moments_are r (fun i => rsum (map (fun s => fst s * window0 t (k_msk K) (at_moment (kern4 K) i) (INR (fst (snd s)) + row0 j - row0 (pp_jac o)) (INR (snd (snd s)) + col0 j - col0 (pp_jac o))) src)) /\
    m_flux r = Fin (rsum (map (fun s => fst s * window0 t (k_msk K) (k_f K) (INR (fst (snd s)) + row0 j - row0 (pp_jac o)) (INR (snd (snd s)) + col0 j - col0 (pp_jac o))) src)).
Proof.
  intros Hp Hw Hsq Ep Np Ht Hn Hpt HK Hpow Hn0 Hsrc Him. set (n := nrow (pp_im o)) in *.
  assert (G : good_kernels t K) by (apply (kernels_good f t (wcs_of (pp_jac o))); [lia|exact HK]).
  assert (R : runs f o (Some (p, j)) t K).
  { constructor; try assumption; try (fold n; lia); [split; [exact Ep|lia]|].
    destruct (kept_inv t p j (0%nat, 0%nat) Ep (Hpow _ (gk_00 t K G))) as [_ NZ]. pose proof (cabs_nonneg (psf_ft t (Some (p, j)) (0%nat, 0%nat))) as N0.
    destruct (Req_dec (cabs (psf_ft t (Some (p, j)) (0%nat, 0%nat))) 0) as [Z|Z]; [apply cabs_0 in Z; contradiction|lra]. }
  destruct (runs_result f o (Some (p, j)) t K R) as (r & M & (S1 & _ & _ & FL)). exists r.
  assert (Val : forall i, stamp_moment f o (Some (p, j)) t K i = rsum (map (fun s => fst s * window0 t (k_msk K) (at_moment (kern4 K) i) (INR (fst (snd s)) + row0 j - row0 (pp_jac o)) (INR (snd (snd s)) + col0 j - col0 (pp_jac o))) src)).
  { intros i. rewrite stamp_moment_weight by exact Hsq. fold n.
    set (g := fun r c : nat => stamp_weight (ft_ap f) n r c * win t K (Some (p, j)) i (INR r - row0 (pp_jac o)) (INR c - col0 (pp_jac o))).
    rewrite (dsum_ext n n _ (fun r c => rsum (map (fun s => fst s * (shifted p (fst (snd s)) (snd (snd s)) r c * g r c)) src))).
    2:{ intros r0 c0 Hr Hc. rewrite Him by assumption. unfold copies_of. rewrite rsum_scale_r. apply rsum_map_ext. intros s _. fold (g r0 c0). ring. }
    rewrite rsum_dsum_swap. apply rsum_map_ext. intros [a [r0 c0]] Hs. cbn [fst snd]. destruct (Hsrc a r0 c0 Hs) as (B1 & B2 & B3 & B4).
    rewrite dsum_scale. f_equal. rewrite shifted_sum by lia. rewrite <- Ep.
    rewrite (dsum_ext (nrow p) (nrow p) _ (fun r c => at2 p r c * psf_window t (k_msk K) (at_moment (kern4 K) i) (psf_inv (psf_ft t (Some (p, j)))) (INR r0 + row0 j - row0 (pp_jac o) + INR r + INR (pad_of (nrow p) t)) (INR c0 + col0 j - col0 (pp_jac o) + INR c + INR (pad_of (nrow p) t)))).
    - apply (copy_window t p j (k_msk K) (at_moment (kern4 K) i)); assumption.
    - intros r1 c1 H1 H2. f_equal. unfold g. rewrite stamp_weight_inner by lia. rewrite Rmult_1_l. unfold win. cbn [psf_cen fst snd]. unfold kern_at.
      rewrite !plus_INR. f_equal; ring. }
  split; [|split].
  - apply go_cases. split; [exact Hsq|]. split; [right; exists (p, j); auto|]. unfold the_psf. rewrite Hp. exact M.
  - unfold moments_are in *. rewrite S1, !Val. reflexivity.
  - rewrite FL, Val. reflexivity.
Qed.
