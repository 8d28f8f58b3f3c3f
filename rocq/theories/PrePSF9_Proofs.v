(** Without a psf: deconvolution of the pixel. *)
From Verif Require Import Base XReal Moments_Model Jacobian_Model Pixels_Model FastExp_Model FastExp_Proofs MomResult_Model PrePSF_Model PrePSF_Spec PrePSF_Proofs PrePSF2_Proofs PrePSF3_Proofs PrePSF4_Proofs PrePSF5_Proofs PrePSF6_Proofs PrePSF7_Proofs PrePSF8_Proofs.
From Coq Require Import Psatz.
Local Open Scope R_scope.

(** ** sinc *)
Lemma sin_half x : 0 <= x <= 2 -> 2 / 5 * x <= sin x.
Proof.
  intros H. pose proof PI_4 as P4. assert (PI > 3) by (pose proof PI2_3_2; lra).
  destruct (SIN x ltac:(lra) ltac:(lra)) as (L & _). eapply Rle_trans; [|exact L].
  unfold sin_lb, sin_approx, sin_term. cbn [sum_f_R0 fact Nat.mul Nat.add]. simpl. 
  assert (U : 0 <= x * x <= 4) by nra. set (u := x * x) in *.
  replace (_ + _) with (x * (1 - u / 6 + u * u / 120 - u * u * u / 5040)).
  - assert (2/5 <= 1 - u / 6 + u * u / 120 - u * u * u / 5040) by nra. nra.
  - unfold u. field.
Qed.
Lemma sinc_low f : -(1/2) <= f <= 1/2 -> 2/5 <= sinc f.
Proof.
  intros H. unfold sinc. destruct (Reqb_spec f 0) as [E|E]; [lra|]. pose proof PI_4. assert (P3 : PI > 3) by (pose proof PI2_3_2; lra).
  destruct (Rlt_le_dec 0 f) as [F|F].
  - assert (0 < PI * f) by nra. apply (Rmult_le_reg_r (PI * f)); [assumption|]. replace (sin (PI * f) / (PI * f) * (PI * f)) with (sin (PI * f)) by (field; lra).
    pose proof (sin_half (PI * f) ltac:(nra)). lra.
  - assert (0 < PI * - f) by nra. replace (PI * f) with (- (PI * - f)) by ring. rewrite sin_neg. apply (Rmult_le_reg_r (PI * - f)); [assumption|].
    replace (- sin (PI * - f) / - (PI * - f) * (PI * - f)) with (sin (PI * - f)) by (field; split; [lra|intros Z; rewrite Z in *; lra]).
    pose proof (sin_half (PI * - f) ltac:(nra)). lra.
Qed.
Lemma pixel_inv t kl : (fst kl < t)%nat -> (snd kl < t)%nat ->
  psf_inv (psf_ft t None) kl = mkC (/ (sinc (fftfreq t (fst kl)) * sinc (fftfreq t (snd kl)))) 0.
Proof.
  intros H1 H2. pose proof (fftfreq_range t _ H1). pose proof (fftfreq_range t _ H2).
  pose proof (sinc_low (fftfreq t (fst kl)) ltac:(lra)) as S1. pose proof (sinc_low (fftfreq t (snd kl)) ltac:(lra)) as S2.
  assert (C0 : cabs (psf_ft t None (0%nat, 0%nat)) = 1).
  { cbn [psf_ft pixel_fft at2 fst snd]. rewrite fftfreq_0. unfold sinc. rewrite Reqb_t by reflexivity. unfold cabs, csq. cbn [re im]. replace (1 * 1 * (1 * 1) + 0 * 0) with 1 by ring. try (replace ((1 * 1) ^ 2 + 0 ^ 2) with 1 by ring). apply sqrt_1. }
  assert (C1 : cabs (psf_ft t None kl) = sinc (fftfreq t (fst kl)) * sinc (fftfreq t (snd kl))).
  { cbn [psf_ft pixel_fft at2]. unfold cabs, csq. cbn [re im]. set (a := sinc (fftfreq t (fst kl))) in *. set (b := sinc (fftfreq t (snd kl))) in *.
    rewrite <- (sqrt_Rsqr (a * b)) by nra. f_equal. unfold Rsqr. ring. }
  unfold psf_inv. rewrite C0. unfold trunc_mode. cbv zeta. rewrite C1. rewrite Rleb_f by (unfold MIN_PSF_FRAC; nra).
  cbn [psf_ft pixel_fft at2]. set (a := sinc (fftfreq t (fst kl))) in *. set (b := sinc (fftfreq t (snd kl))) in *.
  unfold cinv, csq. apply ceq; cbn; field; nra.
Qed.

(** ** one mode *)
Lemma dcos a b x : derivable_pt_lim (fun x => cos (a * x + b)) x (- (a * sin (a * x + b))).
Proof.
  replace (- (a * sin (a * x + b))) with (- sin (a * x + b) * (a * 1 + 0)) by ring.
  apply (derivable_pt_lim_comp (fun x => a * x + b) cos).
  - apply derivable_pt_lim_plus; [|apply derivable_pt_lim_const]. apply derivable_pt_lim_scal. apply derivable_pt_lim_id.
  - apply derivable_pt_lim_cos.
Qed.
Lemma dsin a b x : derivable_pt_lim (fun x => sin (a * x + b)) x (a * cos (a * x + b)).
Proof.
  replace (a * cos (a * x + b)) with (cos (a * x + b) * (a * 1 + 0)) by ring.
  apply (derivable_pt_lim_comp (fun x => a * x + b) sin).
  - apply derivable_pt_lim_plus; [|apply derivable_pt_lim_const]. apply derivable_pt_lim_scal. apply derivable_pt_lim_id.
  - apply derivable_pt_lim_sin.
Qed.
Lemma dext f g x l : (forall z, f z = g z) -> derivable_pt_lim f x l -> derivable_pt_lim g x l.
Proof. intros H D e He. destruct (D e He) as (d & Hd). exists d. intros h h0 h1. rewrite <- !H. auto. Qed.
Lemma dscal k f x l : derivable_pt_lim f x l -> derivable_pt_lim (fun x => k * f x) x (k * l).
Proof. intros H. apply (derivable_pt_lim_scal f k x l H). Qed.
Lemma dlin k x : derivable_pt_lim (fun x => x * k) x k.
Proof. pose proof (dscal k id x 1 (derivable_pt_lim_id x)) as D. rewrite Rmult_1_r in D. revert D. apply dext. intros; unfold id; ring. Qed.

(** antiderivatives in one variable of cos and sin, and what they give over a pixel *)
Lemma mode_1d a : exists C S_ : R -> R -> R,
  (forall b x, derivable_pt_lim (fun x => C b x) x (cos (2 * PI * a * x + b))) /\
  (forall b x, derivable_pt_lim (fun x => S_ b x) x (sin (2 * PI * a * x + b))) /\
  (forall b x, C b (x + 1/2) - C b (x - 1/2) = sinc a * cos (2 * PI * a * x + b)) /\
  (forall b x, S_ b (x + 1/2) - S_ b (x - 1/2) = sinc a * sin (2 * PI * a * x + b)).
Proof.
  unfold sinc. destruct (Reqb_spec a 0) as [->|E].
  - exists (fun b x => x * cos b), (fun b x => x * sin b). repeat split.
    + intros b x. replace (2 * PI * 0 * x + b) with b by ring. apply dlin.
    + intros b x. replace (2 * PI * 0 * x + b) with b by ring. apply dlin.
    + intros b x. replace (2 * PI * 0 * x + b) with b by ring. field.
    + intros b x. replace (2 * PI * 0 * x + b) with b by ring. field.
  - assert (P : 2 * PI * a <> 0) by (pose proof PI_RGT_0; nra).
    exists (fun b x => / (2 * PI * a) * sin (2 * PI * a * x + b)), (fun b x => - / (2 * PI * a) * cos (2 * PI * a * x + b)). repeat split.
    + intros b x. replace (cos (2 * PI * a * x + b)) with (/ (2 * PI * a) * (2 * PI * a * cos (2 * PI * a * x + b))) by (field; pose proof PI_RGT_0; split; lra). apply dscal, dsin.
    + intros b x. replace (sin (2 * PI * a * x + b)) with (- / (2 * PI * a) * (- (2 * PI * a * sin (2 * PI * a * x + b)))) by (field; pose proof PI_RGT_0; split; lra). apply dscal, dcos.
    + intros b x. replace (2 * PI * a * (x + 1/2) + b) with ((2 * PI * a * x + b) + PI * a) by field. replace (2 * PI * a * (x - 1/2) + b) with ((2 * PI * a * x + b) - PI * a) by field.
      rewrite sin_plus, sin_minus. field. pose proof PI_RGT_0; split; lra.
    + intros b x. replace (2 * PI * a * (x + 1/2) + b) with ((2 * PI * a * x + b) + PI * a) by field. replace (2 * PI * a * (x - 1/2) + b) with ((2 * PI * a * x + b) - PI * a) by field.
      rewrite cos_plus, cos_minus. field. pose proof PI_RGT_0; split; lra.
Qed.
Lemma mode_2d a b : pixel_integral (fun x y => cos (2 * PI * (a * x + b * y))) (fun x y => sinc a * sinc b * cos (2 * PI * (a * x + b * y))).
Proof.
  unfold pixel_integral. destruct (mode_1d a) as (Ca & Sa & A1 & A2 & A3 & A4). destruct (mode_1d b) as (Cb & Sb & B1 & B2 & B3 & B4).
  (* cos(X + Y) = cos X cos Y - sin X sin Y *)
  exists (fun x y => Ca 0 x * cos (2 * PI * b * y + 0) - Sa 0 x * sin (2 * PI * b * y + 0)), (fun x y => Ca 0 x * Cb 0 y - Sa 0 x * Sb 0 y). split; [|split].
  - intros x y. replace (cos (2 * PI * (a * x + b * y))) with (cos (2 * PI * b * y + 0) * cos (2 * PI * a * x + 0) - sin (2 * PI * b * y + 0) * sin (2 * PI * a * x + 0))
      by (replace (2 * PI * (a * x + b * y)) with ((2 * PI * b * y + 0) + (2 * PI * a * x + 0)) by ring; rewrite (cos_plus (2 * PI * b * y + 0) (2 * PI * a * x + 0)); ring).
    apply (dext (fun x => cos (2 * PI * b * y + 0) * Ca 0 x - sin (2 * PI * b * y + 0) * Sa 0 x)); [intros; ring|].
    apply (derivable_pt_lim_minus (fun x => cos (2 * PI * b * y + 0) * Ca 0 x) (fun x => sin (2 * PI * b * y + 0) * Sa 0 x)); apply dscal; [apply A1|apply A2].
  - intros x y. apply (derivable_pt_lim_minus (fun y => Ca 0 x * Cb 0 y) (fun y => Sa 0 x * Sb 0 y)); apply dscal; [apply B1|apply B2].
  - intros x y. replace (2 * PI * (a * x + b * y)) with ((2 * PI * a * x + 0) + (2 * PI * b * y + 0)) by ring. rewrite (cos_plus (2 * PI * a * x + 0) (2 * PI * b * y + 0)).
    pose proof (A3 0 x) as E1. pose proof (A4 0 x) as E2. pose proof (B3 0 y) as E3. pose proof (B4 0 y) as E4.
    transitivity ((sinc a * cos (2 * PI * a * x + 0)) * (sinc b * cos (2 * PI * b * y + 0)) - (sinc a * sin (2 * PI * a * x + 0)) * (sinc b * sin (2 * PI * b * y + 0))); [ring|].
    rewrite <- E1, <- E2, <- E3, <- E4. ring.
Qed.
Lemma pi_ext h h' w w' : (forall x y, h x y = h' x y) -> (forall x y, w x y = w' x y) -> pixel_integral h w -> pixel_integral h' w'.
Proof.
  intros Eh Ew (Hx & H & A & B & C). exists Hx, H. split; [intros; rewrite <- Eh; apply A|]. split; [exact B|]. intros. rewrite <- Ew. apply C.
Qed.
Lemma pi_scale k h w : pixel_integral h w -> pixel_integral (fun x y => k * h x y) (fun x y => k * w x y).
Proof.
  intros (Hx & H & A & B & C). exists (fun x y => k * Hx x y), (fun x y => k * H x y). split; [intros; apply (dscal k (fun x => Hx x y)), A|]. split; [intros; apply dscal, B|].
  intros. rewrite C. ring.
Qed.
Lemma pi_plus h w h' w' : pixel_integral h w -> pixel_integral h' w' -> pixel_integral (fun x y => h x y + h' x y) (fun x y => w x y + w' x y).
Proof.
  intros (Hx & H & A & B & C) (Hx' & H' & A' & B' & C'). exists (fun x y => Hx x y + Hx' x y), (fun x y => H x y + H' x y).
  split; [intros; apply (derivable_pt_lim_plus (fun x => Hx x y) (fun x => Hx' x y)); auto|]. split; [intros; apply (derivable_pt_lim_plus (fun y => H x y) (fun y => H' x y)); auto|].
  intros. rewrite C, C'. ring.
Qed.
Lemma pi_zero : pixel_integral (fun _ _ => 0) (fun _ _ => 0).
Proof.
  exists (fun _ _ => 0), (fun _ _ => 0). split; [intros; apply derivable_pt_lim_const|]. split; [intros; apply derivable_pt_lim_const|]. intros. ring.
Qed.
Lemma pi_sum {A} (l : list A) (h w : A -> R -> R -> R) : (forall a, In a l -> pixel_integral (h a) (w a)) ->
  pixel_integral (fun x y => rsum (map (fun a => h a x y) l)) (fun x y => rsum (map (fun a => w a x y) l)).
Proof.
  induction l as [|a l IH]; intros H; [exact pi_zero|]. 
  apply (pi_ext (fun x y => h a x y + rsum (map (fun a => h a x y) l)) _ (fun x y => w a x y + rsum (map (fun a => w a x y) l)));
    [intros; cbn [map]; rewrite rsum_cons; reflexivity|intros; cbn [map]; rewrite rsum_cons; reflexivity|].
  apply pi_plus; [apply H; left; reflexivity|apply IH; intros; apply H; right; assumption].
Qed.

(** ** the window *)
Lemma pixel_window t K i : good_kernels t K ->
  pixel_integral (fun x y => win t K None i x y) (window0 t (k_msk K) (at_moment (kern4 K) i)).
Proof.
  intros G. unfold win, psf_window, window0. cbn [psf_cen fst snd]. fold (kern_at K i).
  apply (pi_ext (fun x y => / INR t ^ 2 * rsum (map (fun z => snd z * re (cmul (cis (- dot t (fst z) x y)) (psf_inv (psf_ft t None) (fst z)))) (combine (k_msk K) (kern_at K i)))) _
    (fun x y => / INR t ^ 2 * rsum (map (fun z => snd z * cos (2 * PI * (fftfreq t (fst (fst z)) * x + fftfreq t (snd (fst z)) * y))) (combine (k_msk K) (kern_at K i))))).
  - intros x y. rewrite !Rplus_0_r. unfold Rdiv. ring.
  - intros x y. unfold Rdiv. ring.
  - apply pi_scale. apply (pi_sum _ (fun z x y => snd z * re (cmul (cis (- dot t (fst z) x y)) (psf_inv (psf_ft t None) (fst z)))) (fun z x y => snd z * cos (2 * PI * (fftfreq t (fst (fst z)) * x + fftfreq t (snd (fst z)) * y)))).
    intros [kl k] Hz. cbn [fst snd]. apply pi_scale. apply in_combine_l in Hz. destruct (gk_range t K G kl Hz) as (K1 & K2).
    set (a := fftfreq t (fst kl)). set (b := fftfreq t (snd kl)).
    assert (S1 : 2/5 <= sinc a) by (apply sinc_low; pose proof (fftfreq_range t _ K1); unfold a; lra).
    assert (S2 : 2/5 <= sinc b) by (apply sinc_low; pose proof (fftfreq_range t _ K2); unfold b; lra).
    apply (pi_ext (fun x y => / (sinc a * sinc b) * cos (2 * PI * (a * x + b * y))) _ (fun x y => / (sinc a * sinc b) * (sinc a * sinc b * cos (2 * PI * (a * x + b * y))))).
    + intros x y. rewrite (pixel_inv t kl K1 K2). fold a b. change (dot t kl x y) with (2 * PI * (a * x + b * y)).
      cbn [cmul cis re im]. rewrite cos_neg. ring.
    + intros x y. field. lra.
    + apply pi_scale, mode_2d.
Qed.
Lemma no_psf_moments f o t K : nrow (pp_im o) = ncol (pp_im o) -> (0 < nrow (pp_im o) <= t)%nat -> target_of f o None = Z.of_nat t ->
  make_kernels f t (wcs_of (pp_jac o)) = Ok K ->
  exists h : nat -> R -> R -> R, (forall i, pixel_integral (h i) (window0 t (k_msk K) (at_moment (kern4 K) i))) /\
  exists r, go f o true = Some (Ok r) /\
    moments_are r (fun i => dsum (nrow (pp_im o)) (nrow (pp_im o)) (fun a b => at2 (pp_im o) a b * stamp_weight (ft_ap f) (nrow (pp_im o)) a b * h i (INR a - row0 (pp_jac o)) (INR b - col0 (pp_jac o)))).
Proof.
  intros Hsq Hn Ht HK. assert (G : good_kernels t K) by (apply (kernels_good f t (wcs_of (pp_jac o))); [lia|exact HK]).
  exists (win t K None). split; [intros i; exact (pixel_window t K i G)|].
  assert (R : runs f o None t K).
  { constructor; try assumption; [exact I|]. cbn [psf_ft pixel_fft at2 fst snd]. rewrite fftfreq_0. unfold sinc. rewrite Reqb_t by reflexivity.
    unfold cabs, csq. cbn [re im]. apply sqrt_lt_R0. lra. }
  destruct (runs_result f o None t K R) as (r & M & (S1 & _)). exists r. split.
  - apply go_cases. split; [exact Hsq|]. split; [left; reflexivity|exact M].
  - unfold moments_are in *. rewrite S1. repeat f_equal; rewrite stamp_moment_weight by exact Hsq; apply dsum_ext; intros a b _ _; ring.
Qed.

(** ** sizes *)
Lemma trunc_ge n x : INR n <= x -> (Z.of_nat n <= trunc x)%Z.
Proof.
  intros H. pose proof (pos_INR n). unfold trunc. rewrite Rleb_t by lra. destruct (base_Int_part x) as (_ & B).
  assert (L : IZR (Z.of_nat n) < IZR (Int_part x) + 1) by (rewrite <- INR_IZR_INZ; lra). rewrite <- plus_IZR in L. apply lt_IZR in L. lia.
Qed.
Lemma padded_fits f o psf : 1 <= ft_pad f -> (Z.of_nat (nrow (pp_im o)) <= target_of f o psf)%Z /\
  match psf with Some p => (Z.of_nat (nrow (fst p)) <= target_of f o psf)%Z | None => True end.
Proof.
  intros H. unfold target_of. set (n := match psf with Some p => _ | None => _ end).
  assert (L : forall m, (m <= n)%nat -> (Z.of_nat m <= trunc (INR n * ft_pad f))%Z).
  { intros m Hm. apply trunc_ge. apply le_INR in Hm. pose proof (pos_INR n). nra. }
  split; [|destruct psf as [p|]; [|exact I]]; apply L; unfold n.
  - destruct psf as [p|]; [|lia]. destruct (Nat.ltb_spec (nrow (fst p)) (nrow (pp_im o))); lia.
  - destruct (Nat.ltb_spec (nrow (fst p)) (nrow (pp_im o))); lia.
Qed.
