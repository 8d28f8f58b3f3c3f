(** C144: which objects are flagged depends on the axes. *)
From Verif Require Import Base XReal Flags_Model Moments_Model Moments_Proofs Jacobian_Model Jacobian_Spec Pixels_Model FastExp_Model MomResult_Model MomResult_Spec MomResult_Proofs PrePSF_Model PrePSF_Spec PrePSF_Proofs PrePSF2_Proofs PrePSF3_Proofs PrePSF4_Proofs PrePSF6_Proofs PrePSF7_Proofs PrePSFCex_Proofs Motion_Spec Turn_Spec Turn_Proofs PrePSFTurn_Spec PrePSFTurn_Proofs.
From Coq Require Import Psatz.
Local Open Scope R_scope.

Definition turned_by (t : R) (j : jac) : jac :=
  finish_init (row0 j) (col0 j) (cos t * dvdrow j - sin t * dudrow j) (cos t * dvdcol j - sin t * dudcol j) (sin t * dvdrow j + cos t * dudrow j) (sin t * dvdcol j + cos t * dudcol j).
Definition turned_stamps (t : R) (o : ppobs) : ppobs :=
  mkPP (pp_im o) (pp_wt o) (turned_by t (pp_jac o)) (match pp_psf o with Some (p, j) => Some (p, turned_by t j) | None => None end).
Lemma turned_by_ok t j : sky_turned t j (turned_by t j).
Proof.
  split; [reflexivity|]. split; [reflexivity|]. unfold maps_to, turned_by, finish_init, moved_v, moved_u. cbn [row0 col0 dvdrow dvdcol dudrow dudcol].
  intros row col v u v' u' [-> ->] [-> ->]. split; ring.
Qed.
Lemma turned_stamps_ok t o : stamps_turned t o (turned_stamps t o).
Proof.
  unfold stamps_turned, turned_stamps. cbn [pp_im pp_wt pp_jac pp_psf]. split; [reflexivity|]. split; [reflexivity|]. split; [apply turned_by_ok|].
  destruct (pp_psf o) as [[p j]|]; [|exact I]. split; [reflexivity|apply turned_by_ok].
Qed.

(** ** every unflagged object is flagged at some angle *)
Lemma unflagged_nonzero f o np r : go f o np = Some (Ok r) -> m_flags r = 0%Z -> exists e1 e2, m_e1 r = Fin e1 /\ m_e2 r = Fin e2 /\ e1 <> 0 /\ e2 <> 0.
Proof.
  intros H Z. destruct (go_runs f o np r H) as (t & K & Rn & _). apply go_cases in H. destruct H as (_ & _ & H).
  destruct (meas_runs _ _ _ _ _ Rn) as (cv & M & N & C). rewrite M in H. injection H as H. cbn [map] in H.
  set (p := stamp_moment f o (the_psf o np) t K 0) in *. set (q := stamp_moment f o (the_psf o np) t K 1) in *. set (r0 := stamp_moment f o (the_psf o np) t K 2) in *. set (fl := stamp_moment f o (the_psf o np) t K 3) in *.
  set (sums := [NaN; NaN; Fin p; Fin q; Fin r0; Fin fl]) in *.
  assert (S : shapes_ok sums cv) by (unfold shapes_ok; rewrite N; cbn; lia).
  destruct (mom_result_full sums cv (Some (Fin (k_00 K))) S) as (r' & E' & _ & _ & _ & Tf & _ & _ & _ & _ & A & _). rewrite H in E'. injection E' as <-. rewrite Z in Tf.
  destruct (flags_zero _ _ _ Tf) as (D & P5 & P4 & E1 & E2). cbn in P5. assert (Q : xdiv (Fin r0) (Fin fl) = Fin (r0 / fl)) by (cbn; rewrite Reqb_f by lra; reflexivity).
  cbn [List.nth sums] in P4. rewrite Q in P4. cbn in P4. pose proof (mul_pos_inv _ _ P5 P4) as R0.
  destruct (A D P5) as (B1 & B2 & a & b & Ga & Gb & Ee & _). { cbn [List.nth sums]. rewrite Q. exact P4. }
  cbn [List.nth sums] in B1, B2, Ga, Gb. cbn [xdiv] in B1, B2. rewrite Reqb_f in B1, B2 by lra.
  assert (NP : p <> 0). { intros X. rewrite X in Ga. rewrite ratio_error_0 in Ga by lra. injection Ga as <-. cbn in Ee. rewrite Ee in E1. destruct E1 as (? & [=]). }
  assert (NQ : q <> 0). { intros X. rewrite X in Gb. rewrite ratio_error_0 in Gb by lra. injection Gb as <-. rewrite andb_false_r in Ee. rewrite Ee in E1. destruct E1 as (? & [=]). }
  exists (p / r0), (q / r0). split; [exact B1|]. split; [exact B2|]. split; intros X; [apply NP|apply NQ].
  - replace p with (p / r0 * r0) by (field; lra). rewrite X. ring.
  - replace q with (q / r0 * r0) by (field; lra). rewrite X. ring.
Qed.
Lemma flagged_somewhere f o np r : go f o np = Some (Ok r) -> m_flags r = 0%Z ->
  exists t r', go f (turned_stamps t o) np = Some (Ok r') /\ m_flags r' <> 0%Z.
Proof.
  intros H Z. destruct (unflagged_nonzero f o np r H Z) as (e1 & e2 & E1 & E2 & _ & N). destruct (bad_angle e1 e2 N) as (t & Hb). exists t.
  pose proof (go_turned t f o _ np (turned_stamps_ok t o)) as Q. rewrite H in Q. destruct (go f (turned_stamps t o) np) as [[r'|e]|] eqn:G; try contradiction.
  exists r'. split; [reflexivity|]. intros Z'. destruct (proj2 Q Z Z') as (x1 & x2 & _ & _ & _ & _ & X1 & X2 & X3 & _).
  destruct (unflagged_nonzero _ _ _ _ G Z') as (y1 & _ & Y1 & _ & NY & _). rewrite E1 in X1. rewrite E2 in X2. injection X1 as <-. injection X2 as <-. rewrite X3 in Y1. injection Y1 as <-.
  apply NY. unfold spin_re in Hb. cbn [INR] in Hb. unfold turned_1. replace (2 * t) with ((1 + 1) * t) by ring. exact Hb.
Qed.

(** ** two pixels seen through a psf of one pixel *)
Definition d_jac : jac := mkJac 0 0 1 0 0 1 1 1.
Definition d_psf : arr2 R := mkArr 1 1 (fun _ _ => 1).
Definition d_im : arr2 R := mkArr 2 2 (fun r _ => match r with O => 1 | _ => 0 end).
Definition d_o : ppobs := mkPP d_im ex_wt d_jac (Some (d_psf, d_jac)).
Lemma d_kernels z : 1 / 2 <= z < 1 -> 5 / PI * (z * (1 + 2 * (1 - z) ^ 4)) = 1 ->
  exists K a b h g x, make_kernels (ex_f z) 2 (wcs_of d_jac) = Ok K /\ k_msk K = [(0, 0); (0, 1); (1, 0)]%nat /\
    k_f K = [a; b; b] /\ k_r K = [h; g; g] /\ k_p K = [0; - x; x] /\ k_c K = [0; 0; 0] /\ 0 < a /\ 0 <= b /\ 0 < h /\ - (3 / 4) * h <= g /\ 0 < x.
Proof.
  intros Hz E. destruct (ex_kernels z Hz E) as (K & HK & MK). change (wcs_of ex_jac) with (wcs_of d_jac) in HK. exists K.
  pose proof PI_RGT_0 as PP. pose proof HK as HK'. unfold make_kernels, ex_f in HK'. cbn [ft_kind ft_fwhm ft_smooth] in HK'. unfold ksigma_kernels in HK'.
  assert (A : Atinv (wcs_of d_jac) = Ok (mkW2 1 0 0 1)).
  { unfold Atinv, wcs_of, d_jac. cbn. destruct (Reqb_spec (1 * 1 - 0 * 0) 0) as [X|_]; [lra|]. do 2 f_equal; field. }
  rewrite A in HK'. cbn [bind] in HK'.
  assert (SG : fwhm_to_sigma (sigma_to_fwhm (sqrt (8 * z) / PI)) = sqrt (8 * z) / PI).
  { unfold fwhm_to_sigma, sigma_to_fwhm. field. split; [lra|]. pose proof fac_pos. lra. }
  rewrite SG in HK'. set (s := sqrt (8 * z) / PI) in *.
  assert (S2 : s ^ 2 = 8 * z / PI ^ 2). { unfold s. unfold Rdiv. rewrite Rpow_mult_distr. replace (sqrt (8 * z) ^ 2) with (8 * z) by (rewrite <- Rsqr_pow2; rewrite Rsqr_sqrt by lra; reflexivity). field. lra. }
  destruct (Reqb s 0); [discriminate|]. rewrite S2 in HK'.
  assert (KM : 2 * 4 / (8 * z / PI ^ 2) = PI ^ 2 / z) by (field; lra). rewrite KM in HK'.
  assert (D : Rabs (det_of (mkW2 1 0 0 1)) = 1) by (unfold det_of; cbn; replace (1 * 1 - 0 * 0) with 1 by ring; apply Rabs_R1). rewrite D in HK'.
  assert (KN : 1 / (4 / (8 * z / PI ^ 2 * 10 * PI)) = 20 * z / PI) by (field; repeat split; lra). rewrite KN in HK'.
  destruct (negb _) in HK'; [discriminate|]. unfold smooth_list in HK'. rewrite Rltb_f in HK' by lra. cbn [bind] in HK'. injection HK' as HK'.
  assert (M := MK). rewrite <- HK' in M. cbn [k_msk] in M. rewrite M in HK'. cbn [map combine] in HK'.
  assert (U00 : fu_of (mkW2 1 0 0 1) 2 (0, 0)%nat = 0) by (unfold fu_of, fftfreq; cbn; field). assert (V00 : fv_of (mkW2 1 0 0 1) 2 (0, 0)%nat = 0) by (unfold fv_of, fftfreq; cbn; field).
  assert (U01 : fu_of (mkW2 1 0 0 1) 2 (0, 1)%nat = - PI) by (unfold fu_of, fftfreq; cbn; field). assert (V01 : fv_of (mkW2 1 0 0 1) 2 (0, 1)%nat = 0) by (unfold fv_of, fftfreq; cbn; field).
  assert (U10 : fu_of (mkW2 1 0 0 1) 2 (1, 0)%nat = 0) by (unfold fu_of, fftfreq; cbn; field). assert (V10 : fv_of (mkW2 1 0 0 1) 2 (1, 0)%nat = - PI) by (unfold fv_of, fftfreq; cbn; field).
  unfold fmag2_of in HK'. rewrite U00, V00, U01, V01, U10, V10 in HK'.
  set (kn := 20 * z / PI) in *. assert (KP : 0 < kn) by (unfold kn; apply Rdiv_lt_0_compat; lra).
  exists kn, ((1 - z) ^ 4 * kn), (16 * kn * z / PI ^ 2), (kn * z / PI ^ 2 * ((1 - z) ^ 2 * (16 - 64 * z))), (48 * kn * z ^ 2 / PI ^ 2 * (1 - z) ^ 2).
  split; [exact HK|]. split; [exact MK|]. rewrite <- HK'. cbn [k_f k_r k_p k_c].
  assert (Q : 0 < PI ^ 2) by (apply pow_lt; lra). assert (KZ : 0 < kn * z / PI ^ 2) by (apply Rdiv_lt_0_compat; [nra|exact Q]).
  split; [repeat (apply (f_equal2 cons); [field; repeat split; lra|]); reflexivity|]. split; [repeat (apply (f_equal2 cons); [field; repeat split; lra|]); reflexivity|].
  split; [repeat (apply (f_equal2 cons); [field; repeat split; lra|]); reflexivity|]. split; [repeat (apply (f_equal2 cons); [field; repeat split; lra|]); reflexivity|].
  split; [exact KP|]. split; [apply Rmult_le_pos; [apply pow_le; lra|lra]|].
  replace (16 * kn * z / PI ^ 2) with (kn * z / PI ^ 2 * 16) by (field; lra). split; [lra|].
  split; [|apply Rmult_lt_0_compat; [apply Rdiv_lt_0_compat; [|exact Q]|apply pow_lt; lra]; apply Rmult_lt_0_compat; [lra|apply pow_lt; lra]].
  replace (- (3 / 4) * (kn * z / PI ^ 2 * 16)) with (kn * z / PI ^ 2 * - 12) by (field; lra). apply Rmult_le_compat_l; [lra|].
  assert (0 <= (1 - z) ^ 2 <= 1 / 4) by (split; [apply pow2_ge_0|nra]). nra.
Qed.
Lemma d_target z t : target_of (ex_f z) (turned_stamps t d_o) (Some (d_psf, turned_by t d_jac)) = Z.of_nat 2.
Proof. unfold target_of. cbn. replace ((1 + 1) * 1) with (IZR 2) by lra. unfold FastExp_Model.trunc. rewrite Rleb_t by lra. unfold Int_part. rewrite <- (tech_up (IZR 2) 3) by lra. reflexivity. Qed.
Lemma d_total : total_of d_psf = 1. Proof. unfold total_of, dsum, sumn. cbn. lra. Qed.
Lemma d_power kl : power 2 d_psf kl = 1.
Proof.
  unfold power, dsum, sumn. cbn [nrow ncol d_psf seq map at2]. rewrite !rsum_cons, !rsum_nil. cbn [INR]. replace (2 * PI * (fftfreq 2 (fst kl) * 0 + fftfreq 2 (snd kl) * 0)) with 0 by ring.
  rewrite cos_0, sin_0. ring.
Qed.
Definition d_src : list (R * (nat * nat)) := [(1, (0%nat, 0%nat)); (1, (0%nat, 1%nat))].
Lemma d_window fk0 fk1 fk2 msk fk : msk = [(0, 0); (0, 1); (1, 0)]%nat -> fk = [fk0; fk1; fk2] ->
  rsum (map (fun s => fst s * window0 2 msk fk (INR (fst (snd s)) + 0 - 0) (INR (snd (snd s)) + 0 - 0)) d_src) = (fk0 + fk2) / 2.
Proof.
  intros -> ->. unfold d_src, window0. cbn [map fst snd combine]. rewrite !rsum_cons, !rsum_nil. unfold fftfreq. cbn [Nat.leb Nat.mul Nat.add INR].
  replace (2 * PI * (0 / (1 + 1) * (0 + 0 - 0) + 0 / (1 + 1) * (0 + 0 - 0))) with 0 by field.
  replace (2 * PI * (0 / (1 + 1) * (0 + 0 - 0) + (1 - (1 + 1)) / (1 + 1) * (0 + 0 - 0))) with 0 by field.
  replace (2 * PI * ((1 - (1 + 1)) / (1 + 1) * (0 + 0 - 0) + 0 / (1 + 1) * (0 + 0 - 0))) with 0 by field.
  replace (2 * PI * (0 / (1 + 1) * (0 + 0 - 0) + 0 / (1 + 1) * (1 + 0 - 0))) with 0 by field.
  replace (2 * PI * (0 / (1 + 1) * (0 + 0 - 0) + (1 - (1 + 1)) / (1 + 1) * (1 + 0 - 0))) with (- PI) by field.
  replace (2 * PI * ((1 - (1 + 1)) / (1 + 1) * (0 + 0 - 0) + 0 / (1 + 1) * (1 + 0 - 0))) with 0 by field.
  rewrite cos_0, cos_neg, cos_PI. field.
Qed.
Lemma cov3_pos pinv (m0 m1 m2 : nat * nat) x0 x1 x2 : (forall m, 0 < csq (pinv m)) -> x0 <> 0 \/ x1 <> 0 \/ x2 <> 0 -> 0 < mode_cov pinv [m0; m1; m2] [x0; x1; x2] [x0; x1; x2].
Proof.
  intros P H. unfold mode_cov. cbn [combine map fst snd]. rewrite !rsum_cons, rsum_nil. pose proof (P m0). pose proof (P m1). pose proof (P m2).
  assert (S : forall x y, 0 < y -> 0 <= x * x * y) by (intros; apply Rmult_le_pos; [apply Rle_0_sqr|lra]).
  assert (S' : forall x y, 0 < y -> x <> 0 -> 0 < x * x * y) by (intros x y Y X; apply Rmult_lt_0_compat; [apply Rsqr_pos_lt, X|exact Y]).
  pose proof (S x0 _ H0). pose proof (S x1 _ H1). pose proof (S x2 _ H2). destruct H as [H|[H|H]]; [pose proof (S' _ _ H0 H)|pose proof (S' _ _ H1 H)|pose proof (S' _ _ H2 H)]; lra.
Qed.
(** for every angle: the result, and when it is flagged *)
Lemma d_result z t : 1 / 2 <= z < 1 -> 5 / PI * (z * (1 + 2 * (1 - z) ^ 4)) = 1 ->
  exists r, go (ex_f z) (turned_stamps t d_o) false = Some (Ok r) /\
    (cos (2 * t) <> 0 -> sin (2 * t) <> 0 -> m_flags r = 0%Z) /\ (sin (2 * t) = 0 -> m_flags r = NONPOS_VAR).
Proof.
  intros Hz E. destruct (d_kernels z Hz E) as (K & a & b & h & g & x & HK & MK & KF & KR & KP & KC & Pa & Pb & Ph & Pg & Px).
  pose proof (kernels_are_turned t (ex_f z) 2 _ _ (sky_wcs t _ _ (turned_by_ok t d_jac))) as Q. rewrite HK in Q.
  destruct (make_kernels (ex_f z) 2 (wcs_of (turned_by t d_jac))) as [K'|] eqn:HK'; [|contradiction]. destruct Q as (M' & F' & R' & _ & _ & _ & _ & P' & C').
  rewrite MK in M'. rewrite KF in F'. rewrite KR in R'. rewrite KP, KC in P', C'. unfold comb in P', C'. cbn [combine map fst snd] in P', C'.
  assert (MG : margin (ft_ap (ex_f z)) = 0%nat) by (unfold margin, ex_f; cbn [ft_ap]; rewrite Rltb_f by lra; reflexivity).
  set (o := turned_stamps t d_o). set (psf := Some (d_psf, turned_by t d_jac)).
  assert (SW : same_wcs (turned_by t d_jac) (turned_by t d_jac) = true) by (apply same_wcs_iff; reflexivity).
  destruct (psf_copies (ex_f z) o d_psf (turned_by t d_jac) 2 K' d_src) as (r & G & MM & _).
  1,3,4: reflexivity. 1: exact SW. 1: cbn; lia. 1: apply d_target. 1,2: cbn; lia. 1: exact HK'.
  1: { intros kl _. rewrite d_power, d_total. unfold MIN_PSF_FRAC. lra. }
  1: cbn; lia.
  1: { rewrite MG. intros w r0 c0 [[= <- <- <-]|[[= <- <- <-]|[]]]; cbn; lia. }
  1: { intros r c Hr Hc. cbn in Hr, Hc. unfold copies_of, d_src, shifted. cbn [map fst snd]. rewrite !rsum_cons, rsum_nil.
       destruct r as [|[|r]]; [..|lia]; (destruct c as [|[|c]]; [..|lia]); cbn; lra. }
  exists r. split; [exact G|].
  destruct (go_runs _ _ _ _ G) as (n & K2 & Rn & _). assert (n = 2%nat) by (pose proof (rn_t _ _ _ _ _ Rn) as X; change (the_psf o false) with psf in X; unfold psf, o in X; rewrite d_target in X; lia). subst n.
  assert (K2 = K') by (pose proof (rn_K _ _ _ _ _ Rn) as X; cbn [pp_jac o turned_stamps d_o] in X; unfold o, turned_stamps, d_o in X; cbn [pp_jac] in X; rewrite HK' in X; congruence). subst K2.
  change (the_psf o false) with psf in Rn. apply go_cases in G. destruct G as (_ & _ & G). change (the_psf o false) with psf in G.
  destruct (meas_runs _ _ _ _ _ Rn) as (cv & ME & N & CV). rewrite ME in G. injection G as G. clear ME.
  set (mo := fun i => rsum (map (fun s => fst s * window0 2 (k_msk K') (at_moment (kern4 K') i) (INR (fst (snd s)) + 0 - 0) (INR (snd (snd s)) + 0 - 0)) d_src)).
  assert (MM' : m_sums r = [NaN; NaN; Fin (mo 0%nat); Fin (mo 1%nat); Fin (mo 2%nat); Fin (mo 3%nat)]) by exact MM. clear MM.
  destruct (mom_shape _ cv (Some (Fin (k_00 K'))) (eq_refl : length (NaN :: NaN :: map (fun i => Fin (stamp_moment (ex_f z) o psf 2 K' i)) [0%nat; 1%nat; 2%nat; 3%nat]) = 6%nat) N) as (r1 & X1 & X2 & _). cbn [map] in G, X1, X2. rewrite G in X1. injection X1 as <-.
  rewrite <- X2, MM' in G. clear X2.
  assert (W0 : mo 0%nat = sin (2 * t) * 0 + cos (2 * t) * (x / 2)) by (unfold mo, at_moment, kern4; cbn [q_p q_c q_r q_f]; rewrite (d_window _ _ _ _ _ M' P'); field).
  assert (W1 : mo 1%nat = - (sin (2 * t) * (x / 2))) by (unfold mo, at_moment, kern4; cbn [q_p q_c q_r q_f]; rewrite (d_window _ _ _ _ _ M' C'); field).
  assert (W2 : mo 2%nat = (h + g) / 2) by (unfold mo, at_moment, kern4; cbn [q_p q_c q_r q_f]; rewrite (d_window _ _ _ _ _ M' R'); field).
  assert (W3 : mo 3%nat = (a + b) / 2) by (unfold mo, at_moment, kern4; cbn [q_p q_c q_r q_f]; rewrite (d_window _ _ _ _ _ M' F'); field).
  assert (PI_pos : forall m, 0 < csq (psf_inv (psf_ft 2 psf) m)).
  { intros m. unfold psf_inv. pose proof (rn_amp _ _ _ _ _ Rn) as AM. assert (0 < MIN_PSF_FRAC * cabs (psf_ft 2 psf (0, 0)%nat)) as AM' by (unfold MIN_PSF_FRAC; lra).
    pose proof (trunc_nonzero _ (psf_ft 2 psf m) AM') as NZ. pose proof (csq_inv _ NZ) as CI. set (y := trunc_mode _ _) in *. pose proof (csq_nonneg y). pose proof (csq_nonneg (cinv y)).
    destruct (Req_dec (csq (cinv y)) 0) as [X|X]; [rewrite X in CI; lra|lra]. }
  set (w := total_var (pp_wt o) * (INR 2 / INR (nrow (pp_im o))) ^ 2 / INR 2 ^ 4).
  assert (WP : 0 < w). { unfold w. assert (T : total_var (pp_wt o) = 16) by (cbn; unfold total_var; cbn; rewrite !Rltb_t by lra; cbn; field). rewrite T. cbn. lra. }
  assert (S : shapes_ok (m_sums r) cv) by (unfold shapes_ok; rewrite N, MM'; cbn; lia). rewrite MM' in S.
  split.
  - intros C0 S0.
    assert (DP : diag_positive cv).
    { intros i Hi. rewrite N in Hi. rewrite CV by exact Hi. unfold stamp_cov. cbn [positive]. fold w. destruct i as [|[|[|[|[|[|i]]]]]]; [..|lia]; cbn [Nat.leb andb Nat.eqb Nat.min Nat.max Nat.sub]; try lra;
      (apply Rmult_lt_0_compat; [|exact WP]); unfold kern_at, at_moment, kern4; cbn [q_p q_c q_r q_f]; rewrite M', ?F', ?R', ?P', ?C'; apply cov3_pos; try exact PI_pos.
      - right. right. rewrite Rmult_0_r, Rplus_0_r. apply Rmult_integral_contrapositive_currified; lra.
      - right. right. rewrite Rmult_0_r, Rplus_0_r. apply Rmult_integral_contrapositive_currified; [|lra]. apply Ropp_neq_0_compat. exact S0.
      - left. lra.
      - left. lra. }
    destruct (valid_moments _ cv (Some (Fin (k_00 K'))) (mo 0%nat) (mo 1%nat) (mo 2%nat) (mo 3%nat) S) as (r2 & E2 & _ & _ & _ & _ & _ & _ & _ & _ & _ & _ & A & _); try reflexivity; try exact DP.
    { intros i j Hi Hj. rewrite N in Hi, Hj. rewrite CV by assumption. eexists. reflexivity. }
    { rewrite W3. lra. } { rewrite W2. lra. }
    rewrite G in E2. injection E2 as <-. apply A.
    + rewrite W0, Rmult_0_r, Rplus_0_l. apply Rmult_integral_contrapositive_currified; lra.
    + rewrite W1. apply Ropp_neq_0_compat, Rmult_integral_contrapositive_currified; lra.
  - intros S0. destruct (mom_result_full _ cv (Some (Fin (k_00 K'))) S) as (r2 & E2 & _ & _ & _ & TF & _). rewrite G in E2. injection E2 as <-.
    assert (DN : ~ diag_positive cv).
    { intros D. specialize (D 3%nat ltac:(lia)). rewrite CV in D by lia. unfold stamp_cov in D. cbn [positive Nat.leb andb Nat.min Nat.max Nat.sub] in D. unfold kern_at, at_moment, kern4 in D. cbn [q_c] in D. rewrite M', C', S0 in D.
      unfold mode_cov in D. cbn [combine map fst snd] in D. rewrite !rsum_cons, rsum_nil in D. match type of D with 0 < ?X * _ => replace X with 0 in D by ring end. lra. }
    inversion TF; tauto.
Qed.
Lemma eighth : cos (2 * (PI / 8)) <> 0 /\ sin (2 * (PI / 8)) <> 0.
Proof.
  pose proof PI_RGT_0. replace (2 * (PI / 8)) with (PI / 4) by field. split; apply Rgt_not_eq; [apply cos_gt_0|apply sin_gt_0]; lra.
Qed.
Lemma eighth' : cos (2 * (- (PI / 8))) <> 0 /\ sin (2 * (- (PI / 8))) <> 0.
Proof. replace (2 * - (PI / 8)) with (- (2 * (PI / 8))) by ring. rewrite cos_neg, sin_neg. pose proof eighth as [A B]. split; [exact A|]. apply Ropp_neq_0_compat, B. Qed.
(** turned by [t] and by [s]: by the difference *)
Lemma turned_between t s j : sky_turned (s - t) (turned_by t j) (turned_by s j).
Proof.
  split; [reflexivity|]. split; [reflexivity|]. unfold maps_to, turned_by, finish_init, moved_v, moved_u. cbn [row0 col0 dvdrow dvdcol dudrow dudcol].
  intros row col v u v' u' [-> ->] [-> ->]. assert (Cs : cos s = cos (s - t) * cos t - sin (s - t) * sin t) by (rewrite <- cos_plus; f_equal; ring).
  assert (Sn : sin s = sin (s - t) * cos t + cos (s - t) * sin t) by (rewrite <- sin_plus; f_equal; ring). rewrite Cs, Sn. split; ring.
Qed.
Lemma stamps_between t s o : stamps_turned (s - t) (turned_stamps t o) (turned_stamps s o).
Proof.
  unfold stamps_turned, turned_stamps. cbn [pp_im pp_wt pp_jac pp_psf]. split; [reflexivity|]. split; [reflexivity|]. split; [apply turned_between|].
  destruct (pp_psf o) as [[p j]|]; [|exact I]. split; [reflexivity|apply turned_between].
Qed.
