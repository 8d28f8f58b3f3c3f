(** Examples: a fitter whose kernel fits a 2 x 2 grid, a star of amplitude 7 with a 2 x 2 psf. *)
From Verif Require Import Base XReal Moments_Model Moments_Proofs Jacobian_Model Pixels_Model MomResult_Model PrePSF_Model PrePSF_Spec PrePSF_Proofs PrePSF2_Proofs PrePSF3_Proofs PrePSF4_Proofs PrePSF6_Proofs PrePSF7_Proofs PrePSF8_Proofs.
From Coq Require Import Psatz.
Local Open Scope R_scope.

Lemma ex_root : exists z, 1 / 2 <= z < 1 /\ 5 / PI * (z * (1 + 2 * (1 - z) ^ 4)) = 1.
Proof.
  pose proof PI2_3_2. pose proof PI_4. assert (P3 : 3 < PI) by (unfold PI in *; lra).
  destruct (IVT (fun z => z * (1 + 2 * (1 - z) ^ 4) - PI / 5) (1 / 2) 1) as (z & Hz & E).
  - reg.
  - lra.
  - lra.
  - lra.
  - exists z. assert (z <> 1) by (intros ->; lra). split; [lra|]. replace (z * (1 + 2 * (1 - z) ^ 4)) with (PI / 5) by lra. field. lra.
Qed.
Definition ex_jac : jac := mkJac (1 / 2) (1 / 2) 1 0 0 1 1 1.
Definition ex_p : arr2 R := mkArr 2 2 (fun r c => match r, c with O, O => 3 | O, S O | S O, O => 1 | _, _ => 0 end).
Definition ex_im : arr2 R := mkArr 2 2 (fun r c => 7 * at2 ex_p r c).
Definition ex_wt : arr2 R := mkArr 2 2 (fun _ _ => 1 / 4).
Definition ex_o : ppobs := mkPP ex_im ex_wt ex_jac (Some (ex_p, ex_jac)).
Definition ex_f (z : R) : fitter := mkFitter (sigma_to_fwhm (sqrt (8 * z) / PI)) KSigma 1 0 0.
Lemma ex_kernels z : 1 / 2 <= z < 1 -> 5 / PI * (z * (1 + 2 * (1 - z) ^ 4)) = 1 ->
  exists K, make_kernels (ex_f z) 2 (wcs_of ex_jac) = Ok K /\ k_msk K = [(0, 0); (0, 1); (1, 0)]%nat.
Proof.
  intros Hz E. unfold make_kernels, ex_f. cbn [ft_kind ft_fwhm ft_smooth]. unfold ksigma_kernels. 
  assert (A : Atinv (wcs_of ex_jac) = Ok (mkW2 1 0 0 1)).
  { unfold Atinv, wcs_of, ex_jac. cbn. destruct (Reqb_spec (1 * 1 - 0 * 0) 0) as [X|_]; [lra|]. do 2 f_equal; field. }
  rewrite A. cbn [bind]. pose proof PI_RGT_0 as PP.
  assert (SG : fwhm_to_sigma (sigma_to_fwhm (sqrt (8 * z) / PI)) = sqrt (8 * z) / PI).
  { unfold fwhm_to_sigma, sigma_to_fwhm. field. split; [lra|]. pose proof fac_pos. lra. }
  rewrite SG. set (s := sqrt (8 * z) / PI).
  assert (S2 : s ^ 2 = 8 * z / PI ^ 2). { unfold s. unfold Rdiv. rewrite Rpow_mult_distr. replace (sqrt (8 * z) ^ 2) with (8 * z) by (rewrite <- Rsqr_pow2; rewrite Rsqr_sqrt by lra; reflexivity). field. lra. }
  assert (S0 : s <> 0). { intros X. rewrite X in S2. assert (0 < 8 * z / PI ^ 2) by (apply Rmult_lt_0_compat; [lra|]; apply Rinv_0_lt_compat, pow_lt; lra). lra. }
  destruct (Reqb_spec s 0) as [X|_]; [contradiction|]. rewrite S2.
  assert (KM : 2 * 4 / (8 * z / PI ^ 2) = PI ^ 2 / z) by (field; lra). rewrite KM.
  assert (F00 : fmag2_of (mkW2 1 0 0 1) 2 (0, 0)%nat = 0) by (unfold fmag2_of, fu_of, fv_of, fftfreq; cbn; field).
  assert (F01 : fmag2_of (mkW2 1 0 0 1) 2 (0, 1)%nat = PI ^ 2) by (unfold fmag2_of, fu_of, fv_of, fftfreq; cbn; field).
  assert (F10 : fmag2_of (mkW2 1 0 0 1) 2 (1, 0)%nat = PI ^ 2) by (unfold fmag2_of, fu_of, fv_of, fftfreq; cbn; field).
  assert (F11 : fmag2_of (mkW2 1 0 0 1) 2 (1, 1)%nat = 2 * PI ^ 2) by (unfold fmag2_of, fu_of, fv_of, fftfreq; cbn; field).
  assert (Q : 0 < PI ^ 2) by (apply pow_lt; lra).
  assert (B1 : PI ^ 2 < PI ^ 2 / z). { apply Rmult_lt_reg_r with z; [lra|]. replace (PI ^ 2 / z * z) with (PI ^ 2) by (field; lra). nra. }
  assert (B2 : PI ^ 2 / z <= 2 * PI ^ 2). { apply Rmult_le_reg_r with z; [lra|]. replace (PI ^ 2 / z * z) with (PI ^ 2) by (field; lra). nra. }
  assert (MK : filter (fun kl => Rltb (fmag2_of (mkW2 1 0 0 1) 2 kl) (PI ^ 2 / z)) (modes 2) = [(0, 0); (0, 1); (1, 0)]%nat).
  { unfold modes. cbn [seq flat_map map app filter]. rewrite F00, F01, F10, F11. rewrite !Rltb_t, Rltb_f by lra. reflexivity. }
  rewrite MK. cbn [map]. rewrite F00, F01, F10.
  assert (D : Rabs (det_of (mkW2 1 0 0 1)) = 1) by (unfold det_of; cbn; replace (1 * 1 - 0 * 0) with 1 by ring; apply Rabs_R1). rewrite D.
  assert (KN : 1 / (4 / (8 * z / PI ^ 2 * 10 * PI)) = 20 * z / PI) by (field; repeat split; lra). rewrite KN.
  assert (N : rsum [(1 - 0 / (PI ^ 2 / z)) ^ 4 * (20 * z / PI); (1 - PI ^ 2 / (PI ^ 2 / z)) ^ 4 * (20 * z / PI); (1 - PI ^ 2 / (PI ^ 2 / z)) ^ 4 * (20 * z / PI)] / INR 2 / INR 2 = 1).
  { rewrite !rsum_cons, rsum_nil. replace (0 / (PI ^ 2 / z)) with 0 by (field; lra). replace (PI ^ 2 / (PI ^ 2 / z)) with z by (field; lra).
    transitivity (5 / PI * (z * (1 + 2 * (1 - z) ^ 4))); [|exact E]. replace (INR 2) with 2 by (cbn; lra). field. lra. }
  rewrite N. unfold close_to_one. rewrite Rminus_eq_0, Rabs_R0, Rleb_t by lra. cbn [negb]. unfold smooth_list. rewrite Rltb_f by lra. cbn [bind].
  eexists. split; [reflexivity|]. reflexivity.
Qed.
Lemma ex_target z : target_of (ex_f z) ex_o (Some (ex_p, ex_jac)) = Z.of_nat 2.
Proof. unfold target_of. cbn. replace ((1 + 1) * 1) with (IZR 2) by lra. unfold FastExp_Model.trunc. rewrite Rleb_t by lra. unfold Int_part. rewrite <- (tech_up (IZR 2) 3) by lra. reflexivity. Qed.
Lemma ex_power kl : In kl [(0, 0); (0, 1); (1, 0)]%nat -> power 2 ex_p kl > (MIN_PSF_FRAC * total_of ex_p) ^ 2.
Proof.
  intros H. unfold total_of, power, MIN_PSF_FRAC. cbn [nrow ncol ex_p]. unfold dsum, sumn. cbn [seq map at2 ex_p]. rewrite !rsum_cons, !rsum_nil.
  assert (Q : forall x y, y = 0 \/ y = PI -> x = y -> cos x = (if Reqb y 0 then 1 else -1) /\ sin x = 0).
  { intros x y [->| ->] ->; [rewrite (proj2 (Reqb_true 0 0) eq_refl), cos_0, sin_0; auto|]. destruct (Reqb_spec PI 0); [pose proof PI_RGT_0; lra|]. rewrite cos_PI, sin_PI. auto. }
  destruct H as [<-|[<-|[<-|[]]]]; unfold fftfreq; cbn [fst snd Nat.leb Nat.mul Nat.add INR].
  - replace (2 * PI * (0 / (1 + 1) * 0 + 0 / (1 + 1) * 0)) with 0 by field. replace (2 * PI * (0 / (1 + 1) * 0 + 0 / (1 + 1) * 1)) with 0 by field.
    replace (2 * PI * (0 / (1 + 1) * 1 + 0 / (1 + 1) * 0)) with 0 by field. rewrite cos_0, sin_0. lra.
  - replace (2 * PI * (0 / (1 + 1) * 0 + (1 - (1 + 1)) / (1 + 1) * 0)) with 0 by field. replace (2 * PI * (0 / (1 + 1) * 0 + (1 - (1 + 1)) / (1 + 1) * 1)) with (- PI) by field.
    replace (2 * PI * (0 / (1 + 1) * 1 + (1 - (1 + 1)) / (1 + 1) * 0)) with 0 by field. rewrite cos_0, sin_0, cos_neg, sin_neg, cos_PI, sin_PI. lra.
  - replace (2 * PI * ((1 - (1 + 1)) / (1 + 1) * 0 + 0 / (1 + 1) * 0)) with 0 by field. replace (2 * PI * ((1 - (1 + 1)) / (1 + 1) * 1 + 0 / (1 + 1) * 0)) with (- PI) by field.
    replace (2 * PI * ((1 - (1 + 1)) / (1 + 1) * 0 + 0 / (1 + 1) * 1)) with 0 by field. rewrite cos_0, sin_0, cos_neg, sin_neg, cos_PI, sin_PI. lra.
Qed.
Lemma ex_image r c : (r < 2)%nat -> (c < 2)%nat -> at2 ex_im r c = 7 * shifted ex_p 0 0 r c.
Proof.
  intros Hr Hc. unfold shifted. cbn [nrow ncol ex_p Nat.add]. rewrite (proj2 (Nat.ltb_lt r 2) Hr), (proj2 (Nat.ltb_lt c 2) Hc). cbn [Nat.leb andb]. rewrite !Nat.sub_0_r. reflexivity.
Qed.
Lemma ex_same : same_wcs ex_jac ex_jac = true.
Proof. unfold same_wcs. rewrite !(proj2 (Reqb_true _ _) eq_refl). reflexivity. Qed.
(** hypotheses of the theorems on stars *)
Lemma ex_star : exists f K, let t := 2%nat in let j := ex_jac in
  pp_psf ex_o = Some (ex_p, ex_jac) /\ same_wcs j (pp_jac ex_o) = true /\ nrow (pp_im ex_o) = ncol (pp_im ex_o) /\ nrow ex_p = ncol ex_p /\ (0 < nrow ex_p)%nat /\
  target_of f ex_o (Some (ex_p, j)) = Z.of_nat t /\ (nrow (pp_im ex_o) <= t)%nat /\ (nrow ex_p <= t)%nat /\ make_kernels f t (wcs_of (pp_jac ex_o)) = Ok K /\
  (forall kl, In kl (k_msk K) -> power t ex_p kl > (MIN_PSF_FRAC * total_of ex_p) ^ 2) /\ (0 < nrow (pp_im ex_o))%nat /\ ft_smooth f <= 0 /\
  (margin (ft_ap f) <= 0)%nat /\ (0 + nrow ex_p + margin (ft_ap f) <= nrow (pp_im ex_o))%nat /\ (0 + ncol ex_p + margin (ft_ap f) <= nrow (pp_im ex_o))%nat /\
  INR 0 + row0 j = row0 (pp_jac ex_o) /\ INR 0 + col0 j = col0 (pp_jac ex_o) /\
  (forall r c, (r < nrow (pp_im ex_o))%nat -> (c < nrow (pp_im ex_o))%nat -> at2 (pp_im ex_o) r c = 7 * shifted ex_p 0 0 r c).
Proof.
  destruct ex_root as (z & Hz & E). destruct (ex_kernels z Hz E) as (K & HK & MK). exists (ex_f z), K. cbv zeta.
  assert (M : margin (ft_ap (ex_f z)) = 0%nat) by (unfold margin, ex_f; cbn [ft_ap]; rewrite Rltb_f by lra; reflexivity). rewrite M.
  repeat split; try reflexivity; try (cbn; lia); try (cbn; lra).
  - apply ex_same.
  - apply ex_target.
  - exact HK.
  - rewrite MK. exact ex_power.
  - exact ex_image.
Qed.
(** a measurement that succeeds *)
Lemma ex_go : exists f r, go f ex_o false = Some (Ok r).
Proof.
  destruct ex_star as (f & K & H1 & H2 & H3 & H4 & H5 & H6 & H7 & H8 & H9 & H10 & H11 & H12 & H13 & H14 & H15 & H16 & H17 & H18). exists f.
  destruct (star_flux f ex_o ex_p ex_jac 2 K 7 0 0 H1 H2 H3 H4 H5 H6 H7 H8 H9 H10 H11 H12 H13 H13 H14 H15 H16 H17 H18) as (r & fl & Hr & _). exists r. exact Hr.
Qed.
