(** Theorems on ngmix/prepsfmom.py: C73-C76, C102-C106, C120. *)
From Verif Require Import Base XReal Moments_Model Jacobian_Model Pixels_Model MomResult_Model PrePSF_Model PrePSF_Spec PrePSF_Proofs PrePSF2_Proofs PrePSF3_Proofs PrePSF4_Proofs PrePSF6_Proofs PrePSF7_Proofs PrePSF8_Proofs PrePSF9_Proofs PrePSFCex_Proofs.
From Coq Require Import Psatz.
Local Open Scope R_scope.

(** C73 *)
Theorem C73_pasted : forall (a : arr2 R) t, (nrow a <= t)%nat -> exists p b e, zero_pad a (Z.of_nat t) = Ok (p, Z.of_nat b, Z.of_nat e) /\
  pasted a b t p /\ (b + nrow a + e = t)%nat /\ (b <= e <= b + 1)%nat /\ total_of p = total_of a.
Proof.
  intros a t H. destruct (zero_pad_spec a t H) as (p & Hp & P). exists p, ((t - nrow a) / 2)%nat, (t - nrow a - (t - nrow a) / 2)%nat.
  pose proof (Nat.div_mod (t - nrow a) 2 ltac:(lia)). pose proof (Nat.mod_upper_bound (t - nrow a) 2 ltac:(lia)).
  repeat split; try lia; try exact Hp; try apply P. apply (pasted_total _ _ _ _ P).
Qed.
Print Assumptions C73_pasted.
Theorem C73_too_small : forall (a : arr2 R) t, (t < Z.of_nat (nrow a))%Z -> zero_pad a t = Raise ValueError.
Proof. exact zero_pad_refused. Qed.
Print Assumptions C73_too_small.
Example C73_hypotheses_hold : (nrow ex_p <= 5)%nat /\ total_of ex_p = 5.
Proof. split; [cbn; lia|]. unfold total_of, dsum, sumn. cbn. lra. Qed.
Print Assumptions C73_hypotheses_hold.

(** C74 *)
Theorem C74_mask : forall h (m : arr2 R), 0 < h -> let w := ap_range_of h in let e := edge_weight h w in
  nrow (build_mask h (ones_like m)) = nrow m /\ ncol (build_mask h (ones_like m)) = ncol m /\
  forall r c, (r < nrow m)%nat -> (c < ncol m)%nat ->
    at2 (build_mask h (ones_like m)) r c = e r * e (nrow m - 1 - r)%nat * (e c * e (ncol m - 1 - c)%nat).
Proof.
  intros h m H w e. destruct (mask_closed h (ones_like m) H) as (A & B & C). split; [exact A|]. split; [exact B|].
  intros r c Hr Hc. rewrite C by assumption. cbn [ones_like at2 nrow ncol]. unfold e, w. ring.
Qed.
Print Assumptions C74_mask.
Theorem C74_bounds : forall h (m : arr2 R), 0 < h -> let k := build_mask h (ones_like m) in let w := ap_range_of h in
  forall r c, (r < nrow m)%nat -> (c < ncol m)%nat -> 0 <= at2 k r c <= 1 /\
    at2 k (nrow m - 1 - r)%nat c = at2 k r c /\ at2 k r (ncol m - 1 - c)%nat = at2 k r c /\
    ((w <= r)%nat -> (w <= nrow m - 1 - r)%nat -> (w <= c)%nat -> (w <= ncol m - 1 - c)%nat -> at2 k r c = 1).
Proof.
  intros h m H k w r c Hr Hc. destruct (C74_mask h m H) as (_ & _ & C). unfold k. rewrite !C by lia.
  replace (nrow m - 1 - (nrow m - 1 - r))%nat with r by lia. replace (ncol m - 1 - (ncol m - 1 - c))%nat with c by lia. fold w.
  pose proof (smooth_step_01) as S1. split; [|split; [|split]]; [|ring|ring|].
  - unfold edge_weight. repeat apply mul01; apply S1.
  - intros A B D E. rewrite !(edge_weight_inner h w) by assumption. ring.
Qed.
Print Assumptions C74_bounds.
Theorem C74_profile_increases : forall h w d d', 0 < h -> (d <= d')%nat -> edge_weight h w d <= edge_weight h w d'.
Proof.
  intros h w d d' H L. unfold edge_weight. apply smooth_step_mono. apply le_INR in L. apply Rplus_le_compat_r. unfold Rdiv.
  apply Rmult_le_compat_r; [apply Rlt_le, Rinv_0_lt_compat; lra|lra].
Qed.
Print Assumptions C74_profile_increases.
Example C74_hypotheses_hold : 0 < 3 / 2 /\ edge_weight 1 6 3 = 1 / 2 /\ edge_weight 1 6 0 = 0.
Proof.
  split; [lra|]. unfold edge_weight, smooth_step. replace (INR 6) with 6 by (cbn; lra). replace (INR 3) with 3 by (cbn; lra). cbn [INR].
  replace ((3 - 6) / (6 * 1) + 1) with (1 / 2) by field. replace ((0 - 6) / (6 * 1) + 1) with 0 by field.
  rewrite (Rltb_f (1 / 2) 0), (Rltb_f 1 (1 / 2)), (Rltb_f 0 0), (Rltb_f 1 0) by lra. split; [field|ring].
Qed.
Print Assumptions C74_hypotheses_hold.

(** C75 *)
Theorem C75_deconvolution : forall k p amp frac, length k = length p -> 0 < frac * amp ->
  exists k' p' m, deconvolve k p amp frac = Some (k', p', m) /\ length k' = length k /\ length p' = length p /\ length m = length p /\
  forall i x y, nth_error k i = Some x -> nth_error p i = Some y ->
    exists x' y' b, nth_error k' i = Some x' /\ nth_error p' i = Some y' /\ nth_error m i = Some b /\
      frac * amp <= cabs y' /\ (frac * amp < cabs y -> y' = y) /\ (cabs y <= frac * amp -> cabs y' = frac * amp) /\
      (y <> mkC 0 0 -> exists s, 0 < s /\ y' = cscale s y) /\ (y = mkC 0 0 -> y' = mkC (frac * amp) 0) /\
      cmul x' y' = x /\ cabs x' <= cabs x / (frac * amp) /\ (b = true <-> y = mkC 0 0).
Proof. exact deconvolve_modes. Qed.
Print Assumptions C75_deconvolution.
(** a psf of no flux gives results that are not finite, exactly when one of its modes vanishes *)
Theorem C75_no_flux : forall k p frac, length k = length p -> (deconvolve k p 0 frac = None <-> In (mkC 0 0) p).
Proof. exact deconvolve_no_flux. Qed.
Print Assumptions C75_no_flux.
(** the mask that is returned does not mark the modes that were truncated *)
Theorem C75_mask_refuted : exists k p k' p' y y', deconvolve k p 1 1 = Some (k', p', [false]) /\ p = [y] /\ p' = [y'] /\ y <> y'.
Proof.
  destruct mask_witness as (k' & p' & H & E). exists [mkC 1 0], [mkC (1 / 2) 0], k', p', (mkC (1 / 2) 0), (mkC 1 0).
  split; [exact H|]. split; [reflexivity|]. split; [exact E|]. intros [= X]. lra.
Qed.
Print Assumptions C75_mask_refuted.
Example C75_hypotheses_hold : length [mkC 1 2; mkC 0 1; mkC 4 4] = length [mkC 3 0; mkC 0 (1 / 10); mkC 0 0] /\ 0 < 1 / 10 * 3.
Proof. split; [reflexivity|lra]. Qed.
Print Assumptions C75_hypotheses_hold.

(** C76 *)
Theorem C76_covariance : forall f o np r, go f o np = Some (Ok r) -> sm_n (m_cov r) = 6%nat /\
  exists q, (forall i j, (i < 6)%nat -> (j < 6)%nat -> sm_at (m_cov r) i j = Fin (q i j)) /\ (forall i j, q i j = q j i) /\ psd 6 q.
Proof. exact go_cov. Qed.
Print Assumptions C76_covariance.
Theorem C76_scales : forall f o np r s, go f o np = Some (Ok r) -> 0 < s ->
  exists r', go f (with_weight o (mkArr (nrow (pp_wt o)) (ncol (pp_wt o)) (fun i j => s * at2 (pp_wt o) i j))) np = Some (Ok r') /\
    m_sums r' = m_sums r /\ (forall i j, (i < 4)%nat -> (j < 4)%nat -> cov4 r' i j = cov4 r i j / s).
Proof. exact weight_scale. Qed.
Print Assumptions C76_scales.
Example C76_hypotheses_hold : exists f r, go f ex_o false = Some (Ok r).
Proof. exact ex_go. Qed.
Print Assumptions C76_hypotheses_hold.

(** C102: for a given fitter, psf, wcs and size of transform there is one window h per moment;
    every image of a size that fits is measured with it, centred at the centre of its jacobian *)
Theorem C102_one_window : forall f o np r, go f o np = Some (Ok r) -> exists h : nat -> R -> R -> R,
  forall o', pp_psf o' = pp_psf o -> wcs_of (pp_jac o') = wcs_of (pp_jac o) -> nrow (pp_im o') = ncol (pp_im o') -> (0 < nrow (pp_im o'))%nat ->
    target_of f o' (the_psf o np) = target_of f o (the_psf o np) -> (Z.of_nat (nrow (pp_im o')) <= target_of f o (the_psf o np))%Z ->
  exists r', go f o' np = Some (Ok r') /\
    moments_are r' (fun i => dsum (nrow (pp_im o')) (nrow (pp_im o')) (fun a b => at2 (pp_im o') a b * stamp_weight (ft_ap f) (nrow (pp_im o')) a b * h i (INR a - row0 (pp_jac o')) (INR b - col0 (pp_jac o')))).
Proof. exact one_window. Qed.
Print Assumptions C102_one_window.
Example C102_hypotheses_hold : exists f r, go f ex_o false = Some (Ok r).
Proof. exact ex_go. Qed.
Print Assumptions C102_hypotheses_hold.

(** C103: an image made of shifted copies of the psf *)
Theorem C103_sources : forall f o p j t K src, pp_psf o = Some (p, j) -> same_wcs j (pp_jac o) = true ->
  nrow (pp_im o) = ncol (pp_im o) -> nrow p = ncol p -> (0 < nrow p)%nat ->
  target_of f o (Some (p, j)) = Z.of_nat t -> (nrow (pp_im o) <= t)%nat -> (nrow p <= t)%nat -> make_kernels f t (wcs_of (pp_jac o)) = Ok K ->
  (forall kl, In kl (k_msk K) -> power t p kl > (MIN_PSF_FRAC * total_of p) ^ 2) ->
  (0 < nrow (pp_im o))%nat ->
  (forall a r0 c0, In (a, (r0, c0)) src -> (margin (ft_ap f) <= r0)%nat /\ (margin (ft_ap f) <= c0)%nat /\
     (r0 + nrow p + margin (ft_ap f) <= nrow (pp_im o))%nat /\ (c0 + ncol p + margin (ft_ap f) <= nrow (pp_im o))%nat) ->
  (forall r c, (r < nrow (pp_im o))%nat -> (c < nrow (pp_im o))%nat -> at2 (pp_im o) r c = copies_of p src r c) ->
  exists r, go f o false = Some (Ok r) /\
    moments_are r (fun i => rsum (map (fun s => fst s * window0 t (k_msk K) (at_moment (kern4 K) i) (INR (fst (snd s)) + row0 j - row0 (pp_jac o)) (INR (snd (snd s)) + col0 j - col0 (pp_jac o))) src)) /\
    m_flux r = Fin (rsum (map (fun s => fst s * window0 t (k_msk K) (k_f K) (INR (fst (snd s)) + row0 j - row0 (pp_jac o)) (INR (snd (snd s)) + col0 j - col0 (pp_jac o))) src)).
Proof. exact psf_copies. Qed.
Print Assumptions C103_sources.
(** flux of a star at the centre *)
Theorem C103_star_flux : forall f o p j t K a r0 c0, pp_psf o = Some (p, j) -> same_wcs j (pp_jac o) = true ->
  nrow (pp_im o) = ncol (pp_im o) -> nrow p = ncol p -> (0 < nrow p)%nat ->
  target_of f o (Some (p, j)) = Z.of_nat t -> (nrow (pp_im o) <= t)%nat -> (nrow p <= t)%nat -> make_kernels f t (wcs_of (pp_jac o)) = Ok K ->
  (forall kl, In kl (k_msk K) -> power t p kl > (MIN_PSF_FRAC * total_of p) ^ 2) ->
  (0 < nrow (pp_im o))%nat -> ft_smooth f <= 0 ->
  (margin (ft_ap f) <= r0)%nat -> (margin (ft_ap f) <= c0)%nat ->
  (r0 + nrow p + margin (ft_ap f) <= nrow (pp_im o))%nat -> (c0 + ncol p + margin (ft_ap f) <= nrow (pp_im o))%nat ->
  INR r0 + row0 j = row0 (pp_jac o) -> INR c0 + col0 j = col0 (pp_jac o) ->
  (forall r c, (r < nrow (pp_im o))%nat -> (c < nrow (pp_im o))%nat -> at2 (pp_im o) r c = a * shifted p r0 c0 r c) ->
  exists r fl, go f o false = Some (Ok r) /\ m_flux r = Fin fl /\ Rabs (fl - a) <= Rabs a / 100000.
Proof. exact star_flux. Qed.
Print Assumptions C103_star_flux.
(** away from the centre the flux window is never larger *)
Theorem C103_window_peak : forall f t j K x y, (0 < t)%nat -> make_kernels f t j = Ok K ->
  Rabs (window0 t (k_msk K) (k_f K) x y) <= window0 t (k_msk K) (k_f K) 0 0.
Proof. intros f t j K x y Ht H. apply (window_bound f t j K x y H). apply (kernels_good f t j K Ht H). Qed.
Print Assumptions C103_window_peak.
Example C103_hypotheses_hold : exists f K, let t := 2%nat in let j := ex_jac in
  pp_psf ex_o = Some (ex_p, ex_jac) /\ same_wcs j (pp_jac ex_o) = true /\ nrow (pp_im ex_o) = ncol (pp_im ex_o) /\ nrow ex_p = ncol ex_p /\ (0 < nrow ex_p)%nat /\
  target_of f ex_o (Some (ex_p, j)) = Z.of_nat t /\ (nrow (pp_im ex_o) <= t)%nat /\ (nrow ex_p <= t)%nat /\ make_kernels f t (wcs_of (pp_jac ex_o)) = Ok K /\
  (forall kl, In kl (k_msk K) -> power t ex_p kl > (MIN_PSF_FRAC * total_of ex_p) ^ 2) /\ (0 < nrow (pp_im ex_o))%nat /\ ft_smooth f <= 0 /\
  (margin (ft_ap f) <= 0)%nat /\ (0 + nrow ex_p + margin (ft_ap f) <= nrow (pp_im ex_o))%nat /\ (0 + ncol ex_p + margin (ft_ap f) <= nrow (pp_im ex_o))%nat /\
  INR 0 + row0 j = row0 (pp_jac ex_o) /\ INR 0 + col0 j = col0 (pp_jac ex_o) /\
  (forall r c, (r < nrow (pp_im ex_o))%nat -> (c < nrow (pp_im ex_o))%nat -> at2 (pp_im ex_o) r c = 7 * shifted ex_p 0 0 r c).
Proof. exact ex_star. Qed.
Print Assumptions C103_hypotheses_hold.

(** C104: for uniform weights 1/s, the moments are w.image for weights w, and the reported
    covariance is at least that of w.image for uncorrelated noise of variance s *)
Theorem C104_errors_not_small : forall f o np r s, go f o np = Some (Ok r) -> 0 < s ->
  nrow (pp_wt o) = nrow (pp_im o) -> ncol (pp_wt o) = ncol (pp_im o) ->
  (forall i j, (i < nrow (pp_wt o))%nat -> (j < ncol (pp_wt o))%nat -> at2 (pp_wt o) i j = 1 / s) ->
  let n := nrow (pp_im o) in
  exists w : nat -> nat -> nat -> R,
    (forall a, nrow a = n -> ncol a = n -> exists r', go f (with_image o a) np = Some (Ok r') /\
       moments_are r' (fun i => dsum n n (fun y x => at2 a y x * w i y x)) /\ (forall i j, (i < 4)%nat -> (j < 4)%nat -> cov4 r' i j = cov4 r i j)) /\
    forall x, s * dsum n n (fun y c => sumn 4 (fun i => x i * w i y c) ^ 2) <= quad4 (cov4 r) x.
Proof. exact errors_not_small. Qed.
Print Assumptions C104_errors_not_small.
Example C104_hypotheses_hold : (exists f r, go f ex_o false = Some (Ok r)) /\ nrow (pp_wt ex_o) = nrow (pp_im ex_o) /\ ncol (pp_wt ex_o) = ncol (pp_im ex_o) /\ at2 (pp_wt ex_o) 1 0 = 1 / 4.
Proof. split; [exact ex_go|]. repeat split; reflexivity. Qed.
Print Assumptions C104_hypotheses_hold.

(** C105 *)
Theorem C105_kernels : forall f t j K, make_kernels f t j = Ok K ->
  (forall i m, nth_error (k_msk K) i = Some m -> kernel_values f t j K i m) /\
  (forall m, In m (k_msk K) <-> (fst m < t)%nat /\ (snd m < t)%nat /\ forall u v, sky_frequency t j m u v -> in_support (ft_kind f) (fwhm_to_sigma (ft_fwhm f)) u v) /\
  k_00 K * Rabs (a_vrow j * a_ucol j - a_vcol j * a_urow j) = peak (ft_kind f) (fwhm_to_sigma (ft_fwhm f)) /\
  Rabs (k_nrm K - 1) <= 1 / 100000 /\ (ft_smooth f <= 0 -> rsum (k_f K) / INR t ^ 2 = k_nrm K).
Proof. exact kernels_values. Qed.
Print Assumptions C105_kernels.
Theorem C105_phases : forall r c t kl, cen_phase r c t kl = cen_phase_orig r c t kl.
Proof. exact cen_phase_same. Qed.
Print Assumptions C105_phases.
Example C105_hypotheses_hold : exists f K, make_kernels f 2 (wcs_of ex_jac) = Ok K /\ k_msk K = [(0, 0); (0, 1); (1, 0)]%nat.
Proof. destruct ex_root as (z & Hz & E). exists (ex_f z). apply ex_kernels; assumption. Qed.
Print Assumptions C105_hypotheses_hold.

(** C106 *)
Theorem C106_not_square : forall f o np, nrow (pp_im o) <> ncol (pp_im o) -> go f o np = Some (Raise ValueError).
Proof. exact refuse_not_square. Qed.
Print Assumptions C106_not_square.
Theorem C106_no_psf : forall f o, nrow (pp_im o) = ncol (pp_im o) -> pp_psf o = None -> go f o false = Some (Raise RuntimeError).
Proof. exact refuse_no_psf. Qed.
Print Assumptions C106_no_psf.
Theorem C106_wcs : forall f o p, nrow (pp_im o) = ncol (pp_im o) -> pp_psf o = Some p -> wcs_of (snd p) <> wcs_of (pp_jac o) -> go f o false = Some (Raise RuntimeError).
Proof. exact refuse_wcs. Qed.
Print Assumptions C106_wcs.
(** with no_psf a psf is ignored *)
Theorem C106_psf_ignored : forall f o q, go f (mkPP (pp_im o) (pp_wt o) (pp_jac o) q) true = go f o true.
Proof. exact psf_ignored. Qed.
Print Assumptions C106_psf_ignored.
Theorem C106_pad : forall f o p, nrow (pp_im o) = ncol (pp_im o) -> (0 < nrow (pp_im o))%nat -> pp_psf o = Some p -> wcs_of (snd p) = wcs_of (pp_jac o) ->
  (target_of f o (Some p) < Z.of_nat (nrow (pp_im o)))%Z -> go f o false = Some (Raise ValueError).
Proof.
  intros f o p Hsq Hn Hp Hw Ht. assert (T : the_psf o false = Some p) by exact Hp. apply refuse_pad; rewrite ?T; try assumption. apply check_psf; assumption.
Qed.
Print Assumptions C106_pad.
(** a result is returned only for images that fit *)
Theorem C106_fits : forall f o np r, go f o np = Some (Ok r) -> (Z.of_nat (nrow (pp_im o)) <= target_of f o (the_psf o np))%Z /\
  match the_psf o np with Some p => (Z.of_nat (nrow (fst p)) <= target_of f o (the_psf o np))%Z /\ nrow (fst p) = ncol (fst p) | None => True end.
Proof. exact refuse_small. Qed.
Print Assumptions C106_fits.
(** with a pad factor of at least one both images fit *)
Theorem C106_pad_factor : forall f o psf, 1 <= ft_pad f -> (Z.of_nat (nrow (pp_im o)) <= target_of f o psf)%Z /\
  match psf with Some p => (Z.of_nat (nrow (fst p)) <= target_of f o psf)%Z | None => True end.
Proof. exact padded_fits. Qed.
Print Assumptions C106_pad_factor.
(** a psf image that is not square is not diagnosed *)
Theorem C106_psf_shape_refuted : forall f o p j t K, nrow (pp_im o) = ncol (pp_im o) -> (0 < nrow (pp_im o) <= t)%nat -> pp_psf o = Some (p, j) ->
  wcs_of j = wcs_of (pp_jac o) -> (0 < ncol p)%nat -> (nrow p <= t)%nat -> nrow p <> ncol p -> target_of f o (Some (p, j)) = Z.of_nat t ->
  make_kernels f t (wcs_of (pp_jac o)) = Ok K -> go f o false = Some (Raise IndexError).
Proof. exact psf_not_square. Qed.
Print Assumptions C106_psf_shape_refuted.
Example C106_hypotheses_hold : exists f K, let p := mkArr 2 1 (fun _ _ => 1) in let o := mkPP ex_im ex_wt ex_jac (Some (p, ex_jac)) in
  nrow (pp_im o) = ncol (pp_im o) /\ (0 < nrow (pp_im o) <= 2)%nat /\ (0 < ncol p)%nat /\ (nrow p <= 2)%nat /\ nrow p <> ncol p /\
  target_of f o (Some (p, ex_jac)) = 2%Z /\ make_kernels f 2 (wcs_of (pp_jac o)) = Ok K.
Proof.
  destruct ex_root as (z & Hz & E). destruct (ex_kernels z Hz E) as (K & HK & _). exists (ex_f z), K. cbv zeta. repeat split; try (cbn; lia); try exact HK.
  exact (ex_target z).
Qed.
Print Assumptions C106_hypotheses_hold.
Example C106_pad_factor_hypotheses_hold : 1 <= ft_pad (mkFitter 2 KSigma 4 0 0) /\ exists o psf, (nrow (pp_im o) < nrow (fst psf))%nat /\ pp_psf o = Some psf.
Proof. split; [cbn; lra|]. exists (mkPP ex_im ex_wt ex_jac (Some (mkArr 3 3 (fun _ _ => 1), ex_jac))), (mkArr 3 3 (fun _ _ => 1), ex_jac). split; [cbn; lia|reflexivity]. Qed.
Print Assumptions C106_pad_factor_hypotheses_hold.

(** C120: the kernel windows are the integrals over a pixel of what weights the image *)
Theorem C120_pixel_deconvolved : forall f o t K, nrow (pp_im o) = ncol (pp_im o) -> (0 < nrow (pp_im o) <= t)%nat -> target_of f o None = Z.of_nat t ->
  make_kernels f t (wcs_of (pp_jac o)) = Ok K ->
  exists h : nat -> R -> R -> R, (forall i, pixel_integral (h i) (window0 t (k_msk K) (at_moment (kern4 K) i))) /\
  exists r, go f o true = Some (Ok r) /\
    moments_are r (fun i => dsum (nrow (pp_im o)) (nrow (pp_im o)) (fun a b => at2 (pp_im o) a b * stamp_weight (ft_ap f) (nrow (pp_im o)) a b * h i (INR a - row0 (pp_jac o)) (INR b - col0 (pp_jac o)))).
Proof. exact no_psf_moments. Qed.
Print Assumptions C120_pixel_deconvolved.
Example C120_hypotheses_hold : exists f K, nrow (pp_im ex_o) = ncol (pp_im ex_o) /\ (0 < nrow (pp_im ex_o) <= 2)%nat /\ target_of f ex_o None = Z.of_nat 2 /\
  make_kernels f 2 (wcs_of (pp_jac ex_o)) = Ok K.
Proof.
  destruct ex_root as (z & Hz & E). destruct (ex_kernels z Hz E) as (K & HK & _). exists (ex_f z), K. split; [reflexivity|]. split; [cbn; lia|]. split; [|exact HK].
  exact (ex_target z).
Qed.
Print Assumptions C120_hypotheses_hold.
