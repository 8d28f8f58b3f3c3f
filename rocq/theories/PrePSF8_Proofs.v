(** The kernels: normalisation, derivatives, sky frame.  Refused inputs. *)
From Verif Require Import Base XReal Moments_Model Jacobian_Model Pixels_Model FastExp_Model FastExp_Proofs MomResult_Model PrePSF_Model PrePSF_Spec PrePSF_Proofs PrePSF2_Proofs PrePSF3_Proofs PrePSF4_Proofs PrePSF5_Proofs PrePSF6_Proofs PrePSF7_Proofs.
From Coq Require Import Psatz.
Local Open Scope R_scope.

(** ** Sky frame *)
Lemma sky_frame t j A kl : Atinv j = Ok A -> sky_frequency t j kl (fu_of A t kl) (fv_of A t kl).
Proof.
  unfold Atinv. cbv zeta. destruct (Reqb_spec (a_vrow j * a_ucol j - a_vcol j * a_urow j) 0) as [E|E]; [discriminate|]. intros [= <-] dr dc.
  unfold fu_of, fv_of. cbn [a_vrow a_vcol a_urow a_ucol]. field. exact E.
Qed.
Lemma det_inv j A : Atinv j = Ok A -> Rabs (det_of A) * Rabs (a_vrow j * a_ucol j - a_vcol j * a_urow j) = 1 /\ a_vrow j * a_ucol j - a_vcol j * a_urow j <> 0.
Proof.
  unfold Atinv. cbv zeta. destruct (Reqb_spec (a_vrow j * a_ucol j - a_vcol j * a_urow j) 0) as [E|E]; [discriminate|]. intros [= <-].
  split; [|exact E]. rewrite <- Rabs_mult. unfold det_of. cbn [a_vrow a_vcol a_urow a_ucol].
  match goal with |- Rabs ?x = 1 => replace x with 1 by (field; exact E) end. apply Rabs_R1.
Qed.

(** ** Derivatives *)
Lemma dpl_pow g x g' n : derivable_pt_lim g x g' -> derivable_pt_lim (fun x => g x ^ n) x (INR n * g x ^ pred n * g').
Proof. intros H. apply (derivable_pt_lim_comp g (fun y => y ^ n)); [exact H|apply derivable_pt_lim_pow]. Qed.
Lemma dpl_quad a b c x : derivable_pt_lim (fun x => a * x ^ 2 + b * x + c) x (2 * a * x + b).
Proof.
  replace (2 * a * x + b) with (a * (INR 2 * x ^ pred 2) + b * 1 + 0) by (cbn; ring).
  apply (derivable_pt_lim_plus (fun x => a * x ^ 2 + b * x) (fun _ => c)); [|apply derivable_pt_lim_const].
  apply (derivable_pt_lim_plus (fun x => a * x ^ 2) (fun x => b * x)).
  - apply (derivable_pt_lim_scal (fun x => x ^ 2)). apply derivable_pt_lim_pow.
  - apply (derivable_pt_lim_scal (fun x => x)). apply derivable_pt_lim_id.
Qed.
Lemma dpl_eq f g x l l' : derivable_pt_lim f x l -> (forall z, f z = g z) -> l = l' -> derivable_pt_lim g x l'.
Proof. intros H E <-. apply (derivable_pt_lim_ext f g x l E H). Qed.
(** x |-> (a x^2 + c)^n * (k x + m) *)
Lemma dpl_poly a c n k m x : derivable_pt_lim (fun x => (a * x ^ 2 + c) ^ n * (k * x + m)) x (INR n * (a * x ^ 2 + c) ^ pred n * (2 * a * x) * (k * x + m) + (a * x ^ 2 + c) ^ n * k).
Proof.
  apply (derivable_pt_lim_mult (fun x => (a * x ^ 2 + c) ^ n) (fun x => k * x + m)).
  - apply (dpl_pow (fun x => a * x ^ 2 + c)). apply (dpl_eq _ _ x _ _ (dpl_quad a 0 c x)); [intros; ring|ring].
  - apply (dpl_eq _ _ x _ _ (dpl_quad 0 k m x)); [intros; ring|ring].
Qed.
Lemma dpl_exp a c k m x : derivable_pt_lim (fun x => exp (a * x ^ 2 + c) * (k * x + m)) x (exp (a * x ^ 2 + c) * (2 * a * x) * (k * x + m) + exp (a * x ^ 2 + c) * k).
Proof.
  apply (derivable_pt_lim_mult (fun x => exp (a * x ^ 2 + c)) (fun x => k * x + m)).
  - apply (derivable_pt_lim_comp (fun x => a * x ^ 2 + c) exp); [|apply derivable_pt_lim_exp]. apply (dpl_eq _ _ x _ _ (dpl_quad a 0 c x)); [intros; ring|ring].
  - apply (dpl_eq _ _ x _ _ (dpl_quad 0 k m x)); [intros; ring|ring].
Qed.
Lemma ksigma_partials k s u v : second_partials (fun u v => k * profile KSigma s u v) u v
  (k * (3 / 4 * s ^ 4 * u ^ 2 * (1 - (u ^ 2 + v ^ 2) * s ^ 2 / 8) ^ 2 - s ^ 2 * (1 - (u ^ 2 + v ^ 2) * s ^ 2 / 8) ^ 3))
  (k * (3 / 4 * s ^ 4 * u * v * (1 - (u ^ 2 + v ^ 2) * s ^ 2 / 8) ^ 2))
  (k * (3 / 4 * s ^ 4 * v ^ 2 * (1 - (u ^ 2 + v ^ 2) * s ^ 2 / 8) ^ 2 - s ^ 2 * (1 - (u ^ 2 + v ^ 2) * s ^ 2 / 8) ^ 3)).
Proof.
  exists (fun u v => - k * s ^ 2 * u * (1 - (u ^ 2 + v ^ 2) * s ^ 2 / 8) ^ 3), (fun u v => - k * s ^ 2 * v * (1 - (u ^ 2 + v ^ 2) * s ^ 2 / 8) ^ 3).
  unfold profile. repeat split.
  - intros a b. apply (dpl_eq _ _ a _ _ (dpl_poly (- s ^ 2 / 8) (1 - b ^ 2 * s ^ 2 / 8) 4 0 k a)); [intros; cbn; field|cbn; field].
  - intros a b. apply (dpl_eq _ _ b _ _ (dpl_poly (- s ^ 2 / 8) (1 - a ^ 2 * s ^ 2 / 8) 4 0 k b)); [intros; cbn; field|cbn; field].
  - apply (dpl_eq _ _ u _ _ (dpl_poly (- s ^ 2 / 8) (1 - v ^ 2 * s ^ 2 / 8) 3 (- k * s ^ 2) 0 u)); [intros; cbn; field|cbn; field].
  - apply (dpl_eq _ _ v _ _ (dpl_poly (- s ^ 2 / 8) (1 - u ^ 2 * s ^ 2 / 8) 3 0 (- k * s ^ 2 * u) v)); [intros; cbn; field|cbn; field].
  - apply (dpl_eq _ _ v _ _ (dpl_poly (- s ^ 2 / 8) (1 - u ^ 2 * s ^ 2 / 8) 3 (- k * s ^ 2) 0 v)); [intros; cbn; field|cbn; field].
Qed.
Lemma gauss_partials k s u v : second_partials (fun u v => k * profile PGauss s u v) u v
  (k * ((s ^ 4 * u ^ 2 - s ^ 2) * profile PGauss s u v)) (k * (s ^ 4 * u * v * profile PGauss s u v)) (k * ((s ^ 4 * v ^ 2 - s ^ 2) * profile PGauss s u v)).
Proof.
  exists (fun u v => - k * s ^ 2 * u * profile PGauss s u v), (fun u v => - k * s ^ 2 * v * profile PGauss s u v).
  unfold profile.
  assert (E1 : forall a b, - (s ^ 2 * (a ^ 2 + b ^ 2) / 2) = - s ^ 2 / 2 * a ^ 2 + - (s ^ 2 * b ^ 2 / 2)) by (intros; field).
  assert (E2 : forall a b, - (s ^ 2 * (a ^ 2 + b ^ 2) / 2) = - s ^ 2 / 2 * b ^ 2 + - (s ^ 2 * a ^ 2 / 2)) by (intros; field).
  repeat split.
  - intros a b. apply (dpl_eq _ _ a _ _ (dpl_exp (- s ^ 2 / 2) (- (s ^ 2 * b ^ 2 / 2)) 0 k a)); [intros; cbn beta; rewrite E1; ring|rewrite E1; field].
  - intros a b. apply (dpl_eq _ _ b _ _ (dpl_exp (- s ^ 2 / 2) (- (s ^ 2 * a ^ 2 / 2)) 0 k b)); [intros; cbn beta; rewrite E2; ring|rewrite E2; field].
  - apply (dpl_eq _ _ u _ _ (dpl_exp (- s ^ 2 / 2) (- (s ^ 2 * v ^ 2 / 2)) (- k * s ^ 2) 0 u)); [intros; cbn beta; rewrite E1; ring|rewrite E1; field].
  - apply (dpl_eq _ _ v _ _ (dpl_exp (- s ^ 2 / 2) (- (s ^ 2 * u ^ 2 / 2)) 0 (- k * s ^ 2 * u) v)); [intros; cbn beta; rewrite E2; ring|rewrite E2; field].
  - apply (dpl_eq _ _ v _ _ (dpl_exp (- s ^ 2 / 2) (- (s ^ 2 * u ^ 2 / 2)) (- k * s ^ 2) 0 v)); [intros; cbn beta; rewrite E2; ring|rewrite E2; field].
Qed.

(** ** Values of the kernels *)
Lemma mapM_nth {A B} (f : A -> res B) l r i x : mapM f l = Ok r -> nth_error l i = Some x -> exists y, f x = Ok y /\ nth_error r i = Some y.
Proof.
  revert r i. induction l as [|a l IH]; intros r i H Hi; [destruct i; discriminate|]. cbn in H.
  destruct (f a) as [y|] eqn:Ea; [|discriminate]. cbn [bind] in H. destruct (mapM f l) as [ys|] eqn:Em; [|discriminate]. cbn [bind] in H. injection H as <-.
  destruct i as [|i]; cbn in *; [injection Hi as <-; exists y; auto|]. apply IH; auto.
Qed.
Lemma fexp_ratio c : 0 <= c < 25 / 2 -> exists y, fexp (- c) = Ok y /\ Rabs (y / exp (- c) - 1) < 4 / 100000 /\ 0 <= y.
Proof.
  intros H. destruct (fexp_spec (- c)) as (y & Hy & E); [lra|]. exists y. split; [exact Hy|].
  pose proof (exp_pos (- c)) as P. split.
  - replace (y / exp (- c) - 1) with ((y - exp (- c)) / exp (- c)) by (field; lra). unfold Rdiv. rewrite Rabs_mult, (Rabs_right (/ exp (- c))) by (apply Rle_ge, Rlt_le, Rinv_0_lt_compat; lra).
    apply Rmult_lt_reg_r with (exp (- c)); [lra|]. rewrite Rmult_assoc, Rinv_l by lra. lra.
  - apply Rabs_def2 in E. lra.
Qed.
Lemma smooth_nth fw A t msk sl i m : smooth_list fw (map (fmag2_of A t) msk) = Ok sl -> nth_error msk i = Some m ->
  exists s, nth_error sl i = Some s /\ smoothing fw (fu_of A t m) (fv_of A t m) s /\ 0 <= s.
Proof.
  intros H Hi. unfold smooth_list in H.
  assert (Hm : nth_error (map (fmag2_of A t) msk) i = Some (fmag2_of A t m)) by (apply map_nth_error; exact Hi).
  destruct (Rltb_spec 0 fw) as [P|P].
  - destruct (mapM_nth _ _ _ i _ H Hm) as (s & Hs & Hn). exists s. split; [exact Hn|].
    unfold smooth_profile in Hs. cbv zeta in Hs. set (sg := fwhm_to_sigma fw) in *. change (fmag2_of A t m) with (fu_of A t m ^ 2 + fv_of A t m ^ 2) in Hs.
    set (q := fu_of A t m ^ 2 + fv_of A t m ^ 2) in *. assert (Q : 0 <= q) by (unfold q; nra). assert (Q2 : 0 <= sg * sg / 2 * q) by (pose proof (Rle_0_sqr sg) as S0; unfold Rsqr in S0; nra).
    assert (QE : - (sg ^ 2 * q / 2) = - (sg * sg / 2 * q)) by field.
    unfold FASTEXP_MAX_CHI2 in Hs. rewrite (Rleb_t 0) in Hs by exact Q2. rewrite andb_true_r in Hs. unfold smoothing. cbv zeta. fold sg. fold q. rewrite QE.
    destruct (Rltb_spec (sg * sg / 2 * q) (25 / 2)) as [L|L].
    + destruct (fexp_ratio (sg * sg / 2 * q)) as (y & Hy & E & Py); [lra|]. rewrite Hy in Hs. injection Hs as <-.
      split; [|exact Py]. split; [intros; lra|]. split; [intros; exact E|]. intros _ L'. exfalso. nra.
    + injection Hs as <-. split; [|lra]. split; [intros; lra|]. split; [intros _ L'; exfalso; nra|reflexivity].
  - injection H as <-. exists 1. split; [|split; [|lra]].
    + rewrite map_map. exact (map_nth_error (fun _ => 1) i msk Hi).
    + unfold smoothing. cbv zeta. repeat split; intros; lra.
Qed.
Lemma sky_unique t j A m u v : Atinv j = Ok A -> sky_frequency t j m u v -> u = fu_of A t m /\ v = fv_of A t m.
Proof.
  intros HA H. destruct (det_inv j A HA) as [_ D]. pose proof (sky_frame t j A m HA) as H2.
  pose proof (H 1 0) as A1. pose proof (H 0 1) as A2. pose proof (H2 1 0) as B1. pose proof (H2 0 1) as B2.
  set (u0 := fu_of A t m) in *. set (v0 := fv_of A t m) in *.
  assert (X1 : (u - u0) * a_urow j + (v - v0) * a_vrow j = 0) by lra.
  assert (X2 : (u - u0) * a_ucol j + (v - v0) * a_vcol j = 0) by lra.
  split.
  - assert (E : (u - u0) * (a_vrow j * a_ucol j - a_vcol j * a_urow j) = 0).
    { replace ((u - u0) * (a_vrow j * a_ucol j - a_vcol j * a_urow j)) with (a_vrow j * ((u - u0) * a_ucol j + (v - v0) * a_vcol j) - a_vcol j * ((u - u0) * a_urow j + (v - v0) * a_vrow j)) by ring. rewrite X1, X2. ring. }
    apply Rmult_integral in E. destruct E as [E|E]; [lra|contradiction].
  - assert (E : (v - v0) * (a_vrow j * a_ucol j - a_vcol j * a_urow j) = 0).
    { replace ((v - v0) * (a_vrow j * a_ucol j - a_vcol j * a_urow j)) with (a_ucol j * ((u - u0) * a_urow j + (v - v0) * a_vrow j) - a_urow j * ((u - u0) * a_ucol j + (v - v0) * a_vcol j)) by ring. rewrite X1, X2. ring. }
    apply Rmult_integral in E. destruct E as [E|E]; [lra|contradiction].
Qed.
Lemma support_iff_k s q : s <> 0 -> (q < 2 * 4 / s ^ 2 <-> q * s ^ 2 < 8).
Proof.
  intros Hs. assert (P : 0 < s ^ 2) by (assert (0 < s * s) by nra; nra). split; intros H.
  - apply Rmult_lt_compat_r with (r := s ^ 2) in H; [|exact P]. replace (2 * 4 / s ^ 2 * s ^ 2) with 8 in H by (field; exact Hs). exact H.
  - apply Rmult_lt_reg_r with (s ^ 2); [exact P|]. replace (2 * 4 / s ^ 2 * s ^ 2) with 8 by (field; exact Hs). exact H.
Qed.
Lemma ksigma_values t fw pad ap sm j K : make_kernels (mkFitter fw KSigma pad ap sm) t j = Ok K ->
  (forall i m, nth_error (k_msk K) i = Some m -> kernel_values (mkFitter fw KSigma pad ap sm) t j K i m) /\
  (forall m, In m (k_msk K) <-> (fst m < t)%nat /\ (snd m < t)%nat /\ forall u v, sky_frequency t j m u v -> in_support KSigma (fwhm_to_sigma fw) u v) /\
  k_00 K * Rabs (a_vrow j * a_ucol j - a_vcol j * a_urow j) = peak KSigma (fwhm_to_sigma fw) /\
  Rabs (k_nrm K - 1) <= 1 / 100000 /\ (sm <= 0 -> rsum (k_f K) / INR t ^ 2 = k_nrm K).
Proof.
  cbn [make_kernels ft_kind ft_fwhm ft_smooth]. unfold ksigma_kernels. destruct (Atinv j) as [A|] eqn:HA; [|discriminate]. cbn [bind].
  destruct (Reqb_spec (fwhm_to_sigma fw) 0) as [E|E]; [discriminate|]. set (s := fwhm_to_sigma fw) in *.
  destruct (close_to_one _) eqn:CO; cbn [negb]; [|discriminate]. set (msk := filter _ (modes t)) in *.
  destruct (smooth_list sm (map (fmag2_of A t) msk)) as [sl|] eqn:SL; [|discriminate]. cbn [bind]. intros HK. apply (f_equal (fun r => match r with Ok k => k | Raise _ => K end)) in HK. cbv beta iota in HK. subst K.
  set (kn := Rabs (det_of A) / (4 / (s ^ 2 * 10 * PI))) in *.
  pose proof PI_RGT_0 as PIp. assert (S2 : 0 < s ^ 2) by (assert (0 < s * s) by nra; nra).
  split; [|split; [|split; [|split]]]; cbn [k_msk k_00 k_nrm k_f].
  - intros i m Hi. destruct (smooth_nth sm A t msk sl i m SL Hi) as (sv & Hs & Sm & Sp).
    assert (IN : fmag2_of A t m < 2 * 4 / s ^ 2). { apply nth_error_In in Hi. apply filter_In in Hi. destruct Hi as [_ Hi]. apply Rltb_true in Hi. exact Hi. }
    set (u := fu_of A t m) in *. set (v := fv_of A t m) in *. change (fmag2_of A t m) with (u ^ 2 + v ^ 2) in IN.
    unfold kernel_values. cbn [ft_kind ft_fwhm ft_smooth k_00 k_f k_r k_p k_c]. cbv zeta. fold s.
    pose proof (ksigma_partials kn s u v) as KP.
    exists u, v, 1, sv. do 3 eexists. split; [apply sky_frame; exact HA|]. split; [apply support_iff_k; assumption|]. split; [reflexivity|].
    split; [rewrite Rminus_eq_0, Rabs_R0; lra|]. split; [exact Sm|]. split; [exact Sp|]. split; [exact KP|].
    assert (CB : nth_error (combine msk sl) i = Some (m, sv)) by (rewrite nth_error_combine, Hi, Hs; reflexivity).
    assert (FM : fmag2_of A t m / (2 * 4 / s ^ 2) = (u ^ 2 + v ^ 2) * s ^ 2 / 8) by (change (fmag2_of A t m) with (u ^ 2 + v ^ 2); field; exact E).
    assert (D1 : - kn * 8 / (2 * 4 / s ^ 2) = - kn * s ^ 2) by (field; exact E).
    assert (D2 : kn * 48 / (2 * 4 / s ^ 2) ^ 2 = kn * (3 / 4 * s ^ 4)) by (field; exact E).
    split; [|split; [|split]]; rewrite (map_nth_error _ _ _ CB); cbn [fst snd]; rewrite FM, ?D1, ?D2; f_equal; cbn [profile]; fold u v; try (change (fmag2_of A t m) with (u ^ 2 + v ^ 2)); ring.
  - intros m. unfold msk. rewrite filter_In, modes_in, Rltb_true. change (fmag2_of A t m) with (fu_of A t m ^ 2 + fv_of A t m ^ 2). rewrite support_iff_k by exact E. split.
    + intros ((H1 & H2) & H3). split; [exact H1|]. split; [exact H2|]. intros u v Huv. destruct (sky_unique t j A m u v HA Huv) as [-> ->]. exact H3.
    + intros (H1 & H2 & H3). split; [split; assumption|]. apply (H3 (fu_of A t m) (fv_of A t m)). apply sky_frame. exact HA.
  - destruct (det_inv j A HA) as [DI _]. unfold kn, peak. replace (Rabs (det_of A) / (4 / (s ^ 2 * 10 * PI)) * Rabs (a_vrow j * a_ucol j - a_vcol j * a_urow j)) with ((Rabs (det_of A) * Rabs (a_vrow j * a_ucol j - a_vcol j * a_urow j)) * (10 * PI * s ^ 2 / 4)) by (field; split; [lra|exact E]). rewrite DI. ring.
  - unfold close_to_one in CO. apply Rleb_true in CO. exact CO.
  - intros Hsm. unfold smooth_list in SL. rewrite Rltb_f in SL by lra. injection SL as <-. rewrite map_map.
    rewrite combine_self_map, map_map. rewrite (map_ext _ (fun kl => (1 - fmag2_of A t kl / (2 * 4 / s ^ 2)) ^ 4 * kn)) by (intros; ring).
    destruct (Nat.eq_dec t 0) as [->|Ht].
    + cbn. unfold Rdiv. rewrite !Rmult_0_l. reflexivity.
    + field. apply not_0_INR. exact Ht.
Qed.
Lemma gauss_values t fw pad ap sm j K : make_kernels (mkFitter fw PGauss pad ap sm) t j = Ok K ->
  (forall i m, nth_error (k_msk K) i = Some m -> kernel_values (mkFitter fw PGauss pad ap sm) t j K i m) /\
  (forall m, In m (k_msk K) <-> (fst m < t)%nat /\ (snd m < t)%nat /\ forall u v, sky_frequency t j m u v -> in_support PGauss (fwhm_to_sigma fw) u v) /\
  k_00 K * Rabs (a_vrow j * a_ucol j - a_vcol j * a_urow j) = peak PGauss (fwhm_to_sigma fw) /\
  Rabs (k_nrm K - 1) <= 1 / 100000 /\ (sm <= 0 -> rsum (k_f K) / INR t ^ 2 = k_nrm K).
Proof.
  cbn [make_kernels ft_kind ft_fwhm ft_smooth]. unfold gauss_kernels. destruct (Atinv j) as [A|] eqn:HA; [|discriminate]. cbn [bind].
  set (s := fwhm_to_sigma fw) in *. set (msk := filter _ (modes t)) in *.
  destruct (mapM _ msk) as [ev|] eqn:EV; [|discriminate]. cbn [bind].
  destruct (close_to_one _) eqn:CO; cbn [negb]; [|discriminate].
  destruct (smooth_list sm (map (fmag2_of A t) msk)) as [sl|] eqn:SL; [|discriminate]. cbn [bind]. intros HK. apply (f_equal (fun r => match r with Ok k => k | Raise _ => K end)) in HK. cbv beta iota in HK. subst K.
  set (kn := Rabs (det_of A) * PI * 2 * (s * s)) in *.
  assert (MK : forall m, In m msk <-> In m (modes t) /\ s ^ 2 * (fu_of A t m ^ 2 + fv_of A t m ^ 2) < 25).
  { intros m. unfold msk. rewrite filter_In, andb_true_iff, Rltb_true, Rleb_true. change (fmag2_of A t m) with (fu_of A t m ^ 2 + fv_of A t m ^ 2). unfold FASTEXP_MAX_CHI2.
    set (q := fu_of A t m ^ 2 + fv_of A t m ^ 2). assert (0 <= q) by (unfold q; nra). pose proof (Rle_0_sqr s) as S0. unfold Rsqr in S0.
    split; intros (H1 & H2); (split; [exact H1|]); [nra|split; nra]. }
  split; [|split; [|split; [|split]]]; cbn [k_msk k_00 k_nrm k_f].
  - intros i m Hi. destruct (smooth_nth sm A t msk sl i m SL Hi) as (sv & Hs & Sm & Sp).
    assert (IN : s ^ 2 * (fu_of A t m ^ 2 + fv_of A t m ^ 2) < 25). { apply nth_error_In in Hi. apply MK in Hi. apply Hi. }
    destruct (mapM_nth _ _ _ i m EV Hi) as (e & He & Hev). cbv beta in He.
    set (u := fu_of A t m) in *. set (v := fv_of A t m) in *. change (fmag2_of A t m) with (u ^ 2 + v ^ 2) in He.
    pose proof (Rle_0_sqr s) as S0. unfold Rsqr in S0. assert (Q : 0 <= u ^ 2 + v ^ 2) by nra.
    destruct (fexp_ratio (s * s / 2 * (u ^ 2 + v ^ 2))) as (y & Hy & Ey & _); [split; nra|]. rewrite Hy in He. injection He as <-.
    assert (PE : profile PGauss s u v = exp (- (s * s / 2 * (u ^ 2 + v ^ 2)))) by (unfold profile; f_equal; field).
    pose proof (exp_pos (- (s * s / 2 * (u ^ 2 + v ^ 2)))) as XP. rewrite <- PE in Ey, XP.
    unfold kernel_values. cbn [ft_kind ft_fwhm ft_smooth k_00 k_f k_r k_p k_c]. cbv zeta. fold s.
    pose proof (gauss_partials kn s u v) as KP.
    exists u, v, (y / profile PGauss s u v), sv. do 3 eexists. split; [apply sky_frame; exact HA|]. split; [exact IN|]. split; [discriminate|].
    split; [exact Ey|]. split; [exact Sm|]. split; [exact Sp|]. split; [exact KP|].
    assert (FK : nth_error (map (fun x => fst x * snd x) (combine (map (fun e => e * kn) ev) sl)) i = Some (y * kn * sv)).
    { assert (C0 : nth_error (combine (map (fun e => e * kn) ev) sl) i = Some (y * kn, sv)) by (rewrite nth_error_combine, (map_nth_error _ _ _ Hev), Hs; reflexivity). rewrite (map_nth_error _ _ _ C0). reflexivity. }
    assert (CB : nth_error (combine msk (map (fun x => fst x * snd x) (combine (map (fun e => e * kn) ev) sl))) i = Some (m, y * kn * sv)) by (rewrite nth_error_combine, Hi, FK; reflexivity).
    split; [rewrite FK; f_equal; field; lra|].
    split; [|split]; rewrite (map_nth_error _ _ _ CB); cbn [fst snd]; f_equal; fold u v; try (change (fmag2_of A t m) with (u ^ 2 + v ^ 2)); field; lra.
  - intros m. rewrite MK, modes_in. split.
    + intros ((H1 & H2) & H3). split; [exact H1|]. split; [exact H2|]. intros u v Huv. destruct (sky_unique t j A m u v HA Huv) as [-> ->]. exact H3.
    + intros (H1 & H2 & H3). split; [split; assumption|]. apply (H3 (fu_of A t m) (fv_of A t m)). apply sky_frame. exact HA.
  - destruct (det_inv j A HA) as [DI _]. unfold kn, peak. replace (Rabs (det_of A) * PI * 2 * (s * s) * Rabs (a_vrow j * a_ucol j - a_vcol j * a_urow j)) with ((Rabs (det_of A) * Rabs (a_vrow j * a_ucol j - a_vcol j * a_urow j)) * (2 * PI * s ^ 2)) by ring. rewrite DI. ring.
  - unfold close_to_one in CO. apply Rleb_true in CO. exact CO.
  - intros Hsm. unfold smooth_list in SL. rewrite Rltb_f in SL by lra. injection SL as <-. rewrite (map_map (fmag2_of A t) (fun _ => 1) msk). clearbody msk.
    apply mapM_length in EV.
    assert (ED : map (fun x => fst x * snd x) (combine (map (fun e => e * kn) ev) (map (fun _ => 1) msk)) = map (fun e => e * kn) ev).
    { clear - EV. revert msk EV. induction ev as [|e ev IH]; intros [|m msk] L; cbn in *; try reflexivity; try discriminate. rewrite IH by lia. f_equal. ring. }
    rewrite ED. destruct (Nat.eq_dec t 0) as [->|Ht].
    + assert (ev = []) as ->. { destruct ev as [|e ev]; [reflexivity|]. destruct msk as [|m0 msk]; [discriminate|]. exfalso. destruct (proj1 (MK m0) (or_introl eq_refl)) as [X _]. destruct X. } cbn. unfold Rdiv. rewrite !Rmult_0_l. reflexivity.
    + field. apply not_0_INR. exact Ht.
Qed.

Lemma kernels_values f t j K : make_kernels f t j = Ok K ->
  (forall i m, nth_error (k_msk K) i = Some m -> kernel_values f t j K i m) /\
  (forall m, In m (k_msk K) <-> (fst m < t)%nat /\ (snd m < t)%nat /\ forall u v, sky_frequency t j m u v -> in_support (ft_kind f) (fwhm_to_sigma (ft_fwhm f)) u v) /\
  k_00 K * Rabs (a_vrow j * a_ucol j - a_vcol j * a_urow j) = peak (ft_kind f) (fwhm_to_sigma (ft_fwhm f)) /\
  Rabs (k_nrm K - 1) <= 1 / 100000 /\ (ft_smooth f <= 0 -> rsum (k_f K) / INR t ^ 2 = k_nrm K).
Proof. destruct f as [fw [|] pad ap sm]; [apply ksigma_values|apply gauss_values]. Qed.

(** ** The window *)
Lemma k00_nonneg f t j K : make_kernels f t j = Ok K -> 0 <= k_00 K.
Proof.
  intros H. destruct (kernels_values f t j K H) as (_ & _ & P & _).
  assert (0 <= peak (ft_kind f) (fwhm_to_sigma (ft_fwhm f))).
  { pose proof PI_RGT_0. unfold peak. destruct (ft_kind f); assert (0 <= fwhm_to_sigma (ft_fwhm f) ^ 2) by nra; nra. }
  assert (exists A, Atinv j = Ok A) as (A & HA).
  { unfold make_kernels, ksigma_kernels, gauss_kernels in H. destruct (Atinv j) as [A|]; [exists A; reflexivity|]. destruct (ft_kind f); discriminate. }
  destruct (det_inv j A HA) as [_ D]. pose proof (Rabs_pos_lt _ D) as D'. nra.
Qed.
Lemma profile_nonneg k s u v : 0 <= profile k s u v.
Proof. destruct k; cbn [profile]; [|apply Rlt_le, exp_pos]. set (x := 1 - _). replace (x ^ 4) with ((x * x) * (x * x)) by ring. assert (0 <= x * x) by nra. nra. Qed.
Lemma kf_nonneg f t j K z : make_kernels f t j = Ok K -> In z (combine (k_msk K) (k_f K)) -> 0 <= snd z.
Proof.
  intros H Hz. apply In_nth_error in Hz. destruct Hz as (i & Hi). rewrite nth_error_combine in Hi.
  destruct (nth_error (k_msk K) i) as [m|] eqn:Em; [|discriminate]. destruct (kernels_values f t j K H) as (V & _).
  destruct (V i m Em) as (u & v & rho & s & a & b & c & _ & _ & _ & Hr & _ & Hs & _ & Hf & _). rewrite Hf in Hi. injection Hi as <-. cbn [snd].
  pose proof (k00_nonneg f t j K H) as P0. pose proof (profile_nonneg (ft_kind f) (fwhm_to_sigma (ft_fwhm f)) u v) as P1. apply Rabs_def2 in Hr.
  apply Rmult_le_pos; [apply Rmult_le_pos; lra|apply Rmult_le_pos; assumption].
Qed.
Lemma rsum_le {A} (l : list A) (g h : A -> R) : (forall z, In z l -> g z <= h z) -> rsum (map g l) <= rsum (map h l).
Proof. induction l as [|z l IH]; intros H; cbn [map]; rewrite ?rsum_cons, ?rsum_nil; [lra|]. pose proof (H z (or_introl eq_refl)). assert (rsum (map g l) <= rsum (map h l)) by (apply IH; intros; apply H; right; assumption). lra. Qed.
Lemma map_snd_combine {A B} (a : list A) (b : list B) : length a = length b -> map snd (combine a b) = b.
Proof. revert b. induction a as [|x a IH]; intros [|y b] L; cbn in *; try reflexivity; try discriminate. f_equal. apply IH. lia. Qed.
Lemma window_at_0 t K : good_kernels t K -> window0 t (k_msk K) (k_f K) 0 0 = rsum (k_f K) / INR t ^ 2.
Proof.
  intros G. unfold window0. f_equal. rewrite (map_ext _ (fun z => snd z)).
  - rewrite map_snd_combine; [reflexivity|]. symmetry. apply (gk_len _ _ G 3).
  - intros z. rewrite !Rmult_0_r, Rplus_0_r, Rmult_0_r, cos_0. ring.
Qed.
Lemma window_bound f t j K x y : make_kernels f t j = Ok K -> good_kernels t K -> Rabs (window0 t (k_msk K) (k_f K) x y) <= window0 t (k_msk K) (k_f K) 0 0.
Proof.
  intros H G. rewrite window_at_0 by exact G. unfold window0. unfold Rdiv. rewrite Rabs_mult.
  assert (Ht : (0 < t)%nat) by apply (gk_range _ _ G (0%nat, 0%nat) (gk_00 _ _ G)).
  assert (P : 0 < / INR t ^ 2) by (apply Rinv_0_lt_compat, pow_lt, lt_0_INR; lia).
  rewrite (Rabs_right (/ INR t ^ 2)) by lra. apply Rmult_le_compat_r; [lra|].
  assert (E : rsum (k_f K) = rsum (map snd (combine (k_msk K) (k_f K)))). { rewrite map_snd_combine; [reflexivity|symmetry; apply (gk_len _ _ G 3)]. } rewrite E. clear E.
  pose proof (kf_nonneg f t j K) as N. unfold Rabs. destruct (Rcase_abs _) as [_|_].
  - rewrite <- (Rmult_1_l (rsum (map snd _))). replace (- rsum (map (fun z => snd z * cos (2 * PI * (fftfreq t (fst (fst z)) * x + fftfreq t (snd (fst z)) * y))) (combine (k_msk K) (k_f K)))) with (rsum (map (fun z => snd z * - cos (2 * PI * (fftfreq t (fst (fst z)) * x + fftfreq t (snd (fst z)) * y))) (combine (k_msk K) (k_f K)))).
    + rewrite Rmult_1_l. apply rsum_le. intros z Hz. specialize (N z H Hz). pose proof (COS_bound (2 * PI * (fftfreq t (fst (fst z)) * x + fftfreq t (snd (fst z)) * y))). nra.
    + rewrite (map_ext _ (fun z => -1 * (snd z * cos (2 * PI * (fftfreq t (fst (fst z)) * x + fftfreq t (snd (fst z)) * y))))) by (intros; ring). rewrite (rsum_map_mult (fun z => snd z * cos (2 * PI * (fftfreq t (fst (fst z)) * x + fftfreq t (snd (fst z)) * y))) (-1)). ring.
  - apply rsum_le. intros z Hz. specialize (N z H Hz). pose proof (COS_bound (2 * PI * (fftfreq t (fst (fst z)) * x + fftfreq t (snd (fst z)) * y))). nra.
Qed.

(** flux of a star at the centre of the kernel *)
Lemma star_flux f o p j t K a r0 c0 : pp_psf o = Some (p, j) -> same_wcs j (pp_jac o) = true ->
  nrow (pp_im o) = ncol (pp_im o) -> nrow p = ncol p -> (0 < nrow p)%nat ->
  target_of f o (Some (p, j)) = Z.of_nat t -> (nrow (pp_im o) <= t)%nat -> (nrow p <= t)%nat -> make_kernels f t (wcs_of (pp_jac o)) = Ok K ->
  (forall kl, In kl (k_msk K) -> power t p kl > (MIN_PSF_FRAC * total_of p) ^ 2) ->
  (0 < nrow (pp_im o))%nat -> ft_smooth f <= 0 ->
  (margin (ft_ap f) <= r0)%nat -> (margin (ft_ap f) <= c0)%nat ->
  (r0 + nrow p + margin (ft_ap f) <= nrow (pp_im o))%nat -> (c0 + ncol p + margin (ft_ap f) <= nrow (pp_im o))%nat ->
  INR r0 + row0 j = row0 (pp_jac o) -> INR c0 + col0 j = col0 (pp_jac o) ->
  (forall r c, (r < nrow (pp_im o))%nat -> (c < nrow (pp_im o))%nat -> at2 (pp_im o) r c = a * shifted p r0 c0 r c) ->
  exists r fl, go f o false = Some (Ok r) /\ m_flux r = Fin fl /\ Rabs (fl - a) <= Rabs a / 100000.
Proof.
  intros Hp Hw Hsq Ep Np Ht Hn Hpt HK Hpow Hn0 Hsm B1 B2 B3 B4 C1 C2 Him.
  destruct (psf_copies f o p j t K [(a, (r0, c0))] Hp Hw Hsq Ep Np Ht Hn Hpt HK Hpow Hn0) as (r & Hr & _ & Hf).
  - intros a' r' c' [[= <- <- <-]|[]]. auto.
  - intros y x Hy Hx. rewrite Him by assumption. unfold copies_of. cbn [map fst snd]. rewrite rsum_cons, rsum_nil. lra.
  - exists r. eexists. split; [exact Hr|]. split; [exact Hf|]. cbn [map fst snd]. rewrite rsum_cons, rsum_nil, C1, C2, !Rminus_eq_0.
    assert (G : good_kernels t K) by (apply (kernels_good f t (wcs_of (pp_jac o))); [lia|exact HK]).
    destruct (kernels_values f t _ K HK) as (_ & _ & _ & N1 & N2). rewrite window_at_0, N2 by assumption.
    replace (a * k_nrm K + 0 - a) with (a * (k_nrm K - 1)) by ring. rewrite Rabs_mult. pose proof (Rabs_pos a). nra.
Qed.

(** ** Refused inputs *)
Lemma refuse_not_square f o np : nrow (pp_im o) <> ncol (pp_im o) -> go f o np = Some (Raise ValueError).
Proof. intros H. unfold go, check_obs. rewrite (proj2 (Nat.eqb_neq _ _) H). reflexivity. Qed.
Lemma refuse_no_psf f o : nrow (pp_im o) = ncol (pp_im o) -> pp_psf o = None -> go f o false = Some (Raise RuntimeError).
Proof. intros H N. unfold go, check_obs. rewrite H, Nat.eqb_refl, N. reflexivity. Qed.
Lemma refuse_wcs f o p : nrow (pp_im o) = ncol (pp_im o) -> pp_psf o = Some p ->
  wcs_of (snd p) <> wcs_of (pp_jac o) -> go f o false = Some (Raise RuntimeError).
Proof.
  intros H N W. unfold go, check_obs. rewrite H, Nat.eqb_refl, N. cbn [negb]. destruct (same_wcs (snd p) (pp_jac o)) eqn:S1; cbn [negb]; [|reflexivity].
  exfalso. apply W. unfold same_wcs in S1. rewrite !andb_true_iff, !Reqb_true in S1. destruct S1 as (((A1 & A2) & A3) & A4).
  unfold wcs_of. unfold get_galsim_wcs in *. cbn in *. congruence.
Qed.
Lemma psf_ignored f o q : go f (mkPP (pp_im o) (pp_wt o) (pp_jac o) q) true = go f o true.
Proof. reflexivity. Qed.
Lemma refuse_small f o np r : go f o np = Some (Ok r) -> (Z.of_nat (nrow (pp_im o)) <= target_of f o (the_psf o np))%Z /\
  match the_psf o np with Some p => (Z.of_nat (nrow (fst p)) <= target_of f o (the_psf o np))%Z /\ nrow (fst p) = ncol (fst p) | None => True end.
Proof.
  intros H. destruct (go_runs f o np r H) as (t & K & [A1 A2 A3 A4 A5 A6] & _). rewrite A3. split; [lia|].
  destruct (the_psf o np) as [[p j]|]; [|exact I]. cbn [psf_fits fst] in *. lia.
Qed.
Lemma refuse_pad f o np : nrow (pp_im o) = ncol (pp_im o) -> (0 < nrow (pp_im o))%nat -> check_obs o np = Ok (the_psf o np) ->
  (target_of f o (the_psf o np) < Z.of_nat (nrow (pp_im o)))%Z -> go f o np = Some (Raise ValueError).
Proof.
  intros Hsq Hn C H. unfold go. rewrite C. unfold meas. cbv zeta. destruct (Nat.eqb_spec (nrow (pp_im o)) 0) as [E|_]; [lia|].
  rewrite pad_fft_small by exact H. reflexivity.
Qed.
Lemma check_psf o p : nrow (pp_im o) = ncol (pp_im o) -> pp_psf o = Some p -> wcs_of (snd p) = wcs_of (pp_jac o) -> check_obs o false = Ok (Some p).
Proof.
  intros Hsq Hp Hw. unfold check_obs. rewrite Hsq, Nat.eqb_refl, Hp. cbn [negb].
  assert (W : same_wcs (snd p) (pp_jac o) = true).
  { unfold wcs_of in Hw. injection Hw as A B C D. unfold same_wcs, get_galsim_wcs. cbn. rewrite A, B, C, D, !(proj2 (Reqb_true _ _) eq_refl). reflexivity. }
  rewrite W. reflexivity.
Qed.
(** a psf image that is not square is not refused: the mask of the kernels does not fit *)
Lemma psf_not_square f o p j t K : nrow (pp_im o) = ncol (pp_im o) -> (0 < nrow (pp_im o) <= t)%nat -> pp_psf o = Some (p, j) ->
  wcs_of j = wcs_of (pp_jac o) -> (0 < ncol p)%nat -> (nrow p <= t)%nat -> nrow p <> ncol p -> target_of f o (Some (p, j)) = Z.of_nat t ->
  make_kernels f t (wcs_of (pp_jac o)) = Ok K -> go f o false = Some (Raise IndexError).
Proof.
  intros Hsq Hn Hp Hw Hc Hr Hne Ht HK. unfold go. rewrite (check_psf o (p, j) Hsq Hp Hw). unfold meas. cbv zeta. rewrite Ht, Nat2Z.id.
  destruct (Nat.eqb_spec (nrow (pp_im o)) 0) as [E|_]; [lia|].
  destruct (pad_fft_spec (pp_im o) (row0 (pp_jac o)) (col0 (pp_jac o)) t (ft_ap f) Hsq Hn) as (kim & Hk & K1 & K2 & _). rewrite Hk.
  destruct (zero_pad_spec (apodize p 0) t) as (q & Hq & P1 & P2 & _); [rewrite apodize_0; lia|]. rewrite apodize_0 in *.
  unfold pad_fft at 1. rewrite apodize_0, Hq. cbn [bind]. unfold fftn. destruct (Nat.eqb_spec (nrow q) 0) as [E|_]; [lia|]. destruct (Nat.eqb_spec (ncol q) 0) as [E|_]; [lia|].
  cbn [orb bind]. rewrite HK. unfold measure_fft. cbv zeta. rewrite K1. unfold select at 1. rewrite K1, K2, Nat.eqb_refl. cbn [andb].
  unfold select. cbn [nrow ncol]. rewrite P1, P2. destruct (Nat.eqb_spec (t - nrow p + ncol p) t) as [E|_]; [lia|]. rewrite andb_false_r. reflexivity.
Qed.
