From Coq Require Import String.
From Verif Require Import Base XReal Moments_Model Moments_Spec Shape_Spec Jacobian_Model Pixels_Model GMix_Model WSums_Model WSums_Spec Flags_Model MomResult_Model MomResult_Spec MomResult_Proofs GaussMom_Model GaussMom_Spec GaussMom_Proofs.
Local Open Scope R_scope.

Definition j2 : jac := finish_init 0 0 2 0 0 2.
Definition im2 (a b c : R) : arr2 R := mkArr 2 2 (fun r k => match r, k with O, O => a | O, _ => b | _, _ => c end).
Definition px4 (a b c : R) : list (pixel R) :=
  [mkPix 0 0 4 a 1; mkPix 2 0 4 b 1; mkPix 0 2 4 c 1; mkPix 2 2 4 c 1].
Lemma area2 : get_area j2 = 4.
Proof. unfold get_area, j2, finish_init. cbn [jscale]. replace (2 * 2 - 0 * 0) with 4 by ring. rewrite Rabs_right by lra. rewrite pow2_sqrt by lra. reflexivity. Qed.
Lemma made4 a b c : make_pixels (im2 a b c) (im2 1 1 1) j2 true = Ok (px4 a b c).
Proof.
  unfold make_pixels, make_pixels_gen, count_gt0. cbn [nrow ncol at2 im2 seq fold_left]. rewrite !Rltb_t by lra. cbn [Nat.eqb bind].
  unfold fill_pixels, fill_body. cbn [nrow ncol at2 im2 seq foldM]. rewrite !Rleb_f by lra. rewrite !Rltb_f by lra. rewrite sqrt_1. cbn [andb].
  replace (jacobian_get_area j2) with 4 by (symmetry; exact area2). unfold get_vu, j2, finish_init. cbn. 
  unfold px4. repeat f_equal; ring.
Qed.
Definition F2 := FWHM_FAC.
Lemma T2 : fwhm_to_T F2 = 2.
Proof. unfold fwhm_to_T, fwhm_to_sigma, F2. assert (0 < FWHM_FAC) by (unfold FWHM_FAC; lra). field. lra. Qed.
Lemma F2_big : / 10 ^ 40 <= F2. Proof. unfold F2, FWHM_FAC. lra. Qed.
Lemma near4 a b c : near 2 (px4 a b c) = px4 a b c.
Proof. apply filter_id. intros p I. destruct (Rlt_dec _ _) as [|N]; [reflexivity|]. exfalso. apply N. cbn in I. intuition (subst; cbn; lra). Qed.
Lemma sum4 f a b c : rsum (map f (px4 a b c)) = f (mkPix 0 0 4 a 1) + f (mkPix 2 0 4 b 1) + f (mkPix 0 2 4 c 1) + f (mkPix 2 2 4 c 1).
Proof. unfold px4. cbn [map]. rewrite !rsum_cons, rsum_nil. ring. Qed.
Definition w1 := exp (-2). Definition w2 := exp (-4).
Lemma gw u v val : gauss_weight 2 (mkPix u v 4 val 1) = exp (- (v * v + u * u) / 2). Proof. reflexivity. Qed.
Lemma gws val : gauss_weight 2 (mkPix 0 0 4 val 1) = 1 /\ gauss_weight 2 (mkPix 2 0 4 val 1) = w1 /\ gauss_weight 2 (mkPix 0 2 4 val 1) = w1 /\ gauss_weight 2 (mkPix 2 2 4 val 1) = w2.
Proof. rewrite !gw. unfold w1, w2. repeat split; [rewrite <- exp_0| | |]; f_equal; field. Qed.
Lemma w_range : 0 < w1 < 1 /\ 0 < w2 < 1.
Proof. unfold w1, w2. assert (A := exp_pos (-2)). assert (B := exp_pos (-4)). assert (C := exp_increasing (-2) 0 ltac:(lra)). assert (D := exp_increasing (-4) 0 ltac:(lra)). rewrite exp_0 in *. lra. Qed.
Lemma sums4 a b c : 
  msum 2 (px4 a b c) 5 = a + w1 * (b + c) + w2 * c /\ msum 2 (px4 a b c) 4 = 4 * w1 * (b + c) + 8 * w2 * c /\
  msum 2 (px4 a b c) 2 = 4 * w1 * (b - c) /\ msum 2 (px4 a b c) 3 = 8 * w2 * c.
Proof.
  unfold msum. rewrite near4, !sum4. destruct (gws a) as (A1 & _). destruct (gws b) as (_ & A2 & _). destruct (gws c) as (_ & _ & A3 & A4).
  rewrite A1, A2, A3, A4. unfold mfun, moment, rad2, cmod2, offset, cpow, cmul, cone, gauss_zero. cbn [px_val px_u px_v g_col g_row fst snd]. repeat split; ring.
Qed.
Lemma covs4 a b c k : (k < 6)%nat -> 0 < mcov 2 (px4 a b c) k k.
Proof.
  intros H. unfold mcov. rewrite near4, sum4. destruct (gws a) as (A1 & _). destruct (gws b) as (_ & A2 & _). destruct (gws c) as (_ & _ & A3 & A4).
  rewrite A1, A2, A3, A4. cbn [px_ierr]. rewrite pow1, Rinv_1. destruct w_range as [[P _] [Q _]].
  assert (P2 : 0 < w1 ^ 2) by (apply pow_lt; exact P). assert (Q2 : 0 < w2 ^ 2) by (apply pow_lt; exact Q).
  do 6 (destruct k as [|k]; [unfold mfun, moment, rad2, cmod2, offset, cpow, cmul, cone, gauss_zero; cbn [px_val px_u px_v g_col g_row fst snd]; lra|]). lia.
Qed.

Lemma flagged_flux : exists fwhm image weight j px q, 1 < fwhm /\ 0 < get_area j /\ make_pixels image weight j true = Ok px /\ gaussmom fwhm false (GObs px j) = Ok q /\
  m_flags (q_mom q) <> 0%Z /\ m_flux_flags (q_mom q) = 0%Z /\ finite (m_flux_err (q_mom q)) /\ m_flux (q_mom q) <> Fin (msum (fwhm_to_T fwhm) px 5).
Proof.
  assert (AP : 0 < get_area j2) by (rewrite area2; lra). assert (MP := made_pixels (im2 10 (-1) (-1)) (im2 1 1 1) j2 _ eq_refl eq_refl (made4 10 (-1) (-1))).
  exists F2, (im2 10 (-1) (-1)), (im2 1 1 1), j2, (px4 10 (-1) (-1)).
  destruct (go_reports F2 false j2 _ F2_big AP MP) as (q & E & _ & RP). exists q. rewrite T2 in *.
  split; [unfold F2, FWHM_FAC; lra|]. split; [exact AP|]. split; [apply made4|]. split; [exact E|].
  destruct (sums4 10 (-1) (-1)) as (S5 & S4 & _). destruct w_range as [W1 W2].
  assert (NF : m_flags (q_mom q) <> 0%Z).
  { intros F. apply (go_flags F2 false j2 _ F2_big AP MP q E) in F. rewrite T2 in F. destruct F as (_ & _ & F4 & _). lra. }
  split; [exact NF|]. destruct (Z.eqb_spec (m_flags (q_mom q)) 0); [contradiction|]. destruct RP as (_ & _ & R1 & R2 & R3 & R4).
  destruct (go_raw F2 false j2 _ F2_big AP MP) as (r & SH & CV & Nn & E' & G). cbv zeta in G. rewrite E in G. injection G as G.
  assert (Qr : q_mom q = r). { destruct (Z.eqb_spec (m_flags r) 0) as [Z|Z]; [|rewrite G; reflexivity]. exfalso. apply NF. rewrite G. exact Z. }
  rewrite Qr in *. rewrite T2 in *. destruct (mom_result_full _ _ (Some (Fin (get_area j2 * mnorm 2 (px4 10 (-1) (-1))))) SH) as (r' & E'' & _ & _ & _ & _ & _ & FFl & FE & _).
  rewrite E' in E''. injection E'' as <-.
  assert (P5 : positive (sm_at (m_cov r) 5 5)).
  { rewrite CV by (cbn; lia). assert (X := covs4 10 (-1) (-1) 5 ltac:(lia)). rewrite area2. change (0 < 4 ^ 2 * mcov 2 (px4 10 (-1) (-1)) 5 5). lra. }
  split; [apply (flux_flag_pos _ _ FFl P5)|]. split.
  - destruct (FE P5) as [-> _]. rewrite CV by (cbn; lia). unfold xsqrt, finite. rewrite Rltb_f; [eexists; reflexivity|].
    assert (X := covs4 10 (-1) (-1) 5 ltac:(lia)). rewrite area2. lra.
  - rewrite R4, area2. intros K. injection K as K. lra.
Qed.

Lemma good4 : measurable 2 (px4 1 2 1) 6.
Proof.
  split; [intros k Hk; apply covs4; exact Hk|]. destruct (sums4 1 2 1) as (-> & -> & -> & ->). destruct w_range as [W1 W2].
  repeat split; try lra.
Qed.
Lemma name_differs : exists fwhm image weight j px q x y, 1 < fwhm /\ 0 < get_area j /\ make_pixels image weight j true = Ok px /\ gaussmom fwhm false (GObs px j) = Ok q /\
  m_flags (q_mom q) = 0%Z /\ In ("MF"%string, (Fin x, y)) (m_named (q_mom q)) /\ m_flux (q_mom q) <> Fin x.
Proof.
  assert (AP : 0 < get_area j2) by (rewrite area2; lra). assert (MP := made_pixels (im2 1 2 1) (im2 1 1 1) j2 _ eq_refl eq_refl (made4 1 2 1)).
  destruct (go_reports F2 false j2 _ F2_big AP MP) as (q & E & _ & RP). rewrite T2 in *.
  assert (F : m_flags (q_mom q) = 0%Z) by (apply (go_flags F2 false j2 _ F2_big AP MP q E); rewrite T2; exact good4).
  destruct (sums4 1 2 1) as (S5 & _). destruct w_range as [W1 W2].
  assert (N := go_named F2 false j2 _ F2_big AP MP q E). rewrite T2 in N. specialize (N ltac:(lra)).
  exists F2, (im2 1 2 1), (im2 1 1 1), j2, (px4 1 2 1), q. do 2 eexists. split; [unfold F2, FWHM_FAC; lra|]. split; [exact AP|]. split; [apply made4|]. split; [exact E|].
  split; [exact F|]. split; [exact N|]. destruct RP as (_ & _ & _ & _ & _ & R4). rewrite R4, F. cbn [Z.eqb]. rewrite area2. intros K. injection K as K. lra.
Qed.
Lemma pars_differ : exists fwhm image weight j px q p0 rest, 1 < fwhm /\ 0 < get_area j /\ make_pixels image weight j true = Ok px /\ gaussmom fwhm false (GObs px j) = Ok q /\
  m_flags (q_mom q) = 0%Z /\ m_pars (q_mom q) = Some (p0 :: rest) /\ p0 <> nth 0 (m_sums (q_mom q)) NaN.
Proof.
  assert (AP : 0 < get_area j2) by (rewrite area2; lra). assert (MP := made_pixels (im2 1 2 1) (im2 1 1 1) j2 _ eq_refl eq_refl (made4 1 2 1)).
  destruct (go_reports F2 false j2 _ F2_big AP MP) as (q & E & _ & RP).
  assert (F : m_flags (q_mom q) = 0%Z) by (apply (go_flags F2 false j2 _ F2_big AP MP q E); rewrite T2; exact good4).
  destruct (go_good F2 false j2 _ F2_big AP MP q E F) as (_ & _ & _ & _ & _ & _ & _ & _ & _ & _ & _ & PP).
  exists F2, (im2 1 2 1), (im2 1 1 1), j2, (px4 1 2 1), q. do 2 eexists. split; [unfold F2, FWHM_FAC; lra|]. split; [exact AP|]. split; [apply made4|]. split; [exact E|].
  split; [exact F|]. split; [exact PP|]. destruct RP as (_ & _ & R1 & _). rewrite R1, F. cbn [Z.eqb nmom seq map nth]. rewrite T2, area2. intros K. injection K as K.
  destruct w_range as [W1 W2].
  assert (0 < msum 2 (px4 1 2 1) 0).
  { unfold msum. rewrite near4, !sum4. destruct (gws 1) as (A1 & _ & A3 & A4). destruct (gws 2) as (_ & A2 & _). rewrite A1, A2, A3, A4. unfold mfun, moment. cbn [px_val px_v]. lra. }
  lra.
Qed.
