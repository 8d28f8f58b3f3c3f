(** C134 *)
From Coq Require Import String.
From Verif Require Import Base XReal Moments_Model Moments_Spec Shape_Spec Jacobian_Model Pixels_Model GMix_Model WSums_Model WSums_Spec Flags_Model MomResult_Model MomResult_Spec MomResult_Proofs
  GaussMom_Model GaussMom_Spec GaussMom_Proofs GaussMomCex_Proofs Admom_Model Units_Spec Units_Proofs Coords_Spec Coords_Proofs CoordsGM_Proofs.
Local Open Scope R_scope.

(** in half units: twice the numbers *)
Definition half_unit : jac := finish_init 0 0 (2 * 2) (2 * 0) (1 * 2 * 0) (1 * 2 * 2).
Lemma half_coords : jac_coords 2 1 j2 half_unit.
Proof. unfold j2, half_unit. apply made_coords; lra. Qed.
Definition in_half (px : list (pixel R)) : list (pixel R) := map (fun p => mkPix (1 * 2 * px_u p) (2 * px_v p) (2 ^ 2 * px_area p) (px_val p) (px_ierr p)) px.
Lemma in_half_coords px : pix_coords 2 1 px (in_half px).
Proof. unfold pix_coords, in_half. induction px; cbn [map]; constructor; [cbn; auto 10|exact IHpx]. Qed.
Lemma Rabs2 : Rabs 2 = 2. Proof. apply Rabs_right. lra. Qed.

Definition made_half (px : list (pixel R)) (image : arr2 R) (q q' : gres) : Prop :=
  make_pixels image (im2 1 1 1) j2 true = Ok px /\
  (exists px', make_pixels image (im2 1 1 1) half_unit true = Ok px' /\ gaussmom F2 false (GObs px j2) = Ok q /\ gaussmom (2 * F2) false (GObs px' half_unit) = Ok q').
Lemma half_results x y z : exists q q', made_half (px4 x y z) (im2 x y z) q q' /\ coords_gaussmom (if Z.eqb (m_flags (q_mom q)) 0 then 1 else 2 ^ 2) 2 1 q q'.
Proof.
  assert (AP : 0 < get_area j2) by (rewrite area2; lra). pose proof (made4 x y z) as M.
  pose proof (pixels_coords 2 1 (im2 x y z) (im2 1 1 1) j2 half_unit true half_coords) as PC. rewrite M in PC.
  destruct (make_pixels (im2 x y z) (im2 1 1 1) half_unit true) as [px'|] eqn:E; cbn [same_outcome] in PC; [|contradiction].
  assert (MP := made_pixels (im2 x y z) (im2 1 1 1) j2 _ eq_refl eq_refl M).
  destruct (gaussmom_coords 2 1 ltac:(lra) ltac:(lra) F2 false j2 half_unit (px4 x y z) px' F2_big ltac:(rewrite Rabs2; pose proof F2_big; assert (0 < / 10 ^ 40) by (apply Rinv_0_lt_compat, pow_lt; lra); lra) AP half_coords MP PC) as (q & q' & G1 & G2 & G3).
  exists q, q'. rewrite Rabs2 in G2. split; [|exact G3]. split; [exact M|]. exists px'. auto.
Qed.

Lemma flux_depends : exists px image q q', made_half px image q q' /\ m_flux_flags (q_mom q) = 0%Z /\ m_flux_flags (q_mom q') = 0%Z /\
  exists x e, m_flux (q_mom q) = Fin x /\ m_flux_err (q_mom q) = Fin e /\ 0 < x /\ 0 < e /\ m_flux (q_mom q') = Fin (4 * x) /\ m_flux_err (q_mom q') = Fin (4 * e).
Proof.
  destruct (half_results 10 (-1) (-1)) as (q & q' & M & C). exists (px4 10 (-1) (-1)), (im2 10 (-1) (-1)), q, q'. split; [exact M|].
  destruct M as (MM & px' & _ & E & _). assert (AP : 0 < get_area j2) by (rewrite area2; lra). assert (MP := made_pixels (im2 10 (-1) (-1)) (im2 1 1 1) j2 _ eq_refl eq_refl MM).
  destruct (sums4 10 (-1) (-1)) as (S5 & S4 & _). destruct w_range as [W1 W2].
  assert (NF : m_flags (q_mom q) <> 0%Z).
  { intros F. apply (go_flags F2 false j2 _ F2_big AP MP q E) in F. rewrite T2 in F. destruct F as (_ & _ & F4 & _). lra. }
  destruct (go_reports F2 false j2 _ F2_big AP MP) as (q0 & E0 & _ & RP). rewrite E in E0. injection E0 as <-.
  destruct (Z.eqb_spec (m_flags (q_mom q)) 0); [contradiction|]. destruct RP as (_ & _ & R1 & R2 & R3 & R4).
  destruct (go_raw F2 false j2 _ F2_big AP MP) as (r & SH & CV & Nn & E' & G). cbv zeta in G. rewrite E in G. injection G as G.
  assert (Qr : q_mom q = r). { destruct (Z.eqb_spec (m_flags r) 0) as [Z|Z]; [|rewrite G; reflexivity]. exfalso. apply NF. rewrite G. exact Z. }
  rewrite Qr in *. rewrite T2 in *. destruct (mom_result_full _ _ (Some (Fin (get_area j2 * mnorm 2 (px4 10 (-1) (-1))))) SH) as (r' & E'' & _ & _ & _ & _ & _ & FFl & FE & _).
  rewrite E' in E''. injection E'' as <-. assert (X := covs4 10 (-1) (-1) 5 ltac:(lia)).
  assert (P5 : positive (sm_at (m_cov r) 5 5)). { rewrite CV by (cbn; lia). rewrite area2. change (0 < 4 ^ 2 * mcov 2 (px4 10 (-1) (-1)) 5 5). lra. }
  destruct C as (_ & _ & C). rewrite Qr in C. destruct C as (_ & C1 & _ & _ & _ & _ & _ & _ & _ & C2 & C3 & _).
  split; [apply (flux_flag_pos _ _ FFl P5)|]. split; [rewrite C1; apply (flux_flag_pos _ _ FFl P5)|].
  destruct (FE P5) as [FE1 _]. rewrite CV in FE1 by (cbn; lia). rewrite area2 in FE1, R4. unfold xsqrt in FE1. rewrite Rltb_f in FE1 by lra.
  eexists _, _. split; [exact R4|]. split; [exact FE1|]. rewrite C2, C3, R4, FE1, !times_fin.
  split; [lra|]. split; [apply sqrt_lt_R0; lra|]. split; f_equal; ring.
Qed.
Lemma MF_depends : exists px image q q', made_half px image q q' /\ m_flags (q_mom q) = 0%Z /\ m_flags (q_mom q') = 0%Z /\
  m_flux (q_mom q') = m_flux (q_mom q) /\
  exists x y x' y', In ("MF"%string, (Fin x, y)) (m_named (q_mom q)) /\ In ("MF"%string, (Fin x', y')) (m_named (q_mom q')) /\ x' <> x.
Proof.
  destruct (half_results 1 2 1) as (q & q' & M & C). exists (px4 1 2 1), (im2 1 2 1), q, q'. split; [exact M|].
  destruct M as (MM & px' & MM' & E & E'). assert (AP : 0 < get_area j2) by (rewrite area2; lra). assert (MP := made_pixels (im2 1 2 1) (im2 1 1 1) j2 _ eq_refl eq_refl MM).
  assert (F : m_flags (q_mom q) = 0%Z) by (apply (go_flags F2 false j2 _ F2_big AP MP q E); rewrite T2; exact good4).
  destruct (sums4 1 2 1) as (S5 & _). destruct w_range as [W1 W2].
  assert (N := go_named F2 false j2 _ F2_big AP MP q E). rewrite T2 in N. specialize (N ltac:(lra)).
  destruct C as (_ & _ & C). rewrite F in C. cbn [Z.eqb] in C. destruct C as (C0 & _ & _ & _ & _ & _ & _ & _ & _ & C2 & _).
  split; [exact F|]. split; [congruence|]. split. { rewrite C2. rewrite times_cases by lra. destruct (m_flux (q_mom q)); try reflexivity. f_equal; ring. }
  assert (MP' := made_pixels (im2 1 2 1) (im2 1 1 1) half_unit _ eq_refl eq_refl MM').
  assert (A16 : get_area half_unit = 16) by (rewrite (area_coords 2 1 j2 half_unit half_coords), area2; ring).
  assert (PC : pix_coords 2 1 (px4 1 2 1) px').
  { pose proof (pixels_coords 2 1 (im2 1 2 1) (im2 1 1 1) j2 half_unit true half_coords) as PC. rewrite MM, MM' in PC. exact PC. }
  assert (B2 : / 10 ^ 40 <= 2 * F2). { pose proof F2_big. assert (0 < / 10 ^ 40) by (apply Rinv_0_lt_compat, pow_lt; lra). lra. }
  assert (T8 : fwhm_to_T (2 * F2) = 2 ^ 2 * 2). { rewrite <- Rabs2 at 1. rewrite (size_coords 2), T2. reflexivity. }
  assert (N' := go_named (2 * F2) false half_unit _ B2 ltac:(rewrite A16; lra) MP' q' E'). rewrite T8 in N'.
  assert (MS : msum (2 ^ 2 * 2) px' 5 = msum 2 (px4 1 2 1) 5).
  { rewrite (msum_coords 2 1 ltac:(lra) ltac:(lra) (px4 1 2 1) px' PC 2 ltac:(lra)) by lia. unfold factor. cbn. ring. }
  rewrite MS, A16 in N'. rewrite area2 in N. specialize (N' ltac:(lra)). do 4 eexists. split; [exact N|]. split; [exact N'|]. lra.
Qed.

(** coordinates so large a unit that determinants drop below the limit *)
Lemma small_unit_flagged c p j g w : (1 < ac_maxiter c)%nat -> g_det g < GMIX_LOW_DETVAL -> exists d, snd (am_run c (mkAo p j) (g :: w)) = Ok d /\ too_small d.
Proof.
  intros M D. unfold am_run, admom. cbn [ao_pix ao_jac]. destruct (ac_maxiter c) as [|[|n]]; [lia|lia|].
  cbn [am_loop]. unfold am_iter at 1. cbn [as_wt]. rewrite Rltb_t by exact D. unfold stop_with. cbn [am_rec0 ar_flags ar_numiter ar_ws ar_pars ar_rho4 as_wt as_rec Nat.eqb].
  unfold norm0. cbn [bind snd]. unfold get_result. cbv zeta. cbn [ar_flags Z.eqb LOW_DET bind]. 
  set (fl := if forallb _ _ then _ else _). assert (F : Z.land fl (Z.lor LOW_DET GMIX_RANGE_ERROR) <> 0%Z) by (unfold fl; destruct (forallb _ _); discriminate).
  assert (F0 : (fl =? 0)%Z = false). { apply Z.eqb_neq. intros E. rewrite E in F. apply F. reflexivity. }
  rewrite F0. cbn [bind]. eexists. split; [reflexivity|]. exact F.
Qed.
From Verif Require Import Admom4_Proofs CoordsAm_Proofs.
Lemma unit_too_large : exists a px' j' w' d d', 0 < a /\ pix_coords a 1 pxW px' /\ jac_coords a 1 jac1 j' /\ Forall2 (gauss_coords a 1) [gW] w' /\
  let c := mkAc 200 5 (1/100000) (1/1000) false in
  snd (am_run c (mkAo pxW jac1) [gW]) = Ok d /\ d_flags d = 0%Z /\ snd (am_run (coords_conf a c) (mkAo px' j') w') = Ok d' /\ too_small d'.
Proof.
  set (c := mkAc 200 5 (1/100000) (1/1000) false).
  assert (EX : exists a, 0 < a /\ a ^ 4 * 12 < GMIX_LOW_DETVAL).
  { exists (/ 10 ^ 51). split; [apply Rinv_0_lt_compat, pow_lt; lra|]. unfold GMIX_LOW_DETVAL. rewrite pow_inv, <- pow_mult. cbn [Nat.mul Nat.add].
    replace (10 ^ 204) with (10000 * 10 ^ 200) by (change 204%nat with (4 + 200)%nat; rewrite pow_add; ring). rewrite Rinv_mult.
    assert (0 < / 10 ^ 200) by (apply Rinv_0_lt_compat, pow_lt; lra). lra. }
  destruct EX as (a & AP & AL). destruct (sample_ok false) as (_ & d & D1 & D2 & _ & D3). fold c in D1.
  set (g := gauss2d_set 1 (a * 0) (1 * a * 0) (a ^ 2 * 2) (1 * a ^ 2 * 2) (a ^ 2 * 8)).
  set (px' := map (fun p => mkPix (1 * a * px_u p) (a * px_v p) (a ^ 2 * px_area p) (px_val p) (px_ierr p)) pxW). set (j' := mkJac 1 2 (a * 1) (a * 0) (1 * a * 0) (1 * a * 1) (1 * a ^ 2 * 1) (Rabs a * 1)).
  destruct (small_unit_flagged (coords_conf a c) px' j' g []) as (d' & E' & S'). { cbn. lia. } { unfold g, gauss2d_set. cbn [g_det]. replace (a ^ 2 * 2 * (a ^ 2 * 8) - 1 * a ^ 2 * 2 * (1 * a ^ 2 * 2)) with (a ^ 4 * 12) by ring. exact AL. }
  exists a, px', j', [g], d, d'. split; [exact AP|]. split; [unfold pix_coords, px', pxW; cbn [map]; repeat constructor|]. split; [unfold jac_coords, jac1, j'; cbn; repeat split; ring|].
  split; [repeat constructor; cbn; ring|]. auto.
Qed.
