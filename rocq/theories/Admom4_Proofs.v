(** Deweighting, mixtures from results, and sample fits. *)
From Verif Require Import Base XReal Moments_Model Moments_Spec Shape_Model Shape_Spec Shape_Proofs Jacobian_Model Pixels_Model GMix_Model GMix_Spec GMix_Proofs FastExp_Model FastExp_Proofs
  Render_Model Render_Spec Render_Proofs GMixObj_Model GMixObj_Spec GMixObj_Proofs Flags_Model WSums_Model WSums_Proofs MomResult_Model MomResult_Spec MomResult_Proofs
  ObsS2N_Proofs EM_Model EM_Spec EM_Proofs Admom_Model Admom_Spec Admom_Proofs Admom2_Proofs Admom3_Proofs.
Local Open Scope R_scope.

(** ** deweighting *)
Lemma det_inv2 m : det2 m <> 0 -> det2 (inv2 m) = / det2 m.
Proof. intros H. unfold inv2. unfold det2 at 1. cbn [xx xy yy]. unfold det2 in *. field. exact H. Qed.
Lemma inv2_inv2 m : det2 m <> 0 -> inv2 (inv2 m) = m.
Proof.
  intros H. pose proof (det_inv2 m H) as D. unfold inv2 at 1. rewrite D. destruct m as [a b d]. unfold inv2. cbn [xx xy yy].
  f_equal; field; exact H.
Qed.
Lemma deweight_inverse W M : can_deweight W M -> inv2 (deweighted W M) = sub2 (inv2 M) (inv2 W).
Proof. intros (_ & _ & D). unfold deweighted. apply inv2_inv2. pose proof low_pos'. lra. Qed.
Lemma inv2_inverse m : det2 m <> 0 ->
  xx m * xx (inv2 m) + xy m * xy (inv2 m) = 1 /\ xx m * xy (inv2 m) + xy m * yy (inv2 m) = 0 /\
  xy m * xx (inv2 m) + yy m * xy (inv2 m) = 0 /\ xy m * xy (inv2 m) + yy m * yy (inv2 m) = 1.
Proof. intros H. unfold inv2. cbn [xx xy yy]. unfold det2 in *. repeat split; field; exact H. Qed.
Lemma deweight_half W : det2 W <> 0 -> deweighted W (half W) = W.
Proof.
  intros H. unfold deweighted. replace (sub2 (inv2 (half W)) (inv2 W)) with (inv2 W); [apply inv2_inv2; exact H|].
  destruct W as [a b d]. unfold half, sub2, inv2, det2 in *. cbn [xx xy yy] in *.
  assert (a / 2 * (d / 2) - b / 2 * (b / 2) <> 0) by (replace (a / 2 * (d / 2) - b / 2 * (b / 2)) with ((a * d - b * b) / 4) by field; lra).
  f_equal; field; auto.
Qed.
Lemma deweight_fixed W M : can_deweight W M -> deweighted W M = W -> M = half W.
Proof.
  intros C E. pose proof (deweight_inverse W M C) as I. rewrite E in I. destruct C as (DM & DW & _). pose proof low_pos'.
  assert (S : inv2 M = mkSym (2 * xx (inv2 W)) (2 * xy (inv2 W)) (2 * yy (inv2 W))).
  { destruct (inv2 M) as [a b d], (inv2 W) as [p q r]. unfold sub2 in I. cbn [xx xy yy] in *. injection I as I1 I2 I3. f_equal; lra. }
  rewrite <- (inv2_inv2 M) by lra. rewrite S. destruct W as [a b d]. assert (det2 (mkSym a b d) <> 0) as NZ by lra.
  unfold inv2, half. unfold det2 in *. cbn [xx xy yy] in *.
  f_equal; field; repeat split; auto; intros K.
  all: apply NZ; nra.
Qed.

(** ** mixture from a result *)
Lemma det_disk W : 0 < det2 W -> 0 < trace2 W -> in_disk (shape1 W, shape2 W).
Proof.
  intros D T. unfold in_disk, cmod2, shape1, shape2. cbn [fst snd]. destruct W as [a b d]. unfold det2, trace2 in *. cbn [xx xy yy] in *.
  replace ((a - d) / (a + d) * ((a - d) / (a + d)) + 2 * b / (a + d) * (2 * b / (a + d))) with (((a - d) * (a - d) + 4 * (b * b)) / ((a + d) * (a + d))) by (field; lra).
  apply Rmult_lt_reg_r with ((a + d) * (a + d)); [nra|]. unfold Rdiv. rewrite Rmult_assoc, Rinv_l by nra. nra.
Qed.
Lemma get_gmix_ok d wc px area : dict_describes d wc px area -> low <= det2 (cov0_of wc) -> low < trace2 (cov0_of wc) -> d_flags d = 0%Z ->
  exists g, am_get_gmix d = Ok g /\ o_data g = [gauss2d_set 1 (row0_of wc) (col0_of wc) (yy (cov0_of wc)) (xy (cov0_of wc)) (xx (cov0_of wc))].
Proof.
  intros (_ & _ & _ & _ & P & _) D T F. unfold am_get_gmix. rewrite F, P. cbn [Z.eqb negb map]. set (W := cov0_of wc) in *. pose proof low_pos'.
  rewrite Reqb_f by lra. change ((xx W - yy W) / trace2 W) with (shape1 W). change (2 * xy W / trace2 W) with (shape2 W).
  destruct (e2g_spec (shape1 W) (shape2 W)) as ([g1 g2] & E & _ & ID). { apply det_disk; lra. } rewrite E. cbn [bind].
  apply e2g_g2e in E. unfold new_model. unfold obj_fill, obj__fill, blank. cbn [model_npars model_ngauss o_npars o_kind o_ngauss length Nat.eqb negb fill_func].
  unfold gmix_fill_gauss. erewrite fill_simple_eq; [|reflexivity|reflexivity|rewrite g2e_nb; exact E].
  unfold pvals_gauss, fvals_gauss. cbn [finish bind combine map fst snd]. eexists. split; [reflexivity|]. cbn [o_data with_data]. unfold coellip_gauss. cbn [fst snd].
  unfold trace2 in T. f_equal. unfold shape1, shape2, trace2. f_equal; field; lra.
Qed.

(** ** a fit that converges to a tilted gaussian: the weight is twice the moments *)
Definition gW : gauss := gauss2d_set 1 0 0 2 2 8.
Definition MW : sym2 := mkSym 4 1 1.
Definition pixv (v u k : R) : pixel R := mkPix u v 1 (k / in_pixel gW (mkPix u v 1 0 1)) 1.
(** as they come from an image of 3 x 5 pixels whose corners have weight 1 *)
Definition pxW : list (pixel R) := [pixv (-1) (-2) 3; pixv (-1) 2 1; pixv 1 (-2) 1; pixv 1 2 3].
Definition jac1 : jac := mkJac 1 2 1 0 0 1 1 1.
Definition obsW : aobs := mkAo pxW jac1.
Lemma low_small : low < / 100.
Proof.
  unfold low. apply Rinv_lt_contravar.
  - apply Rmult_lt_0_compat; [lra|]. apply pow_lt. lra.
  - replace 100 with (10 ^ 2) by ring. apply Rlt_pow; [lra|lia].
Qed.
Lemma gW_evaluable : evaluable gW.
Proof. pose proof low_small. unfold low in *. unfold evaluable, gW, gauss2d_set, gcov, cov, det2, trace2. cbn. lra. Qed.
Lemma in_pixel_pos g p : evaluable g -> 0 < g_p g -> 0 < px_area p -> dist2 g p < 25 -> 0 < in_pixel g p.
Proof.
  intros E P A L. apply evaluable_pos in E. destruct E as [D T]. unfold in_pixel. destruct (Rlt_dec _ 25) as [L'|L']; [|lra].
  apply Rmult_lt_0_compat; [|exact A]. apply Rmult_lt_0_compat.
  - apply Rdiv_lt_0_compat; [exact P|]. pose proof PI_RGT_0. pose proof (sqrt_lt_R0 _ D). nra.
  - apply fast_exp_pos'. pose proof (maha_nonneg' (gcov g) (px_v p - g_row g) (px_u p - g_col g) D T). unfold dist2 in *. lra.
Qed.
Lemma in_pixel_pos_only g v u val ierr : in_pixel g (mkPix u v 1 val ierr) = in_pixel g (mkPix u v 1 0 1).
Proof. reflexivity. Qed.
Lemma pixv_share v u k : v * v = 1 -> u * u = 4 -> am_weight [gW] (pixv v u k) * px_val (pixv v u k) = k.
Proof.
  intros V U. unfold am_weight. cbn [map]. rewrite rsum_cons, rsum_nil. unfold pixv at 1. rewrite in_pixel_pos_only. cbn [pixv px_val].
  assert (0 < in_pixel gW (mkPix u v 1 0 1)).
  { apply in_pixel_pos; [apply gW_evaluable|cbn; lra|cbn; lra|]. unfold dist2, maha, gW, gauss2d_set, gcov, cov, det2. cbn [px_v px_u g_row g_col g_irr g_irc g_icc xx xy yy].
    apply Rmult_lt_reg_r with (8 * 2 - 2 * 2); [lra|]. unfold Rdiv. rewrite Rmult_assoc, Rinv_l by lra. nra. }
  field. lra.
Qed.
Lemma wtdW f : wtd [gW] pxW f = 3 * f (pixv 1 2 3) + 3 * f (pixv (-1) (-2) 3) + f (pixv (-1) 2 1) + f (pixv 1 (-2) 1).
Proof. unfold wtd, pxW. cbn [map]. rewrite !rsum_cons, rsum_nil. rewrite !pixv_share by lra. ring. Qed.
Lemma fluxW : wflux [gW] pxW = 8. Proof. unfold wflux. rewrite wtdW. ring. Qed.
Lemma centredW : centred pxW [gW] = [gW].
Proof.
  unfold centred, wmean. rewrite !wtdW, fluxW. cbn [pixv px_v px_u moved].
  replace ((3 * 1 + 3 * -1 + -1 + 1) / 8) with 0 by field. replace ((3 * 2 + 3 * -2 + 2 + -2) / 8) with 0 by field. reflexivity.
Qed.
Lemma mom2W : mom2 pxW [gW] = MW.
Proof.
  unfold mom2, wmean, MW. rewrite !wtdW, fluxW. unfold dv, du. cbn [row0_of col0_of gW gauss2d_set g_row g_col pixv px_v px_u]. f_equal; field.
Qed.
Section Ex.
Variable c : am_conf.
Hypothesis (SM : 0 <= ac_shiftmax c) (ET : 0 < ac_etol c) (TT : 0 < ac_Ttol c).
Lemma measuresW : measures c pxW [gW] [gW] [gW] MW.
Proof.
  pose proof low_small. unfold measures. rewrite centredW, mom2W, fluxW. cbn [cov0_of].
  split; [unfold gW, gauss2d_set, gcov, cov, det2; cbn; lra|]. split; [constructor; [apply gW_evaluable|constructor]|]. split; [lra|]. split; [reflexivity|].
  split; [|split; [lra|split; [reflexivity|unfold MW, trace2; cbn; lra]]]. unfold in_range. rewrite !Rminus_diag_eq, Rabs_R0 by reflexivity. auto.
Qed.
Lemma nextW : next c [gW] MW [gW].
Proof.
  unfold next. destruct (ac_cenonly c); [reflexivity|]. cbn [cov0_of]. pose proof low_small.
  assert (H0 : gcov gW = mkSym 8 2 2) by reflexivity. rewrite H0. split.
  - unfold can_deweight. split; [unfold MW, det2; cbn; lra|]. split; [unfold det2; cbn; lra|].
    replace (det2 (sub2 (inv2 MW) (inv2 (mkSym 8 2 2)))) with (/12); [lra|]. unfold MW, sub2, inv2, det2. cbn. field.
  - replace MW with (half (mkSym 8 2 2)) by (unfold half, MW; cbn; f_equal; field). rewrite deweight_half by (unfold det2; cbn; lra). reflexivity.
Qed.
Lemma reachedW : reached c pxW [gW] 1 (Some MW) [gW].
Proof. eapply r_next; [apply r_start|apply measuresW|discriminate|apply nextW]. Qed.
Lemma agreesW : agrees c MW MW.
Proof. unfold agrees. replace (trace2 MW / trace2 MW - 1) with 0 by (unfold MW, trace2; cbn; field). rewrite !Rminus_diag_eq, Rabs_R0 by reflexivity. auto. Qed.
Lemma convergesW : converges c pxW [gW] 2 [gW].
Proof. exists 1%nat, MW, [gW], MW. split; [reflexivity|]. split; [apply reachedW|]. split; [apply measuresW|apply agreesW]. Qed.
Lemma endsW : (1 < ac_maxiter c)%nat -> ends c pxW [gW] 0 2.
Proof. intros L. eapply e_converged; [exact L|apply reachedW|apply measuresW|apply agreesW]. Qed.
Lemma goodW : (0 < ac_maxiter c)%nat -> good_input c obsW [gW].
Proof.
  intros L. split; [split; [discriminate|constructor; [unfold coherent, gW, gauss2d_set, gcov, cov, det2; cbn; ring|constructor]]|].
  split; [constructor; [cbn; lra|constructor]|]. split; [|split; [|split; [exact L|unfold get_area; cbn; lra]]].
  - unfold usable_pixels. cbn [obsW ao_pix]. unfold pxW. repeat (constructor; [cbn; lra|]). constructor.
  - unfold real_pixels. cbn [obsW ao_pix]. unfold pxW. repeat (constructor; [cbn; lra|]). constructor.
Qed.
Lemma plainW : plain [gW] = [gW]. Proof. reflexivity. Qed.
Lemma weightW p : In p pxW -> 0 < am_weight [gW] p.
Proof.
  intros I. assert (exists v u k, p = pixv v u k /\ v * v = 1 /\ u * u = 4 /\ k <> 0) as (v & u & k & -> & V & Uu & K).
  { cbn in I. destruct I as [<-|[<-|[<-|[<-|[]]]]]; do 3 eexists; (split; [reflexivity|lra]). }
  assert (N : am_weight [gW] (pixv v u k) <> 0) by (intros Z; pose proof (pixv_share v u k V Uu) as Q; rewrite Z in Q; lra).
  assert (0 <= am_weight [gW] (pixv v u k)); [|lra]. apply am_weight_nonneg; [constructor; [apply gW_evaluable|constructor]|constructor; [cbn; lra|constructor]|cbn; lra].
Qed.
End Ex.
Lemma usableW : usable_pixels pxW.
Proof. unfold usable_pixels, pxW. repeat (constructor; [cbn; lra|]). constructor. Qed.
Lemma shapesW : shape_vars_positive [gW] pxW /\ shapes_nonzero [gW] pxW.
Proof.
  assert (I : In (pixv 1 2 3) pxW) by (right; right; right; left; reflexivity).
  split; [split|].
  - apply wcov_pos with (pixv 1 2 3); [apply usableW|exact I|apply weightW; exact I|]. unfold am_moment, du, dv. cbn. lra.
  - apply wcov_pos with (pixv 1 2 3); [apply usableW|exact I|apply weightW; exact I|]. unfold am_moment, du, dv. cbn. lra.
  - unfold shapes_nonzero. rewrite mom2W. cbn. lra.
Qed.
Lemma sample_ok cenonly : let c := mkAc 200 5 (1/100000) (1/1000) cenonly in
  good_input c obsW [gW] /\ exists d, snd (am_run c obsW [gW]) = Ok d /\ d_flags d = 0%Z /\ d_numiter d = 2%nat /\ d_T d = Fin 10.
Proof.
  intros c. assert (G : good_input c obsW [gW]) by (apply goodW; cbn; lia). split; [exact G|].
  assert (E : ends c (ao_pix obsW) (plain [gW]) 0 2) by (apply endsW; cbn; try lia; lra).
  destruct (outcome c obsW [gW] 0 2 G E) as (_ & d & D1 & D2 & _ & D3). exists d. split; [exact D1|].
  destruct (D3 eq_refl) as (wc & CV & DD & SD & _).
  assert (wc = [gW]). { eapply converges_unique; [exact CV|apply convergesW; cbn; lra|reflexivity]. } subst wc.
  destruct shapesW as [S1 S2]. split; [|split; [exact D2|]].
  - destruct SD as [(N & _)|(_ & _ & _ & [(_ & F & _)|(N & _)])]; [contradiction|exact F|contradiction].
  - destruct DD as (_ & _ & _ & _ & _ & -> & _). f_equal. unfold trace2, gW, gauss2d_set, gcov, cov. cbn. lra.
Qed.
(** convergence in the last permitted iteration *)
Lemma last_iter cenonly : let c := mkAc 2 5 (1/100000) (1/1000) cenonly in
  good_input c obsW [gW] /\ converges c (ao_pix obsW) (plain [gW]) 2 [gW] /\
  exists d, snd (am_run c obsW [gW]) = Ok d /\ Z.land (d_flags d) MAXITER <> 0%Z /\ d_T d = NaN.
Proof.
  intros c. assert (G : good_input c obsW [gW]) by (apply goodW; cbn; lia). split; [exact G|]. split; [apply convergesW; cbn; lra|].
  assert (E : ends c (ao_pix obsW) (plain [gW]) 0 2) by (apply endsW; cbn; try lia; lra).
  destruct (outcome c obsW [gW] 0 2 G E) as (_ & d & D1 & D2 & D3 & _). exists d. split; [exact D1|].
  split; [apply (maxiter_bit c obsW [gW] d G D1); exact D2|]. destruct (D3 ltac:(discriminate)) as (_ & _ & _ & _ & N).
  repeat (apply Forall_cons_iff in N; destruct N as [? N]). assumption.
Qed.
(** ** a fit with negative flux *)
Definition pxN : list (pixel R) := [mkPix 2 1 1 (-1) 1].
Definition obsN : aobs := mkAo pxN jac1.
Lemma goodN c : (0 < ac_maxiter c)%nat -> good_input c obsN [gW].
Proof.
  intros L. destruct (goodW c L) as (A & B & _ & _ & _ & C). split; [exact A|]. split; [exact B|].
  split; [constructor; [cbn; lra|constructor]|]. split; [constructor; [cbn; lra|constructor]|]. auto.
Qed.
Lemma endsN c : (0 < ac_maxiter c)%nat -> ends c pxN [gW] NONPOS_FLUX 1.
Proof.
  intros L. pose proof low_small. eapply e_flux; [exact L|apply r_start|unfold gW, gauss2d_set, cov0_of, gcov, cov, det2; cbn; lra|constructor; [apply gW_evaluable|constructor]|].
  unfold wflux, wtd, pxN. cbn [map]. rewrite rsum_cons, rsum_nil. cbn [px_val].
  assert (0 <= am_weight [gW] (mkPix 2 1 1 (-1) 1)); [|lra]. apply am_weight_nonneg; [constructor; [apply gW_evaluable|constructor]|constructor; [cbn; lra|constructor]|cbn; lra].
Qed.
Lemma cause_lost : let c := mkAc 1 5 (1/100000) (1/1000) false in
  good_input c obsN [gW] /\ ends c (ao_pix obsN) (plain [gW]) NONPOS_FLUX 1 /\
  exists d, snd (am_run c obsN [gW]) = Ok d /\ Z.land (d_flags d) NONPOS_FLUX = 0%Z /\ Z.land (d_flags d) MAXITER <> 0%Z.
Proof.
  intros c. assert (G : good_input c obsN [gW]) by (apply goodN; cbn; lia). split; [exact G|].
  assert (E : ends c (ao_pix obsN) (plain [gW]) NONPOS_FLUX 1) by (apply endsN; cbn; lia). split; [exact E|].
  destruct (outcome c obsN [gW] _ _ G E) as (_ & d & D1 & D2 & D3 & _). exists d. split; [exact D1|].
  split; [|apply (maxiter_bit c obsN [gW] d G D1); exact D2]. destruct (D3 ltac:(discriminate)) as ([(_ & ->)|(_ & ->)] & _); reflexivity.
Qed.
Lemma flux_sample : let c := mkAc 200 5 (1/100000) (1/1000) false in
  good_input c obsN [gW] /\ exists d, snd (am_run c obsN [gW]) = Ok d /\ d_numiter d = 1%nat /\ failed_dict d NONPOS_FLUX.
Proof.
  intros c. assert (G : good_input c obsN [gW]) by (apply goodN; cbn; lia). split; [exact G|].
  assert (E : ends c (ao_pix obsN) (plain [gW]) NONPOS_FLUX 1) by (apply endsN; cbn; lia).
  destruct (outcome c obsN [gW] _ _ G E) as (_ & d & D1 & D2 & D3 & _). exists d. split; [exact D1|]. split; [exact D2|]. apply D3. discriminate.
Qed.

(** ** the guess object *)
Definition is_full (h : heap) (i : nat) (d : gmix) : Prop := exists g, read h i = Some g /\ o_data g = d.
Lemma go_writes c h o i g : wf h -> read h i = Some g -> exists h' r, am_go c h o (GObj i) = Some (h', r) /\
  r = snd (am_run c o (o_data g)) /\ is_full h' i (fst (am_run c o (o_data g))) /\ wf h' /\ length (h_objs h') = length (h_objs h) /\ forall j, j <> i -> read h' j = read h j.
Proof.
  intros W R. unfold am_go. rewrite R. destruct (am_run c o (o_data g)) as [d r]. exists (write h i (with_data g d)), r. cbn [fst snd].
  split; [reflexivity|]. split; [reflexivity|]. split; [exists (with_data g d); split; [|reflexivity]|].
  - apply read_write_same with g; auto.
  - split; [apply write_wf; exact W|]. split; [unfold write; destruct (nth_error (h_objs h) i); reflexivity|]. intros j Hj. apply read_write_other; auto.
Qed.
