From Verif Require Import Base XReal Shape_Model Shape_Spec Shape_Proofs Moments_Model Moments_Spec Moments_Proofs GMix_Model GMix_Spec GMix_Proofs GMixObj_Model GMixObj_Spec GMixObj_Proofs GaussAp_Model GaussAp_Spec.
From Verif Require Flags_Model.

Lemma wt_inv s : s <> 0 -> minv (mkMat (s^2) 0 0 (s^2)) = Ok (mkMat (/ s^2) 0 0 (/ s^2)).
Proof.
  intros H. assert (s ^ 2 <> 0) by (apply pow_nonzero; exact H). unfold minv, mdet. cbn [ma mb mc md].
  rewrite Reqb_f. { do 2 f_equal; field; exact H. }
  intros K. apply H0. assert (s ^ 2 * s ^ 2 = 0) by lra. apply Rmult_integral in H1. tauto.
Qed.
Lemma posdef_trace m : posdef m -> 0 < yy m.
Proof. unfold posdef, det2. intros [A B]. apply Rmult_lt_reg_l with (xx m); [exact A|]. rewrite Rmult_0_r. nra. Qed.
Lemma det_sum m s2 : det2 (add2 m (mkSym s2 0 s2)) = det2 m + s2 * trace2 m + s2 * s2.
Proof. unfold det2, add2, trace2. cbn. ring. Qed.
Lemma det_sum_pos m s2 : posdef m -> 0 < s2 -> s2 * s2 < det2 (add2 m (mkSym s2 0 s2)).
Proof.
  intros P H. rewrite det_sum. assert (Y := posdef_trace m P). destruct P as [X D]. unfold trace2.
  assert (0 < s2 * (xx m + yy m)) by (apply Rmult_lt_0_compat; lra). lra.
Qed.
Lemma weight_ratio m s2 : posdef m -> 0 < s2 -> 0 < s2 / sqrt (det2 (add2 m (mkSym s2 0 s2))) <= 1.
Proof.
  intros P H. assert (D := det_sum_pos m s2 P H). assert (Q : s2 < sqrt (det2 (add2 m (mkSym s2 0 s2)))).
  { rewrite <- (sqrt_square s2) at 1 by lra. apply sqrt_lt_1; nra. }
  split; [apply Rdiv_lt_0_compat; lra|]. apply Rmult_le_reg_r with (sqrt (det2 (add2 m (mkSym s2 0 s2)))); [lra|].
  unfold Rdiv. rewrite Rmult_assoc, Rinv_l by lra. lra.
Qed.
Lemma weight_bounds m s2 : posdef m -> 0 < s2 -> 0 < ap_weight s2 m <= 1.
Proof. intros P H. unfold ap_weight. destruct (Rltb _ _); [apply weight_ratio; assumption|lra]. Qed.
Lemma weight_mono m s2 s2' : posdef m -> 0 < s2 -> s2 <= s2' -> ap_weight s2 m <= ap_weight s2' m.
Proof.
  intros P H L. unfold ap_weight. destruct (Rltb _ _); [|lra].
  assert (D := det_sum_pos m s2 P H). assert (D' := det_sum_pos m s2' P ltac:(lra)).
  set (d := det2 (add2 m (mkSym s2 0 s2))) in *. set (d' := det2 (add2 m (mkSym s2' 0 s2'))) in *.
  assert (0 < sqrt d) by (apply sqrt_lt_R0; nra). assert (0 < sqrt d') by (apply sqrt_lt_R0; nra).
  apply Rmult_le_reg_r with (sqrt d * sqrt d'); [apply Rmult_lt_0_compat; assumption|].
  replace (s2 / sqrt d * (sqrt d * sqrt d')) with (s2 * sqrt d') by (field; lra).
  replace (s2' / sqrt d' * (sqrt d * sqrt d')) with (s2' * sqrt d) by (field; lra).
  assert (E : s2 * sqrt d' = sqrt (s2 * s2 * d')). { rewrite sqrt_mult_alt by nra. rewrite sqrt_square by lra. reflexivity. }
  assert (E' : s2' * sqrt d = sqrt (s2' * s2' * d)). { rewrite sqrt_mult_alt by nra. rewrite sqrt_square by lra. reflexivity. }
  rewrite E, E'. apply sqrt_le_1_alt.
  assert (d = det2 m + s2 * trace2 m + s2 * s2) as -> by apply det_sum. assert (d' = det2 m + s2' * trace2 m + s2' * s2') as -> by apply det_sum.
  assert (Y := posdef_trace m P). destruct P as [X DD]. unfold trace2.
  assert (0 <= (s2' - s2) * (s2 * s2' * (xx m + yy m))) by (apply Rmult_le_pos; [lra|]; apply Rmult_le_pos; [nra|lra]).
  assert (0 <= (s2' - s2) * ((s2 + s2') * det2 m)) by (apply Rmult_le_pos; [lra|]; apply Rmult_le_pos; lra). nra.
Qed.

Lemma fac_ok s g : s <> 0 -> posdef (gcov g) -> coherent g ->
  ap_fac (mkMat (/ s^2) 0 0 (/ s^2)) g = Fin (ap_weight (s^2) (gcov g)).
Proof.
  intros Hs P Hc. unfold ap_fac, ap_weight. rewrite <- Hc. destruct (Rltb GMIX_LOW_DETVAL (g_det g)); [|reflexivity].
  assert (Hs2 : 0 < s ^ 2) by (assert (0 <= s * s) by apply Rle_0_sqr; assert (s * s <> 0) by (intros K; apply Rmult_integral in K; tauto); cbn; lra).
  assert (W := weight_ratio _ _ P Hs2). assert (D := det_sum_pos _ _ P Hs2).
  destruct P as [PX PD]. unfold coherent in Hc. assert (Pd : 0 < g_det g) by (rewrite Hc; exact PD).
  set (d := g_det g) in *. set (s2 := s ^ 2) in *.
  assert (Ed : mdet (mkMat (g_irr g) (g_irc g) (g_irc g) (g_icc g)) = d) by (rewrite Hc; unfold mdet, det2, gcov, cov; cbn; ring).
  unfold minv at 1. rewrite Ed, Reqb_f by lra. cbn [bind ma mb mc md].
  set (A := madd _ _). assert (EA : mdet A = det2 (add2 (gcov g) (mkSym s2 0 s2)) / (d * (s2 * s2))).
  { unfold A, madd, mdet. cbn [ma mb mc md]. rewrite det_sum.
    assert (det2 (gcov g) = g_icc g * g_irr g - g_irc g * g_irc g) as E by reflexivity. assert (trace2 (gcov g) = g_icc g + g_irr g) as -> by reflexivity.
    rewrite <- Hc. assert (K : g_irc g * g_irc g = g_icc g * g_irr g - d) by lra.
    field_simplify; [|lra|lra]. replace (g_irc g ^ 2) with (g_icc g * g_irr g - d) by (cbn; lra). field. lra. }
  assert (PA : 0 < mdet A). { rewrite EA. apply Rdiv_lt_0_compat; [|apply Rmult_lt_0_compat]; nra. }
  unfold minv. rewrite Reqb_f by lra. cbn [bind].
  assert (EN : mdet (mkMat (md A / mdet A) (- mb A / mdet A) (- mc A / mdet A) (ma A / mdet A)) = / mdet A).
  { unfold mdet at 1. cbn [ma mb mc md].
    replace (md A / mdet A * (ma A / mdet A) - - mb A / mdet A * (- mc A / mdet A)) with ((ma A * md A - mb A * mc A) / (mdet A * mdet A)) by (field; lra).
    change (ma A * md A - mb A * mc A) with (mdet A). field. lra. }
  rewrite EN, EA.
  set (D2 := det2 (add2 (gcov g) (mkSym s2 0 s2))) in *.
  assert (PD2 : 0 < D2) by nra.
  replace (/ (D2 / (d * (s2 * s2))) / d) with (s2 * s2 / D2) by (field; nra).
  assert (P2 : 0 <= s2 * s2 / D2) by (apply Rlt_le, Rdiv_lt_0_compat; nra).
  unfold xsqrt. rewrite Rltb_f by lra.
  assert (ES : sqrt (s2 * s2 / D2) = s2 / sqrt D2). { rewrite sqrt_div_alt by exact PD2. rewrite sqrt_square by lra. reflexivity. }
  rewrite ES. unfold xgtb, xltb. rewrite Rltb_f by lra. reflexivity.
Qed.
Lemma fold_fac s (gm : gmix) : s <> 0 -> proper gm -> forall a,
  fold_left (fun apflux g => xadd apflux (xmul (Fin (g_p g)) (ap_fac (mkMat (/ s^2) 0 0 (/ s^2)) g))) gm (Fin a) = Fin (a + ap_flux gm (s^2)).
Proof.
  intros Hs. induction gm as [|g gm IH]; intros HP a; [unfold ap_flux; cbn; f_equal; ring|].
  apply Forall_cons_iff in HP. destruct HP as [[P C] HP]. cbn [fold_left]. rewrite fac_ok by assumption. cbn [xmul xadd]. rewrite IH by exact HP.
  f_equal. unfold ap_flux. cbn [map rsum]. unfold rsum. cbn. ring.
Qed.
Lemma gaussap_sigma_ok gm s : s <> 0 -> proper gm -> gaussap_sigma gm s = Ok (Fin (ap_flux gm (s^2))).
Proof. intros Hs P. unfold gaussap_sigma. rewrite wt_inv by exact Hs. cbn [bind]. rewrite fold_fac by assumption. rewrite Rplus_0_l. reflexivity. Qed.

Lemma fwhm_sigma_nz f : 0 < f -> fwhm_to_sigma f <> 0.
Proof. intros H. unfold fwhm_to_sigma, FWHM_FAC. assert (0 < f / (23548200450309493 / 10000000000000000)) by (apply Rdiv_lt_0_compat; lra). lra. Qed.
Lemma ap_flux_bounds gm s2 : 0 < s2 -> proper gm -> nonneg gm -> 0 <= ap_flux gm s2 <= flux_of gm.
Proof.
  intros Hs. unfold ap_flux, flux_of. induction gm as [|g gm IH]; intros P N; [cbn; lra|].
  apply Forall_cons_iff in P. destruct P as [[P _] HP]. apply Forall_cons_iff in N. destruct N as [N HN].
  specialize (IH HP HN). cbn [map rsum]. assert (W := weight_bounds _ _ P Hs).
  unfold rsum in *. cbn [fold_right] in *. assert (0 <= g_p g * ap_weight s2 (gcov g)) by (apply Rmult_le_pos; lra).
  assert (g_p g * ap_weight s2 (gcov g) <= g_p g * 1) by (apply Rmult_le_compat_l; lra). lra.
Qed.
Lemma ap_flux_mono gm s2 s2' : 0 < s2 -> s2 <= s2' -> proper gm -> nonneg gm -> ap_flux gm s2 <= ap_flux gm s2'.
Proof.
  intros Hs L. unfold ap_flux. induction gm as [|g gm IH]; intros P N; [cbn; lra|].
  apply Forall_cons_iff in P. destruct P as [[P _] HP]. apply Forall_cons_iff in N. destruct N as [N HN].
  specialize (IH HP HN). cbn [map]. unfold rsum in *. cbn [fold_right] in *.
  assert (g_p g * ap_weight s2 (gcov g) <= g_p g * ap_weight s2' (gcov g)) by (apply Rmult_le_compat_l; [exact N|apply weight_mono; assumption]). lra.
Qed.

(** ** model mixtures are proper *)
Lemma coelliptical_proper gm row col e1 e2 FT : coelliptical gm row col e1 e2 FT -> in_disk (e1,e2) -> Forall (fun ft => 0 < snd ft) FT -> proper gm.
Proof.
  unfold coelliptical, proper. intros H D. induction H as [|g ft gm FT (_ & _ & _ & HS & HC & _) _ IH]; intros P; [constructor|].
  apply Forall_cons_iff in P. destruct P as [P PT]. constructor; [|apply IH; exact PT]. split; [|exact HC].
  apply (posdef_iff_disk _ _ _ _ _ _ HS P). exact D.
Qed.
Lemma coelliptical_nonneg gm row col e1 e2 FT : coelliptical gm row col e1 e2 FT -> Forall (fun ft => 0 <= fst ft) FT -> nonneg gm.
Proof.
  unfold coelliptical, nonneg. intros H. induction H as [|g ft gm FT (E & _) _ IH]; intros P; [constructor|].
  apply Forall_cons_iff in P. destruct P as [P PT]. constructor; [rewrite E; exact P|apply IH; exact PT].
Qed.
Lemma e_of_g_disk g1 g2 e1 e2 : in_disk (g1,g2) -> e_of_g (g1,g2) (e1,e2) -> in_disk (e1,e2).
Proof.
  intros D E. destruct (in_disk_e g1 g2 D) as (a & b & _ & E' & D'). unfold e_of_g, cmod2 in *. cbn [fst snd] in *.
  assert (0 < 1 + (g1 * g1 + g2 * g2)) by nra. assert (a = e1) by (apply Rmult_eq_reg_r with (1 + (g1*g1+g2*g2)); lra).
  assert (b = e2) by (apply Rmult_eq_reg_r with (1 + (g1*g1+g2*g2)); lra). subst. exact D'.
Qed.
Definition all_pos (l : list R) : Prop := Forall (fun x => 0 < x) l.
Lemma tables_pos : all_pos pvals_exp /\ all_pos fvals_exp /\ all_pos pvals_dev /\ all_pos fvals_dev /\ all_pos pvals_turb /\ all_pos fvals_turb /\ all_pos pvals_gauss /\ all_pos fvals_gauss.
Proof. unfold all_pos, pvals_exp, fvals_exp, pvals_dev, fvals_dev, pvals_turb, fvals_turb, pvals_gauss, fvals_gauss. repeat split; repeat constructor; lra. Qed.
Lemma combine_pos k t pv fv : 0 < t -> all_pos fv -> Forall (fun ft => 0 < snd ft) (map (fun pf : R * R => (k * fst pf, t * snd pf)) (combine pv fv)).
Proof.
  intros Ht Hf. revert pv. induction Hf as [|f fv Hf _ IH]; intros [|p pv]; cbn; constructor; [cbn; nra|apply IH].
Qed.
Lemma combine_nonneg k t pv fv : 0 <= k -> all_pos pv -> Forall (fun ft => 0 <= fst ft) (map (fun pf : R * R => (k * fst pf, t * snd pf)) (combine pv fv)).
Proof.
  intros Hk Hp. revert fv. induction Hp as [|p pv Hp _ IH]; intros [|f fv]; cbn; constructor; [cbn; nra|apply IH].
Qed.
Lemma clip_pos T : 0 < clip_T T.
Proof. unfold clip_T. assert (/ 10000 <= Rmax (/ 10000) T) by apply Rmax_l. lra. Qed.

Lemma simple_proper fill pv fv row col g1 g2 T F : simple_claim fill pv fv -> all_pos pv -> all_pos fv -> in_disk (g1,g2) -> 0 < T ->
  exists gm, fill [row;col;g1;g2;T;F] = Ok gm /\ proper gm /\ flux_of gm = F * rsum pv /\ (0 <= F -> nonneg gm).
Proof.
  intros HC Pp Pf D HT. destruct (HC row col g1 g2 T F D) as (gm & e1 & e2 & E & He & Hco & _ & Hfl & _). exists gm.
  split; [exact E|]. split; [|split; [exact Hfl|]].
  - apply (coelliptical_proper _ _ _ _ _ _ Hco (e_of_g_disk _ _ _ _ D He)). apply combine_pos; assumption.
  - intros HF. apply (coelliptical_nonneg _ _ _ _ _ _ Hco). apply combine_nonneg; assumption.
Qed.
Lemma composite_proper r row col g1 g2 T fd td F : composite_claim r row col g1 g2 T fd td F -> in_disk (g1,g2) -> 0 <= fd <= 1 -> 0 < td -> 0 < T ->
  exists gm, r = Ok gm /\ proper gm /\ flux_of gm = F * cm_psum fd /\ (0 <= F -> nonneg gm).
Proof.
  intros (gm & e1 & e2 & E & He & _ & Hco & Hfl & _) D Hfd Htd HT. exists gm. assert (P := cm_sum_pos fd td Hfd Htd).
  destruct tables_pos as (A & B & C & D' & _).
  assert (Q1 : 0 < T / cm_sum fd td) by (apply Rdiv_lt_0_compat; assumption).
  assert (Q2 : 0 < T / cm_sum fd td * td) by (apply Rmult_lt_0_compat; assumption).
  split; [exact E|]. split; [|split; [exact Hfl|]].
  - apply (coelliptical_proper _ _ _ _ _ _ Hco (e_of_g_disk _ _ _ _ D He)). apply Forall_app. split; apply combine_pos; assumption.
  - intros HF. apply (coelliptical_nonneg _ _ _ _ _ _ Hco). apply Forall_app. split; apply combine_nonneg; try assumption; apply Rmult_le_pos; lra.
Qed.

(** ** one object *)
Lemma cat_outcome (fill : R -> res gmix) g1 g2 fwhm psum F (mk : res gmobj) :
  0 < fwhm ->
  (in_disk (g1,g2) -> exists gm o, fill F = Ok gm /\ mk = Ok o /\ o_data o = gm /\ proper gm /\ flux_of gm = F * psum /\ (0 <= F -> nonneg gm)) ->
  (~ in_disk (g1,g2) -> mk = Raise GMixRangeError) ->
  exists out, match (let* gm := mk in gm_get_gaussap_flux (o_data gm) (ApFwhm fwhm)) with
              | Ok flux => Ok (flux, 0%Z) | Raise GMixRangeError => Ok (NaN, Flags_Model.GMIX_RANGE_ERROR) | Raise e => Raise e end = Ok out /\
    band_outcome fill g1 g2 fwhm psum F out.
Proof.
  intros Hf Hin Hout. destruct (Rlt_dec (cmod2 (g1,g2)) 1) as [D|D].
  - destruct (Hin D) as (gm & o & E1 & E2 & E3 & P & HF & N). rewrite E2. cbn [bind gm_get_gaussap_flux]. rewrite E3.
    rewrite gaussap_sigma_ok by (try apply fwhm_sigma_nz; assumption). eexists. split; [reflexivity|]. left. split; [exact D|]. split; [reflexivity|].
    exists gm. eexists. split; [exact E1|]. split; [reflexivity|]. split; [reflexivity|].
    intros HF0. rewrite <- HF. apply ap_flux_bounds; [|exact P|apply N; exact HF0].
    assert (K := fwhm_sigma_nz fwhm Hf). assert (0 <= fwhm_to_sigma fwhm * fwhm_to_sigma fwhm) by apply Rle_0_sqr.
    assert (fwhm_to_sigma fwhm * fwhm_to_sigma fwhm <> 0) by (intros Q; apply Rmult_integral in Q; tauto). cbn. lra.
  - rewrite (Hout D). cbn [bind]. eexists. split; [reflexivity|]. right. split; [exact D|]. split; reflexivity.
Qed.
Lemma new_model_fill m pars d : doc_npars m = Some (length pars) -> doc_fill m pars = Ok d -> exists o, new_model m pars = Ok o /\ o_data o = d.
Proof. intros H E. destruct (new_model_spec m pars) as [A _]. specialize (A H). rewrite E in A. destruct A as (o & A & B & _). eauto. Qed.
Lemma new_model_raise m pars e : doc_npars m = Some (length pars) -> doc_fill m pars = Raise e -> new_model m pars = Raise e.
Proof. intros H E. destruct (new_model_spec m pars) as [A _]. specialize (A H). rewrite E in A. exact A. Qed.

Lemma simple_fill m pv : simple_model m pv -> exists fv, simple_claim (doc_fill m) pv fv /\ all_pos pv /\ all_pos fv /\
  doc_npars m = Some 6%nat /\ get_band_npars (AModel m) = 6%nat /\
  (forall row col g1 g2 T F, ~ in_disk (g1,g2) -> doc_fill m [row;col;g1;g2;T;F] = Raise GMixRangeError).
Proof.
  destruct tables_pos as (A & B & C & D & E & F & G & H).
  intros [[-> ->]|[[-> ->]|[[-> ->]|[-> ->]]]]; [exists fvals_gauss|exists fvals_turb|exists fvals_exp|exists fvals_dev];
    (split; [|repeat split; try assumption; intros; apply fill_simple_raises; assumption]).
  - exact (fill_simple_spec pvals_gauss fvals_gauss eq_refl).
  - exact (fill_simple_spec pvals_turb fvals_turb eq_refl).
  - exact (fill_simple_spec pvals_exp fvals_exp eq_refl).
  - exact (fill_simple_spec pvals_dev fvals_dev eq_refl).
Qed.
Lemma do_gap_simple m pv fwhm v u g1 g2 T fluxes cm band F : simple_model m pv -> 0 < fwhm -> nth_error fluxes band = Some F ->
  exists out, do_gap fwhm (AModel m) (v :: u :: g1 :: g2 :: T :: fluxes) cm band = Ok out /\
    band_outcome (fun F => doc_fill m [v; u; g1; g2; clip_T T; F]) g1 g2 fwhm (rsum pv) F out.
Proof.
  intros Hm Hf HF. destruct (simple_fill m pv Hm) as (fv & HC & P1 & P2 & HN & HB & HR).
  unfold do_gap, get_band_pars. rewrite HB. cbn [Nat.sub Nat.add nth_error]. rewrite HF. cbn [firstn app bind].
  apply cat_outcome; [exact Hf| |].
  - intros D. destruct (simple_proper _ pv fv v u g1 g2 (clip_T T) F HC P1 P2 D (clip_pos T)) as (gm & E & P & Fl & N).
    destruct (new_model_fill m [v; u; g1; g2; clip_T T; F] gm HN E) as (o & Eo & Ed). exists gm, o. auto 8.
  - intros D. apply (new_model_raise m [v; u; g1; g2; clip_T T; F] _ HN). apply HR. exact D.
Qed.
Lemma do_gap_bdf fwhm v u g1 g2 T fd fluxes cm band F : 0 <= fd <= 1 -> 0 < fwhm -> nth_error fluxes band = Some F ->
  exists out, do_gap fwhm (AModel Mbdf) (v :: u :: g1 :: g2 :: T :: fd :: fluxes) cm band = Ok out /\
    band_outcome (fun F => gmix_fill_bdf [v; u; g1; g2; clip_T T; fd; F]) g1 g2 fwhm (cm_psum fd) F out.
Proof.
  intros Hfd Hf HF. assert (P := cm_sum_pos fd 1 Hfd ltac:(lra)).
  unfold do_gap, get_band_pars. cbn [get_band_npars Nat.sub Nat.add nth_error]. rewrite HF. cbn [firstn app bind].
  apply cat_outcome; [exact Hf| |].
  - intros D. destruct (composite_proper _ _ _ _ _ _ _ _ _ (fill_bdf_spec v u g1 g2 (clip_T T) fd F D ltac:(lra)) D Hfd ltac:(lra) (clip_pos T)) as (gm & E & Pr & Fl & N).
    destruct (new_model_fill Mbdf [v; u; g1; g2; clip_T T; fd; F] gm eq_refl E) as (o & Eo & Ed). exists gm, o. auto 8.
  - intros D. apply (new_model_raise Mbdf); [reflexivity|]. cbn [doc_fill]. unfold gmix_fill_bdf. cbn [getp nth_error bind]. rewrite Tfactor_eq, Reqb_f by lra. cbn [bind].
    rewrite g2e_nb, (g2e_raise _ _ D). reflexivity.
Qed.
Lemma do_gap_cm fwhm v u g1 g2 T fd td fluxes band F : 0 <= fd <= 1 -> 0 < td -> 0 < fwhm -> nth_error fluxes band = Some F ->
  exists out, do_gap fwhm ACM (v :: u :: g1 :: g2 :: T :: fluxes) (fd, td) band = Ok out /\
    band_outcome (fun F => let* Tf := get_cm_Tfactor fd td in gmix_fill_cm fd td Tf [v; u; g1; g2; clip_T T; F]) g1 g2 fwhm (cm_psum fd) F out.
Proof.
  intros Hfd Htd Hf HF. assert (P := cm_sum_pos fd td Hfd Htd).
  unfold do_gap, get_band_pars. cbn [get_band_npars Nat.sub Nat.add nth_error]. rewrite HF. cbn [firstn app bind fst snd].
  assert (ET : get_cm_Tfactor fd td = Ok (1 / cm_sum fd td)) by (rewrite Tfactor_eq, Reqb_f by lra; reflexivity).
  apply cat_outcome; [exact Hf| |]; unfold new_cm; rewrite ET; cbn [bind].
  - intros D. destruct (composite_proper _ _ _ _ _ _ _ _ _ (fill_cm_spec v u g1 g2 (clip_T T) fd td _ F D ET) D Hfd Htd (clip_pos T)) as (gm & E & Pr & Fl & N).
    exists gm. eexists. split; [exact E|]. split; [|split; [|auto]].
    + unfold obj_fill. cbn [blank o_npars length Nat.eqb negb]. unfold obj__fill. cbn [blank o_kind o_ngauss fill_func with_pars]. rewrite E. reflexivity.
    + reflexivity.
  - intros D. unfold obj_fill. cbn [blank o_npars length Nat.eqb negb]. unfold obj__fill. cbn [blank o_kind o_ngauss fill_func with_pars].
    unfold gmix_fill_cm. cbn [getp nth_error bind]. rewrite g2e_nb, (g2e_raise _ _ D). reflexivity.
Qed.

Lemma mapM_seq_nth {A B} (f : nat -> res B) (l : list A) (P : A -> B -> Prop) :
  (forall i x, nth_error l i = Some x -> exists y, f i = Ok y /\ P x y) -> exists ys, mapM f (seq 0 (length l)) = Ok ys /\ Forall2 P l ys.
Proof.
  enough (G : forall k, (forall i x, nth_error l i = Some x -> exists y, f (k + i)%nat = Ok y /\ P x y) -> exists ys, mapM f (seq k (length l)) = Ok ys /\ Forall2 P l ys).
  { intros H. apply (G 0%nat). exact H. }
  induction l as [|x l IH]; intros k H; [exists []; split; [reflexivity|constructor]|].
  destruct (H 0%nat x eq_refl) as (y & E & Py). rewrite Nat.add_0_r in E.
  destruct (IH (S k)) as (ys & Es & Ps). { intros i z Hz. destruct (H (S i) z Hz) as (w & Ew & Pw). exists w. rewrite Nat.add_succ_comm. auto. }
  exists (y :: ys). cbn [seq length mapM]. rewrite E. cbn [bind]. rewrite Es. split; [reflexivity|constructor; assumption].
Qed.
Lemma nband_count n k : get_nband (k + n) (AModel Mgauss) = (Z.of_nat (k + n) - 6 + 1)%Z.
Proof. reflexivity. Qed.
Lemma one_row_simple m pv fwhm v u g1 g2 T fluxes fds tds : simple_model m pv -> 0 < fwhm ->
  exists out, get_gaussap_flux (mkTable (5 + length fluxes) [v :: u :: g1 :: g2 :: T :: fluxes]) (AModel m) fwhm fds tds (Some [true]) = Ok [out] /\
    Forall2 (band_outcome (fun F => doc_fill m [v; u; g1; g2; clip_T T; F]) g1 g2 fwhm (rsum pv)) fluxes out.
Proof.
  intros Hm Hf. destruct (mapM_seq_nth (fun band => do_gap fwhm (AModel m) (v :: u :: g1 :: g2 :: T :: fluxes) (0, 0) band) fluxes
    (band_outcome (fun F => doc_fill m [v; u; g1; g2; clip_T T; F]) g1 g2 fwhm (rsum pv))) as (out & E & H).
  { intros i F HF. apply (do_gap_simple m pv); assumption. }
  exists out. split; [|exact H]. destruct (simple_fill m pv Hm) as (_ & _ & _ & _ & _ & HB & _).
  unfold get_gaussap_flux. cbn [t_rows t_ncol length Nat.eqb bind]. unfold get_nband. rewrite HB.
  replace (Z.of_nat (5 + length fluxes) - Z.of_nat 6 + 1)%Z with (Z.of_nat (length fluxes)) by lia.
  assert ((Z.of_nat (length fluxes) <? 0)%Z = false) as -> by (apply Z.ltb_ge; lia). rewrite Nat2Z.id.
  cbn [repeat combine mapM negb]. rewrite E. reflexivity.
Qed.
Lemma one_row_bdf fwhm v u g1 g2 T fd fluxes fds tds : 0 <= fd <= 1 -> 0 < fwhm ->
  exists out, get_gaussap_flux (mkTable (6 + length fluxes) [v :: u :: g1 :: g2 :: T :: fd :: fluxes]) (AModel Mbdf) fwhm fds tds (Some [true]) = Ok [out] /\
    Forall2 (band_outcome (fun F => gmix_fill_bdf [v; u; g1; g2; clip_T T; fd; F]) g1 g2 fwhm (cm_psum fd)) fluxes out.
Proof.
  intros Hfd Hf. destruct (mapM_seq_nth (fun band => do_gap fwhm (AModel Mbdf) (v :: u :: g1 :: g2 :: T :: fd :: fluxes) (0, 0) band) fluxes
    (band_outcome (fun F => gmix_fill_bdf [v; u; g1; g2; clip_T T; fd; F]) g1 g2 fwhm (cm_psum fd))) as (out & E & H).
  { intros i F HF. apply do_gap_bdf; assumption. }
  exists out. split; [|exact H].
  unfold get_gaussap_flux. cbn [t_rows t_ncol length Nat.eqb bind]. unfold get_nband. cbn [get_band_npars].
  replace (Z.of_nat (6 + length fluxes) - Z.of_nat 7 + 1)%Z with (Z.of_nat (length fluxes)) by lia.
  assert ((Z.of_nat (length fluxes) <? 0)%Z = false) as -> by (apply Z.ltb_ge; lia). rewrite Nat2Z.id.
  cbn [repeat combine mapM negb]. rewrite E. reflexivity.
Qed.
Lemma one_row_cm fwhm v u g1 g2 T fd td fluxes : 0 <= fd <= 1 -> 0 < td -> 0 < fwhm ->
  exists out, get_gaussap_flux (mkTable (5 + length fluxes) [v :: u :: g1 :: g2 :: T :: fluxes]) ACM fwhm [fd] [td] (Some [true]) = Ok [out] /\
    Forall2 (band_outcome (fun F => let* Tf := get_cm_Tfactor fd td in gmix_fill_cm fd td Tf [v; u; g1; g2; clip_T T; F]) g1 g2 fwhm (cm_psum fd)) fluxes out.
Proof.
  intros Hfd Htd Hf. destruct (mapM_seq_nth (fun band => do_gap fwhm ACM (v :: u :: g1 :: g2 :: T :: fluxes) (fd, td) band) fluxes
    (band_outcome (fun F => let* Tf := get_cm_Tfactor fd td in gmix_fill_cm fd td Tf [v; u; g1; g2; clip_T T; F]) g1 g2 fwhm (cm_psum fd))) as (out & E & H).
  { intros i F HF. apply do_gap_cm; assumption. }
  exists out. split; [|exact H].
  unfold get_gaussap_flux. cbn [t_rows t_ncol length Nat.eqb bind negb]. unfold get_nband. cbn [get_band_npars].
  replace (Z.of_nat (5 + length fluxes) - Z.of_nat 6 + 1)%Z with (Z.of_nat (length fluxes)) by lia.
  assert ((Z.of_nat (length fluxes) <? 0)%Z = false) as -> by (apply Z.ltb_ge; lia). rewrite Nat2Z.id.
  cbn [combine mapM negb]. rewrite E. reflexivity.
Qed.
Lemma one_row_masked n row model fwhm fds tds : (match model with ACM => length fds = 1%nat /\ length tds = 1%nat | _ => True end) -> (0 <= get_nband n model)%Z ->
  get_gaussap_flux (mkTable n [row]) model fwhm fds tds (Some [false]) = Ok [repeat (NaN, Flags_Model.NO_ATTEMPT) (Z.to_nat (get_nband n model))].
Proof.
  intros HM HN. unfold get_gaussap_flux. cbn [t_rows t_ncol length Nat.eqb bind].
  assert ((get_nband n model <? 0)%Z = false) as -> by (apply Z.ltb_ge; exact HN). destruct model as [|m].
  - destruct HM as [HA HB]. rewrite HA, HB. cbn [Nat.eqb negb bind].
    destruct fds as [|fd [|]]; try discriminate. destruct tds as [|td [|]]; try discriminate. reflexivity.
  - reflexivity.
Qed.

(** ** catalogs *)
Lemma mapM_iff {A B} (f : A -> res B) l ys : mapM f l = Ok ys <-> Forall2 (fun x y => f x = Ok y) l ys.
Proof.
  split; [apply mapM_ok|]. intros H. induction H as [|x y l ys E _ IH]; [reflexivity|]. cbn [mapM]. rewrite E. cbn [bind]. rewrite IH. reflexivity.
Qed.
Lemma Forall2_nth_iff {A B} (P : A -> B -> Prop) l ys da db : Forall2 P l ys <-> length l = length ys /\ forall i, (i < length l)%nat -> P (nth i l da) (nth i ys db).
Proof.
  split.
  - intros H. induction H as [|x y l ys Hp _ [IL IH]]; [split; [reflexivity|cbn; lia]|]. split; [cbn; congruence|]. intros [|i] Hi; [exact Hp|]. apply IH. cbn in Hi. lia.
  - revert ys. induction l as [|x l IH]; intros [|y ys] [HL H]; try discriminate; constructor; [exact (H 0%nat ltac:(cbn; lia))|].
    apply IH. split; [cbn in HL; congruence|]. intros i Hi. exact (H (S i) ltac:(cbn; lia)).
Qed.
Lemma catalog_rows t model fwhm fds tds mask out :
  let nobj := length (t_rows t) in
  nobj <> 0%nat -> length mask = nobj -> (0 <= get_nband (t_ncol t) model)%Z ->
  (match model with ACM => length fds = nobj /\ length tds = nobj | _ => True end) ->
  get_gaussap_flux t model fwhm fds tds (Some mask) = Ok out <->
  length out = nobj /\ forall i, (i < nobj)%nat ->
    get_gaussap_flux (only t i) model fwhm [nth i fds 0] [nth i tds 0] (Some [nth i mask false]) = Ok [nth i out []].
Proof.
  intros nobj Hn Hm Hb Hc. set (nb := Z.to_nat (get_nband (t_ncol t) model)).
  set (f := fun rmc : list R * bool * (R * R) => let '(row, m, cm) := rmc in
    if negb m then Ok (repeat (NaN, Flags_Model.NO_ATTEMPT) nb) else mapM (fun band => do_gap fwhm model row cm band) (seq 0 nb)).
  set (cms := match model with ACM => combine fds tds | _ => repeat (0, 0) nobj end).
  assert (Lc : length cms = nobj). { unfold cms. destruct model; [rewrite combine_length; lia|apply repeat_length]. }
  assert (EL : get_gaussap_flux t model fwhm fds tds (Some mask) = mapM f (combine (combine (t_rows t) mask) cms)).
  { unfold get_gaussap_flux. fold nobj. rewrite Hm, Nat.eqb_refl. cbn [bind].
    assert ((get_nband (t_ncol t) model <? 0)%Z = false) as -> by (apply Z.ltb_ge; exact Hb). assert (Nat.eqb nobj 0 = false) as -> by (apply Nat.eqb_neq; exact Hn).
    unfold cms. destruct model; [destruct Hc as [-> ->]; rewrite Nat.eqb_refl|]; reflexivity. }
  assert (ES : forall i, (i < nobj)%nat -> get_gaussap_flux (only t i) model fwhm [nth i fds 0] [nth i tds 0] (Some [nth i mask false]) =
     mapM f [(nth i (t_rows t) [], nth i mask false, nth i cms (0, 0))]).
  { intros i Hi. unfold get_gaussap_flux, only. cbn [t_rows t_ncol length Nat.eqb bind]. assert ((get_nband (t_ncol t) model <? 0)%Z = false) as -> by (apply Z.ltb_ge; exact Hb).
    unfold cms. destruct model as [|m].
    - destruct Hc as [H1 H2]. rewrite combine_nth by congruence. reflexivity.
    - rewrite nth_repeat. reflexivity. }
  assert (Lm : length (combine (combine (t_rows t) mask) cms) = nobj) by (rewrite !combine_length; fold nobj; lia).
  rewrite EL, mapM_iff, (Forall2_nth_iff _ _ _ ([], false, (0, 0)) []), Lm. split.
  - intros [L H]. split; [congruence|]. intros i Hi. rewrite ES by exact Hi. cbn [mapM]. specialize (H i Hi).
    rewrite combine_nth, combine_nth in H by (rewrite ?combine_length; fold nobj; lia). rewrite H. reflexivity.
  - intros [L H]. split; [congruence|]. intros i Hi. specialize (H i Hi). rewrite ES in H by exact Hi. cbn [mapM] in H.
    rewrite combine_nth, combine_nth by (rewrite ?combine_length; fold nobj; lia).
    destruct (f (nth i (t_rows t) [], nth i mask false, nth i cms (0, 0))) as [y|e]; [|discriminate]. cbn in H. congruence.
Qed.
Lemma no_mask t model fwhm fds tds : get_gaussap_flux t model fwhm fds tds None = get_gaussap_flux t model fwhm fds tds (Some (repeat true (length (t_rows t)))).
Proof. unfold get_gaussap_flux. rewrite repeat_length, Nat.eqb_refl. reflexivity. Qed.

(** ** a bad cm row *)
Lemma bad_cm_row : get_gaussap_flux (mkTable 6 [[0;0;0;0;1;1]; [0;0;0;0;1;1]]) ACM 1 [0; 1] [1; 0] None = Raise ZeroDivisionError.
Proof.
  assert (E : exists o, do_gap 1 ACM [0;0;0;0;1;1] (0, 1) 0 = Ok o).
  { destruct (do_gap_cm 1 0 0 0 0 1 0 1 [1] 0 1) as (o & E & _); try lra; [reflexivity|]. exists o. exact E. }
  destruct E as [o E]. unfold get_gaussap_flux. cbn [t_rows t_ncol length Nat.eqb bind repeat negb combine]. unfold get_nband. cbn [get_band_npars].
  change (Z.of_nat 6 - Z.of_nat 6 + 1)%Z with 1%Z. cbn [Z.ltb Z.compare Z.to_nat Pos.to_nat Pos.iter_op seq].
  change (Pos.to_nat 1) with 1%nat. cbn [seq mapM negb]. rewrite E. cbn [bind].
  assert (K : do_gap 1 ACM [0;0;0;0;1;1] (1, 0) 0 = Raise ZeroDivisionError); [|rewrite K; reflexivity].
  unfold do_gap, get_band_pars. cbn [get_band_npars Nat.sub Nat.add nth_error firstn app bind fst snd]. unfold new_cm.
  rewrite Tfactor_eq, Reqb_t; [reflexivity|]. unfold cm_sum. ring.
Qed.

Lemma aperture_flux gm ap s : ap_sigma ap = Some s -> s <> 0 -> proper gm -> gm_get_gaussap_flux gm ap = Ok (Fin (ap_flux gm (s^2))).
Proof.
  intros E Hs P. destruct ap as [f|T|sg|]; cbn in *; try discriminate; try (injection E as E); try (destruct (Rltb T 0); [discriminate|injection E as E]); subst;
    apply gaussap_sigma_ok; assumption.
Qed.
Lemma aperture_grows gm ap ap' s s' : ap_sigma ap = Some s -> ap_sigma ap' = Some s' -> 0 < s -> s <= s' -> proper gm -> nonneg gm ->
  exists v v', gm_get_gaussap_flux gm ap = Ok (Fin v) /\ gm_get_gaussap_flux gm ap' = Ok (Fin v') /\ 0 <= v /\ v <= v' /\ v' <= flux_of gm.
Proof.
  intros E E' H L P N. exists (ap_flux gm (s^2)), (ap_flux gm (s'^2)).
  assert (0 < s ^ 2) by (cbn; nra). assert (s ^ 2 <= s' ^ 2) by (cbn; nra).
  split; [apply aperture_flux; auto; lra|]. split; [apply aperture_flux; auto; lra|].
  split; [apply ap_flux_bounds; auto|]. split; [apply ap_flux_mono; auto|]. apply ap_flux_bounds; auto; lra.
Qed.
Lemma sample_proper : proper [gauss2d_set 1 0 0 2 1 2; gauss2d_set 3 0 0 1 0 1] /\ nonneg [gauss2d_set 1 0 0 2 1 2; gauss2d_set 3 0 0 1 0 1].
Proof.
  split; repeat constructor; unfold posdef, det2, gcov, cov, coherent; cbn; try lra; unfold det2, gcov, cov; cbn; lra.
Qed.
