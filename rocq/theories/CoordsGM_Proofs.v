From Coq Require Import String.
From Verif Require Import Base XReal Pixels_Model Jacobian_Model Moments_Model Shape_Spec GMix_Model WSums_Model WSums_Spec Flags_Model MomResult_Model GaussMom_Model
  GaussMom_Spec GaussMom_Proofs Units_Spec Units_Proofs Coords_Spec Coords_Proofs.
Local Open Scope R_scope.

Lemma back_scale c ar z y : 0 < c -> 0 < ar -> xmul (times (c * z) y) (Fin (1 / (c * ar))) = times z (xmul y (Fin (1 / ar))).
Proof.
  intros C A. destruct y; [|  |  |reflexivity].
  - rewrite times_fin. cbn [xmul]. rewrite times_fin. f_equal. field. lra.
  - unfold times. unfold xmul at 1 2 3 4. cbn [xsgn]. assert (P : forall x, 0 < x -> rsgn (1 / x) = SPos) by (intros x X; unfold rsgn; rewrite Rltb_t; [reflexivity|apply Rdiv_lt_0_compat; lra]).
    rewrite rsgn_scale, !P by (try apply Rmult_lt_0_compat; assumption). destruct (rsgn z); reflexivity.
  - unfold times. unfold xmul at 1 2 3 4. cbn [xsgn]. assert (P : forall x, 0 < x -> rsgn (1 / x) = SPos) by (intros x X; unfold rsgn; rewrite Rltb_t; [reflexivity|apply Rdiv_lt_0_compat; lra]).
    rewrite rsgn_scale, !P by (try apply Rmult_lt_0_compat; assumption). destruct (rsgn z); reflexivity.
Qed.

Section GM.
Variables a f : R.
Hypothesis A : a <> 0.
Hypothesis FF : f * f = 1.

Lemma area_coords j j' : jac_coords a f j j' -> get_area j' = a ^ 2 * get_area j.
Proof. intros (_ & _ & _ & _ & _ & _ & _ & E). unfold get_area. rewrite E, Rpow_mult_distr. f_equal. rewrite <- Rsqr_pow2, <- Rsqr_abs, Rsqr_pow2. reflexivity. Qed.
Lemma made_coords r0 c0 vr vc ur uc : jac_coords a f (finish_init r0 c0 vr vc ur uc) (finish_init r0 c0 (a * vr) (a * vc) (f * a * ur) (f * a * uc)).
Proof.
  unfold jac_coords, finish_init; cbn. repeat (split; [reflexivity|]).
  replace (a * vr * (f * a * uc) - a * vc * (f * a * ur)) with (f * a ^ 2 * (vr * uc - vc * ur)) by ring. split; [ring|].
  rewrite !Rabs_mult, (fabs f FF), <- RPow_abs, Rmult_1_l. rewrite sqrt_mult by (try apply pow2_ge_0; apply Rabs_pos). rewrite sqrt_pow2 by apply Rabs_pos. reflexivity.
Qed.

Lemma result_coords ar q q' : 0 < ar -> coords_gaussmom (a ^ 2) a f q q' ->
  coords_gaussmom 1 a f (scale_result (Fin (1 / ar)) q) (scale_result (Fin (1 / (a ^ 2 * ar))) q').
Proof.
  intros P (N & W & F1 & F2 & F3 & F4 & F5 & F6 & F7 & F8 & F9 & F10 & F11 & F12 & F13 & F14 & F15 & F16 & F17 & F18 & F19).
  pose proof (a2 a A) as A2.
  assert (B1 : forall y, xmul (times (a ^ 2) y) (Fin (1 / (a ^ 2 * ar))) = times 1 (xmul y (Fin (1 / ar)))).
  { intros. rewrite <- back_scale with (c := a ^ 2) by assumption. rewrite Rmult_1_r. reflexivity. }
  unfold coords_gaussmom, scale_result; cbn [q_npix q_wsum q_mom]. rewrite N, W. split; [reflexivity|]. split; [apply B1|].
  unfold coords_moments; cbn [m_flags m_flux m_sums m_cov m_sums_norm m_flux_flags m_T_flags m_flux_err m_T m_T_err m_s2n m_e1 m_e2 m_e_err m_sums_err m_pars m_named sm_n sm_at].
  rewrite F1, F2, F3, F4, F5, F6, F7, F8, F9, F10, F11, F13, F14, !map_length.
  repeat (split; [reflexivity|]). split; [apply B1|]. split; [apply B1|]. split; [exact F12|]. split; [apply B1|]. split; [reflexivity|].
  split. { intros i. rewrite !nth_map_nan by reflexivity. rewrite F15, Rmult_1_l. apply back_scale; assumption. }
  split. { intros i k Hi Hk. rewrite F16 by assumption. cbn [xmul]. rewrite !Rmult_1_l.
    replace (1 / (a ^ 2 * ar) * (1 / (a ^ 2 * ar))) with (1 / ((a ^ 2 * a ^ 2) * (ar * ar))) by (field; lra).
    replace (1 / ar * (1 / ar)) with (1 / (ar * ar)) by (field; lra).
    replace (a ^ 2 * factor a f i * (a ^ 2 * factor a f k)) with ((a ^ 2 * a ^ 2) * (factor a f i * factor a f k)) by ring.
    apply back_scale; apply Rmult_lt_0_compat; assumption. }
  split. { intros i. rewrite !nth_map_nan by reflexivity. rewrite F17, Rmult_1_l. apply back_scale; assumption. }
  split; [|exact F19].
  unfold coords_pars in *. destruct (m_pars (q_mom q)) as [[|p1 [|p2 [|p3 [|p4 [|p5 [|p6 [|p7 p]]]]]]]|], (m_pars (q_mom q')) as [p'|]; try contradiction; [|exact I].
  rewrite F18. unfold scale_par5. cbn [List.length seq combine map fst snd Nat.eqb]. rewrite B1. reflexivity.
Qed.

Variables px px' : list (pixel R).
Hypothesis P : pix_coords a f px px'.
Variable T : R.
Hypothesis HT : 0 < T.

Lemma weight_coords p p' : px_v p' = a * px_v p -> px_u p' = f * a * px_u p -> gauss_weight (a ^ 2 * T) p' = gauss_weight T p.
Proof.
  intros V U. unfold gauss_weight. f_equal. rewrite V, U.
  replace (a * px_v p * (a * px_v p) + f * a * px_u p * (f * a * px_u p)) with (a ^ 2 * (px_v p * px_v p + (f * f) * (px_u p * px_u p))) by ring. rewrite FF. field. split; [lra|exact A].
Qed.
Lemma moment_coords p p' k : (k < 17)%nat -> px_v p' = a * px_v p -> px_u p' = f * a * px_u p -> mfun k p' = factor a f k * mfun k p.
Proof.
  intros K V U. assert (F3 : f ^ 2 = 1) by (rewrite <- FF; ring). assert (F4 : f ^ 3 = f) by (replace (f ^ 3) with (f ^ 2 * f) by ring; rewrite F3; ring).
  unfold mfun, moment, rad2, cmod2, offset, cpow, cmul, cone, gauss_zero. unfold factor.
  assert (E : exists s, f = s /\ (s = 1 \/ s = -1)). { exists f. split; [reflexivity|]. assert (Z : (f - 1) * (f + 1) = 0) by (ring_simplify; lra). apply Rmult_integral in Z. lra. }
  destruct E as (s & -> & [-> | ->]);
  do 17 (destruct k as [|k]; [cbn [g_row g_col fst snd odd_u existsb Nat.eqb orb degree nth]; rewrite ?V, ?U; ring|]); lia.
Qed.

Lemma near_coords : pix_coords a f (near T px) (near (a ^ 2 * T) px').
Proof.
  pose proof (a2 a A) as A2. unfold near. revert P. unfold pix_coords. intros P'. induction P' as [|p p' l l' HP _ IH]; cbn [filter]; [constructor|].
  pose proof HP as (V & U & _).
  assert (E : px_v p' * px_v p' + px_u p' * px_u p' = a ^ 2 * (px_v p * px_v p + px_u p * px_u p)).
  { rewrite V, U. transitivity (a ^ 2 * (px_v p * px_v p + (f * f) * (px_u p * px_u p))); [ring|rewrite FF; ring]. }
  rewrite E. set (r := px_v p * px_v p + px_u p * px_u p). assert (EQ : 10000 * (a ^ 2 * T / 2) = a ^ 2 * (10000 * (T / 2))) by field.
  destruct (Rlt_dec r (10000 * (T / 2))), (Rlt_dec (a ^ 2 * r) (10000 * (a ^ 2 * T / 2))).
  - constructor; [exact HP|exact IH].
  - exfalso. apply n. rewrite EQ. apply Rmult_lt_compat_l; assumption.
  - exfalso. apply n. apply Rmult_lt_reg_l with (a ^ 2); [exact A2|rewrite <- EQ; assumption].
  - exact IH.
Qed.
Lemma sum_coords (g g' : pixel R -> R) k l l' : pix_coords a f l l' ->
  (forall p p', px_v p' = a * px_v p -> px_u p' = f * a * px_u p -> px_val p' = px_val p -> px_ierr p' = px_ierr p -> g' p' = k * g p) ->
  rsum (map g' l') = k * rsum (map g l).
Proof.
  intros H G. induction H as [|p p' l l' (V & U & _ & X & I) _ IH]; cbn [map]; rewrite ?rsum_nil, ?rsum_cons; [ring|]. rewrite IH, (G p p' V U X I). ring.
Qed.
Lemma msum_coords k : (k < 17)%nat -> msum (a ^ 2 * T) px' k = factor a f k * msum T px k.
Proof.
  intros K. unfold msum. apply sum_coords with (1 := near_coords). intros p p' V U X _. rewrite (weight_coords p p' V U), (moment_coords p p' k K V U), X. ring.
Qed.
Lemma mcov_coords k m : (k < 17)%nat -> (m < 17)%nat -> mcov (a ^ 2 * T) px' k m = factor a f k * factor a f m * mcov T px k m.
Proof.
  intros K M. unfold mcov. apply sum_coords with (1 := near_coords). intros p p' V U _ I. rewrite (weight_coords p p' V U), (moment_coords p p' k K V U), (moment_coords p p' m M V U), I. ring.
Qed.
Lemma mnorm_coords : mnorm (a ^ 2 * T) px' = mnorm T px.
Proof.
  unfold mnorm. rewrite <- (Rmult_1_l (rsum (map (gauss_weight T) _))). apply sum_coords with (1 := near_coords). intros p p' V U _ _. rewrite (weight_coords p p' V U). ring.
Qed.
End GM.

Section Go.
Variables a f : R.
Hypothesis A : a <> 0.
Hypothesis FF : f * f = 1.
Lemma size_coords fwhm : fwhm_to_T (Rabs a * fwhm) = a ^ 2 * fwhm_to_T fwhm.
Proof.
  unfold fwhm_to_T, fwhm_to_sigma. replace (Rabs a * fwhm / FWHM_FAC) with (Rabs a * (fwhm / FWHM_FAC)) by (unfold Rdiv; ring).
  rewrite Rpow_mult_distr. replace (Rabs a ^ 2) with (a ^ 2) by (rewrite <- !Rsqr_pow2; apply Rsqr_abs). ring.
Qed.
Theorem gaussmom_coords fwhm higher j j' px px' : / 10 ^ 40 <= fwhm -> / 10 ^ 40 <= Rabs a * fwhm -> 0 < get_area j -> jac_coords a f j j' ->
  pixels_of j px -> pix_coords a f px px' ->
  exists q q', gaussmom fwhm higher (GObs px j) = Ok q /\ gaussmom (Rabs a * fwhm) higher (GObs px' j') = Ok q' /\
    coords_gaussmom (if Z.eqb (m_flags (q_mom q)) 0 then 1 else a ^ 2) a f q q'.
Proof.
  intros S1 S2 AR J PO PC. pose proof (a2 a A) as A2. pose proof (area_coords a f j j' J) as EA.
  assert (PO' : pixels_of j' px').
  { unfold pixels_of in *. revert PC PO. unfold pix_coords. intros PC. induction PC as [|p p' l l' (_ & _ & X & _ & I) _ IH]; intros H; [constructor|].
    apply Forall_cons_iff in H. destruct H as [[H1 H2] H]. constructor; [|apply IH, H]. rewrite X, I, EA, H1. split; [reflexivity|exact H2]. }
  destruct (weight_made fwhm S1) as (w & Ew & W). destruct (weight_made _ S2) as (w' & Ew' & W').
  assert (B1 := size_big fwhm S1). assert (B2 := size_big _ S2). rewrite size_coords in W', B2. set (T := fwhm_to_T fwhm) in *.
  assert (HT : 0 < T). { assert (0 < / 10 ^ 100) by (apply Rinv_0_lt_compat, pow_lt; lra). lra. }
  destruct (raw_sums T w j px higher B1 W PO) as (s & Es & N & Nw & Ns & Nc).
  destruct (raw_sums _ w' j' px' higher B2 W' PO') as (s' & Es' & N' & Nw' & Ns' & Nc').
  assert (LN : (nmom higher <= 17)%nat) by (unfold nmom; destruct higher; lia).
  rewrite mnorm_coords with (a := a) (f := f) (px := px) (T := T) in Nw' by assumption.
  assert (M := mom_coords a f A FF (nmom higher) (ws_sums s) (ws_sums s') (ws_cov s) (ws_cov s')).
  assert (HS : forall i, (i < nmom higher)%nat -> ws_sums s' i = a ^ 2 * factor a f i * ws_sums s i).
  { intros i Hi. rewrite Ns, Ns', EA by exact Hi. rewrite (msum_coords a f A FF px px' PC T HT) by lia. ring. }
  assert (HC : forall i k, (i < nmom higher)%nat -> (k < nmom higher)%nat -> ws_cov s' i k = a ^ 2 * factor a f i * (a ^ 2 * factor a f k) * ws_cov s i k).
  { intros i k Hi Hk. rewrite Nc, Nc', EA by assumption. rewrite (mcov_coords a f A FF px px' PC T HT) by lia. ring. }
  specialize (M HS HC). assert (H6 : nmom higher = 6%nat \/ nmom higher = 17%nat) by (unfold nmom; destruct higher; auto).
  specialize (M H6 (ws_wsum s) (ws_wsum s')). assert (HW : ws_wsum s' = a ^ 2 * ws_wsum s) by (rewrite Nw, Nw', EA; ring). specialize (M HW).
  assert (NP : ws_npix s' = ws_npix s).
  { rewrite N, N'. pose proof (near_coords a f A FF px px' PC T) as NC. clear -NC. induction NC; cbn; congruence. }
  unfold gaussmom. rewrite Ew, Ew'. cbn [bind measure_moments]. rewrite Es, Es'. cbn [bind]. unfold get_weighted_moments_stats.
  fold (nmom higher). set (mr := make_mom_result _ _ (Some (Fin (ws_wsum s)))) in *. set (mr' := make_mom_result _ _ (Some (Fin (ws_wsum s')))) in *.
  assert (OK : exists r, mr = Ok r).
  { unfold mr.
    destruct (MomResult_Proofs.mom_result_full (map (fun i => Fin (ws_sums s i)) (seq 0 (nmom higher))) (mkSmat (nmom higher) (fun i j => Fin (ws_cov s i j))) (Some (Fin (ws_wsum s)))) as (r' & Er & _); [|exists r'; exact Er].
    unfold MomResult_Spec.shapes_ok. rewrite map_length, seq_length. cbn [sm_n]. unfold nmom. destruct higher; cbn; lia. }
  destruct OK as [r OK]. rewrite OK in *. destruct mr' as [r'|]; [|contradiction M]. cbn [same_outcome] in M. cbn [bind q_mom].
  pose proof M as (FL & _). rewrite FL.
  assert (Q : coords_gaussmom (a ^ 2) a f (mkGres (ws_npix s) (Fin (ws_wsum s)) r) (mkGres (ws_npix s') (Fin (ws_wsum s')) r')).
  { unfold coords_gaussmom; cbn [q_npix q_wsum q_mom]. rewrite HW. auto. }
  destruct (Z.eqb (m_flags r) 0) eqn:E; cbn [negb]; (eexists; eexists; split; [reflexivity|split; [reflexivity|]]); cbn [q_mom m_flags scale_result]; rewrite E.
  - unfold xdiv. rewrite !Reqb_f by (try rewrite EA; nra). rewrite EA. apply result_coords; assumption.
  - exact Q.
Qed.

(** ** pixels of an observation *)
Definition cpix_rel (p p' : pixel R) : Prop := px_v p' = a * px_v p /\ px_u p' = f * a * px_u p /\ px_area p' = a ^ 2 * px_area p /\ px_val p' = px_val p /\ px_ierr p' = px_ierr p.
Lemma crel_length l l' : Forall2 cpix_rel l l' -> List.length l' = List.length l.
Proof. induction 1; cbn; congruence. Qed.
Lemma cupd_rel l l' i p p' : Forall2 cpix_rel l l' -> cpix_rel p p' -> Forall2 cpix_rel (upd l i p) (upd l' i p').
Proof. intros H. revert i. induction H as [|x x' l l' HA H IH]; intros [|i] HP; cbn; constructor; auto. Qed.
Lemma czeros_rel n : Forall2 cpix_rel (zeros_pixels R 0 n) (zeros_pixels R 0 n).
Proof. unfold zeros_pixels. induction n; cbn [repeat]; constructor; [|exact IHn]. unfold cpix_rel; cbn. repeat split; ring. Qed.
Theorem pixels_coords im w j j' ig : jac_coords a f j j' -> same_outcome (pix_coords a f) (make_pixels im w j ig) (make_pixels im w j' ig).
Proof.
  intros J. pose proof (area_coords a f j j' J) as EA. destruct J as (J1 & J2 & J3 & J4 & J5 & J6 & J7 & J8).
  unfold make_pixels, make_pixels_gen. match goal with |- context [bind ?x _] => destruct x as [n|e] end; cbn [bind]; [|reflexivity].
  unfold fill_pixels. apply same_bind with (P := fun x x' => Forall2 cpix_rel (fst x) (fst x') /\ snd x' = snd x).
  2:{ intros [l i] [l' i'] [X Y]. cbn [fst snd] in X, Y. subst i'. rewrite (crel_length _ _ X). destruct (Nat.eqb _ _); [exact X|reflexivity]. }
  apply same_foldM with (E := eq); [apply Forall2_diag| |split; [apply czeros_rel|reflexivity]].
  intros s s' r r' HS <-. apply same_foldM with (E := eq); [apply Forall2_diag| |exact HS].
  clear s s' HS. intros [l i] [l' i'] c c' [X Y] <-. cbn [fst snd] in X, Y. subst i'. unfold fill_body.
  destruct (_ && _)%bool; [split; [exact X|reflexivity]|]. unfold get_vu. rewrite J1, J2, J3, J4, J5, J6.
  apply same_bind with (P := Forall2 cpix_rel); [|intros l1 l1' H; split; [exact H|reflexivity]].
  unfold put. rewrite (crel_length _ _ X). destruct (Nat.ltb _ _); [|reflexivity]. cbn [same_outcome]. apply cupd_rel; [exact X|].
  unfold cpix_rel; cbn [px_v px_u px_area px_val px_ierr]. split; [ring|]. split; [ring|]. split; [exact EA|]. split; reflexivity.
Qed.
End Go.
