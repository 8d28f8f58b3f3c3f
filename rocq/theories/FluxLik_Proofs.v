From Verif Require Import Base Moments_Spec Pixels_Model GMix_Model GMix_Spec GMix_Proofs Render_Model Render_Spec Render_Proofs ConvAlg_Proofs FastExp_Model FluxLik_Spec.
Local Open Scope R_scope.

(** components as the evaluation sees them, with [a] times the flux *)
Definition lit (a : R) (g g' : gauss) : Prop :=
  norms_right g /\ norms_right g' /\ g_p g' = g_p g * a /\ g_row g' = g_row g /\ g_col g' = g_col g /\ g_irr g' = g_irr g /\ g_irc g' = g_irc g /\ g_icc g' = g_icc g /\ g_det g' = g_det g.
Lemma lit_eval a g g' v u area : lit a g g' -> exists x, gauss2d_eval_pixel_fast g v u area = Ok x /\ gauss2d_eval_pixel_fast g' v u area = Ok (a * x).
Proof.
  intros ((_ & n & N & N1 & N2 & N3 & _ & N5) & (_ & m & M & M1 & M2 & M3 & _ & M5) & P & A & B & C & D & E & F). unfold gauss2d_eval_pixel_fast. rewrite N, M, A, B.
  replace (gauss_chi2 m (v - g_row g) (u - g_col g)) with (gauss_chi2 n (v - g_row g) (u - g_col g)) by (unfold gauss_chi2; rewrite N1, N2, N3, M1, M2, M3, C, D, E, F; reflexivity).
  rewrite N5, M5, P, F. cbv zeta. set (t := gauss_chi2 _ _ _). unfold FASTEXP_MAX_CHI2. destruct (Rltb_spec t 25); cbn [andb]; [|exists 0; split; [reflexivity|f_equal; ring]].
  destruct (Rleb_spec 0 t); [|exists 0; split; [reflexivity|f_equal; ring]]. destruct (FastExp_Proofs.fexp_spec (- (5/10) * t) ltac:(lra)) as (y & -> & _). cbn [bind].
  eexists. split; [reflexivity|]. f_equal. unfold Rdiv. ring.
Qed.
Lemma lit_fast a d e v u area : Forall2 (lit a) d e -> fastval e v u area = a * fastval d v u area.
Proof.
  intros H. assert (X : forall s s', s' = a * s -> exists y, foldM (fun m g => let* x := gauss2d_eval_pixel_fast g v u area in Ok (m + x)) d s = Ok y /\
    foldM (fun m g => let* x := gauss2d_eval_pixel_fast g v u area in Ok (m + x)) e s' = Ok (a * y)).
  { induction H as [|g g' d e L _ IH]; intros s s' ->; cbn [foldM]; [eauto|]. destruct (lit_eval _ _ _ v u area L) as (x & -> & ->). cbn [bind]. apply IH. ring. }
  destruct (X 0 0 ltac:(ring)) as (y & Y & Y'). unfold fastval, gmix_eval_pixel_fast. rewrite Y, Y'. reflexivity.
Qed.
Lemma same_parts d d1 : same_gmix d d1 -> Forall norms_right d1 -> forall a e e1, e = map (scale_gauss a) d -> same_gmix e e1 -> Forall norms_right e1 -> Forall2 (lit a) d1 e1.
Proof.
  intros H. induction H as [|g g1 d d1 S _ IH]; intros N a e e1 -> T M; cbn [map] in T; inversion T as [|? h ? t S' T']; subst; [constructor|].
  inversion N; inversion M; subst. constructor; [|eapply IH; eauto]. unfold same_gauss, scale_gauss in *. cbn in S'. destruct S as (S1 & S2 & S3 & S4 & S5 & S6 & S7), S' as (T1 & T2 & T3 & T4 & T5 & T6 & T7).
  split; [assumption|]. split; [assumption|]. rewrite <- T1, <- S1. intuition congruence.
Qed.
Lemma set_flux_good d f e : good_gmix d -> gm_set_flux d f = Some e -> good_gmix e.
Proof.
  intros (G1 & G2 & G3 & G4) E. apply set_flux_inv in E. destruct E as [_ ->].
  split; [destruct d; [congruence|discriminate]|]. split; [|split].
  - apply Forall_map. eapply Forall_impl; [|exact G2]. intros g C. exact C.
  - apply Forall_map. eapply Forall_impl; [|exact G3]. intros g C. exact C.
  - intros g rest E Hs. destruct d as [|g0 d]; [discriminate|]. cbn [map] in E. injection E as <- _. discriminate Hs.
Qed.

Lemma loglike_closed gm gm' px (m : pixel R -> R) : set_norms_if_needed gm = (gm', Ok tt) ->
  (forall p, m p = fastval gm' (px_v p) (px_u p) (px_area p)) ->
  get_loglike gm px = (gm', Ok (- rsum (map (fun p => ((m p - px_val p) * px_ierr p) ^ 2) px) / 2, rsum (map (fun p => px_val p * m p * px_ierr p ^ 2) px), rsum (map (fun p => m p ^ 2 * px_ierr p ^ 2) px), length px)) /\
  get_model_s2n gm px = (gm', Ok (sqrt (rsum (map (fun p => m p ^ 2 * px_ierr p ^ 2) px)))).
Proof.
  intros H HM. destruct (likelihood_spec gm gm' px (repeat 0 (length px)) 0 H) as (model & M & _ & E & _ & E2); [rewrite repeat_length; lia|]. rewrite E, E2.
  assert (X : forall p, model p = m p). { intros p. specialize (M p). rewrite fastval_eq in M. injection M as M. rewrite HM. symmetry. exact M. }
  assert (A : forall f f' : pixel R -> R, (forall p, f p = f' p) -> rsum (map f px) = rsum (map f' px)) by (intros f f' Q; f_equal; apply map_ext; exact Q).
  rewrite (A (fun p => ((model p - _) * _) ^ 2) (fun p => ((m p - px_val p) * px_ierr p) ^ 2)) by (intros p; rewrite X; reflexivity).
  rewrite (A (fun p => px_val p * model p * _) (fun p => px_val p * m p * px_ierr p ^ 2)) by (intros p; rewrite X; reflexivity).
  rewrite (A (fun p => model p ^ 2 * _) (fun p => m p ^ 2 * px_ierr p ^ 2)) by (intros p; rewrite X; reflexivity). split; reflexivity.
Qed.
Lemma parabola_sum (m : pixel R -> R) px a : - rsum (map (fun p => ((a * m p - px_val p) * px_ierr p) ^ 2) px) / 2 =
  parabola (empty_loglike px) (rsum (map (fun p => px_val p * m p * px_ierr p ^ 2) px)) (rsum (map (fun p => m p ^ 2 * px_ierr p ^ 2) px)) a.
Proof. unfold parabola, empty_loglike. induction px as [|p px IH]; cbn [map]; rewrite ?rsum_nil, ?rsum_cons; lra. Qed.
Lemma rsum_factor {A} (f : A -> R) k l : rsum (map (fun x => k * f x) l) = k * rsum (map f l).
Proof. induction l as [|x l IH]; cbn [map]; rewrite ?rsum_nil, ?rsum_cons; [ring|]. rewrite IH. ring. Qed.

Theorem loglike_flux gm px gm1 l num den n F gm2 : good_gmix gm -> get_loglike gm px = (gm1, Ok (l, num, den, n)) -> gm_set_flux gm F = Some gm2 ->
  let a := F / flux_of gm in
  l = parabola (empty_loglike px) num den 1 /\ 0 <= den /\
  (exists gm3, get_loglike gm2 px = (gm3, Ok (parabola (empty_loglike px) num den a, a * num, a ^ 2 * den, n))) /\
  snd (get_model_s2n gm px) = Ok (sqrt den) /\ snd (get_model_s2n gm2 px) = Ok (Rabs a * sqrt den).
Proof.
  intros G E S a. pose proof (set_flux_good _ _ _ G S) as G2. destruct (norms_if_needed _ G) as (d & D & D1 & D2). destruct (norms_if_needed _ G2) as (e & Ee & E1 & E2).
  pose proof (set_flux_inv _ _ _ S) as [_ EQ]. pose proof (same_parts _ _ D1 D2 _ _ _ EQ E1 E2) as LIT. fold a in LIT.
  remember (fun p : pixel R => fastval d (px_v p) (px_u p) (px_area p)) as m eqn:Hm.
  assert (M : forall p, a * m p = fastval e (px_v p) (px_u p) (px_area p)) by (intros p; rewrite Hm; symmetry; apply lit_fast; exact LIT).
  destruct (loglike_closed gm d px m D ltac:(intros p; rewrite Hm; reflexivity)) as [L LS]. destruct (loglike_closed gm2 e px _ Ee M) as [L2 L2S]. rewrite L in E.
  assert (Q1 : l = - rsum (map (fun p => ((m p - px_val p) * px_ierr p) ^ 2) px) / 2) by congruence.
  assert (Q2 : num = rsum (map (fun p => px_val p * m p * px_ierr p ^ 2) px)) by congruence.
  assert (Q3 : den = rsum (map (fun p => m p ^ 2 * px_ierr p ^ 2) px)) by congruence.
  assert (Q4 : n = length px) by congruence. clear E. subst l num den n.
  assert (DEN : rsum (map (fun p => (a * m p) ^ 2 * px_ierr p ^ 2) px) = a ^ 2 * rsum (map (fun p => m p ^ 2 * px_ierr p ^ 2) px)).
  { rewrite <- rsum_factor. f_equal. apply map_ext. intros p. ring. }
  split; [rewrite <- (parabola_sum m px 1); do 3 f_equal; apply map_ext; intros p; ring|].
  assert (P : 0 <= rsum (map (fun p => m p ^ 2 * px_ierr p ^ 2) px)). { clear. induction px as [|p px IH]; cbn [map]; rewrite ?rsum_nil, ?rsum_cons; [lra|]. pose proof (pow2_ge_0 (m p * px_ierr p)). nra. }
  split; [exact P|]. split.
  - exists e. rewrite L2, (parabola_sum m px a), DEN.
    assert (NUM : rsum (map (fun p => px_val p * (a * m p) * px_ierr p ^ 2) px) = a * rsum (map (fun p => px_val p * m p * px_ierr p ^ 2) px)) by (rewrite <- rsum_factor; f_equal; apply map_ext; intros p; ring).
    rewrite NUM. reflexivity.
  - rewrite LS, L2S. cbn [snd]. split; [reflexivity|]. f_equal. rewrite DEN, sqrt_mult_alt by apply pow2_ge_0. f_equal. rewrite <- Rsqr_pow2. apply sqrt_Rsqr_abs.
Qed.

Lemma loglike_neg gm px gm1 l num den n : get_loglike gm px = (gm1, Ok (l, num, den, n)) -> good_gmix gm -> l <= 0.
Proof.
  intros E G. destruct (norms_if_needed _ G) as (d & D & _). destruct (loglike_closed gm d px _ D (fun p => eq_refl)) as [L _]. rewrite L in E. match type of E with (_, Ok (?x, _, _, _)) = _ => assert (Q : l = x) by congruence end. rewrite Q. clear E Q.
  assert (X : forall f : pixel R -> R, 0 <= rsum (map (fun p => f p ^ 2) px)). { intros f. clear. induction px as [|p px IH]; cbn [map]; rewrite ?rsum_nil, ?rsum_cons; [lra|]. pose proof (pow2_ge_0 (f p)). lra. }
  specialize (X (fun p => (fastval d (px_v p) (px_u p) (px_area p) - px_val p) * px_ierr p)). cbv beta in X. lra.
Qed.
Theorem loglike_best gm px gm1 l num den n : good_gmix gm -> flux_of gm <> 0 -> get_loglike gm px = (gm1, Ok (l, num, den, n)) -> 0 < den ->
  let best := flux_of gm * num / den in
  exists gmb gmc lb nb, gm_set_flux gm best = Some gmb /\ get_loglike gmb px = (gmc, Ok (lb, nb, nb, n)) /\ lb = empty_loglike px + num ^ 2 / den / 2 /\ lb <= 0 /\
    (num / sqrt den) ^ 2 <= - 2 * empty_loglike px /\
    forall F gm2, gm_set_flux gm F = Some gm2 -> exists gm3 l2 n2 d2, get_loglike gm2 px = (gm3, Ok (l2, n2, d2, n)) /\ (F <> best -> l2 < lb) /\
      (0 < F / flux_of gm -> n2 / sqrt d2 = num / sqrt den).
Proof.
  intros G NF E D best. assert (FE : forall F, exists e, gm_set_flux gm F = Some e). { intros F. unfold gm_set_flux, np_div. fold (flux_of gm). rewrite Reqb_f by exact NF. eauto. }
  destruct (FE best) as [gmb B]. destruct (loglike_flux _ _ _ _ _ _ _ _ _ G E B) as (_ & _ & (gmc & LB) & _). cbv zeta in LB.
  replace (best / flux_of gm) with (num / den) in LB by (unfold best; field; split; lra).
  replace (num / den * num) with ((num / den) ^ 2 * den) in LB by (field; lra).
  pose proof (loglike_neg _ _ _ _ _ _ _ LB (set_flux_good _ _ _ G B)) as NG.
  assert (V : parabola (empty_loglike px) num den (num / den) = empty_loglike px + num ^ 2 / den / 2) by (unfold parabola; field; lra).
  eexists gmb, gmc, _, _. split; [exact B|]. split; [exact LB|]. split; [exact V|]. split; [exact NG|]. split.
  { unfold Rdiv. rewrite Rpow_mult_distr, pow_inv, pow2_sqrt by lra. rewrite V in NG. unfold Rdiv in NG. lra. }
  intros F gm2 S. destruct (loglike_flux _ _ _ _ _ _ _ _ _ G E S) as (_ & _ & (gm3 & L3) & _). cbv zeta in L3. eexists gm3, _, _, _. split; [exact L3|]. split.
  - intros NE. assert (X : F / flux_of gm - num / den <> 0).
    { intros X. apply NE. unfold best. replace F with (F / flux_of gm * flux_of gm) by (field; exact NF). replace (F / flux_of gm) with (num / den) by lra. field. lra. }
    rewrite V. unfold parabola. set (a := F / flux_of gm) in *. assert (Y : 0 < (a - num / den) ^ 2) by (rewrite <- Rsqr_pow2; apply Rsqr_pos_lt; exact X).
    assert (Z : 0 < den * (a - num / den) ^ 2) by (apply Rmult_lt_0_compat; assumption).
    replace (den * (a - num / den) ^ 2) with (a ^ 2 * den - 2 * (a * num) + num ^ 2 / den) in Z by (field; lra). lra.
  - intros P. set (a := F / flux_of gm) in *. rewrite sqrt_mult_alt by apply pow2_ge_0. rewrite sqrt_pow2 by lra. assert (0 < sqrt den) by (apply sqrt_lt_R0; exact D). field. lra.
Qed.
Theorem fdiff_flux gm px fd start : good_gmix gm -> (start + length px <= length fd)%nat -> exists model : pixel R -> R,
  let filled c := firstn start fd ++ map (fun p => (c * model p - px_val p) * px_ierr p) px ++ skipn (start + length px) fd in
  snd (fill_fdiff gm px fd start) = Ok (filled 1) /\
  forall F gm2, gm_set_flux gm F = Some gm2 -> snd (fill_fdiff gm2 px fd start) = Ok (filled (F / flux_of gm)).
Proof.
  intros G H. destruct (norms_if_needed _ G) as (d & D & D1 & D2). exists (fun p => fastval d (px_v p) (px_u p) (px_area p)). cbv zeta. split.
  - destruct (likelihood_spec gm d px fd start D H) as (model & M & E & _). rewrite E. cbn [snd]. do 3 f_equal. apply map_ext. intros p. specialize (M p). rewrite fastval_eq in M.
    assert (Q : model p = fastval d (px_v p) (px_u p) (px_area p)) by congruence. rewrite Q. ring.
  - intros F gm2 S. pose proof (set_flux_good _ _ _ G S) as G2. destruct (norms_if_needed _ G2) as (e & Ee & E1 & E2). pose proof (set_flux_inv _ _ _ S) as [_ EQ]. pose proof (same_parts _ _ D1 D2 _ _ _ EQ E1 E2) as LIT.
    destruct (likelihood_spec gm2 e px fd start Ee H) as (model & M & E & _). rewrite E. cbn [snd]. do 3 f_equal. apply map_ext. intros p. specialize (M p). rewrite fastval_eq in M.
    assert (Q : model p = fastval e (px_v p) (px_u p) (px_area p)) by congruence. rewrite Q, (lit_fast _ _ _ _ _ _ LIT). reflexivity.
Qed.
