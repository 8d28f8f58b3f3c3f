From Verif Require Import Base XReal Moments_Spec Pixels_Model Jacobian_Model Jacobian_Spec GMix_Model GMix_Spec GMix_Proofs FastExp_Model FastExp_Proofs Render_Model Render_Spec Render_Proofs GMixObj_Model GMixObj_Spec GMixObj_Proofs Flags_Model
  EM_Model EM_Spec EM_Proofs EMIter_Proofs EMLoop_Proofs EMGo_Proofs EMResult_Proofs EMCex_Proofs EMPrep_Proofs EMExample_Proofs Units_Spec Units_Proofs FitUnits_Proofs Motion_Spec Motion_Proofs MotionCex_Proofs EMTurn_Spec EMTurn_Proofs EMTurn2_Proofs EMTurnPos_Proofs.
Local Open Scope R_scope.

(** ** a call without psf *)
Lemma call_pos f m obs guess sky : (forall i, eo_psf obs <> Some (Some i)) ->
  (forall px s, data_given m obs sky px s -> 0 <= s /\ Forall (fun p => 0 <= px_val p /\ 0 <= px_area p) px) ->
  (forall G, guess_given m guess G -> Forall (fun g => 0 <= g_p g) G) -> call_definite f m obs guess sky.
Proof.
  intros NP HD HG px s G P DG GG PG. destruct (HD px s DG) as [S B].
  assert (EP : P = point) by (unfold psf_given in PG; destruct (eo_psf obs) as [[i|]|]; [destruct (NP i); reflexivity|exact PG|exact PG]). subst P.
  apply run_pos; [exact B|exact S|apply HG; exact GG].
Qed.

(** ** two pixels on opposite sides of the centre *)
Definition psf2 : gmix := [gauss2d_set 1 0 0 (/ 4) 0 (/ 4)].
Definition guess2 : gmix := [gauss2d_set 1 0 0 1 0 1].
Definition two (x y : R) : list (pixel R) := [mkPix y x 1 1 1; mkPix (- y) (- x) 1 1 1].
Definition conf2 : em_conf := mkConf (10 ^ 14) 2 1 0 false.
Lemma psf2_flux : flux_of psf2 = 1. Proof. unfold flux_of, psf2. cbn. lra. Qed.
Lemma views2 i p : views psf2 [gauss2d_set p 0 0 i 0 i] = [gauss2d_set p 0 0 (i + / 4) 0 (i + / 4)].
Proof.
  unfold views. cbn [flat_map map psf2 app]. fold psf2. unfold seen. rewrite psf2_flux.
  assert (R0 : row_of psf2 = 0) by (unfold row_of, mean_of; rewrite psf2_flux; unfold psf2; cbn; lra).
  assert (C0 : col_of psf2 = 0) by (unfold col_of, mean_of; rewrite psf2_flux; unfold psf2; cbn; lra).
  rewrite R0, C0. cbn [gauss2d_set g_p g_row g_col g_irr g_irc g_icc]. f_equal. f_equal; lra.
Qed.
Lemma moms2 : gmix_get_moms psf2 = Ok (0, 0, / 4, 0, / 4, 1).
Proof.
  unfold gmix_get_moms. pose proof psf2_flux as F. rewrite cen_nb, F, Reqb_f by lra. cbn [bind].
  assert (R0 : row_of psf2 = 0) by (unfold row_of, mean_of; rewrite psf2_flux; unfold psf2; cbn; lra).
  assert (C0 : col_of psf2 = 0) by (unfold col_of, mean_of; rewrite psf2_flux; unfold psf2; cbn; lra).
  rewrite R0, C0, Reqb_f by lra. unfold psf2. cbn [fold_left gauss2d_set g_p g_row g_col g_irr g_irc g_icc]. repeat (f_equal; try lra).
Qed.
Lemma ready2 i p : 0 <= i -> exists h', gmix_set_norms (views psf2 [gauss2d_set p 0 0 i 0 i]) = ([h'], Ok tt) /\ visible (gauss2d_set p 0 0 (i + / 4) 0 (i + / 4)) h'.
Proof.
  intros I. destruct (norms_ok (views psf2 [gauss2d_set p 0 0 i 0 i]) (views_coherent _ _)) as (w & E & V).
  - rewrite views2. constructor; [|constructor]. unfold evaluable, gcov, cov, det2, trace2. cbn.
    assert (/ 10 ^ 200 <= / 100) by (apply Rinv_le_contravar; [lra|]; replace 100 with (10 ^ 2) by lra; apply Rle_pow; [lra|lia]). split; nra.
  - rewrite views2 in V at 1. inversion V as [|? h' ? l Hh T]; subst. inversion T; subst. exists h'. auto.
Qed.
Definition h2 : gauss := gauss2d_set 1 0 0 (1 + / 4) 0 (1 + / 4).
Lemma dist2_two x y p : x * x + y * y = 1 -> In p (two x y) -> dist2 h2 p = 4 / 5 /\ px_area p = 1 /\ px_val p = 1.
Proof.
  intros H P. unfold dist2, maha, h2, gcov, cov, det2. cbn. destruct P as [<-|[<-|[]]]; cbn; (split; [|split; reflexivity]).
  - replace (4 / 5) with (4 / 5 * (x * x + y * y)) by (rewrite H; ring). field.
  - replace (4 / 5) with (4 / 5 * (x * x + y * y)) by (rewrite H; ring). field.
Qed.
Definition w2 : R := 1 / (2 * PI * sqrt (det2 (gcov h2))) * fast_exp (- (5/10) * (4 / 5)).
Lemma w2_pos : 0 < w2.
Proof.
  unfold w2. assert (0 < fast_exp (- (5/10) * (4/5))).
  { unfold fast_exp. destruct (fexp_spec (- (5/10) * (4/5)) ltac:(lra)) as (y & -> & B). pose proof (exp_pos (- (5/10) * (4/5))). apply Rabs_def2 in B. lra. }
  apply Rmult_lt_0_compat; [|assumption]. apply Rdiv_lt_0_compat; [lra|]. apply Rmult_lt_0_compat; [pose proof PI_RGT_0; lra|]. apply sqrt_lt_R0. unfold det2, gcov, cov, h2. cbn. lra.
Qed.
Lemma pixel2 x y p : x * x + y * y = 1 -> In p (two x y) -> in_pixel h2 p = w2.
Proof.
  intros H P. destruct (dist2_two x y p H P) as (D & A & _). unfold in_pixel. rewrite D, A. destruct (Rlt_dec (4 / 5) 25); [|lra]. unfold w2. cbn [h2 gauss2d_set g_p]. ring.
Qed.
Definition L2 : R := - (5/10) * ln (det2 (gcov h2)) - 5/10 * (4/5).
Lemma scratch2 x y p h' : x * x + y * y = 1 -> In p (two x y) -> visible h2 h' ->
  do_scratch_sums Free p [h'] 1 (set_logtau_logdet [h']) = Ok ([mkScr w2 (px_v p * w2) (px_u p * w2) (px_v p * px_v p * w2) (px_u p * px_v p * w2) (px_u p * px_u p * w2)], w2, Some L2).
Proof.
  intros H P V. pose proof (em_val_eq h2 h' p V) as EV. rewrite (pixel2 x y p H P) in EV. pose proof (log_term_eq h2 h' p V) as LT. rewrite (pixel2 x y p H P) in LT.
  assert (LD : log_dens h2 p = Some (w2 * L2)).
  { unfold log_dens. destruct (dist2_two x y p H P) as (D & _). rewrite D, (pixel2 x y p H P). cbn [h2 gauss2d_set g_p]. fold h2. destruct (Rlt_dec 0 1); [|lra]. rewrite ln_1. unfold L2. f_equal. field. }
  rewrite LD in LT. destruct V as (_ & _ & S & _). destruct S as (_ & S1 & S2 & _). cbn [h2 gauss2d_set g_row g_col] in S1, S2.
  unfold do_scratch_sums. cbn [Nat.eqb length Nat.div Nat.divmod fst seq foldM]. unfold set_logtau_logdet. cbn [map combine]. unfold chunk. cbn [Nat.mul skipn firstn foldM].
  unfold scratch_gauss at 1. cbv zeta. rewrite EV. cbn [bind tracks_cen tracks_cov scr0 s_gi s_tv s_tu s_tv2 s_tuv s_tu2]. rewrite LT. rewrite <- S1, <- S2. cbn [nan_add app].
  rewrite !Rplus_0_l, !Rminus_0_r. rewrite Reqb_f by (pose proof w2_pos; lra). do 2 f_equal. f_equal. field. pose proof w2_pos; lra.
Qed.
Lemma two_run x y i : x * x + y * y = 1 -> fix_cov (x * x - / 4) (y * x) (y * y - / 4) = (i, 0, i) -> 0 <= i ->
  exists out, em_run Free conf2 (two x y) guess2 psf2 (views psf2 guess2) false = Ok out /\ o_numiter out = 1%nat /\ map pars_of (o_gm out) = [(2, 0, 0, i, 0, i)].
Proof.
  intros H FX I. destruct (ready2 1 1 ltac:(lra)) as (h' & E & V). fold h2 in V. unfold em_run, guess2. rewrite E. cbn [bind]. cbv zeta. cbn [c_maxiter conf2 em_loop c_sky].
  destruct (ready2 i 2 I) as (k' & E2 & V2).
  set (pa := mkPix y x 1 1 1 : pixel R). set (pb := mkPix (- y) (- x) 1 1 1 : pixel R).
  assert (Ia : In pa (two x y)) by (left; reflexivity). assert (Ib : In pb (two x y)) by (right; left; reflexivity).
  pose proof w2_pos as W.
  assert (IT : exists st, em_iter Free conf2 psf2 false 0 (mkSt [gauss2d_set 1 0 0 1 0 1] [h'] (two x y) 0 (Some (- (99999 * 10 ^ 8))) None) = Ok (st, true) /\
     map pars_of (e_gm st) = [(2, 0, 0, i, 0, i)] /\ exists d, e_fdiff st = Some d).
  { unfold em_iter. cbn [e_conv e_pix e_gm e_sky e_last e_fdiff bind length repeat]. change (two x y) with [pa; pb]. cbn [foldM]. unfold em_pixel at 1. change (length psf2) with 1%nat.
    rewrite (scratch2 x y pa h' H Ia V). cbn [bind]. cbv zeta. rewrite Rplus_0_r, Reqb_f by lra. cbn [bind]. unfold em_pixel at 1. rewrite (scratch2 x y pb h' H Ib V). cbn [bind]. cbv zeta.
    rewrite Rplus_0_r, Reqb_f by lra. cbn [bind nan_add]. unfold do_sums. cbn [combine map sums0 a_pnew a_v a_u a_v2 a_uv a_u2 s_gi s_tv s_tu s_tv2 s_tuv s_tu2 pa pb px_v px_u px_val].
    set (l := mkSums _ _ _ _ _ _).
    assert (EL : l = mkSums 2 0 0 (2 * (x * x)) (2 * (y * x)) (2 * (y * y))).
    { unfold l. f_equal; field; lra. }
    rewrite EL. unfold gmix_set_from_sums. rewrite moms2. cbn [bind combine mapM]. unfold set_gauss. cbn [a_pnew a_v a_u a_v2 a_uv a_u2]. rewrite Reqb_f by lra. cbv zeta.
    replace (2 * (x * x) * (1 / 2) - / 4) with (x * x - / 4) by field. replace (2 * (y * x) * (1 / 2) - 0) with (y * x) by field. replace (2 * (y * y) * (1 / 2) - / 4) with (y * y - / 4) by field.
    rewrite FX. cbn [bind]. replace (0 * (1 / 2)) with 0 by ring. rewrite convolve_views by (rewrite psf2_flux; lra). cbn [bind]. rewrite E2. cbn [bind c_vary_sky conf2 c_miniter Nat.leb].
    unfold em_test. assert (LL : - 2 <= 0 + L2 + L2 <= - (8 / 10)).
    { unfold L2. assert (DD : det2 (gcov h2) = 25 / 16) by (unfold det2, gcov, cov, h2; cbn; field). rewrite DD.
      assert (0 < ln (25 / 16)) by (rewrite <- ln_1; apply ln_increasing; lra). assert (ln (25 / 16) < 1).
      { rewrite <- (ln_exp 1). apply ln_increasing; [lra|]. pose proof (exp_ineq1 1 ltac:(lra)). lra. } lra. }
    rewrite Reqb_f by lra. cbn [bind]. rewrite Rltb_t.
    - eexists. split; [reflexivity|]. cbn [e_gm e_fdiff map]. split; [reflexivity|]. eexists. reflexivity.
    - cbn [c_tol conf2]. set (L := 0 + L2 + L2) in *. assert (A : Rabs ((L - - (99999 * 10 ^ 8)) / L) * (- L) = Rabs (L - - (99999 * 10 ^ 8))).
      { unfold Rdiv. rewrite Rabs_mult, Rabs_inv. rewrite (Rabs_left L) by lra. field. lra. }
      assert (B : Rabs (L - - (99999 * 10 ^ 8)) <= 10 ^ 13) by (rewrite Rabs_right; lra). pose proof (Rabs_pos ((L - - (99999 * 10 ^ 8)) / L)) as C. nra. }
  destruct IT as (st & -> & G & d & D). cbn [bind]. rewrite D. eexists. split; [reflexivity|]. cbn [o_numiter o_gm]. split; [reflexivity|].
  rewrite <- G, map_map. apply map_ext. reflexivity.
Qed.
Lemma fix_axes : fix_cov (1 * 1 - / 4) (0 * 1) (0 * 0 - / 4) = (/ 10 ^ 4, 0, / 10 ^ 4).
Proof.
  unfold fix_cov. cbv zeta. rewrite (Rltb_f (1 * 1 - / 4) 0) by lra. rewrite (Rltb_t (0 * 0 - / 4) 0) by lra. cbn [orb]. rewrite Rltb_f; [reflexivity|]. unfold GMIX_LOW_DETVAL.
  apply Rle_trans with (/ 10 ^ 8); [|right; field]. apply Rinv_le_contravar; [lra|]. apply Rle_pow; [lra|lia].
Qed.
Lemma fix_diagonal c : c * c = 1 / 2 -> fix_cov (c * c - / 4) (c * c) (c * c - / 4) = (/ 4, 0, / 4).
Proof.
  intros ->. unfold fix_cov. cbv zeta. rewrite (Rltb_f (1 / 2 - / 4) 0) by lra. cbn [orb]. rewrite Rltb_t.
  - f_equal; [f_equal|]; field.
  - unfold GMIX_LOW_DETVAL. assert (0 < / 10 ^ 200) by (apply Rinv_0_lt_compat, pow_lt; lra). lra.
Qed.
Lemma sq_PI4 : cos (PI / 4) * cos (PI / 4) = 1 / 2 /\ sin (PI / 4) = cos (PI / 4).
Proof.
  pose proof cos_PI4 as C. pose proof sin_PI4 as S. split; [|rewrite C, S; reflexivity]. pose proof (sin2_cos2 (PI / 4)) as H. unfold Rsqr in H. rewrite S, <- C in H. lra.
Qed.
Lemma turned_size : exists t px px' gm psf o o', pix_moved t 0 0 px px' /\ Forall2 (gauss_moved 1 t 0 0) gm gm /\ Forall2 (gauss_moved 1 t 0 0) psf psf /\
  em_run Free conf2 px gm psf (views psf gm) false = Ok o /\ em_run Free conf2 px' gm psf (views psf gm) false = Ok o' /\
  (o_numiter o < c_maxiter conf2)%nat /\ (o_numiter o' < c_maxiter conf2)%nat /\
  map pars_of (o_gm o) = [(2, 0, 0, / 10 ^ 4, 0, / 10 ^ 4)] /\ map pars_of (o_gm o') = [(2, 0, 0, / 4, 0, / 4)].
Proof.
  destruct sq_PI4 as [C S]. destruct (two_run 1 0 (/ 10 ^ 4) ltac:(lra) fix_axes ltac:(left; apply Rinv_0_lt_compat, pow_lt; lra)) as (o & E & N & G).
  destruct (two_run (cos (PI / 4)) (cos (PI / 4)) (/ 4) ltac:(lra) (fix_diagonal _ C) ltac:(lra)) as (o' & E' & N' & G').
  exists (PI / 4), (two 1 0), (two (cos (PI / 4)) (cos (PI / 4))), guess2, psf2, o, o'.
  split. { constructor; [|constructor; [|constructor]]; cbn; unfold moved_v, moved_u; rewrite S; repeat split; ring. }
  split. { constructor; [|constructor]. eapply set_moved; [reflexivity|..]; unfold moved_v, moved_u, turned_1, turned_2; ring. }
  split. { constructor; [|constructor]. eapply set_moved; [reflexivity|..]; unfold moved_v, moved_u, turned_1, turned_2; ring. }
  split; [exact E|]. split; [exact E'|]. rewrite N, N'. cbn [c_maxiter conf2]. split; [lia|]. split; [lia|]. split; assumption.
Qed.

(** ** four pixels turned by 45 degrees *)
Definition spin (t : R) (p : pixel R) : pixel R := mkPix (moved_u t 0 (px_v p) (px_u p)) (moved_v t 0 (px_v p) (px_u p)) (px_area p) (px_val p) (px_ierr p).
Lemma spin_moved t px : pix_moved t 0 0 px (map (spin t) px).
Proof. unfold pix_moved. induction px as [|p l IH]; [constructor|]. cbn [map]. constructor; [|exact IH]. cbn. auto. Qed.
Lemma four_turned : exists t m obs M m' r M' r' a, sin (2 * t) <> 0 /\ valid_call m obs 0 /\ valid_call M obs 0 /\ call_moved t 0 0 m obs 0 (Some 0) M obs 0 (Some 0) /\
  call_definite (mkFit Free 1 1 (/ 10) false) m obs 0 (Some 0) /\
  em_go (mkFit Free 1 1 (/ 10) false) m obs 0 (Some 0) = Some (m', Ok r) /\ em_go (mkFit Free 1 1 (/ 10) false) M obs 0 (Some 0) = Some (M', r') /\ get_gmix m' r false = Ok a.
Proof.
  destruct (guess_exists 0) as (h & G). set (t := PI / 4). set (m := mkEm h [four] [img 1]). set (M := mkEm h [map (spin t) four] [img 1]). set (o := mkEo 0 (img 1) J1 0 None).
  destruct (guess_is 0 h [four] [img 1] G) as (Gg & GF). pose proof GF as (g & Hg & _).
  assert (EV : forall p, Forall evaluable (views P0 [round p 0])).
  { intros p. rewrite views_point. constructor; [rewrite fresh_round; apply round_evaluable|constructor]. }
  assert (V : valid_call m o 0) by (split; [apply G|]; split; [eauto|cbn; eauto]).
  assert (V' : valid_call M o 0) by (split; [apply G|]; split; [exists g; exact Hg|cbn; eauto]).
  assert (X : exists m' r, em_go (mkFit Free 1 1 (/ 10) false) m o 0 (Some 0) = Some (m', Ok r) /\ exists a, get_gmix m' r false = Ok a).
  { destruct (one_iter (mkFit Free 1 1 (/ 10) false) m o 0 (Some 0) four 0 [round 1 0] P0 (mkEM [round 4 0] four 0)) as (m' & r & E & C);
      cbn [f_kind f_miniter f_maxiter f_vary_sky m_gm]; auto.
    - cbn. eauto.
    - split; reflexivity.
    - reflexivity.
    - unfold denominator, watched. cbn [nth_error]. fold st0. rewrite four_like. intros K. injection K. lra.
    - apply four_step. reflexivity.
    - destruct C as (px' & s' & G' & P & hh & n & t' & d & a' & b & R & L & T & ER & GA & _). exists m', r. eauto. }
  destruct X as (m' & r & E & a & GA).
  destruct (go_total (mkFit Free 1 1 (/ 10) false) M o 0 (Some 0) eq_refl V' ltac:(cbn; eauto)) as (M' & r' & E').
  exists t, m, o, M, m', r, M', r', a. split; [unfold t; replace (2 * (PI / 4)) with (PI / 2) by field; rewrite sin_PI2; lra|].
  split; [exact V|]. split; [exact V'|]. split; [|split; [|auto]].
  - split; [|split; [|exact I]].
    + split; [reflexivity|]. exists four, (map (spin t) four). split; [reflexivity|]. split; [reflexivity|]. apply spin_moved.
    + destruct Gg as (y & c & R1 & R2 & R3). exists y, y, c, c. rewrite R3. split; [exact R1|]. split; [exact R1|]. split; [exact R2|]. split; [exact R2|].
      constructor; [|constructor]. eapply set_moved; [reflexivity|..]; unfold moved_v, moved_u, turned_1, turned_2; ring.
  - apply call_pos.
    + intros i. discriminate.
    + intros px s [<- N]. cbn in N. injection N as <-. split; [lra|]. apply Forall_forall. intros p P. apply four_in in P. destruct P as (_ & _ & -> & -> & _). lra.
    + intros G1 GG1. rewrite (guess_unique _ _ _ _ GG1 Gg). constructor; [cbn; lra|constructor].
Qed.
