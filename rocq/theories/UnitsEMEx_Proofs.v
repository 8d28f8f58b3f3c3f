(** Fits by EM of four pixels, in two units of brightness. *)
From Verif Require Import Base Shape_Model Moments_Spec Jacobian_Model Pixels_Model GMix_Model GMix_Spec FastExp_Model FastExp_Proofs
  Render_Model Render_Spec Render_Proofs GMixObj_Model GMixObj_Spec GMixObj_Proofs Flags_Model GMix_Proofs
  EM_Model EM_Spec EM_Proofs EMIter_Proofs EMLoop_Proofs EMGo_Proofs EMResult_Proofs EMCex_Proofs EMExample_Proofs
  UnitsEM_Spec UnitsEM_Proofs UnitsEMGo_Proofs UnitsEMThm_Proofs.
Local Open Scope R_scope.

Section Four.
Variable v : R.
Hypothesis V : 0 < v.
Definition four_v : list (pixel R) := [mkPix 1 1 1 v 1; mkPix 1 (-1) 1 v 1; mkPix (-1) 1 1 v 1; mkPix (-1) (-1) 1 v 1].
Definition st (p : R) : em := mkEM [round p 0] four_v 0.
Lemma fv_in p : In p four_v -> px_u p * px_u p = 1 /\ px_v p * px_v p = 1 /\ px_area p = 1 /\ px_val p = v /\ 0 < px_ierr p.
Proof. clear V. intros [<-|[<-|[<-|[<-|[]]]]]; cbn; repeat split; lra. Qed.
Lemma fv_dist f p : In p four_v -> dist2 (round f 0) p = 2.
Proof. intros H. apply fv_in in H. rewrite dist_round. nra. Qed.
Lemma fv_pixel f p : In p four_v -> in_pixel (round f 0) p = f * qq.
Proof.
  intros H. unfold in_pixel. rewrite (fv_dist f p H). destruct (Rlt_dec 2 25); [|lra]. apply fv_in in H.
  destruct H as (_ & _ & -> & _). unfold qq. cbn [round gauss2d_set g_p]. replace (gcov (round f 0)) with (gcov (round 1 0)) by reflexivity. unfold Rdiv. ring.
Qed.
Lemma fv_filled f : filled P0 (st f) = four_v.
Proof. apply filled_unmasked. apply Forall_forall. intros p Hp. apply fv_in in Hp. tauto. Qed.
Lemma fv_total f p : In p four_v -> total P0 (st f) p = f * qq.
Proof. intros H. unfold total. cbn [st m_gm m_sky]. rewrite model_one, fresh_round, (fv_pixel f p H). ring. Qed.
Lemma fv_share f p : 0 < f -> In p four_v -> share P0 (st f) (round f 0) p = v.
Proof.
  intros F H. unfold share. rewrite (fv_total f p H), (fv_pixel f p H). apply fv_in in H. destruct H as (_ & _ & _ & -> & _).
  pose proof qq_pos. field. split; lra.
Qed.
Lemma fv_att f x : 0 < f -> attributed P0 (st f) (round f 0) x = rsum (map (fun p => x (round f 0) p * v) four_v).
Proof. intros F. rewrite att_one, fv_filled, fresh_round. apply rsum_map_ext. intros p Hp. rewrite fv_share by assumption. ring. Qed.
Lemma fv_step f : 0 < f -> em_step Free P0 false (st f) (st (4 * v)).
Proof.
  intros F. unfold em_step. rewrite fv_filled. cbn [m_gm m_pix m_sky st].
  split. { intros p Hp. fold (st f). rewrite fv_total by exact Hp. pose proof qq_pos. nra. }
  split; [|split; reflexivity]. fold (st f). constructor; [|constructor].
  assert (AF : att_flux P0 (st f) (round f 0) = 4 * v). { unfold att_flux. rewrite fv_att by exact F. cbn [four_v map]. rewrite !rsum_cons, rsum_nil. ring. }
  split; [rewrite AF; reflexivity|]. unfold new_cen, new_cov, att_mean. cbn [tracks_cen tracks_cov]. rewrite AF, !fv_att, cov_P0 by exact F.
  cbn [four_v map]. rewrite !rsum_cons, !rsum_nil. cbn [px_v px_u round gauss2d_set g_row g_col g_irr g_irc g_icc xx xy yy].
  split. { split; [lra|]. split; field; lra. }
  split; [lra|]. replace (_ / (4 * v) - 0) with 1 by (field; lra).
  match goal with |- positive_cov 1 ?b ?c _ => replace b with 0 by (field; lra); replace c with 1 by (field; lra) end.
  unfold positive_cov. destruct (Rlt_dec 1 0); [lra|]. destruct (Rlt_dec (1 * 1 - 0 * 0) (/ 10 ^ 200)) as [L|L]; [exfalso|reflexivity].
  assert (/ 10 ^ 200 <= 1). { rewrite <- Rinv_1. apply Rinv_le_contravar; [lra|]. apply pow_R1_Rle. lra. }
  lra.
Qed.
Lemma fv_like f : 0 < f -> log_like P0 (st f) = Some (4 * (ln f - 1)).
Proof.
  intros F. unfold log_like. rewrite fv_filled. cbn [m_gm st]. rewrite views_point. cbn [map]. rewrite fresh_round.
  assert (E : forall p, In p four_v -> (if Req_EM_T (model P0 [round f 0] p) 0 then Some 0
     else match osum [log_dens (round f 0) p] with Some x => Some (x / model P0 [round f 0] p) | None => None end) = Some (ln f - 1)).
  { intros p Hp. rewrite model_one, fresh_round, (fv_pixel f p Hp). pose proof qq_pos as Q. pose proof (Rmult_lt_0_compat _ _ F Q). destruct (Req_EM_T (f * qq) 0); [lra|].
    unfold log_dens. rewrite (fv_pixel f p Hp), (fv_dist f p Hp). cbn [round gauss2d_set g_p]. destruct (Rlt_dec 0 f); [|lra]. cbn [osum].
    f_equal. replace (det2 (gcov _)) with 1 by (unfold gcov, det2, cov; cbn; ring). rewrite ln_1. field. split; lra. }
  rewrite (map_ext_in _ (fun _ => Some (ln f - 1)) four_v E). cbn [four_v map osum]. f_equal. ring.
Qed.
Lemma fv_eval f : Forall evaluable (views P0 (m_gm (st f))).
Proof. cbn [st m_gm]. rewrite views_point. constructor; [rewrite fresh_round; apply round_evaluable|constructor]. Qed.
Lemma fv_lit f : 0 < f -> lit P0 (st f) = 4%nat.
Proof.
  intros F. unfold lit. rewrite fv_filled. cbn [st m_gm]. pose proof qq_pos as Q. pose proof (Rmult_lt_0_compat _ _ F Q).
  cbn [four_v filter]. repeat (rewrite model_one, fresh_round, fv_pixel by (cbn; tauto); destruct (Req_EM_T (f * qq) 0); [lra|]). reflexivity.
Qed.
(** the run *)
Definition hx (n : nat) : list em := st v :: repeat (st (4 * v)) n.
Lemma nth_repeat_lt {A} (x : A) n i : (i < n)%nat -> nth_error (repeat x n) i = Some x.
Proof. clear V. revert i. induction n; intros [|i] L; try lia; [reflexivity|]. cbn. apply IHn. lia. Qed.
Lemma hx_at n i : (i < n)%nat -> nth_error (hx n) (S i) = Some (st (4 * v)).
Proof. apply nth_repeat_lt. Qed.
Lemma hx_run n : is_run Free P0 false (st v) (hx n).
Proof.
  split; [reflexivity|]. split.
  - intros i s s' H H'. assert (L : (i < n)%nat). { assert (S i < length (hx n))%nat by (apply nth_error_Some; congruence). unfold hx in H0. cbn [length] in H0. rewrite repeat_length in H0. lia. }
    rewrite (hx_at n i L) in H'. injection H' as <-. destruct i as [|i]; [injection H as <-; apply fv_step; exact V|].
    rewrite (hx_at n i) in H by lia. injection H as <-. apply fv_step. lra.
  - intros s [<-|H]; [apply fv_eval|]. apply repeat_spec in H. subst s. apply fv_eval.
Qed.
(** any other run has the same likelihoods *)
Lemma any_like h i : is_run Free P0 false (st v) h -> (2 <= i <= length h)%nat -> watched Free P0 h i = Some (4 * (ln (4 * v) - 1)).
Proof.
  intros R Hi. destruct (watched_like 1 Free P0 false _ _ _ _ Rlt_0_1 (em_times_refl (st v)) (hx_run i) R (i - 1)) as (y & y' & Y1 & Y2 & _ & W); [discriminate| |lia|].
  - unfold hx. cbn [length]. rewrite repeat_length. lia.
  - replace (S (i - 1)) with i in W by lia. rewrite W. replace (i - 1)%nat with (S (i - 2)) in Y1 by lia. rewrite hx_at in Y1 by lia. injection Y1 as <-.
    rewrite fv_like, ln_1 by lra. f_equal. ring.
Qed.
Lemma any_step h s : is_run Free P0 false (st v) h -> nth_error h (length h - 1) = Some s ->
  exists s', em_step Free P0 false s s' /\ Forall evaluable (views P0 (m_gm s')).
Proof.
  intros R Hs. destruct h as [|s0 h]; [destruct R as (H & _); discriminate|]. cbn [length] in Hs. replace (S (length h) - 1)%nat with (length h) in Hs by lia.
  assert (X : exists x, nth_error (hx (S (length h))) (length h) = Some x /\ 0 < g_p (nth 0 (m_gm x) (round 1 0)) /\ x = st (g_p (nth 0 (m_gm x) (round 1 0)))).
  { destruct (length h) as [|k]; [exists (st v)|exists (st (4 * v)); rewrite hx_at by lia]; (split; [reflexivity|]; split; [cbn; lra|reflexivity]). }
  destruct X as (x & X1 & X2 & X3). pose proof (runs_times 1 Rlt_0_1 _ _ _ _ _ _ _ (em_times_refl (st v)) (hx_run _) R _ _ _ X1 Hs) as T.
  destruct (step_times 1 Rlt_0_1 Free P0 false x s (st (4 * v)) T) as (s' & S' & (T' & _)); [rewrite X3; apply fv_step; exact X2|].
  exists s'. split; [exact S'|]. eapply evaluable_times; [exact T'|apply fv_eval].
Qed.
End Four.

(** ** the calls *)
Definition guess_v (v : R) (h : heap) : Prop :=
  (exists l, run empty_heap l = Some h) /\ exists o, read h 0 = Some o /\ o_kind o = KFull /\ o_data o = [round v 0].
Lemma guess_v_exists v : exists h, guess_v v h.
Proof.
  destruct (new_full_of [round v 0]) as (o & E & K & D). exists (alloc empty_heap o). split.
  - exists [ONewFull (gm_get_full_pars [round v 0])]. cbn [run step]. unfold add. rewrite E. reflexivity.
  - exists o. split; [apply read_alloc_new|]. auto.
Qed.
Definition mem_v (v : R) (h : heap) : emem := mkEm h [four_v v] [img v].
Definition ob_v : eobs := mkEo 0 (img 1) J1 0 None.
Definition dflt : fitter := default_fitter Free.
Lemma call_given v h : guess_v v h -> valid_call (mem_v v h) ob_v 0 /\ data_given (mem_v v h) ob_v (Some 0) (four_v v) 0 /\
  guess_given (mem_v v h) 0 [round v 0] /\ psf_given (mem_v v h) ob_v P0.
Proof.
  intros (L & o & Ro & K & D). split; [split; [exact L|]; split; [eauto|cbn; eauto]|]. split; [split; reflexivity|].
  split; [|reflexivity]. destruct (copy_full o K) as (c & E & Dc). exists o, c. split; [exact Ro|]. split; [exact E|]. congruence.
Qed.
Lemma four_v_times c v w : w = c * v -> Forall2 (pix_times c) (four_v v) (four_v w).
Proof. intros ->. unfold four_v. do 4 (apply Forall2_cons; [unfold pix_times; cbn; repeat split; lra|]). apply Forall2_nil. Qed.
Lemma calls_v c v w h h' : w = c * v -> guess_v v h -> guess_v w h' -> calls_times c (mem_v v h) ob_v 0 (Some 0) (mem_v w h') ob_v 0 (Some 0).
Proof.
  intros E G G'. destruct (call_given v h G) as (_ & A & B & C). destruct (call_given w h' G') as (_ & A' & B' & C').
  exists (four_v v), (four_v w), 0, [round v 0], [round w 0], P0. rewrite Rmult_0_r. repeat (split; [assumption|]). split; [apply four_v_times; exact E|].
  repeat (split; [assumption|]). split; [|split; assumption]. constructor; [|constructor]. rewrite E. reflexivity.
Qed.
Lemma go_v v h : guess_v v h -> exists m' r, em_go dflt (mem_v v h) ob_v 0 (Some 0) = Some (m', Ok r).
Proof.
  intros G. destruct (call_given v h G) as (V & _). destruct (go_total dflt (mem_v v h) ob_v 0 (Some 0) eq_refl V) as (m' & [r|e] & E); [cbn; eauto|eauto|].
  exfalso. refine (no_raise 1 dflt _ _ _ _ _ _ _ _ _ _ (calls_v 1 v v h h _ G G) V _ _ E); [ring|cbn; lia|cbn; lia].
Qed.
Lemma ran_v v h px s G P hh : guess_v v h -> ran dflt (mem_v v h) ob_v 0 (Some 0) px s G P hh -> P = P0 /\ is_run Free P0 false (st v v) hh.
Proof.
  intros GV (D1 & D2 & D3 & RR). destruct (call_given v h GV) as (_ & A & B & C).
  destruct (data_unique _ _ _ _ _ _ _ D1 A) as [-> ->]. pose proof (guess_unique _ _ _ _ D2 B) as ->. pose proof (psf_unique _ _ _ _ D3 C) as ->. split; [reflexivity|exact RR].
Qed.
(** converges after miniter iterations *)
Lemma go_fine v h m' r : 0 < v -> guess_v v h -> 4 * (ln (4 * v) - 1) <> 0 -> em_go dflt (mem_v v h) ob_v 0 (Some 0) = Some (m', Ok r) ->
  r_flags r = 0%Z /\ exists s, r_fit r = Some (40%nat, Some 0, s).
Proof.
  intros V GV NZ E. destruct (call_given v h GV) as (VC & A & B & C).
  assert (CH : forall hh i, is_run Free P0 false (st v v) hh -> (3 <= i <= length hh)%nat -> change Free P0 hh i = Some 0).
  { intros hh i R Hi. unfold change, denominator. rewrite !(any_like v V hh _ R) by lia. destruct (Req_EM_T _ 0); [contradiction|]. f_equal.
    unfold Rminus at 1. rewrite Rplus_opp_r. unfold Rdiv. rewrite Rmult_0_l. apply Rabs_R0. }
  destruct (go_result _ _ _ _ _ _ _ VC E) as (_ & [Q|Q]).
  - destruct Q as (px & s & G & P & hh & n & t & d & a & b & R & L & N & ER & _ & _ & _ & _ & NM & MM & NC & _ & DD).
    destruct (ran_v v h _ _ _ _ _ GV R) as [-> RR]. cbn [dflt default_fitter f_kind f_miniter f_maxiter f_tol] in *.
    assert (n = 40%nat) as ->.
    { destruct (Nat.eq_dec n 40) as [|NE]; [assumption|exfalso]. apply (NC 40%nat); [lia|]. split; [lia|]. exists 0. split; [apply CH; [exact RR|lia]|].
      apply Rinv_0_lt_compat. apply pow_lt. lra. }
    rewrite DD, (CH _ _ RR) in ER by lia. rewrite ER. cbn [r_flags r_fit]. split; [reflexivity|eauto].
  - exfalso. destruct Q as (_ & px & s & G & P & D1 & D2 & D3 & Q). pose proof (psf_unique _ _ _ _ D3 C) as ->. pose proof (guess_unique _ _ _ _ D2 B) as ->.
    destruct Q as [Q|(hh & R & L & NC & ST)]; [apply Q; apply (fv_eval v v)|]. destruct (ran_v v h _ _ _ _ _ GV R) as [_ RR].
    cbn [dflt default_fitter f_kind f_miniter f_maxiter f_tol f_vary_sky] in *.
    assert (PL : (1 <= length hh)%nat) by (destruct RR as (H0 & _); destruct hh; [discriminate|cbn; lia]).
    destruct (nth_error hh (length hh - 1)) as [y|] eqn:Ey; [|apply nth_error_None in Ey; lia].
    destruct (any_step v V hh y RR Ey) as (y' & SY & EY). destruct (ST y y' Ey SY EY) as [ML DN].
    unfold denominator in DN. rewrite (any_like v V) in DN.
    + injection DN as DN. contradiction.
    + apply (run_snoc Free (mkConf 0 0 0 0 false) P0 (st v v) hh y); [exact RR|exact Ey|split; assumption].
    + rewrite app_length. cbn. lia.
Qed.
(** the likelihood is zero: the fit fails *)
Lemma go_fails v h m' r : 0 < v -> guess_v v h -> 4 * (ln (4 * v) - 1) = 0 -> em_go dflt (mem_v v h) ob_v 0 (Some 0) = Some (m', Ok r) ->
  r_flags r = EM_RANGE_ERROR /\ r_fit r = None.
Proof.
  intros V GV Z E. destruct (call_given v h GV) as (VC & A & B & C).
  destruct (go_result _ _ _ _ _ _ _ VC E) as (_ & [Q|(-> & _)]); [|split; reflexivity]. exfalso.
  destruct Q as (px & s & G & P & hh & n & t & d & a & b & R & L & N & ER & _ & _ & _ & _ & NM & MM & NC & _ & DD).
  destruct (ran_v v h _ _ _ _ _ GV R) as [-> RR]. cbn [dflt default_fitter f_miniter f_maxiter] in NM, MM.
  assert (F : r_fit r = Some (n, d, m_sky t)) by (rewrite ER; reflexivity).
  apply (go_den _ _ _ _ _ _ _ _ _ _ VC E F _ _ _ _ _ R L 40%nat); [lia|cbn; lia|]. cbn [dflt default_fitter f_kind f_miniter]. unfold denominator.
  rewrite (any_like v V hh _ RR) by lia. rewrite Z. reflexivity.
Qed.
Lemma default_units : exists c m obs guess sky m2 obs2 guess2 sky2 m' r m2' r2, 0 < c /\
  calls_times c m obs guess sky m2 obs2 guess2 sky2 /\ valid_call m obs guess /\ valid_call m2 obs2 guess2 /\
  em_go (default_fitter Free) m obs guess sky = Some (m', Ok r) /\ em_go (default_fitter Free) m2 obs2 guess2 sky2 = Some (m2', Ok r2) /\
  r_flags r = 0%Z /\ r_flags r2 = EM_RANGE_ERROR.
Proof.
  destruct (guess_v_exists 1) as (h & G). destruct (guess_v_exists (exp 1 / 4)) as (h' & G').
  assert (P : 0 < exp 1 / 4) by (pose proof (exp_pos 1); lra).
  destruct (go_v 1 h G) as (m' & r & E). destruct (go_v (exp 1 / 4) h' G') as (m2' & r2 & E2).
  destruct (go_fine 1 h m' r Rlt_0_1 G) as [F _]; [|exact E|].
  { rewrite Rmult_1_r. assert (1 < ln 4); [|lra]. rewrite <- (ln_exp 1). apply ln_increasing; [apply exp_pos|]. pose proof exp_le_3. lra. }
  destruct (go_fails (exp 1 / 4) h' m2' r2 P G') as [F2 _]; [|exact E2|].
  { replace (4 * (exp 1 / 4)) with (exp 1) by field. rewrite ln_exp. ring. }
  exists (exp 1 / 4), (mem_v 1 h), ob_v, 0%nat, (Some 0), (mem_v (exp 1 / 4) h'), ob_v, 0%nat, (Some 0), m', r, m2', r2.
  split; [exact P|]. split; [apply calls_v; [ring|exact G|exact G']|]. split; [apply call_given; exact G|]. split; [apply call_given; exact G'|].
  split; [exact E|]. split; [exact E2|]. split; [exact F|exact F2].
Qed.

(** ** cases of the theorems *)
Lemma flux_step v f : 0 < v -> 0 < f -> em_step FluxOnly P0 false (st v f) (st v (4 * v)).
Proof.
  intros V F. destruct (fv_step v V f F) as (A & B & C & D). split; [exact A|]. split; [|split; assumption].
  cbn [st m_gm] in *. apply Forall2_cons; [|apply Forall2_nil]. inversion B as [|x y l l' (E & _) _]. split; [exact E|]. split; cbn; auto.
Qed.
Definition flux1 : fitter := mkFit FluxOnly 1 1 (/ 10) false.
Lemma flux_case v : 0 < v -> exists h m' r, guess_v v h /\ em_go flux1 (mem_v v h) ob_v 0 (Some 0) = Some (m', Ok r) /\ r_fit r <> None.
Proof.
  intros V. destruct (guess_v_exists v) as (h & G). destruct (call_given v h G) as (VC & A & B & C).
  destruct (one_step flux1 (mem_v v h) ob_v 0 (Some 0) (four_v v) 0 [round v 0] P0 (st v (4 * v)))
    as (m' & r & E & hh & t & a & R & L & T & FL & FT & CH & GA); cbn [flux1 f_kind f_miniter f_maxiter f_tol f_vary_sky]; auto.
  - cbn. eauto.
  - destruct G as (_ & o & Ro & K & _). eauto.
  - apply (fv_eval v v).
  - unfold flux_of. cbn [map]. rewrite rsum_cons, rsum_nil. cbn. lra.
  - apply flux_step; exact V.
  - apply fv_eval.
  - exists h, m', r. split; [exact G|]. split; [exact E|]. rewrite FT. discriminate.
Qed.
Lemma like_not_zero v : 1 <= v -> 4 * (ln (4 * v) - 1) <> 0.
Proof.
  intros V. assert (1 < ln (4 * v)); [|lra]. rewrite <- (ln_exp 1). apply ln_increasing; [apply exp_pos|]. pose proof exp_le_3. lra.
Qed.
Lemma free_case v : 1 <= v -> exists h m' r s, guess_v v h /\ em_go dflt (mem_v v h) ob_v 0 (Some 0) = Some (m', Ok r) /\ r_fit r = Some (40%nat, Some 0, s).
Proof.
  intros V. destruct (guess_v_exists v) as (h & G). destruct (go_v v h G) as (m' & r & E).
  destruct (go_fine v h m' r ltac:(lra) G (like_not_zero v V) E) as (_ & s & F). exists h, m', r, s. auto.
Qed.
Lemma ran_case v h : 0 < v -> guess_v v h -> ran dflt (mem_v v h) ob_v 0 (Some 0) (four_v v) 0 [round v 0] P0 (hx v 40).
Proof. intros V G. destruct (call_given v h G) as (_ & A & B & C). repeat (split; [assumption|]). apply (hx_run v V). Qed.
