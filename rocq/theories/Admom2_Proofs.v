(** The result dict of adaptive moments. *)
From Verif Require Import Base XReal Moments_Model Moments_Spec Shape_Model Shape_Spec Shape_Proofs Jacobian_Model Pixels_Model GMix_Model GMix_Spec GMix_Proofs FastExp_Model FastExp_Proofs
  Render_Model Render_Spec Render_Proofs GMixObj_Model GMixObj_Proofs Flags_Model WSums_Model WSums_Proofs MomResult_Model MomResult_Spec MomResult_Proofs
  ObsS2N_Proofs EM_Model EM_Spec EM_Proofs Admom_Model Admom_Spec Admom_Proofs.
Local Open Scope R_scope.

(** ** positivity *)
Lemma fast_exp_pos' x : -125/10 < x <= 0 -> 0 < fast_exp x.
Proof.
  intros H. destruct (fexp_spec x H) as (y & E & B). unfold fast_exp. rewrite E. pose proof (exp_pos x).
  apply Rabs_def2 in B. lra.
Qed.
Lemma maha_nonneg' m a b : 0 < det2 m -> 0 < trace2 m -> 0 <= maha m a b.
Proof.
  intros D T. destruct m as [p q r]. set (g := gauss2d_set 1 0 0 r q p).
  change (mkSym p q r) with (gcov g). apply maha_nonneg; unfold g, coherent, gauss2d_set, gcov, cov, det2, trace2 in *; cbn in *; try ring; nra.
Qed.
Lemma maha_pos m a b : 0 < det2 m -> 0 < trace2 m -> 0 < a * a + b * b -> 0 < maha m a b.
Proof.
  intros D T P. unfold maha. apply Rdiv_lt_0_compat; [|exact D]. destruct m as [x y z]. unfold det2, trace2 in *. cbn [xx xy yy] in *.
  assert (0 < x * z) by nra. assert (0 < x) by nra. assert (0 < z) by nra.
  assert (0 < x * (x * a ^ 2 - 2 * y * a * b + z * b ^ 2)).
  { replace (x * (x * a ^ 2 - 2 * y * a * b + z * b ^ 2)) with ((x * a - y * b) * (x * a - y * b) + (x * z - y * y) * (b * b)) by ring.
    pose proof (Rle_0_sqr (x * a - y * b)) as Q. unfold Rsqr in Q.
    destruct (Req_dec b 0) as [->|B].
    - assert (0 < a * a) by nra. assert (0 < x * x) by nra.
      replace ((x * a - y * 0) * (x * a - y * 0) + (x * z - y * y) * (0 * 0)) with ((x * x) * (a * a)) by ring. apply Rmult_lt_0_compat; assumption.
    - assert (0 < b * b) by nra. assert (0 < (x * z - y * y) * (b * b)) by (apply Rmult_lt_0_compat; lra). lra. }
  apply Rmult_lt_reg_l with x; [assumption|]. rewrite Rmult_0_r. assumption.
Qed.
Lemma low_pos' : 0 < low. Proof. unfold low. apply Rinv_0_lt_compat, pow_lt. lra. Qed.
Lemma evaluable_pos g : evaluable g -> 0 < det2 (gcov g) /\ 0 < trace2 (gcov g).
Proof. pose proof low_pos'. unfold low in *. intros [A B]. lra. Qed.
Lemma in_pixel_nonneg g p : evaluable g -> 0 < g_p g -> 0 <= px_area p -> 0 <= in_pixel g p.
Proof.
  intros E P A. apply evaluable_pos in E. destruct E as [D T]. unfold in_pixel. destruct (Rlt_dec _ 25) as [L|L]; [|lra].
  apply Rmult_le_pos; [|exact A]. apply Rmult_le_pos.
  - apply Rlt_le, Rdiv_lt_0_compat; [exact P|]. pose proof PI_RGT_0. pose proof (sqrt_lt_R0 _ D). nra.
  - apply Rlt_le, fast_exp_pos'. pose proof (maha_nonneg' (gcov g) (px_v p - g_row g) (px_u p - g_col g) D T). unfold dist2 in *. lra.
Qed.
Lemma am_weight_nonneg w p : Forall evaluable w -> positive_weight w -> 0 <= px_area p -> 0 <= am_weight w p.
Proof.
  intros E P A. unfold am_weight. apply rsum_nonneg. intros x H. apply in_map_iff in H. destruct H as (g & <- & I).
  unfold positive_weight in P. rewrite Forall_forall in E, P. apply in_pixel_nonneg; auto.
Qed.
(** a positive sum has a positive term *)
Lemma rsum_pos_ex (A : Type) (f : A -> R) l : 0 < rsum (map f l) -> exists x, In x l /\ 0 < f x.
Proof.
  induction l as [|a l IH]; cbn [map]; [rewrite rsum_nil; lra|]. rewrite rsum_cons. intros H.
  destruct (Rlt_dec 0 (f a)) as [L|L]; [exists a; split; [left; reflexivity|exact L]|].
  destruct IH as (x & I & P); [lra|]. exists x. split; [right; exact I|exact P].
Qed.
Lemma rsum_pos_in (A : Type) (f : A -> R) l x : In x l -> (forall y, In y l -> 0 <= f y) -> 0 < f x -> 0 < rsum (map f l).
Proof.
  induction l as [|a l IH]; intros I N P; [destruct I|]. cbn [map]. rewrite rsum_cons.
  assert (0 <= rsum (map f l)).
  { apply rsum_nonneg. intros y Hy. apply in_map_iff in Hy. destruct Hy as (z & <- & Hz). apply N. right. exact Hz. }
  destruct I as [->|I]; [lra|]. specialize (IH I (fun y Hy => N y (or_intror Hy)) P). pose proof (N a (or_introl eq_refl)). lra.
Qed.
Section Pos.
Variables (w : gmix) (px : list (pixel R)).
Hypothesis (U : usable_pixels px) (RP : real_pixels px) (E : Forall evaluable w) (P : positive_weight w).
Lemma weight_nn p : In p px -> 0 <= am_weight w p.
Proof. intros I. unfold real_pixels in RP. rewrite Forall_forall in RP. apply am_weight_nonneg; auto. Qed.
Lemma ierr_pos p : In p px -> 0 < px_ierr p.
Proof. intros I. unfold usable_pixels in U. rewrite Forall_forall in U. auto. Qed.
Lemma wcov_pos f p : In p px -> 0 < am_weight w p -> f p <> 0 -> 0 < wcov w px f f.
Proof.
  intros I A B. unfold wcov. apply rsum_pos_in with p; [exact I| |].
  - intros y Hy. pose proof (ierr_pos y Hy). assert (0 < 1 / (px_ierr y * px_ierr y)) by (apply Rdiv_lt_0_compat; nra).
    replace (am_weight w y * am_weight w y * (1 / (px_ierr y * px_ierr y)) * f y * f y) with ((1 / (px_ierr y * px_ierr y)) * ((am_weight w y * f y) * (am_weight w y * f y))) by ring.
    apply Rmult_le_pos; [lra|]. apply Rle_0_sqr.
  - pose proof (ierr_pos p I). assert (0 < 1 / (px_ierr p * px_ierr p)) by (apply Rdiv_lt_0_compat; nra).
    replace (am_weight w p * am_weight w p * (1 / (px_ierr p * px_ierr p)) * f p * f p) with ((1 / (px_ierr p * px_ierr p)) * ((am_weight w p * f p) * (am_weight w p * f p))) by ring.
    apply Rmult_lt_0_compat; [lra|]. assert (am_weight w p * f p <> 0) by (apply Rmult_integral_contrapositive; split; [lra|exact B]). apply Rlt_0_sqr. assumption.
Qed.
Lemma flux_term : 0 < wflux w px -> exists p, In p px /\ 0 < am_weight w p.
Proof.
  intros F. apply rsum_pos_ex in F. destruct F as (p & I & H). exists p. split; [exact I|]. pose proof (weight_nn p I).
  destruct (Req_dec (am_weight w p) 0) as [Z|Z]; [rewrite Z in H; lra|lra].
Qed.
Lemma wsum_pos' : 0 < wflux w px -> 0 < rsum (map (am_weight w) px).
Proof. intros F. destruct (flux_term F) as (p & I & H). apply rsum_pos_in with p; auto. intros. apply weight_nn. assumption. Qed.
Lemma var5_pos : 0 < wflux w px -> 0 < wcov w px (am_moment w 5) (am_moment w 5).
Proof. intros F. destruct (flux_term F) as (p & I & H). apply wcov_pos with p; auto. cbn. lra. Qed.
Lemma size_term : 0 < wflux w px -> 0 < trace2 (mom2 px w) -> 0 < wtd w px (am_moment w 4) /\
  exists p, In p px /\ 0 < am_weight w p /\ 0 < dv w p * dv w p + du w p * du w p.
Proof.
  intros F T. assert (K : 0 < wtd w px (am_moment w 4)).
  { unfold trace2, mom2, wmean in T. cbn [xx yy] in T. replace (wtd w px (fun p => du w p * du w p) / wflux w px + wtd w px (fun p => dv w p * dv w p) / wflux w px)
     with ((wtd w px (fun p => du w p * du w p) + wtd w px (fun p => dv w p * dv w p)) * / wflux w px) in T by (unfold Rdiv; ring).
    rewrite <- wtd_plus in T. assert (I : 0 < / wflux w px) by (apply Rinv_0_lt_compat; exact F).
    unfold am_moment. apply Rmult_lt_reg_r with (/ wflux w px); [exact I|]. rewrite Rmult_0_l. exact T. }
  split; [exact K|]. apply rsum_pos_ex in K. destruct K as (p & I & H). exists p. split; [exact I|]. pose proof (weight_nn p I). unfold am_moment in H.
  assert (am_weight w p <> 0) by (intros Z; rewrite Z in H; lra).
  assert (du w p * du w p + dv w p * dv w p <> 0) by (intros Z; rewrite Z in H; lra).
  split; [lra|]. pose proof (Rle_0_sqr (du w p)). pose proof (Rle_0_sqr (dv w p)). unfold Rsqr in *. lra.
Qed.
Lemma var4_pos : 0 < wflux w px -> 0 < trace2 (mom2 px w) -> 0 < wcov w px (am_moment w 4) (am_moment w 4).
Proof. intros F T. destruct (size_term F T) as (_ & p & I & H & K). apply wcov_pos with p; auto. unfold am_moment. lra. Qed.
Lemma var6_pos : w <> [] -> 0 < wflux w px -> 0 < trace2 (mom2 px w) -> 0 < wcov w px (am_moment w 6) (am_moment w 6).
Proof.
  intros NE F T. destruct (size_term F T) as (_ & p & I & H & K). apply wcov_pos with p; auto. unfold am_moment, chi2_0.
  assert (EV : 0 < det2 (cov0_of w) /\ 0 < trace2 (cov0_of w)).
  { destruct w as [|g r]; [congruence|]. apply Forall_cons_iff in E. apply evaluable_pos. apply E. }
  pose proof (maha_pos (cov0_of w) (dv w p) (du w p) (proj1 EV) (proj2 EV) K). nra.
Qed.
End Pos.

(** ** the dict *)
Lemma xdiv_fin a b : b <> 0 -> xdiv (Fin a) (Fin b) = Fin (a / b).
Proof. intros H. cbn. rewrite Reqb_f by exact H. reflexivity. Qed.
Lemma xgtb_fin a : 0 < a -> xgtb (Fin a) (Fin 0) = true.
Proof. intros H. unfold xgtb, xltb. rewrite Rltb_t by exact H. reflexivity. Qed.
Lemma xgtb_fin_f a : ~ 0 < a -> xgtb (Fin a) (Fin 0) = false.
Proof. intros H. unfold xgtb, xltb. rewrite Rltb_f by lra. reflexivity. Qed.
Lemma forallb_vars ws : forallb (fun i => xgtb (Fin (ws_cov ws i i)) (Fin 0)) (seq 2 5) = true <-> forall i, (2 <= i < 7)%nat -> 0 < ws_cov ws i i.
Proof.
  rewrite forallb_forall. split; intros H i Hi.
  - specialize (H i). rewrite in_seq in H. specialize (H ltac:(lia)). apply xgtb_pos in H. exact H.
  - apply in_seq in Hi. apply xgtb_pos. cbn. apply H. lia.
Qed.
Lemma failed_result r area norm : ar_flags r <> 0%Z -> exists d, get_result r area norm = Ok d /\
  d_numiter d = ar_numiter r /\ d_ws d = ar_ws r /\ with_var_flag (d_ws d) (ar_flags r) (d_flags d) /\
  d_pars d = ar_pars r /\ d_flux_flags d = ar_flags r /\ d_T_flags d = ar_flags r /\ d_rho4_flags d = ar_flags r /\
  Forall (fun x => x = NaN) [d_flux d; d_flux_mean d; d_flux_err d; d_s2n d; d_T d; d_T_err d; d_rho4 d; d_rho4_err d; d_e1 d; d_e2 d; d_e1err d; d_e2err d].
Proof.
  intros F. unfold get_result. apply Z.eqb_neq in F. rewrite F. cbn [bind]. pose proof (forallb_vars (ar_ws r)) as FV.
  set (fl := if forallb _ _ then _ else _).
  assert (W : with_var_flag (ar_ws r) (ar_flags r) fl).
  { unfold fl. destruct (forallb _ _); [left|right]; (split; [|reflexivity]); [apply FV; reflexivity|]. intros K. apply FV in K. discriminate. }
  assert (N : Z.eqb fl 0 = false).
  { apply Z.eqb_neq. apply Z.eqb_neq in F. unfold fl. destruct (forallb _ _); [exact F|]. intros K. apply Z.lor_eq_0_iff in K. destruct K as [K _]. exact (F K). }
  rewrite N. cbn [bind]. eexists. split; [reflexivity|]. cbn [d_numiter d_ws d_flags d_pars d_flux_flags d_T_flags d_rho4_flags d_flux d_flux_mean d_flux_err d_s2n d_T d_T_err d_rho4 d_rho4_err d_e1 d_e2 d_e1err d_e2err].
  split; [reflexivity|]. split; [reflexivity|]. split; [exact W|]. do 4 (split; [reflexivity|]). repeat (constructor; [reflexivity|]). constructor.
Qed.
Lemma good_result' r wc px area : sums_of (ar_ws r) wc px -> usable_pixels px -> real_pixels px -> Forall evaluable wc -> positive_weight wc -> wc <> [] -> 0 < area ->
  0 < wflux wc px -> 0 < trace2 (mom2 px wc) -> ar_flags r = 0%Z -> converged_rec r wc px ->
  exists d, get_result r area (Fin (peak_of (cov0_of wc))) = Ok d /\ d_numiter d = ar_numiter r /\ dict_describes d wc px area /\ shape_describes d wc px.
Proof.
  intros SU U RP E P NE A F T FL (_ & PA & RH).
  assert (S : forall k, (k < 7)%nat -> ws_sums (ar_ws r) k = wtd wc px (am_moment wc k)) by apply SU.
  assert (C : forall k l, (k < 7)%nat -> (l < 7)%nat -> ws_cov (ar_ws r) k l = wcov wc px (am_moment wc k) (am_moment wc l)) by apply SU.
  assert (WS : ws_wsum (ar_ws r) = rsum (map (am_weight wc) px)) by apply SU.
  pose proof (wsum_pos' wc px RP E P F) as NP. pose proof (var5_pos wc px U RP E P F) as V5. pose proof (var4_pos wc px U RP E P F T) as V4.
  pose proof (var6_pos wc px U RP E P NE F T) as V6. destruct (size_term wc px RP E P F T) as (S4 & _).
  assert (EV : low <= det2 (cov0_of wc) /\ low < trace2 (cov0_of wc)).
  { destruct wc as [|g rr]; [congruence|]. apply Forall_cons_iff in E. apply E. }
  pose proof low_pos'. destruct EV as [ED ET].
  assert (PK : 0 < peak_of (cov0_of wc)).
  { unfold peak_of. apply Rinv_0_lt_compat. pose proof PI_RGT_0. pose proof (sqrt_lt_R0 (det2 (cov0_of wc)) ltac:(lra)). nra. }
  assert (F5 : wtd wc px (am_moment wc 5) = wflux wc px) by reflexivity.
  unfold get_result. rewrite FL, PA, RH. cbn [Z.eqb]. rewrite !S, !C by lia. rewrite !F5, WS.
  set (N := rsum (map (am_weight wc) px)) in *. set (FF := wflux wc px) in *. set (W := cov0_of wc) in *.
  cbn [map xnth nth set5]. change (xx W + yy W) with (trace2 W). rewrite (xdiv_fin FF N) by lra.
  unfold xltb at 1. unfold GMIX_LOW_DETVAL. fold low. rewrite Rltb_t by exact ET.
  rewrite (xgtb_fin FF F), (xgtb_fin _ V5), (xgtb_fin _ V4), (xgtb_fin _ V6). cbn [andb bind].
  set (FN := area * peak_of W * N). assert (FNP : 0 < FN) by (unfold FN; apply Rmult_lt_0_compat; [apply Rmult_lt_0_compat|]; assumption).
  change (xmul (xmul (Fin area) (Fin (peak_of W))) (Fin N)) with (Fin FN).
  rewrite (xdiv_fin FF FN) by lra.
  replace (xsqrt (Fin (wcov wc px (am_moment wc 5) (am_moment wc 5)))) with (Fin (sqrt (wcov wc px (am_moment wc 5) (am_moment wc 5)))).
  2:{ unfold xsqrt. rewrite Rltb_f by lra. reflexivity. }
  set (dF := sqrt _). assert (DF : 0 < dF) by (apply sqrt_lt_R0; exact V5). rewrite (xdiv_fin dF FN) by lra.
  rewrite (xdiv_fin (FF / FN) (dF / FN)) by (apply Rgt_not_eq, Rdiv_lt_0_compat; assumption). rewrite (xdiv_fin (wtd wc px (am_moment wc 6)) FF) by lra.
  rewrite (ratio_error_ok (wtd wc px (am_moment wc 4)) FF _ _ _ ltac:(lra) ltac:(lra)). cbn [bind].
  destruct (ratio_error_total (Fin (wtd wc px (am_moment wc 6))) (Fin FF) (Fin (wcov wc px (am_moment wc 6) (am_moment wc 6))) (Fin (wcov wc px (am_moment wc 5) (am_moment wc 5)))
     (Fin (wcov wc px (am_moment wc 6) (am_moment wc 5)))) as (er & Er). { unfold xeqb. apply Reqb_f. lra. }
  rewrite Er. cbn [bind].
  set (fl := if forallb _ _ then _ else _).
  pose proof (forallb_vars (ar_ws r)) as FV.
  assert (FL' : fl = 0%Z /\ shape_vars_positive wc px \/ fl = NONPOS_VAR /\ ~ shape_vars_positive wc px).
  { unfold fl, shape_vars_positive. destruct (forallb _ _); [left|right]; (split; [reflexivity|]).
    - rewrite <- !C by lia. split; apply (proj1 FV eq_refl); lia.
    - intros [K2 K3]. assert (false = true); [|discriminate]. apply FV. intros i Hi. rewrite C by lia.
      destruct (Nat.eq_dec i 2) as [->|]; [exact K2|]. destruct (Nat.eq_dec i 3) as [->|]; [exact K3|]. destruct (Nat.eq_dec i 4) as [->|]; [exact V4|].
      destruct (Nat.eq_dec i 5) as [->|]; [exact V5|]. replace i with 6%nat by lia. exact V6. }
  clearbody fl. clear FV.
  assert (RE6 : wtd wc px (am_moment wc 6) <> 0 -> xmul (Fin 4) er = Fin (4 * ratio_err wc px (am_moment wc 6) (am_moment wc 5))).
  { intros K. rewrite ratio_error_ok in Er by lra. injection Er as <-. reflexivity. }
  assert (QQ : FF / FN / (dF / FN) = FF / dF) by (field; lra). rewrite QQ.
  assert (DESC : forall fl' e1 e2 d1 d2, dict_describes (mkAd fl' (ar_numiter r) (ar_ws r) [Fin (row0_of wc); Fin (col0_of wc); Fin (xx W - yy W); Fin (2 * xy W); Fin (trace2 W); Fin (FF / N)]
     0 0 0 (Fin (FF / FN)) (Fin (FF / N)) (Fin (dF / FN)) (Fin (FF / dF)) (Fin (trace2 W)) (xmul (Fin 4) (Fin (sqrt (Rmax 0 (ratio_var (wtd wc px (am_moment wc 4)) FF
       (wcov wc px (am_moment wc 4) (am_moment wc 4)) (wcov wc px (am_moment wc 5) (am_moment wc 5)) (wcov wc px (am_moment wc 4) (am_moment wc 5)))))))
      (Fin (wtd wc px (am_moment wc 6) / FF)) (xmul (Fin 4) er) e1 e2 d1 d2) wc px area).
  { intros. unfold dict_describes. cbn [d_flags d_numiter d_ws d_pars d_flux_flags d_T_flags d_rho4_flags d_flux d_flux_mean d_flux_err d_s2n d_T d_T_err d_rho4 d_rho4_err].
    split; [exact SU|]. split; [exact F|]. split; [exact NP|]. split; [exact DF|]. split; [reflexivity|]. split; [reflexivity|]. split; [reflexivity|].
    split; [reflexivity|]. do 5 (split; [reflexivity|]). split; [reflexivity|]. split; [reflexivity|]. exact RE6. }
  destruct FL' as [[-> SP]|[-> SP]].
  - cbn [Z.eqb]. rewrite (xgtb_fin (trace2 W)) by lra. cbn [xnth nth]. rewrite !xdiv_fin by lra.
    pose proof (sums_mom _ _ _ SU F) as SM. cbv zeta in SM. destruct SM as (X5 & X2 & X3 & _). rewrite X5 in X2, X3. rewrite !S in X2, X3 by lia.
    assert (NZ : shapes_nonzero wc px <-> wtd wc px (am_moment wc 2) <> 0 /\ wtd wc px (am_moment wc 3) <> 0).
    { unfold shapes_nonzero. fold FF in X2, X3. assert (I : 0 < 1 / FF) by (apply Rdiv_lt_0_compat; lra).
      split; intros [K2 K3]; split; intros Z.
      - rewrite Z in X2. lra.
      - rewrite Z in X3. lra.
      - assert (Q : wtd wc px (am_moment wc 2) * (1 / FF) = 0) by lra. apply Rmult_integral in Q. destruct Q; [auto|lra].
      - assert (Q : wtd wc px (am_moment wc 3) * (1 / FF) = 0) by lra. apply Rmult_integral in Q. destruct Q; [auto|lra]. }
    destruct (Req_dec (wtd wc px (am_moment wc 2)) 0) as [Z2|Z2]; [|destruct (Req_dec (wtd wc px (am_moment wc 3)) 0) as [Z3|Z3]].
    + rewrite Z2, ratio_error_0 by lra. cbn [bind].
      destruct (ratio_error_total (Fin (wtd wc px (am_moment wc 3))) (Fin (wtd wc px (am_moment wc 4))) (Fin (wcov wc px (am_moment wc 3) (am_moment wc 3))) (Fin (wcov wc px (am_moment wc 4) (am_moment wc 4)))
        (Fin (wcov wc px (am_moment wc 3) (am_moment wc 4)))) as (er3 & Er3). { unfold xeqb. apply Reqb_f. lra. } rewrite Er3. cbn [bind xmul isfinite negb orb].
      eexists. split; [reflexivity|]. split; [reflexivity|]. split; [apply DESC|]. right. split; [exact SP|]. split; [reflexivity|]. split; [reflexivity|].
      right. split; [tauto|]. repeat split.
    + rewrite (ratio_error_ok _ (wtd wc px (am_moment wc 4)) _ _ _ Z2 ltac:(lra)). rewrite Z3, ratio_error_0 by lra. cbn [bind xmul isfinite negb orb].
      eexists. split; [reflexivity|]. split; [reflexivity|]. split; [apply DESC|]. right. split; [exact SP|]. split; [reflexivity|]. split; [reflexivity|].
      right. split; [tauto|]. repeat split.
    + rewrite (ratio_error_ok _ (wtd wc px (am_moment wc 4)) _ _ _ Z2 ltac:(lra)). rewrite (ratio_error_ok _ (wtd wc px (am_moment wc 4)) _ _ _ Z3 ltac:(lra)). cbn [bind xmul isfinite negb orb].
      eexists. split; [reflexivity|]. split; [reflexivity|]. split; [apply DESC|]. right. split; [exact SP|]. split; [reflexivity|]. split; [reflexivity|].
      left. split; [tauto|]. repeat split.
  - cbn [Z.eqb NONPOS_VAR]. eexists. split; [reflexivity|]. split; [reflexivity|]. split; [apply DESC|]. left. split; [exact SP|]. repeat split.
Qed.

(** ** the whole call *)
Lemma norms_ne gm : gm <> [] -> fst (gmix_set_norms gm) <> [].
Proof. destruct gm as [|g r]; [congruence|]. intros _. cbn. destruct (gauss2d_set_norm g); [|discriminate]. destruct (gmix_set_norms r). discriminate. Qed.
Lemma iter_ne c a b px s : as_wt s <> [] -> as_wt (fst (am_iter c a b px s)) <> [].
Proof.
  intros NE. unfold am_iter. destruct (as_wt s) as [|g0 r0] eqn:E; [congruence|]. rewrite <- E in *. pose proof (norms_ne _ NE) as N.
  destruct (Rltb _ _); [exact NE|]. destruct (gmix_set_norms (as_wt s)) as [[|g1 rest] [[]|e]]; cbn [fst] in N; try congruence; [|discriminate].
  destruct (foldM _ px _) as [ws|e]; [|discriminate]. destruct (Rleb _ _); [discriminate|]. cbv zeta. destruct (_ || _); [discriminate|].
  destruct (foldM _ px _) as [ws2|e]; [|discriminate]. destruct (Rleb _ _); [discriminate|]. destruct (Rleb _ _); [discriminate|].
  destruct (match as_old s with None => false | Some _ => _ end); [discriminate|]. destruct (ac_cenonly c); [discriminate|]. destruct (deweight_moments _ _ _ _); discriminate.
Qed.
Lemma loop_ne c a b px n : forall i s, as_wt s <> [] -> as_wt (fst (am_loop c a b px n i s)) <> [].
Proof.
  induction n as [|n IH]; intros i s NE; cbn [am_loop]; [exact NE|]. pose proof (iter_ne c a b px s NE) as N.
  destruct (am_iter c a b px s) as [s' [[]|e]]; cbn [fst] in *; auto.
Qed.
Lemma admom_ne c px wt r : wt <> [] -> fst (fst (admom c wt px r)) <> [].
Proof.
  intros NE. unfold admom. destruct wt as [|g rest]; [congruence|]. pose proof (loop_ne c (g_row g) (g_col g) px (ac_maxiter c) 0 (mkAs (g :: rest) r None) NE) as N.
  destruct (am_loop _ _ _ _ _ _ _) as [s [[|k]|e]]; exact N.
Qed.
Lemma moved_pos w a b : positive_weight w -> positive_weight (moved w a b).
Proof. destruct w; [auto|]. unfold positive_weight. cbn. rewrite !Forall_cons_iff. auto. Qed.
Lemma reshaped_pos w m : positive_weight w -> positive_weight (reshaped w m).
Proof. destruct w; [auto|]. unfold positive_weight. cbn. rewrite !Forall_cons_iff. auto. Qed.
Lemma plain_pos w : positive_weight w -> positive_weight (plain w).
Proof. unfold positive_weight, plain. rewrite Forall_map. auto. Qed.
Lemma reached_pos c px w0 i old w : positive_weight w0 -> reached c px w0 i old w -> positive_weight w.
Proof.
  intros P. induction 1 as [|i old w wc M w' R IH ME NA NX]; [exact P|]. destruct ME as (_ & _ & _ & -> & _). unfold next in NX.
  destruct (ac_cenonly c); [subst; apply moved_pos; exact IH|]. destruct NX as [_ ->]. apply reshaped_pos, moved_pos, IH.
Qed.
Lemma centred_evaluable px w : Forall evaluable w -> Forall evaluable (centred px w).
Proof. unfold centred. destruct w; [auto|]. cbn [moved]. rewrite !Forall_cons_iff. auto. Qed.
Lemma measures_ne c px w0 w wc M : measures c px w0 w wc M -> wc <> [].
Proof.
  intros (_ & _ & F & -> & _). unfold centred. destruct w; [|discriminate]. unfold wflux, wtd, am_weight in F. cbn [map] in F. exfalso.
  assert (Z : rsum (map (fun p => rsum [] * px_val p * 1) px) = 0).
  { clear. induction px as [|p l IH]; cbn [map]; [apply rsum_nil|]. rewrite rsum_cons, IH, rsum_nil. ring. }
  lra.
Qed.
Lemma am_run_spec c o wt : good_input c o wt -> exists d f, snd (am_run c o wt) = Ok d /\ ends c (ao_pix o) (plain wt) f (d_numiter d) /\ (d_numiter d <= ac_maxiter c)%nat /\
  let base := if Nat.eqb (d_numiter d) (ac_maxiter c) then MAXITER else f in
  (base <> 0%Z /\ failed_dict d base) \/
  (base = 0%Z /\ exists wc, converges c (ao_pix o) (plain wt) (d_numiter d) wc /\ dict_describes d wc (ao_pix o) (get_area (ao_jac o)) /\ shape_describes d wc (ao_pix o) /\
     plain (fst (am_run c o wt)) = wc).
Proof.
  intros (G & P & U & RP & N & A). unfold am_run. pose proof (admom_spec c (ao_pix o) wt G U N) as S. pose proof (admom_ne c (ao_pix o) wt am_rec0 (proj1 G)) as NE.
  destruct (admom c wt (ao_pix o) am_rec0) as [[wt' r] e]. cbn [fst] in NE.
  assert (NN : exists x, norm0 wt' = Ok x) by (destruct wt'; [congruence|]; eexists; reflexivity). destruct NN as (nx & NX).
  destruct e as [[]|e].
  - destruct S as (Npos & f & E & L & FL & CV). cbn [fst snd]. rewrite NX. cbn [bind]. destruct (Z.eq_dec (ar_flags r) 0) as [Z|Z].
    + destruct (CV Z) as (i & M0 & w & wc & M & Ei & RR & ME & AG & CR & V). clear CV.
      assert (PWC : positive_weight wc). { destruct ME as (_ & _ & _ & -> & _). apply moved_pos. eapply reached_pos; [|exact RR]. apply plain_pos, P. }
      assert (EWC : Forall evaluable wc). { destruct ME as (_ & EE & _ & -> & _). apply centred_evaluable, EE. }
      pose proof (measures_ne _ _ _ _ _ _ ME) as NWC.
      assert (NR : nx = Fin (peak_of (cov0_of wc))).
      { inversion V as [|h h' l l' VH VT]; subst; [congruence|]. cbn [norm0] in NX. injection NX as <-.
        destruct (visible_pos _ _ VH) as (_ & _ & Hc & EG). destruct VH as (_ & _ & _ & (_ & n & -> & _ & _ & _ & -> & _)). f_equal. unfold peak_of. cbn [cov0_of]. rewrite Hc, EG. reflexivity. }
      destruct (good_result' r wc (ao_pix o) (get_area (ao_jac o)) (proj1 CR) U RP EWC PWC NWC A) as (d & D1 & D2 & D3 & D4); auto; try apply ME.
      { destruct ME as (_ & _ & _ & _ & _ & _ & -> & T). exact T. }
      exists d, f. rewrite NR, D1, D2. split; [reflexivity|]. split; [exact E|]. split; [exact L|]. right. split; [congruence|].
      exists wc. split; [exists i, M0, w, M; auto|]. split; [exact D3|]. split; [exact D4|].
      destruct (vis_plain _ _ V) as (_ & -> & _).
      assert (PL : plain w = w -> plain wc = wc). { intros Q. destruct ME as (_ & _ & _ & -> & _). unfold centred. generalize (wmean w (ao_pix o) px_v) (wmean w (ao_pix o) px_u). intros a b. destruct w; [reflexivity|]. cbn [moved plain map] in *. f_equal. injection Q as _ Q. exact Q. }
      apply PL. clear -RR. induction RR as [|i old w wc M w' R IH ME NA NX].
      * unfold plain. rewrite map_map. reflexivity.
      * destruct ME as (_ & _ & _ & -> & _). assert (X : plain (centred (ao_pix o) w) = centred (ao_pix o) w).
        { unfold centred. generalize (wmean w (ao_pix o) px_v) (wmean w (ao_pix o) px_u). intros a b. destruct w; [reflexivity|]. cbn [moved plain map] in *. f_equal. injection IH as _ Q. exact Q. }
        unfold next in NX. destruct (ac_cenonly c); [subst; exact X|]. destruct NX as [_ ->]. generalize (deweighted (cov0_of (centred (ao_pix o) w)) M). intros m.
        destruct (centred (ao_pix o) w); [reflexivity|]. cbn [reshaped plain map] in *. f_equal. injection X as _ Q. exact Q.
    + destruct (failed_result r (get_area (ao_jac o)) nx Z) as (d & D1 & D2 & D3 & D4 & D5 & D6 & D7 & D8 & D9).
      exists d, f. rewrite D1, D2. split; [reflexivity|]. split; [exact E|]. split; [exact L|]. left. rewrite <- FL. split; [exact Z|].
      split; [exact D4|]. auto.
  - destruct S as (-> & E & E0). cbn [fst snd]. rewrite NX. cbn [bind].
    destruct (failed_result (mkAr GMIX_RANGE_ERROR (ar_numiter r) (ar_ws r) (ar_pars r) (ar_rho4 r)) (get_area (ao_jac o)) nx ltac:(discriminate)) as (d & D1 & D2 & D3 & D4 & D5 & D6 & D7 & D8 & D9).
    cbn [ar_flags ar_numiter ar_ws] in *.
    exists d, GMIX_RANGE_ERROR. rewrite D1, D2, E0. split; [reflexivity|]. split; [exact E|]. split; [lia|].
    replace (Nat.eqb 0 (ac_maxiter c)) with false by (symmetry; apply Nat.eqb_neq; lia). left. split; [discriminate|]. split; [exact D4|]. auto.
Qed.
