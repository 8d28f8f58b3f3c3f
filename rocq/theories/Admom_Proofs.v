(** One iteration of adaptive moments. *)
From Verif Require Import Base XReal Moments_Spec Pixels_Model GMix_Model GMix_Spec GMix_Proofs FastExp_Model
  Render_Model Render_Spec Render_Proofs GMixObj_Model Flags_Model WSums_Model WSums_Proofs MomResult_Model
  EM_Model EM_Spec EM_Proofs Admom_Model Admom_Spec.
Local Open Scope R_scope.

(** ** the weight seen by the code and by the specification *)
Lemma plain_fresh wt : plain wt = map fresh wt. Proof. reflexivity. Qed.
Lemma plain_coherent wt : Forall coherent (plain wt).
Proof. apply Forall_forall. intros g H. apply in_map_iff in H. destruct H as (x & <- & _). unfold coherent, gauss2d_set, gcov, cov, det2; cbn. ring. Qed.
Lemma plain_evaluable wt : Forall evaluable (plain wt) <-> Forall evaluable wt.
Proof. unfold plain. rewrite Forall_map. reflexivity. Qed.
Lemma vis_plain wt wt' : Forall2 visible wt wt' -> Forall2 visible (plain wt) wt' /\ plain wt' = plain wt /\ Forall coherent wt'.
Proof.
  induction 1 as [|g h l l' V _ (IH1 & IH2 & IH3)]; [repeat split; constructor|].
  destruct (visible_pos _ _ V) as (_ & _ & Hc & _). destruct V as (C & E & S & N). pose proof S as (S1 & S2 & S3 & S4 & S5 & S6 & S7).
  split; [|split].
  - constructor; [|exact IH1]. unfold visible. split; [|split; [exact E|split; [|exact N]]].
    + unfold coherent, gauss2d_set, gcov, cov, det2; cbn. ring.
    + unfold same_gauss, gauss2d_set; cbn. rewrite <- S1, <- S2, <- S3, <- S4, <- S5, <- S6, <- S7.
      repeat split. rewrite C. unfold gcov, cov, det2; cbn. ring.
  - cbn [plain map]. rewrite <- S1, <- S2, <- S3, <- S4, <- S5, <- S6. f_equal. exact IH2.
  - constructor; assumption.
Qed.
Lemma vis_moved h h' row col rest rest' : visible h h' -> Forall2 visible rest rest' ->
  Forall2 visible (gauss2d_set (g_p h) row col (g_irr h) (g_irc h) (g_icc h) :: rest) (set_cen0 h' row col :: rest').
Proof.
  intros (C & E & S & N) R. pose proof S as (S1 & S2 & S3 & S4 & S5 & S6 & S7). constructor; [|exact R].
  split; [unfold coherent, gauss2d_set, gcov, cov, det2; cbn; ring|]. split; [exact E|].
  split; [|exact N].
  unfold same_gauss, gauss2d_set, set_cen0; cbn. rewrite <- S1, <- S4, <- S5, <- S6, <- S7. repeat split.
  rewrite C. unfold gcov, cov, det2; cbn. ring.
Qed.

(** ** sums *)
Lemma eval_weight w wt p : Forall2 visible w wt -> gmix_eval_pixel_fast wt (px_v p) (px_u p) (px_area p) = Ok (am_weight w p).
Proof. intros V. unfold gmix_eval_pixel_fast. rewrite (fill_val w wt p V). rewrite Rplus_0_l. reflexivity. Qed.
Lemma censums w wt px : Forall2 visible w wt -> forall s, exists ws, foldM (censums_body wt) px s = Ok ws /\
  ws_sums ws 0 = ws_sums s 0 + wtd w px px_v /\ ws_sums ws 1 = ws_sums s 1 + wtd w px px_u /\ ws_sums ws 5 = ws_sums s 5 + wflux w px.
Proof.
  intros V. induction px as [|p px IH]; intros s; cbn [foldM].
  - exists s. unfold wflux, wtd. cbn [map]. rewrite rsum_nil. split; [reflexivity|]. repeat split; ring.
  - unfold censums_body at 1. rewrite (eval_weight _ _ _ V). cbn [bind].
    match goal with |- context [foldM _ px ?t] => destruct (IH t) as (ws & E & A & B & C) end.
    exists ws. split; [exact E|]. cbn [ws_sums] in A, B, C. unfold fset in A, B, C. cbn [Nat.eqb] in A, B, C.
    unfold wflux, wtd in *. cbn [map]. rewrite !rsum_cons, A, B, C. repeat split; ring.
Qed.
Lemma momsums h g rest rest' px : Forall2 visible (h :: rest) (g :: rest') -> usable_pixels px ->
  exists ws, foldM (momsums_body (g :: rest') g) px wsums_zero = Ok ws /\ sums_of ws (h :: rest) px.
Proof.
  intros V U. set (w := h :: rest) in *. set (wt := g :: rest') in *.
  assert (VH : visible h g) by (inversion V; assumption).
  assert (G : forall s, exists ws, foldM (momsums_body wt g) px s = Ok ws /\
     ws_npix ws = (ws_npix s + length px)%nat /\ ws_wsum ws = ws_wsum s + rsum (map (am_weight w) px) /\
     (forall k, (k < 7)%nat -> ws_sums ws k = ws_sums s k + wtd w px (am_moment w k)) /\
     (forall k l, (k < 7)%nat -> (l < 7)%nat -> ws_cov ws k l = ws_cov s k l + wcov w px (am_moment w k) (am_moment w l))).
  { induction px as [|p px IH]; intros s; cbn [foldM].
    - exists s. unfold wtd, wcov. cbn [map length]. rewrite rsum_nil. split; [reflexivity|]. split; [lia|]. repeat split; intros; rewrite ?rsum_nil; ring.
    - apply Forall_cons_iff in U. destruct U as [Up U]. unfold momsums_body at 1. rewrite (eval_weight _ _ _ V). cbn [bind].
      rewrite Reqb_f by nra.
      destruct (visible_pos _ _ VH) as (Hd & HT & Hc & EG). pose proof VH as (_ & _ & (_ & S2 & S3 & _) & (_ & n & En & A & B & C & _)). rewrite En.
      match goal with |- context [accumulate 7 (F7 _ _ _ _ ?x)] => set (chi2 := x) end.
      assert (CH : chi2 = chi2_0 w p).
      { unfold chi2, chi2_0, dv, du, w. cbn [row0_of col0_of cov0_of]. rewrite S2, S3, <- EG.
        rewrite <- (chi2_maha g n (px_v p - g_row g) (px_u p - g_col g) Hc Hd A B C). unfold gauss_chi2. ring. }
      match goal with |- context [accumulate 7 ?F ?a ?b ?c ?d s] => set (s1 := accumulate 7 F a b c d s); pose proof (accumulate_spec 7 F a b c d s) as AC end.
      fold s1 in AC. cbv zeta in AC. destruct AC as (A1 & A2 & A3 & A4). specialize (IH U). destruct (IH s1) as (ws & E & B1 & B2 & B3 & B4).
      exists ws. split; [exact E|].
      assert (FM : forall k, (k < 7)%nat -> F7 (px_v p) (px_u p) (px_v p - g_row g) (px_u p - g_col g) chi2 k = am_moment w k p).
      { intros k Hk. rewrite CH. unfold am_moment, dv, du, w. cbn [row0_of col0_of]. rewrite S2, S3.
        do 7 (destruct k as [|k]; [unfold F7, fset; cbn [Nat.eqb]; reflexivity|]). lia. }
      unfold wtd, wcov in *. cbn [map length]. rewrite !rsum_cons. split; [lia|]. split; [rewrite B2, A2; ring|].
      split.
      + intros k Hk. rewrite !rsum_cons, (B3 k Hk), (A3 k Hk), (FM k Hk). ring.
      + intros k l Hk Hl. rewrite !rsum_cons, (B4 k l Hk Hl), (A4 k l Hk Hl), (FM k Hk), (FM l Hl). ring. }
  destruct (G wsums_zero) as (ws & E & A & B & C & D). exists ws. split; [exact E|]. cbn [wsums_zero ws_npix ws_wsum ws_sums ws_cov] in *.
  split; [exact A|]. split; [rewrite B; ring|]. split; intros; [rewrite C by assumption|rewrite D by assumption]; ring.
Qed.

(** ** one iteration *)
Definition old_rel (old : option sym2) (x : option (R * R * R)) : Prop :=
  match old with None => x = None | Some M => x = Some (shape1 M, shape2 M, trace2 M) end.
(** the record at convergence *)
Definition converged_rec (r : am_rec) (wc : gmix) (px : list (pixel R)) : Prop :=
  sums_of (ar_ws r) wc px /\
  ar_pars r = map Fin [row0_of wc; col0_of wc; xx (cov0_of wc) - yy (cov0_of wc); 2 * xy (cov0_of wc); xx (cov0_of wc) + yy (cov0_of wc); 1] /\
  ar_rho4 r = Fin (wmean wc px (am_moment wc 6)).
Definition wt_of (w wt : gmix) : Prop := plain wt = w /\ Forall coherent wt /\ wt <> [].
Lemma wtd_plus w px f g : wtd w px (fun p => f p + g p) = wtd w px f + wtd w px g.
Proof. unfold wtd. rewrite <- rsum_map_plus. apply rsum_map_ext. intros; ring. Qed.
Lemma wtd_scale w px k f : wtd w px (fun p => k * f p) = k * wtd w px f.
Proof. unfold wtd. rewrite <- rsum_map_mult. apply rsum_map_ext. intros; ring. Qed.
Lemma wtd_ext w px f g : (forall p, f p = g p) -> wtd w px f = wtd w px g.
Proof. intros H. unfold wtd. apply rsum_map_ext. intros p _. rewrite H. reflexivity. Qed.
Lemma sums_mom ws wc px : sums_of ws wc px -> 0 < wflux wc px -> let M := mom2 px wc in
  ws_sums ws 5 = wflux wc px /\
  ws_sums ws 2 * (1 / ws_sums ws 5) = xx M - yy M /\ ws_sums ws 3 * (1 / ws_sums ws 5) = 2 * xy M /\ ws_sums ws 4 * (1 / ws_sums ws 5) = xx M + yy M.
Proof.
  intros (_ & _ & S & _) F M. assert (S5 : ws_sums ws 5 = wflux wc px) by (rewrite S by lia; reflexivity).
  split; [exact S5|]. rewrite S5. rewrite !S by lia. unfold M, mom2, wmean. cbn [xx xy yy]. unfold am_moment.
  rewrite (wtd_ext wc px (fun p => du wc p * du wc p - dv wc p * dv wc p) (fun p => du wc p * du wc p + (-1) * (dv wc p * dv wc p))) by (intros; ring).
  rewrite (wtd_ext wc px (fun p => 2 * dv wc p * du wc p) (fun p => 2 * (dv wc p * du wc p))) by (intros; ring).
  rewrite !wtd_plus, !wtd_scale. repeat split; field; lra.
Qed.

Lemma deweight_eq g M : 0 < trace2 M ->
  match deweight_moments g (yy M) (xy M) (xx M) with
  | None => ~ can_deweight (gcov g) M
  | Some g3 => can_deweight (gcov g) M /\ fresh g3 = gauss2d_set (g_p g) (g_row g) (g_col g) (yy (deweighted (gcov g) M)) (xy (deweighted (gcov g) M)) (xx (deweighted (gcov g) M)) /\ coherent g3
  end.
Proof.
  intros _. unfold deweight_moments, can_deweight, low, GMIX_LOW_DETVAL. destruct M as [a b d]. cbn [xx xy yy].
  assert (LP : 0 < / 10 ^ 200) by (apply Rinv_0_lt_compat, pow_lt; lra). set (lo := / 10 ^ 200) in *. clearbody lo.
  replace (d * a - b * b) with (det2 (mkSym a b d)) by (unfold det2; cbn; ring).
  destruct (Rleb_spec (det2 (mkSym a b d)) lo) as [L|L]; [intros (K & _); lra|].
  replace (g_irr g * g_icc g - g_irc g * g_irc g) with (det2 (gcov g)) by (unfold det2, gcov, cov; cbn; ring).
  destruct (Rleb_spec (det2 (gcov g)) lo) as [L2|L2]; [intros (_ & K & _); lra|].
  set (K := sub2 (inv2 (mkSym a b d)) (inv2 (gcov g))).
  assert (Kxx : xx K = d * (1 / det2 (mkSym a b d)) - g_irr g * (1 / det2 (gcov g))) by (unfold K, sub2, inv2, gcov, cov; cbn; unfold Rdiv; ring).
  assert (Kxy : xy K = - b * (1 / det2 (mkSym a b d)) + g_irc g * (1 / det2 (gcov g))) by (unfold K, sub2, inv2, gcov, cov; cbn; unfold Rdiv; ring).
  assert (Kyy : yy K = a * (1 / det2 (mkSym a b d)) - g_icc g * (1 / det2 (gcov g))) by (unfold K, sub2, inv2, gcov, cov; cbn; unfold Rdiv; ring).
  rewrite <- Kxx, <- Kxy, <- Kyy.
  replace (yy K * xx K - xy K * xy K) with (det2 K) by (unfold det2; ring).
  destruct (Rleb_spec (det2 K) lo) as [L3|L3]; [intros (_ & _ & Q); fold K in Q; lra|].
  split; [split; [lra|split; [lra|fold K; lra]]|].
  unfold deweighted. fold K. unfold inv2. cbn [xx xy yy]. unfold fresh, coherent, gcov, cov, det2. cbn [g_p g_row g_col g_irr g_irc g_icc g_det xx xy yy].
  split; [|ring]. f_equal; unfold det2; unfold Rdiv; ring.
Qed.
Section Iter.
Variables (c : am_conf) (px : list (pixel R)) (w0 : gmix).
Hypothesis U : usable_pixels px.

Lemma iter_spec i old w s : (i < ac_maxiter c)%nat -> reached c px w0 i old w -> wt_of w (as_wt s) -> old_rel old (as_old s) -> ar_flags (as_rec s) = 0%Z ->
  match am_iter c (row0_of w0) (col0_of w0) px s with
  | (s', Ok false) => exists M w', reached c px w0 (S i) (Some M) w' /\ wt_of w' (as_wt s') /\ old_rel (Some M) (as_old s') /\
      ar_flags (as_rec s') = 0%Z /\ ar_numiter (as_rec s') = ar_numiter (as_rec s)
  | (s', Ok true) => ar_numiter (as_rec s') = ar_numiter (as_rec s) /\
      ((ar_flags (as_rec s') <> 0%Z /\ ends c px w0 (ar_flags (as_rec s')) (S i)) \/
       (ar_flags (as_rec s') = 0%Z /\ exists M0 wc M, old = Some M0 /\ measures c px w0 w wc M /\ agrees c M0 M /\
          converged_rec (as_rec s') wc px /\ Forall2 visible wc (as_wt s')))
  | (s', Raise e) => e = GMixRangeError /\ ends c px w0 GMIX_RANGE_ERROR 0 /\ as_rec s' = as_rec s
  end.
Proof.
  intros LI R (PL & CO & NE) OR FL. unfold am_iter. destruct (as_wt s) as [|g0 wt0] eqn:EW; [congruence|]. clear NE.
  assert (D0 : g_det g0 = det2 (cov0_of w)).
  { subst w. cbn [plain map cov0_of]. apply Forall_cons_iff in CO. destruct CO as [C0 _]. rewrite C0. reflexivity. }
  rewrite D0. unfold GMIX_LOW_DETVAL. fold low. destruct (Rltb_spec (det2 (cov0_of w)) low) as [LD|LD].
  { cbn. split; [reflexivity|]. left. split; [discriminate|]. eapply e_low_det; eassumption. }
  assert (LD' : low <= det2 (cov0_of w)) by lra. clear LD D0.
  destruct (evaluable_all_dec (g0 :: wt0)) as [EV|EV].
  2:{ destruct (norms_fail _ CO EV) as (wt' & ->). destruct wt'; cbn; (split; [reflexivity|]); (split; [|reflexivity]); (eapply e_range; [exact LI|exact R|exact LD'|]);
      (intros K; apply EV; subst w; apply plain_evaluable; exact K). }
  destruct (norms_ok _ CO EV) as (wt1 & -> & V). destruct wt1 as [|g1 rest]; [inversion V|].
  destruct (vis_plain _ _ V) as (V1 & P1 & C1). rewrite PL in V1, P1. clear V.
  assert (EVw : Forall evaluable w) by (subst w; apply plain_evaluable; exact EV).
  destruct (censums w (g1 :: rest) px V1 wsums_zero) as (ws & -> & A0 & A1 & A5). cbn [ws_sums wsums_zero] in A0, A1, A5.
  rewrite Rplus_0_l in A0, A1, A5. rewrite A5. destruct (Rleb_spec (wflux w px) 0) as [F0|F0].
  { cbn. split; [reflexivity|]. left. split; [discriminate|]. eapply e_flux; eassumption. }
  assert (Ew0 : exists h wr, w = h :: wr) by (rewrite <- PL; cbn [plain map]; eauto). destruct Ew0 as (h & wr & Ew).
  assert (CE : Forall2 visible (centred px w) (set_cen0 g1 (ws_sums ws 0 / wflux w px) (ws_sums ws 1 / wflux w px) :: rest)).
  { rewrite A0, A1. unfold centred, wmean. rewrite Ew. cbn [moved]. rewrite Ew in V1. inversion V1; subst. apply vis_moved; assumption. }
  set (g2 := set_cen0 g1 (ws_sums ws 0 / wflux w px) (ws_sums ws 1 / wflux w px)) in *.
  destruct (vis_plain _ _ CE) as (_ & P2 & C2).
  assert (PC : plain (centred px w) = centred px w).
  { assert (Q : plain w = w) by (rewrite <- PL; unfold plain; rewrite map_map; reflexivity). unfold centred. generalize (wmean w px px_v) (wmean w px px_u). intros a b.
    rewrite Ew in *. cbn [moved plain map] in *. f_equal. injection Q as _ Q. exact Q. }
  rewrite PC in P2.
  assert (ROW : g_row g2 = row0_of (centred px w) /\ g_col g2 = col0_of (centred px w) /\ gcov g2 = cov0_of (centred px w)).
  { rewrite <- P2. cbn. auto. }
  destruct ROW as (R1 & R2 & R3). rewrite R1, R2.
  assert (RNG : Rltb (ac_shiftmax c) (Rabs (row0_of (centred px w) - row0_of w0)) || Rltb (ac_shiftmax c) (Rabs (col0_of (centred px w) - col0_of w0)) = false
     <-> in_range c w0 (centred px w)).
  { unfold in_range. rewrite orb_false_iff.
    destruct (Rltb_spec (ac_shiftmax c) (Rabs (row0_of (centred px w) - row0_of w0))), (Rltb_spec (ac_shiftmax c) (Rabs (col0_of (centred px w) - col0_of w0))); split; intros []; try discriminate; try lra; split; auto; lra. }
  destruct (_ || _).
  { cbn. split; [reflexivity|]. left. split; [discriminate|]. eapply e_shift; try eassumption. intros K. apply RNG in K. discriminate. }
  assert (IR : in_range c w0 (centred px w)) by (apply RNG; reflexivity). clear RNG.
  assert (Ec0 : exists hc wcr, centred px w = hc :: wcr) by (rewrite <- P2; cbn [plain map]; eauto). destruct Ec0 as (hc & wcr & Ec).
  assert (SM0 : exists ws2, foldM (momsums_body (g2 :: rest) g2) px wsums_zero = Ok ws2 /\ sums_of ws2 (centred px w) px)
    by (rewrite Ec in *; apply momsums; assumption).
  destruct SM0 as (ws2 & -> & SM).
  assert (S5 : ws_sums ws2 5 = wflux (centred px w) px) by (destruct SM as (_ & _ & S & _); rewrite S by lia; reflexivity).
  rewrite S5. destruct (Rleb_spec (wflux (centred px w) px) 0) as [F1|F1].
  { cbn. split; [reflexivity|]. left. split; [discriminate|]. eapply e_flux2; eassumption. }
  destruct (sums_mom ws2 _ px SM ltac:(lra)) as (_ & M1 & M2 & MT). rewrite S5 in M1, M2, MT. rewrite M1, M2, MT.
  remember (mom2 px (centred px w)) as M eqn:EM.
  replace (5/10 * (xx M + yy M - (xx M - yy M))) with (yy M) by field.
  replace (5/10 * (xx M + yy M + (xx M - yy M))) with (xx M) by field.
  replace (5/10 * (2 * xy M)) with (xy M) by field. change (xx M + yy M) with (trace2 M).
  destruct (Rleb_spec (trace2 M) 0) as [TT|TT].
  { cbn. split; [reflexivity|]. left. split; [discriminate|]. eapply e_size; try eassumption. rewrite <- EM. exact TT. }
  change ((xx M - yy M) / trace2 M) with (shape1 M). change (2 * xy M / trace2 M) with (shape2 M).
  assert (ME : measures c px w0 w (centred px w) M) by (unfold measures; repeat split; auto; try apply IR; lra).
  set (conv := match as_old s with None => false | Some _ => _ end).
  assert (CV : conv = true <-> exists M0, old = Some M0 /\ agrees c M0 M).
  { unfold conv. destruct old as [M0|]; cbn [old_rel] in OR; rewrite OR.
    - unfold agrees. destruct (Rltb_spec (Rabs (shape1 M - shape1 M0)) (ac_etol c)), (Rltb_spec (Rabs (shape2 M - shape2 M0)) (ac_etol c)),
        (Rltb_spec (Rabs (trace2 M / trace2 M0 - 1)) (ac_Ttol c)); cbn [andb]; (split; [intros K|intros (X & KX & KK)]);
        try discriminate; try (exists M0; split; [reflexivity|]; tauto); injection KX as <-; (reflexivity || exfalso; lra).
    - split; [discriminate|]. intros (X & KX & _). discriminate. }
  destruct conv eqn:CC.
  { cbn [fst snd as_rec as_wt ar_flags ar_numiter with_ws]. split; [reflexivity|]. right. split; [exact FL|]. destruct (proj1 CV eq_refl) as (M0 & E0 & AG).
    exists M0, (centred px w), M. split; [exact E0|]. split; [exact ME|]. split; [exact AG|]. split; [|exact CE].
    split; [exact SM|]. cbn [ar_pars ar_rho4].
    assert (X : xx (cov0_of (centred px w)) = g_icc g2 /\ xy (cov0_of (centred px w)) = g_irc g2 /\ yy (cov0_of (centred px w)) = g_irr g2) by (rewrite <- R3; auto).
    destruct X as (-> & -> & ->). split; [reflexivity|]. f_equal.
    destruct SM as (_ & _ & S & _). rewrite (S 6%nat) by lia. unfold wmean. reflexivity. }
  assert (NA : forall M0, old = Some M0 -> ~ agrees c M0 M).
  { intros M0 E0 AG. assert (false = true) by (apply CV; eauto). discriminate. }
  destruct (ac_cenonly c) eqn:CN.
  { cbn [fst snd as_rec as_wt as_old with_ws ar_flags ar_numiter]. exists M, (centred px w). split.
    - eapply r_next; try eassumption. unfold next. rewrite CN. reflexivity.
    - split; [split; [exact P2|split; [exact C2|discriminate]]|]. split; [reflexivity|]. split; [exact FL|reflexivity]. }
  pose proof (deweight_eq g2 M ltac:(lra)) as DW. rewrite R3 in DW. destruct (deweight_moments g2 (yy M) (xy M) (xx M)) as [g3|].
  - destruct DW as (CD & G3 & H3). cbn [fst snd as_rec as_wt as_old with_ws ar_flags ar_numiter].
    exists M, (reshaped (centred px w) (deweighted (cov0_of (centred px w)) M)). split.
    + eapply r_next; try eassumption. unfold next. rewrite CN. auto.
    + split; [|split; [reflexivity|split; [exact FL|reflexivity]]]. split; [|split; [|discriminate]].
      * rewrite Ec in P2. cbn [plain map] in P2. injection P2 as Phd Prest. rewrite Ec. cbn [plain map reshaped cov0_of]. f_equal; [|exact Prest].
        unfold fresh in G3. rewrite G3, Ec, <- Phd. cbn. reflexivity.
      * constructor; [exact H3|]. apply Forall_cons_iff in C2. apply C2.
  - cbn. split; [reflexivity|]. left. split; [discriminate|]. eapply e_deweight; eassumption.
Qed.
End Iter.

(** ** the loop *)
Section Loop.
Variables (c : am_conf) (px : list (pixel R)) (w0 : gmix).
Hypothesis U : usable_pixels px.

Definition final (s : am_state) (n : nat) : Prop :=
  ar_flags (as_rec s) <> 0%Z /\ ends c px w0 (ar_flags (as_rec s)) n \/
  ar_flags (as_rec s) = 0%Z /\ n = ac_maxiter c /\ ends c px w0 MAXITER n \/
  ar_flags (as_rec s) = 0%Z /\ exists i M0 w wc M, n = S i /\ (i < ac_maxiter c)%nat /\ reached c px w0 i (Some M0) w /\ measures c px w0 w wc M /\ agrees c M0 M /\
     converged_rec (as_rec s) wc px /\ Forall2 visible wc (as_wt s).
Lemma loop_spec n : forall i old w s, (n + i = ac_maxiter c)%nat -> reached c px w0 i old w -> wt_of w (as_wt s) -> old_rel old (as_old s) ->
  ar_flags (as_rec s) = 0%Z ->
  match am_loop c (row0_of w0) (col0_of w0) px n i s with
  | (s', Ok k) => (i <= k <= ac_maxiter c)%nat /\ (0 < n -> 0 < k)%nat /\ final s' k
  | (s', Raise e) => e = GMixRangeError /\ ends c px w0 GMIX_RANGE_ERROR 0 /\ ar_numiter (as_rec s') = ar_numiter (as_rec s)
  end.
Proof.
  induction n as [|n IH]; intros i old w s E R W O F; cbn [am_loop].
  - split; [lia|]. split; [lia|]. right. left. split; [exact F|]. split; [lia|]. replace i with (ac_maxiter c) in * by lia. eapply e_maxiter. exact R.
  - pose proof (iter_spec c px w0 U i old w s ltac:(lia) R W O F) as I. destruct (am_iter c (row0_of w0) (col0_of w0) px s) as [s' [[]|e]].
    + destruct I as (_ & [(A & B)|(A & M0 & wc & M & E0 & ME & AG & CR & V)]).
      * split; [lia|]. split; [lia|]. left. auto.
      * split; [lia|]. split; [lia|]. right. right. split; [exact A|]. exists i, M0, w, wc, M. subst old. repeat (split; [auto; lia|]). auto.
    + destruct I as (M & w' & R' & W' & O' & F' & N'). specialize (IH (S i) (Some M) w' s' ltac:(lia) R' W' O' F').
      destruct (am_loop _ _ _ _ n (S i) s') as [s2 [k|e]].
      * destruct IH as (A & B & C). split; [lia|]. split; [lia|exact C].
      * rewrite N' in IH. exact IH.
    + destruct I as (A & B & C). rewrite C. auto.
Qed.
End Loop.

Lemma plain_wt wt : good_guess wt -> wt_of (plain wt) wt.
Proof. intros [A B]. split; [reflexivity|auto]. Qed.
Lemma row0_plain wt : wt <> [] -> row0_of (plain wt) = row0_of wt /\ col0_of (plain wt) = col0_of wt.
Proof. destruct wt; [congruence|]. auto. Qed.
(** record and mixture after the compiled function *)
Definition stopped (c : am_conf) (px : list (pixel R)) (w0 : gmix) (wt' : gmix) (r : am_rec) : Prop :=
  exists f, ends c px w0 f (ar_numiter r) /\ (ar_numiter r <= ac_maxiter c)%nat /\
    ar_flags r = (if Nat.eqb (ar_numiter r) (ac_maxiter c) then MAXITER else f) /\
    (ar_flags r = 0%Z -> exists i M0 w wc M, ar_numiter r = S i /\ reached c px w0 i (Some M0) w /\ measures c px w0 w wc M /\ agrees c M0 M /\
       converged_rec r wc px /\ Forall2 visible wc wt').
Lemma admom_spec c px wt : good_guess wt -> usable_pixels px -> (0 < ac_maxiter c)%nat ->
  match admom c wt px am_rec0 with
  | (wt', r, Ok _) => (0 < ar_numiter r)%nat /\ stopped c px (plain wt) wt' r
  | (wt', r, Raise e) => e = GMixRangeError /\ ends c px (plain wt) GMIX_RANGE_ERROR 0 /\ ar_numiter r = 0%nat
  end.
Proof.
  intros G U N. unfold admom. destruct wt as [|g rest] eqn:E; [destruct G; congruence|]. rewrite <- E in *.
  pose proof (loop_spec c px (plain wt) U (ac_maxiter c) 0 None (plain wt) (mkAs wt am_rec0 None) ltac:(lia) (r_start c px (plain wt)) (plain_wt wt G) eq_refl eq_refl) as L.
  destruct (row0_plain wt) as [R1 R2]; [apply G|]. rewrite R1, R2 in L. replace (g_row g) with (row0_of wt) by (rewrite E; reflexivity).
  replace (g_col g) with (col0_of wt) by (rewrite E; reflexivity).
  destruct (am_loop _ _ _ _ _ 0 _) as [s [k|e]].
  - destruct L as (A & B & C). destruct k as [|k]; [lia|]. cbn [ar_numiter]. split; [lia|]. unfold stopped. cbn [ar_numiter ar_flags].
    destruct C as [(C1 & C2)|[(C1 & C2 & C3)|(C1 & i & M0 & w & wc & M & Ei & Li & RR & ME & AG & CR & V)]].
    + exists (ar_flags (as_rec s)). split; [exact C2|]. split; [lia|]. split; [reflexivity|]. destruct (Nat.eqb _ _); intros K; [discriminate|congruence].
    + exists MAXITER. split; [exact C3|]. split; [lia|]. rewrite <- C2, Nat.eqb_refl. split; [reflexivity|discriminate].
    + exists 0%Z. split; [rewrite Ei; eapply e_converged; eassumption|]. split; [lia|]. rewrite C1. split; [reflexivity|]. intros _.
      exists i, M0, w, wc, M. split; [exact Ei|]. split; [exact RR|]. split; [exact ME|]. split; [exact AG|]. split; [|exact V].
      destruct CR as (X1 & X2 & X3). split; [exact X1|]. split; [exact X2|exact X3].
  - destruct L as (A & B & C). auto.
Qed.
