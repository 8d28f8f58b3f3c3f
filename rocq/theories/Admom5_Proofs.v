(** The guess is changed; masked pixels; searching for the centre. *)
From Verif Require Import Base XReal Moments_Model Moments_Spec Shape_Model Shape_Spec Shape_Proofs Jacobian_Model Pixels_Model GMix_Model GMix_Spec GMix_Proofs FastExp_Model FastExp_Proofs
  Render_Model Render_Spec Render_Proofs GMixObj_Model GMixObj_Spec GMixObj_Proofs Flags_Model WSums_Model WSums_Proofs MomResult_Model MomResult_Spec MomResult_Proofs
  ObsS2N_Proofs EM_Model EM_Spec EM_Proofs Admom_Model Admom_Spec Admom_Proofs Admom2_Proofs Admom3_Proofs Admom4_Proofs.
Local Open Scope R_scope.

(** ** two pixels beside the guess *)
Definition gU (col : R) : gauss := gauss2d_set 1 0 col 1 0 1.
Definition pxU : list (pixel R) := [mkPix 1 1 1 1 1; mkPix 1 (-1) 1 1 1].
Definition obsU : aobs := mkAo pxU jac1.
Lemma gU_evaluable col : evaluable (gU col).
Proof. pose proof low_small. unfold low in *. unfold evaluable, gU, gauss2d_set, gcov, cov, det2, trace2. cbn. lra. Qed.
Lemma distU col v u val ie : dist2 (gU col) (mkPix u v 1 val ie) = v * v + (u - col) * (u - col).
Proof. unfold dist2, maha, gU, gauss2d_set, gcov, cov, det2. cbn [px_v px_u g_row g_col g_irr g_irc g_icc xx xy yy]. field. Qed.
Lemma weightU col : 0 <= col <= 1 -> exists q, 0 < q /\ am_weight [gU col] (mkPix 1 1 1 1 1) = q /\ am_weight [gU col] (mkPix 1 (-1) 1 1 1) = q.
Proof.
  intros H. exists (in_pixel (gU col) (mkPix 1 1 1 1 1)). split.
  - apply in_pixel_pos; [apply gU_evaluable|cbn; lra|cbn; lra|]. rewrite distU. nra.
  - unfold am_weight. cbn [map]. rewrite !rsum_cons, !rsum_nil. split; [ring|]. rewrite Rplus_0_r. unfold in_pixel. rewrite !distU. cbn [px_area].
    replace (-1 * -1) with (1 * 1) by ring. reflexivity.
Qed.
Lemma wtdU col : 0 <= col <= 1 -> exists q, 0 < q /\ forall f, wtd [gU col] pxU f = q * (f (mkPix 1 1 1 1 1) + f (mkPix 1 (-1) 1 1 1)).
Proof.
  intros H. destruct (weightU col H) as (q & Q & A & B). exists q. split; [exact Q|]. intros f. unfold wtd, pxU. cbn [map]. rewrite !rsum_cons, rsum_nil, A, B. cbn [px_val]. ring.
Qed.
Lemma centredU col : 0 <= col <= 1 -> centred pxU [gU col] = [gU 1] /\ 0 < wflux [gU col] pxU.
Proof.
  intros H. destruct (wtdU col H) as (q & Q & W). unfold centred, wmean, wflux. rewrite !W. cbn [px_v px_u]. split; [|lra].
  replace (q * (1 + -1) / (q * (1 + 1))) with 0 by (field; lra). replace (q * (1 + 1) / (q * (1 + 1))) with 1 by (field; lra). reflexivity.
Qed.
Lemma mom2U : mom2 pxU [gU 1] = mkSym 0 0 1.
Proof.
  destruct (wtdU 1 ltac:(lra)) as (q & Q & W). unfold mom2, wmean, wflux. rewrite !W. unfold dv, du. cbn [row0_of col0_of gU gauss2d_set g_row g_col px_v px_u].
  f_equal; field; lra.
Qed.
Definition confU := mkAc 200 5 (1/100000) (1/1000) true.
Lemma measuresU col : 0 <= col <= 1 -> measures confU pxU [gU 0] [gU col] [gU 1] (mkSym 0 0 1).
Proof.
  intros H. pose proof low_small. destruct (centredU col H) as [C F]. destruct (centredU 1 ltac:(lra)) as [_ F1]. unfold measures. rewrite C, mom2U.
  split; [unfold gU, gauss2d_set, cov0_of, gcov, cov, det2; cbn; lra|]. split; [constructor; [apply gU_evaluable|constructor]|]. split; [exact F|]. split; [reflexivity|].
  split; [|split; [exact F1|split; [reflexivity|unfold trace2; cbn; lra]]].
  unfold in_range, confU. cbn. rewrite Rminus_0_r, Rabs_R0, Rminus_0_r, Rabs_R1. lra.
Qed.
Lemma convergesU : converges confU pxU [gU 0] 2 [gU 1].
Proof.
  exists 1%nat, (mkSym 0 0 1), [gU 1], (mkSym 0 0 1). split; [reflexivity|]. split.
  - eapply r_next; [apply r_start|apply measuresU; lra|discriminate|reflexivity].
  - split; [apply measuresU; lra|]. unfold agrees, confU. cbn [ac_etol ac_Ttol]. replace (trace2 (mkSym 0 0 1) / trace2 (mkSym 0 0 1) - 1) with 0 by (unfold trace2; cbn; field).
    rewrite !Rminus_diag_eq, Rabs_R0 by reflexivity. lra.
Qed.
Lemma goodU : good_input confU obsU [gU 0].
Proof.
  split; [split; [discriminate|constructor; [unfold coherent, gU, gauss2d_set, gcov, cov, det2; cbn; ring|constructor]]|].
  split; [constructor; [cbn; lra|constructor]|]. split; [|split; [|split; [cbn; lia|unfold get_area; cbn; lra]]].
  - repeat (constructor; [cbn; lra|]). constructor.
  - repeat (constructor; [cbn; lra|]). constructor.
Qed.
Lemma movedU : plain (fst (am_run confU obsU [gU 0])) = [gU 1].
Proof.
  assert (E : ends confU (ao_pix obsU) (plain [gU 0]) 0 2) by (apply converges_ends with [gU 1]; [cbn; lia|apply convergesU]).
  destruct (outcome confU obsU [gU 0] 0 2 goodU E) as (_ & d & D1 & D2 & _ & D3). destruct (D3 eq_refl) as (wc & CV & _ & _ & P). rewrite P.
  eapply converges_unique; [exact CV|apply convergesU|reflexivity].
Qed.
Definition heapU : heap := alloc empty_heap (mkObj KFull 1 6 [1; 0; 0; 1; 0; 1] [gU 0]).
Lemma wfU : wf heapU. Proof. apply alloc_wf, empty_wf. Qed.
Lemma guess_changed : exists h' r g g', am_go confU heapU obsU (GObj 0) = Some (h', r) /\ read heapU 0 = Some g /\ read h' 0 = Some g' /\
  gm_get_full_pars (o_data g) = [1; 0; 0; 1; 0; 1] /\ gm_get_full_pars (o_data g') = [1; 0; 1; 1; 0; 1].
Proof.
  assert (R : read heapU 0 = Some (mkObj KFull 1 6 [1; 0; 0; 1; 0; 1] [gU 0])) by reflexivity.
  destruct (go_writes confU heapU obsU 0 _ wfU R) as (h' & r & E & _ & (g' & R' & D') & _). exists h', r, (mkObj KFull 1 6 [1; 0; 0; 1; 0; 1] [gU 0]), g'.
  split; [exact E|]. split; [exact R|]. split; [exact R'|]. split; [reflexivity|].
  assert (FP : forall a, gm_get_full_pars a = gm_get_full_pars (plain a)). { intros a. unfold gm_get_full_pars, plain. induction a as [|x a IH]; [reflexivity|]. cbn [map flat_map]. rewrite IH. reflexivity. }
  rewrite FP, D'. cbn [o_data]. rewrite movedU. reflexivity.
Qed.

(** ** pixels of zero weight *)
Lemma momsums_zero h g rest rest' px : Forall2 visible (h :: rest) (g :: rest') -> Exists (fun p => px_ierr p = 0) px -> forall s,
  foldM (momsums_body (g :: rest') g) px s = Raise ZeroDivisionError.
Proof.
  intros V. assert (VH : visible h g) by (inversion V; assumption). destruct VH as (_ & _ & _ & (_ & n & En & _)).
  induction 1 as [p px Z|p px Z IH]; intros s; cbn [foldM]; unfold momsums_body at 1; rewrite (eval_weight _ _ _ V); cbn [bind].
  - rewrite Z, Reqb_t by ring. reflexivity.
  - destruct (Reqb_spec (px_ierr p * px_ierr p) 0) as [E|E]; [reflexivity|]. rewrite En. cbn [bind]. apply IH.
Qed.
Lemma zero_weight c o wt : good_guess wt -> (0 < ac_maxiter c)%nat -> low <= det2 (cov0_of wt) -> Forall evaluable wt -> 0 < wflux (plain wt) (ao_pix o) ->
  in_range c (plain wt) (centred (ao_pix o) (plain wt)) -> Exists (fun p => px_ierr p = 0) (ao_pix o) -> snd (am_run c o wt) = Raise ZeroDivisionError.
Proof.
  intros [NE CO] N LD EV F IR Z. set (px := ao_pix o) in *. unfold am_run. fold px. unfold admom. destruct wt as [|g0 wt0] eqn:EW; [congruence|]. rewrite <- EW in *.
  assert (R0 : g_row g0 = row0_of (plain wt) /\ g_col g0 = col0_of (plain wt)) by (rewrite EW; auto). destruct R0 as [-> ->].
  destruct (ac_maxiter c) as [|n]; [lia|]. cbn [am_loop].
  assert (IT : exists s', am_iter c (row0_of (plain wt)) (col0_of (plain wt)) px (mkAs wt am_rec0 None) = (s', Raise ZeroDivisionError)).
  { unfold am_iter. cbn [as_wt as_rec as_old]. rewrite EW. cbn [cov0_of] in LD. rewrite EW in LD. cbn [cov0_of] in LD.
    assert (C0 : coherent g0) by (rewrite EW in CO; apply Forall_cons_iff in CO; apply CO). rewrite C0. unfold GMIX_LOW_DETVAL. fold low. rewrite Rltb_f by lra. rewrite <- EW.
    destruct (norms_ok _ CO EV) as (wt1 & -> & V). destruct wt1 as [|g1 rest]; [rewrite EW in V; inversion V|].
    destruct (vis_plain _ _ V) as (V1 & P1 & C1). clear V.
    destruct (censums (plain wt) (g1 :: rest) px V1 wsums_zero) as (ws & -> & A0 & A1 & A5). cbn [ws_sums wsums_zero] in A0, A1, A5.
    rewrite Rplus_0_l in A0, A1, A5. rewrite A5. rewrite Rleb_f by lra.
    assert (CE : Forall2 visible (centred px (plain wt)) (set_cen0 g1 (ws_sums ws 0 / wflux (plain wt) px) (ws_sums ws 1 / wflux (plain wt) px) :: rest)).
    { rewrite A0, A1. unfold centred, wmean. generalize (wtd (plain wt) px px_v / wflux (plain wt) px) (wtd (plain wt) px px_u / wflux (plain wt) px). intros a b.
      rewrite EW in *. cbn [plain map moved] in *. inversion V1; subst. apply vis_moved; assumption. }
    set (g2 := set_cen0 g1 (ws_sums ws 0 / wflux (plain wt) px) (ws_sums ws 1 / wflux (plain wt) px)) in *.
    assert (Ec0 : exists hc wcr, centred px (plain wt) = hc :: wcr) by (rewrite EW; cbn [plain map]; eexists; eexists; reflexivity). destruct Ec0 as (hc & wcr & Ec).
    destruct (vis_plain _ _ CE) as (_ & P2 & _).
    assert (R1 : g_row g2 = row0_of (centred px (plain wt)) /\ g_col g2 = col0_of (centred px (plain wt))).
    { rewrite Ec in *. cbn [plain map] in P2. injection P2 as PA PB PC PD PE PF PG. cbn [row0_of col0_of]. auto. }
    destruct R1 as [-> ->]. destruct IR as [I1 I2]. rewrite (Rltb_f (ac_shiftmax c)) by exact I1. rewrite (Rltb_f (ac_shiftmax c)) by exact I2. cbn [orb].
    rewrite Ec in CE. rewrite (momsums_zero _ _ _ _ px CE Z). eexists. reflexivity. }
  destruct IT as (s' & ->). reflexivity.
Qed.
Lemma zero_weight_sample : let c := confU in let o := mkAo [mkPix 0 0 1 1 1; mkPix 0 0 1 1 0] jac1 in
  good_guess [gU 0] /\ real_pixels (ao_pix o) /\ snd (am_run c o [gU 0]) = Raise ZeroDivisionError.
Proof.
  intros c o. assert (G : good_guess [gU 0]) by apply goodU. split; [exact G|]. split; [repeat (constructor; [cbn; lra|]); constructor|].
  pose proof low_small.
  assert (Q : exists q, 0 < q /\ forall f, wtd [gU 0] (ao_pix o) f = q * (f (mkPix 0 0 1 1 1) + f (mkPix 0 0 1 1 0))).
  { exists (in_pixel (gU 0) (mkPix 0 0 1 1 1)). split.
    - apply in_pixel_pos; [apply gU_evaluable|cbn; lra|cbn; lra|]. rewrite distU. lra.
    - intros f. unfold wtd. cbn [o ao_pix map]. rewrite !rsum_cons, rsum_nil. unfold am_weight. cbn [map]. rewrite !rsum_cons, !rsum_nil.
      change (in_pixel (gU 0) (mkPix 0 0 1 1 0)) with (in_pixel (gU 0) (mkPix 0 0 1 1 1)). cbn [px_val]. ring. }
  destruct Q as (q & Qp & W).
  apply zero_weight; [exact G|cbn; lia|unfold gU, gauss2d_set, cov0_of, gcov, cov, det2; cbn; lra|constructor; [apply gU_evaluable|constructor]| | |].
  - change (plain [gU 0]) with [gU 0]. unfold wflux. rewrite W. lra.
  - change (plain [gU 0]) with [gU 0]. unfold centred, wmean, wflux. rewrite !W. cbn [px_v px_u]. replace (q * (0 + 0) / (q * (1 + 1))) with 0 by (field; lra).
    unfold in_range. cbn. rewrite Rminus_0_r, Rabs_R0. lra.
  - right. left. reflexivity.
Qed.
Lemma no_iterations c o wt : wt <> [] -> ac_maxiter c = 0%nat -> snd (am_run c o wt) = Raise UnboundLocalError.
Proof. intros NE M. unfold am_run, admom. destruct wt; [congruence|]. rewrite M. reflexivity. Qed.

(** ** searching for the centre *)
(** components keep everything but the position *)
Definition shape_kept (g g' : gauss) : Prop :=
  g_p g' = g_p g /\ g_irr g' = g_irr g /\ g_irc g' = g_irc g /\ g_icc g' = g_icc g /\ g_det g' = g_det g.
Lemma kept_refl w : Forall2 shape_kept w w. Proof. induction w; constructor; auto. repeat split. Qed.
Lemma kept_trans a : forall b d, Forall2 shape_kept a b -> Forall2 shape_kept b d -> Forall2 shape_kept a d.
Proof.
  induction a as [|x a IH]; intros b d A B; inversion A; subst; inversion B; subst; constructor.
  - unfold shape_kept in *. intuition congruence.
  - eapply IH; eassumption.
Qed.
Lemma norms_kept gm : Forall2 shape_kept gm (fst (gmix_set_norms gm)).
Proof.
  induction gm as [|g r IH]; cbn [gmix_set_norms]; [constructor|]. destruct (gauss2d_set_norm g) as [g'|e] eqn:E; [|apply kept_refl].
  assert (K : shape_kept g g').
  { unfold gauss2d_set_norm in E. repeat match type of E with context [if ?b then _ else _] => destruct b end; try discriminate; injection E as <-; repeat split. }
  destruct (gmix_set_norms r) as [r' e]. constructor; assumption.
Qed.
Lemma iter_kept c a b px s : ac_cenonly c = true -> Forall2 shape_kept (as_wt s) (as_wt (fst (am_iter c a b px s))).
Proof.
  intros CN. unfold am_iter. destruct (as_wt s) as [|g0 r0] eqn:E; [cbn [fst]; rewrite E; constructor|]. rewrite <- E. pose proof (norms_kept (as_wt s)) as N.
  destruct (Rltb _ _); [apply kept_refl|]. destruct (gmix_set_norms (as_wt s)) as [[|g1 rest] [[]|e]]; cbn [fst] in N; try exact N; [apply kept_refl|].
  assert (N2 : forall r c', Forall2 shape_kept (as_wt s) (set_cen0 g1 r c' :: rest)).
  { intros. eapply kept_trans; [exact N|]. constructor; [repeat split|apply kept_refl]. }
  destruct (foldM _ px _) as [ws|e]; [|exact N]. destruct (Rleb _ _); [exact N|]. cbv zeta. destruct (_ || _); [apply N2|].
  destruct (foldM _ px _) as [ws2|e]; [|apply N2]. destruct (Rleb _ _); [apply N2|]. destruct (Rleb _ _); [apply N2|].
  destruct (match as_old s with None => false | Some _ => _ end); [apply N2|]. rewrite CN. apply N2.
Qed.
Lemma loop_kept c a b px n : ac_cenonly c = true -> forall i s, Forall2 shape_kept (as_wt s) (as_wt (fst (am_loop c a b px n i s))).
Proof.
  intros CN. induction n as [|n IH]; intros i s; cbn [am_loop]; [apply kept_refl|]. pose proof (iter_kept c a b px s CN) as N.
  destruct (am_iter c a b px s) as [s' [[]|e]]; cbn [fst] in *; auto. eapply kept_trans; [exact N|apply IH].
Qed.
Lemma run_kept c o wt : ac_cenonly c = true -> Forall2 shape_kept wt (fst (am_run c o wt)).
Proof.
  intros CN. unfold am_run. assert (K : Forall2 shape_kept wt (fst (fst (admom c wt (ao_pix o) am_rec0)))).
  { unfold admom. destruct wt as [|g rest]; [constructor|]. pose proof (loop_kept c (g_row g) (g_col g) (ao_pix o) (ac_maxiter c) CN 0 (mkAs (g :: rest) am_rec0 None)) as N.
    destruct (am_loop _ _ _ _ _ _ _) as [s [[|k]|e]]; exact N. }
  destruct (admom c wt (ao_pix o) am_rec0) as [[wt' r] e]. cbn [fst] in K. destruct e as [[]|[]]; exact K.
Qed.
Lemma set_cen_kept wt r c wt' : gm_set_cen wt r c = Some wt' -> Forall2 shape_kept wt wt'.
Proof.
  unfold gm_set_cen. destruct (gm_get_cen wt) as [[r0 c0]|]; [|discriminate]. intros E. injection E as <-.
  induction wt as [|g w IH]; constructor; auto. repeat split.
Qed.
Lemma kept_good w w' : Forall2 shape_kept w w' -> good_guess w -> positive_weight w -> good_guess w' /\ positive_weight w' /\ cov0_of w' = cov0_of w.
Proof.
  intros K [NE C] P. split; [split|split].
  - inversion K; subst; [congruence|discriminate].
  - clear NE P. induction K as [|g g' l l' (A1 & A2 & A3 & A4 & A5) K IH]; [constructor|]. apply Forall_cons_iff in C. destruct C as [C0 C]. constructor; [|auto].
    unfold coherent in *. rewrite A5, C0. unfold gcov, cov, det2. cbn. rewrite A2, A3, A4. reflexivity.
  - clear NE C. unfold positive_weight in *. induction K as [|g g' l l' (A1 & A2 & A3 & A4 & A5) K IH]; [constructor|]. apply Forall_cons_iff in P. destruct P as [P0 P]. constructor; [lra|auto].
  - destruct K as [|g g' l l' (A1 & A2 & A3 & A4 & A5) K]; [reflexivity|]. cbn. unfold gcov, cov. rewrite A2, A3, A4. reflexivity.
Qed.
Lemma reached_cov c px w0 i old w : ac_cenonly c = true -> reached c px w0 i old w -> cov0_of w = cov0_of w0.
Proof.
  intros CN. induction 1 as [|i old w wc M w' R IH ME NA NX]; [reflexivity|]. unfold next in NX. rewrite CN in NX. subst w'.
  destruct ME as (_ & _ & _ & -> & _). rewrite <- IH. unfold centred. destruct w; reflexivity.
Qed.
Lemma converges_cov c px w0 n wc : ac_cenonly c = true -> converges c px w0 n wc -> cov0_of wc = cov0_of w0 /\ low <= det2 (cov0_of wc) /\ low < trace2 (cov0_of wc).
Proof.
  intros CN (i & M0 & w & M & _ & R & ME & _). pose proof (reached_cov _ _ _ _ _ _ CN R) as RC. pose proof (measures_ne _ _ _ _ _ _ ME) as NE.
  destruct ME as (D & E & _ & -> & _). assert (K : cov0_of (centred px w) = cov0_of w) by (unfold centred; destruct w; reflexivity).
  rewrite K. split; [exact RC|]. split; [exact D|]. apply centred_evaluable with (px := px) in E. destruct (centred px w) eqn:EE; [congruence|].
  apply Forall_cons_iff in E. destruct E as [[_ E] _]. unfold low. rewrite <- K. exact E.
Qed.
Lemma plain_cov wt : cov0_of (plain wt) = cov0_of wt. Proof. destruct wt; reflexivity. Qed.
Definition can_move (g : gmobj) : Prop := o_kind g = KFull \/ (2 <= length (o_pars g))%nat.
Lemma positive_cen w : w <> [] -> positive_weight w -> exists r c, gm_get_cen w = Some (r, c).
Proof.
  intros NE P. unfold gm_get_cen, np_div. assert (0 < rsum (map g_p w)).
  { apply rsum_pos; [destruct w; [congruence|discriminate]|]. intros x I. apply in_map_iff in I. destruct I as (g & <- & I). unfold positive_weight in P. rewrite Forall_forall in P. auto. }
  rewrite Reqb_f by lra. eauto.
Qed.
Lemma try_spec c h o k g : usable_obs c o -> wf h -> read h k = Some g -> good_guess (o_data g) -> positive_weight (o_data g) -> can_move g ->
  exists h' d, am_go (cen_conf c) h o (GObj k) = Some (h', Ok d) /\ wf h' /\ (forall j, j <> k -> read h' j = read h j) /\
    (exists g', read h' k = Some g' /\ good_guess (o_data g') /\ positive_weight (o_data g') /\ cov0_of (o_data g') = cov0_of (o_data g) /\ can_move g') /\
    (d_flags d = 0%Z -> exists wc, found c o (cov0_of (o_data g)) d wc).
Proof.
  intros (U & RP & N & A) W R G P CM. assert (GI : good_input (cen_conf c) o (o_data g)) by (split; [exact G|]; auto 10).
  destruct (am_run_spec _ _ _ GI) as (d & f & ER & _). pose proof (run_kept (cen_conf c) o (o_data g) eq_refl) as K. pose proof (ok_converged _ _ _ d GI ER) as OC.
  unfold am_go. rewrite R. destruct (am_run (cen_conf c) o (o_data g)) as [w' r] eqn:EA. cbn [fst snd] in *. subst r.
  exists (write h k (with_data g w')), d. split; [reflexivity|]. split; [apply write_wf; exact W|]. split; [intros j Hj; apply read_write_other; auto|].
  destruct (kept_good _ _ K G P) as (G' & P' & C'). split.
  - exists (with_data g w'). split; [apply read_write_same with g; auto|]. cbn [o_data with_data]. split; [exact G'|]. split; [exact P'|]. split; [exact C'|exact CM].
  - intros F. destruct (OC F) as (_ & wc & CV & DD & _ & _). exists wc.
    destruct (converges_cov (cen_conf c) _ _ _ _ eq_refl CV) as (CC & _). rewrite plain_cov in CC. split; [exact CC|]. split; [exact DD|]. exists (o_data g). auto.
Qed.
Lemma cen_loop_spec c o many k W : usable_obs c o -> forall ntry draws h last g,
  wf h -> read h k = Some g -> good_guess (o_data g) -> positive_weight (o_data g) -> cov0_of (o_data g) = W -> can_move g ->
  (forall d, last = Some d -> d_flags d <> 0%Z) -> (many = true -> (ntry <= length draws)%nat) ->
  exists h' x, cen_loop (cen_conf c) o many k ntry draws h last = Some (h', Ok x) /\ (forall j, j <> k -> read h' j = read h j) /\
    (x = None -> ntry = 0%nat /\ last = None) /\ (forall d, x = Some d -> d_flags d = 0%Z -> exists wc, found c o W d wc).
Proof.
  intros U. induction ntry as [|n IH]; intros draws h last g WF R G P C CM LF DR; cbn [cen_loop].
  - exists h, last. split; [reflexivity|]. split; [auto|]. split; [auto|]. intros d E F. exfalso. exact (LF d E F).
  - destruct (try_spec c h o k g U WF R G P CM) as (h1 & d & E1 & WF1 & O1 & (g1 & R1 & G1 & P1 & C1 & CM1) & FD). rewrite E1.
    destruct (Z.eqb_spec (d_flags d) 0) as [F|F].
    + exists h1, (Some d). split; [reflexivity|]. split; [exact O1|]. split; [discriminate|]. intros d' Q _. injection Q as <-. rewrite C in FD. exact (FD F).
    + assert (LF' : forall d', Some d = Some d' -> d_flags d' <> 0%Z) by (intros d' Q; injection Q as <-; exact F).
      destruct many.
      * specialize (DR eq_refl). destruct draws as [|[u1 u2] draws]; [cbn in DR; lia|]. cbn [length] in DR.
        set (rr := uniform _ _ u1). set (cc := uniform _ _ u2). cbn [step]. rewrite R1. cbn [call].
        destruct (positive_cen (o_data g1) (proj1 G1) P1) as (r0 & c0 & EC).
        assert (ES : exists d2, gm_set_cen (o_data g1) rr cc = Some d2) by (unfold gm_set_cen; rewrite EC; eauto). destruct ES as (d2 & ES). rewrite ES.
        pose proof (set_cen_kept _ _ _ _ ES) as K. destruct (kept_good _ _ K G1 P1) as (G2 & P2 & C2).
        assert (ST : exists p, match o_kind g1 with KFull => Some (with_data g1 d2, Ok tt) | _ => let (p, r) := set2 (o_pars g1) rr cc in Some (with_pars (with_data g1 d2) p, r) end = Some (p, Ok tt) /\ can_move p /\ o_data p = d2 /\ o_kind p = o_kind g1 /\ o_ngauss p = o_ngauss g1 /\ o_npars p = o_npars g1).
        { destruct CM1 as [K1|L1]; [rewrite K1; eexists; split; [reflexivity|]; split; [left; exact K1|auto]|].
          destruct (o_pars g1) as [|a0 [|a1 ar]] eqn:EP; cbn in L1; try lia. cbn [set2].
          destruct (o_kind g1) eqn:EK; (eexists; split; [reflexivity|]; split; [right; cbn; rewrite ?EP; cbn; lia|auto]). }
        destruct ST as (p & ST & CMp & Dp & K1 & K2 & K3). rewrite ST. rewrite <- Dp in G2, P2, C2. rewrite C1, C in C2.
        assert (RW : read (write h1 k p) k = Some p) by (apply read_write_same with g1; auto).
        destruct (IH draws (write h1 k p) (Some d) p (write_wf _ _ _ WF1) RW G2 P2 C2 CMp LF' ltac:(intros _; lia)) as (h' & x & E & A & B & D).
        exists h', x. split; [exact E|]. split; [intros j Hj; rewrite A, read_write_other, O1; auto|]. split; [intros X; destruct (B X) as [_ Q]; discriminate|exact D].
      * rewrite C in C1. destruct (IH draws h1 (Some d) g1 WF1 R1 G1 P1 C1 CM1 LF' ltac:(discriminate)) as (h' & x & E & A & B & D).
        exists h', x. split; [exact E|]. split; [intros j Hj; rewrite A, O1; auto|]. split; [intros X; destruct (B X) as [_ Q]; discriminate|exact D].
Qed.
Lemma one_cen W r0 c0 : gm_get_cen [gauss2d_set 1 r0 c0 (yy W) (xy W) (xx W)] = Some (r0, c0).
Proof.
  unfold gm_get_cen, np_div. cbn [map gauss2d_set g_p g_row g_col]. rewrite !rsum_cons, !rsum_nil. rewrite Reqb_f by lra. f_equal. f_equal; field.
Qed.
Lemma find_spec c h o w ntry rng wt : usable_obs c o -> wf h -> cen_weight h w = Some (Ok wt) -> good_guess (o_data wt) -> positive_weight (o_data wt) -> can_move wt ->
  ntry <> 0%nat -> (ntry = 1%nat \/ exists l, rng = Some l /\ (ntry <= length l)%nat) ->
  exists h' d cen, find_cen_admom c h o w ntry rng = Some (h', Ok (d, cen)) /\
    (forall j, (j < length (h_objs h))%nat -> read h' j = read h j) /\
    (d_flags d = 0%Z -> exists wc, found c o (cov0_of (o_data wt)) d wc /\ cen = (Fin (row0_of wc), Fin (col0_of wc))) /\
    (d_flags d <> 0%Z -> cen = (NaN, NaN)).
Proof.
  intros U WF CW G P CM N0 RN. unfold find_cen_admom. fold (cen_conf c).
  assert (B : (Nat.ltb 1 ntry && match rng with None => true | _ => false end)%bool = false).
  { destruct RN as [->|(l & -> & _)]; [reflexivity|]. apply andb_false_r. }
  rewrite B, CW.
  destruct (cen_loop_spec c o (Nat.ltb 1 ntry) (length (h_objs h)) (cov0_of (o_data wt)) U ntry (match rng with Some l => l | None => [] end) (alloc h wt) None wt) as (h' & x & E & A & X & F); auto.
  { apply alloc_wf; exact WF. } { apply read_alloc_new. } { discriminate. }
  { intros Q. apply Nat.ltb_lt in Q. destruct RN as [->|(l & -> & L)]; [lia|exact L]. }
  rewrite E. destruct x as [d|]; [|exfalso; destruct (X eq_refl); congruence].
  assert (O : forall j, (j < length (h_objs h))%nat -> read h' j = read h j) by (intros j Hj; rewrite A by lia; apply read_alloc_old; auto).
  destruct (Z.eqb_spec (d_flags d) 0) as [Z|Z].
  - destruct (F d eq_refl Z) as (wc & FD). pose proof FD as (_ & DD & wt' & _ & CV). destruct (converges_cov (cen_conf c) _ _ _ _ eq_refl CV) as (_ & L1 & L2).
    destruct (get_gmix_ok _ _ _ _ DD L1 L2 Z) as (g & EG & DG). rewrite EG. cbn [bind]. rewrite DG, one_cen. exists h', d, (Fin (row0_of wc), Fin (col0_of wc)).
    split; [reflexivity|]. split; [exact O|]. split; [intros _; exists wc; auto|congruence].
  - exists h', d, (NaN, NaN). split; [reflexivity|]. split; [exact O|]. split; [congruence|auto].
Qed.
(** the two kinds of weight *)
Lemma fwhm_weight h f : 0 < f -> exists wt, cen_weight h (WFwhm f) = Some (Ok wt) /\ good_guess (o_data wt) /\ positive_weight (o_data wt) /\ can_move wt /\
  cov0_of (o_data wt) = mkSym (fwhm_to_T f / 2) 0 (fwhm_to_T f / 2).
Proof.
  intros F. pose proof (fwhm_T_pos f F) as T. unfold cen_weight. unfold new_model. unfold obj_fill, obj__fill, blank. cbn [model_npars model_ngauss o_npars o_kind o_ngauss length Nat.eqb negb fill_func].
  assert (E : g1g2_to_e1e2_nb 0 0 = Ok (0, 0)). { rewrite g2e_nb. unfold g1g2_to_e1e2. rewrite Rmult_0_l, Rplus_0_r, sqrt_0. rewrite Rleb_f by lra. rewrite Reqb_t by reflexivity. reflexivity. }
  unfold gmix_fill_gauss. erewrite fill_simple_eq; [|reflexivity|reflexivity|exact E].
  unfold pvals_gauss, fvals_gauss. cbn [finish bind combine map fst snd]. eexists. split; [reflexivity|]. cbn [o_data with_data]. unfold coellip_gauss. cbn [fst snd].
  split; [split; [discriminate|constructor; [unfold coherent, gauss2d_set, gcov, cov, det2; cbn; ring|constructor]]|].
  split; [constructor; [cbn; lra|constructor]|]. split; [right; cbn; lia|]. unfold cov0_of, gcov, cov, gauss2d_set. cbn. f_equal; field.
Qed.
Lemma gmix_weight h i g : read h i = Some g -> o_kind g = KFull -> good_guess (o_data g) -> positive_weight (o_data g) ->
  exists wt, cen_weight h (WGmix i) = Some (Ok wt) /\ good_guess (o_data wt) /\ positive_weight (o_data wt) /\ can_move wt /\ cov0_of (o_data wt) = cov0_of (o_data g).
Proof.
  intros R K G P. cbn [cen_weight]. rewrite R. destruct (full_copy g K) as (wt & E & K' & _ & D). exists wt. rewrite E, D. split; [reflexivity|]. split; [exact G|]. split; [exact P|]. split; [left; exact K'|reflexivity].
Qed.

Lemma find_gmix c h o i g ntry rng : usable_obs c o -> wf h -> read h i = Some g -> o_kind g = KFull -> good_guess (o_data g) -> positive_weight (o_data g) ->
  ntry <> 0%nat -> (ntry = 1%nat \/ exists l, rng = Some l /\ (ntry <= length l)%nat) ->
  exists h' d cen, find_cen_admom c h o (WGmix i) ntry rng = Some (h', Ok (d, cen)) /\
    (forall j, (j < length (h_objs h))%nat -> read h' j = read h j) /\
    (d_flags d = 0%Z -> exists wc, found c o (cov0_of (o_data g)) d wc /\ cen = (Fin (row0_of wc), Fin (col0_of wc))) /\
    (d_flags d <> 0%Z -> cen = (NaN, NaN)).
Proof.
  intros U W R K G P N0 RN. destruct (gmix_weight h i g R K G P) as (wt & E & G' & P' & CM & C). rewrite <- C. apply find_spec; auto.
Qed.
Lemma find_fwhm c h o f ntry rng : usable_obs c o -> wf h -> 0 < f ->
  ntry <> 0%nat -> (ntry = 1%nat \/ exists l, rng = Some l /\ (ntry <= length l)%nat) ->
  exists h' d cen, find_cen_admom c h o (WFwhm f) ntry rng = Some (h', Ok (d, cen)) /\
    (forall j, (j < length (h_objs h))%nat -> read h' j = read h j) /\
    (d_flags d = 0%Z -> exists wc, found c o (mkSym (fwhm_to_T f / 2) 0 (fwhm_to_T f / 2)) d wc /\ cen = (Fin (row0_of wc), Fin (col0_of wc))) /\
    (d_flags d <> 0%Z -> cen = (NaN, NaN)).
Proof.
  intros U W F N0 RN. destruct (fwhm_weight h f F) as (wt & E & G' & P' & CM & C). rewrite <- C. apply find_spec; auto.
Qed.
Lemma find_errors c h o w ntry rng : wf h ->
  ((1 < ntry)%nat -> rng = None -> find_cen_admom c h o w ntry rng = Some (h, Raise ValueError)) /\
  (ntry = 1%nat -> find_cen_admom c h o WNone ntry rng = Some (h, Raise ValueError)) /\
  (forall i g, ntry = 0%nat -> read h i = Some g -> o_kind g = KFull -> exists h', find_cen_admom c h o (WGmix i) ntry rng = Some (h', Raise UnboundLocalError)).
Proof.
  intros W. split; [|split].
  - intros L ->. unfold find_cen_admom. apply Nat.ltb_lt in L. rewrite L. reflexivity.
  - intros ->. reflexivity.
  - intros i g -> R K. unfold find_cen_admom. cbn [Nat.ltb Nat.leb andb cen_weight]. rewrite R. destruct (full_copy g K) as (wt & E & _). rewrite E. cbn [cen_loop]. eauto.
Qed.
Definition heapW : heap := alloc empty_heap (mkObj KFull 1 6 [1; 0; 0; 2; 2; 8] [gW]).
Lemma find_sample : let c := mkAc 200 5 (1/100000) (1/1000) true in
  usable_obs c obsW /\ wf heapW /\ (exists g, read heapW 0 = Some g /\ o_kind g = KFull /\ good_guess (o_data g) /\ positive_weight (o_data g)) /\
  exists h' d, find_cen_admom c heapW obsW (WGmix 0) 1 None = Some (h', Ok (d, (Fin 0, Fin 0))) /\ d_flags d = 0%Z.
Proof.
  intros c. destruct (sample_ok true) as ((G & P & U & RP & N & A) & d & D & FL & NI & _). fold c in D.
  assert (W : wf heapW) by (apply alloc_wf, empty_wf). assert (UO : usable_obs c obsW) by (split; auto).
  split; [exact UO|]. split; [exact W|]. split.
  { exists (mkObj KFull 1 6 [1; 0; 0; 2; 2; 8] [gW]). split; [reflexivity|]. split; [reflexivity|]. split; [exact G|exact P]. }
  unfold find_cen_admom. cbn [Nat.ltb Nat.leb andb cen_weight]. change (read heapW 0) with (Some (mkObj KFull 1 6 [1; 0; 0; 2; 2; 8] [gW])). cbn iota.
  destruct (full_copy (mkObj KFull 1 6 [1; 0; 0; 2; 2; 8] [gW]) eq_refl) as (wt & E & KW & _ & DW). rewrite E. cbn [o_data] in DW.
  change (mkAc (ac_maxiter c) (ac_shiftmax c) (ac_etol c) (ac_Ttol c) true) with c. cbn [cen_loop].
  unfold am_go. rewrite read_alloc_new, DW. destruct (am_run c obsW [gW]) as [w' r] eqn:ER. cbn [snd] in D. subst r. rewrite FL. cbn [Z.eqb].
  rewrite FL. cbn [Z.eqb].
  assert (GI : good_input c obsW [gW]) by (split; [exact G|]; auto 10).
  destruct (ok_converged c obsW [gW] d GI ltac:(rewrite ER; reflexivity) FL) as (_ & wc & CV & DD & _ & _). rewrite NI in CV.
  assert (wc = [gW]). { eapply converges_unique; [exact CV|apply convergesW; cbn; lra|reflexivity]. } subst wc.
  destruct (converges_cov c _ _ _ _ eq_refl CV) as (_ & L1 & L2). destruct (get_gmix_ok _ _ _ _ DD L1 L2 FL) as (g & EG & DG). rewrite EG. cbn [bind]. rewrite DG, one_cen.
  eexists. exists d. split; [reflexivity|exact FL].
Qed.
Lemma result_gmix c o wt d : good_input c o wt -> snd (am_run c o wt) = Ok d -> d_flags d = 0%Z ->
  exists wc g, converges c (ao_pix o) (plain wt) (d_numiter d) wc /\ am_get_gmix d = Ok g /\
    o_data g = [gauss2d_set 1 (row0_of wc) (col0_of wc) (yy (cov0_of wc)) (xy (cov0_of wc)) (xx (cov0_of wc))].
Proof.
  intros G E F. destruct (ok_converged c o wt d G E F) as (_ & wc & CV & DD & _). exists wc.
  assert (L : low <= det2 (cov0_of wc) /\ low < trace2 (cov0_of wc)).
  { destruct CV as (i & M0 & w & M & _ & _ & ME & _). pose proof (measures_ne _ _ _ _ _ _ ME) as NE. destruct ME as (D & EV & _ & -> & _).
    assert (K : cov0_of (centred (ao_pix o) w) = cov0_of w) by (unfold centred; destruct w; reflexivity). split; [rewrite K; exact D|].
    apply centred_evaluable with (px := ao_pix o) in EV. destruct (centred (ao_pix o) w) as [|x l] eqn:EE; [congruence|]. apply Forall_cons_iff in EV. destruct EV as [[_ EV] _]. exact EV. }
  destruct (get_gmix_ok _ _ _ _ DD (proj1 L) (proj2 L) F) as (g & EG & DG). exists g. auto.
Qed.
Lemma failed_gmix d : d_flags d <> 0%Z -> am_get_gmix d = Raise RuntimeError.
Proof. intros F. unfold am_get_gmix. apply Z.eqb_neq in F. rewrite F. reflexivity. Qed.
Lemma always_result c o wt : good_input c o wt -> exists d, snd (am_run c o wt) = Ok d.
Proof. intros G. destruct (am_run_spec c o wt G) as (d & f & E & _). eauto. Qed.
