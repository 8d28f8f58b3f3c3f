(** Concrete EM fits. *)
From Verif Require Import Base Shape_Model Moments_Spec Jacobian_Model Pixels_Model GMix_Model GMix_Spec FastExp_Model FastExp_Proofs
  Render_Model Render_Spec Render_Proofs GaussAp_Proofs GMixObj_Model GMixObj_Spec GMixObj_Proofs Flags_Model GMix_Proofs
  EM_Model EM_Spec EM_Proofs EMIter_Proofs EMLoop_Proofs EMGo_Proofs EMResult_Proofs.
Local Open Scope R_scope.

(** ** the call returns *)
Lemma go_total f m obs guess sky : eo_psf obs = None -> valid_call m obs guess -> (exists im, nth_error (em_im m) (eo_image obs) = Some im) ->
  exists m' r, em_go f m obs guess sky = Some (m', r).
Proof.
  intros NP V (im0 & Him). pose proof (valid_wf _ _ _ V) as W. destruct V as (_ & (g & Hg) & (px0 & Hpx)).
  unfold em_go. set (pre := match sky with None => _ | Some s => _ end).
  assert (PRE : exists q, pre = Some q /\ match q with
    | Raise e => True
    | Ok (m0, o0, s) => mext m m0 /\ eo_psf o0 = None /\ exists px, nth_error (em_px m0) (eo_px o0) = Some px end).
  { unfold pre. destruct sky as [s|].
    - eexists. split; [reflexivity|]. cbv beta iota. split; [apply mext_refl; exact W|]. eauto.
    - unfold prep_obs. rewrite Him. eexists. split; [reflexivity|]. destruct (prep_image im0) as [[im s]|e]; cbn [bind]; [|exact I].
      destruct (make_pixels _ _ _ _) as [px|e]; cbn [bind]; [|exact I]. split; [|split; [exact NP|]].
      + constructor; cbn [em_gm em_px em_im]; auto.
        * rewrite app_length. lia.
        * intros i p Hp. rewrite nth_error_app1; [exact Hp|]. apply nth_error_Some. congruence.
        * intros i p Hp. assert (i < length (em_im m))%nat by (apply nth_error_Some; congruence).
          rewrite nth_upd_other by lia. rewrite nth_error_app1 by assumption. exact Hp.
      + exists px. cbn [em_px eo_px]. rewrite nth_error_app2, Nat.sub_diag by lia. reflexivity. }
  destruct PRE as ([[[m0 o0] s]|e] & -> & Q); [|eauto]. destruct Q as (M0 & NP0 & px & Hpx0).
  destruct (get_psf m0 o0) as [[[m1 psf]|e]|] eqn:Eps; [|eauto|].
  2:{ unfold get_psf in Eps. rewrite NP0 in Eps. discriminate. }
  destruct (get_psf_ok m m0 o0 m1 psf M0 Eps) as (p & M1 & M01 & Lp & Rp & PG & Px1 & Im1).
  rewrite (mx_read _ _ M1 _ _ Hg), Rp.
  destruct (new_obj m1 (obj_copy g)) as [[m2 gm]|e] eqn:N1; [|eauto].
  destruct (new_obj_ok _ _ _ _ (mx_wf _ _ M1) N1) as (c & Ec & X1 & Hgm & Rc & Px2 & Im2 & L2). rewrite Rc.
  destruct (new_obj m2 (obj_convolve c p)) as [[m3 conv]|e] eqn:N2; [|eauto].
  destruct (new_obj_ok _ _ _ _ (mx_wf _ _ X1) N2) as (cv & Ecv & X2 & Hcv & Rcv & Px3 & Im3 & L3).
  rewrite Px3, Px2, Px1, Hpx0. unfold em_fit. cbn [em_px em_gm]. rewrite nth_error_app2, Nat.sub_diag by lia. cbn [nth_error].
  rewrite (mx_read _ _ X2 _ _ Rc), (mx_read _ _ X2 _ _ (mx_read _ _ X1 _ _ Rp)), Rcv.
  destruct (em_run _ _ _ _ _ _ _) as [out|e]; [|destruct e; eauto].
  destruct (bind _ _) as [[[m4 i] j]|e]; eauto.
Qed.

(** ** the arguments determine the run *)
Lemma data_unique m obs sky px s px' s' : data_given m obs sky px s -> data_given m obs sky px' s' -> px = px' /\ s = s'.
Proof.
  unfold data_given. destruct sky.
  - intros [<- A] [<- B]. split; congruence.
  - intros (a & b & A1 & A2 & A3) (a' & b' & B1 & B2 & B3). assert (a' = a) by congruence. subst a'. assert (b' = b /\ s = s') as [-> <-] by (split; congruence). split; congruence.
Qed.
Lemma guess_unique m guess G G' : guess_given m guess G -> guess_given m guess G' -> G = G'.
Proof. intros (a & b & A1 & A2 & <-) (a' & b' & B1 & B2 & <-). assert (a' = a) by congruence. subst a'. congruence. Qed.
Lemma psf_unique m obs G G' : psf_given m obs G -> psf_given m obs G' -> G = G'.
Proof.
  unfold psf_given. destruct (eo_psf obs) as [[i|]|]; try congruence.
  intros (a & b & A1 & A2 & A3) (a' & b' & B1 & B2 & B3). assert (a' = a) by congruence. subst a'. assert (b' = b) by congruence. subst. congruence.
Qed.

(** ** a fit of the fluxes that stops after one iteration *)
Lemma one_step f m obs guess sky px s G P s1 : f_kind f = FluxOnly -> (f_miniter f <= 1)%nat -> (1 <= f_maxiter f)%nat ->
  valid_call m obs guess -> eo_psf obs = None -> (exists im, nth_error (em_im m) (eo_image obs) = Some im) ->
  (exists g, read (em_gm m) guess = Some g /\ o_kind g = KFull) ->
  data_given m obs sky px s -> guess_given m guess G -> psf_given m obs P ->
  Forall evaluable (views P G) -> flux_of G <> 0 ->
  em_step FluxOnly P (f_vary_sky f) (mkEM G px s) s1 -> Forall evaluable (views P (m_gm s1)) ->
  Rabs ((flux_of (m_gm s1) - flux_of G) / flux_of G) < f_tol f \/ f_maxiter f = 1%nat ->
  exists m' r, em_go f m obs guess sky = Some (m', Ok r) /\
    exists h t a, ran f m obs guess sky px s G P h /\ length h = 2%nat /\ nth_error h 1 = Some t /\
      r_flags r = (if Nat.leb (f_maxiter f) 1 then EM_MAXITER else 0%Z) /\
      r_fit r = Some (1%nat, Some (Rabs ((flux_of (m_gm s1) - flux_of G) / flux_of G)), m_sky t) /\
      change FluxOnly P h 1 = Some (Rabs ((flux_of (m_gm s1) - flux_of G) / flux_of G)) /\
      get_gmix m' r false = Ok a.
Proof.
  intros K MI MA V NP IM (g & Rg & Kg) D1 D2 D3 EV FG ST EV1 CV.
  set (d := Rabs ((flux_of (m_gm s1) - flux_of G) / flux_of G)) in *.
  assert (CH : forall h t, is_run FluxOnly P (f_vary_sky f) (mkEM G px s) h -> nth_error h 1 = Some t -> change FluxOnly P h 1 = Some d).
  { intros h t (H0 & HS & HE) H1. unfold change, denominator, watched. cbn [Nat.sub]. rewrite H0, H1.
    cbn [m_gm]. destruct (Req_EM_T (flux_of G) 0); [contradiction|]. f_equal. unfold d.
    pose proof (legal_unique FluxOnly (mkConf 0 0 0 0 (f_vary_sky f)) P (mkEM G px s) t s1) as U.
    destruct U as (_ & U & _); [split; [apply (HS 0%nat); assumption|apply HE; eapply nth_error_In; exact H1]|split; assumption|].
    rewrite U. reflexivity. }
  destruct (go_total f m obs guess sky NP V IM) as (m' & r & E). exists m'.
  destruct (go_result f m obs guess sky m' r V E) as (_ & C). destruct r as [r|e].
  2:{ exfalso. destruct C as [[C|[C|C]]|(_ & C)].
      - destruct C as (-> & im0 & Hi & C). destruct D1 as (im1 & im & Hi' & P1 & P2). assert (im1 = im0) by congruence. subst im1.
        destruct C as [C|(im2 & s2 & C1 & C2)]; [congruence|]. assert (im2 = im) by congruence. subst im2. congruence.
      - destruct C as (i & x & C & _). congruence.
      - destruct C as (x & Rx & C). assert (x = g) by congruence. subst x. unfold obj_copy in C. rewrite Kg in C. discriminate.
      - lia. }
  exists r. split; [exact E|]. destruct C as [C|C].
  - destruct C as (px' & s' & G' & P' & h & n & t & dd & a & b & (R1 & R2 & R3 & R4) & L & NT & ER & GA & _ & _ & _ & NN & _ & NC & ND & ->).
    destruct (data_unique _ _ _ _ _ _ _ D1 R1) as [<- <-]. pose proof (guess_unique _ _ _ _ D2 R2) as <-. pose proof (psf_unique _ _ _ _ D3 R3) as <-.
    rewrite K in *.
    assert (N1 : n = 1%nat).
    { destruct (Nat.eq_dec n 1) as [|NE]; [assumption|]. exfalso. destruct CV as [CV|CV]; [|lia].
      apply (NC 1%nat); [lia|]. split; [exact MI|]. exists d. split; [|exact CV].
      destruct (nth_error h 1) as [t1|] eqn:T1; [|apply nth_error_None in T1; lia]. eapply CH; eassumption. }
    subst n. exists h, t, a. split; [unfold ran; rewrite K; auto|]. split; [exact L|]. split; [exact NT|].
    rewrite (CH h t R4 NT) in *. rewrite ER. cbn [r_flags r_fit]. split; [reflexivity|]. split; [reflexivity|]. split; [reflexivity|].
    rewrite <- ER. exact GA.
  - exfalso. destruct C as (_ & px' & s' & G' & P' & R1 & R2 & R3 & C).
    destruct (data_unique _ _ _ _ _ _ _ D1 R1) as [<- <-]. pose proof (guess_unique _ _ _ _ D2 R2) as <-. pose proof (psf_unique _ _ _ _ D3 R3) as <-.
    destruct C as [C|(h & (_ & _ & _ & R4) & L & NC & SK)]; [contradiction|]. rewrite K in *.
    destruct h as [|s0 [|t h]].
    + destruct R4 as (H0 & _). discriminate.
    + assert (H0 : s0 = mkEM G px s) by (destruct R4 as (H0 & _); injection H0 as ->; reflexivity). subst s0.
      destruct (SK (mkEM G px s) s1 eq_refl ST EV1) as (_ & DN). cbn in DN. injection DN as DN. contradiction.
    + destruct CV as [CV|CV]; [|rewrite CV in L; cbn in L; lia]. apply (NC 1%nat); [cbn [length]; lia|].
      split; [exact MI|]. exists d. split; [|exact CV]. eapply CH; [exact R4|reflexivity].
Qed.

(** ** one pixel at the centre of one gaussian *)
Definition P0 : gmix := [gauss2d_set 1 0 0 0 0 0].
Lemma flux_P0 : flux_of P0 = 1. Proof. unfold flux_of, P0. cbn [map]. rewrite rsum_cons, rsum_nil. cbn. ring. Qed.
Lemma row_P0 : row_of P0 = 0. Proof. unfold row_of, mean_of. rewrite flux_P0. unfold P0. cbn [map]. rewrite rsum_cons, rsum_nil. cbn. field. Qed.
Lemma col_P0 : col_of P0 = 0. Proof. unfold col_of, mean_of. rewrite flux_P0. unfold P0. cbn [map]. rewrite rsum_cons, rsum_nil. cbn. field. Qed.
Lemma seen_point g : seen P0 g (gauss2d_set 1 0 0 0 0 0) = fresh g.
Proof.
  unfold seen, fresh. rewrite flux_P0, row_P0, col_P0. cbn [gauss2d_set g_p g_row g_col g_irr g_irc g_icc].
  replace (g_p g * 1 / 1) with (g_p g) by field. rewrite Rminus_0_r, !Rplus_0_r. reflexivity.
Qed.
Lemma views_point gm : views P0 gm = map fresh gm.
Proof. unfold views. induction gm as [|g gm IH]; [reflexivity|]. cbn [flat_map map]. rewrite IH. cbn [P0 map]. rewrite seen_point. reflexivity. Qed.
Definition round (p row : R) : gauss := gauss2d_set p row 0 1 0 1.
Lemma fresh_round p row : fresh (round p row) = round p row. Proof. reflexivity. Qed.
Lemma round_evaluable p row : evaluable (round p row).
Proof.
  unfold evaluable, round, gauss2d_set, gcov, det2, trace2, cov. cbn.
  pose proof (Rinv_0_lt_compat (10 ^ 200) ltac:(apply pow_lt; lra)). assert (/ 10 ^ 200 <= 1).
  { rewrite <- Rinv_1. apply Rinv_le_contravar; [lra|]. apply pow_R1_Rle. lra. }
  cbn [pow] in *. split; lra.
Qed.
Lemma dist_round p row px : dist2 (round p row) px = (px_v px - row) * (px_v px - row) + px_u px * px_u px.
Proof. unfold dist2, maha, round, gauss2d_set, gcov, det2, cov. cbn. field. Qed.
Definition pix0 : pixel R := mkPix 0 0 1 1 1.
Lemma fast_exp_pos x : -125/10 < x <= 0 -> 0 < fast_exp x.
Proof.
  intros H. destruct (fexp_spec x H) as (y & E & B). unfold fast_exp. rewrite E. pose proof (exp_pos x).
  apply Rabs_def2 in B. lra.
Qed.
Lemma in_near : in_pixel (round 1 0) pix0 <> 0.
Proof.
  unfold in_pixel. rewrite dist_round. cbn [pix0 px_u px_v px_area]. destruct (Rlt_dec _ 25) as [L|L]; [|exfalso; apply L; lra].
  assert (0 < fast_exp (- (5 / 10) * ((0 - 0) * (0 - 0) + 0 * 0))) by (apply fast_exp_pos; lra).
  assert (0 < sqrt (det2 (gcov (round 1 0)))).
  { apply sqrt_lt_R0. unfold round, gauss2d_set, gcov, det2, cov. cbn. lra. }
  pose proof PI_RGT_0. cbn [round gauss2d_set g_p]. apply Rgt_not_eq.
  apply Rmult_gt_0_compat; [|lra]. apply Rmult_gt_0_compat; [|lra]. apply Rdiv_lt_0_compat; [lra|]. nra.
Qed.
Lemma in_far p row px : 5 <= Rabs (px_v px - row) -> in_pixel (round p row) px = 0.
Proof.
  intros H. unfold in_pixel. rewrite dist_round. destruct (Rlt_dec _ 25) as [L|L]; [exfalso|reflexivity].
  assert (25 <= (px_v px - row) * (px_v px - row)). { unfold Rabs in H. destruct (Rcase_abs (px_v px - row)); nra. }
  nra.
Qed.
Lemma att_one s g x : attributed P0 s g x = rsum (map (fun p => x (fresh g) p * share P0 s (fresh g) p) (filled P0 s)).
Proof.
  unfold attributed. apply rsum_map_ext. intros p _. change (map (fun q => x (seen P0 g q) p * share P0 s (seen P0 g q) p) P0) with
    [x (seen P0 g (gauss2d_set 1 0 0 0 0 0)) p * share P0 s (seen P0 g (gauss2d_set 1 0 0 0 0 0)) p].
  rewrite seen_point, rsum_cons, rsum_nil. ring.
Qed.
Lemma model_one g p : model P0 [g] p = in_pixel (fresh g) p.
Proof. unfold model. rewrite views_point. cbn [map]. rewrite rsum_cons, rsum_nil. ring. Qed.
(** near: the fit is already at its fixed point *)
Lemma near_step : em_step FluxOnly P0 false (mkEM [round 1 0] [pix0] 0) (mkEM [round 1 0] [pix0] 0).
Proof.
  assert (F : filled P0 (mkEM [round 1 0] [pix0] 0) = [pix0]) by (apply filled_unmasked; constructor; [cbn; lra|constructor]).
  unfold em_step. rewrite F. cbn [m_gm m_pix m_sky].
  assert (T : total P0 (mkEM [round 1 0] [pix0] 0) pix0 = in_pixel (round 1 0) pix0).
  { unfold total. cbn [m_gm m_sky]. rewrite model_one, fresh_round. ring. }
  split. { intros p [<-|[]]. rewrite T. exact in_near. }
  split; [|split; reflexivity]. constructor; [|constructor]. split; [|split; cbn; auto].
  unfold att_flux. rewrite att_one, F. cbn [map]. rewrite rsum_cons, rsum_nil, fresh_round. unfold share. rewrite T.
  cbn [round gauss2d_set g_p pix0 px_val]. pose proof in_near as NZ. unfold pix0, round in NZ. field. exact NZ.
Qed.
(** far from all pixels: no flux is attributed to the gaussian *)
Lemma far_step row px s : s <> 0 -> Forall (fun p => 5 <= Rabs (px_v p - row) /\ 0 < px_ierr p) px ->
  em_step FluxOnly P0 false (mkEM [round 1 row] px s) (mkEM [round 0 row] px s).
Proof.
  intros S0 H. assert (F : filled P0 (mkEM [round 1 row] px s) = px).
  { apply filled_unmasked. eapply Forall_impl; [|exact H]. cbv beta. tauto. }
  rewrite Forall_forall in H. unfold em_step. rewrite F. cbn [m_gm m_pix m_sky].
  split. { intros p Hp. unfold total. cbn [m_gm m_sky]. rewrite model_one, fresh_round, in_far by apply (H p Hp). lra. }
  split; [|split; reflexivity]. constructor; [|constructor]. split; [|split; cbn; auto].
  unfold att_flux. rewrite att_one, F, fresh_round. rewrite (rsum_map_ext _ (fun _ => 0)).
  - rewrite rsum_zero. reflexivity.
  - intros p Hp. unfold share. rewrite in_far by apply (H p Hp). unfold Rdiv. ring.
Qed.
(** ** the memory *)
Definition is_guess (row : R) (h : heap) : Prop :=
  (exists l, run empty_heap l = Some h) /\ exists o, read h 0 = Some o /\ o_kind o = KFull /\ o_data o = [round 1 row].
Lemma guess_exists row : exists h, is_guess row h.
Proof.
  destruct (new_full_of [round 1 row]) as (o & E & K & D). exists (alloc empty_heap o). split.
  - exists [ONewFull (gm_get_full_pars [round 1 row])]. cbn [run step]. unfold add. rewrite E. reflexivity.
  - exists o. split; [apply read_alloc_new|]. auto.
Qed.
Lemma guess_is row h px im : is_guess row h -> guess_given (mkEm h px im) 0 [round 1 row] /\
  (exists g, read (em_gm (mkEm h px im)) 0 = Some g /\ o_kind g = KFull).
Proof.
  intros (_ & o & R & K & D). split; [|eauto]. destruct (copy_full o K) as (c & E & Dc). exists o, c. split; [exact R|]. split; [exact E|]. congruence.
Qed.

(** ** a fit with maxiter = 1 *)
Lemma one_iter f m obs guess sky px s G P s1 : (f_miniter f <= 1)%nat -> f_maxiter f = 1%nat ->
  valid_call m obs guess -> eo_psf obs = None -> (exists im, nth_error (em_im m) (eo_image obs) = Some im) ->
  (exists g, read (em_gm m) guess = Some g /\ o_kind g = KFull) ->
  data_given m obs sky px s -> guess_given m guess G -> psf_given m obs P ->
  Forall evaluable (views P G) -> denominator (f_kind f) P [mkEM G px s; s1] 1 <> Some 0 ->
  em_step (f_kind f) P (f_vary_sky f) (mkEM G px s) s1 -> Forall evaluable (views P (m_gm s1)) ->
  exists m' r, em_go f m obs guess sky = Some (m', Ok r) /\ success f m obs guess sky m' r.
Proof.
  intros MI MA V NP IM (g & Rg & Kg) D1 D2 D3 EV FG ST EV1.
  destruct (go_total f m obs guess sky NP V IM) as (m' & r & E). exists m'.
  destruct (go_result f m obs guess sky m' r V E) as (_ & C). destruct r as [r|e].
  2:{ exfalso. destruct C as [[C|[C|C]]|(_ & C)].
      - destruct C as (-> & im0 & Hi & C). destruct D1 as (im1 & im & Hi' & P1 & P2). assert (im1 = im0) by congruence. subst im1.
        destruct C as [C|(im2 & s2 & C1 & C2)]; [congruence|]. assert (im2 = im) by congruence. subst im2. congruence.
      - destruct C as (i & x & C & _). congruence.
      - destruct C as (x & Rx & C). assert (x = g) by congruence. subst x. unfold obj_copy in C. rewrite Kg in C. discriminate.
      - lia. }
  exists r. split; [exact E|]. destruct C as [C|C]; [exact C|exfalso].
  destruct C as (_ & px' & s' & G' & P' & R1 & R2 & R3 & C).
  destruct (data_unique _ _ _ _ _ _ _ D1 R1) as [<- <-]. pose proof (guess_unique _ _ _ _ D2 R2) as <-. pose proof (psf_unique _ _ _ _ D3 R3) as <-.
  destruct C as [C|(h & (_ & _ & _ & R4) & L & NC & SK)]; [contradiction|].
  destruct h as [|s0 [|t h]].
  - destruct R4 as (H0 & _). discriminate.
  - assert (H0 : s0 = mkEM G px s) by (destruct R4 as (H0 & _); injection H0 as ->; reflexivity). subst s0.
    destruct (SK (mkEM G px s) s1 eq_refl ST EV1) as (_ & DN). exact (FG DN).
  - rewrite MA in L. cbn in L. lia.
Qed.

(** ** four pixels around a gaussian *)
Definition four : list (pixel R) := [mkPix 1 1 1 1 1; mkPix 1 (-1) 1 1 1; mkPix (-1) 1 1 1 1; mkPix (-1) (-1) 1 1 1].
Lemma four_in p : In p four -> px_u p * px_u p = 1 /\ px_v p * px_v p = 1 /\ px_area p = 1 /\ px_val p = 1 /\ 0 < px_ierr p.
Proof. intros [<-|[<-|[<-|[<-|[]]]]]; cbn; repeat split; lra. Qed.
Definition qq : R := 1 / (2 * PI * sqrt (det2 (gcov (round 1 0)))) * fast_exp (- (5/10) * 2).
Lemma qq_pos : 0 < qq.
Proof.
  unfold qq. assert (0 < sqrt (det2 (gcov (round 1 0)))).
  { apply sqrt_lt_R0. unfold round, gauss2d_set, gcov, det2, cov. cbn. lra. }
  pose proof PI_RGT_0. apply Rmult_lt_0_compat; [|apply fast_exp_pos; lra]. apply Rdiv_lt_0_compat; [lra|]. nra.
Qed.
Lemma four_dist p : In p four -> dist2 (round 1 0) p = 2.
Proof. intros H. apply four_in in H. rewrite dist_round. nra. Qed.
Lemma four_pixel p : In p four -> in_pixel (round 1 0) p = qq.
Proof.
  intros H. unfold in_pixel. rewrite (four_dist p H). destruct (Rlt_dec 2 25); [|lra]. apply four_in in H.
  destruct H as (_ & _ & -> & _). unfold qq. cbn [round gauss2d_set g_p]. ring.
Qed.
Definition st0 := mkEM [round 1 0] four 0.
Lemma four_filled : filled P0 st0 = four.
Proof. apply filled_unmasked. apply Forall_forall. intros p Hp. apply four_in in Hp. tauto. Qed.
Lemma four_total p : In p four -> total P0 st0 p = qq.
Proof. intros H. unfold total. cbn [st0 m_gm m_sky]. rewrite model_one, fresh_round, (four_pixel p H). ring. Qed.
Lemma four_share p : In p four -> share P0 st0 (round 1 0) p = 1.
Proof.
  intros H. unfold share. rewrite (four_total p H), (four_pixel p H). apply four_in in H. destruct H as (_ & _ & _ & -> & _).
  pose proof qq_pos. field. lra.
Qed.
Lemma four_att x : attributed P0 st0 (round 1 0) x = rsum (map (x (round 1 0)) four).
Proof. rewrite att_one, four_filled, fresh_round. apply rsum_map_ext. intros p Hp. rewrite four_share by exact Hp. ring. Qed.
Lemma cov_P0 : cov_of P0 = mkSym 0 0 0.
Proof.
  unfold cov_of, cov. rewrite row_P0, col_P0. unfold mean_of. rewrite flux_P0. unfold P0. cbn [map]. rewrite !rsum_cons, !rsum_nil. cbn [gauss2d_set g_p g_row g_col g_irr g_irc g_icc].
  f_equal; field.
Qed.
Lemma four_step vs : vs = false -> em_step Free P0 vs st0 (mkEM [round 4 0] four 0).
Proof.
  intros ->. unfold em_step. rewrite four_filled. cbn [m_gm m_pix m_sky st0].
  split. { intros p Hp. rewrite four_total by exact Hp. pose proof qq_pos. lra. }
  split; [|split; reflexivity]. fold st0. constructor; [|constructor].
  assert (AF : att_flux P0 st0 (round 1 0) = 4). { unfold att_flux. rewrite four_att. cbn [four map]. rewrite !rsum_cons, rsum_nil. ring. }
  split; [rewrite AF; reflexivity|]. unfold new_cen, new_cov, att_mean. cbn [tracks_cen tracks_cov]. rewrite AF, !four_att, cov_P0.
  cbn [four map]. rewrite !rsum_cons, !rsum_nil. cbn [px_v px_u round gauss2d_set g_row g_col g_irr g_irc g_icc xx xy yy].
  split. { split; [lra|]. split; field. }
  split; [lra|]. replace (_ / 4 - 0) with 1 by field.
  match goal with |- positive_cov 1 ?b ?c _ => replace b with 0 by field; replace c with 1 by field end.
  unfold positive_cov. destruct (Rlt_dec 1 0); [lra|]. destruct (Rlt_dec (1 * 1 - 0 * 0) (/ 10 ^ 200)) as [L|L]; [exfalso|reflexivity].
  assert (/ 10 ^ 200 <= 1). { rewrite <- Rinv_1. apply Rinv_le_contravar; [lra|]. apply pow_R1_Rle. lra. }
  lra.
Qed.
Lemma four_like : log_like P0 st0 = Some (-4).
Proof.
  unfold log_like. rewrite four_filled. cbn [m_gm st0]. rewrite views_point. cbn [map]. rewrite fresh_round.
  assert (E : forall p, In p four -> (if Req_EM_T (model P0 [round 1 0] p) 0 then Some 0
     else match osum [log_dens (round 1 0) p] with Some x => Some (x / model P0 [round 1 0] p) | None => None end) = Some (-1)).
  { intros p Hp. rewrite model_one, fresh_round, (four_pixel p Hp). pose proof qq_pos. destruct (Req_EM_T qq 0); [lra|].
    unfold log_dens. rewrite (four_pixel p Hp), (four_dist p Hp). cbn [round gauss2d_set g_p]. destruct (Rlt_dec 0 1); [|lra]. cbn [osum].
    f_equal. replace (det2 (gcov _)) with 1 by (unfold gcov, det2, cov; cbn; ring). rewrite ln_1. field. lra. }
  rewrite (map_ext_in _ (fun _ => Some (-1)) four E). cbn [four map osum]. f_equal. ring.
Qed.
