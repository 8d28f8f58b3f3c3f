From Verif Require Import Base Moments_Spec Pixels_Model GMix_Model GMix_Spec GMix_Proofs FastExp_Model FastExp_Proofs
  Render_Model Render_Spec Render_Proofs GaussAp_Proofs GMixObj_Model EM_Model EM_Spec.
Local Open Scope R_scope.

(** ** sums that may be undefined *)
Lemma osum_cons x l : osum (x :: l) = nan_add x (osum l).
Proof. cbn. destruct x; [destruct (osum l)|]; reflexivity. Qed.
Lemma nan_add_assoc a b c : nan_add (nan_add a b) c = nan_add a (nan_add b c).
Proof. destruct a, b, c; cbn; try reflexivity. f_equal. ring. Qed.
Lemma nan_add_0_l a : nan_add (Some 0) a = a.
Proof. destruct a; cbn; [f_equal; ring|reflexivity]. Qed.
Lemma nan_add_0_r a : nan_add a (Some 0) = a.
Proof. destruct a; cbn; [f_equal; ring|reflexivity]. Qed.
Lemma osum_app a b : osum (a ++ b) = nan_add (osum a) (osum b).
Proof.
  induction a as [|x a IH]; cbn [app]; [cbn [osum]; rewrite nan_add_0_l; reflexivity|].
  rewrite !osum_cons, IH, nan_add_assoc. reflexivity.
Qed.
Lemma osum_snoc a x : osum (a ++ [x]) = nan_add (osum a) x.
Proof. rewrite osum_app. f_equal. cbn. destruct x; [f_equal; ring|reflexivity]. Qed.

(** ** gaussians in a pixel *)
Definition visible (h h' : gauss) : Prop := coherent h /\ evaluable h /\ same_gauss h h' /\ norms_right h'.

Lemma seen_coherent psf g q : coherent (seen psf g q).
Proof. unfold coherent, seen, gauss2d_set, gcov, cov, det2; cbn. ring. Qed.
Lemma views_coherent psf gm : Forall coherent (views psf gm).
Proof.
  apply Forall_forall. intros h H. unfold views in H. apply in_flat_map in H. destruct H as (g & _ & H).
  apply in_map_iff in H. destruct H as (q & <- & _). apply seen_coherent.
Qed.
Lemma evaluable_dec g : evaluable g \/ ~ evaluable g.
Proof.
  unfold evaluable. destruct (Rle_dec (/ 10 ^ 200) (det2 (gcov g))); [|tauto].
  destruct (Rlt_dec (/ 10 ^ 200) (trace2 (gcov g))); tauto.
Qed.
Lemma evaluable_all_dec gm : Forall evaluable gm \/ ~ Forall evaluable gm.
Proof.
  induction gm as [|g gm [IH|IH]]; [left; constructor| |right; rewrite Forall_cons_iff; tauto].
  destruct (evaluable_dec g); [left; constructor; auto|right; rewrite Forall_cons_iff; tauto].
Qed.
Lemma same_of_norms gm gm' : gmix_set_norms gm = (gm', Ok tt) -> Forall coherent gm -> Forall evaluable gm.
Proof.
  intros E Hc. destruct (evaluable_all_dec gm) as [K|K]; [exact K|].
  pose proof (set_norms_bad _ Hc K) as B. rewrite E in B. discriminate.
Qed.
Lemma norms_inv gm gm' : gmix_set_norms gm = (gm', Ok tt) -> Forall coherent gm -> Forall2 visible gm gm'.
Proof.
  intros E Hc. pose proof (same_of_norms _ _ E Hc) as He. destruct (set_norms_ok gm Hc He) as (g2 & E2 & S & N).
  rewrite E in E2. injection E2 as <-. clear E.
  induction S as [|x y l l' Hx S IH]; [constructor|].
  apply Forall_cons_iff in Hc, He, N. destruct Hc, He, N. constructor; [unfold visible; tauto|auto].
Qed.
Lemma norms_ok gm : Forall coherent gm -> Forall evaluable gm -> exists gm', gmix_set_norms gm = (gm', Ok tt) /\ Forall2 visible gm gm'.
Proof.
  intros Hc He. destruct (set_norms_ok gm Hc He) as (g2 & E2 & _). exists g2. split; [exact E2|]. apply norms_inv; assumption.
Qed.
Lemma norms_fail gm : Forall coherent gm -> ~ Forall evaluable gm -> exists gm', gmix_set_norms gm = (gm', Raise GMixRangeError).
Proof. intros Hc He. pose proof (set_norms_bad _ Hc He) as B. destruct (gmix_set_norms gm) as [g r]. cbn in B. subst r. eauto. Qed.

Lemma visible_pos h h' : visible h h' -> 0 < g_det h' /\ 0 < g_irr h' + g_icc h' /\ coherent h' /\ gcov h' = gcov h.
Proof.
  intros (Hc & (E1 & E2) & S & _). unfold same_gauss in S. destruct S as (_ & _ & _ & S1 & S2 & S3 & S4).
  pose proof low_pos. unfold coherent, trace2, gcov, cov in *; cbn [xx yy] in *.
  rewrite <- S1, <- S2, <- S3, <- S4. rewrite Hc. split; [lra|]. split; [lra|]. split; reflexivity.
Qed.
Lemma fexp_fast t : 0 <= t < 25 -> fexp (- (5/10) * t) = Ok (fast_exp (- (5/10) * t)).
Proof. intros H. unfold fast_exp. destruct (fexp_spec (- (5/10) * t) ltac:(lra)) as (y & -> & _). reflexivity. Qed.

Lemma em_chi2_eq h h' p : visible h h' -> em_chi2 h' (px_v p) (px_u p) = Some (dist2 h p) /\ 0 <= dist2 h p.
Proof.
  intros V. destruct (visible_pos _ _ V) as (Hd & HT & Hc & EG). destruct V as (_ & _ & S & (_ & n & En & A & B & C & _)).
  unfold em_chi2. rewrite En. pose proof (chi2_maha h' n (px_v p - g_row h') (px_u p - g_col h') Hc Hd A B C) as M.
  pose proof (maha_nonneg h' (px_v p - g_row h') (px_u p - g_col h') Hc Hd HT) as P.
  destruct S as (_ & S1 & S2 & _). unfold dist2. rewrite S1, S2, <- EG. split; [|exact P]. f_equal. rewrite <- M. unfold gauss_chi2. ring.
Qed.
Lemma em_val_eq h h' p : visible h h' -> em_val h' (px_v p) (px_u p) (px_area p) = Ok (in_pixel h p).
Proof.
  intros V. destruct (em_chi2_eq h h' p V) as [E P]. unfold em_val. rewrite E.
  destruct (visible_pos _ _ V) as (Hd & HT & Hc & EG). destruct V as (Hch & _ & S & (_ & n & En & _ & _ & _ & _ & F)). rewrite En.
  unfold in_pixel. destruct (Rltb_spec (dist2 h p) 25) as [L|L].
  - rewrite Rleb_t by exact P. cbn [andb]. rewrite fexp_fast by lra. cbn [bind].
    destruct (Rlt_dec (dist2 h p) 25); [|lra]. destruct S as (S1 & _ & _ & _ & _ & _ & S2). rewrite F, <- S1, <- S2. rewrite Hch. reflexivity.
  - cbn [andb]. destruct (Rlt_dec (dist2 h p) 25); [lra|reflexivity].
Qed.
(** fill_zero_weight_pixels evaluates the same function *)
Lemma em_val_fast h v u area : em_val h v u area = gauss2d_eval_pixel_fast h v u area.
Proof.
  unfold em_val, em_chi2, gauss2d_eval_pixel_fast, FASTEXP_MAX_CHI2. destruct (g_nrm h) as [n|]; [|reflexivity]. cbv zeta.
  replace (n_dcc n * ((v - g_row h) * (v - g_row h)) + n_drr n * ((u - g_col h) * (u - g_col h)) - 2 * n_drc n * ((u - g_col h) * (v - g_row h)))
    with (gauss_chi2 n (v - g_row h) (u - g_col h)) by (unfold gauss_chi2; ring). reflexivity.
Qed.
Lemma fill_val hs hs' p : Forall2 visible hs hs' -> forall a,
  foldM (fun m g => let* x := gauss2d_eval_pixel_fast g (px_v p) (px_u p) (px_area p) in Ok (m + x)) hs' a =
  Ok (a + rsum (map (fun h => in_pixel h p) hs)).
Proof.
  induction 1 as [|h h' l l' V _ IH]; intros a; cbn [foldM map].
  - rewrite rsum_nil, Rplus_0_r. reflexivity.
  - rewrite <- em_val_fast, (em_val_eq h) by exact V. cbn [bind]. rewrite IH, rsum_cons. f_equal. ring.
Qed.
Lemma log_term_eq h h' p : visible h h' ->
  log_term (in_pixel h p) (log_nan (g_p h'), log_nan (g_det h')) (em_chi2 h' (px_v p) (px_u p)) = log_dens h p.
Proof.
  intros V. destruct (em_chi2_eq h h' p V) as [-> _]. destruct (visible_pos _ _ V) as (Hd & _ & Hc & EG).
  destruct V as (Hch & _ & S & _). destruct S as (S1 & _). rewrite <- S1.
  unfold log_term, log_nan, log_dens. rewrite (Rltb_t 0 (g_det h')) by exact Hd.
  destruct (Rltb_spec 0 (g_p h)); destruct (Rlt_dec 0 (g_p h)); try lra; [|reflexivity]. rewrite Hc, EG. reflexivity.
Qed.

(** ** the sums over the gaussians of one object *)
Definition wsum (hs : gmix) (x : gauss -> R) (p : pixel R) : R := rsum (map (fun h => x h * in_pixel h p) hs).
Definition scr_of (k : em_kind) (hs : gmix) (p : pixel R) : scr :=
  mkScr (wsum hs (fun _ => 1) p)
    (if tracks_cen k then wsum hs (fun _ => px_v p) p else 0)
    (if tracks_cen k then wsum hs (fun _ => px_u p) p else 0)
    (if tracks_cov k then wsum hs (fun h => (px_v p - g_row h) * (px_v p - g_row h)) p else 0)
    (if tracks_cov k then wsum hs (fun h => (px_v p - g_row h) * (px_u p - g_col h)) p else 0)
    (if tracks_cov k then wsum hs (fun h => (px_u p - g_col h) * (px_u p - g_col h)) p else 0).
Definition scr_add (a b : scr) : scr :=
  mkScr (s_gi a + s_gi b) (s_tv a + s_tv b) (s_tu a + s_tu b) (s_tv2 a + s_tv2 b) (s_tuv a + s_tuv b) (s_tu2 a + s_tu2 b).
Lemma wsum_cons h hs x p : wsum (h :: hs) x p = x h * in_pixel h p + wsum hs x p.
Proof. reflexivity. Qed.
Lemma wsum_one hs p : wsum hs (fun _ => 1) p = rsum (map (fun h => in_pixel h p) hs).
Proof. apply rsum_map_ext. intros; ring. Qed.

Definition tau1 (h : gauss) : gauss * (option R * option R) := (h, (log_nan (g_p h), log_nan (g_det h))).
Lemma scratch_fold k p hs hs' : Forall2 visible hs hs' -> forall s gsum L,
  foldM (scratch_gauss k p) (map tau1 hs') (s, gsum, L) =
  Ok (scr_add s (scr_of k hs p), gsum + rsum (map (fun h => in_pixel h p) hs), nan_add L (osum (map (fun h => log_dens h p) hs))).
Proof.
  induction 1 as [|h h' l l' V _ IH]; intros s gsum L; cbn [map foldM].
  - cbn [osum]. rewrite nan_add_0_r, rsum_nil, Rplus_0_r. do 3 f_equal. destruct s. unfold scr_add, scr_of, wsum; cbn.
    destruct (tracks_cen k), (tracks_cov k); f_equal; ring.
  - unfold scratch_gauss at 1, tau1 at 1. rewrite (em_val_eq h) by exact V. cbn [bind]. rewrite IH, (log_term_eq h) by exact V.
    rewrite osum_cons, nan_add_assoc, rsum_cons. f_equal. apply f_equal2; [apply f_equal2|reflexivity]; [|ring].
    destruct s as [x1 x2 x3 x4 x5 x6]. destruct V as (_ & _ & (_ & S1 & S2 & _) & _). rewrite <- S1, <- S2. unfold scr_add, scr_of.
    cbn [s_gi s_tv s_tu s_tv2 s_tuv s_tu2]. rewrite !wsum_cons. destruct (tracks_cen k), (tracks_cov k); f_equal; ring.
Qed.

Lemma concat_length_const {A} n (css : list (list A)) : Forall (fun c => length c = n) css -> length (concat css) = (length css * n)%nat.
Proof. induction 1 as [|c css Hc _ IH]; cbn; [reflexivity|]. rewrite app_length, IH, Hc. reflexivity. Qed.
Lemma chunk_loop {A S} n (F : S -> list A -> res S) css : forall pre st,
  Forall (fun c => length c = n) (pre ++ css) ->
  foldM (fun st ii => F st (chunk n ii (concat (pre ++ css)))) (seq (length pre) (length css)) st = foldM F css st.
Proof.
  induction css as [|c css IH]; intros pre st H; cbn [length seq foldM]; [reflexivity|].
  assert (E : chunk n (length pre) (concat (pre ++ c :: css)) = c).
  { apply Forall_app in H. destruct H as [H1 H2]. apply Forall_cons_iff in H2. destruct H2 as [H2 _].
    unfold chunk. rewrite concat_app. rewrite <- (concat_length_const _ _ H1). rewrite skipn_app, skipn_all, Nat.sub_diag. cbn [skipn app concat].
    rewrite <- H2. rewrite firstn_app, firstn_all, Nat.sub_diag. cbn [firstn]. apply app_nil_r. }
  rewrite E. destruct (F st c) as [s1|e]; [|reflexivity]. cbn [bind].
  specialize (IH (pre ++ [c]) s1). rewrite <- app_assoc in IH. cbn [app] in IH. rewrite app_length in IH. cbn [length] in IH.
  rewrite Nat.add_1_r in IH. apply IH. exact H.
Qed.
(** a list related to a flat_map falls into blocks *)
Lemma blocks {A B C} (P : B -> C -> Prop) (f : A -> list B) l : forall out, Forall2 P (flat_map f l) out ->
  exists css, out = concat css /\ Forall2 (fun a c => Forall2 P (f a) c) l css.
Proof.
  induction l as [|a l IH]; intros out H; cbn [flat_map] in H.
  - inversion H; subst. exists []. split; [reflexivity|constructor].
  - apply Forall2_app_inv_l in H. destruct H as (o1 & o2 & H1 & H2 & ->). destruct (IH _ H2) as (css & -> & H3).
    exists (o1 :: css). split; [reflexivity|constructor; assumption].
Qed.
Lemma combine_tau conv : combine conv (set_logtau_logdet conv) = map tau1 conv.
Proof. unfold set_logtau_logdet. induction conv; cbn; [reflexivity|]. f_equal. assumption. Qed.

(** ** all gaussians in a pixel *)
Section Pixel.
Variables (k : em_kind) (psf gm conv : gmix).
Hypothesis Hv : Forall2 visible (views psf gm) conv.
Hypothesis Hn : psf <> [].
Definition hsof (g : gauss) : gmix := map (seen psf g) psf.

Lemma scratch_blocks p css : forall gm, Forall2 (fun g c => Forall2 visible (hsof g) c) gm css ->
  forall l gsum L,
  foldM (fun (st : list scr * R * option R) c =>
        let '(l, gsum, logL) := st in
        let* (s, gsum, logL) := foldM (scratch_gauss k p) (map tau1 c) (scr0, gsum, logL) in
        Ok (l ++ [s], gsum, logL)) css (l, gsum, L) =
  Ok (l ++ map (fun g => scr_of k (hsof g) p) gm, gsum + model psf gm p, nan_add L (osum (map (fun h => log_dens h p) (views psf gm)))).
Proof.
  intros gm0 H. induction H as [|g c gm0 css Hg _ IH]; intros l gsum L.
  - cbn. rewrite app_nil_r, nan_add_0_r, Rplus_0_r. reflexivity.
  - cbn [foldM]. rewrite (scratch_fold k p _ _ Hg). cbn [bind]. rewrite IH. cbn [map]. rewrite <- app_assoc. cbn [app].
    unfold model, views. cbn [flat_map]. rewrite !map_app, rsum_app, osum_app, nan_add_assoc. fold (hsof g).
    do 3 f_equal; [|unfold hsof; ring]. f_equal. f_equal. unfold scr_add, scr0, scr_of; cbn. f_equal; ring.
Qed.
Lemma scratch_eq p : do_scratch_sums k p conv (length psf) (set_logtau_logdet conv) =
  Ok (map (fun g => scr_of k (hsof g) p) gm, model psf gm p,
      if Req_EM_T (model psf gm p) 0 then Some 0
      else match osum (map (fun h => log_dens h p) (views psf gm)) with Some x => Some (x / model psf gm p) | None => None end).
Proof.
  destruct (blocks visible hsof gm conv Hv) as (css & Ec & Hc).
  assert (HL : Forall (fun c => length c = length psf) css).
  { clear - Hc. induction Hc as [|g c l l' Hg _ IH]; constructor; [|assumption].
    rewrite <- (Forall2_length' _ _ _ Hg). unfold hsof. apply map_length. }
  unfold do_scratch_sums. assert (Hp : length psf <> 0%nat) by (destruct psf; [congruence|discriminate]).
  rewrite (proj2 (Nat.eqb_neq _ _) Hp), combine_tau.
  assert (EN : (length conv / length psf)%nat = length css).
  { rewrite Ec, (concat_length_const _ _ HL). apply Nat.div_mul. exact Hp. }
  rewrite EN, Ec, concat_map.
  pose proof (chunk_loop (length psf) (fun (st : list scr * R * option R) c =>
        let '(l, gsum, logL) := st in
        let* (s, gsum, logL) := foldM (scratch_gauss k p) c (scr0, gsum, logL) in
        Ok (l ++ [s], gsum, logL)) (map (map tau1) css) [] ([], 0, Some 0)) as Q.
  cbn [app length] in Q. rewrite map_length in Q.
  rewrite Q by (apply Forall_map; eapply Forall_impl; [|exact HL]; intros; rewrite map_length; assumption). clear Q.
  assert (FM : forall css st, foldM (fun (st : list scr * R * option R) c =>
        let '(l, gsum, logL) := st in
        let* (s, gsum, logL) := foldM (scratch_gauss k p) c (scr0, gsum, logL) in
        Ok (l ++ [s], gsum, logL)) (map (map tau1) css) st = foldM (fun (st : list scr * R * option R) c =>
        let '(l, gsum, logL) := st in
        let* (s, gsum, logL) := foldM (scratch_gauss k p) (map tau1 c) (scr0, gsum, logL) in
        Ok (l ++ [s], gsum, logL)) css st).
  { induction css0 as [|c css0 IH]; intros st; [reflexivity|]. cbn [map foldM].
    match goal with |- bind ?x _ = bind ?y _ => change y with x; destruct x end; cbn [bind]; [apply IH|reflexivity]. }
  rewrite FM, (scratch_blocks p css gm Hc). cbn [bind app]. rewrite Rplus_0_l, nan_add_0_l. f_equal. f_equal.
  unfold Reqb. destruct (Req_EM_T (model psf gm p) 0); [reflexivity|].
  destruct (osum _); [|reflexivity]. f_equal. field. assumption.
Qed.

(** ** all pixels *)
Variable sky : R.
Definition tot (p : pixel R) : R := model psf gm p + sky.
Definition plogL (p : pixel R) : option R :=
  if Req_EM_T (model psf gm p) 0 then Some 0
  else match osum (map (fun h => log_dens h p) (views psf gm)) with Some x => Some (x / model psf gm p) | None => None end.
Definition acc (pix : list (pixel R)) (a : sums) (g : gauss) : sums :=
  let f c := rsum (map (fun p => c (scr_of k (hsof g) p) * (px_val p / tot p)) pix) in
  mkSums (a_pnew a + f s_gi) (a_v a + f s_tv) (a_u a + f s_tu) (a_v2 a + f s_tv2) (a_uv a + f s_tuv) (a_u2 a + f s_tu2).
Lemma combine_map_map {A B C} (f : A -> B) (g : A -> C) l : combine (map f l) (map g l) = map (fun x => (f x, g x)) l.
Proof. induction l; cbn; [reflexivity|]. f_equal. assumption. Qed.

Lemma em_pixel_eq p A L ss : em_pixel k conv (length psf) (set_logtau_logdet conv) sky (map A gm, L, ss) p =
  if Req_EM_T (tot p) 0 then Raise GMixRangeError
  else Ok (map (fun g => acc [p] (A g) g) gm, nan_add L (plogL p), ss + sky * px_val p / tot p).
Proof.
  unfold em_pixel. rewrite scratch_eq. cbn [bind]. fold (tot p). unfold Reqb. destruct (Req_EM_T (tot p) 0); [reflexivity|].
  f_equal. f_equal. f_equal. unfold do_sums. rewrite combine_map_map, map_map. apply map_ext. intros g. unfold acc. cbn [map].
  rewrite !rsum_cons, !rsum_nil, !Rplus_0_r. reflexivity.
Qed.
Lemma acc_cons p pix a g : acc (p :: pix) a g = acc pix (acc [p] a g) g.
Proof. unfold acc. cbn [map a_pnew a_v a_u a_v2 a_uv a_u2]. rewrite !rsum_cons, !rsum_nil. f_equal; ring. Qed.
Lemma pixel_loop pix : forall A L ss,
  (Forall (fun p => tot p <> 0) pix ->
   foldM (em_pixel k conv (length psf) (set_logtau_logdet conv) sky) pix (map A gm, L, ss) =
   Ok (map (fun g => acc pix (A g) g) gm, nan_add L (osum (map plogL pix)), ss + rsum (map (fun p => sky * px_val p / tot p) pix))) /\
  (~ Forall (fun p => tot p <> 0) pix ->
   foldM (em_pixel k conv (length psf) (set_logtau_logdet conv) sky) pix (map A gm, L, ss) = Raise GMixRangeError).
Proof.
  induction pix as [|p pix IH]; intros A L ss; split; intros H.
  - cbn. rewrite nan_add_0_r, Rplus_0_r. f_equal. apply f_equal2; [apply f_equal2|reflexivity]; [|reflexivity]. apply map_ext. intros g. unfold acc. cbn. destruct (A g); cbn. f_equal; ring.
  - exfalso. apply H. constructor.
  - apply Forall_cons_iff in H. destruct H as [Hp H]. cbn [foldM]. rewrite em_pixel_eq. destruct (Req_EM_T (tot p) 0); [tauto|]. cbn [bind].
    destruct (IH (fun g => acc [p] (A g) g) (nan_add L (plogL p)) (ss + sky * px_val p / tot p)) as [IH1 _]. rewrite IH1 by exact H.
    f_equal. f_equal; [f_equal|].
    + apply map_ext. intros g. symmetry. apply acc_cons.
    + cbn [map]. rewrite osum_cons, nan_add_assoc. reflexivity.
    + cbn [map]. rewrite rsum_cons. ring.
  - cbn [foldM]. rewrite em_pixel_eq. destruct (Req_EM_T (tot p) 0); [reflexivity|]. cbn [bind].
    destruct (IH (fun g => acc [p] (A g) g) (nan_add L (plogL p)) (ss + sky * px_val p / tot p)) as [_ IH2]. apply IH2.
    intros K. apply H. constructor; assumption.
Qed.
End Pixel.
