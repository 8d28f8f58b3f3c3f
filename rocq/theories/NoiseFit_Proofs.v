From Verif Require Import Base XReal Jacobian_Model Pixels_Model Pixels_Spec Pixels_Proofs Shape_Model Moments_Model GMix_Model Render_Model Render_Proofs
  GMixObj_Model GMixObj_Proofs Units_Spec Units_Proofs UnitsPP_Proofs
  Priors_Model Joint_Model Fit_Model Fit_Spec Fit_Proofs Fit2_Proofs Fit3_Proofs FitUnits_Proofs FitUnits3_Proofs Noise_Spec.
Local Open Scope R_scope.

Section Kernel.
Variable k : R.
Hypothesis K : 0 < k.

Lemma noisier_len l l' : noisier k l l' -> length l' = length l.
Proof. induction 1; cbn; congruence. Qed.
Lemma loglike_noise gm px px' : noisier k px px' ->
  fst (get_loglike gm px') = fst (get_loglike gm px) /\ same_outcome (loglike_noisier k) (snd (get_loglike gm px)) (snd (get_loglike gm px')).
Proof.
  intros H. unfold get_loglike. destruct (set_norms_if_needed gm) as [gm' [u|e]]; cbn [fst snd bind]; [|split; reflexivity]. split; [reflexivity|].
  apply same_bind with (P := loglike_noisier k).
  - apply same_foldM with (1 := H). 2:{ unfold loglike_noisier, Rdiv. repeat split; ring. }
    intros [[[l n] d] c] [[[l' n'] d'] c'] p p' (-> & -> & -> & ->) (E1 & E2 & E3 & E4 & E5).
    unfold loglike_body. rewrite E1, E2, E3, E4, E5. destruct (gmix_eval_pixel_fast _ _ _ _); cbn [bind same_outcome]; [|reflexivity].
    unfold loglike_noisier. repeat split; field; lra.
  - intros [[[l n] d] c] [[[l' n'] d'] c'] (-> & -> & -> & ->). cbn. repeat split; field; lra.
Qed.
Lemma model_s2n_noise gm px px' : noisier k px px' ->
  fst (get_model_s2n gm px') = fst (get_model_s2n gm px) /\ same_outcome (fun s s' => s' = s / k) (snd (get_model_s2n gm px)) (snd (get_model_s2n gm px')).
Proof.
  intros H. unfold get_model_s2n, get_model_s2n_sum. destruct (set_norms_if_needed gm) as [gm' [u|e]]; cbn [fst snd bind rmap]; [|split; reflexivity]. split; [reflexivity|].
  match goal with |- same_outcome _ (rmap sqrt ?a) (rmap sqrt ?b) => assert (E : same_outcome (fun s s' => s' = s / k ^ 2) a b) end.
  { apply same_foldM with (1 := H). 2:{ unfold Rdiv. ring. } intros s s' p p' -> (E1 & E2 & E3 & E4 & E5). rewrite E1, E2, E3, E5.
    destruct (gmix_eval_pixel_fast _ _ _ _); cbn [bind same_outcome]; [|reflexivity]. field. lra. }
  match goal with |- same_outcome _ (rmap sqrt ?a) (rmap sqrt ?b) => destruct a as [x|], b as [y|] end; cbn [same_outcome rmap] in *; try contradiction; [|exact E].
  subst y. destruct (Rle_lt_dec 0 x).
  - rewrite sqrt_div by (first [assumption|apply pow_lt; lra]). rewrite sqrt_pow2 by lra. reflexivity.
  - rewrite (sqrt_neg_0 x) by lra. rewrite sqrt_neg_0. { unfold Rdiv. ring. } unfold Rdiv. pose proof (pow_lt k 2 K) as K2. apply Rinv_0_lt_compat in K2. nra.
Qed.
Lemma put_resid n fd fd' i x : (n <= i)%nat -> residuals_noisier n k fd fd' ->
  same_outcome (residuals_noisier n k) (put fd i x) (put fd' i (times (/ k) x)).
Proof.
  intros N (L & A & B). unfold put. rewrite L. destruct (Nat.ltb_spec i (length fd)) as [I|I]; [|reflexivity]. cbn [same_outcome].
  split; [rewrite !upd_length; exact L|]. split; intros j J.
  - rewrite !nth_upd_other by lia. apply A, J.
  - destruct (Nat.eq_dec i j) as [<-|D]. { rewrite (nth_upd_same fd), (nth_upd_same fd') by (first [exact I|rewrite L; exact I]). reflexivity. } rewrite !nth_upd_other by exact D. apply B, J.
Qed.
Lemma fdiff_x_noise n gm px px' fd fd' start : noisier k px px' -> (n <= start)%nat -> residuals_noisier n k fd fd' ->
  same_outcome (residuals_noisier n k) (snd (fill_fdiff_x gm px fd start)) (snd (fill_fdiff_x gm px' fd' start)).
Proof.
  intros H N R0. unfold fill_fdiff_x. destruct (set_norms_if_needed gm) as [gm' [u|e]]; cbn [fst snd bind]; [|reflexivity].
  apply same_bind with (P := fun x x' => residuals_noisier n k (fst x) (fst x') /\ snd x' = snd x).
  - apply same_foldM with (1 := H). 2:{ split; [exact R0|reflexivity]. }
    intros [f i] [f' i'] p p' [A B] (E1 & E2 & E3 & E4 & E5). cbn [fst snd] in A, B. subst i'. rewrite E1, E2, E3, E4, E5.
    destruct (gmix_eval_pixel_fast _ _ _ _); cbn [bind]; [|reflexivity].
    assert (X : Fin ((r - px_val p) * (px_ierr p / k)) = times (/ k) (Fin ((r - px_val p) * px_ierr p))) by (unfold times, xmul; f_equal; field; lra).
    rewrite X. apply same_bind with (P := residuals_noisier n k); [apply put_resid; [lia|exact A]|]. intros a a' Q. split; [exact Q|reflexivity].
  - intros [f i] [f' i'] [A _]. exact A.
Qed.
Lemma noisier_psf o o' : fobs_noisier k o o' -> psf_gmix o' = psf_gmix o /\ has_psf_gmix o' = has_psf_gmix o.
Proof. intros [_ E]. unfold psf_gmix, has_psf_gmix. rewrite E. split; reflexivity. Qed.
Lemma noisier_pixels o o' : fobs_noisier k o o' -> same_outcome (noisier k) (obs_pixels o) (obs_pixels o').
Proof. intros [H _]. unfold obs_pixels. destruct (fo_pixels o), (fo_pixels o'); try contradiction; [exact H|reflexivity]. Qed.
Lemma mapM_noisier {B} (f : fobs -> res B) os os' : (forall o o', fobs_noisier k o o' -> f o' = f o) -> Forall2 (fobs_noisier k) os os' -> mapM f os' = mapM f os.
Proof. intros H. induction 1 as [|o o' os os' R _ IH]; [reflexivity|]. cbn [mapM]. rewrite (H o o' R), IH. reflexivity. Qed.
Lemma lens_noisier l l' : Forall2 (noisier k) l l' -> forall n, fold_left (fun n (p : list (pixel R)) => (n + length p)%nat) l' n = fold_left (fun n p => (n + length p)%nat) l n.
Proof. induction 1 as [|x y l l' P _ IH]; intros n; [reflexivity|]. cbn [fold_left]. rewrite (noisier_len _ _ P). apply IH. Qed.
End Kernel.

Section Fits.
Variable k : R.
Hypothesis K : 0 < k.
Variables (m : fmodel) (obs obs' : list (list fobs)) (prior : option jprior) (F F' : fit).
Hypothesis Ft : fit_of m obs prior F.
Hypothesis Ft' : fit_of m obs' prior F'.
Hypothesis HO : Forall2 (Forall2 (fobs_noisier k)) obs obs'.
Let M := fit_made _ _ _ _ Ft.
Let M' := fit_made _ _ _ _ Ft'.

Lemma dopsf_noisier : f_dopsf F' = f_dopsf F.
Proof using HO Ft Ft' M M'.
  destruct (md_first _ _ _ _ M) as (o & os & l & E & ->), (md_first _ _ _ _ M') as (o' & os' & l' & E' & ->). rewrite E, E' in HO.
  inversion HO as [|? ? ? ? H _]; subst. inversion H as [|? ? ? ? X _]; subst. apply (noisier_psf k _ _ X).
Qed.
Lemma fpix_noisier : Forall2 (noisier k) (f_pixels F) (f_pixels F').
Proof using HO Ft Ft' M M'.
  pose proof (mapM_same2 (fobs_noisier k) (noisier k) obs_pixels obs_pixels _ _ (concat_F2 _ _ _ HO) (noisier_pixels k)) as H.
  rewrite (md_pixels _ _ _ _ M), (md_pixels _ _ _ _ M') in H. exact H.
Qed.
Lemma sizes_noisier : f_size F' = f_size F /\ f_npars F' = f_npars F /\ f_totpix F' = f_totpix F.
Proof using HO Ft Ft' M M'.
  assert (TP : f_totpix F' = f_totpix F).
  { rewrite (md_totpix _ _ _ _ M), (md_totpix _ _ _ _ M'). f_equal. pose proof fpix_noisier as X. clear - X.
      induction X as [|p p' l l' H _ IH]; [reflexivity|]. cbn [map]. rewrite IH, (noisier_len k _ _ H). reflexivity. }
  split; [|split; [|exact TP]].
  - rewrite (md_size _ _ _ _ M), (md_size _ _ _ _ M'). f_equal; [exact TP|].
    pose proof (md_nprior _ _ _ _ M) as N. pose proof (md_nprior _ _ _ _ M') as N'. rewrite <- (Forall2_length _ _ _ HO) in N'.
      destruct m; destruct prior; try congruence; destruct N, N'; congruence.
  - rewrite (md_npars _ _ _ _ M), (md_npars _ _ _ _ M'). unfold n_pars. rewrite (Forall2_length _ _ _ HO). reflexivity.
Qed.
Lemma bands_noisier p : bands_mix (f_model F') (f_dopsf F') p 0 (f_obs F') = bands_mix (f_model F) (f_dopsf F) p 0 (f_obs F).
Proof using HO Ft Ft' M M'.
  rewrite dopsf_noisier, (md_model _ _ _ _ M), (md_model _ _ _ _ M'), (md_obs _ _ _ _ M), (md_obs _ _ _ _ M'). generalize 0%nat. generalize (f_dopsf F). intros d. pose proof HO as X. clear - X.
  induction X as [|os os' l l' H _ IH]; intros b; [reflexivity|]. cbn [bands_mix]. destruct (band_pars_of m p b) as [bp|]; cbn [bind]; [|reflexivity].
  rewrite (mapM_noisier k (one_mix m d bp) os os'), IH; [reflexivity| |exact H]. intros o o' R. unfold one_mix. rewrite (proj1 (noisier_psf k o o' R)). reflexivity.
Qed.
Lemma like_fold_noise os os' : Forall2 (fobs_noisier k) os os' -> forall ds s s', loglike_noisier k s s' ->
  same_outcome (loglike_noisier k) (foldM like_step (combine os ds) s) (foldM like_step (combine os' ds) s').
Proof using K.
  clear - K. induction 1 as [|o o' os os' R _ IH]; intros ds s s' HS; [exact HS|]. destruct ds as [|d ds]; [exact HS|]. cbn [combine foldM].
  assert (E : same_outcome (loglike_noisier k) (like_step s (o, d)) (like_step s' (o', d))).
  { unfold like_step. cbn [fst snd]. apply same_bind with (1 := noisier_pixels k o o' R). intros px px' P.
    eapply same_bind; [exact (proj2 (loglike_noise k K d px px' P))|].
    intros [[[l n] e] c] [[[l' n'] e'] c'] (-> & -> & -> & ->). destruct s as [[[sl sn] sd] sk], s' as [[[sl' sn'] sd'] sk']. destruct HS as (-> & -> & -> & ->).
    cbn. repeat split; field; lra. }
  destruct (like_step s (o, d)), (like_step s' (o', d)); cbn [same_outcome] in E; try contradiction; [apply IH, E|exact E].
Qed.
Lemma lnprob_noise p : same_outcome (lnprob_noisier k (prior_value prior p)) (snd (calc_lnprob F p)) (snd (calc_lnprob F' p)).
Proof using K HO Ft Ft' M M'.
  assert (LOW : lnprob_noisier k (prior_value prior p) ln_low ln_low).
  { split; [reflexivity|]. split; [cbn; unfold Rdiv; ring|]. left. repeat split. }
  assert (OR : forall e, same_outcome (lnprob_noisier k (prior_value prior p)) (or_range (Raise e) ln_low) (or_range (Raise e) ln_low)).
  { intros e. unfold or_range. destruct e; first [reflexivity|exact LOW]. }
  rewrite (made_lnprob _ _ _ _ _ M), (made_lnprob _ _ _ _ _ M'). unfold pure_lnprob.
  assert (PV : get_priors F' p = prior_value prior p /\ get_priors F p = prior_value prior p).
  { unfold get_priors, prior_value. rewrite (md_prior _ _ _ _ M), (md_prior _ _ _ _ M'). split; reflexivity. }
  destruct PV as [-> ->]. rewrite bands_noisier, (md_obs _ _ _ _ M), (md_obs _ _ _ _ M').
  destruct (prior_value prior p) as [lp|e]; cbn [bind]; [|apply OR]. destruct (bands_mix _ _ p 0 _) as [ds|e]; cbn [bind]; [|apply OR].
  pose proof (like_fold_noise _ _ (concat_F2 _ _ _ HO) (concat ds) (0, 0, 0, 0%nat) (0, 0, 0, 0%nat) ltac:(unfold loglike_noisier, Rdiv; repeat split; ring)) as L.
  destruct (foldM like_step (combine (concat obs) _) _) as [[[[l n] d] c]|e], (foldM like_step (combine (concat obs') _) _) as [[[[l' n'] d'] c']|e']; cbn [same_outcome] in L; try contradiction; cbn [bind].
  - destruct L as (-> & -> & -> & ->). cbn [or_range same_outcome]. split; [reflexivity|]. split; [reflexivity|]. right. split; [reflexivity|]. exists lp, l. auto.
  - subst e'. apply OR.
Qed.
Lemma fd_fold_noise n pl pl' : Forall2 (noisier k) pl pl' -> forall ds fd fd' s, (n <= s)%nat -> residuals_noisier n k fd fd' ->
  same_outcome (fun x x' => residuals_noisier n k (fst x) (fst x')) (foldM fd_step (combine pl ds) (fd, s)) (foldM fd_step (combine pl' ds) (fd', s)).
Proof using K.
  clear - K. induction 1 as [|px px' l l' H _ IH]; intros ds fd fd' s N HS; [exact HS|]. destruct ds as [|d ds]; [exact HS|]. cbn [combine foldM].
  unfold fd_step at 1 3. cbn [fst snd]. pose proof (fdiff_x_noise k K n d px px' fd fd' s H N HS) as E.
  destruct (snd (fill_fdiff_x d px fd s)), (snd (fill_fdiff_x d px' fd' s)); cbn [same_outcome] in E; try contradiction; cbn [bind]; [|exact E].
  rewrite (noisier_len k _ _ H). apply IH; [lia|exact E].
Qed.
Lemma fd_start n pr s : length pr = n -> residuals_noisier n k (pr ++ repeat (Fin 0) s) (pr ++ repeat (Fin 0) s).
Proof using K.
  clear - K. intros L. split; [reflexivity|]. split; [reflexivity|]. intros i I. rewrite nth_error_app2 by lia. generalize (i - length pr)%nat. clear.
  induction s; intros [|j]; cbn; try reflexivity; [|apply IHs]. f_equal. f_equal. ring.
Qed.
Lemma low_noise n s : residuals_noisier n k (repeat LOWVAL s) (repeat LOWVAL s).
Proof using K.
  clear - K. split; [reflexivity|]. split; [reflexivity|]. intros i _. revert i. induction s; intros [|j]; cbn [repeat nth_error option_map]; try reflexivity; [|apply IHs].
  rewrite times_cases by (apply Rinv_0_lt_compat; exact K). reflexivity.
Qed.
Lemma residuals_noise n p : prior_ok prior n -> (n <= f_n_prior F)%nat -> same_outcome (residuals_noisier n k) (snd (calc_fdiff F p)) (snd (calc_fdiff F' p)).
Proof using K HO Ft Ft' M M'.
  intros PO N. rewrite (made_fdiff _ _ _ _ _ M), (made_fdiff _ _ _ _ _ M'). unfold pure_fdiff. rewrite (proj1 sizes_noisier), bands_noisier.
  assert (OR : forall e, same_outcome (residuals_noisier n k) (or_range (Raise e) (repeat LOWVAL (f_size F))) (or_range (Raise e) (repeat LOWVAL (f_size F)))).
  { intros e. unfold or_range. destruct e; first [reflexivity|apply low_noise]. }
  destruct (bands_mix _ _ p 0 _) as [ds|e]; cbn [bind]; [|apply OR].
  assert (NS : (n <= f_size F)%nat) by (rewrite (md_size _ _ _ _ M); lia).
  pose proof (fill_priors_spec _ _ _ _ p n (f_size F) M PO NS) as P1.
  assert (E : fill_priors F' p (repeat (Fin 0) (f_size F)) = fill_priors F p (repeat (Fin 0) (f_size F))) by (unfold fill_priors; rewrite (md_prior _ _ _ _ M), (md_prior _ _ _ _ M'); reflexivity).
  rewrite E. destruct (prior_value prior p) as [L|e]; [|rewrite P1; apply OR]. destruct P1 as (pr & Lp & _ & ->). cbn [bind].
  pose proof (fd_fold_noise n _ _ fpix_noisier (concat ds) _ _ n (le_n n) (fd_start n pr (f_size F - n) Lp)) as Q.
  destruct (foldM fd_step (combine (f_pixels F) _) _) as [x|e], (foldM fd_step (combine (f_pixels F') _) _) as [x'|e']; cbn [same_outcome] in Q; try contradiction; cbn [rmap or_range].
  - exact Q.
  - subst e'. apply OR.
Qed.
Lemma lnprob_no_prior p : prior = None -> same_outcome (fun l l' => l_lnprob l' = times (/ k ^ 2) (l_lnprob l)) (snd (calc_lnprob F p)) (snd (calc_lnprob F' p)).
Proof using K HO Ft Ft' M M'.
  intros E0. pose proof (lnprob_noise p) as H. destruct (snd (calc_lnprob F p)), (snd (calc_lnprob F' p)); cbn [same_outcome] in *; try contradiction; [|exact H].
  pose proof (pow_lt k 2 K) as K2. apply Rinv_0_lt_compat in K2.
  destruct H as (_ & _ & [(-> & -> & _)|(_ & x & L & E & -> & ->)]). { rewrite times_cases by exact K2. reflexivity. }
  rewrite E0 in E. injection E as <-. cbn. f_equal. unfold Rdiv. ring.
Qed.
Lemma fit_result_noise p err cov : same_outcome (fun r r' => result_noisier k r r' /\ (prior = None -> r_chi2per r' = times (/ k ^ 2) (r_chi2per r)))
  (snd (set_fit_result F p err cov)) (snd (set_fit_result F' p err cov)).
Proof using K HO Ft Ft' M M'.
  unfold set_fit_result. pose proof (lnprob_noise p) as L. pose proof (lnprob_no_prior p) as L0.
  destruct (lnprob_pure F p (md_ok _ _ _ _ M)) as (_ & (g & G) & _). destruct (lnprob_pure F' p (md_ok _ _ _ _ M')) as (_ & (g' & G') & _).
  destruct (calc_lnprob F p) as [A r], (calc_lnprob F' p) as [A' r']. cbn [fst snd] in *. subst A A'. cbn [f_npars f_prior f_model f_obs with_gms].
  rewrite (proj1 (proj2 sizes_noisier)), (md_prior _ _ _ _ M), (md_prior _ _ _ _ M'), (md_model _ _ _ _ M), (md_model _ _ _ _ M'), (md_obs _ _ _ _ M), (md_obs _ _ _ _ M'), <- (Forall2_length _ _ _ HO).
  destruct r as [l|e], r' as [l'|e']; cbn [same_outcome] in L, L0; try contradiction; cbn [bind]; [|exact L].
  destruct L as (NP & NU & L). rewrite NP. pose proof (pow_lt k 2 K) as K2. pose proof (Rinv_0_lt_compat _ K2) as K3.
  apply same_bind with (P := fun c c' => prior = None -> c' = times (/ k ^ 2) c).
  { destruct (Z.eqb _ 0).
    - destruct prior as [jp|]; [|reflexivity]. destruct (jp_numpy jp); [|reflexivity]. intros X. discriminate X.
    - intros X. rewrite (L0 X), (xdiv_times_l (/ k ^ 2) K3), (xdiv_times_l (/ k ^ 2) K3). reflexivity. }
  intros c c' HC. destruct (ritem p 4); cbn [bind]; [|reflexivity]. destruct (citem cov 4 4); cbn [bind]; [|reflexivity].
  destruct (set_flux_result _ _ _ _); cbn [bind]; [|reflexivity]. cbn [same_outcome]. split; [|exact HC].
  unfold result_noisier; cbn [r_s2n r_dof r_g r_g_cov r_g_err r_T r_T_err r_flux]. split; [|repeat split; reflexivity].
  destruct L as [(-> & _ & N0)|(D & _)].
  - rewrite N0. destruct (Rltb 0 (l_denom l)); unfold Rdiv; ring.
  - rewrite D, NU. replace (l_denom l / k ^ 2) with (/ k ^ 2 * l_denom l) by (unfold Rdiv; ring). rewrite (Rltb0_scale _ K3). destruct (Rltb_spec 0 (l_denom l)) as [P|P].
    + rewrite sqrt_mult by lra. rewrite sqrt_inv, sqrt_pow2 by lra. pose proof (sqrt_lt_R0 _ P). field. split; lra.
    + unfold Rdiv. ring.
Qed.
End Fits.
