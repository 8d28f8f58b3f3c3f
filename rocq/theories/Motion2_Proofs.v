From Verif Require Import Base XReal Pixels_Model Jacobian_Model Jacobian_Spec GMix_Model GMix_Spec GMixObj_Model GMixObj_Proofs Render_Model Render_Spec Render_Proofs Pixels_Proofs
  FastExp_Model Priors_Model Joint_Model Fit_Model Fit_Spec Fit_Proofs Fit2_Proofs Fit3_Proofs Units_Spec Units_Proofs FitUnits_Proofs FitUnits2_Proofs FitUnits3_Proofs Motion_Spec Motion_Proofs.
Local Open Scope R_scope.

Lemma same_eq' {X} (r r' : res X) : same_outcome eq r r' -> r' = r.
Proof. destruct r, r'; cbn; intros H; try contradiction; subst; reflexivity. Qed.

Section M.
Variables t a b : R.
Notation GM := (gauss_moved 1 t a b).
Notation OM := (obs_moved t a b).
Notation PM := (pars_moved t a b).
Notation XM := (pix_moved t a b).
Definition WM (w w' : gmix) : Prop := Forall2 GM w w' /\ Forall raw w /\ Forall raw w'.

Lemma norms_moved w w' : WM w w' -> same_outcome eq (snd (set_norms_if_needed w)) (snd (set_norms_if_needed w')) /\
  (snd (set_norms_if_needed w) = Ok tt -> Forall2 (mready t a b) (fst (set_norms_if_needed w)) (fst (set_norms_if_needed w'))).
Proof.
  intros (W & R & R'). destruct W as [|g g' w w' G W]; [split; [reflexivity|discriminate]|].
  unfold set_norms_if_needed. apply Forall_cons_iff in R, R'. destruct R as [[_ ->] _], R' as [[_ ->] _]. cbn [negb].
  apply (set_norms_moved t a b (g :: w) (g' :: w')). constructor; assumption.
Qed.
Lemma loglike_moved w w' px px' : WM w w' -> XM px px' -> snd (get_loglike w' px') = snd (get_loglike w px).
Proof.
  intros W P. unfold get_loglike. destruct (norms_moved w w' W) as [S R]. destruct (set_norms_if_needed w) as [v r], (set_norms_if_needed w') as [v' r']. cbn [fst snd] in *.
  apply same_eq' in S. subst r'. destruct r as [[]|]; [|reflexivity]. specialize (R eq_refl). cbn [bind]. apply same_eq'.
  eapply same_bind with (P := eq); [|intros [[[? ?] ?] ?] ? <-; reflexivity].
  eapply same_foldM; [exact P| |reflexivity]. intros s0 ? p p' <- (P1 & P2 & P3 & P4 & P5). destruct s0 as [[[l n] d] c0]. unfold loglike_body.
  rewrite P1, P2, P3, P4, P5, (eval_moved t a b v v' _ _ _ R). apply same_refl.
Qed.
Lemma fdiff_moved w w' px px' fd start : WM w w' -> XM px px' -> snd (fill_fdiff_x w' px' fd start) = snd (fill_fdiff_x w px fd start).
Proof.
  intros W P. unfold fill_fdiff_x. destruct (norms_moved w w' W) as [S R]. destruct (set_norms_if_needed w) as [v r], (set_norms_if_needed w') as [v' r']. cbn [fst snd] in *.
  apply same_eq' in S. subst r'. destruct r as [[]|]; [|reflexivity]. specialize (R eq_refl). cbn [bind]. apply same_eq'.
  eapply same_bind with (P := eq); [|intros [? ?] ? <-; reflexivity].
  eapply same_foldM; [exact P| |reflexivity]. intros s0 ? p p' <- (P1 & P2 & P3 & P4 & P5). destruct s0 as [l c0].
  rewrite P1, P2, P3, P4, P5, (eval_moved t a b v v' _ _ _ R). apply same_refl.
Qed.

(** ** parameters of a band and mixtures *)
Lemma moved_length p p' : PM p p' -> length p' = length p.
Proof. intros (v & u & g1 & g2 & rest & -> & ->). reflexivity. Qed.
Lemma slice_moved n num p p' i : PM p p' -> same_outcome PM (slice_and_one num (4 + n) i p) (slice_and_one num (4 + n) i p').
Proof.
  intros (v & u & g1 & g2 & rest & -> & ->). unfold slice_and_one.
  change (length (moved_v t a v u :: moved_u t b v u :: turned_1 t g1 g2 :: turned_2 t g1 g2 :: rest)) with (length (v :: u :: g1 :: g2 :: rest)).
  destruct (negb _ && _)%bool; [reflexivity|]. 
  cbn [Nat.add nth_error firstn app]. destruct (nth_error rest (n + i)) as [x|]; [|reflexivity]. cbn [same_outcome length]. do 5 eexists. split; reflexivity.
Qed.
Lemma band_pars_moved m p p' i : PM p p' -> same_outcome PM (band_pars_of m p i) (band_pars_of m p' i).
Proof.
  intros H. destruct m as [m|n]; cbn [band_pars_of]; [|exact H]. unfold get_band_pars. destruct m; first [apply (slice_moved 1 _ _ _ _ H)|apply (slice_moved 2 _ _ _ _ H)|apply (slice_moved 3 _ _ _ _ H)|reflexivity].
Qed.
Lemma fill_moved' m p p' : PM p p' -> same_outcome WM (fill_func (mkind m) (mng m) p) (fill_func (mkind m) (mng m) p').
Proof.
  intros H. apply same_and.
  - apply fill_moved; [exact H|destruct m; exact I].
  - intros x E. eapply fill_raw; exact E.
  - intros x E. eapply fill_raw; exact E.
Qed.
Lemma pure_fill_moved m bp bp' : PM bp bp' -> same_outcome WM (pure_fill m bp) (pure_fill m bp').
Proof. intros H. unfold pure_fill. rewrite (moved_length _ _ H). destruct (Nat.eqb _ _); [apply fill_moved', H|]. destruct H as (v & u & g1 & g2 & rest & -> & ->). reflexivity. Qed.
Lemma one_moved m dopsf bp bp' o o' : PM bp bp' -> OM o o' -> same_outcome WM (one_mix m dopsf bp o) (one_mix m dopsf bp' o').
Proof.
  intros H (_ & _ & _ & _ & _ & kp & ap & bp0 & KP & OP). unfold one_mix. destruct dopsf; [|apply pure_fill_moved; assumption].
  eapply same_bind; [exact OP|]. intros psf psf' [_ S]. eapply same_bind; [apply (pure_fill_moved m bp bp' H)|]. intros w w' (W & _ & _).
  apply same_and; [apply (convolve_moved t a b kp ap bp0); assumption| |]; intros x E; eapply convolve_raw; exact E.
Qed.
Lemma bands_moved m dopsf p p' : PM p p' -> forall obs obs', Forall2 (Forall2 OM) obs obs' -> forall i,
  same_outcome (Forall2 (Forall2 WM)) (bands_mix m dopsf p i obs) (bands_mix m dopsf p' i obs').
Proof.
  intros H. induction 1 as [|os os' obs obs' HO _ IH]; intros i; cbn [bands_mix]; [constructor|].
  eapply same_bind; [apply (band_pars_moved m p p' i H)|]. intros bp bp' B.
  eapply same_bind; [eapply mapM_same2; [exact HO|]; intros o o' Ho; apply (one_moved m dopsf bp bp' o o' B Ho)|]. intros l l' HL.
  eapply same_bind; [apply IH|]. intros r r' HR. constructor; assumption.
Qed.

Lemma obs_pixels_moved o o' : OM o o' -> same_outcome XM (obs_pixels o) (obs_pixels o').
Proof. intros (H & _). unfold obs_pixels. destruct (fo_pixels o), (fo_pixels o'); try contradiction; [exact H|reflexivity]. Qed.
Lemma pixels_moved os os' : Forall2 OM os os' -> same_outcome (Forall2 XM) (mapM obs_pixels os) (mapM obs_pixels os').
Proof. intros H. eapply mapM_same2; [exact H|]. apply obs_pixels_moved. Qed.
Lemma like_step_moved s0 od od' : OM (fst od) (fst od') -> WM (snd od) (snd od') -> same_outcome eq (like_step s0 od) (like_step s0 od').
Proof.
  intros O W. unfold like_step. eapply same_bind; [apply obs_pixels_moved, O|]. intros px px' X.
  rewrite (loglike_moved _ _ _ _ W X). apply same_refl.
Qed.
Lemma fd_step_moved s0 pd pd' : XM (fst pd) (fst pd') -> WM (snd pd) (snd pd') -> same_outcome eq (fd_step s0 pd) (fd_step s0 pd').
Proof.
  intros X W. unfold fd_step. rewrite (fdiff_moved _ _ _ _ _ _ W X), <- (Forall2_length _ _ _ X). apply same_refl.
Qed.
Section Fits.
Variables (m : fmodel) (obs obs' : list (list fobs)) (prior prior' : option jprior) (F F' : fit).
Hypothesis Ft : fit_of m obs prior F.
Hypothesis Ft' : fit_of m obs' prior' F'.
Hypothesis HO : Forall2 (Forall2 OM) obs obs'.
Hypothesis HP : match prior, prior' with Some _, Some _ | None, None => True | _, _ => False end.
Let M := fit_made _ _ _ _ Ft.
Let M' := fit_made _ _ _ _ Ft'.

Lemma dopsf_moved : f_dopsf F' = f_dopsf F.
Proof.
  destruct (md_first _ _ _ _ M) as (o & os & l & E & ->), (md_first _ _ _ _ M') as (o' & os' & l' & E' & ->). rewrite E, E' in HO.
  inversion HO as [|? ? ? ? H _]; subst. inversion H as [|? ? ? ? (_ & _ & _ & _ & X & _) _]; subst. exact X.
Qed.
Lemma fpix_moved : Forall2 XM (f_pixels F) (f_pixels F').
Proof.
  pose proof (pixels_moved _ _ (concat_F2 _ _ _ HO)) as H. rewrite (md_pixels _ _ _ _ M), (md_pixels _ _ _ _ M') in H. exact H.
Qed.
Lemma size_moved : f_size F' = f_size F /\ f_npars F' = f_npars F.
Proof.
  split.
  - rewrite (md_size _ _ _ _ M), (md_size _ _ _ _ M'). f_equal.
    + rewrite (md_totpix _ _ _ _ M), (md_totpix _ _ _ _ M'). f_equal. pose proof fpix_moved as X. clear - X.
      induction X as [|p p' l l' H _ IH]; [reflexivity|]. cbn [map]. rewrite IH, (Forall2_length _ _ _ H). reflexivity.
    + pose proof (md_nprior _ _ _ _ M) as N. pose proof (md_nprior _ _ _ _ M') as N'. rewrite <- (Forall2_length _ _ _ HO) in N'.
      destruct m; destruct prior, prior'; try contradiction; try congruence; destruct N, N'; congruence.
  - rewrite (md_npars _ _ _ _ M), (md_npars _ _ _ _ M'). unfold n_pars. rewrite (Forall2_length _ _ _ HO). reflexivity.
Qed.
Variables p p' : list R.
Hypothesis HU : PM p p'.

Lemma mix_moved_same : same_outcome (Forall2 (Forall2 WM)) (bands_mix (f_model F) (f_dopsf F) p 0 (f_obs F)) (bands_mix (f_model F') (f_dopsf F') p' 0 (f_obs F')).
Proof.
  rewrite dopsf_moved, (md_model _ _ _ _ M), (md_model _ _ _ _ M'), (md_obs _ _ _ _ M), (md_obs _ _ _ _ M').
  apply (bands_moved m (f_dopsf F) p p' HU obs obs' HO).
Qed.
Lemma get_priors_moved : prior_moved t a b prior prior' -> get_priors F' p' = get_priors F p.
Proof.
  unfold prior_moved, get_priors. intros H. rewrite (md_prior _ _ _ _ M), (md_prior _ _ _ _ M').
  destruct prior, prior'; try contradiction; [|reflexivity]. exact (proj2 H p p' HU).
Qed.
Lemma lnprob_moved : prior_moved t a b prior prior' -> snd (calc_lnprob F' p') = snd (calc_lnprob F p).
Proof.
  intros HQ. rewrite (made_lnprob _ _ _ _ _ M), (made_lnprob _ _ _ _ _ M'), !pure_ln_like, (get_priors_moved HQ). f_equal. destruct (get_priors F p) as [lp|]; [|reflexivity]. cbn [bind].
  apply same_eq'. unfold like_of. eapply same_bind; [apply mix_moved_same|]. intros ds ds' D. eapply same_bind with (P := eq); [|intros [[[? ?] ?] ?] ? <-; reflexivity].
  eapply same_foldM with (E := fun x x' => OM (fst x) (fst x') /\ WM (snd x) (snd x')); [|intros s0 ? x x' <- [H1 H2]; apply (like_step_moved s0 x x' H1 H2)|reflexivity].
  rewrite (md_obs _ _ _ _ M), (md_obs _ _ _ _ M'). apply combine_F2; apply concat_F2; assumption.
Qed.
Lemma fdiffs_moved : residuals_moved t a b prior prior' -> snd (calc_fdiff F' p') = snd (calc_fdiff F p).
Proof.
  intros HQ. rewrite (made_fdiff _ _ _ _ _ M), (made_fdiff _ _ _ _ _ M'). unfold pure_fdiff. rewrite (proj1 size_moved). f_equal. apply same_eq'.
  eapply same_bind; [apply mix_moved_same|]. intros ds ds' D. eapply same_bind with (P := eq).
  { unfold fill_priors. rewrite (md_prior _ _ _ _ M), (md_prior _ _ _ _ M'). unfold residuals_moved in HQ. destruct prior, prior'; try contradiction; [|apply same_refl]. rewrite (HQ p p' _ HU). apply same_refl. }
  intros s0 ? <-. rewrite !rmap_bind. eapply same_bind with (P := eq); [|intros ? ? <-; reflexivity].
  eapply same_foldM with (E := fun x x' => XM (fst x) (fst x') /\ WM (snd x) (snd x')); [|intros x0 ? x x' <- [H1 H2]; apply (fd_step_moved x0 x x' H1 H2)|reflexivity].
  apply combine_F2; [exact fpix_moved|apply concat_F2; assumption].
Qed.
End Fits.
Definition together (P P' : option jprior) : Prop := match P, P' with Some _, Some _ | None, None => True | _, _ => False end.
Lemma prior_together P P' : prior_moved t a b P P' -> together P P'.
Proof. unfold prior_moved, together. destruct P, P'; tauto. Qed.
Lemma residuals_together P P' : residuals_moved t a b P P' -> together P P'.
Proof. unfold residuals_moved, together. destruct P, P'; tauto. Qed.

(** ** making the object *)
Lemma finish_moved kd ng ng' np np' p p' : ng' = ng -> same_outcome WM (fill_func kd ng p) (fill_func kd ng p') ->
  same_outcome (fun g g' => WM (o_data g) (o_data g')) (finish (obj__fill (blank kd ng np) p)) (finish (obj__fill (blank kd ng' np') p')).
Proof.
  intros -> H. unfold finish, obj__fill. cbn [blank o_kind o_ngauss]. destruct (fill_func kd ng p), (fill_func kd ng p'); cbn in *; try contradiction; exact H.
Qed.
Lemma model_moved m p p' : PM p p' -> (match m with FCoellip n => length p = (4 + 2 * n)%nat | _ => True end) ->
  same_outcome (fun g g' => WM (o_data g) (o_data g')) (make_model m p) (make_model m p').
Proof.
  intros H L. pose proof (fill_moved' m p p' H) as U. destruct m as [m|n]; cbn [make_model mkind mng] in *.
  - unfold new_model. destruct m; try reflexivity; unfold obj_fill; cbn [blank o_npars]; rewrite (moved_length _ _ H); (destruct (negb _); [reflexivity|]); apply finish_moved; auto.
  - unfold new_coellip. rewrite (moved_length _ _ H), L. destruct (negb _); [reflexivity|]. destruct (Nat.ltb _ _); [reflexivity|].
    replace ((4 + 2 * n - 4) / 2)%nat with n by (symmetry; replace (4 + 2 * n - 4)%nat with (n * 2)%nat by lia; apply Nat.div_mul; lia). apply finish_moved; auto.
Qed.
Lemma convolved_moved g g' r r' kp ap bp : kp <> 0 -> WM (o_data g) (o_data g') -> mix_moved kp t ap bp r r' ->
  same_outcome (fun g g' => WM (o_data g) (o_data g')) (obj_convolve g r) (obj_convolve g' r').
Proof.
  intros KP (W & _) [_ S]. unfold obj_convolve. eapply same_bind; [|intros d d' D; exact D].
  apply same_and; [apply (convolve_moved t a b kp ap bp); assumption| |]; intros x E; eapply convolve_raw; exact E.
Qed.
Lemma init_one_moved m dopsf bp bp' o o' : PM bp bp' -> (match m with FCoellip n => length bp = (4 + 2 * n)%nat | _ => True end) -> OM o o' ->
  same_outcome (fun _ _ => True) (init_one m dopsf bp o) (init_one m dopsf bp' o').
Proof.
  intros H L (_ & _ & _ & _ & _ & kp & ap & bp0 & KP & OP). unfold init_one. pose proof (model_moved m bp bp' H L) as S.
  pose proof (make_model_shape m bp) as C. pose proof (make_model_shape m bp') as C'.
  destruct (make_model m bp) as [g|], (make_model m bp') as [g'|]; cbn in S; try contradiction; [|exact S]. cbn [bind]. destruct dopsf.
  - eapply same_bind with (P := fun _ _ => True); [|intros; exact I]. eapply same_bind; [exact OP|]. intros r r' HS.
    pose proof (convolved_moved g g' r r' kp ap bp0 KP S HS) as V. destruct (obj_convolve g r), (obj_convolve g' r'); cbn in *; auto.
  - assert (L' : match m with FCoellip n => length bp' = (4 + 2 * n)%nat | _ => True end) by (rewrite (moved_length _ _ H); exact L).
    destruct (C g L eq_refl) as (_ & _ & ->), (C' g' L' eq_refl) as (_ & _ & ->). exact I.
Qed.
Lemma init_moved m obs obs' prior prior' guess guess' : Forall2 (Forall2 OM) obs obs' -> together prior prior' -> PM guess guess' ->
  same_outcome (fun _ _ => True) (fit_init m obs guess prior) (fit_init m obs' guess' prior').
Proof.
  intros HO HP H. unfold fit_init. rewrite <- (Forall2_length _ _ _ HO). eapply same_bind; [apply pixels_moved, concat_F2, HO|]. intros px px' _.
  eapply same_bind with (P := eq).
  { unfold together in HP. destruct m as [m|n]; [destruct prior, prior'; try contradiction; apply same_refl|]. destruct (negb _); [reflexivity|].
    destruct prior, prior'; try contradiction; reflexivity. }
  intros np ? <-. eapply same_bind with (P := fun _ _ => True); [|intros [? ?] [? ?] _; exact I].
  unfold setup_fit. rewrite (moved_length _ _ H).
  destruct (Nat.eqb_spec (length guess) (match m with FName m0 => model_npars m0 + length obs - 1 | FCoellip n => 4 + 2 * n end)) as [Lg|]; cbn [negb]; [|reflexivity].
  assert (I : same_outcome (fun _ _ => True) (init_gmix_all m obs guess) (init_gmix_all m obs' guess')).
  2:{ destruct (init_gmix_all m obs guess) as [|[]], (init_gmix_all m obs' guess') as [|[]]; cbn in *; try contradiction; try discriminate; auto. }
  assert (Lc : match m with FCoellip n => length guess = (4 + 2 * n)%nat | _ => True end) by (destruct m; [exact I|exact Lg]). clear Lg.
  unfold init_gmix_all. rewrite <- (Forall2_length _ _ _ HO).
  eapply same_bind with (P := OM).
  { destruct HO as [|? ? obs obs' [|o o' os os' O _] _]; [reflexivity|reflexivity|exact O]. }
  intros o o' O. assert (PS : has_psf_gmix o' = has_psf_gmix o) by (destruct O as (_ & _ & _ & _ & E & _); exact E). cbv zeta. rewrite PS.
  eapply same_bind with (P := fun _ _ => True); [|intros; exact I].
  generalize (has_psf_gmix o) as dopsf. intros dopsf. clear O PS o o'; clear - H HO Lc.
  assert (S : same_outcome (Forall2 (fun _ _ => True))
    (mapM (fun q => let* bp := band_pars_of m guess (snd q) in mapM (init_one m dopsf bp) (fst q)) (combine obs (seq 0 (length obs))))
    (mapM (fun q => let* bp := band_pars_of m guess' (snd q) in mapM (init_one m dopsf bp) (fst q)) (combine obs' (seq 0 (length obs))))).
  2:{ destruct (mapM _ (combine obs _)), (mapM _ (combine obs' _)); cbn in *; auto. }
  eapply mapM_same2 with (E := fun q q' => Forall2 OM (fst q) (fst q') /\ snd q = snd q').
  { apply combine_F2; [exact HO|]. apply Forall2_diag. }
  intros [os i] [os' i'] [Ho Hb]. cbn [fst snd] in *. subst i'. pose proof (band_pars_moved m guess guess' i H) as B.
  assert (Lb : forall bp, band_pars_of m guess i = Ok bp -> match m with FCoellip n => length bp = (4 + 2 * n)%nat | _ => True end).
  { intros bp E. destruct m; [exact I|]. injection E as <-. exact Lc. }
  destruct (band_pars_of m guess i) as [bp|], (band_pars_of m guess' i) as [bp'|]; cbn in B; try contradiction; [|exact B]. cbn [bind].
  pose proof (mapM_same2 OM (fun _ _ : gmobj * gmobj => True) (init_one m dopsf bp) (init_one m dopsf bp') os os' Ho) as X.
  assert (Y : same_outcome (Forall2 (fun _ _ : gmobj * gmobj => True)) (mapM (init_one m dopsf bp) os) (mapM (init_one m dopsf bp') os')).
  { apply X. intros o o' O. apply init_one_moved; [exact B|exact (Lb _ eq_refl)|exact O]. }
  destruct (mapM (init_one m dopsf bp) os), (mapM (init_one m dopsf bp') os'); cbn in *; auto.
Qed.

(** ** images *)
Lemma image_of_moved w w' nr nc j j' : WM w w' -> jac_moved t a b j j' ->
  same_outcome same_image (snd (make_image w nr nc (Some j) false)) (snd (make_image w' nr nc (Some j') false)).
Proof.
  intros W [J1 J2]. destruct (norms_moved w w' W) as [S R]. destruct (set_norms_if_needed w) as [v r] eqn:E, (set_norms_if_needed w') as [v' r'] eqn:E'. cbn [fst snd] in *.
  apply same_eq' in S. subst r'. destruct r as [[]|e]; [specialize (R eq_refl)|].
  2:{ unfold make_image. destruct (make_coords_spec nr nc j) as (l & -> & _), (make_coords_spec nr nc j') as (l' & -> & _). unfold render. rewrite E, E'. reflexivity. }
  destruct (make_image_gen w nr nc j false (fun g q => gmix_eval_pixel g (cd_v q) (cd_u q) (cd_area q)) v E ltac:(reflexivity)) as (im & -> & I1 & I2 & I3).
  destruct (make_image_gen w' nr nc j' false (fun g q => gmix_eval_pixel g (cd_v q) (cd_u q) (cd_area q)) v' E' ltac:(reflexivity)) as (im' & -> & I1' & I2' & I3').
  cbn [snd same_outcome]. split; [congruence|]. split; [congruence|]. rewrite I1, I2. intros row col Hr Hc.
  destruct (I3 row col Hr Hc) as (q & MT & AR & ->), (I3' row col Hr Hc) as (q' & MT' & AR' & ->).
  destruct (J1 _ _ _ _ _ _ MT MT') as [-> ->]. rewrite AR, AR', J2, (eval_moved_full t a b v v' _ _ _ R). reflexivity.
Qed.
Lemma obs_at_moved F F' i n : Forall2 (Forall2 OM) (f_obs F) (f_obs F') -> same_outcome OM (obs_at F i n) (obs_at F' i n).
Proof.
  intros H. unfold obs_at.
  assert (NE : forall X (P : X -> X -> Prop) l l', Forall2 P l l' -> forall i, match nth_error l i, nth_error l' i with Some x, Some y => P x y | None, None => True | _, _ => False end).
  { clear. intros X P l l'. induction 1 as [|x x' l l' Hx _ IH]; intros [|i]; cbn [nth_error]; [exact I|exact I|exact Hx|apply IH]. }
  pose proof (NE _ _ _ _ H i) as B. destruct (nth_error (f_obs F) i) as [os|], (nth_error (f_obs F') i) as [os'|]; try contradiction; [|reflexivity].
  pose proof (NE _ _ _ _ B n) as C. destruct (nth_error os n), (nth_error os' n); try contradiction; [exact C|reflexivity].
Qed.
Lemma image_moved m obs obs' prior prior' F F' p p' i n : fit_of m obs prior F -> fit_of m obs' prior' F' -> Forall2 (Forall2 OM) obs obs' ->
  PM p p' -> length p = n_pars m obs ->
  same_outcome same_image (fit_make_image F p i n) (fit_make_image F' p' i n).
Proof.
  intros Ft Ft' HO HU HL. pose proof (fit_made _ _ _ _ Ft) as M. pose proof (fit_made _ _ _ _ Ft') as M'.
  unfold fit_make_image. eapply same_bind with (P := fun g g' => WM (o_data g) (o_data g')).
  { unfold get_convolved_gmix, get_gmix. rewrite (md_model _ _ _ _ M), (md_model _ _ _ _ M').
    eapply same_bind with (P := fun g g' => WM (o_data g) (o_data g')).
    { pose proof (band_pars_moved m p p' i HU) as B.
      assert (Lb : forall bp, band_pars_of m p i = Ok bp -> match m with FCoellip n => length bp = (4 + 2 * n)%nat | _ => True end).
      { intros bp E. destruct m; [exact I|]. injection E as <-. exact HL. }
      destruct (band_pars_of m p i) as [bp|], (band_pars_of m p' i) as [bp'|]; cbn in B; try contradiction; [|exact B]. cbn [bind]. apply model_moved; [exact B|exact (Lb _ eq_refl)]. }
    intros g g' W. eapply same_bind; [apply obs_at_moved; rewrite (md_obs _ _ _ _ M), (md_obs _ _ _ _ M'); exact HO|].
    intros o o' (_ & _ & _ & _ & PS & kp & ap & bp & KP & OP). rewrite PS. destruct (has_psf_gmix o); [|exact W].
    eapply same_bind; [exact OP|]. intros r r' S. eapply convolved_moved; eassumption. }
  intros g g' W. eapply same_bind; [apply obs_at_moved; rewrite (md_obs _ _ _ _ M), (md_obs _ _ _ _ M'); exact HO|].
  intros o o' (_ & R & C & J & _). rewrite R, C. apply image_of_moved; assumption.
Qed.

(** ** results *)
Lemma ritem_rest p p' i : PM p p' -> (4 <= i)%nat -> ritem p' i = ritem p i.
Proof. intros (v & u & g1 & g2 & rest & -> & ->) H. destruct i as [|[|[|[|i]]]]; try lia. reflexivity. Qed.
Lemma citem_rest x x' i j : cov_moved t x x' -> (4 <= i)%nat -> (4 <= j)%nat -> citem x' i j = citem x i j.
Proof. intros (E1 & E2 & E3 & _) Hi Hj. unfold citem. rewrite E1, E2. destruct (_ && _)%bool; [|reflexivity]. rewrite E3 by assumption. reflexivity. Qed.
Lemma flux_four m : (4 <= flux_start m)%nat. Proof. destruct m; cbn; lia. Qed.
Lemma result_moved_of m obs obs' prior prior' F F' p p' e e' x x' : fit_of m obs prior F -> fit_of m obs' prior' F' -> Forall2 (Forall2 OM) obs obs' -> prior_moved t a b prior prior' ->
  PM p p' -> cov_moved t x x' ->
  same_outcome (result_moved t) (snd (set_fit_result F p e x)) (snd (set_fit_result F' p' e' x')).
Proof.
  intros Ft Ft' HO HP HU HC. pose proof (fit_made _ _ _ _ Ft) as M. pose proof (fit_made _ _ _ _ Ft') as M'.
  pose proof (lnprob_moved m obs obs' prior prior' F F' Ft Ft' HO (prior_together _ _ HP) p p' HU HP) as EQ.
  pose proof (proj2 (size_moved m obs obs' prior prior' F F' Ft Ft' HO (prior_together _ _ HP))) as NP.
  unfold set_fit_result. destruct (lnprob_pure F p (md_ok _ _ _ _ M)) as (_ & [g S] & _). destruct (lnprob_pure F' p' (md_ok _ _ _ _ M')) as (_ & [g' S'] & _).
  destruct (calc_lnprob F p) as [G r], (calc_lnprob F' p') as [G' r']. cbn [fst snd] in *. subst G G' r'. cbn [with_gms f_npars f_prior f_model f_obs].
  rewrite NP, (md_model _ _ _ _ M), (md_model _ _ _ _ M'), (md_obs _ _ _ _ M), (md_obs _ _ _ _ M'), (md_prior _ _ _ _ M), (md_prior _ _ _ _ M'), (Forall2_length _ _ _ HO).
  destruct r as [l|]; [|reflexivity]. cbn [bind]. cbv zeta.
  eapply same_bind with (P := eq).
  { destruct (Z.eqb _ 0); [|reflexivity]. replace (match prior' with None => false | Some q => jp_numpy q end) with (match prior with None => false | Some q => jp_numpy q end).
    - destruct (match prior with None => false | Some q => jp_numpy q end); reflexivity.
    - unfold prior_moved in HP. destruct prior, prior'; try contradiction; [symmetry; apply HP|reflexivity]. }
  intros ch ? <-. rewrite (ritem_rest p p' 4 HU), (citem_rest x x' 4 4 HC) by lia.
  eapply same_bind; [apply same_refl|]. intros T ? <-. eapply same_bind; [apply same_refl|]. intros v ? <-.
  eapply same_bind with (P := fun fl fl' => match fl, fl' with
      | FluxOne F e, FluxOne F' e' => F' = F /\ e' = e
      | FluxMany F c e, FluxMany F' c' e' => F' = F /\ e' = e /\ nrow c' = nrow c /\ ncol c' = ncol c /\ forall i j, at2 c' i j = at2 c i j
      | FluxNone, FluxNone => True | _, _ => False end).
  { destruct m as [m|nn]; cbn [set_flux_result]; [|exact I]. pose proof (flux_four m) as F4. destruct (Nat.eqb _ 1).
    - rewrite (ritem_rest p p' _ HU), (citem_rest x x' _ _ HC) by lia. destruct (ritem p _); [|reflexivity]. cbn [bind]. destruct (citem _ _ _); [|reflexivity]. split; reflexivity.
    - destruct HC as (C1 & C2 & C3 & _). destruct HU as (pv & pu & g1 & g2 & rest & -> & ->). unfold block. cbn [nrow ncol at2]. cbn [same_outcome nrow ncol at2]. rewrite C1, C2.
      split. { destruct (flux_start m) as [|[|[|[|n]]]]; try lia. reflexivity. }
      split; [|split; [reflexivity|split; [reflexivity|intros i j; apply C3; lia]]]. apply map_ext. intros i. rewrite C3 by lia. reflexivity. }
  intros fl fl' FU. cbn [same_outcome]. destruct HU as (pv & pu & g1 & g2 & rest & -> & ->).
  unfold result_moved. cbn [r_ln r_s2n r_chi2per r_dof r_g r_g_cov r_g_err r_T r_T_err r_flux].
  repeat (split; [reflexivity|]). split; [exists g1, g2; split; reflexivity|]. split; [apply HC|]. split; [reflexivity|]. split; [reflexivity|exact FU].
Qed.
End M.
