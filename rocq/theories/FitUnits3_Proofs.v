From Verif Require Import Base XReal Pixels_Model Jacobian_Model Jacobian_Spec GMix_Model GMix_Spec GMixObj_Model GMixObj_Proofs Render_Model Render_Spec Render_Proofs Pixels_Proofs
  FastExp_Model Priors_Model Joint_Model Fit_Model Fit_Spec Fit_Proofs Fit2_Proofs Fit3_Proofs Units_Spec Units_Proofs Coords_Spec Coords_Proofs CoordsGM_Proofs CoordsAm_Proofs FitUnits_Spec FitUnits_Proofs FitUnits2_Proofs.
Local Open Scope R_scope.

Lemma combine_F2 {A A' B B'} (P : A -> A' -> Prop) (Q : B -> B' -> Prop) l l' : Forall2 P l l' -> forall m m', Forall2 Q m m' ->
  Forall2 (fun x x' => P (fst x) (fst x') /\ Q (snd x) (snd x')) (combine l m) (combine l' m').
Proof. induction 1; intros m m' H1; destruct H1; cbn [combine]; constructor; cbn [fst snd]; auto. Qed.
Lemma concat_F2 {A A'} (P : A -> A' -> Prop) l l' : Forall2 (Forall2 P) l l' -> Forall2 P (concat l) (concat l').
Proof. induction 1; cbn [concat]; [constructor|apply Forall2_app; assumption]. Qed.

Lemma Forall2_length {A B} (P : A -> B -> Prop) l l' : Forall2 P l l' -> length l = length l'.
Proof. induction 1; cbn; congruence. Qed.

Section U.
Variables k a f : R.
Hypothesis K : k <> 0.
Hypothesis A : a <> 0.
Hypothesis FF : f * f = 1.
Notation GU := (gauss_units k a f).
Notation OU := (obs_units k a f).
Notation PU := (pars_units k a f).
Notation WU := (WU k a f).
Notation XU := (pix_units k a f).

Lemma obs_pixels_units o o' : OU o o' -> same_outcome XU (obs_pixels o) (obs_pixels o').
Proof. intros (H & _). unfold obs_pixels. destruct (fo_pixels o), (fo_pixels o'); try contradiction; [exact H|reflexivity]. Qed.
Lemma pixels_units os os' : Forall2 OU os os' -> same_outcome (Forall2 XU) (mapM obs_pixels os) (mapM obs_pixels os').
Proof. intros H. eapply mapM_same2; [exact H|]. apply obs_pixels_units. Qed.
Lemma like_step_units s od od' : OU (fst od) (fst od') -> WU (snd od) (snd od') -> same_or_range eq (like_step s od) (like_step s od').
Proof.
  intros O W. unfold like_step. eapply near_bind; [apply near_same, obs_pixels_units, O|]. intros px px' X.
  eapply near_bind; [apply (loglike_units k a f K A FF _ _ _ _ W X)|]. intros [[[? ?] ?] ?] ? <-. right; right. destruct s as [[[? ?] ?] ?]. reflexivity.
Qed.
Lemma fd_step_units s pd pd' : XU (fst pd) (fst pd') -> WU (snd pd) (snd pd') -> same_or_range eq (fd_step s pd) (fd_step s pd').
Proof.
  intros X W. unfold fd_step. eapply near_bind; [apply (fdiff_units k a f K A FF _ _ _ _ _ _ W X)|]. intros ? ? <-. right; right. rewrite (Forall2_length _ _ _ X). reflexivity.
Qed.
Lemma prior_same m P P' p p' : prior_units k a f m P P' -> PU m p p' ->
  match P' with None => Ok (Fin 0) | Some q => jp_lnprob q (map Fin p') end = match P with None => Ok (Fin 0) | Some q => jp_lnprob q (map Fin p) end /\
  forall d, match P' with None => Ok (d, 0%nat) | Some q => jp_fill q (map Fin p') d end = match P with None => Ok (d, 0%nat) | Some q => jp_fill q (map Fin p) d end.
Proof. intros H U. destruct P, P'; try contradiction; [|split; reflexivity]. destruct H as [_ H]. destruct (H p p' U) as [-> H2]. split; [reflexivity|exact H2]. Qed.

Section Fits.
Variables (m : fmodel) (obs obs' : list (list fobs)) (prior prior' : option jprior) (F F' : fit).
Hypothesis Ft : fit_of m obs prior F.
Hypothesis Ft' : fit_of m obs' prior' F'.
Hypothesis HO : Forall2 (Forall2 OU) obs obs'.
Hypothesis HP : prior_units k a f m prior prior'.
Let M := fit_made _ _ _ _ Ft.
Let M' := fit_made _ _ _ _ Ft'.

Lemma dopsf_same : f_dopsf F' = f_dopsf F.
Proof.
  destruct (md_first _ _ _ _ M) as (o & os & l & E & ->), (md_first _ _ _ _ M') as (o' & os' & l' & E' & ->). rewrite E, E' in HO.
  inversion HO as [|? ? ? ? H _]; subst. inversion H as [|? ? ? ? (_ & _ & _ & _ & X & _) _]; subst. exact X.
Qed.
Lemma fpix_units : Forall2 XU (f_pixels F) (f_pixels F').
Proof.
  pose proof (pixels_units _ _ (concat_F2 _ _ _ HO)) as H. rewrite (md_pixels _ _ _ _ M), (md_pixels _ _ _ _ M') in H. exact H.
Qed.
Lemma size_same : f_size F' = f_size F /\ f_npars F' = f_npars F.
Proof.
  split.
  - rewrite (md_size _ _ _ _ M), (md_size _ _ _ _ M'). f_equal.
    + rewrite (md_totpix _ _ _ _ M), (md_totpix _ _ _ _ M'). f_equal. pose proof fpix_units as X. clear - X.
      induction X as [|p p' l l' H _ IH]; [reflexivity|]. cbn [map]. rewrite IH, (Forall2_length _ _ _ H). reflexivity.
    + pose proof (md_nprior _ _ _ _ M) as N. pose proof (md_nprior _ _ _ _ M') as N'. rewrite <- (Forall2_length _ _ _ HO) in N'.
      unfold prior_units in HP. destruct m; destruct prior, prior'; try contradiction; try congruence; destruct N, N'; congruence.
  - rewrite (md_npars _ _ _ _ M), (md_npars _ _ _ _ M'). unfold n_pars. rewrite (Forall2_length _ _ _ HO). reflexivity.
Qed.
Variables p p' : list R.
Hypothesis HU : PU m p p'.
Hypothesis HL : length p = n_pars m obs.

Lemma mix_same : same_outcome (Forall2 (Forall2 WU)) (bands_mix (f_model F) (f_dopsf F) p 0 (f_obs F)) (bands_mix (f_model F') (f_dopsf F') p' 0 (f_obs F')).
Proof.
  rewrite dopsf_same, (md_model _ _ _ _ M), (md_model _ _ _ _ M'), (md_obs _ _ _ _ M), (md_obs _ _ _ _ M').
  apply (bands_units k a f FF m (f_dopsf F) p p' obs HU HL obs obs' HO). cbn. lia.
Qed.
Definition like_of (G : fit) (q : list R) (lp : xr) : res lnres :=
  let* ds := bands_mix (f_model G) (f_dopsf G) q 0 (f_obs G) in
  let* (l, n, d, c) := foldM like_step (combine (concat (f_obs G)) (concat ds)) (0, 0, 0, 0%nat) in
  Ok (mkLn (xadd (Fin l) lp) n d c).
Lemma like_same lp : same_or_range eq (like_of F p lp) (like_of F' p' lp).
Proof.
  unfold like_of. eapply near_bind; [apply near_same, mix_same|]. intros ds ds' D. eapply near_bind with (P := eq); [|intros [[[? ?] ?] ?] ? <-; right; right; reflexivity].
  eapply near_foldM with (E := fun x x' => OU (fst x) (fst x') /\ WU (snd x) (snd x')); [|intros s ? x x' <- [H1 H2]; apply (like_step_units s x x' H1 H2)|reflexivity].
  rewrite (md_obs _ _ _ _ M), (md_obs _ _ _ _ M'). apply combine_F2; apply concat_F2; assumption.
Qed.
Definition diff_of (G : fit) (q : list R) : res (list xr) :=
  let* ds := bands_mix (f_model G) (f_dopsf G) q 0 (f_obs G) in
  let* s := fill_priors G q (repeat (Fin 0) (f_size G)) in
  rmap fst (foldM fd_step (combine (f_pixels G) (concat ds)) s).
Lemma rmap_bind {X Y} (h : X -> Y) (r : res X) : rmap h r = bind r (fun x => Ok (h x)). Proof. destruct r; reflexivity. Qed.
Lemma diff_same : same_or_range eq (diff_of F p) (diff_of F' p').
Proof.
  unfold diff_of. eapply near_bind; [apply near_same, mix_same|]. intros ds ds' D. eapply near_bind with (P := eq).
  { right; right. unfold fill_priors. rewrite (proj1 size_same), (md_prior _ _ _ _ M), (md_prior _ _ _ _ M'), (proj2 (prior_same m prior prior' p p' HP HU)).
    match goal with |- same_outcome _ ?r ?r' => destruct r; reflexivity end. }
  intros s ? <-. rewrite !rmap_bind. eapply near_bind with (P := eq); [|intros ? ? <-; right; right; reflexivity].
  eapply near_foldM with (E := fun x x' => XU (fst x) (fst x') /\ WU (snd x) (snd x')); [|intros t ? x x' <- [H1 H2]; apply (fd_step_units t x x' H1 H2)|reflexivity].
  apply combine_F2; [exact fpix_units|apply concat_F2; assumption].
Qed.
Lemma pure_ln_like G q : pure_lnprob G q = or_range (let* lp := get_priors G q in like_of G q lp) ln_low. Proof. reflexivity. Qed.
Lemma get_priors_same : get_priors F' p' = get_priors F p.
Proof. unfold get_priors. rewrite (md_prior _ _ _ _ M), (md_prior _ _ _ _ M'). exact (proj1 (prior_same m prior prior' p p' HP HU)). Qed.
Lemma near_ln : same_or_range eq (let* lp := get_priors F p in like_of F p lp) (let* lp := get_priors F' p' in like_of F' p' lp).
Proof.
  rewrite get_priors_same. eapply near_bind with (P := eq); [right; right; apply same_refl|]. intros lp ? <-. apply like_same.
Qed.
Lemma lnprob_units : same_unless ln_low (snd (calc_lnprob F p)) (snd (calc_lnprob F' p')).
Proof. rewrite (made_lnprob _ _ _ _ _ M), (made_lnprob _ _ _ _ _ M'), !pure_ln_like. apply near_or_range, near_ln. Qed.
Lemma fdiffs_units : same_unless (repeat LOWVAL (f_size F)) (snd (calc_fdiff F p)) (snd (calc_fdiff F' p')).
Proof.
  rewrite (made_fdiff _ _ _ _ _ M), (made_fdiff _ _ _ _ _ M'). unfold pure_fdiff. rewrite (proj1 size_same). apply near_or_range. pose proof diff_same as D. unfold diff_of in D. rewrite (proj1 size_same) in D. exact D.
Qed.
(** with mixtures that can be evaluated in both *)
Lemma good_bands G ob pr q mm ds : fit_of m ob pr G -> uniform_psf ob -> length q = n_pars m ob -> in_range G q mm ->
  bands_mix (f_model G) (f_dopsf G) q 0 (f_obs G) = Ok ds -> Forall (Forall evaluable) (concat ds).
Proof.
  clear. intros H U L [E1 E2] Ed. destruct (proj1 (mixtures_bands _ _ _ _ H U q L) mm E1) as (ds' & Ed' & Eq).
  rewrite Ed in Ed'. injection Ed' as <-. rewrite <- Eq. clear - E2. induction E2; constructor; auto.
Qed.
Definition WG (w w' : gmix) : Prop := WU w w' /\ no_range w /\ no_range w'.
Lemma all_good ds ds' : Forall2 WU ds ds' -> Forall (Forall evaluable) ds -> Forall (Forall evaluable) ds' -> Forall2 WG ds ds'.
Proof.
  clear. induction 1 as [|w w' ds ds' W _ IH]; intros G G'; constructor; apply Forall_cons_iff in G, G'; [|apply IH; tauto].
  split; [exact W|]. destruct W as (_ & R & R'). split; apply good_no_range; tauto.
Qed.
Lemma both_in_range ms ms' : uniform_psf obs -> uniform_psf obs' -> in_range F p ms -> in_range F' p' ms' ->
  snd (calc_lnprob F' p') = snd (calc_lnprob F p) /\ snd (calc_fdiff F' p') = snd (calc_fdiff F p).
Proof.
  intros U U' R R'.
  assert (L' : length p' = n_pars m obs') by (rewrite (proj1 HU), HL; unfold n_pars; rewrite (Forall2_length _ _ _ HO); reflexivity).
  assert (GB : forall ds ds', bands_mix (f_model F) (f_dopsf F) p 0 (f_obs F) = Ok ds -> bands_mix (f_model F') (f_dopsf F') p' 0 (f_obs F') = Ok ds' -> Forall2 WG (concat ds) (concat ds')).
  { intros ds ds' E E'. pose proof mix_same as S. rewrite E, E' in S. apply all_good; [apply concat_F2; exact S| |].
    - exact (good_bands _ _ _ _ _ _ Ft U HL R E).
    - exact (good_bands _ _ _ _ _ _ Ft' U' L' R' E'). }
  assert (EQ : forall X (r r' : res X), same_outcome eq r r' -> r' = r) by (intros X r r' H; destruct r, r'; cbn in H; try contradiction; subst; reflexivity).
  rewrite (made_lnprob _ _ _ _ _ M), (made_lnprob _ _ _ _ _ M'), (made_fdiff _ _ _ _ _ M), (made_fdiff _ _ _ _ _ M'), !pure_ln_like, get_priors_same.
  unfold pure_fdiff, like_of. pose proof mix_same as S.
  destruct (bands_mix (f_model F) (f_dopsf F) p 0 (f_obs F)) as [ds|], (bands_mix (f_model F') (f_dopsf F') p' 0 (f_obs F')) as [ds'|]; cbn [same_outcome] in S; try contradiction.
  2:{ subst. cbn [bind]. rewrite (proj1 size_same). split; reflexivity. }
  specialize (GB _ _ eq_refl eq_refl). cbn [bind]. split.
  - f_equal. destruct (get_priors F p) as [lp|]; [|reflexivity]. cbn [bind]. apply EQ. eapply same_bind with (P := eq); [|intros [[[? ?] ?] ?] ? <-; reflexivity].
    eapply same_foldM with (E := fun x x' => OU (fst x) (fst x') /\ WG (snd x) (snd x')); [| |reflexivity].
    + rewrite (md_obs _ _ _ _ M), (md_obs _ _ _ _ M'). apply combine_F2; [apply concat_F2; assumption|exact GB].
    + intros s ? x x' <- [O (W & N & N')]. unfold like_step. eapply same_bind; [apply obs_pixels_units, O|]. intros px px' X.
      eapply same_bind; [apply (loglike_exact k a f K A FF _ _ _ _ W N N' X)|]. intros [[[? ?] ?] ?] ? <-. destruct s as [[[? ?] ?] ?]. reflexivity.
  - rewrite (proj1 size_same). f_equal. unfold fill_priors. rewrite (md_prior _ _ _ _ M), (md_prior _ _ _ _ M'), (proj2 (prior_same m prior prior' p p' HP HU)).
    match goal with |- bind ?r _ = bind ?r _ => destruct r as [s|]; [|reflexivity] end. cbn [bind]. f_equal. apply EQ.
    eapply same_foldM with (E := fun x x' => XU (fst x) (fst x') /\ WG (snd x) (snd x')); [| |reflexivity].
    + apply combine_F2; [exact fpix_units|exact GB].
    + intros t ? x x' <- [X (W & N & N')]. unfold fd_step. eapply same_bind; [apply (fdiff_exact k a f K A FF _ _ _ _ _ _ W N N' X)|].
      intros ? ? <-. rewrite (Forall2_length _ _ _ X). reflexivity.
Qed.
End Fits.
End U.
