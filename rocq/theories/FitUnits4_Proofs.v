From Verif Require Import Base XReal Pixels_Model Pixels_Spec Jacobian_Model Jacobian_Spec GMix_Model GMix_Spec GMixObj_Model GMixObj_Proofs Render_Model Render_Spec Render_Proofs Pixels_Proofs
  FastExp_Model Priors_Model Joint_Model Fit_Model Fit_Spec Fit_Proofs Fit2_Proofs Fit3_Proofs Units_Spec Units_Proofs Coords_Spec Coords_Proofs CoordsGM_Proofs CoordsAm_Proofs FitUnits_Spec FitUnits_Proofs FitUnits2_Proofs FitUnits3_Proofs.
Local Open Scope R_scope.

Section U.
Variables k a f : R.
Hypothesis K : k <> 0.
Hypothesis A : a <> 0.
Hypothesis FF : f * f = 1.
Notation GU := (gauss_units k a f).
Notation OU := (obs_units k a f).
Notation PU := (pars_units k a f).
Notation WU := (WU k a f).

(** ** making the object *)
Lemma finish_units kd ng ng' np np' p p' : ng' = ng -> same_outcome WU (fill_func kd ng p) (fill_func kd ng p') ->
  same_outcome (fun g g' => WU (o_data g) (o_data g')) (finish (obj__fill (blank kd ng np) p)) (finish (obj__fill (blank kd ng' np') p')).
Proof.
  intros -> H. unfold finish, obj__fill. cbn [blank o_kind o_ngauss]. destruct (fill_func kd ng p), (fill_func kd ng p'); cbn in *; try contradiction; exact H.
Qed.
Lemma fill_units' m p p' : PU m p p' -> same_outcome WU (fill_func (mkind m) (mng m) p) (fill_func (mkind m) (mng m) p').
Proof.
  intros H. apply same_and.
  - pose proof (fill_units k a f FF m (mng m) p p' H) as U. destruct m; apply U; reflexivity.
  - intros x E. eapply fill_raw; exact E.
  - intros x E. eapply fill_raw; exact E.
Qed.
Lemma model_units m p p' : PU m p p' -> (match m with FCoellip n => length p = (4 + 2 * n)%nat | _ => True end) ->
  same_outcome (fun g g' => WU (o_data g) (o_data g')) (make_model m p) (make_model m p').
Proof.
  intros H L. pose proof (fill_units' m p p' H) as U. destruct m as [m|n]; cbn [make_model mkind mng] in *.
  - unfold new_model. destruct m; try reflexivity; unfold obj_fill; cbn [blank o_npars]; rewrite (proj1 H); (destruct (negb _); [reflexivity|]); apply finish_units; auto.
  - unfold new_coellip. rewrite (proj1 H), L. destruct (negb _); [reflexivity|]. destruct (Nat.ltb _ _); [reflexivity|].
    replace ((4 + 2 * n - 4) / 2)%nat with n by (symmetry; replace (4 + 2 * n - 4)%nat with (n * 2)%nat by lia; apply Nat.div_mul; lia). apply finish_units; auto.
Qed.
Lemma convolved_units g g' s s' kp : kp <> 0 -> WU (o_data g) (o_data g') -> mix_units kp a f s s' ->
  same_outcome (fun g g' => WU (o_data g) (o_data g')) (obj_convolve g s) (obj_convolve g' s').
Proof.
  intros KP (W & _) [_ S]. unfold obj_convolve. eapply same_bind; [|intros d d' D; exact D].
  apply same_and; [apply (convolve_units k a f FF kp); assumption| |]; intros x E; eapply convolve_raw; exact E.
Qed.
Lemma init_one_units m dopsf bp bp' o o' : PU m bp bp' -> (match m with FCoellip n => length bp = (4 + 2 * n)%nat | _ => True end) -> OU o o' ->
  same_outcome (fun _ _ => True) (init_one m dopsf bp o) (init_one m dopsf bp' o').
Proof.
  intros H L (_ & _ & _ & _ & _ & kp & KP & OP). unfold init_one. pose proof (model_units m bp bp' H L) as S.
  pose proof (make_model_shape m bp) as C. pose proof (make_model_shape m bp') as C'.
  destruct (make_model m bp) as [g|], (make_model m bp') as [g'|]; cbn in S; try contradiction; [|exact S]. cbn [bind]. destruct dopsf.
  - eapply same_bind with (P := fun _ _ => True); [|intros; exact I]. eapply same_bind; [exact OP|]. intros s s' HS.
    pose proof (convolved_units g g' s s' kp KP S HS) as V. destruct (obj_convolve g s), (obj_convolve g' s'); cbn in *; auto.
  - assert (L' : match m with FCoellip n => length bp' = (4 + 2 * n)%nat | _ => True end) by (rewrite (proj1 H); exact L).
    destruct (C g L eq_refl) as (_ & _ & ->), (C' g' L' eq_refl) as (_ & _ & ->). exact I.
Qed.
Lemma init_units m obs obs' prior prior' guess guess' : Forall2 (Forall2 OU) obs obs' -> prior_units k a f m prior prior' -> PU m guess guess' ->
  same_outcome (fun _ _ => True) (fit_init m obs guess prior) (fit_init m obs' guess' prior').
Proof.
  intros HO HP H. unfold fit_init. rewrite <- (Forall2_length _ _ _ HO). eapply same_bind; [apply (pixels_units k a f), concat_F2, HO|]. intros px px' _.
  eapply same_bind with (P := eq).
  { unfold prior_units in HP. destruct m as [m|n]; [destruct prior, prior'; try contradiction; apply same_refl|]. destruct (negb _); [reflexivity|].
    destruct prior, prior'; try contradiction; reflexivity. }
  intros np ? <-. eapply same_bind with (P := fun _ _ => True); [|intros [? ?] [? ?] _; exact I].
  unfold setup_fit. rewrite (proj1 H).
  destruct (Nat.eqb_spec (length guess) (match m with FName m0 => model_npars m0 + length obs - 1 | FCoellip n => 4 + 2 * n end)) as [Lg|]; cbn [negb]; [|reflexivity].
  assert (I : same_outcome (fun _ _ => True) (init_gmix_all m obs guess) (init_gmix_all m obs' guess')).
  2:{ destruct (init_gmix_all m obs guess) as [|[]], (init_gmix_all m obs' guess') as [|[]]; cbn in *; try contradiction; try discriminate; auto. }
  assert (Lc : match m with FCoellip n => length guess = (4 + 2 * n)%nat | _ => True end) by (destruct m; [exact I|exact Lg]). clear Lg.
  unfold init_gmix_all. rewrite <- (Forall2_length _ _ _ HO).
  eapply same_bind with (P := OU).
  { destruct HO as [|? ? obs obs' [|o o' os os' O _] _]; [reflexivity|reflexivity|exact O]. }
  intros o o' O. assert (PS : has_psf_gmix o' = has_psf_gmix o) by (destruct O as (_ & _ & _ & _ & E & _); exact E). cbv zeta. rewrite PS.
  eapply same_bind with (P := fun _ _ => True); [|intros; exact I].
  generalize (has_psf_gmix o) as dopsf. intros dopsf. clear O PS o o'; clear - FF H HO Lc.
  assert (S : same_outcome (Forall2 (fun _ _ => True))
    (mapM (fun q => let* bp := band_pars_of m guess (snd q) in mapM (init_one m dopsf bp) (fst q)) (combine obs (seq 0 (length obs))))
    (mapM (fun q => let* bp := band_pars_of m guess' (snd q) in mapM (init_one m dopsf bp) (fst q)) (combine obs' (seq 0 (length obs))))).
  2:{ destruct (mapM _ (combine obs _)), (mapM _ (combine obs' _)); cbn in *; auto. }
  eapply mapM_same2 with (E := fun q q' => Forall2 OU (fst q) (fst q') /\ snd q = snd q').
  { apply combine_F2; [exact HO|]. apply Forall2_diag. }
  intros [os b] [os' b'] [Ho Hb]. cbn [fst snd] in *. subst b'. pose proof (band_pars_units k a f m guess guess' b H) as B.
  assert (Lb : forall bp, band_pars_of m guess b = Ok bp -> match m with FCoellip n => length bp = (4 + 2 * n)%nat | _ => True end).
  { intros bp E. destruct m; [exact I|]. injection E as <-. exact Lc. }
  destruct (band_pars_of m guess b) as [bp|], (band_pars_of m guess' b) as [bp'|]; cbn in B; try contradiction; [|exact B]. cbn [bind].
  pose proof (mapM_same2 OU (fun _ _ : gmobj * gmobj => True) (init_one m dopsf bp) (init_one m dopsf bp') os os' Ho) as X.
  assert (Y : same_outcome (Forall2 (fun _ _ : gmobj * gmobj => True)) (mapM (init_one m dopsf bp) os) (mapM (init_one m dopsf bp') os')).
  { apply X. intros o o' O. apply init_one_units; [exact B|exact (Lb _ eq_refl)|exact O]. }
  destruct (mapM (init_one m dopsf bp) os), (mapM (init_one m dopsf bp') os'); cbn in *; auto.
Qed.

(** ** images *)
Lemma image_of_units w w' nr nc j j' : WU w w' -> jac_coords a f j j' ->
  same_or_range (image_units k) (snd (make_image w nr nc (Some j) false)) (snd (make_image w' nr nc (Some j') false)).
Proof.
  intros W J.
  assert (RG : forall w j, snd (set_norms_if_needed w) = Raise GMixRangeError -> snd (make_image w nr nc (Some j) false) = Raise GMixRangeError).
  { clear. intros w j E. unfold make_image. destruct (make_coords_spec nr nc j) as (l & -> & _). unfold render. destruct (set_norms_if_needed w). cbn [snd] in *. rewrite E. reflexivity. }
  destruct (range_dec w) as [N|E]; [|left; apply RG, E]. destruct (range_dec w') as [N'|E]; [|right; left; apply RG, E]. right; right.
  destruct (norms_exact k a f A w w' W N N') as [[-> ->]|(v & v' & E & E' & V)].
  { unfold make_image. destruct (make_coords_spec nr nc j) as (l & -> & _), (make_coords_spec nr nc j') as (l' & -> & _). reflexivity. }
  destruct (make_image_gen w nr nc j false (fun g c => gmix_eval_pixel g (cd_v c) (cd_u c) (cd_area c)) v E ltac:(reflexivity)) as (im & -> & I1 & I2 & I3).
  destruct (make_image_gen w' nr nc j' false (fun g c => gmix_eval_pixel g (cd_v c) (cd_u c) (cd_area c)) v' E' ltac:(reflexivity)) as (im' & -> & I1' & I2' & I3').
  cbn [snd same_outcome]. split; [congruence|]. split; [congruence|]. rewrite I1, I2. intros r c Hr Hc.
  destruct (I3 r c Hr Hc) as (q & [M1 M2] & AR & ->), (I3' r c Hr Hc) as (q' & [M1' M2'] & AR' & ->).
  pose proof (area_coords a f j j' J) as EA. unfold get_area in EA. destruct J as (J1 & J2 & J3 & J4 & J5 & J6 & J7 & J8).
  rewrite (eval_units_full k a f A FF v v' (cd_v q) (cd_u q) (cd_v q') (cd_u q') (cd_area q) (cd_area q') V).
  - destruct (gmix_eval_pixel v _ _ _); cbn; [f_equal; ring|reflexivity].
  - rewrite M1, M1', J1, J2, J3, J4. ring.
  - rewrite M2, M2', J1, J2, J5, J6. ring.
  - rewrite AR, AR'. exact EA.
Qed.
Lemma obs_at_units F F' b i : Forall2 (Forall2 OU) (f_obs F) (f_obs F') -> same_outcome OU (obs_at F b i) (obs_at F' b i).
Proof.
  intros H. unfold obs_at.
  assert (NE : forall X (P : X -> X -> Prop) l l', Forall2 P l l' -> forall i, match nth_error l i, nth_error l' i with Some x, Some y => P x y | None, None => True | _, _ => False end).
  { clear. intros X P l l'. induction 1 as [|x x' l l' Hx _ IH]; intros [|i]; cbn [nth_error]; [exact I|exact I|exact Hx|apply IH]. }
  pose proof (NE _ _ _ _ H b) as B. destruct (nth_error (f_obs F) b) as [os|], (nth_error (f_obs F') b) as [os'|]; try contradiction; [|reflexivity].
  pose proof (NE _ _ _ _ B i) as C. destruct (nth_error os i), (nth_error os' i); try contradiction; [exact C|reflexivity].
Qed.
Lemma convolved_gmix_units m obs obs' prior prior' F F' p p' b i : fit_of m obs prior F -> fit_of m obs' prior' F' -> Forall2 (Forall2 OU) obs obs' ->
  PU m p p' -> length p = n_pars m obs ->
  same_outcome (fun g g' => WU (o_data g) (o_data g')) (get_convolved_gmix F p b i) (get_convolved_gmix F' p' b i).
Proof.
  intros Ft Ft' HO HU HL. pose proof (fit_made _ _ _ _ Ft) as M. pose proof (fit_made _ _ _ _ Ft') as M'.
  unfold get_convolved_gmix, get_gmix. rewrite (md_model _ _ _ _ M), (md_model _ _ _ _ M').
  eapply same_bind with (P := fun g g' => WU (o_data g) (o_data g')).
  { pose proof (band_pars_units k a f m p p' b HU) as B.
    assert (Lb : forall bp, band_pars_of m p b = Ok bp -> match m with FCoellip n => length bp = (4 + 2 * n)%nat | _ => True end).
    { intros bp E. destruct m; [exact I|]. injection E as <-. exact HL. }
    destruct (band_pars_of m p b) as [bp|], (band_pars_of m p' b) as [bp'|]; cbn in B; try contradiction; [|exact B]. cbn [bind]. apply model_units; [exact B|exact (Lb _ eq_refl)]. }
  intros g g' W. eapply same_bind; [apply obs_at_units; rewrite (md_obs _ _ _ _ M), (md_obs _ _ _ _ M'); exact HO|].
  intros o o' (_ & _ & _ & _ & PS & kp & KP & OP). rewrite PS. destruct (has_psf_gmix o); [|exact W].
  eapply same_bind; [exact OP|]. intros s s' S. eapply convolved_units; eassumption.
Qed.
Lemma image_same m obs obs' prior prior' F F' p p' b i : fit_of m obs prior F -> fit_of m obs' prior' F' -> Forall2 (Forall2 OU) obs obs' ->
  PU m p p' -> length p = n_pars m obs ->
  same_or_range (image_units k) (fit_make_image F p b i) (fit_make_image F' p' b i).
Proof.
  intros Ft Ft' HO HU HL. pose proof (fit_made _ _ _ _ Ft) as M. pose proof (fit_made _ _ _ _ Ft') as M'.
  unfold fit_make_image. eapply near_bind; [apply near_same, (convolved_gmix_units m obs obs' prior prior' F F' p p' b i Ft Ft' HO HU HL)|].
  intros g g' W. eapply near_bind; [apply near_same, obs_at_units; rewrite (md_obs _ _ _ _ M), (md_obs _ _ _ _ M'); exact HO|].
  intros o o' (_ & R & C & J & _). rewrite R, C. apply image_of_units; assumption.
Qed.
End U.
