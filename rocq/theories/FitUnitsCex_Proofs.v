(** Concrete fits in other units. *)
From Verif Require Import Base XReal Jacobian_Model Pixels_Model Shape_Spec Moments_Spec GMix_Model GMix_Spec GMix_Proofs GMixObj_Model GMixObj_Proofs
  Render_Model Render_Spec Render_Proofs Priors_Model Joint_Model Joint_Spec
  Fit_Model Fit_Spec Fit_Proofs Fit2_Proofs Fit3_Proofs Fit4_Proofs FitCex_Proofs Units_Spec Coords_Spec FitUnits_Spec FitUnits_Proofs FitUnits2_Proofs FitUnits3_Proofs FitUnits4_Proofs.
Local Open Scope R_scope.

Definition round_pars (T fl : R) : list R := [0; 0; 0; 0; T; fl].
Definition round_data (T fl : R) : gmix := [gauss2d_set fl 0 0 (T / 2) 0 (T / 2)].
Definition round_obj (T fl : R) : gmobj := mkObj (KModel Mgauss) 1 6 (round_pars T fl) (round_data T fl).
Lemma round_fill T fl : gmix_fill_gauss 1 (round_pars T fl) = Ok (round_data T fl).
Proof.
  unfold gmix_fill_gauss, round_pars. rewrite (fill_simple_eq 1 _ _ 0 0 0 0 T fl 0 0); [|reflexivity|reflexivity|exact g2e_zero].
  unfold pvals_gauss, fvals_gauss. cbn [combine map fst snd]. unfold coellip_gauss. cbn [fst snd]. unfold round_data. f_equal. f_equal. f_equal; field.
Qed.
Lemma round_made T fl : new_model Mgauss (round_pars T fl) = Ok (round_obj T fl).
Proof.
  unfold new_model, obj_fill, blank, finish, model_npars, model_ngauss. cbn [o_npars length Nat.eqb negb round_pars].
  unfold obj__fill. cbn [o_kind o_ngauss fill_func]. fold (round_pars T fl). rewrite round_fill. reflexivity.
Qed.
Lemma round_mix kp a f T fl : f * f = 1 -> mix_units kp a f (round_obj T fl) (round_obj (a ^ 2 * T) (kp * fl)).
Proof.
  intros FF. split; [reflexivity|]. constructor; [|constructor]. cbn [round_obj o_data]. apply (set_units' a f FF kp _ fl 0 0 (T / 2) 0 (T / 2) (kp * fl) 0 0 (a ^ 2 * T / 2) 0 (a ^ 2 * T / 2)); [reflexivity|reflexivity|ring|ring|field|ring|field].
Qed.
Definition new_obs (k a f kp : R) : fobs :=
  mkFobs (Some [mkPix (f * a * 0) (a * 0) (a ^ 2 * 1) (k * 0) (1 / k)]) (Some (Some (round_obj (a ^ 2 * 4) (kp * 1)))) 1 1 (mkJac 0 0 (a * 1) (a * 0) (f * a * 0) (f * a * 1) (f * a ^ 2 * 1) (Rabs a * 1)).
Definition new_bare (k a f : R) : fobs :=
  mkFobs (Some [mkPix (f * a * 0) (a * 0) (a ^ 2 * 1) (k * 0) (1 / k)]) None 1 1 (mkJac 0 0 (a * 1) (a * 0) (f * a * 0) (f * a * 1) (f * a ^ 2 * 1) (Rabs a * 1)).
Definition new_pars (k a f : R) : list R := [a * 0; f * a * 0; 1 * 0; f * 0; a ^ 2 * 4; k * 1].
Lemma new_pars_units k a f : pars_units k a f (FName Mgauss) gpars (new_pars k a f).
Proof.
  split; [reflexivity|]. unfold new_pars, gpars. intros i. do 6 (destruct i as [|i]; [reflexivity|]). cbn [nth]. destruct i; ring.
Qed.
Lemma gobj_round : gobj = round_obj 4 1.
Proof. unfold gobj, round_obj, gpars, round_pars, gdata, round_data. replace (4 / 2) with 2 by field. reflexivity. Qed.
Lemma new_obs_units k a f kp : f * f = 1 -> kp <> 0 -> obs_units k a f with_psf (new_obs k a f kp).
Proof.
  intros FF KP. unfold obs_units, with_psf, new_obs. cbn [fo_pixels fo_nr fo_nc fo_jac]. split.
  { constructor; [|constructor]. cbn [px_v px_u px_area px_val px_ierr]. repeat (split; [reflexivity|]). reflexivity. }
  split; [reflexivity|]. split; [reflexivity|]. split; [unfold jac_coords, gjac; cbn [row0 col0 dvdrow dvdcol dudrow dudcol jdet jscale]; repeat (split; [reflexivity|]); reflexivity|]. split; [reflexivity|]. exists kp. split; [exact KP|].
  unfold psf_gmix. cbn [fo_psf]. rewrite copy_gobj. unfold obj_copy. cbn [round_obj o_kind o_pars]. rewrite round_made. rewrite gobj_round. apply round_mix, FF.
Qed.
Lemma new_bare_units k a f : obs_units k a f bare (new_bare k a f).
Proof.
  unfold obs_units, bare, new_bare. cbn [fo_pixels fo_nr fo_nc fo_jac]. split.
  { constructor; [|constructor]. cbn [px_v px_u px_area px_val px_ierr]. repeat (split; [reflexivity|]). reflexivity. }
  split; [reflexivity|]. split; [reflexivity|]. split; [unfold jac_coords, gjac; cbn [row0 col0 dvdrow dvdcol dudrow dudcol jdet jscale]; repeat (split; [reflexivity|]); reflexivity|]. split; [reflexivity|]. exists 1. split; [lra|reflexivity].
Qed.
Lemma init_with_psf : exists F, fit_init (FName Mgauss) [[with_psf]] gpars None = Ok F.
Proof.
  destruct conv_ok as (o & Eo & D).
  assert (Hi : init_one (FName Mgauss) true gpars with_psf = Ok (gobj, o)).
  { unfold init_one, make_model. rewrite gobj_made. cbn [bind]. assert (Pg : psf_gmix with_psf = Ok gobj) by exact copy_gobj. rewrite Pg. cbn [bind]. rewrite Eo. reflexivity. }
  unfold fit_init, setup_fit, init_gmix_all. cbn [concat app mapM length combine seq fst snd]. change (obs_pixels with_psf) with (@Ok _ gpix).
  unfold band_pars_of. assert (E : get_band_pars Mgauss gpars 0 = Ok gpars) by reflexivity. rewrite E. cbn [bind mapM]. change (has_psf_gmix with_psf) with true. rewrite Hi. eexists. reflexivity.
Qed.
Lemma new_fit k a f o o' G : f * f = 1 -> obs_units k a f o o' -> fit_init (FName Mgauss) [[o]] gpars None = Ok G ->
  exists F', fit_of (FName Mgauss) [[o']] None F' /\ Forall2 (Forall2 (obs_units k a f)) [[o]] [[o']].
Proof.
  intros FF O H. assert (HO : Forall2 (Forall2 (obs_units k a f)) [[o]] [[o']]) by (constructor; [constructor; [exact O|constructor]|constructor]).
  pose proof (init_units k a f FF (FName Mgauss) [[o]] [[o']] None None gpars (new_pars k a f) HO I (new_pars_units k a f)) as S. rewrite H in S.
  destruct (fit_init (FName Mgauss) [[o']] (new_pars k a f) None) as [F'|] eqn:E; [|contradiction]. exists F'. split; [|exact HO]. exists (new_pars k a f), F'. split; [exact E|constructor].
Qed.
Lemma one_mixture o F p g : fit_of (FName Mgauss) [[o]] None F -> get_convolved_gmix F p 0 0 = Ok g -> mixtures F p = Ok [g].
Proof.
  intros Ft E. pose proof (fit_made _ _ _ _ Ft) as M. unfold mixtures. rewrite (md_obs _ _ _ _ M). unfold positions, positions_from. cbn [combine length seq map concat app fst snd mapM]. rewrite E. reflexivity.
Qed.
(** brightness times 2, lengths times 3, mirrored, and a psf of flux 5 *)
Lemma units_hold : exists F F' ms ms', fit_of (FName Mgauss) [[with_psf]] None F /\ fit_of (FName Mgauss) [[new_obs 2 3 (-1) 5]] None F' /\
  Forall2 (Forall2 (obs_units 2 3 (-1))) [[with_psf]] [[new_obs 2 3 (-1) 5]] /\ prior_units 2 3 (-1) (FName Mgauss) None None /\
  pars_units 2 3 (-1) (FName Mgauss) gpars (new_pars 2 3 (-1)) /\ length gpars = n_pars (FName Mgauss) [[with_psf]] /\
  uniform_psf [[with_psf]] /\ uniform_psf [[new_obs 2 3 (-1) 5]] /\ in_range F gpars ms /\ in_range F' (new_pars 2 3 (-1)) ms'.
Proof.
  destruct one_with_psf as (F & ms & Ft & U & R & o & -> & D). destruct init_with_psf as (G & HG).
  destruct (new_fit 2 3 (-1) with_psf (new_obs 2 3 (-1) 5) G ltac:(lra) (new_obs_units 2 3 (-1) 5 ltac:(lra) ltac:(lra)) HG) as (F' & Ft' & HO).
  pose proof (new_pars_units 2 3 (-1)) as PU.
  pose proof (convolved_gmix_units 2 3 (-1) ltac:(lra) (FName Mgauss) _ _ _ _ F F' _ _ 0%nat 0%nat Ft Ft' HO PU eq_refl) as C.
  assert (E : get_convolved_gmix F gpars 0 0 = Ok o).
  { destruct R as [R _]. pose proof (fit_made _ _ _ _ Ft) as M. unfold mixtures in R. rewrite (md_obs _ _ _ _ M) in R. unfold positions, positions_from in R. cbn [combine length seq map concat app fst snd mapM] in R.
    destruct (get_convolved_gmix F gpars 0 0); [|discriminate]. cbn [bind] in R. congruence. }
  rewrite E in C. destruct (get_convolved_gmix F' (new_pars 2 3 (-1)) 0 0) as [g'|] eqn:E'; [|contradiction]. destruct C as (W & _). rewrite D in W.
  exists F, F', [o], [g']. split; [exact Ft|]. split; [exact Ft'|]. split; [exact HO|]. split; [exact I|]. split; [exact PU|]. split; [reflexivity|]. split; [exact U|].
  split; [left; intros x [<-|[]]; reflexivity|]. split; [exact R|]. split; [exact (one_mixture _ _ _ _ Ft' E')|]. constructor; [|constructor].
  inversion W as [|? h ? t GU T]; subst. inversion T; subst. constructor; [|constructor]. destruct GU as (_ & _ & _ & G4 & G5 & G6 & _). cbn [gauss2d_set g_irr g_irc g_icc] in *.
  pose proof det_big. unfold evaluable, gcov, det2, trace2. cbn. rewrite G4, G5, G6. lra.
Qed.
(** lengths in a unit so large that the object is below the limits *)
Lemma too_large : exists a F F' l, 0 < a /\ fit_of (FName Mgauss) [[bare]] None F /\ fit_of (FName Mgauss) [[new_bare 1 a 1]] None F' /\
  Forall2 (Forall2 (obs_units 1 a 1)) [[bare]] [[new_bare 1 a 1]] /\ pars_units 1 a 1 (FName Mgauss) gpars (new_pars 1 a 1) /\
  snd (calc_lnprob F gpars) = Ok l /\ l <> ln_low /\ snd (calc_lnprob F' (new_pars 1 a 1)) = Ok ln_low.
Proof.
  assert (P1 : 1 <= 10 ^ 60) by (apply pow_R1_Rle; lra). assert (P2 : 1 <= 10 ^ 40) by (apply pow_R1_Rle; lra).
  set (a := / 10 ^ 60). assert (Pa : 0 < a) by (apply Rinv_0_lt_compat; lra).
  destruct (new_fit 1 a 1 bare (new_bare 1 a 1) (F1 None) ltac:(lra) (new_bare_units 1 a 1) (F1_made None)) as (F' & Ft' & HO).
  pose proof (new_pars_units 1 a 1) as PU.
  pose proof (convolved_gmix_units 1 a 1 ltac:(lra) (FName Mgauss) _ _ _ _ (F1 None) F' _ _ 0%nat 0%nat (F1_of None) Ft' HO PU eq_refl) as C.
  assert (E : get_convolved_gmix (F1 None) gpars 0 0 = Ok gobj).
  { destruct (F1_range None) as [R _]. unfold mixtures in R. change (f_obs (F1 None)) with [[bare]] in R. unfold positions, positions_from in R. cbn [combine length seq map concat app fst snd mapM] in R.
    destruct (get_convolved_gmix (F1 None) gpars 0 0); [|discriminate]. cbn [bind] in R. congruence. }
  rewrite E in C. destruct (get_convolved_gmix F' (new_pars 1 a 1) 0 0) as [g'|] eqn:E'; [|contradiction]. destruct C as (W & _). cbn [gobj o_data] in W.
  pose proof (one_mixture _ _ _ _ Ft' E') as Mx.
  destruct (layout (FName Mgauss) [[bare]] None (F1 None) 0 (F1_of None) ltac:(discriminate) eq_refl ltac:(lia) uniform1 gpars [gobj] (Fin 0) eq_refl (F1_range None) eq_refl) as (models & pr & _ & _ & _ & _ & _ & El).
  exists a, (F1 None), F'. eexists. split; [exact Pa|]. split; [apply F1_of|]. split; [exact Ft'|]. split; [exact HO|]. split; [exact PU|]. split; [exact El|].
  split. { intros K. apply (f_equal l_npix) in K. discriminate K. }
  apply (lowest (FName Mgauss) [[new_bare 1 a 1]] None F' 0 Ft' ltac:(discriminate) eq_refl ltac:(lia) ltac:(right; intros x [<-|[]]; reflexivity) (new_pars 1 a 1) eq_refl).
  - left. right. exists [g']. split; [exact Mx|]. intros N. apply Forall_cons_iff in N. destruct N as [N _].
    inversion W as [|? h ? t GU T W0 W1]; subst. inversion T; subst. rewrite <- W1 in N. apply Forall_cons_iff in N. destruct N as [N _]. destruct GU as (_ & _ & _ & G4 & G5 & G6 & _).
    cbn [gdata gauss2d_set g_irr g_irc g_icc] in *. destruct N as [N _]. unfold gcov, cov, det2 in N. cbn [xx yy xy] in N. rewrite G4, G5, G6 in N.
    assert (X : a ^ 4 * 10 ^ 200 = / 10 ^ 40).
    { unfold a. rewrite pow_inv, <- pow_mult. replace (10 ^ 200) with (10 ^ 160 * 10 ^ 40) by (rewrite <- pow_add; reflexivity). replace (10 ^ (60 * 4)) with (10 ^ 160 * 10 ^ 40 * 10 ^ 40) by (rewrite <- !pow_add; reflexivity).
      assert (0 < 10 ^ 160) by (apply pow_lt; lra). field; lra. }
    assert (P3 : 0 < 10 ^ 200) by (apply pow_lt; lra). assert (Y : / 10 ^ 200 * 10 ^ 200 = 1) by (field; lra).
    assert (Z : 1 <= 4 * / 10 ^ 40).
    { rewrite <- X, <- Y. replace (4 * (a ^ 4 * 10 ^ 200)) with ((4 * a ^ 4) * 10 ^ 200) by ring. apply Rmult_le_compat_r; [lra|]. eapply Rle_trans; [exact N|]. right. ring. }
    assert (Q : / 10 ^ 40 <= / 10). { apply Rinv_le_contravar; [lra|]. replace (10 ^ 40) with (10 * 10 ^ 39) by (cbn [pow]; ring). assert (1 <= 10 ^ 39) by (apply pow_R1_Rle; lra). lra. }
    lra.
  - intros e He. rewrite Mx in He. discriminate.
  - discriminate.
Qed.
