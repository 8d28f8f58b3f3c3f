(** Concrete fits with GalsimFitter. *)
From Coq Require String.
From Verif Require Import Base XReal Flags_Model Jacobian_Model Pixels_Model Priors_Model Joint_Model Joint_Spec
  Fit_Model Fit_Spec FitCex_Proofs LM_Model LM_Spec LM_Proofs LMCex_Proofs PriorFit_Model PriorFit_Proofs
  Fitter_Model Fitter_Spec Fitter_Proofs FitterCex_Proofs
  Galsim_Model Galsim_Spec Galsim3_Proofs Galsim4_Proofs Galsim6_Proofs GalsimCex_Proofs GalsimFitter_Model GalsimFitter_Spec GalsimFitter_Proofs.
Import String.StringSyntax.
Local Open Scope R_scope.
Local Open Scope string_scope.
Local Open Scope list_scope.

Section Run.
Context {G II : Type} (X : gext G II).
(** a fit of one band by the minimizer that stops where it starts, with one point more than parameters *)
Lemma run_there h m input guess prior h0 F0 ds pr dr (odd : vec -> resx vec) :
  gfit_init X h m input guess prior = (h0, Ok F0) -> valid_input input -> own_metadata F0 -> prior_fills prior (gf_n_prior F0) ->
  match prior with Some p => jp_bounds p | None => None end = None ->
  Forall2 (fun t d => own_model X m guess (fst t) (snd t) d) (with_bands (gf_obs F0)) ds ->
  prior_residuals prior guess (gf_n_prior F0) (gf_size F0) pr -> length pr = gf_n_prior F0 ->
  Forall2 (fun t d => round_model X m guess (fst t) (snd t) d) (with_bands (gf_obs F0)) dr ->
  length (gf_obs F0) = 1%nat -> length guess = gf_npars F0 -> points (gf_obs F0) = S (gf_npars F0) -> gf_npars F0 = 6%nat \/ gf_npars F0 = 7%nat ->
  exists h' out, galsim_go X ex_lmdif w_leastsq w_inv w_eig ex_msg odd h m prior 0 [] input guess = Some (OkX (h', out)) /\
    dget (go_dict out) "flags" = Some (LInt 0) /\ dget (go_dict out) "pars" = Some (LVec (map Some guess)) /\ gf_obs (go_fit out) = gf_obs F0 /\
    exists r, go_res out = Some r /\ result_flux (gr_flux r) 0 = Some (par guess 5).
Proof.
  intros EF V ND Pf Hb Hd Hpr Lpr Hdr Hn1 Lg Hpts Hnp.
  pose proof (fdiff_ok X _ _ _ _ _ _ _ h0 F0 guess ds pr EF V ND (hi_new X h0 F0 input) Pf Lg Hd Hpr) as Ef.
  pose proof (s2n_ok X _ _ _ _ _ _ _ h0 F0 guess dr EF V ND (hi_new X h0 F0 input) Lg Hdr) as Es.
  set (resid := List.concat (map (fun t => residuals (fst t) (snd t)) (combine (List.concat (gf_obs F0)) ds))) in *.
  assert (Lr : length resid = (2 * points (gf_obs F0))%nat).
  { unfold resid. rewrite all_residuals_length; [reflexivity|]. rewrite <- (snd_bands (gf_obs F0)), map_length. exact (Forall2_length _ _ _ Hd). }
  unfold galsim_go. rewrite EF. unfold g_bounds. rewrite Hb. cbn [bounds_arg].
  set (n := gf_npars F0) in *. set (S2 := rsum (map (fun d => d * d) resid)).
  assert (H2 : 0 <= S2). { unfold S2. clear. induction resid as [|x l IH]; [cbn; lra|]. cbn [map]. rewrite rsum_cons. nra. }
  set (fd := pr ++ map Fin resid) in *.
  assert (Lf : length (map of_xr fd) = (gf_n_prior F0 + 2 * S n)%nat) by (unfold fd; rewrite map_length, app_length, map_length; lia).
  assert (Sk : skipn (gf_n_prior F0) (map of_xr fd) = map Some resid).
  { unfold fd. rewrite map_app, map_map. rewrite <- Lpr, <- (map_length of_xr pr). rewrite skipn_app, Nat.sub_diag, skipn_all. reflexivity. }
  set (pcov := mkArr n n (fun i j => Some ((if Nat.eqb i j then 1 else 0) * S2)) : omat).
  set (d := full_dict 0 1 1 "converged" (map Some guess) (map (fun _ => Some (sqrt S2)) (seq 0 n)) (Some (w_cov n)) pcov).
  assert (Efin : forallb is_fin (all_cells pcov) = true) by (unfold pcov; destruct Hnp as [-> | ->]; reflexivity).
  assert (ER : run_leastsq ex_lmdif w_leastsq w_inv w_eig ex_msg (gfdiff_func X odd h0 F0) (map Some guess) (gf_n_prior F0) true None 0 = OkX d).
  { unfold run_leastsq, run_try. cbn [leastsqbound]. unfold w_leastsq. cbn [bindx tp_ier tp_cov tp_x tp_mesg tp_nfev Z.eqb Z.ltb Z.compare Pos.compare Pos.compare_cont].
    unfold gfdiff_func at 1. rewrite all_some_map, Ef. cbn [bindx]. rewrite Lf, Sk, map_length, Lg.
    assert (Ed : ((Z.of_nat (gf_n_prior F0 + 2 * S n) - Z.of_nat (gf_n_prior F0)) / 2 - Z.of_nat n = 1)%Z).
    { replace (Z.of_nat (gf_n_prior F0 + 2 * S n) - Z.of_nat (gf_n_prior F0))%Z with (Z.of_nat (S n) * 2)%Z by lia. rewrite Z.div_mul by lia. lia. }
    unfold degrees. rewrite Ed. cbn [Z.eqb]. rewrite map_map. change (map (fun x0 : R => omul (Some x0) (Some x0)) resid) with (map (fun x0 => Some (x0 * x0)) resid).
    rewrite <- (map_map (fun x0 => x0 * x0) Some), osum_some. fold S2. unfold odiv. rewrite Reqb_f by lra.
    assert (Ep : mat_scale (w_cov n) (Some (S2 / 1)) = pcov).
    { unfold mat_scale, w_cov, pcov. cbn [nrow ncol at2 omul oap2]. unfold Rdiv. rewrite Rinv_1, Rmult_1_r. reflexivity. }
    rewrite Ep.
    assert (T : test_cov w_eig pcov = 0%Z).
    { unfold test_cov, np_eig. rewrite Efin. cbn [pcov nrow ncol]. rewrite Nat.eqb_refl. cbn [negb]. unfold w_eig.
      assert (D : diagonal n (fun i j => oval (at2 pcov i j)) = true).
      { unfold diagonal. apply forallb_forall. intros i _. apply forallb_forall. intros j _. cbn [pcov at2 oval]. destruct (Nat.eqb i j); [reflexivity|]. cbn [orb]. apply Reqb_t. ring. }
      rewrite D. destruct Hnp as [-> | ->]; cbn [seq map existsb pcov at2 oval Nat.eqb odiag nrow ncol Nat.min oneg]; rewrite !Rltb_f by lra; reflexivity. }
    assert (Er : map (fun d => obind d osqrt) (odiag pcov) = map (fun _ => Some (sqrt S2)) (seq 0 n)).
    { unfold odiag. cbn [pcov nrow ncol]. rewrite Nat.min_id. rewrite map_map. apply map_ext. intros i. unfold pcov. cbn [at2]. rewrite Nat.eqb_refl. cbn [obind]. unfold osqrt. rewrite Rltb_f by lra. f_equal. f_equal. ring. }
    rewrite T, Er. reflexivity. }
  rewrite ER. cbn [gafter fold_left]. unfold finish_gfit.
  change (kget d "flags") with (Some (LInt 0)). change (kget d "pars") with (Some (LVec (map Some guess))).
  change (kget d "pars_err") with (Some (LVec (map (fun _ => Some (sqrt S2)) (seq 0 n)))). change (kget d "pars_cov") with (Some (LMat (Some pcov))). cbn iota.
  rewrite <- (map_map (fun _ => sqrt S2) Some). rewrite !all_some_map. unfold finite_mat. rewrite Efin.
  unfold Galsim_Model.set_fit_result. destruct (calc_s2n_r X h0 F0 guess) as [[h1 F1] r1] eqn:E1. cbn [snd] in Es. subst r1. cbn [bind].
  assert (L : gf_obs F1 = gf_obs F0).
  { unfold calc_s2n_r in E1. destruct (s2n_bands _ _ _ _ _ _ _ _) as [[h2 b] r2]. injection E1 as _ <- _. reflexivity. }
  rewrite L, Hn1. cbn [g_set_flux Nat.eqb nrow ncol at2 pcov].
  assert (Hi : ritem guess 5 = Ok (par guess 5)).
  { unfold ritem, par. destruct (nth_error guess 5) eqn:E5; [rewrite (nth_error_nth _ _ _ E5); reflexivity|]. apply nth_error_None in E5. lia. }
  rewrite Hi. cbn [bind]. unfold citem. cbn [nrow ncol]. replace (Nat.ltb 5 n) with true by (symmetry; apply Nat.ltb_lt; lia). cbn [andb bind].
  eexists; eexists. split; [reflexivity|]. split; [reflexivity|]. split; [reflexivity|]. split; [exact L|]. eexists. split; reflexivity.
Qed.
End Run.

(** a row of points that hold zero, of unit weight *)
Definition row (n : nat) : kobs := mkKo (mkKim 1 n 1 (fun _ _ => 0) (fun _ _ => 0)) (mkArr 1 n (fun _ _ => 1)) None 5.
Lemma row_valid n : valid_kobs (row n).
Proof. exists (ko_image (row n)), (ko_weight (row n)), None, 5%nat. split; [|exact I]. unfold new_kobs, weight_fits. cbn. rewrite Nat.eqb_refl. reflexivity. Qed.
Definition row_fit (m : gmodel) (prior : option jprior) (guess : list R) (n : nat) : gfit := with_buf (fit_new m prior [[row n]]) guess.
Lemma row_init h prior : gfit_init toy h GExp (InK [[row 7]]) gpars prior = (init_images h [[row 7]], Ok (row_fit GExp prior gpars 7)).
Proof.
  unfold gfit_init, check_guess. cbn [fit_new gf_npars get_galsim_npars List.length gpars Nat.eqb negb gf_model gf_obs gf_buf seq check_bands].
  change (fill_band (n_before GExp) (repeat 0 (5 + 1 - 1 + 1)) gpars 0) with (gpars, Ok tt : res unit). cbn [bind].
  change gpars with [0;0;0;0;4;1] at 1. unfold make_model, make_round_model. cbn [ritem nth_error bind]. rewrite Rltb_f by lra. reflexivity.
Qed.
Lemma row_own m prior guess n : own_metadata (row_fit m prior guess n).
Proof. repeat constructor. intros []. Qed.
Lemma row_model n : Forall2 (fun t d => own_model toy GExp gpars (fst t) (snd t) d) (with_bands [[row n]]) [((fun _ _ => 1), (fun _ _ => 0))].
Proof.
  constructor; [|constructor]. exists 1, ((fun _ _ => 1), (fun _ _ => 0)). split; [|split; reflexivity].
  split; [intros _; unfold par; cbn; lra|]. exists 1, 1. repeat split.
Qed.
Lemma row_round n : Forall2 (fun t d => round_model toy GExp gpars (fst t) (snd t) d) (with_bands [[row n]]) [((fun _ _ => 1), (fun _ _ => 0))].
Proof.
  constructor; [|constructor]. exists 1, ((fun _ _ => 1), (fun _ _ => 0)). split; [|split; reflexivity].
  split; [intros _; unfold par; cbn; lra|]. exists 1, 1. repeat split.
Qed.
Lemma fprior_fills n : (5 <= n)%nat -> exists out, jp_fill fprior (map Fin gpars) (repeat (Fin 0) n) = Ok (out, 5%nat) /\ length out = n.
Proof.
  intros Hn. pose proof (fprior_consistent (map Fin gpars) (repeat (Fin 0) n)) as C. rewrite repeat_length in C. specialize (C Hn).
  rewrite fprior_value in C. destruct (jp_fill fprior (map Fin gpars) (repeat (Fin 0) n)) as [[out k]|e]; [|contradiction].
  destruct C as (-> & C & _). exists out. split; [reflexivity|]. exact C.
Qed.
Lemma row_run_prior odd h : exists h' out, galsim_go toy ex_lmdif w_leastsq w_inv w_eig ex_msg odd h GExp (Some fprior) 0 [] (InK [[row 7]]) gpars = Some (OkX (h', out)) /\
  dget (go_dict out) "flags" = Some (LInt 0) /\ gf_obs (go_fit out) = [[row 7]].
Proof.
  destruct (fprior_fills 19 ltac:(lia)) as (o & E & L).
  destruct (run_there toy h GExp (InK [[row 7]]) gpars (Some fprior) _ _ [((fun _ _ => 1), (fun _ _ => 0))] (firstn 5 o) [((fun _ _ => 1), (fun _ _ => 0))] odd (row_init h (Some fprior))) as (h' & out & A & B & C & D & _);
    [repeat constructor; apply row_valid|apply row_own|exact (consistent_fills _ 5 fprior_consistent)|reflexivity|apply row_model|exists o; split; [exact E|reflexivity]
    |rewrite firstn_length, L; reflexivity|apply row_round|reflexivity..|left; reflexivity|]. exists h', out. auto.
Qed.
Lemma row_run odd h : exists h' out, galsim_go toy ex_lmdif w_leastsq w_inv w_eig ex_msg odd h GExp None 0 [] (InK [[row 7]]) gpars = Some (OkX (h', out)) /\
  dget (go_dict out) "flags" = Some (LInt 0) /\ gf_obs (go_fit out) = [[row 7]].
Proof.
  destruct (run_there toy h GExp (InK [[row 7]]) gpars None _ _ [((fun _ _ => 1), (fun _ _ => 0))] [] [((fun _ _ => 1), (fun _ _ => 0))] odd (row_init h None)) as (h' & out & A & B & C & D & _);
    [repeat constructor; apply row_valid|apply row_own|reflexivity|reflexivity|apply row_model|reflexivity|reflexivity|apply row_round|reflexivity..|left; reflexivity|]. exists h', out. auto.
Qed.

(** a Spergel profile of index 1/2 and flux 3 *)
Lemma sp_row_run odd h : exists h' out, galsim_go toy ex_lmdif w_leastsq w_inv w_eig ex_msg odd h GSpergel None 0 [] (InK [[row 8]]) sp_pars = Some (OkX (h', out)) /\
    dget (go_dict out) "flags" = Some (LInt 0) /\ dget (go_dict out) "pars" = Some (LVec (map Some sp_pars)) /\ gf_obs (go_fit out) = [[row 8]] /\
    exists r, go_res out = Some r /\ result_flux (gr_flux r) 0 = Some (1/2).
Proof.
  assert (I : gfit_init toy h GSpergel (InK [[row 8]]) sp_pars None = (init_images h [[row 8]], Ok (row_fit GSpergel None sp_pars 8))) by reflexivity.
  apply (run_there toy h GSpergel (InK [[row 8]]) sp_pars None _ _ [((fun _ _ => 3), (fun _ _ => 0))] [] [((fun _ _ => 3), (fun _ _ => 0))] odd I);
    [repeat constructor; apply row_valid|apply row_own|reflexivity|reflexivity| |reflexivity|reflexivity| |reflexivity..|right; reflexivity].
  - constructor; [|constructor]. exists 3, ((fun _ _ => 3), (fun _ _ => 0)). split; [|split; reflexivity].
    split; [intros [H|[H|H]]; discriminate|]. exists 3, 3. repeat split.
  - constructor; [|constructor]. exists 3, ((fun _ _ => 3), (fun _ _ => 0)). split; [|split; reflexivity].
    split; [intros [H|[H|H]]; discriminate|]. exists 3, 3. repeat split.
Qed.
