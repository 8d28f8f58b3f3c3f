From Verif Require Import Base XReal Shape_Model Shape_Spec Moments_Model Jacobian_Model Pixels_Model Priors_Model PriorSample_Model PriorSample_Spec Joint_Model
  PriorsCex_Proofs GMix_Model GMixObj_Model Guessers_Model Guessers_Spec Guessers_Proofs Guessers2_Proofs Guessers3_Proofs Guessers4_Proofs GuessersPSF_Proofs GuessersPrior_Proofs GuessersCex_Proofs.
From Verif Require Import PSFFlux_Model.
Local Open Scope R_scope.

(** ** C70: fluxes of the observation in the call *)
(** two observations that can be measured, one of them with a bad band; a call was made with the first *)
Example C70_hypotheses_hold : good_rng the_rng /\ (forall oid, measurable ((fun i => match i with 1%nat => [fit_of 5] | _ => [bad_fit; fit_of 7] end) oid)) /\
  exists c, after the_rng (fun i => match i with 1%nat => [fit_of 5] | _ => [bad_fit; fit_of 7] end) c /\ c_fluxes c = Some [5].
Proof.
  split; [exact the_rng_good|]. split.
  - intros [|[|oid]]; try (exists [5]; split; [apply fit_measurable; reflexivity|discriminate]);
      (exists [7]; split; [|discriminate]; apply go_bad; [intros (f & H & _); discriminate|apply go_good; [split; reflexivity|constructor]]).
  - exists (mkCache (Some 1%nat) (Some [5])). split; [|reflexivity].
    eapply (after_call _ _ cache0 (fun fl => ret (G1 fl)) 1%nat 0%nat); [apply after_none|]. reflexivity.
Qed.
(** while observations keep their identity and contents and all can be measured, every call uses
    the fluxes of its own observation, after any history *)
Theorem C70_own_fluxes : forall W (G : rng W), good_rng G -> forall obs_of c body oid w w' c' r, (forall oid, measurable (obs_of oid)) -> after G obs_of c ->
  psf_call W G body c oid (obs_of oid) w = Some (w', c', r) -> exists fl w1, fluxes_of (obs_of oid) fl /\ body fl w1 = Some (w', r).
Proof. exact psf_call_own. Qed.
Print Assumptions C70_own_fluxes.
(** a call with another observation than in the last call, whatever happened before *)
Theorem C70_new_observation : forall W (G : rng W), good_rng G -> forall c body oid fits w w' c' r, c_id c <> Some oid ->
  psf_call W G body c oid fits w = Some (w', c', r) ->
  (measurable fits /\ exists fl w1, fluxes_of fits fl /\ body fl w1 = Some (w', r)) \/ (~ measurable fits /\ exists e, r = Raise e).
Proof. exact psf_call_new. Qed.
Print Assumptions C70_new_observation.
(** after a failure with an observation, the next call with it answers from the fluxes of the
    observation before, whatever is in it by then *)
Theorem C70_after_failure_refuted : forall W (G : rng W) body c oid fits w, c_id c <> Some oid -> ~ measurable fits -> good_rng G ->
  exists c' e, psf_call W G body c oid fits w = Some (w, c', Raise e) /\
    forall fits' w', psf_call W G body c' oid fits' w' =
      match c_fluxes c with
      | None => Some (w', c', Raise AttributeError)
      | Some fl => match body fl w' with None => None | Some (w1, r) => Some (w1, c', r) end
      end.
Proof. exact @after_failure. Qed.
Print Assumptions C70_after_failure_refuted.
Example C70_failure_hypotheses_hold : c_id cache0 <> Some 2%nat /\ ~ measurable [bad_fit] /\ good_rng the_rng.
Proof. split; [discriminate|]. split; [exact bad_not_measurable|exact the_rng_good]. Qed.
(** an observation that replaces a collected one, with its identifier, gets its fluxes *)
Theorem C70_reused_id_refuted : forall W (G : rng W) body c oid fl fits w, c_id c = Some oid -> c_fluxes c = Some fl ->
  psf_call W G body c oid fits w = match body fl w with None => None | Some (w1, r) => Some (w1, c, r) end.
Proof. exact @same_id. Qed.
Print Assumptions C70_reused_id_refuted.
(** a guess with flux 5 for an observation of flux 7 *)
Theorem C70_history_refuted : exists body c1 w1 r1 c2 w2 r2,
  psf_call nat the_rng body cache0 1 [fit_of 5] 0%nat = Some (w1, c1, r1) /\
  psf_call nat the_rng body c1 1 [fit_of 7] w1 = Some (w2, c2, r2) /\
  ~ exists fl w, fluxes_of [fit_of 7] fl /\ body fl w = Some (w2, r2).
Proof.
  exists (fun fl => ret (G1 fl)). do 6 eexists. split; [reflexivity|]. split; [reflexivity|]. intros (fl & w & H & K). apply fluxes_of_one in H. subst fl. cbn in K. injection K. intros. lra.
Qed.
Print Assumptions C70_history_refuted.

(** ** C71: guesses allowed by the prior *)
Example C71_hypotheses_hold : good_rng the_rng /\ proper the_jp /\ draws_allowed the_jp /\ separable the_jp.
Proof. split; [exact the_rng_good|exact the_jp_ok]. Qed.
(** when the prior draws only what it allows *)
Theorem C71_allowed : forall W (G : rng W) fuel P, good_rng G -> proper P -> draws_allowed P -> forall T fluxes nu n,
  holds W (tflux_guess W G T fluxes (Some P) n) (fun o => Forall (allowed P) (rows o)) /\
  holds W (r50flux_guess W G T fluxes (Some P) n) (fun o => Forall (allowed P) (rows o)) /\
  holds W (r50nu_guess W G fuel T nu fluxes (Some P) n) (fun o => Forall (allowed P) (rows o)) /\
  holds W (bdf_guess W G T fluxes P n) (fun o => Forall (allowed P) (rows o)) /\
  holds W (bd_guess W G T fluxes P n) (fun o => Forall (allowed P) (rows o)) /\
  (forall pars ws nrand, (4 <= length pars <= length ws)%nat -> Forall (fun w => 0 <= w) ws -> holds W (pars_guess W G fuel pars (Some ws) (Some P) nrand) (fun o => Forall (allowed P) (rows o))).
Proof.
  intros W G fuel P HG Hp Hd T fluxes nu n. split; [now apply tflux_allowed|]. split; [now apply r50_allowed|]. split; [now apply r50nu_allowed|]. split; [now apply bdf_allowed|]. split; [now apply bd_allowed|].
  intros pars ws nrand L Pw. now apply pars_allowed.
Qed.
Print Assumptions C71_allowed.
(** those that keep the shape and draw the rest again need the prior to be separable *)
Theorem C71_allowed_separable : forall W (G : rng W) P, good_rng G -> proper P -> draws_allowed P -> separable P -> forall T fluxes n,
  holds W (tflux_prior_guess W G T fluxes P n) (fun o => Forall (allowed P) (rows o)) /\
  holds W (tpsfflux_prior_guess W G T fluxes P n) (fun o => Forall (allowed P) (rows o)).
Proof. intros W G P HG Hp Hd Hs T fluxes n. split; [now apply tflux_prior_allowed|now apply tpsfflux_prior_allowed]. Qed.
Print Assumptions C71_allowed_separable.
(** the joint priors of the library are such, if their parts are *)
Theorem C71_joint_priors : forall W (scen sg : sampler2 W) mid Fs, draws_pairs scen ->
  (forall P, let ps := ss_T P :: ss_F P in clean2 (ss_g P) -> Forall clean1 ps -> draws2 (ss_g P) sg -> Forall2 draws1 ps (mid ++ Fs) ->
     let J := sep_jp (simple_lnprob P) scen sg mid Fs in proper J /\ draws_allowed J /\ separable J) /\
  (forall P, let ps := bf_T P :: bf_fracdev P :: bf_F P in clean2 (bf_g P) -> Forall clean1 ps -> draws2 (bf_g P) sg -> Forall2 draws1 ps (mid ++ Fs) ->
     let J := sep_jp (bdf_lnprob P) scen sg mid Fs in proper J /\ draws_allowed J /\ separable J) /\
  (forall P, let ps := bd_T P :: bd_logTratio P :: bd_fracdev P :: bd_F P in clean2 (bd_g P) -> Forall clean1 ps -> draws2 (bd_g P) sg -> Forall2 draws1 ps (mid ++ Fs) ->
     let J := sep_jp (bd_lnprob P) scen sg mid Fs in proper J /\ draws_allowed J /\ separable J) /\
  (forall P, let ps := sp_r50 P :: sp_nu P :: sp_F P in clean2 (sp_g P) -> Forall clean1 ps -> draws2 (sp_g P) sg -> Forall2 draws1 ps (mid ++ Fs) ->
     let J := sep_jp (spergel_lnprob P) scen sg mid Fs in proper J /\ draws_allowed J /\ separable J).
Proof.
  intros W scen sg mid Fs Hc. split; [|split; [|split]]; intros P ps H1 H2 H3 H4.
  - exact (lib_priors _ _ _ ps scen sg mid Fs (simple_sep P) H1 H2 Hc H3 H4).
  - exact (lib_priors _ _ _ ps scen sg mid Fs (bdf_sep P) H1 H2 Hc H3 H4).
  - exact (lib_priors _ _ _ ps scen sg mid Fs (bd_sep P) H1 H2 Hc H3 H4).
  - exact (lib_priors _ _ _ ps scen sg mid Fs (spergel_sep P) H1 H2 Hc H3 H4).
Qed.
Print Assumptions C71_joint_priors.
(** and these parts are *)
Theorem C71_parts : forall W (G : rng W), good_rng G ->
  (forall p, fl_min p <= fl_max p -> clean1 (flat_obj p) /\ draws1 (flat_obj p) (flat_sample G p)) /\
  (forall p, clean1 (normal_obj p) /\ draws1 (normal_obj p) (normal_sample G p)) /\
  (forall m s sh p, s <> 0 -> lognormal_init m s sh = Ok p -> clean1 (lognormal_obj p) /\ draws1 (lognormal_obj p) (lognormal_sample G p)) /\
  (forall r, r <> 0 -> clean2 (zdisk_obj (zdisk_init r)) /\ draws2 (zdisk_obj (zdisk_init r)) (zdisk_sample2d G (zdisk_init r))) /\
  (forall p, draws_pairs (cen_sample G p)).
Proof.
  intros W G HG. split; [intros p H; split; [apply flat_clean|now apply flat_draws]|]. split; [intros p; split; [apply normal_clean|now apply normal_draws]|].
  split; [intros m s sh p Hs Hp; now apply (lognormal_ok G m s sh)|]. split; [intros r Hr; split; [apply zdisk_clean|now apply zdisk_draws]|]. intros p. now apply cen_draws.
Qed.
Print Assumptions C71_parts.
(** otherwise: the last row drawn is not checked *)
Theorem C71_last_draw_refuted : exists P T fluxes w w' row, proper P /\ tflux_guess nat the_rng T fluxes (Some P) 1 w = Some (w', Ok (G1 row)) /\ ~ allowed P row.
Proof. exists neg_prior, (-2), [1], 0%nat, 6%nat, [0; 0; 0; 0; -1; 1]. split; [exact neg_proper|]. split; [exact neg_run|exact neg_not_allowed]. Qed.
Print Assumptions C71_last_draw_refuted.
(** nor is a bad shape ever replaced, so that with dependent parts the guess can stay disallowed *)
Theorem C71_not_separable_refuted : exists P T fluxes w w' row, proper P /\ draws_allowed P /\ tflux_prior_guess nat the_rng T fluxes P 1 w = Some (w', Ok (G1 row)) /\ ~ allowed P row.
Proof. exists tied_prior, 1, [1], 0%nat, 7%nat, [0; 0; 0; 0; 1; 1]. split; [exact tied_proper|]. split; [exact tied_draws|]. split; [exact tied_run|exact tied_not_allowed]. Qed.
Print Assumptions C71_not_separable_refuted.

(** ** C72: ranges and columns *)
Example C72_hypotheses_hold : good_rng the_rng /\ (4 <= length [0; 0; 1/2; 1; 1; 1] <= length [1/100; 1/100; 1/10; 1/10; 1/10; 1/10])%nat /\
  Forall (fun w => 0 <= w) [1/100; 1/100; 1/10; 1/10; 1/10; 1/10] /\ (1/10) ^ 2 + (1/10) ^ 2 < 1.
Proof. split; [exact the_rng_good|]. split; [cbn; lia|]. split; [repeat constructor; lra|lra]. Qed.
(** without a prior *)
Theorem C72_ranges : forall W (G : rng W) fuel, good_rng G -> forall T fluxes nu n,
  total W (tflux_guess W G T fluxes None n) (fun o => length (rows o) = n /\ Forall (simple_row T fluxes) (rows o)) /\
  total W (r50flux_guess W G T fluxes None n) (fun o => length (rows o) = n /\ Forall (simple_row T fluxes) (rows o)) /\
  holds W (r50nu_guess W G fuel T nu fluxes None n) (fun o => length (rows o) = n /\ Forall (spergel_row T nu fluxes) (rows o)).
Proof. intros W G fuel HG T fluxes nu n. split; [now apply tflux_none|]. split; [now apply r50_none|now apply r50nu_none]. Qed.
Print Assumptions C72_ranges.
(** with a prior: such rows or rows drawn from it *)
Theorem C72_ranges_prior : forall W (G : rng W) fuel P, good_rng G -> forall T fluxes nu n,
  holds W (tflux_guess W G T fluxes (Some P) n) (fun o => length (rows o) = n /\ Forall (fun row => simple_row T fluxes row \/ prior_row P row) (rows o)) /\
  holds W (r50flux_guess W G T fluxes (Some P) n) (fun o => length (rows o) = n /\ Forall (fun row => simple_row T fluxes row \/ prior_row P row) (rows o)) /\
  holds W (r50nu_guess W G fuel T nu fluxes (Some P) n) (fun o => length (rows o) = n /\ Forall (fun row => spergel_row T nu fluxes row \/ prior_row P row) (rows o)).
Proof. intros W G fuel P HG T fluxes nu n. split; [now apply tflux_prior|]. split; [now apply r50_prior|now apply r50nu_prior]. Qed.
Print Assumptions C72_ranges_prior.
(** a row of the prior with size, fluxes (and fracdev) put in; or after repair, rows of the prior,
    or the beginning of one with the end of another *)
Theorem C72_over_prior : forall W (G : rng W) P, good_rng G -> forall T fluxes n,
  holds W (tflux_prior_guess W G T fluxes P n) (fun o => length (rows o) = n /\ Forall (fun row => kept (simple_over T fluxes) P row \/ retailed P row) (rows o)) /\
  holds W (tpsfflux_prior_guess W G T fluxes P n) (fun o => length (rows o) = n /\ Forall (fun row => kept (simple_over T fluxes) P row \/ retailed P row) (rows o)) /\
  holds W (bdf_guess W G T fluxes P n) (fun o => length (rows o) = n /\ Forall (fun row => kept (bdf_over T fluxes) P row \/ prior_row P row) (rows o)).
Proof. intros W G P HG T fluxes n. split; [now apply tflux_prior_range|]. split; [now apply tpsfflux_prior_range|now apply bdf_range]. Qed.
Print Assumptions C72_over_prior.
(** around given parameters *)
Theorem C72_pars : forall W (G : rng W) fuel pars ws P nrand, good_rng G -> (4 <= length pars <= length ws)%nat -> Forall (fun w => 0 <= w) ws ->
  holds W (pars_guess W G fuel pars (Some ws) P nrand)
    (fun o => length (rows o) = nrows nrand /\ Forall (fun row => pars_row pars ws row \/ exists P', P = Some P' /\ prior_row P' row) (rows o)).
Proof. exact @pars_range. Qed.
Print Assumptions C72_pars.
Theorem C72_pars_returns : forall W (G : rng W) fuel pars ws nrand, good_rng G -> (4 <= length pars <= length ws)%nat -> Forall (fun w => 0 <= w) ws ->
  nth 2 ws 0 ^ 2 + nth 3 ws 0 ^ 2 < 1 -> (0 < fuel)%nat ->
  total W (pars_guess W G fuel pars (Some ws) None nrand) (fun o => length (rows o) = nrows nrand /\ Forall (pars_row pars ws) (rows o)).
Proof. exact @pars_returns. Qed.
Print Assumptions C72_pars_returns.
Theorem C72_pars_default_widths : forall W (G : rng W) fuel pars P nrand, (4 <= length pars)%nat ->
  exists ws, length ws = length pars /\ (forall i w, nth_error ws i = Some w -> w = if Nat.ltb i 2 then 2/100 else 1/10) /\
    pars_guess W G fuel pars None P nrand = pars_guess W G fuel pars (Some ws) P nrand.
Proof. exact @default_same. Qed.
Print Assumptions C72_pars_default_widths.
(** psfs *)
Theorem C72_psf_mixtures : forall W (G : rng W) flux T, good_rng G ->
  (0 < T -> total W (gmixpsf_guess W G 1 flux T) (fun o => o_kind o = KFull /\ one_gauss flux (T / 2) (gm_get_full_pars (o_data o)))) /\
  total W (gmixpsf_guess W G 2 flux T) (fun o => o_kind o = KFull /\ psf_mixture flux (T / 2) 0 (combine em2_p em2_f) (gm_get_full_pars (o_data o))) /\
  total W (gmixpsf_guess W G 3 flux T) (fun o => o_kind o = KFull /\ psf_mixture flux (T / 2) (1/100) (combine em3_p em3_f) (gm_get_full_pars (o_data o))).
Proof.
  intros W G flux T HG. split; [|split].
  - intros HT. apply (gmix_mixture G 1 flux T (T / 2) (2/10 * (T / 2)) [(1, 1)]). now apply em1_total.
  - apply gmix_mixture. now apply em2_total.
  - apply gmix_mixture. now apply em3_total.
Qed.
Print Assumptions C72_psf_mixtures.
Theorem C72_psf_shapes : forall W (G : rng W) flux T, good_rng G ->
  total W (simplepsf_guess W G flux T) (coellip_row (1/10) [T] [flux]) /\
  (forall n, (2 <= n <= 5)%nat -> exists p f, coellip_table n = Some (p, f) /\ length p = n /\ length f = n /\ Rabs (rsum p - 1) <= 1/1000 /\
     total W (coellippsf_guess W G n flux T) (coellip_row (1/100) (map (fun x => T * x) f) (map (fun x => flux * x) p))) /\
  (forall n w, n = 0%nat \/ (5 < n)%nat -> coellippsf_guess W G n flux T w = Some (w, Raise ValueError)).
Proof.
  intros W G flux T HG. split; [now apply simplepsf_total|]. split.
  - intros n Hn. destruct (coellip_tables n Hn) as (p & f & E & L1 & L2 & S1). exists p, f. split; [exact E|]. split; [exact L1|]. split; [exact L2|]. split; [exact S1|]. now apply coellip_total.
  - intros n w [-> |Hn]; [reflexivity|]. do 6 (destruct n as [|n]; [lia|]). reflexivity.
Qed.
Print Assumptions C72_psf_shapes.
(** the bulge-disk guesser leaves fracdev as drawn and overwrites the log of the size ratio *)
Theorem C72_bd_columns : forall W (G : rng W) P, good_rng G -> forall T fluxes n,
  holds W (bd_guess W G T fluxes P n) (fun o => length (rows o) = n /\ Forall (fun row => kept (bd_actual T fluxes) P row \/ prior_row P row) (rows o)).
Proof. intros W G P HG T fluxes n. now apply bd_range. Qed.
Print Assumptions C72_bd_columns.
Theorem C72_bd_refuted : exists P T fluxes w w' o, proper P /\ draws_allowed P /\ separable P /\ bd_guess nat the_rng T fluxes P 1 w = Some (w', Ok o) /\
  Forall (fun row => ~ kept (bd_over T fluxes) P row /\ ~ prior_row P row) (rows o).
Proof.
  destruct bd_wrong as (o & w' & E & K). destruct bd_prior_ok as (H1 & H2 & H3). exists bd_prior, 1, [1], 0%nat, w', o. auto 10.
Qed.
Print Assumptions C72_bd_refuted.
(** with four or five gaussians the sizes are not those of the tables *)
Theorem C72_four_five_gaussians_refuted : forall W (G : rng W) flux T, good_rng G -> 0 < T ->
  total W (em_pars W G 4 flux T) (fun l => length l = 24%nat /\ forall off, ~ psf_mixture flux (T/2) off (combine em4_p em4_f) l) /\
  total W (em_pars W G 5 flux T) (fun l => length l = 30%nat /\ forall off, ~ psf_mixture flux (T/2) off (combine em5_p em5_f) l).
Proof. intros W G flux T HG HT. split; [now apply em4_wrong|now apply em5_wrong]. Qed.
Print Assumptions C72_four_five_gaussians_refuted.
(** they are those of the first three entries, the third repeated *)
Theorem C72_four_five_gaussians : forall W (G : rng W) flux T, good_rng G ->
  total W (em_pars W G 4 flux T) (psf_mixture flux (T/2) (1/100) (map (fun i => (nth i em4_p 0, nth i em4_f 0)) [0; 1; 2; 2]%nat)) /\
  total W (em_pars W G 5 flux T) (psf_mixture flux (T/2) (1/100) (map (fun i => (nth i em5_p 0, nth i em5_f 0)) [0; 1; 2; 2; 2]%nat)).
Proof. intros W G flux T HG. split; [now apply em4_total|now apply em5_total]. Qed.
Print Assumptions C72_four_five_gaussians.

(** ** C100: mixtures guessed for psfs are positive definite *)
Example C100_hypotheses_hold : good_rng the_rng /\ (1 <= 5 <= 5)%nat /\ 5/100 <= 1.
Proof. split; [exact the_rng_good|]. split; [lia|lra]. Qed.
Theorem C100_positive_definite : forall W (G : rng W) n flux T, good_rng G -> (1 <= n <= 5)%nat -> 0 < T -> ((n <= 2)%nat \/ 5/100 <= T) ->
  total W (gmixpsf_guess W G n flux T) (fun o => length (gm_get_full_pars (o_data o)) = (6 * n)%nat /\ pos_def (gm_get_full_pars (o_data o))).
Proof. exact @gmix_posdef. Qed.
Print Assumptions C100_positive_definite.
(** with pixels of 3/100, not so: the off-diagonal element does not scale with the psf *)
Theorem C100_small_pixels_refuted : exists w' o, gmixpsf_guess nat the_rng 3 1 (fst (T_flux_default (3/100) 1)) 0%nat = Some (w', Ok o) /\
  ~ pos_def (gm_get_full_pars (o_data o)).
Proof. exact gmix_small. Qed.
Print Assumptions C100_small_pixels_refuted.

(** ** C101: the size from which psf guesses are made *)
Theorem C101_default_positive : forall scale imsum, 0 < scale -> 0 < fst (T_flux_default scale imsum).
Proof. exact default_pos. Qed.
Print Assumptions C101_default_positive.
Theorem C101_from_moments_positive : forall scale imsum m T flux, 0 < scale -> (mo_flags m = 0%Z -> 0 < mo_T m) ->
  T_flux_from_moms scale imsum m = Some (T, flux) -> 0 < T.
Proof. exact T_pos. Qed.
Print Assumptions C101_from_moments_positive.
(** the moments of a gaussian of size T0 and flux F under the weight give T0 and F back *)
Theorem C101_gaussian_recovered : forall scale imsum m T0 F, 0 < scale -> 0 < T0 -> mo_flags m = 0%Z ->
  1 / mo_T m = 1 / T0 + 1 / Tweight scale -> mo_flux m = F * scale ^ 2 / (PI * (T0 + Tweight scale)) ->
  scale <= T_to_fwhm (mo_T m) -> T_flux_from_moms scale imsum m = Some (T0, F).
Proof. exact T_recovered. Qed.
Print Assumptions C101_gaussian_recovered.
(** the only case without a finite size: the measured size is that of the weight *)
Theorem C101_infinite : forall scale imsum m, T_flux_from_moms scale imsum m = None -> mo_flags m = 0%Z /\ 1 / mo_T m = 1 / Tweight scale.
Proof. exact T_None. Qed.
Print Assumptions C101_infinite.
Theorem C101_infinite_refuted : forall scale imsum m, mo_flags m = 0%Z -> mo_T m = Tweight scale -> scale <= T_to_fwhm (mo_T m) ->
  T_flux_from_moms scale imsum m = None.
Proof. exact T_infinite. Qed.
Print Assumptions C101_infinite_refuted.
(** for one scale, both *)
Example C101_hypotheses_hold : exists m m' : mom, mo_flags m = 0%Z /\ 0 < mo_T m /\ 1 / mo_T m = 1 / Tweight 1 + 1 / Tweight 1 /\ 1 <= T_to_fwhm (mo_T m) /\
  mo_T m' = Tweight 1 /\ 1 <= T_to_fwhm (mo_T m').
Proof.
  assert (D : 0 < Tweight 1) by exact (default_pos 1 0 ltac:(lra)).
  assert (F : forall x, 0 <= x -> T_to_fwhm (2 * (x / FWHM_FAC) ^ 2) = x).
  { intros x Hx. assert (Fp : 0 < FWHM_FAC) by (unfold FWHM_FAC; lra). unfold T_to_fwhm, sigma_to_fwhm. replace (2 * (x / FWHM_FAC) ^ 2 / 2) with ((x / FWHM_FAC) ^ 2) by (field; lra).
    rewrite sqrt_pow2 by (apply Rle_mult_inv_pos; lra). field. lra. }
  exists (mkMom 0 (Tweight 1 / 2) 1), (mkMom 0 (Tweight 1) 1). cbn [mo_flags mo_T]. split; [reflexivity|]. split; [lra|]. split; [field; lra|]. split; [|split; [reflexivity|]].
  - assert (S2 : sqrt 2 <> 0) by (apply Rgt_not_eq, Rlt_sqrt2_0). assert (Q : sqrt 2 * sqrt 2 = 2) by (apply sqrt_sqrt; lra). assert (Sp := Rlt_sqrt2_0).
    replace (Tweight 1 / 2) with (2 * ((1 * (7/2) / sqrt 2) / FWHM_FAC) ^ 2).
    + rewrite F by (apply Rle_mult_inv_pos; lra). apply Rmult_le_reg_r with (sqrt 2); [lra|]. unfold Rdiv. rewrite Rmult_assoc, Rinv_l by exact S2. nra.
    + unfold Tweight, fwhm_to_T, fwhm_to_sigma. cbv zeta. assert (FWHM_FAC <> 0) by (unfold FWHM_FAC; lra). replace ((1 * (7 / 2) / sqrt 2 / FWHM_FAC) ^ 2) with ((1 * (7 / 2) / FWHM_FAC) ^ 2 / (sqrt 2 * sqrt 2)) by (field; auto). rewrite Q. field. auto.
  - unfold Tweight, fwhm_to_T, fwhm_to_sigma. cbv zeta. rewrite F; lra.
Qed.
