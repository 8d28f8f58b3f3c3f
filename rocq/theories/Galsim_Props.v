(** Fits with galsim. *)
From Verif Require Import Base XReal Jacobian_Model Pixels_Model Priors_Model Priors_Spec Joint_Model Joint_Spec Joint_Props GMixObj_Model Flags_Model PSFFlux_Model PSFFlux_Spec Fit_Model Fit_Spec Fit4_Proofs.
From Verif Require Import FitCex_Proofs Galsim_Model Galsim_Spec Galsim_Proofs Galsim2_Proofs Galsim3_Proofs Galsim4_Proofs Galsim5_Proofs Galsim6_Proofs GalsimCex_Proofs.
From Verif Require LM_Model.
From Coq Require Import String.
Local Open Scope R_scope.

(** ** C112: the vector of residuals *)
(** two bands, from images; and one band in Fourier space, with a psf and a prior *)
Example C112_hypotheses_hold :
  (exists h0, gfit_init toy no_meta GExp (InReal [[toy_obs 1 0]; [toy_obs 2 1]]) toy_guess None = (h0, Ok (toy_fit 0 1)) /\
     own_metadata (toy_fit 0 1) /\ List.length toy_guess = gf_npars (toy_fit 0 1) /\
     exists ds, Forall2 (fun t d => own_model toy GExp toy_guess (fst t) (snd t) d) (with_bands (gf_obs (toy_fit 0 1))) ds) /\
  (exists h0, gfit_init toy no_meta GExp (InK [[toy_ko]]) gpars (Some sprior) = (h0, Ok toy_kfit) /\
     valid_input (InK [[toy_ko]]) /\ own_metadata toy_kfit /\ prior_fills (Some sprior) (gf_n_prior toy_kfit) /\ List.length gpars = gf_npars toy_kfit /\
     (exists ds, Forall2 (fun t d => own_model toy GExp gpars (fst t) (snd t) d) (with_bands (gf_obs toy_kfit)) ds) /\
     exists pr, prior_residuals (Some sprior) gpars (gf_n_prior toy_kfit) (gf_size toy_kfit) pr).
Proof.
  split.
  - destruct (toy_init no_meta 0 1) as (h0 & E & _). exists h0. split; [exact E|]. split; [repeat constructor; cbn; intuition discriminate|]. split; [reflexivity|].
    eexists. exact (toy_own 0 1).
  - eexists. split; [exact (toy_kinit no_meta)|]. split; [repeat constructor; exact toy_valid|]. split; [repeat constructor; intros []|].
    split; [exact (consistent_fills _ 5 sprior_consistent)|]. split; [reflexivity|]. split; [eexists; exact toy_kown|].
    destruct (sprior_fills (gf_size toy_kfit)) as (out & E); [cbn; lia|]. exists (firstn 5 out), out. split; [exact E|reflexivity].
Qed.
(** residuals of the prior, then for each band and epoch the real and imaginary differences between
    its own model and its data in units of the errors, whatever was evaluated before *)
Theorem C112_residuals : forall (G II : Type) (X : gext G II) h00 h0 m input guess prior F0 h F pars ds pr,
  gfit_init X h00 m input guess prior = (h0, Ok F0) -> valid_input input -> own_metadata F0 -> history X h0 F0 input h F ->
  prior_fills prior (gf_n_prior F0) -> List.length pars = gf_npars F0 ->
  Forall2 (fun t d => own_model X m pars (fst t) (snd t) d) (with_bands (gf_obs F0)) ds ->
  prior_residuals prior pars (gf_n_prior F0) (gf_size F0) pr ->
  snd (Galsim_Model.calc_fdiff X h F pars) = Ok (pr ++ map Fin (List.concat (map (fun t => residuals (fst t) (snd t)) (combine (List.concat (gf_obs F0)) ds))))%list.
Proof. intros G II X. exact (fdiff_ok X). Qed.
Print Assumptions C112_residuals.
(** their squares add up to chi squared, in which points without weight do not count *)
Theorem C112_sum_of_squares : forall l, rsum (map (fun x => x ^ 2) (List.concat (map (fun t => residuals (fst t) (snd t)) l))) =
  rsum (map (fun t => chi2_of (fst t) (snd t)) l).
Proof. exact all_residuals_sq. Qed.
Print Assumptions C112_sum_of_squares.
(** parameters that galsim refuses in some band: a constant vector of the same size *)
Theorem C112_out_of_range : forall (G II : Type) (X : gext G II) h00 h0 m input guess prior F0 h F pars,
  gfit_init X h00 m input guess prior = (h0, Ok F0) -> valid_input input -> own_metadata F0 -> history X h0 F0 input h F ->
  List.length pars = gf_npars F0 ->
  Forall (fun t => (exists d, own_model X m pars (fst t) (snd t) d) \/ refused X m pars (fst t) (snd t)) (with_bands (gf_obs F0)) ->
  Exists (fun t => refused X m pars (fst t) (snd t)) (with_bands (gf_obs F0)) ->
  snd (Galsim_Model.calc_fdiff X h F pars) = Ok (repeat LOWVAL (gf_size F0)).
Proof. intros G II X. exact (fdiff_refused X). Qed.
Print Assumptions C112_out_of_range.
(** the same when the prior refuses them *)
Theorem C112_prior_refuses : forall (G II : Type) (X : gext G II) h00 h0 m input guess p F0 h F pars ds,
  gfit_init X h00 m input guess (Some p) = (h0, Ok F0) -> valid_input input -> own_metadata F0 -> history X h0 F0 input h F ->
  List.length pars = gf_npars F0 ->
  Forall2 (fun t d => own_model X m pars (fst t) (snd t) d) (with_bands (gf_obs F0)) ds ->
  jp_fill p (map Fin pars) (repeat (Fin 0) (gf_size F0)) = Raise GMixRangeError ->
  snd (Galsim_Model.calc_fdiff X h F pars) = Ok (repeat LOWVAL (gf_size F0)).
Proof. intros G II X. exact (fdiff_prior_refused X). Qed.
Print Assumptions C112_prior_refuses.
Example C112_refused_hypotheses_hold : let pars := [0; 0; 0; 0; 1/100000; 1; 2] in List.length pars = gf_npars (toy_fit 0 1) /\
  Forall (fun t => (exists d, own_model toy GExp pars (fst t) (snd t) d) \/ refused toy GExp pars (fst t) (snd t)) (with_bands (gf_obs (toy_fit 0 1))) /\
  Exists (fun t => refused toy GExp pars (fst t) (snd t)) (with_bands (gf_obs (toy_fit 0 1))).
Proof.
  intros pars. assert (Rf : forall b ko, refused toy GExp pars b ko) by (intros b ko; left; split; [left; reflexivity|unfold par; cbn; lra]).
  split; [reflexivity|]. split; [|constructor; apply Rf]. apply Forall_forall. intros t _. right. apply Rf.
Qed.
(** the joint priors of the library fill the number of residuals that the fit allows for *)
Theorem C112_library_priors : forall erf cen s A q T F bounds, erf_like erf -> (exists a b s t, cen_init a b s t = Ok cen) ->
  gba_init s A = Ok q -> made_1d erf T -> Forall (made_1d erf) (fluxes F) ->
  (forall (G II : Type) (X : gext G II) h m input guess P h' F0, is_simple m -> simple_init cen (gba_obj q) T F = Ok P ->
     gfit_init X h m input guess (Some (of_simple P bounds)) = (h', Ok F0) -> List.length (gf_obs F0) = List.length (fluxes F) ->
     prior_fills (Some (of_simple P bounds)) (gf_n_prior F0)) /\
  (forall (G II : Type) (X : gext G II) h m input guess nu P h' F0, m = GSpergel \/ m = GMoffat -> made_1d erf nu -> spergel_init cen (gba_obj q) T nu F = Ok P ->
     gfit_init X h m input guess (Some (of_spergel P bounds)) = (h', Ok F0) -> List.length (gf_obs F0) = List.length (fluxes F) ->
     prior_fills (Some (of_spergel P bounds)) (gf_n_prior F0)).
Proof.
  intros erf cen s A q T F bounds He Hc Hq HT HF. destruct (C66_joint erf cen (gba_obj q) T F s A q He Hc Hq eq_refl HT HF) as (K1 & _ & _ & K4 & _).
  split.
  - intros G II X h m input guess P h' F0 Hm HP Ei L. apply consistent_fills. destruct (init_made X _ _ _ _ _ _ _ Ei) as (M & _). destruct M as [_ _ En _ _ _ _].
    rewrite En, L. pose proof (fill_consistent _ _ _ _ _ bounds false (K1 P HP)) as C. unfold simple_ps in C. cbn [List.length] in C.
    destruct Hm as [->|[->| ->]]; exact C.
  - intros G II X h m input guess nu P h' F0 Hm Hn HP Ei L. apply consistent_fills. destruct (init_made X _ _ _ _ _ _ _ Ei) as (M & _). destruct M as [_ _ En _ _ _ _].
    rewrite En, L. pose proof (fill_consistent _ _ _ _ _ bounds false (K4 nu P Hn HP)) as C. unfold spergel_ps in C. cbn [List.length] in C.
    destruct Hm as [->| ->]; exact C.
Qed.
Print Assumptions C112_library_priors.
(** observations that were given one dictionary of metadata overwrite the models of each other: a
    perfect fit has a residual that is not zero *)
Theorem C112_shared_metadata_refuted : exists (X : gext R R) h00 h0 input guess F0 ds,
  gfit_init X h00 GExp input guess None = (h0, Ok F0) /\ valid_input input /\
  Forall2 (fun t d => own_model X GExp guess (fst t) (snd t) d) (with_bands (gf_obs F0)) ds /\
  Forall (eq 0) (List.concat (map (fun t => residuals (fst t) (snd t)) (combine (List.concat (gf_obs F0)) ds))) /\
  exists x rest, snd (Galsim_Model.calc_fdiff X h0 F0 guess) = Ok (Fin x :: rest) /\ x <> 0.
Proof.
  destruct (toy_init no_meta 0 0) as (h' & E & h1 & ->).
  exists toy, no_meta, (init_images h1 [[toy_k 1 0]; [toy_k 2 0]]), (InReal [[toy_obs 1 0]; [toy_obs 2 0]]), toy_guess, (toy_fit 0 0).
  eexists. split; [exact E|]. split; [exact I|]. split; [exact (toy_own 0 0)|]. split; [|exact (toy_shared h1)].
  rewrite toy_zero. repeat constructor.
Qed.
Print Assumptions C112_shared_metadata_refuted.

(** ** C113: metadata *)
(** nothing else in the metadata changes, and no other dictionary *)
Theorem C113_other_entries : forall (G II : Type) (X : gext G II),
  (forall h m input guess prior h' r, gfit_init X h m input guess prior = (h', r) -> changes h h' (input_metas input) (fit_keys ++ kobs_keys)) /\
  (forall h F pars, changes h (fst (fst (Galsim_Model.calc_fdiff X h F pars))) (map ko_meta (List.concat (gf_obs F))) fit_keys) /\
  (forall h F pars err cov, changes h (fst (fst (Galsim_Model.set_fit_result X h F pars err cov))) (map ko_meta (List.concat (gf_obs F))) fit_keys).
Proof. intros G II X. split; [exact (init_changes X)|]. split; [exact (fdiff_changes X)|exact (result_changes X)]. Qed.
Print Assumptions C113_other_entries.
(** the metadata of the observations that were given do change: an entry 'scale' of the user is lost *)
Theorem C113_refuted : forall (G II : Type) (X : gext G II) h m obs guess prior h' F o z,
  gfit_init X h m (InReal obs) guess prior = (h', Ok F) -> In o (List.concat obs) -> gget (h (ro_meta o)) "scale" = Some (GUser z) ->
  gget (h' (ro_meta o)) "scale" <> Some (GUser z).
Proof. intros G II X h m obs guess prior h' F o z E Ho _. destruct (init_scale X _ _ _ _ _ _ _ _ E Ho) as (x & ->). discriminate. Qed.
Print Assumptions C113_refuted.
Example C113_hypotheses_hold : exists h' F, gfit_init toy (fun _ => [("scale"%string, GUser 7)]) GExp (InReal [[toy_obs 1 0]; [toy_obs 2 1]]) toy_guess None = (h', Ok F).
Proof. destruct (toy_init (fun _ => [("scale"%string, GUser 7)]) 0 1) as (h' & E & _). eauto. Qed.

(** ** C114: fluxes and shapes of the result *)
Theorem C114_simple_models : forall (G II : Type) (X : gext G II) h00 h0 m input guess prior F0 h F pars err cov h' F' r,
  gfit_init X h00 m input guess prior = (h0, Ok F0) -> valid_input input -> own_metadata F0 -> history X h0 F0 input h F ->
  List.length pars = gf_npars F0 -> nrow cov = gf_npars F0 -> ncol cov = gf_npars F0 ->
  Galsim_Model.set_fit_result X h F pars err cov = (h', F', Ok r) -> is_simple m ->
  flux_right m (List.length (gf_obs F0)) pars cov (gr_flux r).
Proof.
  intros G II X h00 h0 m input guess prior F0 h F pars err cov h' F' r Ei V ND Hh Lp N1 N2 E Hm b Hb.
  pose proof (result_flux_at5 X _ _ _ _ _ _ _ _ _ _ _ _ _ _ _ b Ei V ND Hh Lp N1 N2 E Hb) as H. unfold flux_par. destruct Hm as [->|[->| ->]]; exact H.
Qed.
Print Assumptions C114_simple_models.
(** of a Spergel or Moffat model the index is reported as flux of the first band, and the flux of
    each band as that of the next *)
Theorem C114_index_is_reported : forall (G II : Type) (X : gext G II) h00 h0 m input guess prior F0 h F pars err cov h' F' r,
  gfit_init X h00 m input guess prior = (h0, Ok F0) -> valid_input input -> own_metadata F0 -> history X h0 F0 input h F ->
  List.length pars = gf_npars F0 -> nrow cov = gf_npars F0 -> ncol cov = gf_npars F0 ->
  Galsim_Model.set_fit_result X h F pars err cov = (h', F', Ok r) -> m = GSpergel \/ m = GMoffat ->
  (List.length (gf_obs F0) <> 0%nat -> result_flux (gr_flux r) 0 = index_par m pars) /\
  (forall b, (S b < List.length (gf_obs F0))%nat -> result_flux (gr_flux r) (S b) = Some (flux_par m pars b)).
Proof.
  intros G II X h00 h0 m input guess prior F0 h F pars err cov h' F' r Ei V ND Hh Lp N1 N2 E Hm.
  pose proof (fun b => result_flux_at5 X _ _ _ _ _ _ _ _ _ _ _ _ _ _ _ b Ei V ND Hh Lp N1 N2 E) as H. split; [intros Hn|intros b Hb].
  - destruct (H 0%nat ltac:(lia)) as (-> & _). destruct Hm as [->| ->]; reflexivity.
  - destruct (H (S b) Hb) as (-> & _). destruct Hm as [->| ->]; reflexivity.
Qed.
Print Assumptions C114_index_is_reported.
Theorem C114_refuted : exists (X : gext R R) h00 h0 input guess F0 err cov h' F' r,
  gfit_init X h00 GSpergel input guess None = (h0, Ok F0) /\ valid_input input /\ own_metadata F0 /\
  nrow cov = gf_npars F0 /\ ncol cov = gf_npars F0 /\
  Galsim_Model.set_fit_result X h0 F0 guess err cov = (h', F', Ok r) /\ ~ flux_right GSpergel 1 guess cov (gr_flux r).
Proof.
  destruct (sp_result no_meta) as (h' & F' & r & E & Hr). exists toy, no_meta. eexists. exists (InK [[toy_k 1 0]]), sp_pars, sp_fit, (repeat 1 7), (unit_cov 7), h', F', r.
  split; [exact (sp_init no_meta)|]. split; [repeat constructor; apply toy_k_valid|]. split; [exact sp_own|]. split; [reflexivity|]. split; [reflexivity|]. split; [exact E|].
  intros H. destruct (H 0%nat ltac:(lia)) as (H0 & _). rewrite Hr in H0. unfold flux_par, par in H0. cbn in H0. injection H0 as H0. lra.
Qed.
Print Assumptions C114_refuted.
(** shape, its error and covariance *)
Theorem C114_shape : forall (G II : Type) (X : gext G II) h F pars err cov h' F' r, Galsim_Model.set_fit_result X h F pars err cov = (h', F', Ok r) ->
  gr_g r = firstn 2 (skipn 2 pars) /\ gr_g_err r = firstn 2 (skipn 2 err) /\ gr_g_cov r = block cov 2 4 /\
  exists h1 F1, calc_s2n_r X h F pars = (h1, F1, Ok (gr_s2n_r r)).
Proof. intros G II X. exact (shape_result X). Qed.
Print Assumptions C114_shape.

(** ** C115: parameters of a band *)
Theorem C115_values : forall (G II : Type) (X : gext G II) h00 h0 m input guess prior F0 h F pars b F' a,
  gfit_init X h00 m input guess prior = (h0, Ok F0) -> valid_input input -> own_metadata F0 -> history X h0 F0 input h F ->
  List.length pars = gf_npars F0 -> (b < List.length (gf_obs F0))%nat ->
  Galsim_Model.get_band_pars F pars b = (F', Ok a) -> deref F' a = (firstn (shared m) pars ++ [flux_par m pars b])%list.
Proof. intros G II X. exact (band_values X). Qed.
Print Assumptions C115_values.
(** the array is the same at every call: that of the first band becomes that of the second *)
Theorem C115_kept_refuted : exists (X : gext R R) h00 h0 input guess F0 F1 F2 a b,
  gfit_init X h00 GExp input guess None = (h0, Ok F0) /\ own_metadata F0 /\
  Galsim_Model.get_band_pars F0 guess 0 = (F1, Ok a) /\ Galsim_Model.get_band_pars F1 guess 1 = (F2, Ok b) /\ deref F2 a <> deref F1 a.
Proof.
  destruct (toy_init no_meta 0 1) as (h0 & E & _). destruct toy_band_shared as (F1 & F2 & a & b & E1 & E2 & D1 & D2).
  exists toy, no_meta, h0, (InReal [[toy_obs 1 0]; [toy_obs 2 1]]), toy_guess, (toy_fit 0 1), F1, F2, a, b.
  split; [exact E|]. split; [repeat constructor; cbn; intuition discriminate|]. split; [exact E1|]. split; [exact E2|]. rewrite D1, D2. intros H. injection H as H. lra.
Qed.
Print Assumptions C115_kept_refuted.

(** ** C116: observations in Fourier space *)
(** one grid for all, the largest that any observation asks for *)
Theorem C116_transforms : forall (G II : Type) (X : gext G II) h obs h' ks, make_kobs X h obs = (h', Ok ks) ->
  exists dim dk, Forall2 (Forall2 (transform_of X dim dk)) obs ks /\
    (exists o, In o (List.concat obs) /\ asks X o dim dk) /\
    (forall o, In o (List.concat obs) -> exists d k, asks X o d k /\ (d <= dim)%nat).
Proof. intros G II X. exact (make_kobs_spec X). Qed.
Print Assumptions C116_transforms.
Example C116_hypotheses_hold : exists h' ks, make_kobs toy no_meta [[toy_obs 1 0]; [toy_obs 2 1]] = (h', Ok ks).
Proof. destruct (toy_kobs no_meta 0 1) as (h' & E). eauto. Qed.

(** ** C117: centres *)
(** the centre of the jacobian plays no part: with any other centres the outcome is the same, in
    contrast to the fits with gaussians, whose centres are relative to it *)
Theorem C117_refuted : forall (G II : Type) (X : gext G II) shift h m obs guess prior,
  gfit_init X h m (InReal (map (map (move_centres shift)) obs)) guess prior = gfit_init X h m (InReal obs) guess prior.
Proof. intros G II X. exact (init_moved X). Qed.
Print Assumptions C117_refuted.

(** ** C118: s2n_r *)
Theorem C118_s2n : forall (G II : Type) (X : gext G II) h00 h0 m input guess prior F0 h F pars ds,
  gfit_init X h00 m input guess prior = (h0, Ok F0) -> valid_input input -> own_metadata F0 -> history X h0 F0 input h F ->
  List.length pars = gf_npars F0 ->
  Forall2 (fun t d => round_model X m pars (fst t) (snd t) d) (with_bands (gf_obs F0)) ds ->
  snd (calc_s2n_r X h F pars) = Ok (sqrt (Rmax 0 (rsum (map (fun t => power (fst t) (snd t)) (combine (List.concat (gf_obs F0)) ds))))).
Proof. intros G II X. exact (s2n_ok X). Qed.
Print Assumptions C118_s2n.
Example C118_hypotheses_hold : exists h0, gfit_init toy no_meta GSpergel (InK [[toy_k 1 0]]) sp_pars None = (h0, Ok sp_fit) /\
  valid_input (InK [[toy_k 1 0]]) /\ own_metadata sp_fit /\
  exists ds, Forall2 (fun t d => round_model toy GSpergel sp_pars (fst t) (snd t) d) (with_bands (gf_obs sp_fit)) ds.
Proof.
  eexists. split; [exact (sp_init no_meta)|]. split; [repeat constructor; apply toy_k_valid|]. split; [exact sp_own|]. eexists. exact sp_round.
Qed.

(** ** C119: fluxes of templates drawn by galsim *)
Theorem C119_flux_is_optimal : forall obs l ts, drawn_all obs l ts -> weights_ok obs -> stored obs ->
  exists r, galsim_psf_go obs l = Some (Ok r) /\
    (template_weight obs ts = 0 -> pr_flags r = DIV_ZERO /\ pr_flux r = Fin LM_Model.PDEF /\ pr_flux_err r = Fin LM_Model.CDEF) /\
    (0 < template_weight obs ts -> exists f, pr_flux r = Fin f /\ (forall f', f' <> f -> chi2_at obs ts f < chi2_at obs ts f')).
Proof.
  intros obs l ts H1 H2 H3. destruct (gal_go _ _ _ H1 H2 H3) as (r & E & A & _ & B). exists r. split; [exact E|]. split; [exact A|].
  intros P. destruct (B P) as (f & Ef & Hm & _). eauto.
Qed.
Print Assumptions C119_flux_is_optimal.
(** chi squared and the error are right if the images hold all the light of the templates *)
Theorem C119_all_light : forall obs l ts, drawn_all obs l ts -> all_light obs ts -> weights_ok obs -> stored obs ->
  exists r, galsim_psf_go obs l = Some (Ok r) /\
    (0 < template_weight obs ts -> exists f, pr_flux r = Fin f /\ (forall f', f' <> f -> chi2_at obs ts f < chi2_at obs ts f') /\
      pr_chi2per r = Fin (chi2_at obs ts f / pr_dof r) /\
        (n_kept obs = 1%nat -> pr_flags r = DIV_ZERO /\ pr_flux_err r = Fin LM_Model.CDEF) /\
        (n_kept obs <> 1%nat -> pr_flags r = 0%Z /\
           exists e, pr_flux_err r = Fin e /\ 0 <= e /\ e ^ 2 * template_weight obs ts * (INR (n_kept obs) - 1) = chi2_at obs ts f)).
Proof. exact gal_go_light. Qed.
Print Assumptions C119_all_light.
Example C119_hypotheses_hold : drawn_all [half_obs] [mkArr 1 2 (fun _ _ => Fin (1/2))] [fun _ _ => 1/2] /\ all_light [half_obs] [fun _ _ => 1/2] /\
  weights_ok [half_obs] /\ stored [half_obs] /\ 0 < template_weight [half_obs] [fun _ _ => 1/2].
Proof.
  split; [constructor; [repeat split|constructor]|]. split; [constructor; [unfold light; cbn; lra|constructor]|]. split; [exact half_weights|]. split; [exact half_stored|].
  unfold template_weight, over. cbn. lra.
Qed.
(** they are not if light falls outside of the image: the data are exactly four times the template,
    yet chi squared per degree of freedom is 2 and the error 4 *)
Theorem C119_refuted : exists obs l ts r f, drawn_all obs l ts /\ weights_ok obs /\ stored obs /\ 0 < template_weight obs ts /\
  galsim_psf_go obs l = Some (Ok r) /\ pr_flux r = Fin f /\ pr_flags r = 0%Z /\ chi2_at obs ts f = 0 /\ pr_chi2per r = Fin 2 /\ pr_flux_err r = Fin 4.
Proof.
  destruct half_go as (r & E & Ef & Fl & C & Er). exists [half_obs], [half_arr], [half_t], r, 4.
  split; [exact half_drawn|]. split; [exact half_weights|]. split; [exact half_stored|]. split; [rewrite half_tw; lra|]. split; [exact E|].
  split; [exact Ef|]. split; [exact Fl|]. split; [rewrite half_chi2; replace (4 / 4 - 1) with 0 by field; ring|]. split; assumption.
Qed.
Print Assumptions C119_refuted.
