(** C60, C61, C62, C64, C98, C99: model fits. *)
From Verif Require Import Base XReal Jacobian_Model Pixels_Model GMix_Model GMix_Spec GMixObj_Model Render_Model Render_Spec
  Priors_Model Priors_Spec Joint_Model Joint_Spec Joint_Proofs Joint_Props Fit_Model Fit_Spec Fit_Proofs Fit2_Proofs Fit3_Proofs Fit4_Proofs FitCex_Proofs.
From Verif Require GaussAp_Model.
Local Open Scope R_scope.

(** ** C60 *)
Theorem C60_band_parameters : forall m pars b, m <> Mbdc ->
  ((n_shared m + b < length pars)%nat -> exists bp, get_band_pars m pars b = Ok bp /\ length bp = model_npars m /\
     (forall i, (i < n_shared m)%nat -> nth_error bp i = nth_error pars i) /\
     nth_error bp (n_shared m) = nth_error pars (n_shared m + b)) /\
  ((length pars <= n_shared m + b)%nat -> exists e, get_band_pars m pars b = Raise e).
Proof. intros m pars b Hm. split; [exact (band_pars_entries m pars b Hm)|exact (band_pars_raise m pars b Hm)]. Qed.
Print Assumptions C60_band_parameters.
Theorem C60_aperture_fluxes : forall m row b, m <> Mbdc -> m <> Mbd -> (n_shared m + b < length row)%nat ->
  exists bp, GaussAp_Model.get_band_pars row (GaussAp_Model.AModel m) b = Ok bp /\ length bp = model_npars m /\
    (forall i, (i < n_shared m)%nat -> i <> 4%nat -> nth_error bp i = nth_error row i) /\
    nth_error bp 4 = option_map (Rmax (/ 10000)) (nth_error row 4) /\
    nth_error bp (n_shared m) = nth_error row (n_shared m + b).
Proof. exact gap_band_pars. Qed.
Print Assumptions C60_aperture_fluxes.
(** every band of a fit has its parameters *)
Theorem C60_every_band : forall m obs prior F (pars : list R) b, fit_of (FName m) obs prior F -> m <> Mbdc ->
  length pars = f_npars F -> (b < length obs)%nat -> (n_shared m + b < length pars)%nat.
Proof. intros m obs prior F pars b Ft Hm L Hb. rewrite L, (md_npars _ _ _ _ (fit_made _ _ _ _ Ft)). unfold n_pars, n_shared. lia. Qed.
Print Assumptions C60_every_band.
Example C60_hypotheses_hold : get_band_pars Mbdf [1;2;3;4;5;6;7;8;9] 2 = Ok [1;2;3;4;5;6;9] /\ get_band_pars Mexp [1;2;3;4;5;6;7] 1 = Ok [1;2;3;4;5;7].
Proof. split; reflexivity. Qed.

(** ** C61 *)
(** without a prior, and for bd, bdf and co-elliptical models *)
Theorem C61_layout : forall m obs prior F pars ms L, fit_of m obs prior F -> m <> FCoellip 0 -> uniform_psf obs ->
  match prior with None => True | Some p => (m = FName Mbd \/ m = FName Mbdf \/ exists n, m = FCoellip n) /\ consistent_prior p (prior_terms m (length obs)) end ->
  length pars = n_pars m obs -> in_range F pars ms -> prior_value prior pars = Ok L ->
  exists models pr, Forall2 model_of ms models /\ length pr = f_n_prior F /\ encode pr L /\
    snd (calc_fdiff F pars) = Ok (pr ++ map Fin (all_resid models (pixels_of obs))) /\
    length (all_resid models (pixels_of obs)) = f_totpix F.
Proof.
  intros m obs prior F pars ms L Ft Hm Hu Hp Lp Hr Hv. pose proof (n_prior_exact _ _ _ _ Ft) as N.
  assert (K : prior_ok prior (f_n_prior F)).
  { destruct prior as [p|]; [|exact N]. destruct Hp as [Hs Hp]. cbn [prior_ok]. rewrite N.
    destruct Hs as [->|[->|[n ->]]]; rewrite Nat.add_0_r; exact Hp. }
  destruct (layout m obs prior F (f_n_prior F) Ft Hm K (le_n _) Hu pars ms L Lp Hr Hv) as (models & pr & A & B & C & D & E & _).
  exists models, pr. rewrite Nat.sub_diag in D. cbn [repeat] in D. rewrite app_nil_r in D. auto.
Qed.
Print Assumptions C61_layout.
(** for the other models there is one more zero at the end, and n_prior_pars is one too large *)
Theorem C61_simple_extra_zero : forall m obs p F pars ms L, fit_of (FName m) obs (Some p) F -> m = Mexp \/ m = Mdev \/ m = Mgauss \/ m = Mturb ->
  uniform_psf obs -> consistent_prior p (prior_terms (FName m) (length obs)) ->
  length pars = n_pars (FName m) obs -> in_range F pars ms -> prior_value (Some p) pars = Ok L ->
  exists models pr, Forall2 model_of ms models /\ S (length pr) = f_n_prior F /\ encode pr L /\
    snd (calc_fdiff F pars) = Ok (pr ++ map Fin (all_resid models (pixels_of obs)) ++ [Fin 0]) /\
    length (all_resid models (pixels_of obs)) = f_totpix F.
Proof.
  intros m obs p F pars ms L Ft Hs Hu Hp Lp Hr Hv. pose proof (n_prior_exact _ _ _ _ Ft) as N. cbn beta iota in N.
  assert (N' : f_n_prior F = S (prior_terms (FName m) (length obs))) by (destruct Hs as [->|[->|[->| ->]]]; cbn in *; lia).
  destruct (layout (FName m) obs (Some p) F _ Ft ltac:(discriminate) Hp ltac:(lia) Hu pars ms L Lp Hr Hv) as (models & pr & A & B & C & D & E & _).
  exists models, pr. rewrite N' in *. replace (S (prior_terms (FName m) (length obs)) - prior_terms (FName m) (length obs))%nat with 1%nat in D by lia. cbn [repeat] in D.
  split; [exact A|]. split; [congruence|auto].
Qed.
Print Assumptions C61_simple_extra_zero.
(** so the split at n_prior_pars takes the first pixel for a prior *)
Theorem C61_simple_refuted : exists m obs prior F pars ms L pr models fd,
  fit_of (FName m) obs (Some prior) F /\ uniform_psf obs /\ consistent_prior prior (prior_terms (FName m) (length obs)) /\
  length pars = n_pars (FName m) obs /\ in_range F pars ms /\ prior_value (Some prior) pars = Ok L /\ Forall2 model_of ms models /\ encode pr L /\
  snd (calc_fdiff F pars) = Ok fd /\ fd = pr ++ map Fin (all_resid models (pixels_of obs)) ++ [Fin 0] /\
  skipn (f_n_prior F) fd <> map Fin (all_resid models (pixels_of obs)).
Proof. exact simple_wrong. Qed.
Print Assumptions C61_simple_refuted.
(** the priors of the library have one residual for each term *)
Theorem C61_library_priors : forall erf cen s A q T F bounds, erf_like erf -> (exists a b s t, cen_init a b s t = Ok cen) ->
  gba_init s A = Ok q -> made_1d erf T -> Forall (made_1d erf) (fluxes F) ->
  (forall m P, m = Mexp \/ m = Mdev \/ m = Mgauss \/ m = Mturb -> simple_init cen (gba_obj q) T F = Ok P ->
     consistent_prior (of_simple P bounds) (prior_terms (FName m) (length (fluxes F)))) /\
  (forall Tr fd P, made_1d erf Tr -> made_1d erf fd -> bd_init cen (gba_obj q) T Tr fd F = Ok P ->
     consistent_prior (of_bd P bounds) (prior_terms (FName Mbd) (length (fluxes F)))) /\
  (forall fd P, made_1d erf fd -> bdf_init cen (gba_obj q) T fd F = Ok P ->
     consistent_prior (of_bdf P bounds) (prior_terms (FName Mbdf) (length (fluxes F)))) /\
  (forall n Fp P, F = FOne Fp -> coellip_init n cen (gba_obj q) T F = Ok P ->
     consistent_prior (of_coellip P bounds) (prior_terms (FCoellip n) 1)).
Proof.
  intros erf cen s A q T F bounds He Hc Hq HT HF. destruct (C66_joint erf cen (gba_obj q) T F s A q He Hc Hq eq_refl HT HF) as (K1 & K2 & K3 & _ & K5).
  split; [|split; [|split]].
  - intros m P Hm H. pose proof (fill_consistent _ _ _ _ _ bounds false (K1 P H)) as C. unfold simple_ps in C. cbn [length] in C.
    destruct Hm as [->|[->|[->| ->]]]; exact C.
  - intros Tr fd P H1 H2 H. exact (fill_consistent _ _ _ _ _ bounds false (K2 Tr fd P H1 H2 H)).
  - intros fd P H1 H. exact (fill_consistent _ _ _ _ _ bounds false (K3 fd P H1 H)).
  - intros n Fp P Ef H. pose proof (fill_consistent _ _ _ _ _ bounds false (K5 n Fp P Ef H)) as C. unfold coellip_ps in C.
    rewrite app_length, !repeat_length in C. cbn [prior_terms]. replace (2 + 1 + 2 * n)%nat with (3 + (n + n))%nat by lia. exact C.
Qed.
Print Assumptions C61_library_priors.
Example C61_hypotheses_hold : fit_of (FName Mgauss) [[bare]] (Some sprior) (F1 (Some sprior)) /\ uniform_psf [[bare]] /\ consistent_prior sprior 5 /\
  in_range (F1 (Some sprior)) gpars [gobj] /\ prior_value (Some sprior) gpars = Ok (Fin (- 17 / 2)) /\ in_range (F1 None) gpars [gobj].
Proof. split; [apply F1_of|]. split; [exact uniform1|]. split; [exact sprior_consistent|]. split; [apply F1_range|]. split; [exact sprior_value|apply F1_range]. Qed.

(** ** C62 *)
Theorem C62_agree : forall m obs prior F k pars r fd, fit_of m obs prior F -> m <> FCoellip 0 -> prior_ok prior k -> (k <= f_n_prior F)%nat ->
  (0 < f_size F)%nat -> snd (calc_lnprob F pars) = Ok r -> snd (calc_fdiff F pars) = Ok fd ->
  l_lnprob r = xmul (Fin (-1/2)) (xsum (map xsq fd)).
Proof. intros m obs prior F k pars r fd Ft Hm Hp Hk. exact (agree m obs prior F k Ft Hm Hp Hk pars r fd). Qed.
Print Assumptions C62_agree.
(** one raises if and only if the other does, if the prior does not *)
Theorem C62_raise_together : forall m obs prior F k pars L e, fit_of m obs prior F -> m <> FCoellip 0 -> prior_ok prior k -> (k <= f_n_prior F)%nat ->
  prior_value prior pars = Ok L -> (snd (calc_lnprob F pars) = Raise e <-> snd (calc_fdiff F pars) = Raise e).
Proof. intros m obs prior F k pars L e Ft Hm Hp Hk. exact (raise_together m obs prior F k Ft Hm Hp Hk pars L e). Qed.
Print Assumptions C62_raise_together.
Theorem C62_out_of_range : forall m obs prior F k pars, fit_of m obs prior F -> m <> FCoellip 0 -> prior_ok prior k -> (k <= f_n_prior F)%nat ->
  uniform_psf obs -> length pars = n_pars m obs ->
  (out_of_range F pars \/ prior_value prior pars = Raise GMixRangeError) ->
  (forall e, mixtures F pars = Raise e -> e = GMixRangeError) -> (forall e, prior_value prior pars = Raise e -> e = GMixRangeError) ->
  snd (calc_fdiff F pars) = Ok (repeat NInf (f_size F)) /\ exists r, snd (calc_lnprob F pars) = Ok r /\ l_lnprob r = NInf.
Proof.
  intros m obs prior F k pars Ft Hm Hp Hk Hu Lp H1 H2 H3. destruct (lowest m obs prior F k Ft Hm Hp Hk Hu pars Lp H1 H2 H3) as [A B].
  split; [exact A|]. exists ln_low. auto.
Qed.
Print Assumptions C62_out_of_range.
(** the prior is evaluated first by one and last by the other, so they differ where both the
    prior and the mixture fail *)
Theorem C62_order_refuted : exists m obs prior F pars, fit_of m obs (Some prior) F /\ uniform_psf obs /\ consistent_prior prior (prior_terms m (length obs)) /\
  length pars = n_pars m obs /\ (exists r, snd (calc_lnprob F pars) = Ok r /\ l_lnprob r = NInf) /\ snd (calc_fdiff F pars) = Raise ZeroDivisionError.
Proof. exact order_matters. Qed.
Print Assumptions C62_order_refuted.
Example C62_hypotheses_hold : exists r fd, (0 < f_size (F1 (Some sprior)))%nat /\ (5 <= f_n_prior (F1 (Some sprior)))%nat /\
  snd (calc_lnprob (F1 (Some sprior)) gpars) = Ok r /\ snd (calc_fdiff (F1 (Some sprior)) gpars) = Ok fd /\ exists x, l_lnprob r = Fin x.
Proof.
  destruct (layout (FName Mgauss) [[bare]] (Some sprior) (F1 (Some sprior)) 5 (F1_of _) ltac:(discriminate) sprior_consistent ltac:(cbn; lia) uniform1 gpars [gobj] (Fin (- 17 / 2))
    eq_refl (F1_range _) sprior_value) as (models & pr & Hm & Lp & En & Ef & La & El).
  eexists _, _. split; [cbn; lia|]. split; [cbn; lia|]. split; [exact El|]. split; [exact Ef|]. cbn [l_lnprob xadd]. eexists. reflexivity.
Qed.

(** ** C64 *)
Theorem C64_own_psf : forall m obs prior F k pars ms L, fit_of m obs prior F -> m <> FCoellip 0 -> prior_ok prior k -> (k <= f_n_prior F)%nat ->
  uniform_psf obs -> length pars = n_pars m obs -> in_range F pars ms -> prior_value prior pars = Ok L ->
  Forall2 (fun t g => own_mixture F pars (fst t) (snd t) g) (with_bands obs) ms /\
  exists models pr, Forall2 model_of ms models /\ length pr = k /\
    snd (calc_fdiff F pars) = Ok (pr ++ map Fin (all_resid models (pixels_of obs)) ++ repeat (Fin 0) (f_n_prior F - k)) /\
    exists r, snd (calc_lnprob F pars) = Ok r /\
      l_lnprob r = xadd (Fin (- sum_over (fun m p => resid m p ^ 2) models (pixels_of obs) / 2)) L.
Proof.
  intros m obs prior F k pars ms L Ft Hm Hp Hk Hu Lp Hr Hv. split; [exact (own_mixtures m obs prior F pars ms Ft (proj1 Hr))|].
  destruct (layout m obs prior F k Ft Hm Hp Hk Hu pars ms L Lp Hr Hv) as (models & pr & A & B & C & D & E & G).
  exists models, pr. split; [exact A|]. split; [exact B|]. split; [exact D|]. eexists. split; [exact G|reflexivity].
Qed.
Print Assumptions C64_own_psf.
(** the image of the fitted model is always made with the observation's own psf *)
Theorem C64_images : forall m obs prior F pars ms, fit_of m obs prior F -> mixtures F pars = Ok ms ->
  Forall2 (fun t g => own_mixture F pars (fst t) (snd t) g) (with_bands obs) ms.
Proof. exact own_mixtures. Qed.
Print Assumptions C64_images.
(** mixed lists: with a psf for the first observation all must have one *)
Theorem C64_mixed_rejected : forall m obs guess prior o os l, obs = (o :: os) :: l -> has_psf_gmix o = true ->
  (exists o', In o' (concat obs) /\ has_psf_gmix o' = false) -> forall F, fit_init m obs guess prior <> Ok F.
Proof. exact first_decides. Qed.
Print Assumptions C64_mixed_rejected.
(** and without one for the first the psfs of the others make no difference *)
Theorem C64_psfs_ignored : forall m obs guess prior F o os l, obs = (o :: os) :: l -> has_psf_gmix o = false -> fit_init m obs guess prior = Ok F ->
  exists F', fit_init m (map (map no_psf) obs) guess prior = Ok F' /\
    forall pars, snd (calc_fdiff F pars) = snd (calc_fdiff F' pars) /\ snd (calc_lnprob F pars) = snd (calc_lnprob F' pars).
Proof. exact psf_ignored. Qed.
Print Assumptions C64_psfs_ignored.
Theorem C64_refuted : exists m obs F pars ms fd, fit_of m obs None F /\ length pars = n_pars m obs /\ in_range F pars ms /\
  snd (calc_fdiff F pars) = Ok fd /\ ~ (exists models, Forall2 model_of ms models /\ fd = map Fin (all_resid models (pixels_of obs))).
Proof. exact psf_dropped. Qed.
Print Assumptions C64_refuted.
Example C64_hypotheses_hold : exists F ms, fit_of (FName Mgauss) [[with_psf]] None F /\ uniform_psf [[with_psf]] /\ in_range F gpars ms /\
  exists o, ms = [o] /\ o_data o = [gauss2d_set 1 0 0 4 0 4].
Proof. exact one_with_psf. Qed.

(** ** C98 *)
Theorem C98_no_memory : forall m obs guess prior F0 F, fit_init m obs guess prior = Ok F0 -> evolved F0 F -> forall pars,
  snd (calc_lnprob F pars) = snd (calc_lnprob F0 pars) /\ snd (calc_fdiff F pars) = snd (calc_fdiff F0 pars).
Proof. exact no_memory. Qed.
Print Assumptions C98_no_memory.
Theorem C98_guess_does_not_matter : forall m obs prior F F' pars, fit_of m obs prior F -> fit_of m obs prior F' ->
  snd (calc_lnprob F pars) = snd (calc_lnprob F' pars) /\ snd (calc_fdiff F pars) = snd (calc_fdiff F' pars).
Proof. exact same_results. Qed.
Print Assumptions C98_guess_does_not_matter.
(** one evaluation raised half way *)
Example C98_hypotheses_hold : exists F, evolved (F1 None) F /\ F <> F1 None /\ snd (calc_lnprob (F1 None) [0;0;1;0;4;1]) = Ok ln_low.
Proof. exact half_way. Qed.

(** ** C99 *)
Theorem C99_result : forall F pars err cov r, snd (set_fit_result F pars err cov) = Ok r ->
  snd (calc_lnprob F pars) = Ok (r_ln r) /\
  (0 < l_denom (r_ln r) -> r_s2n r = l_numer (r_ln r) / sqrt (l_denom (r_ln r))) /\ (l_denom (r_ln r) <= 0 -> r_s2n r = 0) /\
  r_dof r = (Z.of_nat (l_npix (r_ln r)) - Z.of_nat (f_npars F))%Z /\
  (r_dof r <> 0%Z -> xmul (r_chi2per r) (Fin (IZR (r_dof r))) = xmul (Fin (-2)) (l_lnprob (r_ln r))) /\
  (forall i, (i < 2)%nat -> nth_error (r_g r) i = nth_error pars (2 + i) /\ nth_error (r_g_err r) i = nth_error err (2 + i)) /\
  nth_error pars 4 = Some (r_T r) /\ r_T_err r = xsqrt (Fin (at2 cov 4 4)) /\
  (forall i j, at2 (r_g_cov r) i j = at2 cov (2 + i) (2 + j)).
Proof. exact result_fields. Qed.
Print Assumptions C99_result.
Theorem C99_fluxes : forall m n pars cov fl b bp, set_flux_result (FName m) n pars cov = Ok fl -> m <> Mbdc ->
  length pars = (n_shared m + n)%nat -> nrow cov = length pars -> ncol cov = length pars -> (b < n)%nat ->
  get_band_pars m pars b = Ok bp ->
  exists f, result_flux fl b = Some f /\ bp = firstn (n_shared m) pars ++ [f] /\
    result_flux_err fl b = Some (xsqrt (Fin (at2 cov (n_shared m + b) (n_shared m + b)))).
Proof. exact result_fluxes. Qed.
Print Assumptions C99_fluxes.
Example C99_hypotheses_hold : exists r, snd (set_fit_result (F1 None) gpars [1;1;1;1;1;1] (mkArr 6 6 (fun i j => if Nat.eqb i j then 1 else 0))) = Ok r /\
  r_T r = 4 /\ r_dof r = (-5)%Z /\ result_flux (r_flux r) 0 = Some 1.
Proof. exact a_result. Qed.
