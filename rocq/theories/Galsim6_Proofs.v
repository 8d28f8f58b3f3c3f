(** Fits with galsim: band parameters; template fluxes. *)
From Verif Require Import Base XReal Jacobian_Model Pixels_Model Priors_Model Joint_Model Fit_Model Fit_Spec Galsim_Model Galsim_Spec Galsim_Proofs Galsim2_Proofs Galsim3_Proofs Galsim4_Proofs Galsim5_Proofs.
From Verif Require Import GMixObj_Model Flags_Model PSFFlux_Model PSFFlux_Spec PSFFlux_Proofs.
From Verif Require LM_Model.
Local Open Scope R_scope.

Section G.
Context {G II : Type} (X : gext G II).
(** ** C115 *)
Lemma band_values h00 h0 m input guess prior F0 h F pars b F' a :
  gfit_init X h00 m input guess prior = (h0, Ok F0) -> valid_input input -> own_metadata F0 -> history X h0 F0 input h F ->
  List.length pars = gf_npars F0 -> (b < List.length (gf_obs F0))%nat ->
  Galsim_Model.get_band_pars F pars b = (F', Ok a) -> deref F' a = (firstn (shared m) pars ++ [flux_par m pars b])%list.
Proof.
  intros Ei V ND Hh Lp Hb. destruct (init_made X _ _ _ _ _ _ _ Ei) as (M & _). destruct (history_inv X _ _ _ _ _ _ _ _ _ Ei V ND Hh) as (S1 & Lb & _).
  destruct M as [Em _ _ _ _ Enp _]. unfold same_fit in S1. assert (O1 : gf_model F = m) by (rewrite S1; exact Em). unfold Galsim_Model.get_band_pars. rewrite O1.
  rewrite Enp in Lp. rewrite fill_band_ok by (exact Lb || (rewrite Lp; destruct m; cbn [get_galsim_npars n_before]; lia)). cbn [bind].
  intros E. assert (F' = with_buf F (bandpars m pars b)) as -> by congruence. destruct a. cbn [deref gf_buf with_buf]. unfold bandpars, flux_par, par. destruct m; reflexivity.
Qed.
(** ** C114 *)
Lemma result_flux_at5 h00 h0 m input guess prior F0 h F pars err cov h' F' r b :
  gfit_init X h00 m input guess prior = (h0, Ok F0) -> valid_input input -> own_metadata F0 -> history X h0 F0 input h F ->
  List.length pars = gf_npars F0 -> nrow cov = gf_npars F0 -> ncol cov = gf_npars F0 ->
  Galsim_Model.set_fit_result X h F pars err cov = (h', F', Ok r) -> (b < List.length (gf_obs F0))%nat ->
  result_flux (gr_flux r) b = Some (par pars (5 + b)) /\ result_flux_err (gr_flux r) b = Some (xsqrt (Fin (at2 cov (5 + b) (5 + b)))).
Proof.
  intros Ei V ND Hh Lp N1 N2 E Hb. destruct (init_made X _ _ _ _ _ _ _ Ei) as (M & _). destruct (history_inv X _ _ _ _ _ _ _ _ _ Ei V ND Hh) as (S1 & Lb & _).
  destruct M as [Em _ _ _ _ Enp _]. unfold same_fit in S1. assert (O1 : gf_model F = m /\ gf_obs F = gf_obs F0) by (rewrite S1; cbn; auto). destruct O1 as (O1 & O2).
  unfold Galsim_Model.set_fit_result in E. destruct (calc_s2n_r X h F pars) as [[h1 F1] [s|e]] eqn:Es; [|discriminate].
  rewrite <- O1 in Lb. destruct (s2n_fit X _ _ _ _ _ _ Es Lb) as (S2 & _). unfold same_fit in S2. assert (O3 : gf_obs F1 = gf_obs F0) by (rewrite S2; cbn; exact O2).
  rewrite O3 in E. cbn [bind] in E. destruct (g_set_flux (List.length (gf_obs F0)) pars cov) as [f|e] eqn:Ef; [|discriminate]. cbn [bind] in E.
  match type of E with (_, _, Ok ?v) = _ => assert (Er : r = v) by congruence end. subst r. cbn [gr_flux].
  apply (set_flux_at5 _ _ _ _ _ Ef); try congruence; try exact Hb. rewrite Lp, Enp. destruct m; cbn [get_galsim_npars]; lia.
Qed.
Lemma shape_result h F pars err cov h' F' r : Galsim_Model.set_fit_result X h F pars err cov = (h', F', Ok r) ->
  gr_g r = firstn 2 (skipn 2 pars) /\ gr_g_err r = firstn 2 (skipn 2 err) /\ gr_g_cov r = block cov 2 4 /\ exists h1 F1, calc_s2n_r X h F pars = (h1, F1, Ok (gr_s2n_r r)).
Proof.
  unfold Galsim_Model.set_fit_result. destruct (calc_s2n_r X h F pars) as [[h1 F1] [s|e]] eqn:Es; [|discriminate]. cbn [bind].
  destruct (g_set_flux _ pars cov) as [f|e]; [|discriminate]. cbn [bind]. intros E. match type of E with (_, _, Ok ?v) = _ => assert (Er : r = v) by congruence end. subst r. cbn. eauto 6.
Qed.
End G.

(** ** C119 *)
Lemma template_none o a t f : drawn_as o a t ->
  exists im, get_model o (STempl a (Fin 1)) None = Some (STempl a (Fin 1), Ok im) /\ drawn_as o im t /\
  get_model o (STempl a (Fin 1)) (Some (Fin f)) = Some (STempl a (Fin 1), Ok (scale_arr (xdiv (Fin (1 * f)) (Fin (light o t))) a)).
Proof.
  intros H. exists a. split; [reflexivity|]. split; [exact H|]. destruct H as (A & B & C). cbn [get_model]. unfold arr_sum. rewrite A, B, (cells_fin _ _ _ t C). reflexivity.
Qed.
Lemma gal_pass1 obs l ts : drawn_all obs l ts -> forall a b,
  pass1 obs (map (fun t => STempl t (Fin 1)) l) (Fin a) (Fin b) =
    Some (map (fun t => STempl t (Fin 1)) l, Ok (Fin (a + over (fun t i w => t * i * w) obs ts), Fin (b + over (fun t _ w => t * t * w) obs ts))).
Proof.
  induction 1 as [|o im t obs l ts (A & B & V) _ IH]; intros a b; cbn [map pass1].
  - rewrite !over_nil, !Rplus_0_r. reflexivity.
  - cbn [get_model bind]. rewrite (sum_image_fin _ (fun t i w => t * i * w) o im t A B V) by (intros; reflexivity).
    rewrite (sum_image_fin _ (fun t i w => t * t * w) o im t A B V) by (intros; reflexivity). cbn [bind xadd]. rewrite IH, !over_cons, !Rplus_assoc. reflexivity.
Qed.
Lemma gal_pass2 obs l ts : drawn_all obs l ts -> Forall (fun p => light (fst p) (snd p) <> 0) (combine obs ts) -> forall f a,
  pass2 obs (map (fun t => STempl t (Fin 1)) l) (Fin f) (Fin a) = Some (Ok (Fin (a + over (fun t i w => (f * t - i) * (f * t - i) * w) obs (unit_templates obs ts)))).
Proof.
  induction 1 as [|o im t obs l ts (A & B & V) _ IH]; intros HL f a; cbn [map pass2].
  - unfold unit_templates. cbn [combine map]. rewrite over_nil, Rplus_0_r. reflexivity.
  - cbn [combine] in HL. inversion HL as [|x xs N HL']; subst. cbn [fst snd] in N.
    cbn [get_model]. unfold arr_sum. rewrite A, B, (cells_fin _ _ _ t V). fold (light o t). cbn [xmul]. rewrite xdiv_fin by exact N. cbn [bind].
    rewrite (sum_image_fin _ (fun t i w => (t - i) * (t - i) * w) o _ (fun r c => f * unit_template o t r c)).
    + cbn [xadd]. rewrite IH by exact HL'. unfold unit_templates. cbn [combine map fst snd]. rewrite over_cons, Rplus_assoc. reflexivity.
    + exact A.
    + exact B.
    + intros r c Hr Hc. cbn [scale_arr at2]. rewrite (V r c Hr Hc). cbn [xmul]. unfold unit_template. f_equal. field. exact N.
    + intros; reflexivity.
Qed.
Lemma gal_pass2_ok obs l ts : drawn_all obs l ts -> forall f a, exists x, pass2 obs (map (fun t => STempl t (Fin 1)) l) (Fin f) a = Some (Ok x).
Proof.
  induction 1 as [|o im t obs l ts (A & B & V) _ IH]; intros f a; cbn [map pass2]; [eauto|]. cbn [get_model bind]. unfold sum_image. cbn [scale_arr nrow ncol]. rewrite A, B, !Nat.eqb_refl. cbn [andb]. apply IH.
Qed.
Lemma gal_go obs l ts : drawn_all obs l ts -> weights_ok obs -> stored obs ->
  exists r, galsim_psf_go obs l = Some (Ok r) /\ (template_weight obs ts = 0 -> pr_flags r = DIV_ZERO /\ pr_flux r = Fin LM_Model.PDEF /\ pr_flux_err r = Fin LM_Model.CDEF) /\
    pr_dof r = (if Nat.leb (n_weighted obs) 1 then / 1000000 else INR (n_weighted obs) - 1) /\
    (0 < template_weight obs ts -> exists f, pr_flux r = Fin f /\ (forall f', f' <> f -> chi2_at obs ts f < chi2_at obs ts f') /\
      (Forall (fun p => light (fst p) (snd p) <> 0) (combine obs ts) -> pr_chi2per r = Fin (chi2_at obs (unit_templates obs ts) f / pr_dof r) /\
        (n_kept obs = 1%nat -> pr_flags r = DIV_ZERO /\ pr_flux_err r = Fin LM_Model.CDEF) /\
        (n_kept obs <> 1%nat -> pr_flags r = 0%Z /\
           exists e, pr_flux_err r = Fin e /\ 0 <= e /\ e ^ 2 * template_weight obs ts * (INR (n_kept obs) - 1) = chi2_at obs (unit_templates obs ts) f))).
Proof.
  intros D W St. unfold galsim_psf_go. rewrite (sizes_ok _ St), fold_add. fold (n_kept obs). rewrite Nat.add_0_l. unfold go. cbn [pf_obs pf_sources pf_totpix]. rewrite (gal_pass1 _ _ _ D), !Rplus_0_l.
  assert (M : over (fun t _ w => t * t * w) obs ts = template_weight obs ts) by (apply over_ext; intros; ring). rewrite M.
  assert (Mp : 0 <= template_weight obs ts). { apply over_nonneg; [exact W|]. intros. apply Rmult_le_pos; [apply pow2_ge_0|assumption]. }
  set (F := mkPfit obs (map (fun t => STempl t (Fin 1)) l) (n_kept obs)). assert (Dp := dof_pos F).
  assert (Dv : get_dof F = (if Nat.leb (n_weighted obs) 1 then / 1000000 else INR (n_weighted obs) - 1)).
  { unfold get_dof. cbn [F pf_obs]. rewrite fold_add. cbn [Nat.add]. fold (n_weighted obs). destruct (Nat.leb (n_weighted obs) 1) eqn:Lb.
    - apply Nat.leb_le, le_INR in Lb. cbn [INR] in Lb. rewrite Rleb_t by lra. reflexivity.
    - apply Nat.leb_gt in Lb. apply le_INR in Lb. cbn [INR] in Lb. rewrite Rleb_f by lra. reflexivity. }
  rewrite (Rltb_t _ _ Dp).
  destruct (Req_dec (template_weight obs ts) 0) as [Z|Z].
  - assert (Zb : xeqb (Fin (template_weight obs ts)) (Fin 0) = true) by (cbn [xeqb]; apply Reqb_t; exact Z). rewrite Zb. cbn [orb option_map snd Z.lor].
    eexists. split; [reflexivity|]. cbn [pr_dof pr_flags pr_flux pr_flux_err pr_chi2per]. split; [auto|]. split; [exact Dv|]. intros; lra.
  - assert (Mq : 0 < template_weight obs ts) by lra. assert (Zb : xeqb (Fin (template_weight obs ts)) (Fin 0) = false) by (cbn [xeqb]; apply Reqb_f; exact Z). rewrite Zb.
    rewrite xdiv_fin by exact Z. set (f := over (fun t i w => t * i * w) obs ts / template_weight obs ts).
    destruct (gal_pass2_ok obs l ts D f (Fin 0)) as (x & Ex). rewrite Ex. cbn [opt_bind orb]. change (pf_totpix F) with (n_kept obs).
    assert (Hx : Forall (fun p => light (fst p) (snd p) <> 0) (combine obs ts) -> x = Fin (chi2_at obs (unit_templates obs ts) f)).
    { intros HL. rewrite (gal_pass2 _ _ _ D HL), Rplus_0_l in Ex. assert (C : over (fun t i w => (f * t - i) * (f * t - i) * w) obs (unit_templates obs ts) = chi2_at obs (unit_templates obs ts) f) by (apply over_ext; intros; ring). congruence. }
    assert (Cp : 0 <= chi2_at obs (unit_templates obs ts) f). { apply over_nonneg; [exact W|]. intros. apply Rmult_le_pos; [apply pow2_ge_0|assumption]. }
    assert (Np : n_kept obs <> 0%nat) by (intros N; apply Z; apply weight_needs_pixels; assumption).
    destruct (Nat.eqb (n_kept obs) 1) eqn:E1k.
    + apply Nat.eqb_eq in E1k. cbn [option_map snd Z.lor]. eexists. split; [reflexivity|]. cbn [pr_dof pr_flags pr_flux pr_flux_err pr_chi2per]. split; [intros; lra|]. split; [exact Dv|]. intros _.
      exists f. split; [reflexivity|]. split; [apply optimum; [exact Mq|reflexivity]|]. intros HL. rewrite (Hx HL), xdiv_fin by lra. split; [reflexivity|]. split; [auto|]. intros N; contradiction.
    + apply Nat.eqb_neq in E1k. assert (Kp : 1 <= INR (n_kept obs) - 1). { assert (2 <= n_kept obs)%nat by lia. apply le_INR in H. cbn [INR] in H. lra. }
      destruct (xleb (Fin 0) (xdiv (xdiv x (Fin (template_weight obs ts))) (Fin (INR (n_kept obs) - 1)))) eqn:Ab; cbn [option_map snd].
      * eexists. split; [reflexivity|]. cbn [pr_dof pr_flags pr_flux pr_flux_err pr_chi2per]. split; [intros; lra|]. split; [exact Dv|]. intros _.
        exists f. split; [reflexivity|]. split; [apply optimum; [exact Mq|reflexivity]|]. intros HL. rewrite (Hx HL). rewrite !xdiv_fin by lra. split; [reflexivity|]. split; [intros N; contradiction|]. intros _. split; [reflexivity|].
        set (arg := chi2_at obs (unit_templates obs ts) f / template_weight obs ts / (INR (n_kept obs) - 1)).
        assert (Ap : 0 <= arg). { unfold arg, Rdiv. apply Rmult_le_pos; [apply Rmult_le_pos; [exact Cp|]|]; apply Rlt_le, Rinv_0_lt_compat; lra. }
        exists (sqrt arg). split; [cbn [xsqrt]; rewrite ?Rltb_f by lra; reflexivity|]. split; [apply sqrt_pos|]. rewrite pow2_sqrt by exact Ap. unfold arg. field. split; lra.
      * eexists. split; [reflexivity|]. cbn [pr_dof pr_flags pr_flux pr_flux_err pr_chi2per]. split; [intros; lra|]. split; [exact Dv|]. intros _.
        exists f. split; [reflexivity|]. split; [apply optimum; [exact Mq|reflexivity]|]. intros HL. exfalso. rewrite (Hx HL) in Ab. rewrite !xdiv_fin in Ab by lra. cbn [xleb] in Ab.
        rewrite Rleb_t in Ab; [discriminate|]. unfold Rdiv. apply Rmult_le_pos; [apply Rmult_le_pos; [exact Cp|]|]; apply Rlt_le, Rinv_0_lt_compat; lra.
Qed.
Lemma all_light_nonzero obs ts : all_light obs ts -> Forall (fun p => light (fst p) (snd p) <> 0) (combine obs ts).
Proof. induction 1; cbn [combine]; constructor; [cbn; lra|assumption]. Qed.
Lemma unit_over f obs ts : (forall t t' i w, t = t' -> f t i w = f t' i w) -> all_light obs ts -> over f obs (unit_templates obs ts) = over f obs ts.
Proof.
  intros Hf. induction 1 as [|o t obs ts E _ IH]; [reflexivity|]. unfold unit_templates in *. cbn [combine map fst snd]. rewrite !over_cons, IH. f_equal. f_equal. apply cells_ext. intros r c _ _.
  apply Hf. unfold unit_template. rewrite E. field.
Qed.
Lemma gal_go_light obs l ts : drawn_all obs l ts -> all_light obs ts -> weights_ok obs -> stored obs ->
  exists r, galsim_psf_go obs l = Some (Ok r) /\
    (0 < template_weight obs ts -> exists f, pr_flux r = Fin f /\ (forall f', f' <> f -> chi2_at obs ts f < chi2_at obs ts f') /\
      pr_chi2per r = Fin (chi2_at obs ts f / pr_dof r) /\
        (n_kept obs = 1%nat -> pr_flags r = DIV_ZERO /\ pr_flux_err r = Fin LM_Model.CDEF) /\
        (n_kept obs <> 1%nat -> pr_flags r = 0%Z /\
           exists e, pr_flux_err r = Fin e /\ 0 <= e /\ e ^ 2 * template_weight obs ts * (INR (n_kept obs) - 1) = chi2_at obs ts f)).
Proof.
  intros D AL W St. destruct (gal_go obs l ts D W St) as (r & E & _ & _ & P). exists r. split; [exact E|]. intros Tw. destruct (P Tw) as (f & E1' & O & Q). exists f. split; [exact E1'|]. split; [exact O|].
  assert (C : chi2_at obs (unit_templates obs ts) f = chi2_at obs ts f) by (apply unit_over; [intros t t' i w ->; reflexivity|exact AL]). rewrite C in Q. apply Q. apply all_light_nonzero. exact AL.
Qed.
