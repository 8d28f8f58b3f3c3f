From Coq Require String.
From Verif Require Import Base XReal Flags_Model Pixels_Model Priors_Model Joint_Model GMixObj_Proofs Fit_Model Fit_Spec LM_Model LM_Spec LM_Proofs PriorFit_Model PriorFit_Proofs
  Fitter_Model Fitter_Spec Fitter_Proofs Galsim_Model Galsim_Spec Galsim_Proofs Galsim2_Proofs Galsim3_Proofs Galsim4_Proofs Galsim6_Proofs GalsimFitter_Model GalsimFitter_Spec.
Import String.StringSyntax.
Local Open Scope R_scope.
Local Open Scope string_scope.
Local Open Scope list_scope.

Section G.
Context {G II : Type} (X : gext G II).

(** models exist where the evaluation goes through *)
Lemma outs_inv m pars ts : Forall (fun t => psf_fits (snd t)) ts -> forall ks, outs X m pars ts = Ok ks ->
  exists ds, Forall2 (fun (t : nat * kobs) d => own_model X m pars (fst t) (snd t) d) ts ds.
Proof.
  induction ts as [|t ts IH]; intros HP ks E; [exists []; constructor|]. inversion HP as [|x xs P1 P2]; subst.
  unfold outs in *. cbn [mapM] in E. destruct (out_with X (gx_draw X) m pars (fst t) (snd t)) as [k|e] eqn:Ek; [|discriminate]. cbn [bind] in E.
  destruct (mapM _ ts) as [ks'|e] eqn:Em; [|discriminate]. destruct (IH P2 ks' eq_refl) as (ds & Hds).
  apply out_iff in Ek; [|exact P1]. destruct Ek as (d & Hd & _). exists (d :: ds). constructor; assumption.
Qed.

(** what calc_fdiff returns, whatever was evaluated before *)
Lemma fdiff_cases h00 h0 m input guess prior F0 pars :
  gfit_init X h00 m input guess prior = (h0, Ok F0) -> valid_input input -> own_metadata F0 ->
  prior_fills prior (gf_n_prior F0) -> List.length pars = gf_npars F0 ->
  exists r, (forall h F, history X h0 F0 input h F -> snd (Galsim_Model.calc_fdiff X h F pars) = r) /\
    ((exists ds pr, Forall2 (fun t d => own_model X m pars (fst t) (snd t) d) (with_bands (gf_obs F0)) ds /\
        prior_residuals prior pars (gf_n_prior F0) (gf_size F0) pr /\ List.length pr = gf_n_prior F0 /\
        r = Ok (pr ++ map Fin (List.concat (map (fun t => residuals (fst t) (snd t)) (combine (List.concat (gf_obs F0)) ds))))) \/
     exists e, r = or_range (Raise e) (repeat LOWVAL (gf_size F0))).
Proof.
  intros Ei V ND Pf Lp. destruct (init_made X _ _ _ _ _ _ _ Ei) as (M & h1 & Eo & Eh). pose proof (input_fits X _ _ _ _ V Eo) as HF.
  destruct M as [Em Ep En Et Es Enp _].
  assert (HP : Forall (fun t => psf_fits (snd t)) (with_bands (gf_obs F0))).
  { apply Forall_forall. intros t Ht. assert (Hi : In (snd t) (List.concat (gf_obs F0))) by (rewrite <- snd_bands; apply in_map; exact Ht).
    revert Hi. generalize (snd t). apply Forall_forall. revert HF. apply Forall_impl. intros ko. unfold fits. tauto. }
  assert (Lp' : (n_before m + 0 + List.length (gf_obs F0) <= List.length pars)%nat) by (rewrite Lp, Enp; destruct m; cbn [get_galsim_npars n_before]; lia).
  assert (St : forall h F, history X h0 F0 input h F -> gf_model F = m /\ gf_obs F = gf_obs F0 /\ gf_prior F = prior /\ gf_size F = gf_size F0 /\
             List.length (gf_buf F) = S (n_before m) /\ ready h (List.concat (gf_obs F0))).
  { intros h F Hh. destruct (history_inv X _ _ _ _ _ _ _ _ _ Ei V ND Hh) as (S1 & Lb & Hr). unfold same_fit in S1. rewrite S1. cbn. rewrite S1 in Lb. auto 8. }
  destruct (outs X m pars (with_bands (gf_obs F0))) as [ks|e] eqn:EO.
  2:{ exists (or_range (as_range (Raise e)) (repeat LOWVAL (gf_size F0))). split.
      - intros h F Hh. destruct (St h F Hh) as (O1 & O2 & O3 & O4 & Lb & Hr). unfold Galsim_Model.calc_fdiff, fill_models. rewrite O1, O2.
        destruct (fill_bands_spec X m pars (gf_obs F0) 0 h (gf_buf F) Lb Lp' HF ND Hr) as (h2 & buf2 & E2 & _). rewrite E2.
        fold (with_bands (gf_obs F0)). rewrite EO. cbn [rmap]. assert (A : exists e', as_range (Raise e : res unit) = Raise e' /\ as_range (Raise e : res (list xr)) = Raise e').
        { destruct e; eexists; split; reflexivity. }
        destruct A as (e' & -> & ->). cbn [snd]. rewrite O4. reflexivity.
      - right. destruct e; eexists; reflexivity. }
  destruct (outs_inv m pars _ HP ks EO) as (ds & Hd).
  assert (Efill : (exists e, match prior with None => Ok (repeat (Fin 0) (gf_size F0), 0%nat) | Some p => jp_fill p (map Fin pars) (repeat (Fin 0) (gf_size F0)) end = Raise e) \/
          exists pr, prior_residuals prior pars (gf_n_prior F0) (gf_size F0) pr /\ List.length pr = gf_n_prior F0).
  { destruct prior as [p|].
    - destruct (jp_fill p (map Fin pars) (repeat (Fin 0) (gf_size F0))) as [[out k]|e] eqn:Ef; [|left; eauto]. right.
      assert (Ln : (gf_n_prior F0 <= List.length (repeat (Fin 0) (gf_size F0)))%nat) by (rewrite repeat_length, Es; lia).
      destruct (Pf _ _ _ _ Ef Ln) as (-> & Lo & _). exists (firstn (gf_n_prior F0) out). split; [exists out; split; [exact Ef|reflexivity]|].
      rewrite firstn_length, Lo. lia.
    - right. cbn in Pf. exists []. split; [reflexivity|]. rewrite Pf. reflexivity. }
  destruct Efill as [(e & Ef)|(pr & Hpr & Lpr)].
  - exists (or_range (Raise e) (repeat LOWVAL (gf_size F0))). split; [|right; eauto].
    intros h F Hh. destruct (St h F Hh) as (O1 & O2 & O3 & O4 & Lb & Hr). unfold Galsim_Model.calc_fdiff, fill_models. rewrite O1, O2.
    destruct (fill_bands_spec X m pars (gf_obs F0) 0 h (gf_buf F) Lb Lp' HF ND Hr) as (h2 & buf2 & E2 & _). rewrite E2.
    fold (with_bands (gf_obs F0)). rewrite EO. cbn [rmap as_range]. unfold g_fill_priors. cbn [gf_prior with_buf gf_size]. rewrite O3, O4, Ef. reflexivity.
  - eexists. split.
    + intros h F Hh. exact (fdiff_ok X _ _ _ _ _ _ _ _ _ _ _ _ Ei V ND Hh Pf Lp Hd Hpr).
    + left. exists ds, pr. auto.
Qed.

(** ** signal to noise: the round models exist where it is calculated *)
Lemma s2n_one_inv m pars b h ko s s' : fits ko -> ready1 h ko -> (n_before m <= List.length pars)%nat ->
  snd (s2n_one X m (bandpars m pars b) h ko s) = Ok s' -> exists d, round_model X m pars b ko d.
Proof.
  intros (Hw & Hp) (_ & (d0 & H2) & _) L. unfold s2n_one. rewrite rounded_band by exact L.
  assert (L4 : (4 <= List.length pars)%nat) by (destruct m; cbn in L; lia).
  rewrite make_model_band by (rewrite rounded_length by exact L4; exact L).
  destruct (profile_of X m (rounded pars) b) as [g|e] eqn:Eg; [|discriminate]. cbn [bind]. unfold meta_kim. rewrite H2. cbn [bind].
  change (draw_on (gx_drawk X) g (is_own ko d0)) with (draw_on (gx_drawk X) g (ko_image ko)). unfold draw_on.
  destruct (gx_drawk X g _ _ _) as [d1|e] eqn:Ed; [|discriminate]. intros _. apply profile_iff in Eg.
  exists (psf_product ko d1), g, d1. auto.
Qed.
Lemma s2n_list_inv (L : list kobs) m pars b : Forall fits L -> NoDup (map ko_meta L) -> (n_before m <= List.length pars)%nat ->
  forall l h s h' s', incl l L -> ready h L -> s2n_list X m (bandpars m pars b) h l s = (h', Ok s') ->
  (exists ds, Forall2 (round_model X m pars b) l ds) /\ ready h' L.
Proof.
  intros HF ND Lp. induction l as [|ko l IH]; intros h s h' s' Hi Hr E; cbn [s2n_list] in E.
  - injection E as <- <-. split; [exists []; constructor|exact Hr].
  - assert (Hk : In ko L) by (apply Hi; left; reflexivity).
    pose proof (touches_one _ _ _ L Hk (s2n_one_touch X m (bandpars m pars b) h ko s (in_fits L HF ko Hk) (in_ready L h ko Hr Hk))) as T.
    pose proof (s2n_one_inv m pars b h ko s) as E1. destruct (s2n_one X m (bandpars m pars b) h ko s) as [h1 [s1|e]]; [|discriminate]. cbn [fst snd] in *.
    destruct (E1 s1 (in_fits L HF ko Hk) (in_ready L h ko Hr Hk) Lp eq_refl) as (d & Hd).
    assert (Hi' : incl l L) by (intros x Hx; apply Hi; right; exact Hx).
    destruct (IH h1 s1 h' s' Hi' (proj2 T ND Hr) E) as ((ds & Hds) & R2). split; [exists (d :: ds); constructor; assumption|exact R2].
Qed.
Lemma s2n_bands_inv (L : list kobs) m pars : Forall fits L -> NoDup (map ko_meta L) ->
  forall obs b h buf s h' buf' s', List.length buf = S (n_before m) -> (n_before m + b + List.length obs <= List.length pars)%nat ->
  incl (List.concat obs) L -> ready h L -> s2n_bands X m pars buf b h obs s = (h', buf', Ok s') ->
  exists ds, Forall2 (fun t d => round_model X m pars (fst t) (snd t) d) (bands_from b obs) ds.
Proof.
  intros HF ND. induction obs as [|l obs IH]; intros b h buf s h' buf' s' Lb Lp Hi Hr E; [exists []; constructor|].
  cbn [s2n_bands List.concat List.length] in *. rewrite fill_band_ok in E by (exact Lb || lia). apply incl_concat in Hi as [Hi1 Hi2].
  destruct (s2n_list X m (bandpars m pars b) h l s) as [h1 [s1|e]] eqn:E1; [|discriminate].
  destruct (s2n_list_inv L m pars b HF ND ltac:(lia) l h s h1 s1 Hi1 Hr E1) as ((d1 & H1) & R1).
  destruct (IH (S b) h1 (bandpars m pars b) s1 h' buf' s') as (d2 & H2); [apply bandpars_length; lia|lia|exact Hi2|exact R1|exact E|].
  exists (d1 ++ d2). rewrite bands_from_cons. apply Forall2_app; [|exact H2]. clear - H1. induction H1; constructor; assumption.
Qed.
Lemma s2n_inv h00 h0 m input guess prior F0 h F pars s :
  gfit_init X h00 m input guess prior = (h0, Ok F0) -> valid_input input -> own_metadata F0 -> history X h0 F0 input h F ->
  List.length pars = gf_npars F0 -> snd (calc_s2n_r X h F pars) = Ok s ->
  exists ds, Forall2 (fun t d => round_model X m pars (fst t) (snd t) d) (with_bands (gf_obs F0)) ds /\
    s = sqrt (Rmax 0 (gal_power (gf_obs F0) ds)).
Proof.
  intros Ei V ND Hh Lp E. destruct (init_made X _ _ _ _ _ _ _ Ei) as (M & h1 & Eo & Eh). pose proof (input_fits X _ _ _ _ V Eo) as HF.
  destruct (history_inv X _ _ _ _ _ _ _ _ _ Ei V ND Hh) as (S1 & Lb & Hr). destruct M as [Em Ep En Et Es Enp _].
  unfold same_fit in S1. assert (EOm : gf_model F = m /\ gf_obs F = gf_obs F0) by (rewrite S1; cbn; auto). destruct EOm as (O1 & O2).
  assert (Lp' : (n_before m + 0 + List.length (gf_obs F0) <= List.length pars)%nat) by (rewrite Lp, Enp; destruct m; cbn [get_galsim_npars n_before]; lia).
  assert (X0 : exists ds, Forall2 (fun t d => round_model X m pars (fst t) (snd t) d) (with_bands (gf_obs F0)) ds).
  { unfold calc_s2n_r in E. rewrite O1, O2 in E.
    destruct (s2n_bands X m pars (gf_buf F) 0 h (gf_obs F0) 0) as [[h2 b2] [s1|e]] eqn:E2; [|discriminate].
    exact (s2n_bands_inv _ m pars HF ND _ _ _ _ _ _ _ _ Lb Lp' (incl_refl _) Hr E2). }
  destruct X0 as (ds & Hd). exists ds. split; [exact Hd|]. pose proof (s2n_ok X _ _ _ _ _ _ _ _ _ _ _ Ei V ND Hh Lp Hd) as Q. rewrite Q in E. injection E as <-. reflexivity.
Qed.
End G.

Section Go.
Context {G II : Type} (X : gext G II).
Variable lmdif : (vec -> resx vec) -> vec -> nat -> resx lmret.
Variable leastsq : (vec -> resx vec) -> vec -> nat -> resx lmtup.
Variable inv : omat -> option omat.
Variable eig : nat -> (nat -> nat -> R) -> option (list R).
Variable message : Z -> String.string.
Variable odd : vec -> resx vec.
Notation GO := (galsim_go X lmdif leastsq inv eig message odd).

Lemma after_history h0 F0 input hist : forall h F, history X h0 F0 input h F ->
  history X h0 F0 input (fst (gafter X hist (h, F))) (snd (gafter X hist (h, F))).
Proof.
  induction hist as [|p hist IH]; intros h F H; [exact H|]. cbn [gafter fold_left fst snd].
  destruct (Galsim_Model.calc_fdiff X h F p) as [[h1 F1] r] eqn:E. cbn [fst]. apply IH. eapply hi_fdiff; eassumption.
Qed.

Lemma all_residuals_length l : forall ds, List.length l = List.length ds ->
  List.length (List.concat (map (fun t => residuals (fst t) (snd t)) (combine l ds))) = (2 * list_sum (map own_size l))%nat.
Proof.
  induction l as [|k l IH]; intros [|d ds] L; try discriminate; [reflexivity|]. cbn [combine map List.concat fst snd]. rewrite app_length, residuals_length.
  cbn [list_sum fold_right map]. fold (list_sum (map own_size l)). rewrite IH by (cbn in L; lia). lia.
Qed.
Lemma good_gfit h m prior maxfev hist input guess h' out :
  known_status leastsq -> eig_complete eig -> minimizer_shapes lmdif leastsq inv -> valid_input input ->
  GO h m prior maxfev hist input guess = Some (OkX (h', out)) -> dget (go_dict out) "flags" = Some (LInt 0) ->
  let K := gf_obs (go_fit out) in
  own_metadata (go_fit out) -> prior_fills prior (n_prior_of m prior (length K)) -> (0 < points K)%nat ->
  exists pars r ds pr dr cov0 cov errs,
    observations_of X h input K /\
    dget (go_dict out) "pars" = Some (LVec (map Some pars)) /\ length pars = gal_pars m K /\ go_res out = Some r /\
    Forall2 (fun t d => own_model X m pars (fst t) (snd t) d) (with_bands K) ds /\
    prior_residuals prior pars (n_prior_of m prior (length K)) (n_prior_of m prior (length K) + 2 * points K) pr /\
    let dof := (Z.of_nat (points K) - Z.of_nat (gal_pars m K))%Z in
    dof <> 0%Z /\
    dget (go_dict out) "pars_cov0" = Some (LMat (Some cov0)) /\ dget (go_dict out) "pars_cov" = Some (LMat (Some cov)) /\
    (forall i j, (i < gal_pars m K)%nat -> (j < gal_pars m K)%nat ->
       exists c, at2 cov0 i j = Some c /\ at2 cov i j = Some (c * (gal_chi2 K ds / IZR dof))) /\
    dget (go_dict out) "pars_err" = Some (LVec (map Some errs)) /\ length errs = gal_pars m K /\
    (forall i v, (i < gal_pars m K)%nat -> at2 cov i i = Some v -> 0 <= v /\ nth_error errs i = Some (sqrt v)) /\
    gr_g r = [par pars 2; par pars 3] /\ gr_g_err r = [par errs 2; par errs 3] /\
    Forall2 (fun t d => round_model X m pars (fst t) (snd t) d) (with_bands K) dr /\ gr_s2n_r r = sqrt (Rmax 0 (gal_power K dr)) /\
    (is_simple m -> forall b, (b < length K)%nat ->
       result_flux (gr_flux r) b = Some (par pars (5 + b)) /\ result_flux_err (gr_flux r) b = Some (Fin (par errs (5 + b)))) /\
    (forall bounds, match prior with Some p => jp_bounds p | None => None end = Some bounds ->
       Forall consistent (map bound_of bounds) -> inside (map bound_of bounds) (map Some pars)).
Proof.
  intros Hks Hec Hsh V H Hfl K ND Pf Hpt. unfold galsim_go in H.
  destruct (gfit_init X h m input guess prior) as [h0 [F0|e]] eqn:EF; [|discriminate].
  destruct (bounds_arg (g_bounds prior)) as [bounds|e] eqn:EB; [|discriminate].
  destruct (run_leastsq lmdif leastsq inv eig message (gfdiff_func X odd h0 F0) (map Some guess) (gf_n_prior F0) true bounds maxfev) as [d|e b] eqn:ER; [|discriminate].
  pose proof (after_history h0 F0 input hist h0 F0 (hi_new X h0 F0 input)) as Ha.
  destruct (gafter X hist (h0, F0)) as [h1 F1]. cbn [fst snd] in Ha.
  destruct (init_made X _ _ _ _ _ _ _ EF) as (M & h2 & Eo & Eh). destruct M as [Em Ep En Et Es Enp Eb].
  (* the observations are those of the first state *)
  assert (Eg : length guess = gf_npars F0).
  { unfold gfit_init in EF. destruct (match input with InReal obs => make_kobs X h obs | InK obs => (h, Ok obs) end) as [h3 [obs|e]] eqn:E3; [|discriminate].
    unfold check_guess in EF. destruct (Nat.eqb_spec (length guess) (gf_npars (fit_new m prior obs))) as [E|]; cbn [negb] in EF; [|discriminate].
    destruct (check_bands X _ _ guess _) as [b [[]|e]]; [|discriminate]. cbn [bind] in EF. assert (F0 = with_buf (fit_new m prior obs) b) as -> by congruence. exact E. }
  assert (Ed : go_dict out = d /\ gf_obs (go_fit out) = gf_obs F1).
  { unfold finish_gfit in H. unfold Galsim_Model.set_fit_result in H.
    repeat match type of H with
           | context [calc_s2n_r X h1 F1 ?p] => destruct (calc_s2n_r X h1 F1 p) as [[h3 F3] r3] eqn:E3
           | context [match ?x with _ => _ end] => destruct x; try discriminate H
           end; injection H as <- <-; cbn [go_dict go_fit]; try (split; reflexivity).
    split; [reflexivity|]. unfold calc_s2n_r in E3. destruct (s2n_bands X _ _ _ _ _ _ _) as [[? ?] ?]. injection E3 as _ <- _. reflexivity. }
  destruct Ed as (Ed & EK). fold K in EK. rewrite Ed in *. clear Ed.
  assert (ND0 : own_metadata F0 -> gf_obs F1 = gf_obs F0).
  { intros N. destruct (history_inv X _ _ _ _ _ _ _ _ _ EF V N Ha) as (S1 & _). unfold same_fit in S1. rewrite S1. reflexivity. }
  assert (EK0 : K = gf_obs F0).
  { rewrite EK. clear - Ha. induction Ha; try congruence.
    - unfold Galsim_Model.calc_fdiff, fill_models in H. destruct (fill_bands X _ _ _ _ _ _) as [[? ?] r1]. destruct (as_range r1) as [[]|].
      + destruct (g_fill_priors _ _ _) as [[? ?]|]; [|injection H as _ <- _; exact IHHa]. destruct (diff_list _ _ _ _). injection H as _ <- _. exact IHHa.
      + injection H as _ <- _. exact IHHa.
    - unfold calc_s2n_r in H. destruct (s2n_bands X _ _ _ _ _ _ _) as [[? ?] ?]. injection H as _ <- _. exact IHHa.
    - unfold Galsim_Model.get_band_pars in H. destruct (fill_band _ _ _ _). injection H as <- _. exact IHHa. }
  assert (ND' : own_metadata F0) by (unfold own_metadata in *; fold K in ND; rewrite EK0 in ND; exact ND).
  rewrite EK0 in *. clear K EK EK0 ND ND0. set (K := gf_obs F0) in *.
  assert (En' : gf_npars F0 = gal_pars m K) by (rewrite Enp; destruct m; reflexivity).
  rewrite <- En in *. 
  destruct (zero_flags lmdif leastsq inv eig message _ _ _ _ _ _ _ Hks Hec ER Hfl)
    as (tup & cov0 & fdiff & n & P & Etup & _ & Ecov & Efd & Hdof & Nr & Nc & Hres & Hpos & _ & Dp & Dc0 & (pcov & Dc & Pr & Pc & Pat) & De).
  destruct (lsb_shapes lmdif leastsq inv message _ _ _ _ _ Hsh Etup) as [Lx Lc]. rewrite map_length in Lx, Lc. specialize (Lc _ Ecov). rewrite Nr, Eg, En' in Lc. subst n. rename Lc into Ln.
  rewrite Eg, En' in Lx. rewrite Ln in *.
  unfold finish_gfit in H. rewrite (kget_dget d "flags"), (kget_dget d "pars"), (kget_dget d "pars_err"), (kget_dget d "pars_cov"), Hfl, Dp, Dc, De in H.
  destruct (all_some (tp_x tup)) as [pars|] eqn:Epx; [|discriminate]. pose proof (all_some_eq _ _ Epx) as Ex.
  destruct (all_some (map _ _)) as [errs|] eqn:Ee; [|discriminate]. pose proof (all_some_eq _ _ Ee) as Eer.
  destruct (finite_mat pcov) as [pc|] eqn:Epc; [|discriminate].
  destruct (Galsim_Model.set_fit_result X h1 F1 pars errs pc) as [[h3 F3] r0] eqn:Esr.
  destruct r0 as [r|]; [|discriminate]. injection H as <- <-. cbn [go_fit go_dict go_res] in *.
  assert (Lp : length pars = gal_pars m K) by (rewrite <- Lx, Ex, map_length; reflexivity).
  assert (Lp0 : length pars = gf_npars F0) by congruence.
  assert (N0 : (0 < gal_pars m K)%nat) by (unfold gal_pars; destruct m; cbn [shared]; lia).
  destruct (Hres N0) as (residuals0 & C0 & Sk & Cs). clear Hres.
  (* the residuals at the solution *)
  unfold gfdiff_func in Efd. rewrite Epx in Efd. destruct (snd (Galsim_Model.calc_fdiff X h0 F0 pars)) as [fd|] eqn:Efx; [|discriminate]. injection Efd as <-.
  destruct (fdiff_cases X _ _ _ _ _ _ _ pars EF V ND' Pf Lp0) as (rr & Hall & Hrr).
  rewrite (Hall h0 F0 (hi_new X h0 F0 input)) in Efx. subst rr.
  assert (Tt : gf_size F0 = (gf_n_prior F0 + 2 * points K)%nat) by (rewrite Es; reflexivity).
  destruct Hrr as [(ds & pr & Hd & Hpr & Lpr & Erx)|(e & Erx)].
  2:{ exfalso. assert (fd = repeat LOWVAL (gf_size F0)) by (destruct e; cbn in Erx; congruence). subst fd.
      assert (Q : nth_error (map Some residuals0) 0 = Some None).
      { rewrite <- Sk, map_rep, Tt. replace (gf_n_prior F0 + 2 * points K)%nat with (gf_n_prior F0 + S (2 * points K - 1))%nat by lia. rewrite repeat_app.
        rewrite skipn_app, repeat_length, Nat.sub_diag, skipn_all2 by (rewrite repeat_length; lia). reflexivity. }
      destruct residuals0; discriminate Q. }
  injection Erx as ->. fold K in Hd, Hdof, Sk, Cs.
  set (resid := List.concat (map (fun t => residuals (fst t) (snd t)) (combine (List.concat K) ds))) in *.
  assert (Lr : length resid = (2 * points K)%nat).
  { unfold resid. rewrite all_residuals_length; [reflexivity|]. rewrite <- (snd_bands K), map_length. exact (Forall2_length _ _ _ Hd). }
  assert (Lfd : length (map of_xr (pr ++ map Fin resid)) = (gf_n_prior F0 + 2 * points K)%nat) by (rewrite map_length, app_length, map_length, Lpr, Lr; reflexivity).
  rewrite Lfd in Hdof, Cs. rewrite map_length, Eg, En' in Hdof, Cs.
  assert (Edeg : degrees true (gf_n_prior F0 + 2 * points K) (gf_n_prior F0) (gal_pars m K) = (Z.of_nat (points K) - Z.of_nat (gal_pars m K))%Z).
  { unfold degrees. f_equal. replace (Z.of_nat (gf_n_prior F0 + 2 * points K) - Z.of_nat (gf_n_prior F0))%Z with (Z.of_nat (points K) * 2)%Z by lia. apply Z.div_mul. lia. }
  rewrite Edeg in Hdof, Cs.
  assert (Eres : residuals0 = resid).
  { apply map_some_inj. rewrite <- Sk, map_app, map_map. rewrite <- Lpr, <- (map_length of_xr pr). rewrite skipn_app, Nat.sub_diag, skipn_all. reflexivity. }
  assert (Ech : chi2 residuals0 = gal_chi2 K ds).
  { rewrite Eres. unfold chi2, gal_chi2, resid. rewrite <- all_residuals_sq. reflexivity. }
  destruct (shape_result X _ _ _ _ _ _ _ _ Esr) as (G1 & G2 & _ & h4 & F4 & G4).
  assert (Q4 : snd (calc_s2n_r X h1 F1 pars) = Ok (gr_s2n_r r)) by (rewrite G4; reflexivity).
  destruct (s2n_inv X _ _ _ _ _ _ _ _ _ _ _ EF V ND' Ha Lp0 Q4) as (dr & Hdr & Es2).
  assert (Le : length errs = gal_pars m K) by (rewrite <- (map_length Some errs), <- Eer, map_length, seq_length; reflexivity).
  assert (Qe : forall i, (i < gal_pars m K)%nat -> nth_error errs i = Some (sqrt (P i i))).
  { intros i Hi. assert (Q : nth_error (map Some errs) i = Some (Some (sqrt (P i i)))).
    { rewrite <- Eer. rewrite nth_error_map, nth_error_nth' with (d := 0%nat) by (rewrite seq_length; exact Hi). rewrite seq_nth by exact Hi. reflexivity. }
    rewrite nth_error_map in Q. destruct (nth_error errs i); [|discriminate]. cbn in Q. congruence. }
  exists pars, r, ds, pr, dr, cov0, pcov, errs. cbv zeta.
  split. { unfold observations_of. destruct input as [l|l]; cbn [observations] in Eo; [rewrite Eo; reflexivity|injection Eo as _ Eo; symmetry; exact Eo]. }
  split; [rewrite Dp, Ex; reflexivity|]. split; [exact Lp|]. split; [reflexivity|]. split; [exact Hd|]. split; [rewrite <- Tt; exact Hpr|].
  split; [exact Hdof|]. split; [exact Dc0|]. split; [exact Dc|].
  split. { intros i j Hi Hj. destruct (Cs i j Hi Hj) as [Q1 Q2]. exists (C0 i j). split; [exact Q1|]. rewrite (Pat i j Hi Hj), Q2, Ech. reflexivity. }
  split; [rewrite De, Eer; reflexivity|]. split; [exact Le|].
  split. { intros i v Hi Hv. rewrite (Pat i i Hi Hi) in Hv. injection Hv as <-. split; [apply Hpos; exact Hi|apply Qe; exact Hi]. }
  assert (F5 : forall l : list R, (5 <= length l)%nat -> firstn 2 (skipn 2 l) = [par l 2; par l 3]).
  { intros l Hl. destruct l as [|a0 [|a1 [|a2 [|a3 l]]]]; try (cbn in Hl; lia). reflexivity. }
  assert (N5 : (5 <= gal_pars m K)%nat) by (unfold gal_pars; destruct m; cbn [shared]; lia).
  split; [rewrite G1; apply F5; lia|]. split; [rewrite G2; apply F5; lia|]. split; [exact Hdr|]. split; [exact Es2|].
  split.
  { intros Hm b Hb. assert (Q : nrow pc = gf_npars F0 /\ ncol pc = gf_npars F0 /\ forall i j, at2 pc i j = oval (at2 pcov i j)).
    { unfold finite_mat in Epc. destruct (forallb is_fin (all_cells pcov)); [|discriminate]. injection Epc as <-. cbn [nrow ncol at2]. rewrite Pr, Pc, En'. auto. }
    destruct Q as (Q1 & Q2 & Q3). destruct (result_flux_at5 X _ _ _ _ _ _ _ _ _ _ _ _ _ _ _ b EF V ND' Ha Lp0 Q1 Q2 Esr Hb) as (U1 & U2).
    split; [exact U1|]. rewrite U2. assert (Hi : (5 + b < gal_pars m K)%nat) by (unfold gal_pars; destruct m; cbn [shared]; lia).
    rewrite Q3, (Pat _ _ Hi Hi). cbn [oval]. unfold par. rewrite (nth_error_nth _ _ _ (Qe _ Hi)). cbn [xsqrt]. 
    pose proof (Hpos _ Hi). rewrite Rltb_f by lra. reflexivity. }
  intros bs Hb Hc. unfold g_bounds in EB. rewrite Hb in EB. cbn in EB. destruct (mapM unpack_bound bs) as [bl|] eqn:Ebl; [|discriminate]. injection EB as <-.
  assert (bl = map bound_of bs).
  { clear - Ebl. revert bl Ebl. induction bs as [|b bs IH]; intros bl H; cbn in H; [injection H as <-; reflexivity|]. destruct b as [lo hi|lo hi]; [|discriminate].
    cbn in H. destruct (mapM unpack_bound bs) as [l|]; [|discriminate]. injection H as <-. cbn. f_equal. apply IH. reflexivity. }
  subst bl. rewrite <- Ex. exact (fit_inside _ _ _ _ _ _ _ _ _ (proj1 Hsh) Hc Etup).
Qed.

Lemma failed_gfit h m prior maxfev hist input guess h' out : GO h m prior maxfev hist input guess = Some (OkX (h', out)) ->
  (dget (go_dict out) "flags" = Some (LInt 0) <-> go_res out <> None).
Proof.
  unfold galsim_go. destruct (gfit_init X h m input guess prior) as [h0 [F0|e]]; [|discriminate].
  destruct (bounds_arg (g_bounds prior)) as [bounds|e]; [|discriminate].
  destruct (run_leastsq lmdif leastsq inv eig message (gfdiff_func X odd h0 F0) (map Some guess) (gf_n_prior F0) true bounds maxfev) as [d|e b]; [|discriminate].
  destruct (gafter X hist (h0, F0)) as [h1 F1]. unfold finish_gfit. rewrite (kget_dget d "flags"). intros H.
  destruct (dget d "flags") as [[[| |]| | |]|] eqn:Ef;
    try (injection H as <- <-; cbn [go_dict go_res]; rewrite Ef; split; [discriminate|congruence]).
  repeat match type of H with context [match ?x with _ => _ end] => destruct x; try discriminate H end;
    injection H as <- <-; cbn [go_dict go_res]; rewrite Ef; split; [discriminate|reflexivity].
Qed.
End Go.

Lemma terms_count m prior obs : n_prior_of m prior (length obs) = gal_terms m prior obs.
Proof. unfold n_prior_of, gal_terms, gal_pars. destruct prior; [|reflexivity]. destruct m; cbn [shared]; lia. Qed.
Lemma no_memory {G II} (X : gext G II) h00 h0 m input guess prior F0 pars h F :
  gfit_init X h00 m input guess prior = (h0, Ok F0) -> valid_input input -> own_metadata F0 -> prior_fills prior (gf_n_prior F0) -> length pars = gf_npars F0 ->
  history X h0 F0 input h F -> snd (Galsim_Model.calc_fdiff X h F pars) = snd (Galsim_Model.calc_fdiff X h0 F0 pars).
Proof.
  intros EF V ND Pf Lp H. destruct (fdiff_cases X _ _ _ _ _ _ _ pars EF V ND Pf Lp) as (r & Hall & _).
  rewrite (Hall _ _ H), (Hall _ _ (hi_new X h0 F0 input)). reflexivity.
Qed.
Lemma no_memory_spec {G II} (X : gext G II) h00 h0 m input guess prior F0 pars h F :
  gfit_init X h00 m input guess prior = (h0, Ok F0) -> valid_input input -> own_metadata F0 ->
  prior_fills prior (gal_terms m prior (gf_obs F0)) -> length pars = gal_pars m (gf_obs F0) ->
  history X h0 F0 input h F -> snd (Galsim_Model.calc_fdiff X h F pars) = snd (Galsim_Model.calc_fdiff X h0 F0 pars).
Proof.
  intros EF V ND Pf Lp H. destruct (init_made X _ _ _ _ _ _ _ EF) as ([Em Ep En Et Es Enp Eb] & _).
  rewrite <- terms_count, <- En in Pf. apply (no_memory X h00 h0 m input guess prior F0); try assumption. rewrite Lp, Enp. destruct m; reflexivity.
Qed.
