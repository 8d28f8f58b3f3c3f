(** Fits with galsim: residuals, signal to noise, metadata, results. *)
From Verif Require Import Base XReal Jacobian_Model Pixels_Model Priors_Model Joint_Model Fit_Model Fit_Spec Galsim_Model Galsim_Spec Galsim_Proofs Galsim2_Proofs Galsim3_Proofs.
From Coq Require Import String.
Local Open Scope R_scope.

Lemma Forall2_length {A B} (P : A -> B -> Prop) l l' : Forall2 P l l' -> List.length l = List.length l'.
Proof. induction 1; cbn; congruence. Qed.

Section G.
Context {G II : Type} (X : gext G II).

(** ** C112 *)
Lemma outs_of m pars ts ds : Forall (fun t => psf_fits (snd t)) ts -> Forall2 (fun (t : nat * kobs) d => own_model X m pars (fst t) (snd t) d) ts ds ->
  outs X m pars ts = Ok (map (fun p => is_own (snd (fst p)) (snd p)) (combine ts ds)).
Proof.
  intros HP H. induction H as [|t d ts ds Hd _ IH]; [reflexivity|]. inversion HP as [|x xs P1 P2]; subst. unfold outs in *. cbn [mapM combine map fst snd].
  assert (E : out_with X (gx_draw X) m pars (fst t) (snd t) = Ok (is_own (snd t) d)) by (apply out_iff; [exact P1|exists d; auto]). rewrite E. cbn [bind].
  rewrite IH by exact P2. reflexivity.
Qed.
Lemma Forall2_snd {A B C} (P : B -> C -> Prop) (l : list (A * B)) ds : Forall2 (fun t d => P (snd t) d) l ds -> Forall2 P (map snd l) ds.
Proof. induction 1; constructor; assumption. Qed.
Lemma combine_holds h ts ds : List.length ts = List.length ds ->
  Forall2 (holds_model h) (map snd ts) (map (fun p : (nat * kobs) * drawn => is_own (snd (fst p)) (snd p)) (combine ts ds)) ->
  Forall2 (fun ko d => holds_model h ko (is_own ko d)) (map snd ts) ds.
Proof.
  revert ds. induction ts as [|t ts IH]; intros [|d ds] L H; try discriminate; [constructor|]. cbn [map combine] in H. inversion H; subst.
  constructor; [assumption|]. apply IH; [cbn in L; lia|assumption].
Qed.
Lemma snd_bands {A} (obs : list (list A)) : map snd (with_bands obs) = List.concat obs.
Proof. apply bands_from_snd. Qed.

Lemma fdiff_ok h00 h0 m input guess prior F0 h F pars ds pr :
  gfit_init X h00 m input guess prior = (h0, Ok F0) -> valid_input input -> own_metadata F0 -> history X h0 F0 input h F ->
  prior_fills prior (gf_n_prior F0) -> List.length pars = gf_npars F0 ->
  Forall2 (fun t d => own_model X m pars (fst t) (snd t) d) (with_bands (gf_obs F0)) ds ->
  prior_residuals prior pars (gf_n_prior F0) (gf_size F0) pr ->
  snd (calc_fdiff X h F pars) = Ok (pr ++ map Fin (List.concat (map (fun t => residuals (fst t) (snd t)) (combine (List.concat (gf_obs F0)) ds))))%list.
Proof.
  intros Ei V ND Hh Pf Lp Hd Hpr. destruct (init_made X _ _ _ _ _ _ _ Ei) as (M & h1 & Eo & Eh). pose proof (input_fits X _ _ _ _ V Eo) as HF.
  destruct (history_inv X _ _ _ _ _ _ _ _ _ Ei V ND Hh) as (S1 & Lb & Hr). destruct M as [Em Ep En Et Es Enp _].
  unfold same_fit in S1. rewrite Enp in Lp.
  assert (EOm : gf_model F = m /\ gf_obs F = gf_obs F0 /\ gf_prior F = prior /\ gf_size F = gf_size F0) by (rewrite S1; cbn; auto).
  destruct EOm as (O1 & O2 & O3 & O4).
  unfold calc_fdiff, fill_models. rewrite O1, O2.
  assert (Lp' : (n_before m + 0 + List.length (gf_obs F0) <= List.length pars)%nat) by (rewrite Lp; destruct m; cbn [get_galsim_npars n_before]; lia).
  destruct (fill_bands_spec X m pars (gf_obs F0) 0 h (gf_buf F) Lb Lp' HF ND Hr) as (h2 & buf2 & E2 & _ & U2 & R2 & K2). rewrite E2.
  fold (with_bands (gf_obs F0)) in K2 |- *.
  assert (HP : Forall (fun t => psf_fits (snd t)) (with_bands (gf_obs F0))).
  { apply Forall_forall. intros t Ht. assert (Hi : In (snd t) (List.concat (gf_obs F0))) by (rewrite <- snd_bands; apply in_map; exact Ht).
    revert Hi. generalize (snd t). apply Forall_forall. revert HF. apply Forall_impl. intros ko. unfold fits. tauto. }
  pose proof (outs_of m pars _ ds HP Hd) as EO. rewrite EO in K2 |- *. cbn [rmap as_range]. specialize (K2 _ eq_refl). rewrite <- snd_bands in K2.
  apply combine_holds in K2; [|apply (Forall2_length _ _ _ Hd)]. rewrite snd_bands in K2.
  unfold g_fill_priors. cbn [gf_prior with_buf gf_size gf_obs]. rewrite O2, O3, O4.
  assert (Lsz : list_sum (map own_size (List.concat (gf_obs F0))) = totpix_of (gf_obs F0)) by reflexivity.
  assert (Epre : exists out, match prior with None => Ok (repeat (Fin 0) (gf_size F0), 0%nat) | Some p => jp_fill p (map Fin pars) (repeat (Fin 0) (gf_size F0)) end = Ok (out, gf_n_prior F0) /\
            firstn (gf_n_prior F0) out = pr /\ List.length out = gf_size F0).
  { destruct prior as [p|].
    - destruct Hpr as (out & Eout & ->). exists out. split; [exact Eout|]. split; [reflexivity|].
      destruct (Pf _ _ _ _ Eout) as (_ & Lo & _); [rewrite repeat_length, Es; lia|]. rewrite Lo, repeat_length. reflexivity.
    - cbn in Pf, Hpr. rewrite Pf. exists (repeat (Fin 0) (gf_size F0)). rewrite repeat_length. subst pr. auto. }
  destruct Epre as (out & Eout & Efn & Lo). rewrite Eout.
  pose proof (firstn_skipn (gf_n_prior F0) out) as Eo'. rewrite <- Eo', Efn.
  assert (Lpr : List.length pr = gf_n_prior F0) by (rewrite <- Efn, firstn_length; lia).
  rewrite <- (app_nil_r (skipn (gf_n_prior F0) out)). rewrite <- Lpr at 2.
  destruct (diff_list_spec (List.concat (gf_obs F0)) h2 ds pr (skipn (gf_n_prior F0) out) [] HF ND R2 K2) as (h3 & n & E3).
  { rewrite skipn_length, Lsz. lia. }
  rewrite E3. cbn [snd rmap fst or_range]. rewrite app_nil_r. reflexivity.
Qed.

Lemma fdiff_prior_refused h00 h0 m input guess p F0 h F pars ds :
  gfit_init X h00 m input guess (Some p) = (h0, Ok F0) -> valid_input input -> own_metadata F0 -> history X h0 F0 input h F ->
  List.length pars = gf_npars F0 ->
  Forall2 (fun t d => own_model X m pars (fst t) (snd t) d) (with_bands (gf_obs F0)) ds ->
  jp_fill p (map Fin pars) (repeat (Fin 0) (gf_size F0)) = Raise GMixRangeError ->
  snd (calc_fdiff X h F pars) = Ok (repeat LOWVAL (gf_size F0)).
Proof.
  intros Ei V ND Hh Lp Hd Hpr. destruct (init_made X _ _ _ _ _ _ _ Ei) as (M & h1 & Eo & Eh). pose proof (input_fits X _ _ _ _ V Eo) as HF.
  destruct (history_inv X _ _ _ _ _ _ _ _ _ Ei V ND Hh) as (S1 & Lb & Hr). destruct M as [Em Ep En Et Es Enp _].
  unfold same_fit in S1. rewrite Enp in Lp.
  assert (EOm : gf_model F = m /\ gf_obs F = gf_obs F0 /\ gf_prior F = Some p /\ gf_size F = gf_size F0) by (rewrite S1; cbn; auto).
  destruct EOm as (O1 & O2 & O3 & O4).
  unfold calc_fdiff, fill_models. rewrite O1, O2.
  assert (Lp' : (n_before m + 0 + List.length (gf_obs F0) <= List.length pars)%nat) by (rewrite Lp; destruct m; cbn [get_galsim_npars n_before]; lia).
  destruct (fill_bands_spec X m pars (gf_obs F0) 0 h (gf_buf F) Lb Lp' HF ND Hr) as (h2 & buf2 & E2 & _). rewrite E2.
  fold (with_bands (gf_obs F0)).
  assert (HP : Forall (fun t => psf_fits (snd t)) (with_bands (gf_obs F0))).
  { apply Forall_forall. intros t Ht. assert (Hi : In (snd t) (List.concat (gf_obs F0))) by (rewrite <- snd_bands; apply in_map; exact Ht).
    revert Hi. generalize (snd t). apply Forall_forall. revert HF. apply Forall_impl. intros ko. unfold fits. tauto. }
  rewrite (outs_of m pars _ ds HP Hd). cbn [rmap as_range]. unfold g_fill_priors. cbn [gf_prior with_buf gf_size]. rewrite O3, O4, Hpr. reflexivity.
Qed.

Lemma outs_refused m pars ts : Forall (fun t => psf_fits (snd t)) ts ->
  Forall (fun t : nat * kobs => (exists d, own_model X m pars (fst t) (snd t) d) \/ refused X m pars (fst t) (snd t)) ts ->
  Exists (fun t => refused X m pars (fst t) (snd t)) ts -> exists e, outs X m pars ts = Raise e /\ (e = GMixRangeError \/ e = RuntimeError).
Proof.
  induction ts as [|t ts IH]; intros HP H Ex; [inversion Ex|]. inversion HP as [|x xs P1 P2]; subst. inversion H as [|x xs H1 H2]; subst.
  unfold outs in *. cbn [mapM]. destruct H1 as [(d & Hd)|Hr].
  - assert (E : out_with X (gx_draw X) m pars (fst t) (snd t) = Ok (is_own (snd t) d)) by (apply out_iff; [exact P1|exists d; auto]). rewrite E. cbn [bind].
    assert (Ex' : Exists (fun t => refused X m pars (fst t) (snd t)) ts).
    { inversion Ex as [x xs Hr|x xs Hr]; subst; [|exact Hr]. exfalso. destruct (refused_out X _ _ _ _ Hr) as (e & Ee & _). congruence. }
    destruct (IH P2 H2 Ex') as (e & -> & He). exists e. auto.
  - destruct (refused_out X _ _ _ _ Hr) as (e & -> & He). exists e. auto.
Qed.
Lemma fdiff_refused h00 h0 m input guess prior F0 h F pars :
  gfit_init X h00 m input guess prior = (h0, Ok F0) -> valid_input input -> own_metadata F0 -> history X h0 F0 input h F ->
  List.length pars = gf_npars F0 ->
  Forall (fun t => (exists d, own_model X m pars (fst t) (snd t) d) \/ refused X m pars (fst t) (snd t)) (with_bands (gf_obs F0)) ->
  Exists (fun t => refused X m pars (fst t) (snd t)) (with_bands (gf_obs F0)) ->
  snd (calc_fdiff X h F pars) = Ok (repeat LOWVAL (gf_size F0)).
Proof.
  intros Ei V ND Hh Lp Ha Hx. destruct (init_made X _ _ _ _ _ _ _ Ei) as (M & h1 & Eo & Eh). pose proof (input_fits X _ _ _ _ V Eo) as HF.
  destruct (history_inv X _ _ _ _ _ _ _ _ _ Ei V ND Hh) as (S1 & Lb & Hr). destruct M as [Em Ep En Et Es Enp _].
  unfold same_fit in S1. rewrite Enp in Lp.
  assert (EOm : gf_model F = m /\ gf_obs F = gf_obs F0 /\ gf_size F = gf_size F0) by (rewrite S1; cbn; auto).
  destruct EOm as (O1 & O2 & O4).
  unfold calc_fdiff, fill_models. rewrite O1, O2.
  assert (Lp' : (n_before m + 0 + List.length (gf_obs F0) <= List.length pars)%nat) by (rewrite Lp; destruct m; cbn [get_galsim_npars n_before]; lia).
  destruct (fill_bands_spec X m pars (gf_obs F0) 0 h (gf_buf F) Lb Lp' HF ND Hr) as (h2 & buf2 & E2 & _). rewrite E2.
  fold (with_bands (gf_obs F0)).
  assert (HP : Forall (fun t => psf_fits (snd t)) (with_bands (gf_obs F0))).
  { apply Forall_forall. intros t Ht. assert (Hi : In (snd t) (List.concat (gf_obs F0))) by (rewrite <- snd_bands; apply in_map; exact Ht).
    revert Hi. generalize (snd t). apply Forall_forall. revert HF. apply Forall_impl. intros ko. unfold fits. tauto. }
  destruct (outs_refused m pars _ HP Ha Hx) as (e & -> & [->| ->]); cbn [rmap as_range snd or_range]; rewrite O4; reflexivity.
Qed.

(** ** C118: signal to noise *)
Lemma rounded_band m pars b : (n_before m <= List.length pars)%nat ->
  (firstn 2 (bandpars m pars b) ++ [0; 0] ++ skipn 4 (bandpars m pars b))%list = bandpars m (rounded pars) b.
Proof.
  intros L. assert (Hk : (5 <= n_before m)%nat) by (destruct m; cbn; lia).
  destruct pars as [|p0 [|p1 [|p2 [|p3 rest]]]]; try (cbn [List.length] in L; lia). unfold bandpars, rounded.
  destruct (n_before m) as [|[|[|[|k]]]]; try lia. reflexivity.
Qed.
Lemma rounded_length pars : (4 <= List.length pars)%nat -> List.length (rounded pars) = List.length pars.
Proof. intros L. unfold rounded. rewrite !app_length, firstn_length, skipn_length. cbn [List.length]. lia. Qed.
Lemma ravel_plus nr nc f g : rsum (ravel nr nc f) + rsum (ravel nr nc g) = rsum (ravel nr nc (fun r c => f r c + g r c)).
Proof.
  unfold ravel. induction (seq 0 nr) as [|r l IH]; cbn [map List.concat]; [cbn; lra|]. rewrite !rsum_app, <- IH.
  assert (E : rsum (map (f r) (seq 0 nc)) + rsum (map (g r) (seq 0 nc)) = rsum (map (fun c => f r c + g r c) (seq 0 nc))).
  { clear. induction (seq 0 nc) as [|c l' IH']; cbn [map]; [cbn; lra|]. rewrite !rsum_cons. lra. }
  lra.
Qed.
Lemma s2n_one_spec m pars b h ko d s : fits ko -> ready1 h ko -> (n_before m <= List.length pars)%nat -> round_model X m pars b ko d ->
  snd (s2n_one X m (bandpars m pars b) h ko s) = Ok (s + power ko d).
Proof.
  intros (Hw & Hp) (_ & (d0 & H2) & _) L (g & d1 & Pg & Ed & ->). unfold s2n_one. rewrite rounded_band by exact L.
  assert (L4 : (4 <= List.length pars)%nat) by (destruct m; cbn in L; lia).
  rewrite make_model_band by (rewrite rounded_length by exact L4; exact L). apply profile_iff in Pg. rewrite Pg. cbn [bind]. unfold meta_kim. rewrite H2. cbn [bind].
  change (draw_on (gx_drawk X) g (is_own ko d0)) with (draw_on (gx_drawk X) g (ko_image ko)). unfold draw_on. rewrite Ed. cbn [plain].
  change (mkKim _ _ _ (fst d1) (snd d1)) with (is_own ko d1). rewrite through_psf_ok by exact Hp. cbn [plain].
  assert (Hw' : weight_fits (ko_weight ko) (is_own ko (psf_product ko d1)) = true) by exact Hw. rewrite Hw'. cbn [negb snd is_own k_nr k_nc k_re k_im].
  rewrite Rplus_assoc, ravel_plus. unfold power. do 3 f_equal. apply ravel_ext. intros r c. ring.
Qed.
Section L.
Variable L : list kobs.
Hypothesis HF : Forall fits L.
Hypothesis ND : NoDup (map ko_meta L).
Lemma s2n_list_spec m pars b l : forall ds h s, incl l L -> ready h L -> (n_before m <= List.length pars)%nat ->
  Forall2 (round_model X m pars b) l ds ->
  exists h', s2n_list X m (bandpars m pars b) h l s = (h', Ok (s + rsum (map (fun t => power (fst t) (snd t)) (combine l ds)))) /\ ready h' L.
Proof.
  induction l as [|ko l IH]; intros ds h s Hi Hr Lp H; inversion H as [|x d xs ds' Hd Hds]; subst.
  - exists h. cbn. rewrite Rplus_0_r. auto.
  - assert (Hk : In ko L) by (apply Hi; left; reflexivity).
    pose proof (touches_one _ _ _ L Hk (s2n_one_touch X m (bandpars m pars b) h ko s (in_fits L HF ko Hk) (in_ready L h ko Hr Hk))) as T.
    pose proof (s2n_one_spec m pars b h ko d s (in_fits L HF ko Hk) (in_ready L h ko Hr Hk) Lp Hd) as E.
    cbn [s2n_list]. destruct (s2n_one X m (bandpars m pars b) h ko s) as [h1 r1]. cbn [fst snd] in *. rewrite E.
    assert (Hi' : incl l L) by (intros x Hx; apply Hi; right; exact Hx).
    destruct (IH ds' h1 (s + power ko d) Hi') as (h2 & E2 & R2); [apply T; assumption|exact Lp|exact Hds|].
    exists h2. split; [|exact R2]. rewrite E2. cbn [combine map fst snd]. rewrite rsum_cons, Rplus_assoc. reflexivity.
Qed.
Lemma s2n_bands_spec m pars obs : forall b ds h buf s, List.length buf = S (n_before m) -> (n_before m + b + List.length obs <= List.length pars)%nat ->
  incl (List.concat obs) L -> ready h L -> Forall2 (fun t d => round_model X m pars (fst t) (snd t) d) (bands_from b obs) ds ->
  exists h' buf', s2n_bands X m pars buf b h obs s = (h', buf', Ok (s + rsum (map (fun t => power (fst t) (snd t)) (combine (List.concat obs) ds)))).
Proof.
  induction obs as [|l obs IH]; intros b ds h buf s Lb Lp Hi Hr H.
  - inversion H; subst. exists h, buf. cbn. rewrite Rplus_0_r. reflexivity.
  - rewrite bands_from_cons in H. apply Forall2_app_inv_l in H as (d1 & d2 & H1 & H2 & ->).
    cbn [s2n_bands List.concat List.length] in *. rewrite fill_band_ok by (exact Lb || lia). apply incl_concat in Hi as [Hi1 Hi2].
    assert (H1' : Forall2 (round_model X m pars b) l d1).
    { clear - H1. revert d1 H1. induction l as [|k l IH]; intros d1 H1; cbn [map] in H1; inversion H1; subst; constructor; [assumption|]. apply IH. assumption. }
    destruct (s2n_list_spec m pars b l d1 h s Hi1 Hr) as (h1 & E1' & R1'); [lia|exact H1'|]. rewrite E1'.
    destruct (IH (S b) d2 h1 (bandpars m pars b) (s + rsum (map (fun t => power (fst t) (snd t)) (combine l d1)))) as (h2 & buf2 & E2); [apply bandpars_length; lia|lia|exact Hi2|exact R1'|exact H2|].
    exists h2, buf2. rewrite E2.
    assert (Ec : combine (l ++ List.concat obs) (d1 ++ d2) = (combine l d1 ++ combine (List.concat obs) d2)%list).
    { pose proof (Forall2_length _ _ _ H1') as El. clear - El. revert d1 El. induction l as [|k l IH]; intros [|d d1] El; try discriminate; [reflexivity|]. cbn. f_equal. apply IH. cbn in El. lia. }
    rewrite Ec, map_app, rsum_app, Rplus_assoc. reflexivity.
Qed.
End L.
Lemma s2n_ok h00 h0 m input guess prior F0 h F pars ds :
  gfit_init X h00 m input guess prior = (h0, Ok F0) -> valid_input input -> own_metadata F0 -> history X h0 F0 input h F ->
  List.length pars = gf_npars F0 ->
  Forall2 (fun t d => round_model X m pars (fst t) (snd t) d) (with_bands (gf_obs F0)) ds ->
  snd (calc_s2n_r X h F pars) = Ok (sqrt (Rmax 0 (rsum (map (fun t => power (fst t) (snd t)) (combine (List.concat (gf_obs F0)) ds))))).
Proof.
  intros Ei V ND Hh Lp Hd. destruct (init_made X _ _ _ _ _ _ _ Ei) as (M & h1 & Eo & Eh). pose proof (input_fits X _ _ _ _ V Eo) as HF.
  destruct (history_inv X _ _ _ _ _ _ _ _ _ Ei V ND Hh) as (S1 & Lb & Hr). destruct M as [Em Ep En Et Es Enp _].
  unfold same_fit in S1. rewrite Enp in Lp.
  assert (EOm : gf_model F = m /\ gf_obs F = gf_obs F0) by (rewrite S1; cbn; auto). destruct EOm as (O1 & O2).
  unfold calc_s2n_r. rewrite O1, O2.
  assert (Lp' : (n_before m + 0 + List.length (gf_obs F0) <= List.length pars)%nat) by (rewrite Lp; destruct m; cbn [get_galsim_npars n_before]; lia).
  destruct (s2n_bands_spec (List.concat (gf_obs F0)) HF ND m pars (gf_obs F0) 0 ds h (gf_buf F) 0 Lb Lp' (incl_refl _) Hr Hd) as (h2 & buf2 & E2).
  rewrite E2. cbn [snd bind]. f_equal. rewrite Rplus_0_l. set (s := rsum _). unfold Rltb. destruct (Rlt_dec 0 s).
  - rewrite Rmax_right by lra. reflexivity.
  - rewrite Rmax_left by lra. rewrite sqrt_0. reflexivity.
Qed.
End G.

(** sum of squares *)
Lemma rsum_ravel_ext nr nc f g : (forall r c, f r c = g r c) -> rsum (ravel nr nc f) = rsum (ravel nr nc g).
Proof. intros E. f_equal. apply ravel_ext. exact E. Qed.
Lemma inv_err_sq w : inv_err w ^ 2 = Rmax 0 w.
Proof.
  unfold inv_err, Rltb. destruct (Rlt_dec 0 w); [rewrite pow2_sqrt by lra; rewrite Rmax_right by lra; reflexivity|]. rewrite Rmax_left by lra. ring.
Qed.
Lemma residuals_sq ko d : rsum (map (fun x => x ^ 2) (residuals ko d)) = chi2_of ko d.
Proof.
  unfold residuals, chi2_of. rewrite map_app, rsum_app, !ravel_map, ravel_plus. apply rsum_ravel_ext. intros r c. rewrite <- inv_err_sq. ring.
Qed.
Lemma all_residuals_sq l : rsum (map (fun x => x ^ 2) (List.concat (map (fun t => residuals (fst t) (snd t)) l))) = rsum (map (fun t => chi2_of (fst t) (snd t)) l).
Proof. induction l as [|t l IH]; [reflexivity|]. cbn [map List.concat]. rewrite map_app, rsum_app, rsum_cons, residuals_sq, IH. reflexivity. Qed.
