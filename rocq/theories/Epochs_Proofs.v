From Verif Require Import Base XReal Pixels_Model Jacobian_Model GMix_Model GMix_Spec GMixObj_Model GMixObj_Proofs Render_Model Render_Spec Render_Proofs
  FastExp_Model Priors_Model Joint_Model Fit_Model Fit_Spec Fit_Proofs Fit2_Proofs Fit3_Proofs FitUnits_Spec FitUnits2_Proofs FitUnits3_Proofs FluxLik_Spec FluxFit_Proofs FluxBands_Proofs Epochs_Spec.
Local Open Scope R_scope.

Section M.
Variable m : fmodel.
Hypothesis NP : fit_model m.

Lemma slice_pars k p b num : num = S k -> (k + b < length p)%nat -> slice_and_one num k b p = Ok (firstn k p ++ [nth (k + b) p 0]).
Proof.
  intros -> L. unfold slice_and_one. rewrite (proj2 (Nat.ltb_ge _ _)) by lia. rewrite Bool.andb_false_r.
  rewrite (nth_error_nth' p 0 L). replace (S k - k - 1)%nat with 0%nat by lia. cbn [repeat]. reflexivity.
Qed.
Lemma band_pars_eq tot p b : length p = n_pars m tot -> (b < length tot)%nat -> band_pars_of m p b = Ok (band_parameters m p b).
Proof.
  intros L B. destruct m as [n|n]; [|reflexivity]. cbn [n_pars fit_model band_parameters] in *. unfold band_pars_of, get_band_pars. destruct n; cbn in *; try (apply slice_pars; [reflexivity|lia]). congruence.
Qed.
Lemma band_parameters_again tot p b o : length p = n_pars m tot -> band_parameters m (band_parameters m p b) 0 = band_parameters m p b /\ length (band_parameters m p b) = n_pars m [[o]].
Proof.
  intros L. destruct m as [n|n]; [|split; [reflexivity|exact L]]. cbn [n_pars band_parameters length fit_model] in *. assert (K : (model_npars n - 1 = flux_start n)%nat) by (destruct n; try reflexivity; congruence). rewrite K in *. set (k := flux_start n) in *.
  assert (L1 : length (firstn k p) = k) by (rewrite firstn_length; lia). set (a := firstn k p) in *. split; [|rewrite app_length, L1; cbn; lia].
  rewrite Nat.add_0_r, app_nth2 by lia. rewrite L1, Nat.sub_diag. cbn [nth]. rewrite firstn_app, L1, Nat.sub_diag. cbn [firstn]. rewrite app_nil_r, firstn_all2 by lia. reflexivity.
Qed.

Definition res1 (dopsf : bool) (x : list R * fobs) : res lik := let* d := one_mix m dopsf (fst x) (snd x) in like_step z0 (snd x, d).
Lemma single o bp G : fit_of m [[o]] None G -> length bp = n_pars m [[o]] -> band_parameters m bp 0 = bp ->
  core G bp = res1 (has_psf_gmix o) (bp, o).
Proof.
  intros Ft L B. pose proof (fit_made _ _ _ _ Ft) as M. unfold core. rewrite (md_model _ _ _ _ M), (md_obs _ _ _ _ M).
  destruct (md_first _ _ _ _ M) as (o' & os & l & E & ->). injection E as <- <- <-. cbn [bands_mix]. rewrite (band_pars_eq [[o]] bp 0 L) by (cbn; lia). rewrite B. cbn [bind mapM].
  unfold res1. cbn [fst snd]. destruct (one_mix _ _ _ _) as [d|]; [|reflexivity]. cbn [bind concat app combine foldM]. fold z0. destruct (like_step z0 (o, d)); reflexivity.
Qed.

(** both the mixtures and the likelihoods *)
Lemma all_epochs dopsf tot p : length p = n_pars m tot -> forall obs b, (b + length obs <= length tot)%nat ->
  (forall ts, Forall2 (fun x t => res1 dopsf x = Ok t) (epochs m p b obs) ts -> exists ds, bands_mix m dopsf p b obs = Ok ds /\
     Forall2 (fun os l => length os = length l) obs ds /\ forall s, foldM like_step (combine (concat obs) (concat ds)) s = Ok (fold_left padd ts s)) /\
  (forall ds s t, bands_mix m dopsf p b obs = Ok ds -> foldM like_step (combine (concat obs) (concat ds)) s = Ok t ->
     exists ts, Forall2 (fun x t => res1 dopsf x = Ok t) (epochs m p b obs) ts).
Proof.
  intros L.
  assert (ST : forall s x, like_step s x = rmap (padd s) (like_step z0 x)) by (intros s x; rewrite <- step_shift, padd_z; reflexivity).
  assert (BAND : forall bp os,
    (forall ts, Forall2 (fun x t => res1 dopsf x = Ok t) (map (pair bp) os) ts -> exists l, mapM (one_mix m dopsf bp) os = Ok l /\ length os = length l /\ forall s, foldM like_step (combine os l) s = Ok (fold_left padd ts s)) /\
    (forall l s t, mapM (one_mix m dopsf bp) os = Ok l -> foldM like_step (combine os l) s = Ok t -> exists ts, Forall2 (fun x t => res1 dopsf x = Ok t) (map (pair bp) os) ts)).
  { intros bp. induction os as [|o os [IH1 IH2]]; split.
    - intros ts H. inversion H; subst. exists []. repeat split; reflexivity.
    - intros l s t _ _. exists []. constructor.
    - intros ts H. cbn [map] in H. inversion H as [|? t ? ts' E H']; subst. destruct (IH1 _ H') as (l & E1 & E2 & E3). unfold res1 in E. cbn [fst snd] in E. cbn [mapM]. destruct (one_mix _ _ _ o) as [d|]; [|discriminate]. cbn [bind] in *.
      exists (d :: l). rewrite E1. split; [reflexivity|]. split; [cbn; congruence|]. intros s. cbn [combine foldM fold_left]. rewrite ST, E. cbn [rmap bind]. apply E3.
    - intros l s t E H. cbn [mapM] in E. destruct (one_mix _ _ _ o) as [d|] eqn:D; [|discriminate]. cbn [bind] in E. destruct (mapM _ os) as [l'|]; [|discriminate]. injection E as <-. cbn [combine foldM] in H.
      rewrite ST in H. destruct (like_step z0 (o, d)) as [u|] eqn:U; [|discriminate]. cbn [rmap bind] in H. destruct (IH2 l' _ _ eq_refl H) as [ts Hts]. exists (u :: ts). cbn [map]. constructor; [|exact Hts].
      unfold res1. cbn [fst snd]. rewrite D. exact U. }
  induction obs as [|os obs IH]; intros b Hb; split.
  - intros ts H. inversion H; subst. exists []. split; [reflexivity|]. split; [constructor|]. intros s. reflexivity.
  - intros ds s t _ _. exists []. constructor.
  - intros ts H. cbn [epochs] in H. cbn [length] in Hb. apply Forall2_app_inv_l in H. destruct H as (t1 & t2 & H1 & H2 & ->). cbn [bands_mix]. rewrite (band_pars_eq tot p b L) by lia. cbn [bind].
    destruct (proj1 (BAND _ os) _ H1) as (l & -> & Ll & E3). cbn [bind]. destruct (proj1 (IH (S b) ltac:(lia)) _ H2) as (ds & -> & LL & E4). cbn [bind]. exists (l :: ds). split; [reflexivity|]. split; [constructor; assumption|].
    intros s. cbn [concat]. rewrite (combine_app2 _ _ Ll), foldM_app, E3. cbn [bind]. rewrite E4, fold_left_app. reflexivity.
  - intros ds s t E H. cbn [length] in Hb. cbn [bands_mix] in E. rewrite (band_pars_eq tot p b L) in E by lia. cbn [bind] in E. destruct (mapM _ os) as [l|] eqn:El; [|discriminate]. cbn [bind] in E. destruct (bands_mix m dopsf p (S b) obs) as [r|] eqn:Er; [|discriminate]. injection E as <-.
    assert (Ll : length os = length l) by (symmetry; eapply mapM_length; exact El). cbn [concat] in H. rewrite (combine_app2 _ _ Ll), foldM_app in H. destruct (foldM like_step (combine os l) s) as [u|] eqn:U; [|discriminate]. cbn [bind] in H.
    destruct (proj2 (BAND _ os) _ _ _ El U) as [t1 H1]. destruct (proj2 (IH (S b) ltac:(lia)) _ _ _ Er H) as [t2 H2]. exists (t1 ++ t2). cbn [epochs]. apply Forall2_app; assumption.
Qed.

Definition ln_of (lp : xr) (t : lik) : lnres := let '(l, n, d, k) := t in mkLn (xadd (Fin l) lp) n d k.
Lemma lnprob_core obs prior F p lp : fit_of m obs prior F -> prior_value prior p = Ok lp -> snd (calc_lnprob F p) = or_range (rmap (ln_of lp) (core F p)) ln_low.
Proof.
  intros Ft HP. rewrite (core_lnprob _ _ _ _ p lp Ft HP). destruct (core F p) as [[[[l n] d] k]|]; reflexivity.
Qed.
Lemma core_some obs prior F p lp r : fit_of m obs prior F -> prior_value prior p = Ok lp -> snd (calc_lnprob F p) = Ok r -> r <> ln_low -> exists t, core F p = Ok t /\ r = ln_of lp t.
Proof. intros Ft HP E N. rewrite (lnprob_core _ _ _ _ _ Ft HP) in E. destruct (core F p) as [t|e]; [exists t; split; [reflexivity|]; cbn in E; congruence|]. destruct e; cbn in E; congruence. Qed.
Lemma sum_padd ts : forall s, fold_left padd ts s = padd s (fold_right padd z0 ts).
Proof.
  induction ts as [|t ts IH]; intros s; cbn [fold_left fold_right]; [rewrite padd_z; reflexivity|]. rewrite IH, padd_assoc. reflexivity.
Qed.
Lemma sum_terms lp ts : sum_of lp (ln_of lp (fold_right padd z0 ts)) (map (ln_of (Fin 0)) ts).
Proof.
  assert (G : forall ts, let '(l, n, d, k) := fold_right padd z0 ts in let rs := map (ln_of (Fin 0)) ts in
    fold_right xadd (Fin 0) (map l_lnprob rs) = Fin l /\ rsum (map l_numer rs) = n /\ rsum (map l_denom rs) = d /\ list_sum (map l_npix rs) = k).
  { clear. induction ts as [|[[[l n] d] k] ts IH]; cbn [map fold_right]; [repeat split; reflexivity|].
    destruct (fold_right padd z0 ts) as [[[l' n'] d'] k']. cbv zeta in *. destruct IH as (A & B & C & D). cbn [ln_of l_lnprob l_numer l_denom l_npix padd]. rewrite !rsum_cons, A, B, C. cbn [xadd].
    repeat split; [rewrite Rplus_0_r; reflexivity|]. unfold list_sum in *. cbn [fold_right]. rewrite D. reflexivity. }
  specialize (G ts). unfold sum_of. destruct (fold_right padd z0 ts) as [[[l n] d] k]. cbv zeta in G. destruct G as (-> & -> & -> & ->). repeat split.
Qed.
Lemma dopsf_of obs prior F : fit_of m obs prior F -> uniform_psf obs -> forall o, In o (concat obs) -> has_psf_gmix o = f_dopsf F.
Proof.
  intros Ft U o Ho. pose proof (fit_made _ _ _ _ Ft) as M. destruct (md_first _ _ _ _ M) as (o' & os & l & -> & ->). destruct U as [U|U]; rewrite (U o Ho), (U o' (or_introl eq_refl)); reflexivity.
Qed.
Lemma epochs_in p : forall obs b x, In x (epochs m p b obs) -> In (snd x) (concat obs) /\ exists b', fst x = band_parameters m p b'.
Proof.
  induction obs as [|os obs IH]; intros b x H; cbn [epochs] in H; [contradiction|]. cbn [concat]. apply in_app_iff in H. destruct H as [H|H].
  - apply in_map_iff in H. destruct H as (o & <- & Ho). split; [apply in_app_iff; left; exact Ho|]. eexists. reflexivity.
  - destruct (IH _ _ H) as [A B]. split; [apply in_app_iff; right; exact A|exact B].
Qed.
Lemma singles obs prior F p xs Gs : fit_of m obs prior F -> uniform_psf obs -> length p = n_pars m obs -> (forall x, In x xs -> In (snd x) (concat obs) /\ exists b', fst x = band_parameters m p b') ->
  Forall2 (fun x G => fit_of m [[snd x]] None G) xs Gs -> Forall2 (fun x G => fit_of m [[snd x]] None G /\ core G (fst x) = res1 (f_dopsf F) x) xs Gs.
Proof.
  intros Ft U L H HG. induction HG as [|x G xs Gs Fx _ IH]; constructor.
  - split; [exact Fx|]. destruct (H x (or_introl eq_refl)) as [Hi [b' Hb]]. destruct x as [bp o]. destruct (band_parameters_again obs p b' o L) as [B1 B2]. cbn [fst snd] in *. subst bp.
    rewrite (single o _ G Fx B2 B1), (dopsf_of obs prior F Ft U o Hi). reflexivity.
  - apply IH. intros y Hy. apply H. right. exact Hy.
Qed.
Theorem epochs_sum obs prior F p lp Gs : fit_of m obs prior F -> prior_value prior p = Ok lp -> uniform_psf obs -> length p = n_pars m obs ->
  Forall2 (fun x G => fit_of m [[snd x]] None G) (epochs m p 0 obs) Gs ->
  (forall r, snd (calc_lnprob F p) = Ok r -> r <> ln_low ->
     exists rs, Forall2 (fun xG r => snd (calc_lnprob (snd xG) (fst (fst xG))) = Ok r) (combine (epochs m p 0 obs) Gs) rs /\ sum_of lp r rs) /\
  (forall rs, Forall2 (fun xG r => snd (calc_lnprob (snd xG) (fst (fst xG))) = Ok r /\ r <> ln_low) (combine (epochs m p 0 obs) Gs) rs ->
     exists r, snd (calc_lnprob F p) = Ok r /\ sum_of lp r rs).
Proof.
  intros Ft HP U L HG. pose proof (fit_made _ _ _ _ Ft) as M.
  pose proof (singles obs prior F p _ _ Ft U L (epochs_in p obs 0) HG) as S. destruct (all_epochs (f_dopsf F) obs p L obs 0 ltac:(lia)) as [A1 A2].
  assert (CE : core F p = let* ds := bands_mix m (f_dopsf F) p 0 obs in foldM like_step (combine (concat obs) (concat ds)) z0) by (unfold core; rewrite (md_model _ _ _ _ M), (md_obs _ _ _ _ M); reflexivity).
  assert (Z : forall t, padd z0 t = t) by (intros [[[? ?] ?] ?]; unfold padd, z0; rewrite !Rplus_0_l; reflexivity).
  split.
  - intros r E N. destruct (core_some _ _ _ _ _ _ Ft HP E N) as (t & Et & ->). rewrite CE in Et. destruct (bands_mix _ _ p 0 obs) as [ds|] eqn:Ed; [|discriminate]. cbn [bind] in Et.
    destruct (A2 ds z0 t eq_refl Et) as [ts Hts]. destruct (A1 ts Hts) as (ds' & Ed' & _ & Ef). injection Ed' as <-. rewrite Ef in Et. injection Et as <-.
    exists (map (ln_of (Fin 0)) ts). split; [|rewrite sum_padd, Z; apply sum_terms]. clear - S Hts. revert ts Hts. induction S as [|x G xs Gs [Fx Cx] _ IH]; intros ts Hts; inversion Hts as [|? u ? us Hu Hus]; subst; cbn [combine map]; constructor.
    + cbn [fst snd]. rewrite (lnprob_core _ _ _ _ (Fin 0) Fx eq_refl), Cx, Hu. reflexivity.
    + apply IH. exact Hus.
  - intros rs Hrs. assert (T : exists ts, rs = map (ln_of (Fin 0)) ts /\ Forall2 (fun x t => res1 (f_dopsf F) x = Ok t) (epochs m p 0 obs) ts).
    { clear - S Hrs. revert rs Hrs. induction S as [|x G xs Gs [Fx Cx] _ IH]; intros rs Hrs; cbn [combine] in Hrs; inversion Hrs as [|? r ? rs' [E N] H']; subst; [exists []; split; constructor|].
      cbn [fst snd] in *. destruct (core_some _ _ _ _ (Fin 0) _ Fx eq_refl E N) as (t & Et & ->). destruct (IH _ H') as (ts & -> & Hts). exists (t :: ts). split; [reflexivity|]. constructor; [congruence|exact Hts]. }
    destruct T as (ts & -> & Hts). destruct (A1 ts Hts) as (ds & Ed & _ & Ef). rewrite (lnprob_core _ _ _ _ lp Ft HP), CE, Ed. cbn [bind]. rewrite Ef. cbn [rmap or_range]. eexists. split; [reflexivity|]. rewrite sum_padd, Z. apply sum_terms.
Qed.
End M.
