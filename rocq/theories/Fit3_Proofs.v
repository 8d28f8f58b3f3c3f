From Verif Require Import Base XReal Jacobian_Model Pixels_Model GMix_Model GMix_Spec GMix_Proofs GMixObj_Model GMixObj_Proofs
  Render_Model Render_Spec Render_Proofs Priors_Model Priors_Spec Joint_Model Joint_Spec Joint_Proofs Fit_Model Fit_Spec Fit_Proofs Fit2_Proofs.
Local Open Scope R_scope.

(** ** sums of extended numbers *)
Lemma xadd_assoc a b c : xadd (xadd a b) c = xadd a (xadd b c).
Proof. destruct a, b, c; cbn; try reflexivity. f_equal. ring. Qed.
Lemma xsum_from l : forall a, fold_left xadd l a = xadd a (xsum l).
Proof.
  unfold xsum. induction l as [|x l IH]; intros a; cbn [fold_left]; [rewrite xadd_0_r; reflexivity|].
  rewrite (IH (xadd a x)), (IH (xadd (Fin 0) x)), xadd_0_l, xadd_assoc. reflexivity.
Qed.
Lemma xsum_app a b : xsum (a ++ b) = xadd (xsum a) (xsum b).
Proof. unfold xsum. rewrite fold_left_app. apply xsum_from. Qed.
Lemma xsum_fin l : xsum (map xsq (map Fin l)) = Fin (rsum (map (fun x => x ^ 2) l)).
Proof.
  induction l as [|x l IH]; [reflexivity|]. cbn [map]. unfold xsum. cbn [fold_left]. rewrite xsum_from, IH, rsum_cons. cbn [xsq xmul xadd]. f_equal. ring.
Qed.
Lemma xsum_zeros n : xsum (map xsq (repeat (Fin 0) n)) = Fin 0.
Proof.
  replace (repeat (Fin 0) n) with (map Fin (repeat 0 n)) by (clear; induction n; cbn; congruence). rewrite xsum_fin. f_equal.
  induction n as [|n IH]; [reflexivity|]. cbn [repeat map]. rewrite rsum_cons, IH. ring.
Qed.
Lemma xsum_low n : (0 < n)%nat -> xsum (map xsq (repeat LOWVAL n)) = PInf.
Proof.
  intros H. destruct n as [|n]; [lia|]. clear H. cbn [repeat map]. unfold xsum. cbn [fold_left].
  replace (xadd (Fin 0) (xsq LOWVAL)) with PInf by reflexivity. induction n as [|n IH]; [reflexivity|]. cbn [repeat map fold_left]. exact IH.
Qed.
Lemma half_of L S : xmul (Fin (-1/2)) (xadd (xmul (Fin (-2)) L) (Fin S)) = xadd (Fin (- S / 2)) L.
Proof.
  assert (A : rsgn (-2) = SNeg) by (unfold rsgn; rewrite Rltb_f, Rltb_t by lra; reflexivity).
  assert (B : rsgn (-1/2) = SNeg) by (unfold rsgn; rewrite Rltb_f, Rltb_t by lra; reflexivity).
  destruct L as [l| | |]; cbn [xmul xsgn]; rewrite ?A; cbn [inf_of xadd xmul xsgn]; rewrite ?B; cbn [inf_of]; try reflexivity.
  f_equal. field.
Qed.
Lemma half_inf : xmul (Fin (-1/2)) PInf = NInf.
Proof. cbn. unfold rsgn. rewrite Rltb_f, Rltb_t by lra. reflexivity. Qed.

Lemma all_resid_sq models px : rsum (map (fun x => x ^ 2) (all_resid models px)) = sum_over (fun m p => resid m p ^ 2) models px.
Proof.
  unfold sum_over, all_resid. rewrite concat_map, map_map. f_equal. f_equal. apply map_ext. intros [mo p]. cbn [fst snd]. rewrite map_map. reflexivity.
Qed.
Lemma pixels_eq obs px : mapM obs_pixels (concat obs) = Ok px -> px = pixels_of obs.
Proof.
  unfold pixels_of. generalize (concat obs). intros l. revert px. induction l as [|o l IH]; intros px H; [injection H as <-; reflexivity|].
  destruct (pix_cons _ _ _ H) as (p & r & -> & Ep & Er). cbn [map]. rewrite <- (IH _ Er). f_equal. unfold obs_pixels in Ep. destruct (fo_pixels o); [injection Ep as <-; reflexivity|discriminate].
Qed.
Lemma get_priors_value m obs prior F pars : made m obs prior F -> get_priors F pars = prior_value prior pars.
Proof. intros M. unfold get_priors, prior_value. rewrite (md_prior _ _ _ _ M). reflexivity. Qed.
Lemma fill_priors_spec m obs prior F pars k n : made m obs prior F -> prior_ok prior k -> (k <= n)%nat ->
  match prior_value prior pars with
  | Ok L => exists pr, length pr = k /\ encode pr L /\ fill_priors F pars (repeat (Fin 0) n) = Ok (pr ++ repeat (Fin 0) (n - k), k)
  | Raise e => fill_priors F pars (repeat (Fin 0) n) = Raise e
  end.
Proof.
  intros M H Hk. unfold fill_priors, prior_value. rewrite (md_prior _ _ _ _ M). unfold prior_ok in H. destruct prior as [p|].
  - specialize (H (map Fin pars) (repeat (Fin 0) n) ltac:(rewrite repeat_length; exact Hk)).
    destruct (jp_lnprob p (map Fin pars)) as [L|e]; destruct (jp_fill p (map Fin pars) (repeat (Fin 0) n)) as [[out k']|e']; try contradiction; [|congruence].
    destruct H as (-> & Lo & Sk & X). exists (firstn k out). rewrite repeat_length in Lo. split; [rewrite firstn_length; lia|]. split; [exact X|]. f_equal. f_equal.
    rewrite <- (firstn_skipn k out) at 1. f_equal. rewrite Sk. clear - Hk. revert n Hk. induction k as [|k IH]; intros [|n] H; cbn in *; try lia; try reflexivity. apply IH. lia.
  - subst k. exists []. rewrite Nat.sub_0_r. split; [reflexivity|]. split; [|reflexivity]. unfold encode. cbn. f_equal. ring.
Qed.

Section Fitted.
Variables (m : fmodel) (obs : list (list fobs)) (prior : option jprior) (F : fit) (k : nat).
Hypothesis Fit : fit_of m obs prior F.
Hypothesis Hm : m <> FCoellip 0.
Hypothesis Hp : prior_ok prior k.
Hypothesis Hk : (k <= f_n_prior F)%nat.

Let M := fit_made _ _ _ _ Fit.

(** everything, from the mixtures of the evaluation *)
Lemma evaluate_good pars ds L : bands_mix (f_model F) (f_dopsf F) pars 0 (f_obs F) = Ok ds -> prior_value prior pars = Ok L ->
  Forall (Forall evaluable) (concat ds) ->
  let models := map mdl (concat ds) in let px := pixels_of obs in
  (exists pr, length pr = k /\ encode pr L /\
     snd (calc_fdiff F pars) = Ok (pr ++ map Fin (all_resid models px) ++ repeat (Fin 0) (f_n_prior F - k))) /\
  snd (calc_lnprob F pars) = Ok (mkLn (xadd (Fin (- sum_over (fun m p => resid m p ^ 2) models px / 2)) L)
     (sum_over (fun m p => px_val p * m p * px_ierr p ^ 2) models px) (sum_over (fun m p => m p ^ 2 * px_ierr p ^ 2) models px) (f_totpix F)) /\
  length (all_resid models px) = f_totpix F.
Proof.
  intros Ed Ev Eg. cbv zeta. rewrite (made_lnprob _ _ _ _ _ M), (made_fdiff _ _ _ _ _ M). unfold pure_lnprob, pure_fdiff.
  rewrite (get_priors_value _ _ _ _ _ M), Ev, Ed. cbn [bind].
  assert (Hm' : f_model F <> FCoellip 0) by (rewrite (md_model _ _ _ _ M); exact Hm).
  destruct (bands_fresh _ _ _ _ Hm' _ _ Ed) as [Fr Lc].
  pose proof (md_pixels _ _ _ _ M) as Px. pose proof (pixels_eq _ _ Px) as Pe. pose proof (md_obs _ _ _ _ M) as Eo.
  pose proof (md_totpix _ _ _ _ M) as Tp. pose proof (md_size _ _ _ _ M) as Sz. pose proof (mapM_len _ _ _ Px) as Lp.
  assert (Ll : length (concat ds) = length (f_pixels F)) by (rewrite Lc, Eo, Lp; reflexivity).
  assert (La : length (all_resid (map mdl (concat ds)) (f_pixels F)) = npix (f_pixels F)) by (apply all_resid_len; exact Ll).
  rewrite <- Pe. split; [|split].
  - pose proof (fill_priors_spec _ _ _ _ pars k (f_size F) M Hp ltac:(lia)) as Q. rewrite Ev in Q. destruct Q as (pr & Lpr & En & Q). rewrite Q. cbn [bind].
    exists pr. split; [exact Lpr|]. split; [exact En|].
    rewrite fd_all; [|exact Ll|exact Fr|exact Eg|rewrite app_length, repeat_length; unfold npix; lia]. cbn [rmap fst or_range]. f_equal.
    rewrite firstn_cut by exact Lpr. f_equal. f_equal. rewrite <- skipn_skipn', skipn_cut by exact Lpr.
    replace (f_size F - k)%nat with (npix (f_pixels F) + (f_n_prior F - k))%nat by (unfold npix; lia). rewrite repeat_app. apply skipn_cut. apply repeat_length.
  - rewrite Eo. rewrite (like_all (concat obs) (f_pixels F) (concat ds)); [|exact Px|rewrite Lc, Eo; reflexivity|exact Fr|exact Eg]. cbn [bind or_range]. rewrite !Rplus_0_l, Nat.add_0_l, Tp. reflexivity.
  - rewrite La, Tp. reflexivity.
Qed.
Lemma evaluate_bad pars ds L : bands_mix (f_model F) (f_dopsf F) pars 0 (f_obs F) = Ok ds -> prior_value prior pars = Ok L ->
  ~ Forall (Forall evaluable) (concat ds) ->
  snd (calc_fdiff F pars) = Ok (repeat LOWVAL (f_size F)) /\ snd (calc_lnprob F pars) = Ok ln_low.
Proof.
  intros Ed Ev Eg. rewrite (made_lnprob _ _ _ _ _ M), (made_fdiff _ _ _ _ _ M). unfold pure_lnprob, pure_fdiff.
  rewrite (get_priors_value _ _ _ _ _ M), Ev, Ed. cbn [bind].
  assert (Hm' : f_model F <> FCoellip 0) by (rewrite (md_model _ _ _ _ M); exact Hm).
  destruct (bands_fresh _ _ _ _ Hm' _ _ Ed) as [Fr Lc].
  pose proof (md_pixels _ _ _ _ M) as Px. pose proof (md_obs _ _ _ _ M) as Eo.
  pose proof (md_totpix _ _ _ _ M) as Tp. pose proof (md_size _ _ _ _ M) as Sz. pose proof (mapM_len _ _ _ Px) as Lp.
  assert (Ll : length (concat ds) = length (f_pixels F)) by (rewrite Lc, Eo, Lp; reflexivity).
  split.
  - pose proof (fill_priors_spec _ _ _ _ pars k (f_size F) M Hp ltac:(lia)) as Q. rewrite Ev in Q. destruct Q as (pr & Lpr & En & Q). rewrite Q. cbn [bind].
    rewrite fd_bad; [reflexivity|exact Ll|exact Fr|exact Eg|rewrite app_length, repeat_length; unfold npix; lia].
  - rewrite Eo. rewrite (like_bad (concat obs) (f_pixels F) (concat ds)); [reflexivity|exact Px|rewrite Lc, Eo; reflexivity|exact Fr|exact Eg].
Qed.
Lemma evaluate_raise pars e : bands_mix (f_model F) (f_dopsf F) pars 0 (f_obs F) = Raise e ->
  snd (calc_fdiff F pars) = or_range (Raise e) (repeat LOWVAL (f_size F)) /\
  snd (calc_lnprob F pars) = match prior_value prior pars with Ok _ => or_range (Raise e) ln_low | Raise e => or_range (Raise e) ln_low end.
Proof.
  intros Ed. rewrite (made_lnprob _ _ _ _ _ M), (made_fdiff _ _ _ _ _ M). unfold pure_lnprob, pure_fdiff. rewrite (get_priors_value _ _ _ _ _ M), Ed. cbn [bind].
  split; [reflexivity|]. destruct (prior_value prior pars); reflexivity.
Qed.
Lemma evaluate_prior pars e ds : prior_value prior pars = Raise e -> bands_mix (f_model F) (f_dopsf F) pars 0 (f_obs F) = Ok ds ->
  snd (calc_fdiff F pars) = or_range (Raise e) (repeat LOWVAL (f_size F)) /\ snd (calc_lnprob F pars) = or_range (Raise e) ln_low.
Proof.
  intros Ev Ed. rewrite (made_lnprob _ _ _ _ _ M), (made_fdiff _ _ _ _ _ M). unfold pure_lnprob, pure_fdiff. rewrite (get_priors_value _ _ _ _ _ M), Ev, Ed. cbn [bind].
  pose proof (fill_priors_spec _ _ _ _ pars k (f_size F) M Hp ltac:(pose proof (md_size _ _ _ _ M); lia)) as Q. rewrite Ev in Q. rewrite Q. split; reflexivity.
Qed.
Lemma or_range_ok {A} e (low r : A) : or_range (Raise e) low = Ok r -> r = low.
Proof. destruct e; cbn; intros H; try discriminate. injection H as <-. reflexivity. Qed.

(** C62 *)
Lemma agree pars r fd : (0 < f_size F)%nat -> snd (calc_lnprob F pars) = Ok r -> snd (calc_fdiff F pars) = Ok fd ->
  l_lnprob r = xmul (Fin (-1/2)) (xsum (map xsq fd)).
Proof.
  intros Sz Hr Hf.
  assert (Low : r = ln_low -> fd = repeat LOWVAL (f_size F) -> l_lnprob r = xmul (Fin (-1/2)) (xsum (map xsq fd))).
  { intros -> ->. rewrite xsum_low by exact Sz. rewrite half_inf. reflexivity. }
  destruct (bands_mix (f_model F) (f_dopsf F) pars 0 (f_obs F)) as [ds|e] eqn:Ed.
  - destruct (prior_value prior pars) as [L|e] eqn:Ev.
    + destruct (Classical_Prop.classic (Forall (Forall evaluable) (concat ds))) as [G|G].
      * destruct (evaluate_good pars ds L Ed Ev G) as ((pr & Lp & En & Ef) & El & _). rewrite Ef in Hf. rewrite El in Hr. injection Hf as <-. injection Hr as <-. cbn [l_lnprob].
        rewrite !map_app, !xsum_app, xsum_fin, xsum_zeros, xadd_0_r. unfold encode in En. rewrite En. rewrite half_of. f_equal. rewrite all_resid_sq. reflexivity.
      * destruct (evaluate_bad pars ds L Ed Ev G) as [Ef El]. rewrite Ef in Hf. rewrite El in Hr. apply Low; congruence.
    + destruct (evaluate_prior pars e ds Ev Ed) as [Ef El]. rewrite Ef in Hf. rewrite El in Hr. apply Low; eapply or_range_ok; eassumption.
  - destruct (evaluate_raise pars e Ed) as [Ef El]. rewrite Ef in Hf. rewrite El in Hr. apply Low; [|eapply or_range_ok; eassumption].
    destruct (prior_value prior pars); eapply or_range_ok; exact Hr.
Qed.
(** unless the prior raises, they raise together *)
Lemma raise_together pars L e : prior_value prior pars = Ok L -> (snd (calc_lnprob F pars) = Raise e <-> snd (calc_fdiff F pars) = Raise e).
Proof.
  intros Ev. destruct (bands_mix (f_model F) (f_dopsf F) pars 0 (f_obs F)) as [ds|e'] eqn:Ed.
  - destruct (Classical_Prop.classic (Forall (Forall evaluable) (concat ds))) as [G|G].
    + destruct (evaluate_good pars ds L Ed Ev G) as ((pr & Lp & En & Ef) & El & _). rewrite Ef, El. split; discriminate.
    + destruct (evaluate_bad pars ds L Ed Ev G) as [Ef El]. rewrite Ef, El. split; discriminate.
  - destruct (evaluate_raise pars e' Ed) as [Ef El]. rewrite Ef, El, Ev. destruct e'; cbn [or_range]; split; intros H; try discriminate H; injection H as <-; reflexivity.
Qed.

Hypothesis Hu : uniform_psf obs.
Lemma mixtures_bands pars : length pars = n_pars m obs ->
  (forall ms, mixtures F pars = Ok ms -> exists ds, bands_mix (f_model F) (f_dopsf F) pars 0 (f_obs F) = Ok ds /\ map o_data ms = concat ds) /\
  (forall e, mixtures F pars = Raise e -> bands_mix (f_model F) (f_dopsf F) pars 0 (f_obs F) = Raise e).
Proof.
  intros L. pose proof (mixtures_pure _ _ _ _ _ M Hu L) as E. split.
  - intros ms H. rewrite H in E. cbn [rmap] in E. destruct (bands_mix _ _ _ _ _) as [ds|]; [|discriminate]. cbn [rmap] in E. injection E as E. exists ds. auto.
  - intros e H. rewrite H in E. cbn [rmap] in E. destruct (bands_mix _ _ _ _ _) as [ds|]; [discriminate|]. cbn [rmap] in E. congruence.
Qed.
Lemma evaluable_map ms ds : map o_data ms = ds -> (Forall (Forall evaluable) ds <-> Forall (fun g => Forall evaluable (o_data g)) ms).
Proof. intros <-. apply Forall_map. Qed.

(** C61, C64, C99: in range *)
Lemma layout pars ms L : length pars = n_pars m obs -> in_range F pars ms -> prior_value prior pars = Ok L ->
  exists models pr, Forall2 model_of ms models /\ length pr = k /\ encode pr L /\
    snd (calc_fdiff F pars) = Ok (pr ++ map Fin (all_resid models (pixels_of obs)) ++ repeat (Fin 0) (f_n_prior F - k)) /\
    length (all_resid models (pixels_of obs)) = f_totpix F /\
    snd (calc_lnprob F pars) = Ok (mkLn (xadd (Fin (- sum_over (fun m p => resid m p ^ 2) models (pixels_of obs) / 2)) L)
     (sum_over (fun m p => px_val p * m p * px_ierr p ^ 2) models (pixels_of obs)) (sum_over (fun m p => m p ^ 2 * px_ierr p ^ 2) models (pixels_of obs)) (f_totpix F)).
Proof.
  intros Lp [Em Ee] Ev. destruct (proj1 (mixtures_bands pars Lp) ms Em) as (ds & Ed & Eq'). pose proof (proj2 (evaluable_map _ _ Eq') Ee) as G.
  destruct (evaluate_good pars ds L Ed Ev G) as ((pr & Lpr & En & Ef) & El & La). exists (map mdl (concat ds)), pr.
  split; [|split; [exact Lpr|split; [exact En|split; [exact Ef|split; [exact La|exact El]]]]].
  assert (Hm' : f_model F <> FCoellip 0) by (rewrite (md_model _ _ _ _ M); exact Hm).
  destruct (bands_fresh _ _ _ _ Hm' _ _ Ed) as [Fr _]. rewrite <- Eq' in *. clear - Fr Ee. rewrite map_map.
  induction ms as [|g ms IH]; cbn [map] in *; constructor; apply Forall_cons_iff in Fr, Ee; destruct Fr as [F1 F2], Ee as [E1' E2'].
  - intros p. exact (proj1 (eval_good _ F1 E1' []) p). - apply IH; assumption.
Qed.
Lemma lowest pars : length pars = n_pars m obs ->
  (out_of_range F pars \/ prior_value prior pars = Raise GMixRangeError) ->
  (forall e, mixtures F pars = Raise e -> e = GMixRangeError) -> (forall e, prior_value prior pars = Raise e -> e = GMixRangeError) ->
  snd (calc_fdiff F pars) = Ok (repeat LOWVAL (f_size F)) /\ snd (calc_lnprob F pars) = Ok ln_low.
Proof.
  intros Lp Ho Hmx Hpr. destruct (mixtures_bands pars Lp) as [B1 B2]. destruct (mixtures F pars) as [ms|e] eqn:Em.
  - destruct (B1 ms eq_refl) as (ds & Ed & Eq'). destruct (prior_value prior pars) as [L|e] eqn:Ev.
    + destruct Ho as [[Ho|(ms' & E' & Ho)]|Ho]; [congruence| |discriminate]. assert (ms' = ms) by congruence. subst ms'.
      apply (evaluate_bad pars ds L Ed Ev). intros K. apply Ho. exact (proj1 (evaluable_map _ _ Eq') K).
    + rewrite (Hpr e eq_refl) in Ev. exact (evaluate_prior pars _ ds Ev Ed).
  - rewrite (Hmx e eq_refl) in B2. destruct (evaluate_raise pars _ (B2 _ eq_refl)) as [Ef El]. split; [exact Ef|]. rewrite El.
    destruct (prior_value prior pars) as [L|e'] eqn:Ev; [reflexivity|]. rewrite (Hpr e' eq_refl). reflexivity.
Qed.
End Fitted.
