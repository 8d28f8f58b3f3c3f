(** Proofs on fits of images without noise. *)
From Verif Require Import Base XReal Jacobian_Model Jacobian_Spec Pixels_Model Pixels_Spec Pixels_Proofs GMix_Model GMix_Spec GMix_Proofs GMixObj_Model GMixObj_Proofs
  Render_Model Render_Spec Render_Proofs Priors_Model Joint_Model Joint_Spec Joint_Proofs Fit_Model Fit_Spec Fit_Proofs Fit2_Proofs Fit3_Proofs Truth_Spec.
Local Open Scope R_scope.

(** ** one observation *)
Lemma describes_pixel image weight j ig px : nrow weight = nrow image -> ncol weight = ncol image -> make_pixels image weight j ig = Ok px ->
  forall p, In p px -> exists r c, (r < nrow image)%nat /\ (c < ncol image)%nat /\ describes image weight j (r, c) p.
Proof.
  intros HR HC E p Hp. destruct (make_pixels_spec image weight j ig HR HC) as [(E' & _)|(idx & l & E' & I & _ & D & _)]; [congruence|].
  assert (l = px) by congruence. subst l. clear E E'.
  assert (K : exists rc, In rc idx /\ describes image weight j rc p).
  { clear I. induction D as [|rc q idx l H D IH]; [contradiction|]. destruct Hp as [<-|Hp]; [exists rc; split; [left; reflexivity|exact H]|].
    destruct (IH Hp) as (rc' & A & B). exists rc'. split; [right; exact A|exact B]. }
  destruct K as ([r c] & A & B). destruct (proj1 (I (r, c)) A) as [[Ir Ic] _]. exists r, c. auto.
Qed.
Lemma drawn_fast o g : fresh_mix (o_data g) -> Forall evaluable (o_data g) -> drawn true o g ->
  exists px, fo_pixels o = Some px /\ forall p, In p px -> px_val p = mdl (o_data g) p.
Proof.
  intros Fr Ev (im & image & weight & ig & px & Ei & A & B & C & D & V & Ep & Eo). exists px. split; [exact Eo|]. intros p Hp.
  destruct (norms_if_needed _ (fresh_good _ Fr Ev)) as (gm' & E & S & N).
  destruct (make_image_gen (o_data g) (fo_nr o) (fo_nc o) (fo_jac o) true (fun gm' k => Some (fastval gm' (cd_v k) (cd_u k) (cd_area k))) gm' E) as (im' & Ei' & _ & _ & W).
  { intros c. rewrite fastval_eq. reflexivity. }
  rewrite Ei' in Ei. injection Ei as ->.
  destruct (describes_pixel image weight (fo_jac o) ig px ltac:(congruence) ltac:(congruence) Ep p Hp) as (r & c & Hr & Hc & Mp & Ar & Va & _).
  rewrite A in Hr. rewrite B in Hc. destruct (W r c Hr Hc) as (k & Mk & Ak & Hv). rewrite (V r c Hr Hc) in Hv. cbn [nan_add] in Hv. injection Hv as Hv.
  unfold mdl. rewrite E. cbn [fst]. rewrite Va, Hv, Rplus_0_l. destruct Mp as [P1 P2], Mk as [K1 K2]. rewrite Ar, Ak. f_equal; congruence.
Qed.
Lemma drawn_exact o g : fresh_mix (o_data g) -> Forall evaluable (o_data g) -> drawn false o g ->
  exists px, fo_pixels o = Some px /\ forall p, In p px -> px_val p = pixel_model (o_data g) p /\ 0 <= px_area p /\ 0 <= px_ierr p.
Proof.
  intros Fr Ev (im & image & weight & ig & px & Ei & A & B & C & D & V & Ep & Eo). exists px. split; [exact Eo|]. intros p Hp.
  destruct (make_image_exact _ (fo_nr o) (fo_nc o) (fo_jac o) (fresh_good _ Fr Ev)) as (gm' & im' & Ei' & _ & _ & _ & _ & W).
  rewrite Ei' in Ei. injection Ei as ->.
  destruct (describes_pixel image weight (fo_jac o) ig px ltac:(congruence) ltac:(congruence) Ep p Hp) as (r & c & Hr & Hc & Mp & Ar & Va & Ve).
  rewrite A in Hr. rewrite B in Hc. pose proof (W r c _ _ Hr Hc Mp) as Hv. rewrite (V r c Hr Hc) in Hv. injection Hv as Hv.
  split; [|split; [rewrite Ar; apply pow2_ge_0|rewrite Ve; apply sqrt_pos]]. unfold pixel_model. rewrite Va, Hv, Ar. reflexivity.
Qed.

(** ** all of them *)
Lemma all_zero ms : forall (os : list fobs), Forall2 (fun o g => exists px, fo_pixels o = Some px /\ forall p, In p px -> px_val p = mdl (o_data g) p) os ms ->
  let px := map (fun o => match fo_pixels o with Some l => l | None => [] end) os in
  all_resid (map mdl (map o_data ms)) px = repeat 0 (length (all_resid (map mdl (map o_data ms)) px)) /\
  sum_over (fun m p => resid m p ^ 2) (map mdl (map o_data ms)) px = 0 /\
  sum_over (fun m p => px_val p * m p * px_ierr p ^ 2) (map mdl (map o_data ms)) px = sum_over (fun m p => m p ^ 2 * px_ierr p ^ 2) (map mdl (map o_data ms)) px.
Proof.
  intros os H. cbv zeta. unfold all_resid, sum_over. induction H as [|o g os ms (px & E & V) _ (I1 & I2 & I3)]; [repeat split|].
  cbn [map combine concat fst snd]. rewrite E. rewrite !rsum_app, app_length, repeat_app, I2, I3. split; [|split].
  - f_equal; [|exact I1]. rewrite map_length. clear - V. induction px as [|p px IH]; [reflexivity|]. cbn [map length repeat]. f_equal; [|apply IH; intros q Hq; apply V; right; exact Hq].
    unfold resid. rewrite (V p (or_introl eq_refl)). ring.
  - rewrite Rplus_0_r. clear - V. induction px as [|p px IH]; [reflexivity|]. cbn [map]. rewrite rsum_cons, IH by (intros q Hq; apply V; right; exact Hq).
    unfold resid. rewrite (V p (or_introl eq_refl)). ring.
  - f_equal. apply rsum_map_ext_in || idtac. clear - V. induction px as [|p px IH]; [reflexivity|]. cbn [map]. rewrite !rsum_cons, IH by (intros q Hq; apply V; right; exact Hq).
    rewrite (V p (or_introl eq_refl)). ring.
Qed.
Lemma all_small ms : forall (os : list fobs), Forall (fun g => forall p, Rabs (mdl (o_data g) p - pixel_model (o_data g) p) <= 4/100000 * peak (o_data g) * Rabs (px_area p)) ms ->
  Forall2 (fun o g => exists px, fo_pixels o = Some px /\ forall p, In p px -> px_val p = pixel_model (o_data g) p /\ 0 <= px_area p /\ 0 <= px_ierr p) os ms ->
  let px := map (fun o => match fo_pixels o with Some l => l | None => [] end) os in
  Forall2 (fun r s => Rabs r <= s) (all_resid (map mdl (map o_data ms)) px) (all_slack ms px) /\
  sum_over (fun m p => resid m p ^ 2) (map mdl (map o_data ms)) px <= rsum (map (fun s => s ^ 2) (all_slack ms px)).
Proof.
  intros os A H. cbv zeta.
  assert (K : forall px, Forall2 (fun r s => Rabs r <= s) (all_resid (map mdl (map o_data ms)) px) (all_slack ms px) ->
    sum_over (fun m p => resid m p ^ 2) (map mdl (map o_data ms)) px <= rsum (map (fun s => s ^ 2) (all_slack ms px))).
  { intros px F. rewrite <- all_resid_sq. induction F as [|r s l l' B _ IH]; [apply Rle_refl|]. cbn [map]. rewrite !rsum_cons. apply Rplus_le_compat; [|exact IH].
    rewrite <- (pow2_abs r). apply pow_incr. split; [apply Rabs_pos|exact B]. }
  assert (G : Forall2 (fun r s => Rabs r <= s) (all_resid (map mdl (map o_data ms)) (map (fun o => match fo_pixels o with Some l => l | None => [] end) os))
    (all_slack ms (map (fun o => match fo_pixels o with Some l => l | None => [] end) os))); [|split; [exact G|apply K; exact G]].
  clear K. unfold all_resid, all_slack. induction H as [|o g os ms (px & E & V) _ IH]; [constructor|]. apply Forall_cons_iff in A. destruct A as [A1 A2].
  cbn [map combine concat fst snd]. rewrite E. apply Forall2_app; [|apply IH; exact A2]. clear - V A1.
  induction px as [|p px IH]; cbn [map]; constructor; [|apply IH; intros q Hq; apply V; right; exact Hq].
  destruct (V p (or_introl eq_refl)) as (Va & Pa & Pe). unfold resid, slack. rewrite Va, Rabs_mult. rewrite (Rabs_right (px_ierr p)) by lra.
  apply Rmult_le_compat_r; [exact Pe|]. eapply Rle_trans; [apply A1|]. rewrite (Rabs_right (px_area p)) by lra. apply Rle_refl.
Qed.

Lemma Forall2_weak {A B} (P Q : A -> B -> Prop) (S : B -> Prop) l l' : (forall a b, S b -> P a b -> Q a b) -> Forall S l' -> Forall2 P l l' -> Forall2 Q l l'.
Proof. intros H FS H2. induction H2 as [|a b l l' X _ IH]; constructor; apply Forall_cons_iff in FS; [apply H; [apply FS|exact X]|apply IH; apply FS]. Qed.
Section Truth.
Variables (m : fmodel) (obs : list (list fobs)) (prior : option jprior) (F : fit) (k : nat).
Hypothesis Ft : fit_of m obs prior F.
Hypothesis Hm : m <> FCoellip 0.
Hypothesis Hp : prior_ok prior k.
Hypothesis Hk : (k <= f_n_prior F)%nat.
Hypothesis Hu : uniform_psf obs.

Lemma mixtures_fresh pars ms : length pars = n_pars m obs -> mixtures F pars = Ok ms -> Forall (fun g => fresh_mix (o_data g)) ms.
Proof.
  intros Lp Em. pose proof (fit_made _ _ _ _ Ft) as M. destruct (proj1 (mixtures_bands m obs prior F Ft Hu pars Lp) ms Em) as (ds & Ed & Eq').
  assert (Hm' : f_model F <> FCoellip 0) by (rewrite (md_model _ _ _ _ M); exact Hm).
  destruct (bands_fresh _ _ _ _ Hm' _ _ Ed) as [Fr _]. rewrite <- Eq' in Fr. clear - Fr. induction ms; cbn [map] in Fr; constructor; apply Forall_cons_iff in Fr; [apply Fr|apply IHms; apply Fr].
Qed.
Lemma truth_fast pars ms L : length pars = n_pars m obs -> in_range F pars ms -> prior_value prior pars = Ok L -> noiseless true obs ms ->
  exists pr r, length pr = k /\ encode pr L /\ snd (calc_fdiff F pars) = Ok (pr ++ repeat (Fin 0) (f_size F - k)) /\
    snd (calc_lnprob F pars) = Ok r /\ l_lnprob r = xadd (Fin 0) L /\ l_numer r = l_denom r.
Proof.
  intros Lp [Em Ee] Ev Hn. pose proof (fit_made _ _ _ _ Ft) as M. destruct (proj1 (mixtures_bands m obs prior F Ft Hu pars Lp) ms Em) as (ds & Ed & Eq').
  pose proof (proj2 (evaluable_map _ _ Eq') Ee) as G. destruct (evaluate_good m obs prior F k Ft Hm Hp Hk pars ds L Ed Ev G) as ((pr & Lpr & En & Ef) & El & La).
  rewrite <- Eq' in Ef, El, La.
  assert (Z : Forall2 (fun o g => exists px, fo_pixels o = Some px /\ forall p, In p px -> px_val p = mdl (o_data g) p) (concat obs) ms).
  { apply (Forall2_weak (drawn true) _ (fun g => fresh_mix (o_data g) /\ Forall evaluable (o_data g))); [intros o g [A B]; apply drawn_fast; assumption| |exact Hn].
    pose proof (mixtures_fresh _ _ Lp Em) as Q. apply Forall_forall. intros g Hg. rewrite Forall_forall in Q, Ee. split; [apply Q|apply Ee]; exact Hg. }
  destruct (all_zero ms (concat obs) Z) as (Z1 & Z2 & Z3). fold (pixels_of obs) in Z1, Z2, Z3. exists pr. eexists. split; [exact Lpr|]. split; [exact En|]. split; [|split; [exact El|split]].
  - rewrite Ef. f_equal. f_equal. rewrite La in Z1. rewrite Z1. pose proof (md_size _ _ _ _ M) as Sz.
    replace (f_size F - k)%nat with (f_totpix F + (f_n_prior F - k))%nat by lia. rewrite repeat_app. f_equal. clear. induction (f_totpix F); cbn; congruence.
  - cbn [l_lnprob]. rewrite Z2. f_equal. f_equal. lra.
  - cbn [l_numer l_denom]. exact Z3.
Qed.
Lemma truth_exact pars ms L : length pars = n_pars m obs -> in_range F pars ms -> prior_value prior pars = Ok L -> noiseless false obs ms ->
  exists pr rs x r, length pr = k /\ encode pr L /\ snd (calc_fdiff F pars) = Ok (pr ++ map Fin rs ++ repeat (Fin 0) (f_n_prior F - k)) /\
    Forall2 (fun r s => Rabs r <= s) rs (all_slack ms (pixels_of obs)) /\
    snd (calc_lnprob F pars) = Ok r /\ l_lnprob r = xadd (Fin x) L /\ - rsum (map (fun s => s ^ 2) (all_slack ms (pixels_of obs))) / 2 <= x.
Proof.
  intros Lp [Em Ee] Ev Hn. pose proof (fit_made _ _ _ _ Ft) as M. destruct (proj1 (mixtures_bands m obs prior F Ft Hu pars Lp) ms Em) as (ds & Ed & Eq').
  pose proof (proj2 (evaluable_map _ _ Eq') Ee) as G. destruct (evaluate_good m obs prior F k Ft Hm Hp Hk pars ds L Ed Ev G) as ((pr & Lpr & En & Ef) & El & La).
  rewrite <- Eq' in Ef, El, La. pose proof (mixtures_fresh _ _ Lp Em) as Q.
  assert (Z : Forall2 (fun o g => exists px, fo_pixels o = Some px /\ forall p, In p px -> px_val p = pixel_model (o_data g) p /\ 0 <= px_area p /\ 0 <= px_ierr p) (concat obs) ms).
  { apply (Forall2_weak (drawn false) _ (fun g => fresh_mix (o_data g) /\ Forall evaluable (o_data g))); [intros o g [A B]; apply drawn_exact; assumption| |exact Hn].
    apply Forall_forall. intros g Hg. rewrite Forall_forall in Q, Ee. split; [apply Q|apply Ee]; exact Hg. }
  destruct (all_small ms (concat obs)) as (Z1 & Z2); [|exact Z|].
  { apply Forall_forall. intros g Hg p. rewrite Forall_forall in Q, Ee. exact (proj1 (eval_good _ (Q g Hg) (Ee g Hg) []) p). }
  fold (pixels_of obs) in Z1, Z2. exists pr, (all_resid (map mdl (map o_data ms)) (pixels_of obs)). eexists _, _. split; [exact Lpr|]. split; [exact En|]. split; [exact Ef|]. split; [exact Z1|].
  split; [exact El|]. cbn [l_lnprob]. split; [reflexivity|]. lra.
Qed.
Lemma sum_nonneg models px : 0 <= sum_over (fun m p => resid m p ^ 2) models px.
Proof. rewrite <- all_resid_sq. induction (all_resid models px) as [|x l IH]; [apply Rle_refl|]. cbn [map]. rewrite rsum_cons. pose proof (pow2_ge_0 x). lra. Qed.
(** no parameters do better than the prior allows *)
Lemma below_prior pars r L : prior_value prior pars = Ok L -> snd (calc_lnprob F pars) = Ok r ->
  l_lnprob r = NInf \/ exists x, x <= 0 /\ l_lnprob r = xadd (Fin x) L.
Proof.
  intros Ev Hr. destruct (bands_mix (f_model F) (f_dopsf F) pars 0 (f_obs F)) as [ds|e] eqn:Ed.
  - destruct (Classical_Prop.classic (Forall (Forall evaluable) (concat ds))) as [G|G].
    + destruct (evaluate_good m obs prior F k Ft Hm Hp Hk pars ds L Ed Ev G) as (_ & El & _). rewrite El in Hr. injection Hr as <-. right. exists (- sum_over (fun m p => resid m p ^ 2) (map mdl (concat ds)) (pixels_of obs) / 2). split; [|reflexivity].
      pose proof (sum_nonneg (map mdl (concat ds)) (pixels_of obs)). lra.
    + destruct (evaluate_bad m obs prior F k Ft Hm Hp Hk pars ds L Ed Ev G) as [_ El]. rewrite El in Hr. injection Hr as <-. left. reflexivity.
  - destruct (evaluate_raise m obs prior F Ft pars e Ed) as [_ El]. rewrite El, Ev in Hr. apply or_range_ok in Hr. subst r. left. reflexivity.
Qed.
End Truth.
(** without a prior, parameters in range that do as well leave no residual *)
Lemma perfect m obs F pars ms r : fit_of m obs None F -> m <> FCoellip 0 -> uniform_psf obs -> length pars = n_pars m obs -> in_range F pars ms ->
  snd (calc_lnprob F pars) = Ok r -> l_lnprob r = Fin 0 -> snd (calc_fdiff F pars) = Ok (repeat (Fin 0) (f_size F)).
Proof.
  intros Ft Hm Hu Lp [Em Ee] Hr H0. pose proof (fit_made _ _ _ _ Ft) as M.
  assert (Np : f_n_prior F = 0%nat) by (pose proof (md_nprior _ _ _ _ M) as N; destruct m; [exact N|apply N]).
  destruct (proj1 (mixtures_bands m obs None F Ft Hu pars Lp) ms Em) as (ds & Ed & Eq').
  destruct (evaluate_good m obs None F 0 Ft Hm eq_refl ltac:(lia) pars ds (Fin 0) Ed eq_refl (proj2 (evaluable_map _ _ Eq') Ee)) as ((pr & Lpr & _ & Ef) & El & La).
  destruct pr; [|discriminate]. cbn [app] in Ef. rewrite Np in Ef. cbn [Nat.sub repeat] in Ef. rewrite app_nil_r in Ef. rewrite Ef. f_equal.
  rewrite El in Hr. injection Hr as <-. cbn [l_lnprob xadd] in H0. injection H0 as H0. rewrite <- all_resid_sq in H0. pose proof (md_size _ _ _ _ M) as Sz.
  rewrite Np, Nat.add_0_r, <- La in Sz. rewrite Sz. clear - H0. induction (all_resid (map mdl (concat ds)) (pixels_of obs)) as [|x l IH]; [reflexivity|].
  cbn [map length repeat] in *. rewrite rsum_cons in H0.
  assert (P : 0 <= rsum (map (fun x => x ^ 2) l)) by (clear; induction l as [|y l IH]; [apply Rle_refl|]; cbn [map]; rewrite rsum_cons; pose proof (pow2_ge_0 y); lra).
  pose proof (pow2_ge_0 x) as Q. f_equal; [f_equal; apply Rsqr_0_uniq; unfold Rsqr; nra|apply IH; lra].
Qed.
