From Verif Require Import Base XReal Pixels_Model Jacobian_Model GMix_Model GMix_Spec GMixObj_Model GMixObj_Proofs Render_Model Render_Spec Render_Proofs
  FastExp_Model Priors_Model Joint_Model Fit_Model Fit_Spec Fit_Proofs Fit2_Proofs Fit3_Proofs Units_Spec Units_Proofs Coords_Spec Coords_Proofs FitUnits_Spec FitUnits_Proofs FitUnits2_Proofs FitUnits3_Proofs FluxLik_Spec FluxFit_Proofs.
Local Open Scope R_scope.

(** ** parameters of one band *)
Definition all_times (c : R) (m : mname) (p : list R) : list R := map (fun i => par_factor c 1 1 (FName m) i * nth i p 0) (seq 0 (length p)).
Lemma all_times_units c m p : pars_units c 1 1 (FName m) p (all_times c m p).
Proof.
  unfold all_times. split; [rewrite map_length, seq_length; reflexivity|]. intros i. destruct (Nat.ltb_spec i (length p)) as [H|H].
  - rewrite (nth_indep _ 0 (par_factor c 1 1 (FName m) 0 * nth 0 p 0)) by (rewrite map_length, seq_length; exact H).
    rewrite (map_nth (fun i => par_factor c 1 1 (FName m) i * nth i p 0)), seq_nth by exact H. reflexivity.
  - rewrite !nth_overflow; [ring|exact H|rewrite map_length, seq_length; exact H].
Qed.
Lemma factor_start c m i : par_factor c 1 1 (FName m) i = if Nat.ltb i (flux_start m) then 1 else c.
Proof. destruct m, i as [|[|[|[|[|[|[|i]]]]]]]; cbn; try ring; reflexivity. Qed.
Lemma nth_same {X} (d : X) : forall l l', length l = length l' -> (forall i, nth i l d = nth i l' d) -> l = l'.
Proof. intros l l' L H. apply (nth_ext _ _ d d L). intros i _. apply H. Qed.
Lemma band_pars_b m p p' cs b : band_fluxes (flux_start m) cs p p' -> band_pars_of (FName m) p' b = band_pars_of (FName m) (all_times (nth b cs 0) m p) b.
Proof.
  intros [L H]. set (c := nth b cs 0). destruct (all_times_units c m p) as [L2 H2]. set (q := all_times c m p) in *.
  assert (E : forall num, slice_and_one num (flux_start m) b p' = slice_and_one num (flux_start m) b q).
  { intros num. unfold slice_and_one. rewrite L, L2. destruct (_ && _)%bool; [reflexivity|].
    assert (E1 : firstn (flux_start m) p' = firstn (flux_start m) q).
    { apply (nth_same 0); [rewrite !firstn_length, L, L2; reflexivity|]. intros i. rewrite !nth_firstn'. destruct (Nat.ltb i (flux_start m)) eqn:Ei; [|reflexivity]. rewrite H, H2, factor_start, Ei. ring. }
    assert (E2 : nth_error p' (flux_start m + b) = nth_error q (flux_start m + b)).
    { assert (N : nth (flux_start m + b) p' 0 = nth (flux_start m + b) q 0).
      { rewrite H, H2, factor_start. rewrite (proj2 (Nat.ltb_ge _ _)) by lia. replace (flux_start m + b - flux_start m)%nat with b by lia. reflexivity. }
      destruct (nth_error p' (flux_start m + b)) as [x|] eqn:X, (nth_error q (flux_start m + b)) as [y|] eqn:Y.
      - rewrite (nth_error_nth _ _ 0 X), (nth_error_nth _ _ 0 Y) in N. congruence.
      - apply nth_error_None in Y. assert (flux_start m + b < length p')%nat by (apply nth_error_Some; congruence). lia.
      - apply nth_error_None in X. assert (flux_start m + b < length q)%nat by (apply nth_error_Some; congruence). lia.
      - reflexivity. }
    rewrite E1, E2. reflexivity. }
  unfold band_pars_of, get_band_pars. destruct m; apply E.
Qed.

(** ** mixtures of all bands *)
Fixpoint RB (cs : list R) (ds ds' : list (list gmix)) {struct ds} : Prop :=
  match ds, ds' with
  | [], [] => True
  | d :: ds, d' :: ds' => match cs with c :: cs => Forall2 (WU c 1 1) d d' /\ RB cs ds ds' | [] => False end
  | _, _ => False
  end.
Lemma bands_multi m dopsf p p' cs tot : band_fluxes (flux_start m) cs p p' -> length p = n_pars (FName m) tot -> length cs = length tot ->
  forall obs b, (b + length obs <= length tot)%nat -> same_outcome (RB (skipn b cs)) (bands_mix (FName m) dopsf p b obs) (bands_mix (FName m) dopsf p' b obs).
Proof.
  intros H L LC. induction obs as [|os obs IH]; intros b Hb; cbn [bands_mix]; [exact I|]. cbn [length] in Hb.
  rewrite (band_pars_b m p p' cs b H). set (c := nth b cs 0).
  pose proof (band_pars_units c 1 1 (FName m) p _ b (all_times_units c m p)) as B. destruct (band_pars_ok (FName m) tot p b L ltac:(lia)) as (bp & E & Lb). rewrite E in *. destruct (band_pars_of (FName m) (all_times c m p) b) as [bp'|]; cbn [same_outcome] in B; [|contradiction].
  cbn [bind]. eapply same_bind; [apply mapM_same; intros o _; apply (one_units c 1 1 one_one (FName m) dopsf bp bp' o (dim c o) B Lb (dim_units c o))|]. intros l l' HL.
  eapply same_bind; [apply IH; lia|]. intros r r' HR. cbn [same_outcome].
  assert (X : skipn b cs = c :: skipn (S b) cs). { unfold c. assert (LT : (b < length cs)%nat) by lia. clear - LT. revert b LT. induction cs as [|y cs IH]; intros [|b] LT; cbn in *; try lia; [reflexivity|]. apply IH. lia. }
  rewrite X. split; assumption.
Qed.

(** ** sums *)
Definition padd (s t : lik) : lik := let '(a, b, d, k) := s in let '(a', b', d', k') := t in (a + a', b + b', d + d', (k + k')%nat).
Definition z0 : lik := (0, 0, 0, 0%nat).
Lemma padd_assoc a b c : padd (padd a b) c = padd a (padd b c).
Proof. destruct a as [[[? ?] ?] ?], b as [[[? ?] ?] ?], c as [[[? ?] ?] ?]. unfold padd. repeat (f_equal; [|ring || lia]); [ring]. Qed.
Lemma padd_z s : padd s z0 = s.
Proof. destruct s as [[[? ?] ?] ?]. unfold padd, z0. rewrite !Rplus_0_r, Nat.add_0_r. reflexivity. Qed.
Lemma step_shift s t x : like_step (padd s t) x = rmap (padd s) (like_step t x).
Proof.
  unfold like_step. destruct (obs_pixels (fst x)); [|reflexivity]. cbn [bind]. destruct (snd (get_loglike (snd x) l)) as [[[[? ?] ?] ?]|]; [|reflexivity]. cbn [bind].
  destruct s as [[[? ?] ?] ?], t as [[[? ?] ?] ?]. unfold padd. cbn [rmap]. repeat (f_equal; try (ring || lia)).
Qed.
Lemma fold_shift l : forall s t, foldM like_step l (padd s t) = rmap (padd s) (foldM like_step l t).
Proof. induction l as [|x l IH]; intros s t; cbn [foldM]; [reflexivity|]. rewrite step_shift. destruct (like_step t x); cbn [rmap bind]; [apply IH|reflexivity]. Qed.
Lemma combine_app2 {X Y} (a : list X) (c : list Y) : length a = length c -> forall b d, combine (a ++ b) (c ++ d) = combine a c ++ combine b d.
Proof. revert c. induction a as [|x a IH]; intros [|y c] L b d; cbn in L; try lia; [reflexivity|]. cbn [app combine]. f_equal. apply IH. lia. Qed.
Definition par (c : R) (t : lik) : lik := let '(l, n, d, k) := t in (parabola (l - n + d / 2) n d c, c * n, c ^ 2 * d, k).
Lemma flux_par c s s' : flux_lik c s s' -> s' = par c s.
Proof. destruct s as [[[? ?] ?] ?], s' as [[[? ?] ?] ?]. intros (-> & -> & -> & -> & _). reflexivity. Qed.
Definition one_band (x : list fobs * list gmix) : res lik := foldM like_step (combine (fst x) (snd x)) z0.
Lemma bands_fold obs : forall cs ds ds', RB cs ds ds' -> Forall2 (fun os l => length os = length l) obs ds -> forall s,
  match mapM one_band (combine obs ds) with
  | Ok ts => foldM like_step (combine (concat obs) (concat ds')) s = Ok (fold_left padd (map (fun x => par (fst x) (snd x)) (combine cs ts)) s) /\ length ts = length ds
  | Raise e => foldM like_step (combine (concat obs) (concat ds')) s = Raise e
  end.
Proof.
  induction obs as [|os obs IH]; intros cs ds ds' H LL s; inversion LL as [|? d ? ds0 L0 LL0]; subst.
  - destruct ds'; [|contradiction]. cbn. destruct cs; split; reflexivity.
  - destruct ds' as [|d' ds']; [contradiction|]. destruct cs as [|c cs]; [contradiction|]. destruct H as [W H]. cbn [combine mapM concat].
    assert (L1 : length os = length d') by (rewrite L0; apply (Forall2_length _ _ _ W)). rewrite (combine_app2 _ _ L1), foldM_app.
    assert (S0 : flux_lik c z0 z0) by (cbn; unfold parabola; repeat split; lra).
    pose proof (like_fold_c c os d d' W z0 z0 S0) as Q. unfold one_band at 1. cbn [fst snd]. replace (foldM like_step (combine os d') s) with (rmap (padd s) (foldM like_step (combine os d') z0)) by (rewrite <- fold_shift, padd_z; reflexivity).
    destruct (foldM like_step (combine os d) z0) as [t|e], (foldM like_step (combine os d') z0) as [t'|e']; cbn [same_outcome] in Q; try contradiction; cbn [rmap bind]; [|congruence].
    apply flux_par in Q. subst t'. specialize (IH cs ds0 ds' H LL0 (padd s (par c t))). destruct (mapM one_band (combine obs ds0)) as [ts|e]; cbn [bind]; [|exact IH].
    destruct IH as [-> IHL]. cbn [combine map fold_left fst snd length]. split; [reflexivity|congruence].
Qed.
Lemma bands_lengths m dopsf p obs : forall b ds, bands_mix m dopsf p b obs = Ok ds -> Forall2 (fun os l => length os = length l) obs ds.
Proof.
  assert (ML : forall X Y (g : X -> res Y) l r, mapM g l = Ok r -> length l = length r).
  { intros X Y g. induction l as [|x l IH]; intros r E; cbn [mapM] in E; [injection E as <-; reflexivity|]. destruct (g x); [|discriminate]. cbn [bind] in E. destruct (mapM g l); [|discriminate]. injection E as <-. cbn. f_equal. apply IH. reflexivity. }
  induction obs as [|os obs IH]; intros b ds E; cbn [bands_mix] in E; [injection E as <-; constructor|]. destruct (band_pars_of m p b); [|discriminate]. cbn [bind] in E.
  destruct (mapM (one_mix m dopsf l) os) as [l1|] eqn:E1; [|discriminate]. cbn [bind] in E. destruct (bands_mix m dopsf p (S b) obs) eqn:E2; [|discriminate]. injection E as <-. constructor; [exact (ML _ _ _ _ _ E1)|eapply IH; exact E2].
Qed.
Definition term (t : lik) : R * R * R := let '(l, n, d, _) := t in (l - n + d / 2, n, d).
Definition npix_of (ts : list lik) : nat := list_sum (map (fun t : lik => snd t) ts).
Lemma fold_terms cs : forall ts s, length cs = length ts -> fold_left padd (map (fun x => par (fst x) (snd x)) (combine cs ts)) s =
  padd s (sum_bands (fun c t => let '(l0, n, d) := t in parabola l0 n d c) cs (map term ts), sum_bands (fun c t => let '(_, n, _) := t in c * n) cs (map term ts),
          sum_bands (fun c t => let '(_, _, d) := t in c ^ 2 * d) cs (map term ts), npix_of ts).
Proof.
  induction cs as [|c cs IH]; intros [|[[[l n] d] k] ts] s L; cbn in L; try lia.
  - unfold sum_bands, npix_of. cbn [combine map fold_left list_sum fold_right]. rewrite rsum_nil. symmetry. apply padd_z.
  - cbn [combine map fold_left fst snd]. rewrite IH by lia. rewrite padd_assoc. apply f_equal. unfold sum_bands, npix_of. cbn [combine map fst snd term list_sum fold_right]. rewrite !rsum_cons. reflexivity.
Qed.

Lemma loglike_den w px l n d k : snd (get_loglike w px) = Ok (l, n, d, k) -> 0 <= d.
Proof.
  unfold get_loglike. destruct (set_norms_if_needed w) as [v [[]|]]; [|discriminate]. cbn [snd bind]. rewrite loglike_sum. cbn [bind]. intros E.
  match type of E with Ok (_, _, ?x, _) = _ => assert (Q : d = x) by congruence end. rewrite Q. clear. rewrite Rplus_0_l.
  induction px as [|p px IH]; cbn [map]; rewrite ?rsum_nil, ?rsum_cons; [lra|]. pose proof (pow2_ge_0 (fastval v (px_v p) (px_u p) (px_area p) * px_ierr p)) as Z. rewrite Rpow_mult_distr in Z. lra.
Qed.
Lemma fold_den l : forall s t, foldM like_step l s = Ok t -> snd (fst s) <= snd (fst t).
Proof.
  induction l as [|x l IH]; intros s t E; cbn [foldM] in E; [injection E as <-; lra|]. destruct (like_step s x) as [u|] eqn:U; [|discriminate]. cbn [bind] in E. apply IH in E. eapply Rle_trans; [|exact E].
  unfold like_step in U. destruct (obs_pixels (fst x)) as [px|]; [|discriminate]. cbn [bind] in U. destruct (snd (get_loglike (snd x) px)) as [[[[l1 n1] d1] k1]|] eqn:G; [|discriminate]. cbn [bind] in U.
  pose proof (loglike_den _ _ _ _ _ _ G) as D. destruct s as [[[? ?] ?] ?]. injection U as <-. cbn [fst snd]. lra.
Qed.
Lemma terms_den l : forall ts, mapM one_band l = Ok ts -> Forall (fun t => 0 <= snd t) (map term ts).
Proof.
  induction l as [|x l IH]; intros ts E; cbn [mapM] in E; [injection E as <-; constructor|]. destruct (one_band x) as [t|] eqn:T; [|discriminate]. cbn [bind] in E. destruct (mapM one_band l) as [r|]; [|discriminate]. injection E as <-.
  cbn [map]. constructor; [|apply IH; reflexivity]. apply fold_den in T. destruct t as [[[? ?] ?] ?]. exact T.
Qed.

Theorem band_flux m obs prior F p : fit_of (FName m) obs prior F -> length p = n_pars (FName m) obs ->
  (exists r, (r = Ok ln_low \/ exists e, r = Raise e) /\ forall cs p' lp, length cs = length obs -> band_fluxes (flux_start m) cs p p' -> prior_value prior p' = Ok lp -> snd (calc_lnprob F p') = r) \/
  exists ts k, length ts = length obs /\ Forall (fun t => 0 <= snd t) ts /\ forall cs p' lp, length cs = length obs -> band_fluxes (flux_start m) cs p p' -> prior_value prior p' = Ok lp ->
    snd (calc_lnprob F p') = Ok (mkLn (xadd (Fin (sum_bands (fun c t => let '(l0, n, d) := t in parabola l0 n d c) cs ts)) lp)
      (sum_bands (fun c t => let '(_, n, _) := t in c * n) cs ts) (sum_bands (fun c t => let '(_, _, d) := t in c ^ 2 * d) cs ts) k).
Proof.
  intros Ft HL. pose proof (fit_made _ _ _ _ Ft) as M.
  destruct (bands_mix (FName m) (f_dopsf F) p 0 obs) as [ds|e] eqn:E.
  - pose proof (bands_lengths _ _ _ _ _ _ E) as LL. destruct (mapM one_band (combine obs ds)) as [ts|e] eqn:T.
    + right. exists (map term ts), (npix_of ts).
      assert (LT : length ts = length ds). { pose proof (mapM_length _ _ _ T) as X. rewrite X, combine_length, (Forall2_length _ _ _ LL). lia. }
      split; [rewrite map_length, LT; symmetry; apply (Forall2_length _ _ _ LL)|]. split; [eapply terms_den; exact T|]. intros cs p' lp LC HB HP. rewrite (core_lnprob _ _ _ _ _ _ Ft HP). unfold core. rewrite (md_model _ _ _ _ M), (md_obs _ _ _ _ M).
      pose proof (bands_multi m (f_dopsf F) p p' cs obs HB HL LC obs 0 ltac:(lia)) as S. rewrite E in S. destruct (bands_mix (FName m) (f_dopsf F) p' 0 obs) as [ds'|]; cbn [same_outcome skipn] in S; [|contradiction]. cbn [bind].
      pose proof (bands_fold obs cs ds ds' S LL z0) as B. rewrite T in B. destruct B as [B _]. fold z0. rewrite B. cbn [bind]. rewrite fold_terms by (rewrite LC, LT; apply (Forall2_length _ _ _ LL)).
      unfold padd, z0. rewrite !Rplus_0_l. reflexivity.
    + left. exists (or_range (Raise e) ln_low). split; [destruct e; cbn [or_range]; eauto|]. intros cs p' lp LC HB HP. rewrite (core_lnprob _ _ _ _ _ _ Ft HP). unfold core. rewrite (md_model _ _ _ _ M), (md_obs _ _ _ _ M).
      pose proof (bands_multi m (f_dopsf F) p p' cs obs HB HL LC obs 0 ltac:(lia)) as S. rewrite E in S. destruct (bands_mix (FName m) (f_dopsf F) p' 0 obs) as [ds'|]; cbn [same_outcome skipn] in S; [|contradiction]. cbn [bind].
      pose proof (bands_fold obs cs ds ds' S LL z0) as B. rewrite T in B. fold z0. rewrite B. reflexivity.
  - left. exists (or_range (Raise e) ln_low). split; [destruct e; cbn [or_range]; eauto|]. intros cs p' lp LC HB HP. rewrite (core_lnprob _ _ _ _ _ _ Ft HP). unfold core. rewrite (md_model _ _ _ _ M), (md_obs _ _ _ _ M).
    pose proof (bands_multi m (f_dopsf F) p p' cs obs HB HL LC obs 0 ltac:(lia)) as S. rewrite E in S. destruct (bands_mix (FName m) (f_dopsf F) p' 0 obs) as [ds'|]; cbn [same_outcome] in S; [contradiction|]. subst. reflexivity.
Qed.
