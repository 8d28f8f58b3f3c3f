From Coq Require Import Permutation.
From Verif Require Import Base XReal Pixels_Model GMix_Model GMixObj_Model Render_Model Render_Spec Priors_Model Joint_Model Fit_Model Fit_Spec
  Fit_Proofs Fit2_Proofs Fit3_Proofs Fit4_Proofs FitUnits3_Proofs Reorder_Spec.
From Verif Require GMixObj_Proofs.
Local Open Scope R_scope.

(** ** lists *)
Lemma mapM_perm {A B} (f : A -> res B) l l' : Permutation l l' -> forall ys, mapM f l = Ok ys ->
  exists ys', mapM f l' = Ok ys' /\ Permutation (combine l ys) (combine l' ys').
Proof.
  induction 1 as [|x a b P IH|x y a|a b c P1 I1 P2 I2]; intros ys E.
  - injection E as <-. exists []. split; [reflexivity|constructor].
  - cbn [mapM] in E |- *. destruct (f x) as [v|]; [|discriminate]. cbn [bind] in *. destruct (mapM f a) as [vs|]; [|discriminate]. injection E as <-.
    destruct (IH vs eq_refl) as (ys' & -> & Q). exists (v :: ys'). split; [reflexivity|]. cbn [combine]. constructor. exact Q.
  - cbn [mapM] in E |- *. destruct (f y) as [v|]; [|discriminate]. cbn [bind] in *. destruct (f x) as [w|]; [|discriminate]. cbn [bind] in *. destruct (mapM f a) as [vs|]; [|discriminate].
    injection E as <-. cbn [bind]. exists (w :: v :: vs). split; [reflexivity|]. cbn [combine]. constructor.
  - destruct (I1 ys E) as (y1 & E1 & Q1). destruct (I2 y1 E1) as (y2 & E2 & Q2). exists y2. split; [exact E2|]. eapply perm_trans; eassumption.
Qed.
Lemma rsum_perm l l' : Permutation l l' -> rsum l' = rsum l.
Proof. induction 1; rewrite ?rsum_cons in *; try reflexivity; lra. Qed.
Lemma concat_perm {A} (l l' : list (list A)) : Permutation l l' -> Permutation (concat l) (concat l').
Proof. induction 1; cbn [concat]; [constructor|apply Permutation_app_head; assumption|rewrite !app_assoc; apply Permutation_app_tail, Permutation_app_comm|eapply perm_trans; eassumption]. Qed.
Lemma snd_combine {A B} (l : list A) (k : list B) : length l = length k -> map snd (combine l k) = k.
Proof. revert k; induction l as [|x l IH]; intros [|y k] H; cbn in *; try discriminate; [reflexivity|f_equal; apply IH; lia]. Qed.
Lemma bands_snd {A} (l : list (list A)) : forall b, map snd (bands_from b l) = concat l.
Proof.
  unfold bands_from. induction l as [|os l IH]; intros b; [reflexivity|]. cbn [length seq combine map concat fst snd]. rewrite map_app, IH, map_map. cbn [snd]. rewrite map_id. reflexivity.
Qed.

(** ** every observation with the parameters of its band *)
Definition item : Type := (res (list R) * fobs)%type.
Definition items (m : fmodel) (p : list R) (obs : list (list fobs)) : list item := map (fun t => (band_pars_of m p (fst t), snd t)) (with_bands obs).
Definition mix_of (m : fmodel) (d : bool) (t : item) : res gmix := let* bp := fst t in one_mix m d bp (snd t).
Lemma items_snd m p obs : map snd (items m p obs) = concat obs.
Proof. unfold items. rewrite map_map. cbn [snd]. apply bands_snd. Qed.
Lemma items_mix m d p obs : length p = n_pars m obs -> rmap (@concat _) (bands_mix m d p 0 obs) = mapM (mix_of m d) (items m p obs).
Proof.
  intros L. rewrite bands_mix_flat. 2:{ intros i Hi. destruct (band_pars_ok m obs p i L Hi) as (bp & E & _). exists bp; exact E. }
  unfold items, with_bands. rewrite mapM_map'. reflexivity.
Qed.
Definition spread (sh : list R) (l : list (R * list fobs)) : list item := flat_map (fun x => map (fun o => (Ok (sh ++ [fst x]), o)) (snd x)) l.
Lemma items_spread m sh fl obs : m <> Mbdc -> length sh = n_shared m -> length fl = length obs -> items (FName m) (sh ++ fl) obs = spread sh (combine fl obs).
Proof.
  intros Hm Ls. unfold items, with_bands. cbn [band_pars_of].
  assert (G : forall pre fl, length fl = length obs -> map (fun t => (get_band_pars m (sh ++ pre ++ fl) (fst t), snd t)) (bands_from (length pre) obs) = spread sh (combine fl obs)).
  { clear fl. induction obs as [|os obs IH]; intros pre [|x fl] L; cbn in L; try discriminate; [reflexivity|].
    unfold bands_from. cbn [length seq combine map concat fst snd]. rewrite map_app. unfold spread. cbn [flat_map fst snd]. f_equal.
    - rewrite map_map. cbn [fst snd]. apply map_ext. intros o. f_equal. apply (band_pars_iff m _ _ _ Hm). exists x. split; [|split].
      + rewrite nth_error_app2 by lia. rewrite nth_error_app2 by lia. replace (n_shared m + length pre - length sh - length pre)%nat with 0%nat by lia. reflexivity.
      + rewrite firstn_app, <- Ls, firstn_all, Nat.sub_diag, firstn_O, app_nil_r. reflexivity.
      + rewrite app_length. cbn [length]. rewrite Ls. destruct m; cbn; lia || congruence.
    - specialize (IH (pre ++ [x]) fl ltac:(lia)). rewrite app_length in IH. cbn [length] in IH. rewrite Nat.add_1_r in IH. rewrite <- app_assoc in IH. exact IH. }
  intros Lf. exact (G [] fl Lf).
Qed.
Lemma spread_perm sh l l' : same_bands l l' -> Permutation (spread sh l) (spread sh l').
Proof.
  intros (l1 & P & F). apply perm_trans with (spread sh l1); [unfold spread; apply Permutation_flat_map; exact P|].
  clear P. induction F as [|x y l1 l' [E Q] _ IH]; [constructor|]. unfold spread. cbn [flat_map]. apply Permutation_app; [|exact IH]. rewrite E. apply Permutation_map. exact Q.
Qed.
Lemma bands_count l l' : same_bands l l' -> length l' = length l.
Proof. intros (l1 & P & F). rewrite <- (Forall2_length _ _ _ F), (Permutation_length P). reflexivity. Qed.

Section Reordered.
Variables (m : fmodel) (obs obs' : list (list fobs)) (p p' : list R).
Hypothesis Hb : m <> FName Mbdc.
Hypothesis HR : reordered m obs p obs' p'.

Lemma bands_same : length obs' = length obs.
Proof.
  unfold reordered in HR. destruct m.
  - destruct HR as (sh & fl & fl' & _ & _ & _ & L & L' & B). apply bands_count in B. rewrite !combine_length in B. lia.
  - destruct HR as (_ & _ & os & os' & -> & -> & _). reflexivity.
Qed.
Lemma pars_lengths : length p = n_pars m obs /\ length p' = n_pars m obs'.
Proof.
  unfold reordered in HR. destruct m.
  - destruct HR as (sh & fl & fl' & -> & -> & L0 & L & L' & B). rewrite !app_length. unfold n_pars, n_shared in *. lia.
  - destruct HR as (-> & L & _). cbn [n_pars]. split; exact L.
Qed.
Lemma items_perm : Permutation (items m p obs) (items m p' obs').
Proof.
  pose proof HR as H. unfold reordered in H. destruct m as [mn|n].
  - destruct H as (sh & fl & fl' & -> & -> & L0 & L & L' & B). assert (mn <> Mbdc) by congruence. rewrite !items_spread by assumption. apply spread_perm. exact B.
  - destruct H as (-> & _ & os & os' & -> & -> & P). unfold items, with_bands, bands_from. cbn [length seq combine map concat fst snd]. rewrite !app_nil_r. rewrite !map_map. cbn [fst snd]. apply Permutation_map. exact P.
Qed.
Lemma obs_perm : Permutation (concat obs) (concat obs').
Proof. rewrite <- (items_snd m p obs), <- (items_snd m p' obs'). apply Permutation_map, items_perm. Qed.
Lemma uniform_perm : uniform_psf obs -> uniform_psf obs'.
Proof. intros [U|U]; [left|right]; intros o I; apply U; apply (Permutation_in o (Permutation_sym obs_perm)); exact I. Qed.

Variables (prior prior' : option jprior) (F F' : fit) (k : nat).
Hypothesis Hm : m <> FCoellip 0.
Hypothesis Ft : fit_of m obs prior F.
Hypothesis Ft' : fit_of m obs' prior' F'.
Hypothesis HU : uniform_psf obs.
Hypothesis HP : same_prior prior prior' p p' k.
Hypothesis Hk : (k <= f_n_prior F)%nat.
Let M := fit_made _ _ _ _ Ft.
Let M' := fit_made _ _ _ _ Ft'.

Lemma dopsf_reordered : f_dopsf F' = f_dopsf F.
Proof.
  destruct (md_first _ _ _ _ M) as (o & os & l & E & ->), (md_first _ _ _ _ M') as (o' & os' & l' & E' & ->).
  assert (I : In o (concat obs)) by (rewrite E; left; reflexivity). assert (I' : In o' (concat obs)).
  { apply (Permutation_in o' (Permutation_sym obs_perm)). rewrite E'. left; reflexivity. }
  destruct HU as [U|U]; rewrite (U o I), (U o' I'); reflexivity.
Qed.
Lemma nprior_reordered : f_n_prior F' = f_n_prior F.
Proof.
  pose proof (md_nprior _ _ _ _ M) as A. pose proof (md_nprior _ _ _ _ M') as A'. rewrite bands_same in A'. destruct HP as (_ & _ & _ & N).
  destruct m; destruct prior, prior'; try (exfalso; destruct N as [N1 N2]; (discriminate (N1 eq_refl) || discriminate (N2 eq_refl))); try congruence; destruct A, A'; congruence.
Qed.
Lemma pix_same l l' : @Permutation fobs l l' -> forall px px', mapM obs_pixels l = Ok px -> mapM obs_pixels l' = Ok px' -> Permutation px px'.
Proof.
  clear. intros P px px' E E'. destruct (mapM_perm obs_pixels l l' P px E) as (q & E1 & Q). rewrite E' in E1. injection E1 as <-.
  rewrite <- (snd_combine l px), <- (snd_combine l' px') by (symmetry; eapply mapM_len; eassumption). apply Permutation_map. exact Q.
Qed.
Lemma sizes_reordered : f_totpix F' = f_totpix F /\ f_size F' = f_size F.
Proof.
  assert (T : f_totpix F' = f_totpix F).
  { rewrite (md_totpix _ _ _ _ M), (md_totpix _ _ _ _ M'). pose proof (pix_same _ _ obs_perm _ _ (md_pixels _ _ _ _ M) (md_pixels _ _ _ _ M')) as P.
    clear - P. induction P; cbn [map list_sum fold_right]; unfold list_sum in *; cbn [fold_right] in *; lia. }
  split; [exact T|]. rewrite (md_size _ _ _ _ M), (md_size _ _ _ _ M'), T, nprior_reordered. reflexivity.
Qed.

(** the mixtures of the two evaluations *)
Lemma mix_reordered ds : bands_mix (f_model F) (f_dopsf F) p 0 (f_obs F) = Ok ds ->
  exists ds', bands_mix (f_model F') (f_dopsf F') p' 0 (f_obs F') = Ok ds' /\ length (concat ds) = length (concat obs) /\ length (concat ds') = length (concat obs') /\
    Permutation (combine (concat obs) (concat ds)) (combine (concat obs') (concat ds')).
Proof.
  intros E. rewrite dopsf_reordered, (md_model _ _ _ _ M'), (md_obs _ _ _ _ M'). rewrite (md_model _ _ _ _ M), (md_obs _ _ _ _ M) in E. destruct pars_lengths as [L L'].
  pose proof (items_mix m (f_dopsf F) p obs L) as I. rewrite E in I. cbn [rmap] in I. symmetry in I.
  destruct (mapM_perm _ _ _ items_perm _ I) as (ys & I' & Q). pose proof (items_mix m (f_dopsf F) p' obs' L') as J. rewrite I' in J.
  destruct (bands_mix m (f_dopsf F) p' 0 obs') as [ds'|]; [|discriminate]. cbn [rmap] in J. injection J as <-. exists ds'. split; [reflexivity|].
  pose proof (mapM_len _ _ _ I) as L1. pose proof (mapM_len _ _ _ I') as L2.
  rewrite L1, L2, <- (items_snd m p obs), <- (items_snd m p' obs'), !map_length. split; [reflexivity|]. split; [reflexivity|].
  assert (C : forall (l : list item) (y : list gmix), combine (map snd l) y = map (fun x => (snd (fst x), snd x)) (combine l y)).
  { clear. induction l as [|a l IH]; intros [|y ys]; cbn [combine map fst snd]; try reflexivity. f_equal. apply IH. }
  rewrite !C. apply Permutation_map. exact Q.
Qed.
Lemma evaluable_reordered (l l' : list fobs) (d d' : list gmix) : length d = length l -> length d' = length l' -> Permutation (combine l d) (combine l' d') ->
  Permutation d d'.
Proof. clear. intros L L' P. rewrite <- (snd_combine l d), <- (snd_combine l' d') by auto. apply Permutation_map. exact P. Qed.
Definition opix (o : fobs) : list (pixel R) := match fo_pixels o with Some l => l | None => [] end.
Lemma paired (l : list fobs) (d : list gmix) : combine (map mdl d) (map opix l) = map (fun x => (mdl (snd x), opix (fst x))) (combine l d).
Proof. clear. revert d. induction l as [|o l IH]; intros [|x d]; cbn [combine map fst snd]; try reflexivity. f_equal. apply IH. Qed.
Lemma terms_perm (h : (pixel R -> R) -> pixel R -> R) l l' d d' : Permutation (combine l d) (combine l' d') ->
  Permutation (concat (map (fun mp => map (h (fst mp)) (snd mp)) (combine (map mdl d) (map opix l)))) (concat (map (fun mp => map (h (fst mp)) (snd mp)) (combine (map mdl d') (map opix l')))).
Proof. clear. intros P. apply concat_perm, Permutation_map. rewrite !paired. apply Permutation_map. exact P. Qed.

Lemma good_reordered ds L : bands_mix (f_model F) (f_dopsf F) p 0 (f_obs F) = Ok ds -> prior_value prior p = Ok L -> Forall (Forall evaluable) (concat ds) ->
  snd (calc_lnprob F' p') = snd (calc_lnprob F p) /\
  exists pr pr' d d', length pr = k /\ length pr' = k /\ encode pr L /\ encode pr' L /\ Permutation d d' /\
    snd (calc_fdiff F p) = Ok (pr ++ map Fin d ++ repeat (Fin 0) (f_n_prior F - k)) /\ snd (calc_fdiff F' p') = Ok (pr' ++ map Fin d' ++ repeat (Fin 0) (f_n_prior F - k)).
Proof.
  intros E V G. destruct (mix_reordered ds E) as (ds' & E' & L1 & L2 & Q). pose proof (evaluable_reordered _ _ _ _ L1 L2 Q) as QD.
  assert (G' : Forall (Forall evaluable) (concat ds')) by (eapply Permutation_Forall; eassumption).
  destruct HP as (P1 & P2 & P3 & P4). rewrite <- P3 in V.
  destruct (evaluate_good m obs' prior' F' k Ft' Hm P2 ltac:(rewrite nprior_reordered; exact Hk) p' ds' L E' V G') as ((pr' & A1 & A2 & A3) & A4 & _).
  rewrite P3 in V. destruct (evaluate_good m obs prior F k Ft Hm P1 Hk p ds L E V G) as ((pr & B1 & B2 & B3) & B4 & _).
  destruct sizes_reordered as [S1 S2]. rewrite nprior_reordered in A3. split.
  - rewrite A4, B4. change (pixels_of obs') with (map opix (concat obs')). change (pixels_of obs) with (map opix (concat obs)).
    unfold sum_over. rewrite (rsum_perm _ _ (terms_perm (fun m p => resid m p ^ 2) _ _ _ _ Q)), (rsum_perm _ _ (terms_perm (fun m p => px_val p * m p * px_ierr p ^ 2) _ _ _ _ Q)), (rsum_perm _ _ (terms_perm (fun m p => m p ^ 2 * px_ierr p ^ 2) _ _ _ _ Q)), S1. reflexivity.
  - do 4 eexists. split; [exact B1|]. split; [exact A1|]. split; [exact B2|]. split; [exact A2|]. split; [|split; [exact B3|exact A3]].
    apply (terms_perm resid). exact Q.
Qed.
Lemma bad_reordered ds : bands_mix (f_model F) (f_dopsf F) p 0 (f_obs F) = Ok ds -> ~ Forall (Forall evaluable) (concat ds) ->
  exists ds', bands_mix (f_model F') (f_dopsf F') p' 0 (f_obs F') = Ok ds' /\ ~ Forall (Forall evaluable) (concat ds').
Proof.
  intros E G. destruct (mix_reordered ds E) as (ds' & E' & L1 & L2 & Q). exists ds'. split; [exact E'|]. intros K. apply G.
  eapply Permutation_Forall; [apply Permutation_sym, (evaluable_reordered _ _ _ _ L1 L2 Q)|exact K].
Qed.

Lemma data_evaluable ms (ds : list (list gmix)) : map o_data ms = concat ds -> (Forall (Forall evaluable) (concat ds) <-> Forall (fun g => Forall evaluable (o_data g)) ms).
Proof. clear. intros <-. rewrite Forall_map. reflexivity. Qed.
Lemma in_range_reordered ms L : in_range F p ms -> prior_value prior p = Ok L ->
  (exists ms', in_range F' p' ms') /\ snd (calc_lnprob F' p') = snd (calc_lnprob F p) /\
  exists pr pr' d d', length pr = k /\ length pr' = k /\ encode pr L /\ encode pr' L /\ Permutation d d' /\
    snd (calc_fdiff F p) = Ok (pr ++ map Fin d ++ repeat (Fin 0) (f_n_prior F - k)) /\ snd (calc_fdiff F' p') = Ok (pr' ++ map Fin d' ++ repeat (Fin 0) (f_n_prior F - k)).
Proof.
  intros [E V] EL. destruct pars_lengths as [Lp Lp']. destruct (proj1 (mixtures_bands m obs prior F Ft HU p Lp) ms E) as (ds & Ed & Q).
  pose proof (proj2 (data_evaluable ms ds Q) V) as G. split; [|exact (good_reordered ds L Ed EL G)].
  destruct (mix_reordered ds Ed) as (ds' & E' & L1 & L2 & QQ). destruct (mixtures_bands m obs' prior' F' Ft' (uniform_perm HU) p' Lp') as [B1 B2].
  destruct (mixtures F' p') as [ms'|e] eqn:X; [|rewrite (B2 e eq_refl) in E'; discriminate]. exists ms'. split; [exact X|].
  destruct (B1 ms' eq_refl) as (d2 & E2 & Q2). rewrite E' in E2. injection E2 as <-. apply (data_evaluable ms' ds' Q2).
  eapply Permutation_Forall; [exact (evaluable_reordered _ _ _ _ L1 L2 QQ)|exact G].
Qed.
Lemma out_of_range_reordered : (out_of_range F p \/ prior_value prior p = Raise GMixRangeError) ->
  (forall e, mixtures F p = Raise e -> e = GMixRangeError) -> (forall e, mixtures F' p' = Raise e -> e = GMixRangeError) -> (forall e, prior_value prior p = Raise e -> e = GMixRangeError) ->
  snd (calc_lnprob F p) = Ok ln_low /\ snd (calc_lnprob F' p') = Ok ln_low /\
  snd (calc_fdiff F p) = Ok (repeat LOWVAL (f_size F)) /\ snd (calc_fdiff F' p') = Ok (repeat LOWVAL (f_size F)).
Proof.
  intros O R1 R2 R3. destruct pars_lengths as [Lp Lp']. destruct HP as (P1 & P2 & P3 & P4).
  destruct (lowest m obs prior F k Ft Hm P1 Hk HU p Lp O R1 R3) as [A B].
  assert (O' : out_of_range F' p' \/ prior_value prior' p' = Raise GMixRangeError).
  { rewrite P3. destruct O as [O|O]; [left|right; exact O]. destruct (mixtures_bands m obs prior F Ft HU p Lp) as [B1 B2]. destruct (mixtures_bands m obs' prior' F' Ft' (uniform_perm HU) p' Lp') as [C1 C2].
    destruct (mixtures F' p') as [ms'|e] eqn:X; [|left; rewrite X, (R2 e eq_refl); reflexivity]. right. exists ms'. split; [exact X|]. intros K.
    destruct (C1 ms' eq_refl) as (d2 & E2 & Q2). pose proof (proj2 (data_evaluable ms' d2 Q2) K) as G2.
    destruct O as [O|(ms & E & N)].
    - pose proof (B2 _ O) as Ed. rewrite (md_model _ _ _ _ M), (md_obs _ _ _ _ M) in Ed. rewrite dopsf_reordered, (md_model _ _ _ _ M'), (md_obs _ _ _ _ M') in E2.
      pose proof (items_mix m (f_dopsf F) p' obs' Lp') as I. rewrite E2 in I. cbn [rmap] in I. symmetry in I.
      destruct (mapM_perm _ _ _ (Permutation_sym items_perm) _ I) as (ys & I' & _). pose proof (items_mix m (f_dopsf F) p obs Lp) as J. rewrite I', Ed in J. discriminate.
    - destruct (B1 ms E) as (ds & Ed & Q). destruct (bad_reordered ds Ed) as (ds' & E' & G); [intros H; apply N, (data_evaluable ms ds Q), H|]. rewrite E2 in E'. injection E' as <-. exact (G G2). }
  destruct (lowest m obs' prior' F' k Ft' Hm P2 ltac:(rewrite nprior_reordered; exact Hk) (uniform_perm HU) p' Lp' O' R2 ltac:(rewrite P3; exact R3)) as [A' B'].
  rewrite (proj2 sizes_reordered) in A'. auto.
Qed.
End Reordered.

(** ** making the fit *)
Lemma mapM_ok_all {A B} (f : A -> res B) l : (exists ys, mapM f l = Ok ys) <-> Forall (fun x => exists y, f x = Ok y) l.
Proof.
  split.
  - intros (ys & H). apply mapM_F2 in H. induction H; constructor; eauto.
  - induction 1 as [|x l (y & E) _ (ys & IH)]; [exists []; reflexivity|]. exists (y :: ys). cbn [mapM]. rewrite E. cbn [bind]. rewrite IH. reflexivity.
Qed.
Definition startable (m : fmodel) (d : bool) (t : item) : Prop := exists bp g, fst t = Ok bp /\ init_one m d bp (snd t) = Ok g.
Lemma init_items m d p obs : length p = n_pars m obs ->
  (exists gms, mapM (fun t => let* bp := band_pars_of m p (snd t) in mapM (init_one m d bp) (fst t)) (combine obs (seq 0 (length obs))) = Ok gms) <-> Forall (startable m d) (items m p obs).
Proof.
  intros L. rewrite mapM_ok_all. unfold items, with_bands, bands_from. rewrite Forall_map.
  assert (H : Forall (fun t => exists bp, band_pars_of m p (snd t) = Ok bp) (combine obs (seq 0 (length obs)))).
  { apply Forall_forall. intros [os b] I. apply in_combine_r in I. apply in_seq in I. destruct (band_pars_ok m obs p b L ltac:(lia)) as (bp & E & _). exists bp. exact E. }
  induction H as [|[os b] l (bp & E) _ IH]; [split; constructor|]. cbn [map concat fst snd] in *. rewrite Forall_app, <- IH, Forall_cons_iff, Forall_map. cbn [fst snd]. rewrite E. cbn [bind].
  rewrite mapM_ok_all. assert (X : Forall (fun x => exists y, init_one m d bp x = Ok y) os <-> Forall (fun x => startable m d (Ok bp, x)) os); [|rewrite X; reflexivity].
  rewrite !Forall_forall. unfold startable. cbn [fst snd]. split; intros H x I; [destruct (H x I) as (y & Y); eauto|]. destruct (H x I) as (? & y & Z & Y). injection Z as <-. eauto.
Qed.
Lemma made_reordered m obs obs' p p' prior prior' F : m <> FName Mbdc -> reordered m obs p obs' p' -> uniform_psf obs -> Forall (fun os => os <> []) obs -> (prior = None <-> prior' = None) ->
  fit_init m obs p prior = Ok F -> exists F', fit_init m obs' p' prior' = Ok F' /\ f_size F' = f_size F.
Proof.
  intros Hb HR HU NE NP E. pose proof E as E0. destruct (init_parts _ _ _ _ _ E) as (A1&A2&A3&A4&A5&A6&A7&A8&A9&A10&(o & os & l & Eo & A11)&O&A12).
  destruct (pars_lengths m obs obs' p p' Hb HR) as [L L']. pose proof (bands_same m obs obs' p p' Hb HR) as LB.
  pose proof (obs_perm m obs obs' p p' Hb HR) as PO. pose proof (items_perm m obs obs' p p' Hb HR) as PI.
  destruct (mapM_perm obs_pixels _ _ PO _ A8) as (px' & X8 & _).
  assert (NE' : exists o' os' l', obs' = (o' :: os') :: l').
  { assert (G : Forall (fun os => os <> []) obs').
    { unfold reordered in HR. destruct m.
      - destruct HR as (sh & fl & fl' & _ & _ & _ & Lf & Lf' & (l1 & P & FF)). rewrite <- (snd_combine fl' obs' Lf'). rewrite Forall_map.
        assert (G1 : Forall (fun x : R * list fobs => snd x <> []) l1). { eapply Permutation_Forall; [exact P|]. rewrite <- (snd_combine fl obs Lf), Forall_map in NE. exact NE. }
        clear - FF G1. induction FF as [|x y l1 l' [_ Q] _ IH]; constructor; inversion G1; subst; [intros Z; rewrite Z in Q; apply Permutation_sym, Permutation_nil in Q; contradiction|apply IH; assumption].
      - destruct HR as (_ & _ & x & y & -> & -> & P). constructor; [|constructor]. inversion NE; subst. intros Z; rewrite Z in P. apply Permutation_sym, Permutation_nil in P. contradiction. }
    destruct obs' as [|[|o' os'] l']; [cbn in LB; lia|inversion G; congruence|eauto]. }
  destruct NE' as (o' & os' & l' & Eo').
  assert (D : has_psf_gmix o' = has_psf_gmix o).
  { assert (I : In o (concat obs)) by (rewrite Eo; left; reflexivity). assert (I' : In o' (concat obs)) by (apply (Permutation_in o' (Permutation_sym PO)); rewrite Eo'; left; reflexivity).
    destruct HU as [U|U]; rewrite (U o I), (U o' I'); reflexivity. }
  assert (SI : Forall (startable m (has_psf_gmix o)) (items m p obs)).
  { apply init_items; [exact L|]. unfold fit_init in E. rewrite A8 in E. cbn [bind] in E. apply GMixObj_Proofs.bind_ok in E. destruct E as (np & _ & E). apply GMixObj_Proofs.bind_ok in E. destruct E as ([d g] & E & _).
    unfold setup_fit in E. destruct (negb _); [discriminate|]. unfold init_gmix_all in E. rewrite Eo in E. rewrite <- Eo in E. cbn [bind] in E. destruct (mapM _ _) as [gms|e]; [eauto|cbn [bind] in E; destruct e; discriminate]. }
  assert (SI' : Forall (startable m (has_psf_gmix o)) (items m p' obs')) by (eapply Permutation_Forall; eassumption).
  apply (init_items m _ p' obs' L') in SI'. destruct SI' as (gms & G).
  assert (N' : exists n, (match m with FName m0 => match prior' with None => Ok 0%nat | Some _ => get_lm_n_prior_pars m0 (length obs') end | FCoellip n => if negb (Nat.eqb (length obs') 1) then Raise AssertionError else Ok (match prior' with None => 0%nat | Some _ => (1 + 1 + 1 + n + n)%nat end) end) = Ok n /\ n = f_n_prior F).
  { rewrite LB. destruct m.
    - destruct prior, prior'; try (exfalso; destruct NP as [N1 N2]; (discriminate (N1 eq_refl) || discriminate (N2 eq_refl))); eauto.
    - destruct A10 as [-> ->]. cbn [Nat.eqb negb]. eexists. split; [reflexivity|]. destruct prior, prior'; try (exfalso; destruct NP as [N1 N2]; (discriminate (N1 eq_refl) || discriminate (N2 eq_refl))); lia. }
  destruct N' as (n & N' & ->).
  assert (Q : exists F', fit_init m obs' p' prior' = Ok F').
  { unfold fit_init. rewrite X8. cbn [bind]. rewrite N'. cbn [bind]. unfold setup_fit.
    match goal with |- context [Nat.eqb (length p') ?x] => replace x with (length p') end.
    2:{ rewrite L'. unfold n_pars. destruct m as [[]|]; cbn; lia. }
    rewrite Nat.eqb_refl. cbn [negb]. assert (FST : match obs' with (o :: _) :: _ => Ok o | _ => Raise IndexError end = Ok o') by (rewrite Eo'; reflexivity). unfold init_gmix_all. rewrite FST. cbn [bind]. rewrite D, G. cbn [bind]. eauto. }
  destruct Q as [F' Q]. exists F'. split; [exact Q|]. destruct (init_parts _ _ _ _ _ Q) as (B1&B2&B3&B4&B5&B6&B7&B8&B9&B10&_).
  rewrite A7, B7. f_equal.
  - rewrite A9, B9. pose proof (pix_same _ _ PO _ _ A8 B8) as P. clear - P. induction P; unfold list_sum in *; cbn [map fold_right] in *; lia.
  - destruct m; [|destruct A10 as [_ A10], B10 as [_ B10]; rewrite A10, B10]; destruct prior, prior'; try (exfalso; destruct NP as [N1 N2]; (discriminate (N1 eq_refl) || discriminate (N2 eq_refl))); try congruence.
Qed.
