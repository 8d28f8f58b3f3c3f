(** Fits with galsim: construction, histories, and the theorems about evaluation. *)
From Verif Require Import Base XReal Jacobian_Model Pixels_Model Priors_Model Joint_Model Fit_Model Fit_Spec Galsim_Model Galsim_Spec Galsim_Proofs Galsim2_Proofs.
From Coq Require Import String.
Local Open Scope R_scope.

Lemma new_kobs_fits k w p a ko : new_kobs k w p a = Ok ko -> fits ko /\ ko_image ko = k /\ ko_weight ko = w /\ ko_psf ko = p /\ ko_meta ko = a.
Proof.
  unfold new_kobs, fits, psf_fits. destruct (weight_fits w k) eqn:Ew; [|discriminate]. cbn [negb]. destruct p as [p|].
  - destruct (same_dims (kp_image p) k) eqn:Es; [|discriminate]. cbn [negb]. destruct (allclose _ _); [|discriminate]. cbn [negb].
    intros E; injection E as <-. cbn. auto.
  - intros E; injection E as <-. cbn. auto.
Qed.
Lemma valid_fits ko : valid_kobs ko -> fits ko.
Proof. intros (k & w & p & a & E & _). apply (new_kobs_fits _ _ _ _ _ E). Qed.

(** up to the metadata of the psf *)
Definition sim (k k' : kobs) : Prop := ko_image k = ko_image k' /\ ko_weight k = ko_weight k' /\ ko_meta k = ko_meta k'.
Definition rsim {A} (P : A -> A -> Prop) (r r' : res A) : Prop := match r, r' with Ok a, Ok a' => P a a' | Raise e, Raise e' => e = e' | _, _ => False end.
(** entries of others are kept *)
Definition others_kept (h h' : heap) : Prop := forall a k, ~ In k kobs_keys -> gget (h' a) k = gget (h a) k.
Lemma others_refl h : others_kept h h. Proof. intros a k _. reflexivity. Qed.
Lemma others_trans h h' h'' : others_kept h h' -> others_kept h' h'' -> others_kept h h''.
Proof. intros A B a k H. rewrite B, A by exact H. reflexivity. Qed.
Lemma others_put h a k v : In k kobs_keys -> others_kept h (hput h a k v).
Proof. intros Hk b k' N. rewrite gget_hput. destruct (String.eqb_spec k k'); [congruence|]. rewrite Bool.andb_false_r. reflexivity. Qed.

Section G.
Context {G II : Type} (X : gext G II).

Lemma new_kobs_sim k w p p' a : match p, p' with None, None => True | Some q, Some q' => kp_image q = kp_image q' | _, _ => False end ->
  rsim sim (new_kobs k w p a) (new_kobs k w p' a).
Proof.
  unfold new_kobs. intros H. destruct (weight_fits w k); cbn [negb rsim]; [|reflexivity]. destruct p as [q|], p' as [q'|]; try tauto.
  - rewrite <- H. destruct (same_dims _ _); cbn [negb rsim]; [|reflexivity]. destruct (allclose _ _); cbn [negb rsim]; [|reflexivity]. repeat split.
  - cbn. repeat split.
Qed.
Lemma make_one_sim dim dk h h' i : rsim sim (snd (make_one X dim dk h i)) (snd (make_one X dim dk h' i)).
Proof.
  unfold make_one. destruct (gx_iidraw X (i_ii i) dim dk) as [k|e]; cbn [plain bind]; [|reflexivity].
  destruct (arr_max (ro_weight (i_obs i))) as [mx|e]; cbn [bind]; [|reflexivity]. destruct (i_psf i) as [[pii p]|].
  - destruct (gx_iidraw X pii dim dk) as [pk|e]; cbn [plain bind]; [|reflexivity]. destruct (arr_max (rp_weight p)) as [pmx|e]; cbn [bind]; [|reflexivity].
    unfold new_kpsf. destruct (weight_fits _ _); cbn [bind snd]; [|reflexivity]. apply new_kobs_sim. reflexivity.
  - cbn [bind snd]. apply new_kobs_sim. exact I.
Qed.
Lemma make_one_others dim dk h i : others_kept h (fst (make_one X dim dk h i)).
Proof.
  unfold make_one. match goal with |- context [match ?ee with Ok _ => _ | Raise _ => _ end] => destruct ee as [[[k mx] psf]|e] end; cbn [fst]; [|apply others_refl].
  eapply others_trans; apply others_put; cbn; tauto.
Qed.
Lemma make_one_fits dim dk h i h' ko : make_one X dim dk h i = (h', Ok ko) -> fits ko /\ ko_meta ko = ro_meta (i_obs i).
Proof.
  unfold make_one. match goal with |- context [match ?ee with Ok _ => _ | Raise _ => _ end] => destruct ee as [[[k mx] psf]|e] end; [|discriminate].
  intros E. assert (E' := f_equal snd E). cbn [snd] in E'. apply new_kobs_fits in E'. tauto.
Qed.
Lemma make_list_sim dim dk l : forall h h', rsim (Forall2 sim) (snd (make_list X dim dk h l)) (snd (make_list X dim dk h' l)).
Proof.
  induction l as [|i l IH]; intros h h'; [constructor|]. cbn [make_list]. pose proof (make_one_sim dim dk h h' i) as S1.
  destruct (make_one X dim dk h i) as [h1 [k|e]], (make_one X dim dk h' i) as [h1' [k'|e']]; cbn [snd rsim] in *; try tauto.
  specialize (IH h1 h1'). destruct (make_list X dim dk h1 l) as [h2 [ks|e]], (make_list X dim dk h1' l) as [h2' [ks'|e']]; cbn [snd rsim bind] in *; try tauto.
  constructor; assumption.
Qed.
Lemma make_bands_sim dim dk l : forall h h', rsim (Forall2 (Forall2 sim)) (snd (make_bands X dim dk h l)) (snd (make_bands X dim dk h' l)).
Proof.
  induction l as [|i l IH]; intros h h'; [constructor|]. cbn [make_bands]. pose proof (make_list_sim dim dk i h h') as S1.
  destruct (make_list X dim dk h i) as [h1 [k|e]], (make_list X dim dk h' i) as [h1' [k'|e']]; cbn [snd rsim] in *; try tauto.
  specialize (IH h1 h1'). destruct (make_bands X dim dk h1 l) as [h2 [ks|e]], (make_bands X dim dk h1' l) as [h2' [ks'|e']]; cbn [snd rsim bind] in *; try tauto.
  constructor; assumption.
Qed.
Lemma make_list_others dim dk l : forall h, others_kept h (fst (make_list X dim dk h l)).
Proof.
  induction l as [|i l IH]; intros h; [apply others_refl|]. cbn [make_list]. pose proof (make_one_others dim dk h i) as O1.
  destruct (make_one X dim dk h i) as [h1 [k|e]]; cbn [fst] in *; [|exact O1]. specialize (IH h1). destruct (make_list X dim dk h1 l) as [h2 r]; cbn [fst] in *.
  eapply others_trans; eassumption.
Qed.
Lemma make_bands_others dim dk l : forall h, others_kept h (fst (make_bands X dim dk h l)).
Proof.
  induction l as [|i l IH]; intros h; [apply others_refl|]. cbn [make_bands]. pose proof (make_list_others dim dk i h) as O1.
  destruct (make_list X dim dk h i) as [h1 [k|e]]; cbn [fst] in *; [|exact O1]. specialize (IH h1). destruct (make_bands X dim dk h1 l) as [h2 r]; cbn [fst] in *.
  eapply others_trans; eassumption.
Qed.
Lemma make_list_fits dim dk l : forall h h' ks, make_list X dim dk h l = (h', Ok ks) -> Forall fits ks.
Proof.
  induction l as [|i l IH]; intros h h' ks; cbn [make_list]. { intros E. assert (ks = []) by congruence. subst. constructor. }
  destruct (make_one X dim dk h i) as [h1 [k|e]] eqn:E1; [|discriminate]. destruct (make_list X dim dk h1 l) as [h2 [ks'|e]] eqn:E2; [|discriminate].
  cbn [bind]. intros E. assert (ks = k :: ks') by congruence. subst. constructor; [apply (make_one_fits _ _ _ _ _ _ E1)|apply (IH _ _ _ E2)].
Qed.
Lemma make_bands_fits dim dk l : forall h h' ks, make_bands X dim dk h l = (h', Ok ks) -> Forall fits (List.concat ks).
Proof.
  induction l as [|i l IH]; intros h h' ks; cbn [make_bands]. { intros E. assert (ks = []) by congruence. subst. constructor. }
  destruct (make_list X dim dk h i) as [h1 [k|e]] eqn:E1; [|discriminate]. destruct (make_bands X dim dk h1 l) as [h2 [ks'|e]] eqn:E2; [|discriminate].
  cbn [bind]. intros E. assert (ks = k :: ks') by congruence. subst. cbn [List.concat]. apply Forall_app. split; [apply (make_list_fits _ _ _ _ _ _ E1)|apply (IH _ _ _ E2)].
Qed.
Lemma make_kobs_sim h h' obs : rsim (Forall2 (Forall2 sim)) (snd (make_kobs X h obs)) (snd (make_kobs X h' obs)).
Proof. unfold make_kobs. destruct (make_iilist X obs) as [[[l dim] dk]|e]; [apply make_bands_sim|reflexivity]. Qed.
Lemma make_kobs_others h obs : others_kept h (fst (make_kobs X h obs)).
Proof. unfold make_kobs. destruct (make_iilist X obs) as [[[l dim] dk]|e]; [apply make_bands_others|apply others_refl]. Qed.
Lemma make_kobs_fits h obs h' ks : make_kobs X h obs = (h', Ok ks) -> Forall fits (List.concat ks).
Proof. unfold make_kobs. destruct (make_iilist X obs) as [[[l dim] dk]|e]; [apply make_bands_fits|discriminate]. Qed.
Lemma sim_concat (l l' : list (list kobs)) : Forall2 (Forall2 sim) l l' -> Forall2 sim (List.concat l) (List.concat l').
Proof. induction 1; [constructor|]. cbn [List.concat]. apply Forall2_app; assumption. Qed.
Lemma sim_metas l l' : Forall2 sim l l' -> map ko_meta l = map ko_meta l'.
Proof. induction 1 as [|k k' l l' (_&_&E)]; [reflexivity|]. cbn [map]. congruence. Qed.
Lemma ready1_sim h k k' : sim k k' -> ready1 h k -> ready1 h k'.
Proof. intros (E1' & E2' & E3'). unfold ready1, is_own. rewrite E1', E2', E3'. auto. Qed.
Lemma ready_sim h l l' : Forall2 sim l l' -> ready h l -> ready h l'.
Proof. intros H. induction H; intros Hr; [constructor|]. inversion Hr; subst. constructor; [eapply ready1_sim; eassumption|]. apply IHForall2. assumption. Qed.
Lemma sim_sym l l' : Forall2 sim l l' -> Forall2 sim l' l.
Proof. induction 1; constructor; [|assumption]. unfold sim in *. intuition congruence. Qed.

(** ** construction *)
Definition observations (h : heap) (input : ginput) : heap * res (list (list kobs)) :=
  match input with InReal obs => make_kobs X h obs | InK obs => (h, Ok obs) end.
Record made (h : heap) (m : gmodel) (input : ginput) (prior : option jprior) (F : gfit) : Prop := mkMade
  { mg_model : gf_model F = m; mg_prior : gf_prior F = prior;
    mg_np : gf_n_prior F = n_prior_of m prior (List.length (gf_obs F)); mg_tot : gf_totpix F = totpix_of (gf_obs F);
    mg_size : gf_size F = (gf_n_prior F + 2 * totpix_of (gf_obs F))%nat; mg_npars : gf_npars F = get_galsim_npars m (List.length (gf_obs F));
    mg_buf : List.length (gf_buf F) = S (n_before m) }.
Lemma init_made h m input guess prior h' F : gfit_init X h m input guess prior = (h', Ok F) ->
  made h' m input prior F /\
  exists h1, observations h input = (h1, Ok (gf_obs F)) /\ h' = init_images h1 (gf_obs F).
Proof.
  unfold gfit_init. fold (observations h input). destruct (observations h input) as [h1 [obs|e]]; [|discriminate].
  unfold check_guess. set (F0 := fit_new m prior obs). destruct (negb (Nat.eqb (List.length guess) (gf_npars F0))); [discriminate|].
  assert (L0 : List.length (gf_buf F0) = S (n_before m)).
  { unfold F0, fit_new. cbn [gf_buf]. rewrite repeat_length. destruct m; cbn [get_galsim_npars n_before]; lia. }
  pose proof (check_bands_buf X m guess (seq 0 (List.length (gf_obs F0))) (gf_buf F0) L0) as L1. change (gf_model F0) with m.
  destruct (check_bands X m (gf_buf F0) guess _) as [b [[]|e]]; cbn [bind fst] in *; [|discriminate].
  intros E. assert (F = with_buf F0 b) as -> by congruence. assert (h' = init_images h1 obs) as -> by congruence. split.
  - constructor; cbn; try reflexivity. exact L1.
  - exists h1. split; reflexivity.
Qed.
Lemma input_fits h input h1 obs : valid_input input -> observations h input = (h1, Ok obs) -> Forall fits (List.concat obs).
Proof.
  destruct input as [l|l]; cbn [observations valid_input]; intros V E.
  - apply (make_kobs_fits _ _ _ _ E).
  - assert (obs = l) as -> by congruence. revert V. apply Forall_impl. apply valid_fits.
Qed.

(** any construction, successful or not, leaves the observations ready *)
Lemma init_keeps h m input guess prior h' r obs h0 h1 : gfit_init X h m input guess prior = (h', r) ->
  observations h0 input = (h1, Ok obs) -> NoDup (map ko_meta (List.concat obs)) -> ready h' (List.concat obs).
Proof.
  unfold gfit_init. fold (observations h input). intros E Eo ND.
  assert (Hs : rsim (Forall2 (Forall2 sim)) (Ok obs) (snd (observations h input))).
  { destruct input as [l|l]; cbn [observations] in *.
    - pose proof (make_kobs_sim h0 h l) as S1. rewrite Eo in S1. exact S1.
    - cbn [snd rsim]. assert (obs = l) as -> by congruence. clear. induction l as [|x l IH]; constructor; [|exact IH]. induction x as [|k x IH2]; constructor; [repeat split|exact IH2]. }
  destruct (observations h input) as [h2 [obs'|e]]; cbn [snd rsim] in Hs; [|tauto]. apply sim_concat in Hs.
  assert (Eh : h' = init_images h2 obs') by (destruct (check_guess X _ guess); congruence). subst h'.
  eapply ready_sim; [apply sim_sym; exact Hs|]. unfold init_images. apply init_fold_ready. rewrite <- (sim_metas _ _ Hs). exact ND.
Qed.

(** ** histories *)
Lemma with_buf_buf F b b' : with_buf (with_buf F b) b' = with_buf F b'. Proof. reflexivity. Qed.
Lemma history_inv h00 h0 m input guess prior F0 h F : gfit_init X h00 m input guess prior = (h0, Ok F0) -> valid_input input -> own_metadata F0 ->
  history X h0 F0 input h F ->
  same_fit F0 F /\ List.length (gf_buf F) = S (n_before m) /\ ready h (List.concat (gf_obs F0)).
Proof.
  intros Ei V ND H. destruct (init_made _ _ _ _ _ _ _ Ei) as (M & h1 & Eo & Eh). pose proof (input_fits _ _ _ _ V Eo) as HF. unfold own_metadata in ND.
  pose proof (mg_model _ _ _ _ _ M) as Em.
  assert (SO : forall F, same_fit F0 F -> gf_obs F = gf_obs F0 /\ gf_model F = m).
  { intros F' S'. unfold same_fit in S'. rewrite S'. cbn. auto. }
  assert (ST : forall F1 F2, same_fit F0 F1 -> same_fit F1 F2 -> same_fit F0 F2).
  { unfold same_fit. intros F1 F2 A B. rewrite A in B. exact B. }
  induction H as [|h F pars h' F' r H IH E|h F pars h' F' r H IH E|h F pars b F' r H IH E|h F a k v H IH Hk|h F m' guess' prior' h' r H IH E|h F F2 pars h' F' r H IH Es E|h F F2 pars h' F' r H IH Es E].
  - split; [unfold same_fit; destruct F0; reflexivity|]. split; [apply M|]. subst h0. apply init_fold_ready. exact ND.
  - destruct IH as (I1 & I2 & I3). destruct (SO F I1) as (O1 & O2). rewrite <- O2 in I2. destruct (fdiff_fit X _ _ _ _ _ _ E I2) as (S1 & L1).
    split; [eapply ST; eassumption|]. rewrite O2 in L1. split; [exact L1|].
    pose proof (calc_fdiff_touches X (List.concat (gf_obs F0)) HF ND h F pars) as T. rewrite O1, E in T. apply (T eq_refl I3); assumption.
  - destruct IH as (I1 & I2 & I3). destruct (SO F I1) as (O1 & O2). rewrite <- O2 in I2. destruct (s2n_fit X _ _ _ _ _ _ E I2) as (S1 & L1).
    split; [eapply ST; eassumption|]. rewrite O2 in L1. split; [exact L1|].
    pose proof (calc_s2n_touches X (List.concat (gf_obs F0)) HF ND h F pars) as T. rewrite O1, E in T. apply (T eq_refl I3); assumption.
  - destruct IH as (I1 & I2 & I3). destruct (SO F I1) as (O1 & O2). unfold get_band_pars in E. rewrite O2 in E.
    pose proof (fill_band_length (n_before m) (gf_buf F) pars b I2) as L1. destruct (fill_band _ _ _ _) as [b' r']. cbn [fst] in L1.
    assert (F' = with_buf F b') as -> by congruence. split; [eapply ST; [exact I1|reflexivity]|]. split; [exact L1|exact I3].
  - destruct IH as (I1 & I2 & I3). split; [exact I1|]. split; [exact I2|]. apply Forall_forall. intros ko Hko.
    assert (R1' : ready1 h ko) by (revert Hko; apply Forall_forall; exact I3). eapply ready1_same; [|exact R1']. intros k' Hk'. rewrite gget_hput.
    destruct (String.eqb_spec k k') as [->|N]; [contradiction|]. rewrite Bool.andb_false_r. reflexivity.
  - destruct IH as (I1 & I2 & I3). split; [exact I1|]. split; [exact I2|]. eapply init_keeps; eassumption.
  - destruct IH as (I1 & I2 & I3). destruct (SO F I1) as (O1 & O2). split; [exact I1|]. split; [exact I2|].
    pose proof (calc_fdiff_touches X (List.concat (gf_obs F0)) HF ND h F2 pars) as T. rewrite Es, O1, E in T. apply (T eq_refl I3); assumption.
  - destruct IH as (I1 & I2 & I3). destruct (SO F I1) as (O1 & O2). split; [exact I1|]. split; [exact I2|].
    pose proof (calc_s2n_touches X (List.concat (gf_obs F0)) HF ND h F2 pars) as T. rewrite Es, O1, E in T. apply (T eq_refl I3); assumption.
Qed.
End G.
