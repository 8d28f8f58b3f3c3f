(** Fits with galsim: metadata, observations in Fourier space, results. *)
From Verif Require Import Base XReal Jacobian_Model Pixels_Model Priors_Model Joint_Model Fit_Model Fit_Spec Galsim_Model Galsim_Spec Galsim_Proofs Galsim2_Proofs Galsim3_Proofs Galsim4_Proofs.
From Coq Require Import String.
Local Open Scope R_scope.

(** ** C113: only these entries, of these observations *)
Lemma changes_refl h l ks : changes h h l ks. Proof. split; auto. Qed.
Lemma changes_trans h h' h'' l ks : changes h h' l ks -> changes h' h'' l ks -> changes h h'' l ks.
Proof. intros (A1 & A2) (B1 & B2). split; intros; [rewrite B1, A1 by assumption|rewrite B2, A2 by assumption]; reflexivity. Qed.
Lemma changes_put h a k v l ks : In a l -> In k ks -> changes h (hput h a k v) l ks.
Proof.
  intros Ha Hk. split.
  - intros b N. unfold hput. destruct (Nat.eqb_spec b a); [congruence|reflexivity].
  - intros b k' N. rewrite gget_hput. destruct (String.eqb_spec k k'); [congruence|]. rewrite Bool.andb_false_r. reflexivity.
Qed.
Lemma changes_incl h h' l l' ks ks' : incl l l' -> incl ks ks' -> changes h h' l ks -> changes h h' l' ks'.
Proof. intros I J (A & B). split; [intros a N; apply A; auto|intros a k N; apply B; auto]. Qed.

Section G.
Context {G II : Type} (X : gext G II).
Local Notation MS l := (map ko_meta l).

Lemma fill_model_changes m bp h ko : changes h (fst (fill_model X m bp h ko)) [ko_meta ko] fit_keys.
Proof.
  unfold fill_model. match goal with |- context [match ?ee with Ok _ => _ | Raise _ => _ end] => destruct ee as [k|e] end; [|apply changes_refl].
  destruct (plain (through_psf ko k)); cbn [fst]; [eapply changes_trans|]; apply changes_put; cbn; tauto.
Qed.
Lemma s2n_one_changes m bp h ko s : changes h (fst (s2n_one X m bp h ko s)) [ko_meta ko] fit_keys.
Proof.
  unfold s2n_one. match goal with |- context [match ?ee with Ok _ => _ | Raise _ => _ end] => destruct ee as [k|e] end; [|apply changes_refl].
  destruct (plain (through_psf ko k)); cbn [fst]; [destruct (negb _); cbn [fst]; eapply changes_trans|]; apply changes_put; cbn; tauto.
Qed.
Lemma diff_one_changes h fd st ko : changes h (fst (diff_one h fd st ko)) [ko_meta ko] fit_keys.
Proof.
  unfold diff_one. match goal with |- context [match ?ee with Ok _ => _ | Raise _ => _ end] => destruct ee as [[[k i] s]|e] end; [|apply changes_refl].
  destruct (negb _); [apply changes_refl|]. destruct (negb _); [apply changes_put; cbn; tauto|]. destruct (negb _); apply changes_put; cbn; tauto.
Qed.
Lemma cons_changes h h' h'' ko l ks : changes h h' [ko_meta ko] ks -> changes h' h'' (MS l) ks -> changes h h'' (MS (ko :: l)) ks.
Proof.
  intros A B. eapply changes_trans; (eapply changes_incl; [|apply incl_refl|eassumption]); intros x Hx; cbn in *; tauto.
Qed.
Lemma head_changes h h' ko l ks : changes h h' [ko_meta ko] ks -> changes h h' (MS (ko :: l)) ks.
Proof. apply changes_incl; [|apply incl_refl]. intros x Hx; cbn in *; tauto. Qed.
Lemma fill_list_changes m bp l : forall h, changes h (fst (fill_list X m bp h l)) (MS l) fit_keys.
Proof.
  induction l as [|ko l IH]; intros h; [apply changes_refl|]. cbn [fill_list]. pose proof (fill_model_changes m bp h ko) as C.
  destruct (fill_model X m bp h ko) as [h1 [[]|e]]; cbn [fst] in *; [|apply head_changes; exact C]. eapply cons_changes; [exact C|apply IH].
Qed.
Lemma s2n_list_changes m bp l : forall h s, changes h (fst (s2n_list X m bp h l s)) (MS l) fit_keys.
Proof.
  induction l as [|ko l IH]; intros h s; [apply changes_refl|]. cbn [s2n_list]. pose proof (s2n_one_changes m bp h ko s) as C.
  destruct (s2n_one X m bp h ko s) as [h1 [s'|e]]; cbn [fst] in *; [|apply head_changes; exact C]. eapply cons_changes; [exact C|apply IH].
Qed.
Lemma diff_list_changes l : forall h fd st, changes h (fst (diff_list h fd st l)) (MS l) fit_keys.
Proof.
  induction l as [|ko l IH]; intros h fd st; [apply changes_refl|]. cbn [diff_list]. pose proof (diff_one_changes h fd st ko) as C.
  destruct (diff_one h fd st ko) as [h1 [[fd' st']|e]]; cbn [fst] in *; [|apply head_changes; exact C]. eapply cons_changes; [exact C|apply IH].
Qed.
Lemma app_changes h h' h'' (l : list kobs) obs ks : changes h h' (MS l) ks -> changes h' h'' (MS (List.concat obs)) ks -> changes h h'' (MS (List.concat (l :: obs))) ks.
Proof.
  intros A B. cbn [List.concat]. eapply changes_trans; (eapply changes_incl; [|apply incl_refl|eassumption]); rewrite map_app; intros x Hx; apply in_or_app; auto.
Qed.
Lemma front_changes h h' (l : list kobs) obs ks : changes h h' (MS l) ks -> changes h h' (MS (List.concat (l :: obs))) ks.
Proof. apply changes_incl; [|apply incl_refl]. cbn [List.concat]. rewrite map_app. intros x Hx; apply in_or_app; auto. Qed.
Lemma fill_bands_changes m pars obs : forall b h buf, changes h (fst (fst (fill_bands X m pars buf b h obs))) (MS (List.concat obs)) fit_keys.
Proof.
  induction obs as [|l obs IH]; intros b h buf; [apply changes_refl|]. cbn [fill_bands].
  destruct (fill_band _ _ _ _) as [buf1 [[]|e]]; [|apply changes_refl]. pose proof (fill_list_changes m buf1 l h) as C.
  destruct (fill_list X m buf1 h l) as [h1 [[]|e]]; cbn [fst] in *; [|apply front_changes; exact C]. eapply app_changes; [exact C|apply IH].
Qed.
Lemma s2n_bands_changes m pars obs : forall b h buf s, changes h (fst (fst (s2n_bands X m pars buf b h obs s))) (MS (List.concat obs)) fit_keys.
Proof.
  induction obs as [|l obs IH]; intros b h buf s; [apply changes_refl|]. cbn [s2n_bands].
  destruct (fill_band _ _ _ _) as [buf1 [[]|e]]; [|apply changes_refl]. pose proof (s2n_list_changes m buf1 l h s) as C.
  destruct (s2n_list X m buf1 h l s) as [h1 [s'|e]]; cbn [fst] in *; [|apply front_changes; exact C]. eapply app_changes; [exact C|apply IH].
Qed.
Lemma fdiff_changes h F pars : changes h (fst (fst (calc_fdiff X h F pars))) (MS (List.concat (gf_obs F))) fit_keys.
Proof.
  unfold calc_fdiff, fill_models. pose proof (fill_bands_changes (gf_model F) pars (gf_obs F) 0 h (gf_buf F)) as C.
  destruct (fill_bands X _ _ _ _ _ _) as [[h1 b1] r]; cbn [fst] in *. destruct (as_range r) as [[]|e]; [|exact C].
  destruct (g_fill_priors _ _ _) as [[fd start]|e]; [|exact C]. cbn [gf_obs with_buf].
  pose proof (diff_list_changes (List.concat (gf_obs F)) h1 fd start) as C2. destruct (diff_list h1 fd start _) as [h2 r2]. cbn [fst] in *. eapply changes_trans; eassumption.
Qed.
Lemma s2n_changes h F pars : changes h (fst (fst (calc_s2n_r X h F pars))) (MS (List.concat (gf_obs F))) fit_keys.
Proof. unfold calc_s2n_r. pose proof (s2n_bands_changes (gf_model F) pars (gf_obs F) 0 h (gf_buf F) 0) as C. destruct (s2n_bands X _ _ _ _ _ _) as [[h1 b1] r]. exact C. Qed.
Lemma result_changes h F pars err cov : changes h (fst (fst (set_fit_result X h F pars err cov))) (MS (List.concat (gf_obs F))) fit_keys.
Proof. unfold set_fit_result. pose proof (s2n_changes h F pars) as C. destruct (calc_s2n_r X h F pars) as [[h1 b1] r]. exact C. Qed.
Lemma init_images_changes l : forall h, changes h (fold_left init_one l h) (MS l) fit_keys.
Proof.
  induction l as [|ko l IH]; intros h; [apply changes_refl|]. cbn [fold_left]. eapply cons_changes; [|apply IH]. unfold init_one.
  eapply changes_trans; [eapply changes_trans|]; apply changes_put; cbn; tauto.
Qed.

(** ** C116 *)
Lemma fold_max_spec l : forall x, (In (fold_left Rmax l x) (x :: l)) /\ (forall y, In y (x :: l) -> y <= fold_left Rmax l x).
Proof.
  induction l as [|z l IH]; intros x; cbn [fold_left].
  - split; [left; reflexivity|]. intros y [<-|[]]. lra.
  - destruct (IH (Rmax x z)) as (I1 & I2). split.
    + destruct I1 as [E|I1]; [|right; right; exact I1]. rewrite <- E. unfold Rmax. destruct (Rle_dec x z); [right; left|left]; reflexivity.
    + assert (Hm : Rmax x z <= fold_left Rmax l (Rmax x z)) by (apply I2; left; reflexivity). pose proof (Rmax_l x z). pose proof (Rmax_r x z).
      intros y [<-|[<-|Hy]]; [lra|lra|]. apply I2. right. exact Hy.
Qed.
Lemma in_ravel nr nc f x : In x (ravel nr nc f) <-> exists r c, (r < nr)%nat /\ (c < nc)%nat /\ f r c = x.
Proof.
  unfold ravel. rewrite in_concat. split.
  - intros (l & Hl & Hx). apply in_map_iff in Hl as (r & <- & Hr). apply in_map_iff in Hx as (c & <- & Hc). apply in_seq in Hr, Hc. exists r, c. repeat split; lia.
  - intros (r & c & Hr & Hc & <-). exists (map (f r) (seq 0 nc)). split; [apply in_map_iff; exists r; split; [reflexivity|apply in_seq; lia]|apply in_map, in_seq; lia].
Qed.
Lemma arr_max_spec w v : arr_max w = Ok v -> is_max w v.
Proof.
  unfold arr_max. destruct (ravel (nrow w) (ncol w) (at2 w)) as [|x l] eqn:E; [discriminate|]. intros H; injection H as <-.
  destruct (fold_max_spec l x) as (I1 & I2). rewrite <- E in I1. split.
  - apply in_ravel in I1. exact I1.
  - intros r c Hr Hc. apply I2. rewrite <- E. apply in_ravel. exists r, c. auto.
Qed.
Lemma flat_uniform dim mx : uniform (flat_weight dim mx) dim (mx / 2 / INR (dim * dim)).
Proof. unfold uniform, flat_weight. cbn. repeat split. intros r c _ _. unfold Rdiv. ring. Qed.

Lemma make_ii_spec o i : make_ii X o = Ok i ->
  i_obs i = o /\ exists pii, interpolated X o (i_ii i) pii /\ asks X o (i_dim i) (i_dk i) /\
    match ro_psf o, pii, i_psf i with None, None, None => True | Some p, Some q, Some (q', p') => q' = q /\ p' = p | _, _, _ => False end.
Proof.
  unfold make_ii. destruct (gx_ii X (of_reals (ro_image o)) _) as [ii|e] eqn:E0; [|discriminate]. cbn [plain bind].
  destruct (ro_psf o) as [p|] eqn:Ep.
  - destruct (gx_ii X (normalise (rp_image p)) _) as [q|e] eqn:E1; [|discriminate]. cbn [plain bind].
    destruct (gx_good X q) as [n|e] eqn:E2; [|discriminate]. cbn [plain bind]. destruct (gx_stepk X ii) as [dk|e] eqn:E3; [|discriminate]. cbn [plain bind].
    intros E; injection E as <-. cbn [i_obs i_ii i_dim i_dk i_psf]. split; [reflexivity|].
    assert (In1 : interpolated X o ii (Some q)).
    { split; [exact E0|]. rewrite Ep. exists (normalise (rp_image p)). split; [|exact E1]. repeat split. }
    exists (Some q). split; [exact In1|]. split; [|auto]. exists ii, (Some q), n. auto.
  - destruct (gx_good X ii) as [n|e] eqn:E2; [|discriminate]. cbn [plain bind]. destruct (gx_stepk X ii) as [dk|e] eqn:E3; [|discriminate]. cbn [plain bind].
    intros E; injection E as <-. cbn [i_obs i_ii i_dim i_dk i_psf]. split; [reflexivity|].
    assert (In1 : interpolated X o ii None) by (split; [exact E0|]; rewrite Ep; exact I).
    exists None. split; [exact In1|]. split; [|exact I]. exists ii, None, n. auto.
Qed.
Lemma make_one_spec dim dk h o i h' ko : make_ii X o = Ok i -> make_one X dim dk h i = (h', Ok ko) -> transform_of X dim dk o ko.
Proof.
  intros Ei. destruct (make_ii_spec o i Ei) as (Eo & pii & In1 & _ & Hp). unfold make_one.
  destruct (gx_iidraw X (i_ii i) dim dk) as [k|e] eqn:Ek; cbn [plain bind]; [|discriminate]. rewrite Eo.
  destruct (arr_max (ro_weight o)) as [mx|e] eqn:Em; cbn [bind]; [|discriminate]. apply arr_max_spec in Em.
  destruct (i_psf i) as [[q' p']|].
  - destruct (ro_psf o) as [p|] eqn:Ep; [|destruct pii; tauto]. destruct pii as [q|]; [|tauto]. destruct Hp as (-> & ->).
    destruct (gx_iidraw X q dim dk) as [pk|e] eqn:Epk; cbn [plain bind]; [|discriminate]. destruct (arr_max (rp_weight p)) as [pmx|e] eqn:Epm; cbn [bind]; [|discriminate]. apply arr_max_spec in Epm.
    unfold new_kpsf. destruct (weight_fits _ _); cbn [bind]; [|discriminate]. intros E. assert (E' := f_equal snd E). cbn [snd] in E'. apply new_kobs_fits in E'.
    destruct E' as (_ & E1 & E2 & E3 & E4). exists (i_ii i), (Some q), k, mx. split; [exact In1|]. split; [exact Ek|]. split; [exact E1|]. split; [exact Em|].
    split; [rewrite E2; apply flat_uniform|]. split; [exact E4|]. rewrite Ep, E3. exists pk, pmx. cbn [kp_image kp_weight]. split; [exact Epk|]. split; [reflexivity|]. split; [exact Epm|apply flat_uniform].
  - destruct (ro_psf o) as [p|] eqn:Ep; [destruct pii; tauto|]. destruct pii as [q|]; [tauto|]. cbn [bind]. intros E. assert (E' := f_equal snd E). cbn [snd] in E'. apply new_kobs_fits in E'.
    destruct E' as (_ & E1 & E2 & E3 & E4). exists (i_ii i), None, k, mx. split; [exact In1|]. split; [exact Ek|]. split; [exact E1|]. split; [exact Em|].
    split; [rewrite E2; apply flat_uniform|]. split; [exact E4|]. rewrite Ep, E3. exact I.
Qed.
Lemma make_list_spec dim dk os : forall l h h' ks, mapM (make_ii X) os = Ok l -> make_list X dim dk h l = (h', Ok ks) -> Forall2 (transform_of X dim dk) os ks.
Proof.
  induction os as [|o os IH]; intros l h h' ks; cbn [mapM].
  - intros E; injection E as <-. cbn [make_list]. intros E. assert (ks = []) as -> by congruence. constructor.
  - destruct (make_ii X o) as [i|e] eqn:Ei; [|discriminate]. cbn [bind]. destruct (mapM (make_ii X) os) as [l'|e] eqn:El; [|discriminate]. cbn [bind]. intros E; injection E as <-.
    cbn [make_list]. destruct (make_one X dim dk h i) as [h1 [k|e]] eqn:E1; [|discriminate]. destruct (make_list X dim dk h1 l') as [h2 [ks'|e]] eqn:E2; [|discriminate].
    cbn [bind]. intros E. assert (ks = k :: ks') as -> by congruence. constructor; [eapply make_one_spec; eassumption|eapply IH; [reflexivity|exact E2]].
Qed.
Lemma make_bands_spec dim dk os : forall l h h' ks, mapM (mapM (make_ii X)) os = Ok l -> make_bands X dim dk h l = (h', Ok ks) -> Forall2 (Forall2 (transform_of X dim dk)) os ks.
Proof.
  induction os as [|o os IH]; intros l h h' ks; cbn [mapM].
  - intros E; injection E as <-. cbn [make_bands]. intros E. assert (ks = []) as -> by congruence. constructor.
  - destruct (mapM (make_ii X) o) as [i|e] eqn:Ei; [|discriminate]. cbn [bind]. destruct (mapM (mapM (make_ii X)) os) as [l'|e] eqn:El; [|discriminate]. cbn [bind]. intros E; injection E as <-.
    cbn [make_bands]. destruct (make_list X dim dk h i) as [h1 [k|e]] eqn:E1; [|discriminate]. destruct (make_bands X dim dk h1 l') as [h2 [ks'|e]] eqn:E2; [|discriminate].
    cbn [bind]. intros E. assert (ks = k :: ks') as -> by congruence. constructor; [eapply make_list_spec; eassumption|eapply IH; [reflexivity|exact E2]].
Qed.
Lemma largest_spec l : forall x, In (largest x l) (x :: l) /\ (forall y, In y (x :: l) -> (fst y <= fst (largest x l))%nat).
Proof.
  induction l as [|z l IH]; intros x; cbn [largest].
  - split; [left; reflexivity|]. intros y [<-|[]]. lia.
  - destruct (Nat.ltb_spec (fst x) (fst z)).
    + destruct (IH z) as (I1 & I2). split; [right; exact I1|]. intros y [<-|Hy]; [|apply I2; exact Hy]. assert (fst z <= fst (largest z l))%nat by (apply I2; left; reflexivity). lia.
    + destruct (IH x) as (I1 & I2). split; [destruct I1 as [<-|I1]; [left; reflexivity|right; right; exact I1]|].
      assert (fst x <= fst (largest x l))%nat by (apply I2; left; reflexivity). intros y [<-|[<-|Hy]]; [lia|lia|]. apply I2. right. exact Hy.
Qed.
Lemma mapM_in {A B} (f : A -> res B) l r b : mapM f l = Ok r -> In b r -> exists a, In a l /\ f a = Ok b.
Proof.
  revert r. induction l as [|a l IH]; intros r; cbn [mapM]; [intros E; injection E as <-; intros []|].
  destruct (f a) as [x|] eqn:Ea; [|discriminate]. cbn [bind]. destruct (mapM f l) as [r'|] eqn:El; [|discriminate]. cbn [bind]. intros E; injection E as <-.
  intros [<-|Hb]; [exists a; split; [left; reflexivity|exact Ea]|]. destruct (IH r' eq_refl Hb) as (a' & I1 & I2). exists a'. split; [right; exact I1|exact I2].
Qed.
Lemma mapM_in_l {A B} (f : A -> res B) l r a : mapM f l = Ok r -> In a l -> exists b, In b r /\ f a = Ok b.
Proof.
  revert r. induction l as [|x l IH]; intros r; cbn [mapM]; [intros _ []|].
  destruct (f x) as [y|] eqn:Ea; [|discriminate]. cbn [bind]. destruct (mapM f l) as [r'|] eqn:El; [|discriminate]. cbn [bind]. intros E; injection E as <-.
  intros [<-|Hb]; [exists y; split; [left; reflexivity|exact Ea]|]. destruct (IH r' eq_refl Hb) as (a' & I1 & I2). exists a'. split; [right; exact I1|exact I2].
Qed.
Lemma make_kobs_spec h obs h' ks : make_kobs X h obs = (h', Ok ks) ->
  exists dim dk, Forall2 (Forall2 (transform_of X dim dk)) obs ks /\
    (exists o, In o (List.concat obs) /\ asks X o dim dk) /\
    (forall o, In o (List.concat obs) -> exists d k, asks X o d k /\ (d <= dim)%nat).
Proof.
  unfold make_kobs, make_iilist. destruct (mapM (mapM (make_ii X)) obs) as [l|e] eqn:El; [|discriminate]. cbn [bind].
  assert (Fw : forall o, In o (List.concat obs) -> exists i, In i (List.concat l) /\ make_ii X o = Ok i).
  { intros o Ho. apply in_concat in Ho as (os & Hos & Ho). destruct (mapM_in_l _ _ _ _ El Hos) as (is & His & Eis). destruct (mapM_in_l _ _ _ _ Eis Ho) as (i & Hi & Ei).
    exists i. split; [|exact Ei]. apply in_concat. exists is. auto. }
  assert (Bw : forall i, In i (List.concat l) -> exists o, In o (List.concat obs) /\ make_ii X o = Ok i).
  { intros i Hi. apply in_concat in Hi as (is & His & Hi). destruct (mapM_in _ _ _ _ El His) as (os & Hos & Eis). destruct (mapM_in _ _ _ _ Eis Hi) as (o & Ho & Ei).
    exists o. split; [|exact Ei]. apply in_concat. exists os. auto. }
  destruct (map (fun i => (i_dim i, i_dk i)) (List.concat l)) as [|x rest] eqn:Em; [discriminate|].
  destruct (largest_spec rest x) as (I1 & I2). destruct (largest x rest) as [dim dk]. cbn [bind]. rewrite <- Em in I1. cbn [fst] in I2.
  intros E. exists dim, dk. split; [eapply make_bands_spec; eassumption|]. split.
  - apply in_map_iff in I1 as (i & Ei & Hi). destruct (Bw i Hi) as (o & Ho & Eo). exists o. split; [exact Ho|].
    destruct (make_ii_spec o i Eo) as (_ & pii & _ & A & _). assert (Ed : i_dim i = dim) by congruence. assert (Ek : i_dk i = dk) by congruence. rewrite <- Ed, <- Ek. exact A.
  - intros o Ho. destruct (Fw o Ho) as (i & Hi & Eo). destruct (make_ii_spec o i Eo) as (_ & pii & _ & A & _). exists (i_dim i), (i_dk i). split; [exact A|].
    apply (I2 (i_dim i, i_dk i)). rewrite <- Em. apply in_map_iff. exists i. auto.
Qed.

Lemma make_one_changes dim dk h i : changes h (fst (make_one X dim dk h i)) [ro_meta (i_obs i)] kobs_keys.
Proof.
  unfold make_one. match goal with |- context [match ?ee with Ok _ => _ | Raise _ => _ end] => destruct ee as [[[k mx] psf]|e] end; cbn [fst]; [|apply changes_refl].
  eapply changes_trans; apply changes_put; cbn; tauto.
Qed.
Lemma make_list_changes dim dk l : forall h, changes h (fst (make_list X dim dk h l)) (map (fun i => ro_meta (i_obs i)) l) kobs_keys.
Proof.
  induction l as [|i l IH]; intros h; [apply changes_refl|]. cbn [make_list map]. pose proof (make_one_changes dim dk h i) as C.
  destruct (make_one X dim dk h i) as [h1 [k|e]]; cbn [fst] in *; [|eapply changes_incl; [|apply incl_refl|exact C]; intros x Hx; cbn in *; tauto].
  specialize (IH h1). destruct (make_list X dim dk h1 l) as [h2 r]; cbn [fst] in *.
  eapply changes_trans; (eapply changes_incl; [|apply incl_refl|eassumption]); intros x Hx; cbn in *; tauto.
Qed.
Lemma make_bands_changes dim dk l : forall h, changes h (fst (make_bands X dim dk h l)) (map (fun i => ro_meta (i_obs i)) (List.concat l)) kobs_keys.
Proof.
  induction l as [|i l IH]; intros h; [apply changes_refl|]. cbn [make_bands List.concat]. rewrite map_app. pose proof (make_list_changes dim dk i h) as C.
  destruct (make_list X dim dk h i) as [h1 [k|e]]; cbn [fst] in *; [|eapply changes_incl; [|apply incl_refl|exact C]; intros x Hx; apply in_or_app; auto].
  specialize (IH h1). destruct (make_bands X dim dk h1 l) as [h2 r]; cbn [fst] in *.
  eapply changes_trans; (eapply changes_incl; [|apply incl_refl|eassumption]); intros x Hx; apply in_or_app; auto.
Qed.
Lemma mapM_metas os l : mapM (make_ii X) os = Ok l -> map (fun i => ro_meta (i_obs i)) l = map ro_meta os.
Proof.
  revert l. induction os as [|o os IH]; intros l; cbn [mapM]; [intros E; injection E as <-; reflexivity|].
  destruct (make_ii X o) as [i|] eqn:Ei; [|discriminate]. cbn [bind]. destruct (mapM (make_ii X) os) as [l'|] eqn:El; [|discriminate]. cbn [bind]. intros E; injection E as <-.
  cbn [map]. destruct (make_ii_spec o i Ei) as (-> & _). rewrite (IH l' eq_refl). reflexivity.
Qed.
Lemma mapM2_metas os l : mapM (mapM (make_ii X)) os = Ok l -> map (fun i => ro_meta (i_obs i)) (List.concat l) = map ro_meta (List.concat os).
Proof.
  revert l. induction os as [|o os IH]; intros l; cbn [mapM]; [intros E; injection E as <-; reflexivity|].
  destruct (mapM (make_ii X) o) as [i|] eqn:Ei; [|discriminate]. cbn [bind]. destruct (mapM (mapM (make_ii X)) os) as [l'|] eqn:El; [|discriminate]. cbn [bind]. intros E; injection E as <-.
  cbn [List.concat]. rewrite !map_app. rewrite (mapM_metas _ _ Ei), (IH l' eq_refl). reflexivity.
Qed.
Lemma make_kobs_changes h obs : changes h (fst (make_kobs X h obs)) (map ro_meta (List.concat obs)) kobs_keys.
Proof.
  unfold make_kobs, make_iilist. destruct (mapM (mapM (make_ii X)) obs) as [l|e] eqn:El; [|apply changes_refl]. cbn [bind].
  destruct (map _ _) as [|x rest]; [apply changes_refl|]. destruct (largest x rest) as [dim dk]. rewrite <- (mapM2_metas _ _ El). apply make_bands_changes.
Qed.
Lemma transform_metas dim dk os ks : Forall2 (Forall2 (transform_of X dim dk)) os ks -> MS (List.concat ks) = map ro_meta (List.concat os).
Proof.
  induction 1 as [|o k os ks H _ IH]; [reflexivity|]. cbn [List.concat]. rewrite !map_app, IH. f_equal.
  induction H as [|a b l l' (ii & pii & kk & mx & _ & _ & _ & _ & _ & E & _) _ IH2]; [reflexivity|]. cbn [map]. congruence.
Qed.
Lemma init_changes h m input guess prior h' r : gfit_init X h m input guess prior = (h', r) ->
  changes h h' (input_metas input) (fit_keys ++ kobs_keys).
Proof.
  unfold gfit_init. destruct input as [obs|obs]; cbn [input_metas].
  - pose proof (make_kobs_changes h obs) as C. destruct (make_kobs X h obs) as [h1 [ks|e]] eqn:E; cbn [fst] in C.
    + intros E'. assert (Eh : h' = init_images h1 ks) by (destruct (check_guess X _ guess); congruence). subst h'.
      destruct (make_kobs_spec _ _ _ _ E) as (dim & dk & T & _). pose proof (init_images_changes (List.concat ks) h1) as C2. rewrite (transform_metas _ _ _ _ T) in C2.
      eapply changes_trans; (eapply changes_incl; [apply incl_refl| |eassumption]); intros x Hx; apply in_or_app; auto.
    + intros E'. assert (Eh : h' = h1) by congruence. subst h'. eapply changes_incl; [apply incl_refl| |exact C]. intros x Hx; apply in_or_app; auto.
  - intros E'. assert (Eh : h' = init_images h obs) by (destruct (check_guess X _ guess); congruence). subst h'.
    eapply changes_incl; [apply incl_refl| |apply init_images_changes]. intros x Hx; apply in_or_app; auto.
Qed.

(** what a fit of real space observations always leaves *)
Lemma gget_put_num h a k v b : (exists x, gget (h b) "scale" = Some (GNum x)) -> k = "scale"%string /\ (exists x, v = GNum x) \/ k <> "scale"%string -> exists x, gget (hput h a k v b) "scale" = Some (GNum x).
Proof.
  intros (x & E) H. rewrite gget_hput. destruct (Nat.eqb_spec b a); [|eauto]. destruct (String.eqb_spec k "scale"); cbn [andb]; [|eauto].
  destruct H as [(_ & (y & ->))|N]; [eauto|contradiction].
Qed.
Definition has_scale (h : heap) (b : nat) : Prop := exists x, gget (h b) "scale" = Some (GNum x).
Lemma make_one_scale dim dk h i h' ko : make_one X dim dk h i = (h', Ok ko) -> has_scale h' (ro_meta (i_obs i)) /\ forall b, has_scale h b -> has_scale h' b.
Proof.
  unfold make_one. match goal with |- context [match ?ee with Ok _ => _ | Raise _ => _ end] => destruct ee as [[[k mx] psf]|e] end; [|discriminate].
  intros E. match type of E with (?hh, _) = _ => assert (Eh : h' = hh) by congruence end. subst h'. split.
  - unfold has_scale. rewrite gget_hput, Nat.eqb_refl. cbn. eauto.
  - intros b Hb. apply gget_put_num; [apply gget_put_num; [exact Hb|right; discriminate]|left; eauto].
Qed.
Lemma make_list_scale dim dk l : forall h h' ks, make_list X dim dk h l = (h', Ok ks) ->
  (forall i, In i l -> has_scale h' (ro_meta (i_obs i))) /\ forall b, has_scale h b -> has_scale h' b.
Proof.
  induction l as [|i l IH]; intros h h' ks; cbn [make_list]; [intros E; assert (h' = h) as -> by congruence; split; [intros ? []|auto]|].
  destruct (make_one X dim dk h i) as [h1 [k|e]] eqn:E1; [|discriminate]. destruct (make_list X dim dk h1 l) as [h2 [ks'|e]] eqn:E2; [|discriminate].
  intros E. assert (h' = h2) as -> by congruence. destruct (make_one_scale _ _ _ _ _ _ E1) as (A1 & A2). destruct (IH _ _ _ E2) as (B1 & B2). split; [|auto].
  intros j [<-|Hj]; auto.
Qed.
Lemma make_bands_scale dim dk l : forall h h' ks, make_bands X dim dk h l = (h', Ok ks) ->
  (forall i, In i (List.concat l) -> has_scale h' (ro_meta (i_obs i))) /\ forall b, has_scale h b -> has_scale h' b.
Proof.
  induction l as [|i l IH]; intros h h' ks; cbn [make_bands]; [intros E; assert (h' = h) as -> by congruence; split; [intros ? []|auto]|].
  destruct (make_list X dim dk h i) as [h1 [k|e]] eqn:E1; [|discriminate]. destruct (make_bands X dim dk h1 l) as [h2 [ks'|e]] eqn:E2; [|discriminate].
  intros E. assert (h' = h2) as -> by congruence. destruct (make_list_scale _ _ _ _ _ _ E1) as (A1 & A2). destruct (IH _ _ _ E2) as (B1 & B2). split; [|auto].
  cbn [List.concat]. intros j Hj. apply in_app_or in Hj as [Hj|Hj]; auto.
Qed.
Lemma init_scale h m obs guess prior h' F o : gfit_init X h m (InReal obs) guess prior = (h', Ok F) -> In o (List.concat obs) ->
  exists x, gget (h' (ro_meta o)) "scale" = Some (GNum x).
Proof.
  intros E Ho. destruct (init_made X _ _ _ _ _ _ _ E) as (_ & h1 & Eo & ->). cbn [observations] in Eo.
  assert (S1 : has_scale h1 (ro_meta o)).
  { unfold make_kobs, make_iilist in Eo. destruct (mapM (mapM (make_ii X)) obs) as [l|e] eqn:El; [|discriminate]. cbn [bind] in Eo.
    destruct (map (fun i => (i_dim i, i_dk i)) (List.concat l)) as [|x rest]; [discriminate|]. destruct (largest x rest) as [dim dk]. cbn [bind] in Eo.
    destruct (make_bands_scale _ _ _ _ _ _ Eo) as (A & _). assert (Hi : In (ro_meta o) (map (fun i => ro_meta (i_obs i)) (List.concat l))) by (rewrite (mapM2_metas _ _ El); apply in_map; exact Ho).
    apply in_map_iff in Hi as (i & Ei & Hi). rewrite <- Ei. apply A. exact Hi. }
  destruct S1 as (x & Ex). exists x. destruct (init_images_changes (List.concat (gf_obs F)) h1) as (_ & C). unfold init_images. rewrite C; [exact Ex|]. cbn. intuition discriminate.
Qed.

(** ** C117 *)
Lemma make_ii_moved shift o i : make_ii X o = Ok i ->
  exists i', make_ii X (move_centres shift o) = Ok i' /\ i_ii i' = i_ii i /\ i_dim i' = i_dim i /\ i_dk i' = i_dk i /\
    i_obs i' = move_centres shift o /\ i_obs i = o /\
    match i_psf i, i_psf i' with None, None => True | Some (q, p), Some (q', p') => q' = q /\ rp_image p' = rp_image p /\ rp_weight p' = rp_weight p /\ rp_meta p' = rp_meta p | _, _ => False end.
Proof.
  unfold make_ii, move_centres. destruct (shift o) as [[a b] [c d]]. cbn [ro_image ro_jac ro_psf]. change (get_galsim_wcs (move_jac a b (ro_jac o))) with (get_galsim_wcs (ro_jac o)).
  destruct (gx_ii X _ _) as [ii|e]; cbn [plain bind]; [|discriminate]. destruct (ro_psf o) as [p|]; cbn [option_map].
  - cbn [rp_image rp_jac]. change (get_galsim_wcs (move_jac c d (rp_jac p))) with (get_galsim_wcs (rp_jac p)).
    destruct (gx_ii X _ _) as [q|e]; cbn [plain bind]; [|discriminate]. destruct (gx_good X q); cbn [plain bind]; [|discriminate]. destruct (gx_stepk X ii); cbn [plain bind]; [|discriminate].
    intros E; injection E as <-. eexists. split; [reflexivity|]. cbn. repeat split.
  - destruct (gx_good X ii); cbn [plain bind]; [|discriminate]. destruct (gx_stepk X ii); cbn [plain bind]; [|discriminate].
    intros E; injection E as <-. eexists. split; [reflexivity|]. cbn. repeat split.
Qed.
Lemma make_ii_moved_raise shift o e : make_ii X o = Raise e -> make_ii X (move_centres shift o) = Raise e.
Proof.
  unfold make_ii, move_centres. destruct (shift o) as [[a b] [c d]]. cbn [ro_image ro_jac ro_psf]. change (get_galsim_wcs (move_jac a b (ro_jac o))) with (get_galsim_wcs (ro_jac o)).
  destruct (gx_ii X _ _) as [ii|e']; cbn [plain bind]; [|auto]. destruct (ro_psf o) as [p|]; cbn [option_map].
  - cbn [rp_image rp_jac]. change (get_galsim_wcs (move_jac c d (rp_jac p))) with (get_galsim_wcs (rp_jac p)).
    destruct (gx_ii X _ _) as [q|e']; cbn [plain bind]; [|auto]. destruct (gx_good X q); cbn [plain bind]; [|auto]. destruct (gx_stepk X ii); cbn [plain bind]; [discriminate|auto].
  - destruct (gx_good X ii); cbn [plain bind]; [|auto]. destruct (gx_stepk X ii); cbn [plain bind]; [discriminate|auto].
Qed.
Definition moved (shift : robs -> R * R * (R * R)) (i i' : @iidict II) : Prop :=
  i_ii i' = i_ii i /\ i_dim i' = i_dim i /\ i_dk i' = i_dk i /\ i_obs i' = move_centres shift (i_obs i) /\
    match i_psf i, i_psf i' with None, None => True | Some (q, p), Some (q', p') => q' = q /\ rp_image p' = rp_image p /\ rp_weight p' = rp_weight p /\ rp_meta p' = rp_meta p | _, _ => False end.
Lemma moved_ro shift o : ro_image (move_centres shift o) = ro_image o /\ ro_weight (move_centres shift o) = ro_weight o /\ ro_meta (move_centres shift o) = ro_meta o /\ get_scale (ro_jac (move_centres shift o)) = get_scale (ro_jac o).
Proof. unfold move_centres. destruct (shift o) as [[a b] [c d]]. cbn. auto. Qed.
Lemma make_one_moved shift dim dk h i i' : moved shift i i' -> make_one X dim dk h i' = make_one X dim dk h i.
Proof.
  intros (E1 & _ & _ & E4 & E5). unfold make_one. rewrite E1, E4. destruct (moved_ro shift (i_obs i)) as (-> & -> & -> & ->).
  destruct (i_psf i) as [[q p]|], (i_psf i') as [[q' p']|]; try tauto. destruct E5 as (-> & _ & -> & ->). reflexivity.
Qed.
Lemma make_list_moved shift dim dk l l' : Forall2 (moved shift) l l' -> forall h, make_list X dim dk h l' = make_list X dim dk h l.
Proof.
  induction 1 as [|i i' l l' Hi _ IH]; intros h; [reflexivity|]. cbn [make_list]. rewrite (make_one_moved _ _ _ _ _ _ Hi). destruct (make_one X dim dk h i) as [h1 [k|e]]; [|reflexivity].
  rewrite IH. reflexivity.
Qed.
Lemma make_bands_moved shift dim dk l l' : Forall2 (Forall2 (moved shift)) l l' -> forall h, make_bands X dim dk h l' = make_bands X dim dk h l.
Proof.
  induction 1 as [|i i' l l' Hi _ IH]; intros h; [reflexivity|]. cbn [make_bands]. rewrite (make_list_moved _ _ _ _ _ Hi). destruct (make_list X dim dk h i) as [h1 [k|e]]; [|reflexivity].
  rewrite IH. reflexivity.
Qed.
Lemma mapM_moved shift os : match mapM (make_ii X) os with Ok l => exists l', mapM (make_ii X) (map (move_centres shift) os) = Ok l' /\ Forall2 (moved shift) l l'
  | Raise e => mapM (make_ii X) (map (move_centres shift) os) = Raise e end.
Proof.
  induction os as [|o os IH]; cbn [map mapM]; [exists []; split; [reflexivity|constructor]|]. destruct (make_ii X o) as [i|e] eqn:Ei; cbn [bind].
  - destruct (make_ii_moved shift o i Ei) as (i' & E' & A1 & A2 & A3 & A4 & A5 & A6). rewrite E'. cbn [bind]. destruct (mapM (make_ii X) os) as [l|e].
    + destruct IH as (l' & -> & H). cbn [bind]. exists (i' :: l'). split; [reflexivity|]. constructor; [|exact H]. unfold moved. rewrite A5. auto.
    + rewrite IH. reflexivity.
  - rewrite (make_ii_moved_raise shift o e Ei). reflexivity.
Qed.
Lemma mapM2_moved shift os : match mapM (mapM (make_ii X)) os with Ok l => exists l', mapM (mapM (make_ii X)) (map (map (move_centres shift)) os) = Ok l' /\ Forall2 (Forall2 (moved shift)) l l'
  | Raise e => mapM (mapM (make_ii X)) (map (map (move_centres shift)) os) = Raise e end.
Proof.
  induction os as [|o os IH]; cbn [map mapM]; [exists []; split; [reflexivity|constructor]|]. pose proof (mapM_moved shift o) as H1. destruct (mapM (make_ii X) o) as [i|e]; cbn [bind].
  - destruct H1 as (i' & -> & Hi). cbn [bind]. destruct (mapM (mapM (make_ii X)) os) as [l|e].
    + destruct IH as (l' & -> & H). cbn [bind]. exists (i' :: l'). split; [reflexivity|]. constructor; assumption.
    + rewrite IH. reflexivity.
  - rewrite H1. reflexivity.
Qed.
Lemma moved_dims shift l l' : Forall2 (moved shift) l l' -> map (fun i => (i_dim i, i_dk i)) l' = map (fun i => (i_dim i, i_dk i)) l.
Proof. induction 1 as [|i i' l l' (_ & A & B & _) _ IH]; [reflexivity|]. cbn [map]. rewrite IH, A, B. reflexivity. Qed.
Lemma Forall2_concat {A B} (P : A -> B -> Prop) l l' : Forall2 (Forall2 P) l l' -> Forall2 P (List.concat l) (List.concat l').
Proof. induction 1; [constructor|]. cbn [List.concat]. apply Forall2_app; assumption. Qed.
Lemma make_kobs_moved shift h obs : make_kobs X h (map (map (move_centres shift)) obs) = make_kobs X h obs.
Proof.
  unfold make_kobs, make_iilist. pose proof (mapM2_moved shift obs) as H. destruct (mapM (mapM (make_ii X)) obs) as [l|e].
  - destruct H as (l' & -> & H). cbn [bind]. rewrite (moved_dims shift _ _ (Forall2_concat _ _ _ H)). destruct (map _ (List.concat l)) as [|x rest]; [reflexivity|].
    destruct (largest x rest) as [dim dk]. cbn [bind]. apply (make_bands_moved shift); assumption.
  - rewrite H. reflexivity.
Qed.
Lemma init_moved shift h m obs guess prior : gfit_init X h m (InReal (map (map (move_centres shift)) obs)) guess prior = gfit_init X h m (InReal obs) guess prior.
Proof. unfold gfit_init. rewrite make_kobs_moved. reflexivity. Qed.

(** ** C114 *)
Lemma set_flux_at5 nband pars cov f b : g_set_flux nband pars cov = Ok f -> List.length pars = nrow cov -> ncol cov = nrow cov -> (b < nband)%nat -> (5 + b < List.length pars)%nat ->
  result_flux f b = Some (par pars (5 + b)) /\ result_flux_err f b = Some (xsqrt (Fin (at2 cov (5 + b) (5 + b)))).
Proof.
  unfold g_set_flux. intros E Lc Sq Hb Hl. destruct (Nat.eqb_spec nband 1) as [->|N].
  - assert (b = 0%nat) as -> by lia. cbn [Nat.add] in *. rewrite (ritem_nth pars 5) in E by lia. cbn [bind] in E. unfold citem in E.
    destruct (Nat.ltb_spec 5 (nrow cov)); [|lia]. destruct (Nat.ltb_spec 5 (ncol cov)); [|lia]. cbn [andb bind] in E. injection E as <-. cbn. auto.
  - match type of E with Ok ?v = _ => assert (Ef : f = v) by congruence end. subst f. cbn [result_flux result_flux_err block nrow ncol at2].
    split.
    + rewrite (nth_error_nth' _ 0) by (rewrite skipn_length; lia). f_equal. unfold par.
      rewrite <- (firstn_skipn 5 pars) at 2. rewrite app_nth2 by (rewrite firstn_length; lia). rewrite firstn_length. f_equal. lia.
    + rewrite nth_error_map. rewrite (nth_error_nth' _ 0%nat) by (rewrite seq_length; lia). rewrite seq_nth by lia. cbn [option_map Nat.add]. do 4 f_equal; lia.
Qed.
End G.
