(** Fits with galsim: residuals, signal to noise, and what evaluations leave behind. *)
From Verif Require Import Base XReal Jacobian_Model Pixels_Model Priors_Model Joint_Model Fit_Model Fit_Spec Galsim_Model Galsim_Spec Galsim_Proofs.
From Coq Require Import String.
Local Open Scope R_scope.

(** ** residuals *)
Lemma assign_ok pre mid rest vals : List.length mid = List.length vals ->
  assign_slice (pre ++ mid ++ rest) (List.length pre) vals = Ok (pre ++ map Fin vals ++ rest)%list.
Proof.
  intros L. unfold assign_slice. rewrite !app_length. destruct (Nat.leb_spec (List.length pre + List.length vals) (List.length pre + (List.length mid + List.length rest))); [|lia].
  f_equal. rewrite firstn_app, firstn_all, Nat.sub_diag, firstn_O, app_nil_r. f_equal. f_equal.
  rewrite app_assoc, skipn_app, app_length, L, Nat.sub_diag. rewrite skipn_all2 by (rewrite app_length; lia). reflexivity.
Qed.
Definition own_size (ko : kobs) : nat := (k_nr (ko_image ko) * k_nc (ko_image ko))%nat.
Lemma residuals_length ko d : List.length (residuals ko d) = (2 * own_size ko)%nat.
Proof. unfold residuals, own_size. rewrite app_length, !ravel_length. lia. Qed.
Lemma diff_one_spec h pre mid rest ko d : fits ko -> ready1 h ko -> holds_model h ko (is_own ko d) -> List.length mid = (2 * own_size ko)%nat ->
  exists d', diff_one h (pre ++ mid ++ rest) (List.length pre) ko =
    (hput h (ko_meta ko) "scratch" (GKim (is_own ko d')), Ok (pre ++ map Fin (residuals ko d) ++ rest, List.length pre + 2 * own_size ko)%nat)%list.
Proof.
  intros (Hw & _) (H1 & _ & (ds & H3)) Hm Lm. unfold diff_one, meta_kim, meta_real. unfold holds_model in Hm. rewrite Hm, H1, H3. cbn [bind].
  assert (Sd : forall a b, same_dims (is_own ko a) (is_own ko b) = true) by (intros; unfold same_dims; cbn; rewrite !Nat.eqb_refl; reflexivity).
  rewrite Sd. cbn [negb]. unfold is_own. cbn [k_nr k_nc k_scale k_re k_im].
  unfold same_dims. cbn [k_nr k_nc]. rewrite !Nat.eqb_refl. cbn [andb negb].
  unfold weight_fits in *. cbn [k_nr k_nc nrow ncol ierr_of] in *. rewrite Hw. cbn [negb]. cbn [k_nr k_nc k_scale k_re k_im at2 ierr_of].
  set (f1 := fun r c : nat => (fst d r c - k_re (ko_image ko) r c) * (if Rltb 0 (at2 (ko_weight ko) r c) then sqrt (at2 (ko_weight ko) r c) else 0)).
  set (f2 := fun r c : nat => (snd d r c - k_im (ko_image ko) r c) * (if Rltb 0 (at2 (ko_weight ko) r c) then sqrt (at2 (ko_weight ko) r c) else 0)).
  exists (f1, f2). cbn [fst snd]. f_equal.
  pose proof (firstn_skipn (own_size ko) mid) as Em. assert (Lf : List.length (firstn (own_size ko) mid) = own_size ko) by (rewrite firstn_length; lia).
  assert (Ls : List.length (skipn (own_size ko) mid) = own_size ko) by (rewrite skipn_length; lia).
  rewrite <- Em. rewrite <- app_assoc. rewrite assign_ok by (rewrite ravel_length; exact Lf). cbn [bind].
  fold (own_size ko).
  replace (List.length pre + own_size ko)%nat with (List.length (pre ++ map Fin (ravel (k_nr (ko_image ko)) (k_nc (ko_image ko)) f1))%list) by (rewrite app_length, map_length, ravel_length; reflexivity).
  rewrite app_assoc. rewrite assign_ok by (rewrite ravel_length; exact Ls). cbn [bind]. f_equal. f_equal.
  - unfold residuals. rewrite map_app, <- !app_assoc. reflexivity.
  - rewrite app_length, map_length, ravel_length. unfold own_size. lia.
Qed.
Lemma diff_list_spec l : forall h ds pre mid rest, Forall fits l -> NoDup (map ko_meta l) -> ready h l -> Forall2 (fun ko d => holds_model h ko (is_own ko d)) l ds ->
  List.length mid = (2 * list_sum (map own_size l))%nat ->
  exists h' n, diff_list h (pre ++ mid ++ rest) (List.length pre) l =
    (h', Ok (pre ++ map Fin (List.concat (map (fun t => residuals (fst t) (snd t)) (combine l ds))) ++ rest, n)%list).
Proof.
  induction l as [|ko l IH]; intros h ds pre mid rest Hf ND Hr Hm Lm.
  - inversion Hm; subst. destruct mid; [|discriminate]. exists h, (List.length pre). reflexivity.
  - inversion Hm as [|x d xs ds' Hd Hds]; subst. inversion Hf as [|x xs Hf1 Hf2]; subst. inversion ND as [|x xs N ND']; subst. inversion Hr as [|x xs Hr1 Hr2]; subst.
    cbn [map list_sum fold_right] in Lm. fold (list_sum (map own_size l)) in Lm.
    pose proof (firstn_skipn (2 * own_size ko) mid) as Em. assert (Lf : List.length (firstn (2 * own_size ko) mid) = (2 * own_size ko)%nat) by (rewrite firstn_length; lia).
    assert (Ls : List.length (skipn (2 * own_size ko) mid) = (2 * list_sum (map own_size l))%nat) by (rewrite skipn_length; lia).
    rewrite <- Em, <- app_assoc. cbn [diff_list].
    destruct (diff_one_spec h pre (firstn (2 * own_size ko) mid) (skipn (2 * own_size ko) mid ++ rest)%list ko d Hf1 Hr1 Hd Lf) as (d' & E). rewrite E.
    rewrite app_assoc.
    replace (List.length pre + 2 * own_size ko)%nat with (List.length (pre ++ map Fin (residuals ko d))%list) by (rewrite app_length, map_length, residuals_length; reflexivity).
    set (h1 := hput h (ko_meta ko) "scratch" (GKim (is_own ko d'))).
    assert (Sk : forall ko', In ko' l -> same_keys h h1 fit_keys (ko_meta ko')).
    { intros ko' Hk. apply same_keys_other. intros Ee. apply N. rewrite <- Ee. apply in_map. exact Hk. }
    destruct (IH h1 ds' (pre ++ map Fin (residuals ko d))%list (skipn (2 * own_size ko) mid) rest Hf2 ND') as (h2 & n & E2); [| |exact Ls|].
    + apply Forall_forall. intros ko' Hk. eapply ready1_same; [apply Sk; exact Hk|]. revert Hk. apply Forall_forall. exact Hr2.
    + revert Sk Hds. clear. intros Sk Hds. induction Hds; constructor.
      * unfold holds_model in *. rewrite (Sk x (or_introl eq_refl) "kmodel"%string) by (cbn; tauto). exact H.
      * apply IHHds. intros ko' Hk. apply Sk. right. exact Hk.
    + rewrite E2. exists h2, n. cbn [combine map List.concat fst snd]. rewrite map_app, !app_assoc. reflexivity.
Qed.

(** ** what a call may change *)
Definition touch (h h' : heap) (ko : kobs) : Prop :=
  (forall a k, a <> ko_meta ko \/ ~ In k ["kmodel"; "scratch"]%string -> gget (h' a) k = gget (h a) k) /\ (ready1 h ko -> ready1 h' ko).
Lemma touch_refl h ko : touch h h ko. Proof. split; auto. Qed.
Lemma touch_trans h h' h'' ko : touch h h' ko -> touch h' h'' ko -> touch h h'' ko.
Proof. intros (A1 & A2) (B1 & B2). split; [|auto]. intros a k H. rewrite B1, A1 by exact H. reflexivity. Qed.
Lemma touch_kmodel h ko d : touch h (hput h (ko_meta ko) "kmodel" (GKim (is_own ko d))) ko.
Proof.
  split; [|apply put_own_ready]. intros a k H. rewrite gget_hput. destruct (Nat.eqb_spec a (ko_meta ko)); [|reflexivity].
  destruct (String.eqb_spec "kmodel" k); [|reflexivity]. subst. exfalso. destruct H as [H|H]; [congruence|]. apply H. cbn; tauto.
Qed.
Lemma touch_scratch h ko d : touch h (hput h (ko_meta ko) "scratch" (GKim (is_own ko d))) ko.
Proof.
  split.
  - intros a k H. rewrite gget_hput. destruct (Nat.eqb_spec a (ko_meta ko)); [|reflexivity].
    destruct (String.eqb_spec "scratch" k); [|reflexivity]. subst. exfalso. destruct H as [H|H]; [congruence|]. apply H. cbn; tauto.
  - intros (H1 & H2 & H3). unfold ready1. rewrite !gget_hput, !Nat.eqb_refl. cbn. split; [exact H1|]. split; [exact H2|eauto].
Qed.
(** several observations *)
Definition touches (h h' : heap) (l : list kobs) : Prop :=
  (forall a k, ~ In a (map ko_meta l) \/ ~ In k ["kmodel"; "scratch"]%string -> gget (h' a) k = gget (h a) k) /\
  (NoDup (map ko_meta l) -> ready h l -> ready h' l).
Lemma touches_refl h l : touches h h l. Proof. split; auto. Qed.
Lemma touches_trans h h' h'' l : touches h h' l -> touches h' h'' l -> touches h h'' l.
Proof. intros (A1 & A2) (B1 & B2). split; [|auto]. intros a k H. rewrite B1, A1 by exact H. reflexivity. Qed.
Lemma NoDup_same l : NoDup (map ko_meta l) -> forall k k', In k l -> In k' l -> ko_meta k = ko_meta k' -> k = k'.
Proof.
  induction l as [|x l IH]; intros ND k k' Hk Hk' E; [destruct Hk|]. cbn [map] in ND. inversion ND as [|y ys N ND']; subst.
  destruct Hk as [->|Hk], Hk' as [->|Hk'].
  - reflexivity.
  - exfalso. apply N. rewrite E. apply in_map. exact Hk'.
  - exfalso. apply N. rewrite <- E. apply in_map. exact Hk.
  - apply IH; assumption.
Qed.
Lemma touches_one h h' ko l : In ko l -> touch h h' ko -> touches h h' l.
Proof.
  intros Hk (T1 & T2). split.
  - intros a k H. apply T1. destruct H as [H|H]; [|auto]. left. intros ->. apply H. apply in_map. exact Hk.
  - intros ND Hr. apply Forall_forall. intros ko' Hk'. assert (R1' : ready1 h ko') by (revert Hk'; apply Forall_forall; exact Hr).
    destruct (Nat.eq_dec (ko_meta ko') (ko_meta ko)) as [E|N].
    + rewrite (NoDup_same l ND ko' ko Hk' Hk E) in *. auto.
    + eapply ready1_same; [|exact R1']. intros k _. apply T1. auto.
Qed.

Section G.
Context {G II : Type} (X : gext G II).

Lemma fill_model_touch m bp h ko : fits ko -> ready1 h ko -> touch h (fst (fill_model X m bp h ko)) ko.
Proof.
  intros (_ & Hp) (H1 & (d & H2) & H3). unfold fill_model, meta_kim. destruct (make_model X m bp) as [g|e]; cbn [bind]; [|apply touch_refl].
  rewrite H2. cbn [bind]. unfold draw_on. destruct (gx_draw X g _ _ _) as [d'|e]; cbn [plain]; [|apply touch_refl].
  change (mkKim _ _ _ _ _) with (is_own ko d'). rewrite through_psf_ok by exact Hp. cbn [plain fst].
  eapply touch_trans; apply touch_kmodel.
Qed.
Lemma s2n_one_touch m bp h ko s : fits ko -> ready1 h ko -> touch h (fst (s2n_one X m bp h ko s)) ko.
Proof.
  intros (Hw & Hp) (H1 & (d & H2) & H3). unfold s2n_one, meta_kim. destruct (make_model X m _) as [g|e]; cbn [bind]; [|apply touch_refl].
  rewrite H2. cbn [bind]. unfold draw_on. destruct (gx_drawk X g _ _ _) as [d'|e]; cbn [plain]; [|apply touch_refl].
  change (mkKim _ _ _ _ _) with (is_own ko d') at 1 2. rewrite through_psf_ok by exact Hp. cbn [plain].
  destruct (negb _); cbn [fst]; (eapply touch_trans; [apply touch_kmodel|]).
  - apply touch_kmodel.
  - exact (touch_kmodel _ ko ((fun r c => fst (psf_product ko d') r c * fst (psf_product ko d') r c * at2 (ko_weight ko) r c),
                              (fun r c => snd (psf_product ko d') r c * snd (psf_product ko d') r c * at2 (ko_weight ko) r c))).
Qed.
Lemma diff_one_touch h fd start ko : fits ko -> ready1 h ko -> touch h (fst (diff_one h fd start ko)) ko.
Proof.
  intros (Hw & _) (H1 & (d & H2) & (d' & H3)). unfold diff_one, meta_kim, meta_real. rewrite H1, H2, H3. cbn [bind].
  assert (Sd : forall a b, same_dims (is_own ko a) (is_own ko b) = true) by (intros; unfold same_dims; cbn; rewrite !Nat.eqb_refl; reflexivity).
  rewrite Sd. cbn [negb]. unfold is_own. cbn [k_nr k_nc k_scale k_re k_im].
  unfold same_dims. cbn [k_nr k_nc]. rewrite !Nat.eqb_refl. cbn [andb negb].
  unfold weight_fits in *. cbn [k_nr k_nc nrow ncol ierr_of] in *. rewrite Hw. cbn [negb fst]. cbn [k_nr k_nc k_scale k_re k_im at2 ierr_of].
  match goal with |- touch _ (hput _ _ _ (GKim (mkKim _ _ _ ?a ?b))) _ => exact (touch_scratch h ko (a, b)) end.
Qed.

Section L.
Variable L : list kobs.
Hypothesis HF : Forall fits L.
Hypothesis ND : NoDup (map ko_meta L).
Lemma in_fits ko : In ko L -> fits ko. Proof. revert ko. apply Forall_forall. exact HF. Qed.
Lemma in_ready h ko : ready h L -> In ko L -> ready1 h ko. Proof. intros H. revert ko. apply Forall_forall. exact H. Qed.

Lemma fill_list_touches m bp l : forall h, incl l L -> ready h L -> touches h (fst (fill_list X m bp h l)) L.
Proof.
  induction l as [|ko l IH]; intros h Hi Hr; [apply touches_refl|]. cbn [fill_list].
  assert (Hk : In ko L) by (apply Hi; left; reflexivity). pose proof (touches_one _ _ _ L Hk (fill_model_touch m bp h ko (in_fits ko Hk) (in_ready h ko Hr Hk))) as T.
  destruct (fill_model X m bp h ko) as [h1 [[]|e]]; cbn [fst] in *; [|exact T]. eapply touches_trans; [exact T|]. apply IH; [|apply T; assumption].
  intros x Hx. apply Hi. right. exact Hx.
Qed.
Lemma s2n_list_touches m bp l : forall h s, incl l L -> ready h L -> touches h (fst (s2n_list X m bp h l s)) L.
Proof.
  induction l as [|ko l IH]; intros h s Hi Hr; [apply touches_refl|]. cbn [s2n_list].
  assert (Hk : In ko L) by (apply Hi; left; reflexivity). pose proof (touches_one _ _ _ L Hk (s2n_one_touch m bp h ko s (in_fits ko Hk) (in_ready h ko Hr Hk))) as T.
  destruct (s2n_one X m bp h ko s) as [h1 [s'|e]]; cbn [fst] in *; [|exact T]. eapply touches_trans; [exact T|]. apply IH; [|apply T; assumption].
  intros x Hx. apply Hi. right. exact Hx.
Qed.
Lemma diff_list_touches l : forall h fd start, incl l L -> ready h L -> touches h (fst (diff_list h fd start l)) L.
Proof.
  induction l as [|ko l IH]; intros h fd start Hi Hr; [apply touches_refl|]. cbn [diff_list].
  assert (Hk : In ko L) by (apply Hi; left; reflexivity). pose proof (touches_one _ _ _ L Hk (diff_one_touch h fd start ko (in_fits ko Hk) (in_ready h ko Hr Hk))) as T.
  destruct (diff_one h fd start ko) as [h1 [[fd' st']|e]]; cbn [fst] in *; [|exact T]. eapply touches_trans; [exact T|]. apply IH; [|apply T; assumption].
  intros x Hx. apply Hi. right. exact Hx.
Qed.
Lemma incl_concat (l : list kobs) obs : incl (List.concat (l :: obs)) L -> incl l L /\ incl (List.concat obs) L.
Proof. cbn [List.concat]. intros H. split; intros x Hx; apply H; apply in_or_app; auto. Qed.
Lemma fill_bands_touches m pars obs : forall b h buf, incl (List.concat obs) L -> ready h L -> touches h (fst (fst (fill_bands X m pars buf b h obs))) L.
Proof.
  induction obs as [|l obs IH]; intros b h buf Hi Hr; [apply touches_refl|]. cbn [fill_bands]. apply incl_concat in Hi as [Hi1 Hi2].
  destruct (fill_band _ _ _ _) as [buf1 [[]|e]]; [|apply touches_refl].
  pose proof (fill_list_touches m buf1 l h Hi1 Hr) as T. destruct (fill_list X m buf1 h l) as [h1 [[]|e]]; cbn [fst] in *; [|exact T].
  eapply touches_trans; [exact T|]. apply IH; [exact Hi2|apply T; assumption].
Qed.
Lemma s2n_bands_touches m pars obs : forall b h buf s, incl (List.concat obs) L -> ready h L -> touches h (fst (fst (s2n_bands X m pars buf b h obs s))) L.
Proof.
  induction obs as [|l obs IH]; intros b h buf s Hi Hr; [apply touches_refl|]. cbn [s2n_bands]. apply incl_concat in Hi as [Hi1 Hi2].
  destruct (fill_band _ _ _ _) as [buf1 [[]|e]]; [|apply touches_refl].
  pose proof (s2n_list_touches m buf1 l h s Hi1 Hr) as T. destruct (s2n_list X m buf1 h l s) as [h1 [s'|e]]; cbn [fst] in *; [|exact T].
  eapply touches_trans; [exact T|]. apply IH; [exact Hi2|apply T; assumption].
Qed.
Lemma calc_fdiff_touches h F pars : L = List.concat (gf_obs F) -> ready h L -> touches h (fst (fst (calc_fdiff X h F pars))) L.
Proof.
  intros EL Hr. unfold calc_fdiff, fill_models.
  pose proof (fill_bands_touches (gf_model F) pars (gf_obs F) 0 h (gf_buf F)) as T. rewrite <- EL in T. specialize (T (incl_refl _) Hr).
  destruct (fill_bands X _ _ _ _ _ _) as [[h1 b1] r]; cbn [fst] in *.
  destruct (as_range r) as [[]|e]; [|exact T].
  destruct (g_fill_priors _ _ _) as [[fd start]|e]; [|exact T]. cbn [gf_obs with_buf]. rewrite <- EL.
  pose proof (diff_list_touches L h1 fd start (incl_refl _)) as T2. destruct (diff_list h1 fd start L) as [h2 r2]. cbn [fst] in *.
  eapply touches_trans; [exact T|]. apply T2. apply T; assumption.
Qed.
Lemma calc_s2n_touches h F pars : L = List.concat (gf_obs F) -> ready h L -> touches h (fst (fst (calc_s2n_r X h F pars))) L.
Proof.
  intros EL Hr. unfold calc_s2n_r.
  pose proof (s2n_bands_touches (gf_model F) pars (gf_obs F) 0 h (gf_buf F) 0) as T. rewrite <- EL in T. specialize (T (incl_refl _) Hr).
  destruct (s2n_bands X _ _ _ _ _ _) as [[h1 b1] r]; exact T.
Qed.
End L.

(** the buffer keeps its length; nothing else in the fit changes *)
Definition same_fit (F0 F : gfit) : Prop := F = with_buf F0 (gf_buf F).
Lemma fill_bands_buf m pars obs : forall b h buf, List.length buf = S (n_before m) -> List.length (snd (fst (fill_bands X m pars buf b h obs))) = S (n_before m).
Proof.
  induction obs as [|l obs IH]; intros b h buf Lb; [exact Lb|]. cbn [fill_bands]. pose proof (fill_band_length _ _ pars b Lb) as L1.
  destruct (fill_band _ _ _ _) as [buf1 [[]|e]]; cbn [fst snd] in *; [|exact L1]. destruct (fill_list X m buf1 h l) as [h1 [[]|e]]; cbn [fst snd]; [|exact L1].
  apply IH. exact L1.
Qed.
Lemma s2n_bands_buf m pars obs : forall b h buf s, List.length buf = S (n_before m) -> List.length (snd (fst (s2n_bands X m pars buf b h obs s))) = S (n_before m).
Proof.
  induction obs as [|l obs IH]; intros b h buf s Lb; [exact Lb|]. cbn [s2n_bands]. pose proof (fill_band_length _ _ pars b Lb) as L1.
  destruct (fill_band _ _ _ _) as [buf1 [[]|e]]; cbn [fst snd] in *; [|exact L1]. destruct (s2n_list X m buf1 h l s) as [h1 [s'|e]]; cbn [fst snd]; [|exact L1].
  apply IH. exact L1.
Qed.
Lemma check_bands_buf m guess bands : forall buf, List.length buf = S (n_before m) -> List.length (fst (check_bands X m buf guess bands)) = S (n_before m).
Proof.
  induction bands as [|b bands IH]; intros buf Lb; [exact Lb|]. cbn [check_bands]. pose proof (fill_band_length _ _ guess b Lb) as L1.
  destruct (fill_band _ _ _ _) as [buf1 r]; cbn [fst] in *. destruct (let* _ := r in make_model X m buf1); [|exact L1]. apply IH. exact L1.
Qed.
Lemma fdiff_fit h F pars h' F' r : calc_fdiff X h F pars = (h', F', r) -> List.length (gf_buf F) = S (n_before (gf_model F)) ->
  same_fit F F' /\ List.length (gf_buf F') = S (n_before (gf_model F)).
Proof.
  intros E Lb. unfold calc_fdiff, fill_models in E. pose proof (fill_bands_buf (gf_model F) pars (gf_obs F) 0 h (gf_buf F) Lb) as L1.
  destruct (fill_bands X _ _ _ _ _ _) as [[h1 b1] r1]; cbn [fst snd] in *.
  assert (EF : F' = with_buf F b1).
  { destruct (as_range r1) as [[]|e]; [|congruence]. destruct (g_fill_priors _ _ _) as [[fd start]|e]; [|congruence]. destruct (diff_list _ _ _ _). congruence. }
  subst F'. split; [reflexivity|exact L1].
Qed.
Lemma s2n_fit h F pars h' F' r : calc_s2n_r X h F pars = (h', F', r) -> List.length (gf_buf F) = S (n_before (gf_model F)) ->
  same_fit F F' /\ List.length (gf_buf F') = S (n_before (gf_model F)).
Proof.
  intros E Lb. unfold calc_s2n_r in E. pose proof (s2n_bands_buf (gf_model F) pars (gf_obs F) 0 h (gf_buf F) 0 Lb) as L1.
  destruct (s2n_bands X _ _ _ _ _ _) as [[h1 b1] r1]; cbn [fst snd] in *. assert (EF : F' = with_buf F b1) by congruence. subst F'. split; [reflexivity|exact L1].
Qed.
End G.
