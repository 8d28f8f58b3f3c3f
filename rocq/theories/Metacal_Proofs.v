(** Proofs about metacal. *)
From Verif Require Import Base Shape_Model Jacobian_Model Pixels_Model GMix_Model Obs_Model ObsVal_Model SimObs_Model SimObs_Spec SimObs_Proofs Metacal_Model Metacal_Spec.
From Coq Require String Ascii.
Import String.StringSyntax.
Local Open Scope R_scope.
Local Open Scope string_scope.
Local Open Scope list_scope.
Local Notation string := String.string.

(** ---- dictionaries ---- *)
Section Dict.
Context {A : Type}.
Implicit Types d : sdict A.
Lemma sget_sset_same d k v : sget (sset d k v) k = Some v.
Proof.
  induction d as [|[k' v'] d IH]; cbn; [rewrite String.eqb_refl; auto|].
  destruct (String.eqb k k') eqn:E; cbn; rewrite E; auto.
Qed.
Lemma sget_sset_other d k k' v : k <> k' -> sget (sset d k v) k' = sget d k'.
Proof.
  intros N. induction d as [|[k1 v1] d IH]; cbn.
  - destruct (String.eqb_spec k' k); [congruence|auto].
  - destruct (String.eqb_spec k k1); cbn.
    + subst. destruct (String.eqb_spec k' k1); [congruence|auto].
    + destruct (String.eqb k' k1); auto.
Qed.
Lemma sset_sset d k v w : sset (sset d k v) k w = sset d k w.
Proof.
  induction d as [|[k1 v1] d IH]; cbn; [rewrite String.eqb_refl; auto|].
  destruct (String.eqb k k1) eqn:E; cbn; rewrite E; congruence.
Qed.
Lemma in_keys_sset d k v x : In x (keys (sset d k v)) <-> In x (keys d) \/ x = k.
Proof.
  induction d as [|[k1 v1] d IH]; cbn; [intuition congruence|].
  destruct (String.eqb_spec k k1); cbn; [subst; intuition congruence|]. unfold keys in *. rewrite IH. tauto.
Qed.
Lemma nodup_sset d k v : NoDup (keys d) -> NoDup (keys (sset d k v)).
Proof.
  induction d as [|[k1 v1] d IH]; cbn; intros H.
  - constructor; auto.
  - destruct (String.eqb_spec k k1); cbn; auto. apply NoDup_cons_iff in H as [H1 H2].
    apply NoDup_cons; auto. intros X. apply in_keys_sset in X as [X|X]; auto.
Qed.
Lemma sget_in d k : In k (keys d) <-> exists v, sget d k = Some v.
Proof.
  induction d as [|[k1 v1] d IH]; cbn; [split; [tauto|intros [v [=]]]|].
  destruct (String.eqb_spec k k1).
  - subst. split; [intros _; eauto|auto].
  - rewrite <- IH. split; [intros [->|H]; [congruence|auto]|auto].
Qed.
Lemma sget_pair d k v : sget d k = Some v -> In (k, v) d.
Proof.
  induction d as [|[k1 v1] d IH]; cbn; [discriminate|].
  destruct (String.eqb_spec k k1); [intros [= ->]; subst; auto|auto].
Qed.
Lemma pair_sget d k v : NoDup (keys d) -> In (k, v) d -> sget d k = Some v.
Proof.
  induction d as [|[k1 v1] d IH]; cbn; [tauto|]. intros H [[= -> ->]|I].
  - rewrite String.eqb_refl. auto.
  - apply NoDup_cons_iff in H as [H1 H2]. destruct (String.eqb_spec k k1); [|auto].
    subst. destruct H1. apply (in_map fst) in I. exact I.
Qed.
End Dict.
Lemma is_in_spec x l : is_in x l = true <-> In x l.
Proof.
  unfold is_in. rewrite existsb_exists. split.
  - intros (y & H & E). apply String.eqb_eq in E. congruence.
  - intros H. exists x. rewrite String.eqb_refl. auto.
Qed.
Lemma is_in_false x l : is_in x l = false <-> ~ In x l.
Proof. rewrite <- is_in_spec. destruct (is_in x l); intuition congruence. Qed.

(** ---- keys of the cache ---- *)
Fixpoint chars (s : string) : list Ascii.ascii :=
  match s with String.EmptyString => [] | String.String a s => a :: chars s end.
Fixpoint unchars (l : list Ascii.ascii) : string :=
  match l with [] => "" | a :: l => String.String a (unchars l) end.
Lemma chars_app a b : chars (String.append a b) = chars a ++ chars b.
Proof. induction a; cbn; congruence. Qed.
Lemma unchars_chars s : unchars (chars s) = s.
Proof. induction s; cbn; congruence. Qed.
Lemma chars_unchars l : chars (unchars l) = l.
Proof. induction l; cbn; congruence. Qed.
Lemma chars_inj a b : chars a = chars b -> a = b.
Proof. intros H. rewrite <- (unchars_chars a), <- (unchars_chars b). congruence. Qed.
Lemma split_cases {A} (a b c d : list A) : a ++ b = c ++ d ->
  (exists x, c = a ++ x /\ b = x ++ d) \/ (exists x, a = c ++ x /\ d = x ++ b).
Proof.
  revert c. induction a as [|y a IH]; intros c H; cbn in H; [left; exists c; auto|].
  destruct c as [|z c]; cbn in H; [right; exists (y :: a); auto|].
  injection H as -> H. destruct (IH c H) as [(x & -> & ->)|(x & -> & ->)]; [left|right]; exists x; auto.
Qed.
Lemma dash_cut a b c d : float_like a -> float_like c ->
  String.append a (String.append "-" b) = String.append c (String.append "-" d) -> a = c /\ b = d.
Proof.
  intros (A1 & A2 & A3) (C1 & C2 & C3) H.
  assert (E : chars a ++ chars (String.append "-" b) = chars c ++ chars (String.append "-" d))
    by (rewrite <- !chars_app; congruence).
  rewrite !(chars_app "-") in E. cbn [chars app] in E.
  assert (K : forall x y z, x <> "" -> (forall a b, y = String.append a (String.append "-" b) -> a = "" \/ exists a', a = String.append a' "e") ->
     (forall a', x <> String.append a' "e") -> chars y = chars x ++ z -> z = [] \/ exists t z', z = t :: z' /\ t <> Ascii.Ascii true false true true false true false false).
  { intros x y z X1 Y X2 Q. destruct z as [|t z]; [auto|right]. exists t, z. split; [auto|]. intros ->.
    destruct (Y x (unchars z)) as [Y'|(a' & Y')]; [|congruence|].
    - apply chars_inj. rewrite !chars_app, chars_unchars, Q. reflexivity.
    - apply (X2 a'). exact Y'. }
  destruct (split_cases _ _ _ _ E) as [(x & E1 & E2)|(x & E1 & E2)].
  - destruct (K a c x A1 C2 A3 E1) as [->|(t & z' & -> & N)].
    + rewrite app_nil_r in E1. cbn in E2. injection E2 as E2. split; apply chars_inj; congruence.
    + cbn in E2. congruence.
  - destruct (K c a x C1 A2 C3 E1) as [->|(t & z' & -> & N)].
    + rewrite app_nil_r in E1. cbn in E2. injection E2 as E2. split; apply chars_inj; congruence.
    + cbn in E2. congruence.
Qed.
Lemma key_injective fstr l d d' sh sh' : prints fstr l -> made_of l sh -> made_of l sh' ->
  psf_key fstr d sh = psf_key fstr d' sh' -> d = d' /\ sh_g1 sh = sh_g1 sh' /\ sh_g2 sh = sh_g2 sh'.
Proof.
  intros [F I] [M1 M2] [N1 N2]. unfold psf_key. intros H.
  assert (D : d = d') by (destruct d, d'; try reflexivity; discriminate H). subst d'. split; [auto|].
  assert (H' : String.append (fstr (sh_g1 sh)) (String.append "-" (fstr (sh_g2 sh))) = String.append (fstr (sh_g1 sh')) (String.append "-" (fstr (sh_g2 sh')))).
  { destruct d; injection H; auto. }
  destruct (dash_cut _ _ _ _ (F _ M1) (F _ N1) H'). split; apply I; auto.
Qed.

(** ---- the target psf ---- *)
Section Psf.
Variable G : galsim.
Variable fstr : R -> string.
Variable l : list R.
Hypothesis P : prints fstr l.
Notation mc := (mc G).

Definition good (m : mc) (c : cache G) : Prop :=
  forall d sh x, made_of l sh -> sget c (psf_key fstr d sh) = Some x ->
    match x with
    | CPair _ im p => target_psf G m d (sh_g1 sh) (sh_g2 sh) = Ok (im, p)
    | CObj _ _ => mc_kind G m = KDilate G /\ exists e, target_psf G m d (sh_g1 sh) (sh_g2 sh) = Raise e
    end.
Lemma good_nil m : good m [].
Proof. intros d sh x _ H. discriminate. Qed.
Lemma drawn_range nr nc w p : range_error (gs_draw G nr nc w p) = drawn G nr nc w p.
Proof. unfold range_error, drawn. destruct (gs_draw G nr nc w p) as [|[]]; reflexivity. Qed.

Lemma good_sset m c d sh x : made_of l sh -> good m c ->
  match x with
  | CPair _ im p => target_psf G m d (sh_g1 sh) (sh_g2 sh) = Ok (im, p)
  | CObj _ _ => mc_kind G m = KDilate G /\ exists e, target_psf G m d (sh_g1 sh) (sh_g2 sh) = Raise e
  end -> good m (sset c (psf_key fstr d sh) x).
Proof.
  intros M Gc X d' sh' y M' S.
  destruct (String.eqb_spec (psf_key fstr d sh) (psf_key fstr d' sh')) as [E|E].
  - destruct (key_injective fstr l _ _ _ _ P M M' E) as (-> & E1 & E2).
    rewrite <- E, sget_sset_same in S. injection S as <-. rewrite <- E1, <- E2. exact X.
  - rewrite sget_sset_other in S by auto. apply (Gc _ _ _ M' S).
Qed.

Lemma target_psf_spec m sh d c c' r : made_of l sh -> good m c -> get_target_psf G fstr m sh d c = (c', r) ->
  good m c' /\
  (r = target_psf G m d (sh_g1 sh) (sh_g2 sh) \/
   (mc_kind G m = KDilate G /\ r = Raise TypeError /\ (exists e, target_psf G m d (sh_g1 sh) (sh_g2 sh) = Raise e) /\ exists p, sget c (psf_key fstr d sh) = Some (CObj G p))).
Proof.
  intros M Gc. unfold get_target_psf.
  destruct (sget c (psf_key fstr d sh)) as [[p|im p]|] eqn:S.
  - intros [= <- <-]. split; [auto|]. cbn [bind]. rewrite S.
    right. destruct (Gc _ _ _ M S) as (K & X). eauto.
  - intros [= <- <-]. split; [auto|]. left. cbn [bind]. rewrite S. symmetry. apply (Gc _ _ _ M S).
  - set (T := target_psf G m d (sh_g1 sh) (sh_g2 sh)).
    assert (KD : mc_kind G m = KDilate G \/ exists r, dilated_psf G fstr m sh d c = (c, r) /\ kernel G m d (sh_g1 sh) (sh_g2 sh) = r).
    { unfold dilated_psf, kernel, do_dilate, shear_dilation. destruct (mc_kind G m); auto; right; destruct d; eauto. }
    destruct KD as [KD|(r0 & E0 & Kr)].
    + unfold dilated_psf. rewrite KD. unfold dilated_psf_dilate. rewrite S, sget_sset_same.
      set (c1 := sset c (psf_key fstr d sh) (CObj G (do_dilate G (mc_psf_nopix G m) sh))).
      assert (Hk : kernel G m d (sh_g1 sh) (sh_g2 sh) =
        let* p := if d then gs_shear G (sh_g1 sh) (sh_g2 sh) (do_dilate G (mc_psf_nopix G m) sh) else Ok (do_dilate G (mc_psf_nopix G m) sh) in
        Ok (gs_convolve G p (mc_pixel G m))).
      { unfold kernel. rewrite KD. destruct d; reflexivity. }
      assert (X : forall e, T = Raise e -> good m c1).
      { intros e He. apply good_sset; auto. split; [auto|]. exists e. exact He. }
      assert (Y : forall x, T = Ok x -> good m (sset c1 (psf_key fstr d sh) (CPair G (fst x) (snd x)))).
      { intros [im p] Hx. unfold c1. rewrite sset_sset. apply good_sset; auto. }
      rewrite <- Hk. clear Hk. fold c1.
      unfold T, target_psf in *. destruct (kernel G m d (sh_g1 sh) (sh_g2 sh)) as [p|e]; cbn [bind] in *.
      * rewrite drawn_range. destruct (drawn G _ _ _ p) as [im|e]; cbn [bind] in *; intros [= <- <-].
        -- rewrite sget_sset_same. split; [|left; reflexivity]. apply (Y _ eq_refl).
        -- split; [eapply X; reflexivity|left; reflexivity].
      * intros [= <- <-]. split; [eapply X; reflexivity|left; reflexivity].
    + rewrite E0. unfold T, target_psf in *. rewrite Kr. destruct r0 as [p|e]; cbn [bind].
      * rewrite drawn_range. destruct (drawn G _ _ _ p) as [im|e] eqn:Dr; cbn [bind]; intros [= <- <-].
        -- rewrite sget_sset_same. split; [|left; reflexivity].
           apply good_sset; auto. unfold target_psf. rewrite Kr. cbn [bind]. rewrite Dr. reflexivity.
        -- split; [auto|left; reflexivity].
      * intros [= <- <-]. split; [auto|left; reflexivity].
Qed.

Lemma history_good m h c : Forall (fun r : request => made_of l (snd r)) h -> good m c -> good m (history G fstr m h c).
Proof.
  revert c. induction h as [|[d sh] h IH]; intros c F Gc; [exact Gc|].
  apply Forall_cons_iff in F as [F1 F2]. cbn [history fold_left fst snd]. apply IH; [auto|].
  destruct (get_target_psf G fstr m sh d c) as [c' r] eqn:E. cbn. apply (target_psf_spec _ _ _ _ _ _ F1 Gc E).
Qed.

(** the target psf does not depend on earlier requests *)
Lemma psf_transparent m h d sh : Forall (fun r : request => made_of l (snd r)) h -> made_of l sh ->
  mc_kind G m <> KDilate G ->
  snd (get_target_psf G fstr m sh d (history G fstr m h [])) = target_psf G m d (sh_g1 sh) (sh_g2 sh).
Proof.
  intros F M K. destruct (get_target_psf G fstr m sh d _) as [c' r] eqn:E. cbn.
  destruct (target_psf_spec _ _ _ _ _ _ M (history_good m h [] F (good_nil m)) E) as (_ & [H|(K' & _)]); [auto|congruence].
Qed.
Lemma psf_success m h d sh x : Forall (fun r : request => made_of l (snd r)) h -> made_of l sh ->
  snd (get_target_psf G fstr m sh d (history G fstr m h [])) = Ok x <-> target_psf G m d (sh_g1 sh) (sh_g2 sh) = Ok x.
Proof.
  intros F M. destruct (get_target_psf G fstr m sh d _) as [c' r] eqn:E. cbn.
  destruct (target_psf_spec _ _ _ _ _ _ M (history_good m h [] F (good_nil m)) E) as (_ & [->|(K' & -> & (e & ->) & _)]); [reflexivity|].
  split; discriminate.
Qed.
(** MetacalDilatePSF: after a failure the exception is another one *)
Lemma psf_poisoned m h d sh e : Forall (fun r : request => made_of l (snd r)) h -> made_of l sh ->
  mc_kind G m = KDilate G -> target_psf G m d (sh_g1 sh) (sh_g2 sh) = Raise e ->
  snd (get_target_psf G fstr m sh d (history G fstr m (h ++ [(d, sh)]) [])) = Raise TypeError.
Proof.
  intros F M K T. set (c := history G fstr m h []).
  assert (Hc : history G fstr m (h ++ [(d, sh)]) [] = fst (get_target_psf G fstr m sh d c)).
  { unfold history. rewrite fold_left_app. reflexivity. }
  rewrite Hc. clear Hc.
  assert (Gc : good m c) by (apply history_good; [auto|apply good_nil]).
  assert (X : exists p, sget (fst (get_target_psf G fstr m sh d c)) (psf_key fstr d sh) = Some (CObj G p)).
  { unfold get_target_psf. destruct (sget c (psf_key fstr d sh)) as [[p|im p]|] eqn:S.
    - exists p. exact S.
    - specialize (Gc d sh _ M S). cbn in Gc. congruence.
    - unfold target_psf in T. unfold dilated_psf. rewrite K. unfold dilated_psf_dilate. rewrite S, sget_sset_same.
      assert (Hk : kernel G m d (sh_g1 sh) (sh_g2 sh) =
        let* p := if d then gs_shear G (sh_g1 sh) (sh_g2 sh) (do_dilate G (mc_psf_nopix G m) sh) else Ok (do_dilate G (mc_psf_nopix G m) sh) in
        Ok (gs_convolve G p (mc_pixel G m))).
      { unfold kernel. rewrite K. destruct d; reflexivity. }
      rewrite <- Hk. destruct (kernel G m d (sh_g1 sh) (sh_g2 sh)) as [p|e0]; cbn [bind] in *.
      + rewrite drawn_range. destruct (drawn G _ _ _ p); cbn [bind] in T; [discriminate|]. cbn [fst]. rewrite sget_sset_same. eauto.
      + cbn [fst]. rewrite sget_sset_same. eauto. }
  destruct X as (p & X). revert X. generalize (fst (get_target_psf G fstr m sh d c)). intros c' X. unfold get_target_psf. rewrite X. cbn [snd bind]. rewrite X. reflexivity.
Qed.
End Psf.

(** ---- the new observations ---- *)
Lemma shape_eqb_dims a b c d : shape_eqb (a, b) (c, d) = true -> a = c /\ b = d.
Proof. unfold shape_eqb. cbn. intros H. apply andb_prop in H as [H1 H2]. apply Nat.eqb_eq in H1, H2. auto. Qed.
Lemma shape_eqb_refl a b : shape_eqb (a, b) (a, b) = true.
Proof. unfold shape_eqb. cbn. rewrite !Nat.eqb_refl. auto. Qed.
Lemma set_image_ok v im v' : v_set_image v im = Ok v' -> v' = new_image v im (v_psf v) /\ same_dims im (v_image v).
Proof.
  destruct v as [old w j opts g d st ig p]. cbn [v_set_image].
  destruct (shape_eqb _ _) eqn:E; cbn [negb]; [|discriminate]. apply shape_eqb_dims in E.
  destruct (v_pixels im w j st ig); cbn [bind]; [|discriminate]. intros [= <-]. split; [auto|exact E].
Qed.
Lemma write_ok v im w j v' : v_write v im w j = Ok v' -> v' = new_data v im w j.
Proof. destruct v. cbn [v_write]. destruct (v_pixels im w j _ _); cbn [bind]; [|discriminate]. intros [= <-]. reflexivity. Qed.
Lemma new_image_fields a im p : v_image (new_image a im p) = im /\ v_weight (new_image a im p) = v_weight a /\ v_jac (new_image a im p) = v_jac a /\
  v_opt (new_image a im p) = v_opt a /\ v_gmix (new_image a im p) = v_gmix a /\ v_meta (new_image a im p) = v_meta a /\ v_psf (new_image a im p) = p.
Proof. destruct a. repeat split; reflexivity. Qed.

Section Obs.
Variable G : galsim.
Variable fstr : R -> string.
Notation mc := (mc G).

Lemma make_psf_obs_ok (m : mc) pim p : sound (mc_psf G m) -> make_psf_obs G m pim = Ok p -> p = psf_value_of G m pim.
Proof.
  intros S. unfold make_psf_obs, psf_value_of.
  assert (K : (let* im := match pn_noise (mc_noise G m) with
                 | None => Ok pim
                 | Some n => if same_shape pim n then Ok (add2 pim n) else Raise ValueError
                 end in
      let* new := v_copy (mc_psf G m) in
      if negb (same_shape im (v_image new)) then Raise ValueError else
      v_write new im (pn_weight (mc_noise G m))
        (set_col0 (set_row0 (v_jac new) ((INR (nrow im) - 1) / 2)) ((INR (ncol im) - 1) / 2))) = Ok p ->
      p = new_data (mc_psf G m)
           (match pn_noise (mc_noise G m) with None => pim | Some n => mkArr (nrow pim) (ncol pim) (fun r c => at2 pim r c + at2 n r c) end)
           (pn_weight (mc_noise G m))
           (mkJac ((INR (nrow pim) - 1) / 2) ((INR (ncol pim) - 1) / 2) (dvdrow (v_jac (mc_psf G m))) (dvdcol (v_jac (mc_psf G m)))
                  (dudrow (v_jac (mc_psf G m))) (dudcol (v_jac (mc_psf G m))) (jdet (v_jac (mc_psf G m))) (jscale (v_jac (mc_psf G m))))).
  { destruct (pn_noise (mc_noise G m)) as [n|].
    - destruct (same_shape pim n); cbn [bind]; [|discriminate].
      destruct (v_copy (mc_psf G m)) as [new|] eqn:E; cbn [bind]; [|discriminate]. apply (v_copy_sound _ S) in E. subst new.
      destruct (negb _); [discriminate|]. intros H. apply write_ok in H. exact H.
    - cbn [bind]. destruct (v_copy (mc_psf G m)) as [new|] eqn:E; cbn [bind]; [|discriminate]. apply (v_copy_sound _ S) in E. subst new.
      destruct (negb _); [discriminate|]. intros H. apply write_ok in H. exact H. }
  destruct (mc_kind G m); try exact K.
  destruct (v_copy (mc_psf G m)) as [new|] eqn:E; cbn [bind]; [|discriminate]. apply (v_copy_sound _ S) in E. subst new.
  intros H. apply set_image_ok in H. apply H.
Qed.
Lemma make_obs_ok (m : mc) im pim o : sound (mc_obs G m) -> sound (mc_psf G m) -> make_obs G m im pim = Ok o ->
  o = new_image (mc_obs G m) im (Some (psf_value_of G m pim)) /\ same_dims im (v_image (mc_obs G m)).
Proof.
  intros S Sp. unfold make_obs.
  destruct (v_copy (mc_obs G m)) as [new|] eqn:E; cbn [bind]; [|discriminate]. apply (v_copy_sound _ S) in E. subst new.
  destruct (v_set_image (mc_obs G m) im) as [v1|] eqn:E1; cbn [bind]; [|discriminate]. apply set_image_ok in E1 as [-> D].
  destruct (make_psf_obs G m pim) as [p|] eqn:E2; cbn [bind]; [|discriminate]. apply (make_psf_obs_ok m pim p Sp) in E2. subst p.
  intros [= <-]. split; [|exact D]. destruct (mc_obs G m). reflexivity.
Qed.
Lemma target_image_eq (m : mc) p sh : get_target_image G m p sh = target_image G m (option_map (fun s => (sh_g1 s, sh_g2 s)) sh) p.
Proof.
  unfold get_target_image, target_image. destruct sh as [sh|]; cbn [option_map]; [destruct (gs_shear _ _ _ _)|]; cbn [bind]; auto; apply drawn_range.
Qed.

(** what the three calls return *)
Definition made (m : mc) (im pim : arr2 R) (p : option (prof G)) (o : mout G) : Prop :=
  mo_val G o = new_image (mc_obs G m) im (Some (psf_value_of G m pim)) /\ mo_orig G o = None /\ mo_psf_obj G o = p /\ same_dims im (v_image (mc_obs G m)).
Lemma galshear_ok m sh c c' o : sound (mc_obs G m) -> sound (mc_psf G m) -> get_obs_galshear G fstr m sh c = (c', Ok o) ->
  exists pim p im, get_target_psf G fstr m sh false c = (c', Ok (pim, p)) /\
    target_image G m (Some (sh_g1 sh, sh_g2 sh)) p = Ok im /\ made m im pim (Some p) o.
Proof.
  intros S Sp. unfold get_obs_galshear. destruct (get_target_psf G fstr m sh false c) as [c1 [[pim p]|e]]; cbn [bind]; [|discriminate]; intros [= <- H].
  rewrite target_image_eq in H. cbn [option_map] in H.
  destruct (target_image G m _ p) as [im|] eqn:E; cbn [bind] in H; [|discriminate].
  destruct (make_obs G m im pim) as [v|] eqn:Ev; cbn [bind] in H; [|discriminate]. injection H as <-.
  destruct (make_obs_ok _ _ _ _ S Sp Ev) as [-> D]. exists pim, p, im. split; [auto|]. split; [auto|]. repeat split; auto; apply D.
Qed.
Lemma galshear_both_ok m sh c c' o u : sound (mc_obs G m) -> sound (mc_psf G m) -> get_obs_galshear_both G fstr m sh c = (c', Ok (o, u)) ->
  exists pim p im uim, get_target_psf G fstr m sh false c = (c', Ok (pim, p)) /\
    target_image G m (Some (sh_g1 sh, sh_g2 sh)) p = Ok im /\ made m im pim (Some p) o /\
    target_image G m None p = Ok uim /\ made m uim pim (Some p) u.
Proof.
  intros S Sp. unfold get_obs_galshear_both. destruct (get_target_psf G fstr m sh false c) as [c1 [[pim p]|e]]; cbn [bind]; [|discriminate]; intros [= <- H].
  rewrite !target_image_eq in H. cbn [option_map] in H.
  destruct (target_image G m _ p) as [im|] eqn:E; cbn [bind] in H; [|discriminate].
  destruct (make_obs G m im pim) as [v|] eqn:Ev; cbn [bind] in H; [|discriminate].
  destruct (target_image G m None p) as [uim|] eqn:E2; cbn [bind] in H; [|discriminate].
  destruct (make_obs G m uim pim) as [w|] eqn:Ew; cbn [bind] in H; [|discriminate]. injection H as <- <-.
  destruct (make_obs_ok _ _ _ _ S Sp Ev) as [-> D]. destruct (make_obs_ok _ _ _ _ S Sp Ew) as [-> D2].
  exists pim, p, im, uim. split; [auto|]. split; [auto|]. split; [repeat split; auto; apply D|]. split; [auto|]. repeat split; auto; apply D2.
Qed.
Lemma psfshear_ok m sh c c' o : sound (mc_obs G m) -> sound (mc_psf G m) -> get_obs_psfshear G fstr m sh c = (c', Ok o) ->
  exists pim p im, get_target_psf G fstr m sh true c = (c', Ok (pim, p)) /\
    target_image G m None p = Ok im /\ made m im pim None o.
Proof.
  intros S Sp. unfold get_obs_psfshear. destruct (get_target_psf G fstr m sh true c) as [c1 [[pim p]|e]]; cbn [bind]; [|discriminate]; intros [= <- H].
  rewrite target_image_eq in H. cbn [option_map] in H.
  destruct (target_image G m _ p) as [im|] eqn:E; cbn [bind] in H; [|discriminate].
  destruct (make_obs G m im pim) as [v|] eqn:Ev; cbn [bind] in H; [|discriminate]. injection H as <-.
  destruct (make_obs_ok _ _ _ _ S Sp Ev) as [-> D]. exists pim, p, im. split; [auto|]. split; [auto|]. repeat split; auto; apply D.
Qed.

End Obs.

(** ---- the shears ---- *)
Lemma shear_dict_ok step shd : shear_dict step = Ok shd -> forall t, In t METACAL_TYPES -> t <> "noshear" ->
  exists b g1 g2 g, In (t, (b, g1, g2)) (shear_table step) /\ sget shd t = Some (mkShape g1 g2 g) /\ contains "psf" t = b.
Proof.
  unfold shear_dict.
  assert (K : forall a b x, Shape_init a b = Ok x -> exists g, x = mkShape a b g).
  { intros a b x. unfold Shape_init. destruct (Rleb 1 _); [discriminate|]. intros [= <-]. eauto. }
  destruct (Shape_init (- step) 0) as [s1|] eqn:E1; cbn [bind]; [|discriminate]. destruct (K _ _ _ E1) as (g1 & ->).
  destruct (Shape_init step 0) as [s2|] eqn:E2; cbn [bind]; [|discriminate]. destruct (K _ _ _ E2) as (g2 & ->).
  destruct (Shape_init 0 (- step)) as [s3|] eqn:E3; cbn [bind]; [|discriminate]. destruct (K _ _ _ E3) as (g3 & ->).
  destruct (Shape_init 0 step) as [s4|] eqn:E4; cbn [bind]; [|discriminate]. destruct (K _ _ _ E4) as (g4 & ->).
  cbn [keys map fst foldM]. unfold Shape_copy. cbn. rewrite E1. cbn. rewrite E2. cbn. rewrite E3. cbn. rewrite E4. cbn.
  intros [= <-] t Ht N. unfold shear_table.
  destruct Ht as [<-|Ht]; [congruence|].
  repeat (destruct Ht as [<-|Ht]; [
     eexists _, _, _, _; split; cycle 1; [split; reflexivity|]; cbn; tauto|]).
  destruct Ht.
Qed.

(** ---- all types ---- *)
Section All.
Variable G : galsim.
Variable fstr : R -> string.
Notation mc := (mc G).

(** keys added by the loop *)
Definition added (types : list string) (k : string) : Prop :=
  (In k types /\ k <> "noshear") \/ (k = "noshear" /\ In "1p" types).

Lemma get_types_keys m shd types : forall c od c' od', get_types G fstr m shd types c od = (c', Ok od') -> NoDup (keys od) ->
  NoDup (keys od') /\ forall k, In k (keys od') <-> In k (keys od) \/ added types k.
Proof.
  induction types as [|t types IH]; intros c od c' od' H N; cbn [get_types] in H.
  - injection H as <- <-. split; [auto|]. intros k. unfold added. cbn. tauto.
  - destruct (String.eqb_spec t "noshear") as [->|Nt].
    { destruct (IH _ _ _ _ H N) as [N' I]. split; [auto|]. intros k. rewrite I. unfold added. cbn. intuition congruence. }
    destruct (sget shd t) as [sh|]; [|discriminate].
    assert (K : forall o c1, t <> "1p" -> get_types G fstr m shd types c1 (sset od t o) = (c', Ok od') ->
       NoDup (keys od') /\ forall k, In k (keys od') <-> In k (keys od) \/ added (t :: types) k).
    { intros o c1 N1 E. destruct (IH _ _ _ _ E (nodup_sset od t o N)) as [N' I]. split; [auto|]. intros k. rewrite I, in_keys_sset.
      unfold added. cbn. intuition congruence. }
    destruct (contains "psf" t) eqn:Cp.
    { destruct (get_obs_psfshear G fstr m sh c) as [c1 [o|e]]; [|discriminate].
      apply (K o c1); [intros ->; discriminate Cp|exact H]. }
    destruct (String.eqb_spec t "1p") as [->|N1].
    + destruct (get_obs_galshear_both G fstr m sh c) as [c1 [[o u]|e]]; [|discriminate].
      destruct (IH _ _ _ _ H) as [N' I]; [apply nodup_sset, nodup_sset, N|]. split; [auto|].
      intros k. rewrite I, !in_keys_sset. unfold added. cbn. intuition congruence.
    + destruct (get_obs_galshear G fstr m sh c) as [c1 [o|e]]; [|discriminate]. apply (K o c1 N1 H).
Qed.

Section Contents.
Variable m : mc.
Variable step : R.
Let l := [step; - step; 0].
Hypothesis P : prints fstr l.
Hypothesis S1 : sound (mc_obs G m).
Hypothesis S2 : sound (mc_psf G m).
Lemma table_made_of k b g1 g2 g : In (k, (b, g1, g2)) (shear_table step) -> made_of l (mkShape g1 g2 g).
Proof.
  unfold shear_table, made_of, l. intros H. cbn in H |- *.
  repeat (destruct H as [[= <- <- <- <-]|H]; [tauto|]). destruct H.
Qed.
Lemma table_unique k b g1 g2 b' g1' g2' : In (k, (b, g1, g2)) (shear_table step) -> In (k, (b', g1', g2')) (shear_table step) ->
  b = b' /\ g1 = g1' /\ g2 = g2'.
Proof.
  intros H H'. assert (N : NoDup (keys (shear_table step))).
  { cbn. repeat (constructor; [cbn; intuition discriminate|]). constructor. }
  pose proof (pair_sget _ _ _ N H). pose proof (pair_sget _ _ _ N H'). assert (E : (b, g1, g2) = (b', g1', g2')) by congruence.
  injection E. auto.
Qed.
Lemma get_types_contents shd types : shear_dict step = Ok shd -> (forall t, In t types -> In t METACAL_TYPES) ->
  forall c od c' od', get_types G fstr m shd types c od = (c', Ok od') -> good G fstr l m c ->
  (forall k o, sget od k = Some o -> observation_for G m step k o) ->
  good G fstr l m c' /\ forall k o, sget od' k = Some o -> observation_for G m step k o.
Proof.
  intros Sd. induction types as [|t types IH]; intros V c od c' od' H Gc F; cbn [get_types] in H.
  - injection H as <- <-. auto.
  - assert (V' : forall t, In t types -> In t METACAL_TYPES) by (intros x Hx; apply V; right; auto).
    assert (Vt : In t METACAL_TYPES) by (apply V; left; auto).
    destruct (String.eqb_spec t "noshear") as [->|Nt]; [apply (IH V' _ _ _ _ H Gc F)|].
    destruct (shear_dict_ok step shd Sd t Vt Nt) as (b & g1 & g2 & g & Tb & Sg & Cp). rewrite Sg, Cp in H.
    pose proof (table_made_of _ _ _ _ g Tb) as Mo.
    assert (Snoshear : String.eqb t "noshear" = false) by (apply String.eqb_neq; auto).
    assert (K : forall od1 k1 (o1 : mout G), (forall k o, sget od1 k = Some o -> observation_for G m step k o) -> observation_for G m step k1 o1 ->
       forall k o, sget (sset od1 k1 o1) k = Some o -> observation_for G m step k o).
    { intros od1 k1 o1 F1 O1 k o Sk. destruct (String.eqb_spec k1 k) as [->|Nk].
      - rewrite sget_sset_same in Sk. injection Sk as <-. exact O1.
      - rewrite sget_sset_other in Sk by auto. apply F1, Sk. }
    assert (T : forall d c1 pim p, get_target_psf G fstr m (mkShape g1 g2 g) d c = (c1, Ok (pim, p)) ->
       good G fstr l m c1 /\ target_psf G m d g1 g2 = Ok (pim, p)).
    { intros d c1 pim p E. destruct (target_psf_spec G fstr l P m _ _ _ _ _ Mo Gc E) as (Gc1 & [X|(_ & X & _)]); [|discriminate].
      split; [auto|]. symmetry. exact X. }
    destruct b.
    + destruct (get_obs_psfshear G fstr m _ c) as [c1 [o|e]] eqn:E; [|discriminate].
      destruct (psfshear_ok _ _ _ _ _ _ _ S1 S2 E) as (pim & p & im & E1 & E2 & (E3 & E4 & E5 & _)).
      destruct (T _ _ _ _ E1) as (Gc1 & Tp). apply (IH V' _ _ _ _ H Gc1). apply K; [auto|].
      exists true, g1, g2, pim, p, im. rewrite Snoshear. cbn [orb]. auto 10.
    + destruct (String.eqb_spec t "1p") as [->|N1].
      * destruct (get_obs_galshear_both G fstr m _ c) as [c1 [[o u]|e]] eqn:E; [|discriminate].
        destruct (galshear_both_ok _ _ _ _ _ _ _ _ S1 S2 E) as (pim & p & im & uim & E1 & E2 & (E3 & E4 & E5 & _) & E6 & (E7 & E8 & E9 & _)).
        destruct (T _ _ _ _ E1) as (Gc1 & Tp). apply (IH V' _ _ _ _ H Gc1). apply K; [apply K; [auto|]|].
        -- assert (X : In ("1p", (false, step, 0)) (shear_table step)) by (cbn; tauto).
           destruct (table_unique _ _ _ _ _ _ _ Tb X) as (_ & -> & ->).
           exists false, 0, 0, pim, p, uim. split; [cbn; tauto|]. cbn [String.eqb Ascii.eqb Bool.eqb orb]. auto 10.
        -- exists false, g1, g2, pim, p, im. rewrite Snoshear. cbn [orb]. auto 10.
      * destruct (get_obs_galshear G fstr m _ c) as [c1 [o|e]] eqn:E; [|discriminate].
        destruct (galshear_ok _ _ _ _ _ _ _ S1 S2 E) as (pim & p & im & E1 & E2 & (E3 & E4 & E5 & _)).
        destruct (T _ _ _ _ E1) as (Gc1 & Tp). apply (IH V' _ _ _ _ H Gc1). apply K; [auto|].
        exists false, g1, g2, pim, p, im. rewrite Snoshear. cbn [orb]. auto 10.
Qed.
End Contents.

(** ---- get_all ---- *)
Lemma add_spec l : is_in "noshear" l && negb (is_in "1p" l) = true <-> In "noshear" l /\ ~ In "1p" l.
Proof. rewrite andb_true_iff, negb_true_iff, is_in_spec, is_in_false. tauto. Qed.
Lemma allowed_types_sub (m : mc) t : In t (allowed_types G m) -> In t METACAL_TYPES.
Proof. unfold allowed_types, METACAL_MINIMAL_TYPES, METACAL_TYPES. destruct (mc_kind G m); cbn; tauto. Qed.

Lemma get_all_inv m step types c types' c' od : get_all G fstr m step types c = (types', (c', Ok od)) ->
  let l := requested (allowed_types G m) types in
  (forall t, In t l -> In t (allowed_types G m)) /\
  exists l' shd, shear_dict step = Ok shd /\ get_types G fstr m shd l' c [] = (c', Ok od) /\
    ((In "noshear" l /\ ~ In "1p" l /\ l' = l ++ ["1p"] /\ types' = match types with TList _ => TList l' | _ => types end /\ (forall x, types <> TTuple x)) \/
     (~ (In "noshear" l /\ ~ In "1p" l) /\ l' = l /\ types' = types)).
Proof.
  unfold get_all, requested. set (l := match types with TNone => allowed_types G m | TList l | TTuple l => l end).
  destruct (forallb _ l) eqn:V; cbn [negb]; [|discriminate].
  intros H. split.
  { intros t Ht. rewrite forallb_forall in V. apply is_in_spec, V, Ht. }
  destruct (is_in "noshear" l && negb (is_in "1p" l)) eqn:A.
  - apply add_spec in A as [A1 A2].
    destruct types as [|tl|tl]; [| |discriminate].
    + cbn [caller] in H. destruct (shear_dict step) as [shd|] eqn:Sd; [|discriminate]. injection H as <- H.
      exists (l ++ ["1p"]), shd. split; [auto|]. split; [auto|]. left. repeat split; auto. discriminate.
    + cbn [caller] in H. destruct (shear_dict step) as [shd|] eqn:Sd; [|discriminate]. injection H as <- H.
      exists (l ++ ["1p"]), shd. split; [auto|]. split; [auto|]. left. repeat split; auto. discriminate.
  - assert (A' : ~ (In "noshear" l /\ ~ In "1p" l)) by (rewrite <- add_spec, A; discriminate).
    assert (H' : (caller types l, match shear_dict step with Raise e => (c, Raise e) | Ok shd => get_types G fstr m shd l c [] end) = (types', (c', Ok od)))
      by (destruct types; exact H). clear H.
    destruct (shear_dict step) as [shd|] eqn:Sd; [|discriminate]. injection H' as Ht H'.
    exists l, shd. split; [auto|]. split; [auto|]. right. split; [auto|]. split; [auto|]. rewrite <- Ht.
    unfold caller, l. destruct types; reflexivity.
Qed.
(** the keys *)
Lemma get_all_keys m step types c types' c' od : get_all G fstr m step types c = (types', (c', Ok od)) ->
  NoDup (keys od) /\ forall k, In k (keys od) <-> returned (requested (allowed_types G m) types) k.
Proof.
  intros H. destruct (get_all_inv _ _ _ _ _ _ _ H) as (V & l' & shd & Sd & E & C).
  destruct (get_types_keys _ _ _ _ _ _ _ E (NoDup_nil _)) as [N I]. split; [auto|].
  intros k. rewrite I. cbn [keys map In]. set (l := requested (allowed_types G m) types) in *.
  unfold added, returned.
  destruct C as [(A1 & A2 & -> & _)|(A & -> & _)].
  - rewrite !in_app_iff. cbn. destruct (String.eqb_spec k "noshear"), (String.eqb_spec k "1p"); subst; intuition congruence.
  - assert (D : In "1p" l \/ ~ In "1p" l) by (rewrite <- is_in_spec; destruct (is_in "1p" l); intuition congruence).
    destruct (String.eqb_spec k "noshear"), (String.eqb_spec k "1p"); subst; try tauto; intuition congruence.
Qed.
(** the new state of the list requests the same *)
Lemma get_all_types m step types c types' r : get_all G fstr m step types c = (types', r) ->
  forall k, returned (requested (allowed_types G m) types') k <-> returned (requested (allowed_types G m) types) k.
Proof.
  unfold get_all. destruct (negb (forallb _ _)); [intros [= <- _]; tauto|].
  destruct types as [|l|l]; cbn [requested caller].
  - destruct (_ && _); intros [= <- _]; cbn [requested]; tauto.
  - destruct (is_in "noshear" l && negb (is_in "1p" l)) eqn:A; intros [= <- _]; cbn [requested]; [|tauto].
    apply add_spec in A as [A1 A2]. intros k. unfold returned. rewrite !in_app_iff. cbn. intuition congruence.
  - destruct (_ && _); intros [= <- _]; cbn [requested]; tauto.
Qed.
Lemma get_all_contents m step types h types' c' od : prints fstr [step; - step; 0] -> sound (mc_obs G m) -> sound (mc_psf G m) ->
  Forall (fun r : request => made_of [step; - step; 0] (snd r)) h ->
  get_all G fstr m step types (history G fstr m h []) = (types', (c', Ok od)) ->
  forall k o, sget od k = Some o -> observation_for G m step k o.
Proof.
  intros P S1 S2 Fh H. destruct (get_all_inv _ _ _ _ _ _ _ H) as (V & l' & shd & Sd & E & C).
  assert (V' : forall t, In t l' -> In t METACAL_TYPES).
  { intros t Ht. destruct C as [(_ & _ & -> & _)|(_ & -> & _)]; [apply in_app_iff in Ht as [Ht|[<-|[]]]|]; [|cbn; tauto|];
      apply (allowed_types_sub m), V, Ht. }
  pose proof (history_good G fstr _ P m h [] Fh (good_nil G fstr _ m)) as Gh.
  apply (get_types_contents m step P S1 S2 shd l' Sd V' _ _ _ _ E Gh). intros k o X. discriminate.
Qed.
Lemma get_all_unknown m step types c t : In t (requested (allowed_types G m) types) -> ~ In t (allowed_types G m) ->
  get_all G fstr m step types c = (types, (c, Raise AssertionError)).
Proof.
  intros I N. unfold get_all. fold (requested (allowed_types G m) types).
  assert (X : forallb (fun t => is_in t (allowed_types G m)) (requested (allowed_types G m) types) = false).
  { apply Bool.not_true_iff_false. intros F. rewrite forallb_forall in F. apply N, is_in_spec, F, I. }
  rewrite X. reflexivity.
Qed.
(** lists that are not changed *)
Lemma get_all_list_same m step types c types' r : get_all G fstr m step types c = (types', r) ->
  paired (requested (allowed_types G m) types) -> types' = types.
Proof.
  unfold get_all, paired. fold (requested (allowed_types G m) types). intros H Pr.
  destruct (negb (forallb _ _)); [congruence|].
  assert (A : is_in "noshear" (requested (allowed_types G m) types) && negb (is_in "1p" (requested (allowed_types G m) types)) = false).
  { apply Bool.not_true_iff_false. rewrite add_spec. tauto. }
  rewrite A in H. destruct types; injection H as <- _; reflexivity.
Qed.
End All.
