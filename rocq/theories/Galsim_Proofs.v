(** Fits with galsim: evaluation. *)
From Verif Require Import Base XReal Jacobian_Model Pixels_Model Priors_Model Joint_Model Fit_Model Fit_Spec Galsim_Model Galsim_Spec.
From Coq Require Import String.
Local Open Scope R_scope.

Lemma gget_gset d k v k' : gget (gset d k v) k' = if String.eqb k k' then Some v else gget d k'.
Proof.
  induction d as [|[a b] d IH]; cbn [gset gget].
  - reflexivity.
  - destruct (String.eqb_spec a k) as [->|N]; cbn [gget].
    + destruct (String.eqb k k'); reflexivity.
    + destruct (String.eqb_spec a k') as [->|N'].
      * destruct (String.eqb_spec k k'); [congruence|reflexivity].
      * exact IH.
Qed.
Lemma gget_hput h a k v a' k' : gget (hput h a k v a') k' = if Nat.eqb a' a && String.eqb k k' then Some v else gget (h a') k'.
Proof. unfold hput. destruct (Nat.eqb a' a); cbn [andb]; [apply gget_gset|reflexivity]. Qed.

Lemma ravel_length nr nc f : List.length (ravel nr nc f) = (nr * nc)%nat.
Proof.
  unfold ravel. generalize 0%nat at 2 as s. induction nr as [|n IH]; intros s; [reflexivity|].
  cbn [seq map List.concat]. rewrite app_length, map_length, seq_length, IH. lia.
Qed.
Lemma ravel_ext nr nc f g : (forall r c, f r c = g r c) -> ravel nr nc f = ravel nr nc g.
Proof. intros E. unfold ravel. f_equal. apply map_ext. intros r. apply map_ext. intros c. apply E. Qed.
Lemma ravel_map nr nc f (F : R -> R) : map F (ravel nr nc f) = ravel nr nc (fun r c => F (f r c)).
Proof. unfold ravel. rewrite concat_map, map_map. f_equal. apply map_ext. intros r. rewrite map_map. reflexivity. Qed.

(** ** parameters of a band *)
Definition bandpars (m : gmodel) (pars : list R) (b : nat) : list R := (firstn (n_before m) pars ++ [nth (n_before m + b) pars 0])%list.
Lemma fill_band_ok m buf pars b : List.length buf = S (n_before m) -> (n_before m + b < List.length pars)%nat ->
  fill_band (n_before m) buf pars b = (bandpars m pars b, Ok tt).
Proof.
  intros Lb Lp. unfold fill_band. assert (Hk : (5 <= n_before m)%nat) by (destruct m; cbn; lia).
  destruct (Nat.eqb_spec (List.length pars) 1); [lia|]. destruct (Nat.ltb_spec (List.length pars) (n_before m)); [lia|]. cbn [negb andb].
  destruct (nth_error pars (n_before m + b)) as [f|] eqn:Ef; [|apply nth_error_None in Ef; lia].
  assert (Eh : match pars with [x] => repeat x (n_before m) | _ => firstn (n_before m) pars end = firstn (n_before m) pars).
  { destruct pars as [|x [|y l]]; try reflexivity. cbn in Lp. lia. }
  rewrite Eh. unfold bandpars. rewrite (nth_error_nth _ _ _ Ef). f_equal.
  assert (Lf : List.length (firstn (n_before m) pars) = n_before m) by (rewrite firstn_length; lia).
  rewrite firstn_app, Lf, Nat.sub_diag, firstn_O, app_nil_r, firstn_all2 by lia. f_equal. f_equal.
  apply skipn_all2. rewrite app_length, skipn_length. lia.
Qed.
Lemma bandpars_length m pars b : (n_before m <= List.length pars)%nat -> List.length (bandpars m pars b) = S (n_before m).
Proof. intros L. unfold bandpars. rewrite app_length, firstn_length. cbn [List.length]. lia. Qed.
Lemma fill_band_length k buf pars b : List.length buf = S k -> List.length (fst (fill_band k buf pars b)) = S k.
Proof.
  intros L. unfold fill_band. destruct (negb _ && _) eqn:Ec; [exact L|].
  assert (Lh : List.length (match pars with [x] => repeat x k | _ => firstn k pars end) = k).
  { destruct pars as [|x [|y l]]; cbn [List.length] in Ec.
    - destruct (Nat.ltb_spec 0 k); [discriminate|]. rewrite firstn_length. cbn. lia.
    - apply repeat_length.
    - destruct (Nat.ltb_spec (S (S (List.length l))) k); [discriminate|]. rewrite firstn_length. cbn [List.length]. lia. }
  destruct (nth_error pars (k + b)); cbn [fst].
  - rewrite app_length. cbn [List.length]. rewrite firstn_length, skipn_length, app_length, Lh, skipn_length. lia.
  - rewrite app_length, Lh, skipn_length. lia.
Qed.
Lemma nth_firstn (l : list R) n i : (i < n)%nat -> nth i (firstn n l) 0 = nth i l 0.
Proof.
  revert n i; induction l as [|x l IH]; intros n i H; [rewrite firstn_nil; reflexivity|]. destruct n; [lia|]. cbn [firstn].
  destruct i; [reflexivity|]. apply IH; lia.
Qed.
Lemma ritem_nth l i : (i < List.length l)%nat -> ritem l i = Ok (nth i l 0).
Proof. intros H. unfold ritem. destruct (nth_error l i) eqn:E; [|apply nth_error_None in E; lia]. rewrite (nth_error_nth _ _ _ E). reflexivity. Qed.
Lemma bandpars_nth m pars b i : (n_before m <= List.length pars)%nat -> (i < n_before m)%nat -> ritem (bandpars m pars b) i = Ok (par pars i).
Proof.
  intros L H. rewrite ritem_nth by (rewrite bandpars_length by exact L; lia). unfold bandpars, par. rewrite app_nth1 by (rewrite firstn_length; lia).
  rewrite nth_firstn by exact H. reflexivity.
Qed.
Lemma bandpars_last m pars b : (n_before m <= List.length pars)%nat -> ritem (bandpars m pars b) (n_before m) = Ok (flux_par m pars b).
Proof.
  intros L. rewrite ritem_nth by (rewrite bandpars_length by exact L; lia). unfold bandpars. rewrite app_nth2 by (rewrite firstn_length; lia).
  rewrite firstn_length, Nat.min_l, Nat.sub_diag by lia. unfold flux_par, par. destruct m; reflexivity.
Qed.

(** ** the model of one observation, without the heap *)
Section G.
Context {G II : Type} (X : gext G II).

Definition profile_of (m : gmodel) (pars : list R) (b : nat) : res G :=
  let* g := (if match m with GExp | GDev | GGauss => Rltb (par pars 4) (1/10000) | _ => false end then Raise GMixRangeError
             else caught_runtime (gx_round X m (par pars 4) (index_par m pars) (flux_par m pars b))) in
  let* g := caught_value (gx_shear X g (par pars 2) (par pars 3)) in
  plain (gx_shift X g (par pars 0) (par pars 1)).
Lemma make_model_band m pars b : (n_before m <= List.length pars)%nat -> make_model X m (bandpars m pars b) = profile_of m pars b.
Proof.
  intros L. unfold make_model, make_round_model, profile_of.
  assert (Hk : (5 <= n_before m)%nat) by (destruct m; cbn; lia).
  rewrite !(bandpars_nth m pars b) by (exact L || lia). cbn [bind].
  assert (Em : match m with
    | GExp | GDev | GGauss => let* flux := ritem (bandpars m pars b) 5 in if Rltb (par pars 4) (1 / 10000) then Raise GMixRangeError else caught_runtime (gx_round X m (par pars 4) None flux)
    | GSpergel | GMoffat => let* nu := ritem (bandpars m pars b) 5 in let* flux := ritem (bandpars m pars b) 6 in caught_runtime (gx_round X m (par pars 4) (Some nu) flux)
    end = (if match m with GExp | GDev | GGauss => Rltb (par pars 4) (1/10000) | _ => false end then Raise GMixRangeError
             else caught_runtime (gx_round X m (par pars 4) (index_par m pars) (flux_par m pars b)))).
  { pose proof (bandpars_last m pars b L) as E. destruct m; cbn [n_before] in E.
    1-3: rewrite E; reflexivity.
    all: rewrite E; rewrite (bandpars_nth _ pars b 5) by (cbn in *; lia); reflexivity. }
  rewrite Em. match goal with |- bind ?x _ = _ => destruct x end; cbn [bind]; [|reflexivity].
  rewrite !(bandpars_nth m pars b) by (exact L || lia). reflexivity.
Qed.

Definition out_with (draw : G -> nat -> nat -> R -> gout drawn) (m : gmodel) (pars : list R) (b : nat) (ko : kobs) : res kimage :=
  let* g := profile_of m pars b in
  let* k := plain (draw_on draw g (ko_image ko)) in
  plain (through_psf ko k).
Notation out_model := (out_with (gx_draw X)).

Definition is_own (ko : kobs) (d : drawn) : kimage := mkKim (k_nr (ko_image ko)) (k_nc (ko_image ko)) (k_scale (ko_image ko)) (fst d) (snd d).
Definition psf_fits (ko : kobs) : Prop := match ko_psf ko with None => True | Some p => same_dims (kp_image p) (ko_image ko) = true end.
Definition fits (ko : kobs) : Prop := weight_fits (ko_weight ko) (ko_image ko) = true /\ psf_fits ko.
Lemma same_dims_sym a b : same_dims a b = same_dims b a.
Proof. unfold same_dims. rewrite (Nat.eqb_sym (k_nr a)), (Nat.eqb_sym (k_nc a)). reflexivity. Qed.
Lemma through_psf_ok ko d : psf_fits ko -> through_psf ko (is_own ko d) = GOk (is_own ko (psf_product ko d)).
Proof.
  unfold psf_fits, through_psf, psf_product. destruct (ko_psf ko) as [p|]; [|reflexivity].
  intros H. unfold kmul. assert (E : same_dims (is_own ko d) (kp_image p) = true) by (rewrite same_dims_sym; exact H).
  rewrite E. reflexivity.
Qed.
Lemma profile_iff m pars b g : profile_of m pars b = Ok g <-> profile X m pars b g.
Proof.
  unfold profile_of, profile. split.
  - destruct (match m with GExp | GDev | GGauss => Rltb (par pars 4) (1/10000) | _ => false end) eqn:Er; [discriminate|].
    destruct (gx_round X m (par pars 4) (index_par m pars) (flux_par m pars b)) as [g0|[]] eqn:E0; cbn; try discriminate.
    destruct (gx_shear X g0 (par pars 2) (par pars 3)) as [g1|[]] eqn:E1; cbn; try discriminate.
    destruct (gx_shift X g1 (par pars 0) (par pars 1)) as [g2|[]] eqn:E2; cbn; try discriminate. intros E; injection E as <-.
    split; [|exists g0, g1; repeat split; assumption]. intros [->|[->| ->]]; revert Er; unfold Rltb; destruct (Rlt_dec _ _); try discriminate; lra.
  - intros (Hs & g0 & g1 & E0 & E1 & E2).
    assert (Er : (match m with GExp | GDev | GGauss => Rltb (par pars 4) (1/10000) | _ => false end) = false).
    { unfold is_simple in Hs. destruct m; try reflexivity; apply Rltb_false; apply Hs; tauto. }
    rewrite Er, E0. cbn. rewrite E1. cbn. rewrite E2. reflexivity.
Qed.
Lemma out_iff draw m pars b ko k : psf_fits ko ->
  out_with draw m pars b ko = Ok k <-> exists d, seen X draw m pars b ko d /\ k = is_own ko d.
Proof.
  intros Hp. unfold out_with, seen. split.
  - destruct (profile_of m pars b) as [g|e] eqn:Eg; [|discriminate]. cbn [bind]. apply profile_iff in Eg. unfold draw_on.
    destruct (draw g _ _ _) as [d0|e] eqn:Ed; [|discriminate]. cbn [plain bind].
    change (mkKim _ _ _ _ _) with (is_own ko d0). rewrite through_psf_ok by exact Hp. intros E; injection E as <-.
    exists (psf_product ko d0). split; [|reflexivity]. exists g, d0. auto.
  - intros (d & (g & d0 & Pg & Ed & ->) & ->). apply profile_iff in Pg. rewrite Pg. cbn [bind]. unfold draw_on. rewrite Ed. cbn [plain bind].
    change (mkKim _ _ _ (fst d0) (snd d0)) with (is_own ko d0). rewrite through_psf_ok by exact Hp. reflexivity.
Qed.
Lemma refused_out m pars b ko : refused X m pars b ko ->
  exists e, out_model m pars b ko = Raise e /\ (e = GMixRangeError \/ e = RuntimeError).
Proof.
  intros [(Hs & Hr)|(Hs & H)].
  - exists GMixRangeError. split; [|auto]. unfold out_with, profile_of.
    assert (Er : (match m with GExp | GDev | GGauss => Rltb (par pars 4) (1/10000) | _ => false end) = true).
    { unfold Rltb. destruct Hs as [->|[->| ->]]; destruct (Rlt_dec _ _); lra. }
    rewrite Er. reflexivity.
  - assert (Er : (match m with GExp | GDev | GGauss => Rltb (par pars 4) (1/10000) | _ => false end) = false).
    { unfold is_simple in Hs. destruct m; try reflexivity; apply Rltb_false; apply Hs; tauto. }
    unfold out_with. destruct H as [(e & E0 & He)|[(g0 & e & E0 & E1 & He)|[(g0 & g1 & e & E0 & E1 & E2 & He)|(g & e & Pg & Ed & He)]]].
    + unfold profile_of. rewrite Er, E0. exists GMixRangeError. destruct He as [->| ->]; cbn; auto.
    + unfold profile_of. rewrite Er, E0. cbn. rewrite E1. destruct He as [[->| ->]| ->]; cbn; eauto.
    + unfold profile_of. rewrite Er, E0. cbn. rewrite E1. cbn. rewrite E2. destruct He as [->| ->]; cbn; eauto.
    + apply profile_iff in Pg. rewrite Pg. cbn [bind]. unfold draw_on. rewrite Ed. destruct He as [->| ->]; cbn; eauto.
Qed.

(** ** the entries of a fit *)
Definition ready1 (h : heap) (ko : kobs) : Prop :=
  gget (h (ko_meta ko)) "ierr" = Some (GReal (ierr_of (ko_weight ko))) /\
  (exists d, gget (h (ko_meta ko)) "kmodel" = Some (GKim (is_own ko d))) /\
  (exists d, gget (h (ko_meta ko)) "scratch" = Some (GKim (is_own ko d))).
Definition ready (h : heap) (l : list kobs) : Prop := Forall (ready1 h) l.
(** the entries needed agree *)
Definition same_keys (h h' : heap) (ks : list string) (a : nat) : Prop := forall k, In k ks -> gget (h' a) k = gget (h a) k.
Lemma ready1_same h h' ko : same_keys h h' fit_keys (ko_meta ko) -> ready1 h ko -> ready1 h' ko.
Proof.
  intros S (H1 & H2 & H3). unfold ready1. rewrite !S by (cbn; tauto). auto.
Qed.
Lemma same_keys_other h a k v b ks : b <> a -> same_keys h (hput h a k v) ks b.
Proof. intros N k' _. rewrite gget_hput. destruct (Nat.eqb_spec b a); [congruence|reflexivity]. Qed.
Lemma same_keys_trans h h' h'' ks a : same_keys h h' ks a -> same_keys h' h'' ks a -> same_keys h h'' ks a.
Proof. intros A B k Hk. rewrite B, A by exact Hk. reflexivity. Qed.
Lemma same_keys_refl h ks a : same_keys h h ks a. Proof. intros k _. reflexivity. Qed.

Lemma init_one_ready h ko : ready1 (init_one h ko) ko.
Proof.
  unfold init_one, ready1. rewrite !gget_hput, !Nat.eqb_refl. cbn.
  split; [reflexivity|]. split; exists (k_re (ko_image ko), k_im (ko_image ko)); unfold is_own; cbn; destruct (ko_image ko); reflexivity.
Qed.
Lemma init_one_other h ko a ks : a <> ko_meta ko -> same_keys h (init_one h ko) ks a.
Proof.
  intros N. unfold init_one. eapply same_keys_trans; [eapply same_keys_trans|]; apply same_keys_other; exact N.
Qed.
Lemma init_fold_other l : forall h a ks, ~ In a (map ko_meta l) -> same_keys h (fold_left init_one l h) ks a.
Proof.
  induction l as [|ko l IH]; intros h a ks N; [apply same_keys_refl|]. cbn [fold_left map In] in *.
  eapply same_keys_trans; [apply init_one_other|apply IH]; intros E; apply N; [left; congruence|right; exact E].
Qed.
Lemma init_fold_ready l : forall h, NoDup (map ko_meta l) -> ready (fold_left init_one l h) l.
Proof.
  induction l as [|ko l IH]; intros h ND; [constructor|]. cbn [fold_left map] in *. inversion ND as [|x xs N ND']; subst.
  constructor; [|apply IH; exact ND']. eapply ready1_same; [apply init_fold_other; exact N|apply init_one_ready].
Qed.

(** ** filling *)
(** only the model image of the observation changes *)
Definition only_kmodel (h h' : heap) (ko : kobs) : Prop :=
  (forall a k, a <> ko_meta ko \/ k <> "kmodel"%string -> gget (h' a) k = gget (h a) k).
Lemma only_kmodel_put h ko v : only_kmodel h (hput h (ko_meta ko) "kmodel" v) ko.
Proof.
  intros a k H. rewrite gget_hput. destruct (Nat.eqb_spec a (ko_meta ko)); [|reflexivity]. destruct (String.eqb_spec "kmodel" k); [|reflexivity].
  destruct H; congruence.
Qed.
Lemma only_kmodel_trans h h' h'' ko : only_kmodel h h' ko -> only_kmodel h' h'' ko -> only_kmodel h h'' ko.
Proof. intros A B a k H. rewrite B, A by exact H. reflexivity. Qed.
Lemma only_kmodel_refl h ko : only_kmodel h h ko. Proof. intros a k _. reflexivity. Qed.
Lemma only_kmodel_ready1 h h' ko ko' : only_kmodel h h' ko -> ko_meta ko' <> ko_meta ko -> ready1 h ko' -> ready1 h' ko'.
Proof. intros O N. apply ready1_same. intros k _. apply O. auto. Qed.

Lemma put_own_ready h ko d : ready1 h ko -> ready1 (hput h (ko_meta ko) "kmodel" (GKim (is_own ko d))) ko.
Proof.
  intros (H1 & H2 & H3). unfold ready1. rewrite !gget_hput, !Nat.eqb_refl. cbn. split; [exact H1|]. split; [eauto|exact H3].
Qed.

Lemma fill_model_spec m pars b h ko : fits ko -> ready1 h ko -> (n_before m <= List.length pars)%nat ->
  exists h', fill_model X m (bandpars m pars b) h ko = (h', rmap (fun _ => tt) (out_model m pars b ko)) /\
    only_kmodel h h' ko /\ ready1 h' ko /\
    (forall k, out_model m pars b ko = Ok k -> gget (h' (ko_meta ko)) "kmodel" = Some (GKim k)).
Proof.
  intros (Hw & Hp) Hr L. unfold fill_model. rewrite make_model_band by exact L. unfold out_with.
  destruct (profile_of m pars b) as [g|e]; cbn [bind].
  2: { exists h. split; [reflexivity|]. split; [apply only_kmodel_refl|]. split; [exact Hr|]. discriminate. }
  pose proof Hr as (H1 & (d0 & H2) & H3). unfold meta_kim. rewrite H2. cbn [bind].
  change (draw_on (gx_draw X) g (is_own ko d0)) with (draw_on (gx_draw X) g (ko_image ko)). unfold draw_on.
  destruct (gx_draw X g _ _ _) as [d|e]; cbn [plain bind].
  2: { exists h. split; [reflexivity|]. split; [apply only_kmodel_refl|]. split; [exact Hr|]. discriminate. }
  change (mkKim _ _ _ (fst d) (snd d)) with (is_own ko d).
  rewrite through_psf_ok by exact Hp. cbn [plain rmap].
  eexists. split; [reflexivity|]. split; [eapply only_kmodel_trans; apply only_kmodel_put|]. split; [apply put_own_ready, put_own_ready; exact Hr|].
  intros k E; injection E as <-. rewrite gget_hput, Nat.eqb_refl. reflexivity.
Qed.

(** all models in order, one after the other *)
Definition outs (m : gmodel) (pars : list R) (l : list (nat * kobs)) : res (list kimage) := mapM (fun t => out_model m pars (fst t) (snd t)) l.
Definition unchanged_but_kmodel (h h' : heap) (l : list kobs) : Prop :=
  forall a k, ~ In a (map ko_meta l) \/ k <> "kmodel"%string -> gget (h' a) k = gget (h a) k.
Lemma ubk_cons h h' h'' ko l : only_kmodel h h' ko -> unchanged_but_kmodel h' h'' l -> unchanged_but_kmodel h h'' (ko :: l).
Proof.
  intros A B a k H. rewrite B, A; [reflexivity| |]; destruct H as [H|H]; auto; left; intros E; apply H; cbn; auto.
Qed.
Lemma ubk_refl h l : unchanged_but_kmodel h h l. Proof. intros a k _. reflexivity. Qed.
Lemma ubk_app h h' h'' l l' : unchanged_but_kmodel h h' l -> unchanged_but_kmodel h' h'' l' -> unchanged_but_kmodel h h'' (l ++ l').
Proof.
  intros A B a k H. rewrite map_app, in_app_iff in H. rewrite B, A; [reflexivity| |]; destruct H as [H|H]; auto; tauto.
Qed.
Definition holds_model (h : heap) (ko : kobs) (k : kimage) : Prop := gget (h (ko_meta ko)) "kmodel" = Some (GKim k).

Lemma ready1_ubk h h' l ko : unchanged_but_kmodel h h' l -> ~ In (ko_meta ko) (map ko_meta l) -> ready1 h ko -> ready1 h' ko.
Proof. intros U N. apply ready1_same. intros k _. apply U. auto. Qed.
Lemma ready_ubk h h' l l' : unchanged_but_kmodel h h' l -> (forall ko, In ko l' -> ~ In (ko_meta ko) (map ko_meta l)) -> ready h l' -> ready h' l'.
Proof.
  intros U D H. apply Forall_forall. intros ko Hk. eapply ready1_ubk; [exact U|apply D; exact Hk|]. revert Hk. apply Forall_forall. exact H.
Qed.

Lemma fill_list_spec m pars b l : forall h, Forall fits l -> NoDup (map ko_meta l) -> ready h l -> (n_before m <= List.length pars)%nat ->
  exists h', fill_list X m (bandpars m pars b) h l = (h', rmap (fun _ => tt) (outs m pars (map (fun o => (b, o)) l))) /\
    unchanged_but_kmodel h h' l /\ ready h' l /\
    (forall ks, outs m pars (map (fun o => (b, o)) l) = Ok ks -> Forall2 (holds_model h') l ks).
Proof.
  induction l as [|ko l IH]; intros h Hf ND Hr L.
  - exists h. split; [reflexivity|]. split; [apply ubk_refl|]. split; [exact Hr|]. intros ks E; injection E as <-. constructor.
  - inversion Hf as [|x xs Hf1 Hf2]; subst. inversion ND as [|x xs N ND']; subst. inversion Hr as [|x xs Hr1 Hr2]; subst.
    destruct (fill_model_spec m pars b h ko Hf1 Hr1 L) as (h1 & E1' & O1 & R1' & K1).
    cbn [fill_list map]. rewrite E1'. unfold outs. cbn [mapM fst snd].
    assert (Hr2' : ready h1 l).
    { apply Forall_forall. intros ko' Hk. eapply only_kmodel_ready1; [exact O1| |revert Hk; apply Forall_forall; exact Hr2].
      intros E. apply N. rewrite <- E. apply in_map. exact Hk. }
    destruct (out_model m pars b ko) as [k|e]; cbn [rmap bind].
    2: { exists h1. split; [reflexivity|]. split; [eapply ubk_cons; [exact O1|apply ubk_refl]|]. split; [constructor; assumption|]. discriminate. }
    destruct (IH h1 Hf2 ND' Hr2' L) as (h2 & E2' & O2 & R2' & K2). rewrite E2'. fold (outs m pars (map (fun o => (b, o)) l)) in *.
    exists h2. split. { destruct (outs m pars _); reflexivity. }
    split; [eapply ubk_cons; eassumption|]. split; [constructor; [|exact R2']; eapply ready1_ubk; eassumption|].
    intros ks. destruct (outs m pars _) as [ks'|]; [|discriminate]. cbn [bind]. intros E; injection E as <-. constructor; [|apply K2; reflexivity].
    unfold holds_model. rewrite O2 by auto. apply K1. reflexivity.
Qed.
Lemma mapM_app {A B} (f : A -> res B) l l' : mapM f (l ++ l')%list = (let* a := mapM f l in let* b := mapM f l' in Ok (a ++ b)%list).
Proof.
  induction l as [|x l IH]; cbn [app mapM bind].
  - destruct (mapM f l'); reflexivity.
  - destruct (f x) as [y|]; [|reflexivity]. cbn [bind]. rewrite IH. destruct (mapM f l); [|reflexivity]. cbn [bind]. destruct (mapM f l'); reflexivity.
Qed.
Lemma bands_from_cons {A} b (l : list A) obs : bands_from b (l :: obs) = (map (fun o => (b, o)) l ++ bands_from (S b) obs)%list.
Proof. reflexivity. Qed.
Lemma bands_from_snd {A} (obs : list (list A)) : forall b, map snd (bands_from b obs) = List.concat obs.
Proof.
  induction obs as [|l obs IH]; intros b; [reflexivity|]. rewrite bands_from_cons, map_app, map_map, IH. cbn [snd List.concat]. f_equal.
  rewrite map_id. reflexivity.
Qed.
Lemma NoDup_app_parts {A} (l l' : list A) : NoDup (l ++ l') -> NoDup l /\ NoDup l' /\ (forall x, In x l -> ~ In x l').
Proof.
  induction l as [|a l IH]; cbn [app]; intros H.
  - split; [constructor|]. split; [exact H|]. cbn; tauto.
  - inversion H as [|x xs N ND]; subst. destruct (IH ND) as (A1 & A2 & A3). rewrite in_app_iff in N. split; [constructor; tauto|]. split; [exact A2|].
    intros x [<-|Hx]; [tauto|]. apply A3. exact Hx.
Qed.

Lemma fill_bands_spec m pars obs : forall b h buf, List.length buf = S (n_before m) -> (n_before m + b + List.length obs <= List.length pars)%nat ->
  Forall fits (List.concat obs) -> NoDup (map ko_meta (List.concat obs)) -> ready h (List.concat obs) ->
  exists h' buf', fill_bands X m pars buf b h obs = (h', buf', rmap (fun _ => tt) (outs m pars (bands_from b obs))) /\
    List.length buf' = S (n_before m) /\ unchanged_but_kmodel h h' (List.concat obs) /\ ready h' (List.concat obs) /\
    (forall ks, outs m pars (bands_from b obs) = Ok ks -> Forall2 (holds_model h') (List.concat obs) ks).
Proof.
  induction obs as [|l obs IH]; intros b h buf Lb Lp Hf ND Hr.
  - exists h, buf. split; [reflexivity|]. split; [exact Lb|]. split; [apply ubk_refl|]. split; [exact Hr|]. intros ks E; injection E as <-. constructor.
  - cbn [fill_bands List.length List.concat] in *. rewrite fill_band_ok by (exact Lb || lia).
    apply Forall_app in Hf as [Hf1 Hf2]. rewrite map_app in ND. destruct (NoDup_app_parts _ _ ND) as (ND1 & ND2 & ND3). apply Forall_app in Hr as [Hr1 Hr2].
    destruct (fill_list_spec m pars b l h Hf1 ND1 Hr1) as (h1 & E1' & U1 & R1' & K1); [lia|]. rewrite E1'. rewrite bands_from_cons. unfold outs. rewrite mapM_app.
    fold (outs m pars (map (fun o => (b, o)) l)). fold (outs m pars (bands_from (S b) obs)).
    assert (D : forall ko, In ko (List.concat obs) -> ~ In (ko_meta ko) (map ko_meta l)).
    { intros ko Hk Hi. apply (ND3 _ Hi). apply in_map. exact Hk. }
    pose proof (ready_ubk _ _ _ _ U1 D Hr2) as Hr2'.
    assert (Lbp : List.length (bandpars m pars b) = S (n_before m)) by (apply bandpars_length; lia).
    destruct (outs m pars (map (fun o => (b, o)) l)) as [k1|e]; cbn [rmap bind].
    2: { exists h1, (bandpars m pars b). split; [reflexivity|]. split; [exact Lbp|]. split; [eapply ubk_app; [exact U1|apply ubk_refl]|].
         split; [apply Forall_app; split; assumption|]. discriminate. }
    destruct (IH (S b) h1 (bandpars m pars b) Lbp) as (h2 & buf2 & E2' & L2 & U2 & R2' & K2); [lia|assumption..|].
    rewrite E2'. exists h2, buf2. split. { destruct (outs m pars (bands_from (S b) obs)); reflexivity. }
    split; [exact L2|]. split; [eapply ubk_app; eassumption|].
    assert (D2 : forall ko, In ko l -> ~ In (ko_meta ko) (map ko_meta (List.concat obs))).
    { intros ko Hk. apply ND3. apply in_map. exact Hk. }
    split; [apply Forall_app; split; [eapply ready_ubk; eassumption|exact R2']|].
    intros ks. destruct (outs m pars (bands_from (S b) obs)) as [k2|]; [|discriminate]. cbn [bind]. intros E; injection E as <-.
    apply Forall2_app; [|apply K2; reflexivity]. specialize (K1 k1 eq_refl). revert D2 U2 K1. clear. intros D2 U2 K1.
    induction K1; constructor. { unfold holds_model. rewrite U2 by (left; apply D2; left; reflexivity). exact H. } apply IHK1. intros ko Hk. apply D2. right. exact Hk.
Qed.
End G.
