From Verif Require Import Base Shape_Model Moments_Model Jacobian_Model Pixels_Model GMix_Model Obs_Model Obs_Proofs ObsVal_Model SimObs_Model SimObs_Spec SimObs_Proofs Metacal_Model Metacal_Spec Metacal_Proofs.
From Verif Require GMixObj_Model.
From Coq Require String.
Import String.StringSyntax.
Local Open Scope R_scope.
Local Open Scope string_scope.
Local Open Scope list_scope.
Local Notation string := String.string.

(** ---- dictionaries of lists ---- *)
Lemma init_keys {A} ks : NoDup ks -> keys (init_dict (A := A) ks) = ks /\ forall k l, sget (init_dict (A := A) ks) k = Some l -> l = [].
Proof.
  unfold init_dict. enough (H : forall ks (d : sdict (list A)), NoDup (keys d ++ ks) -> (forall k l, sget d k = Some l -> l = []) ->
    keys (fold_left (fun d k => sset d k []) ks d) = keys d ++ ks /\ forall k l, sget (fold_left (fun d k => sset d k []) ks d) k = Some l -> l = []).
  { intros N. apply (H ks []); [exact N|discriminate]. }
  clear ks. induction ks as [|x ks IH]; intros d N F; cbn [fold_left]; [rewrite app_nil_r; auto|].
  assert (X : keys (sset d x (@nil A)) = keys d ++ [x]).
  { assert (~ In x (keys d)). { apply NoDup_remove_2 in N. rewrite in_app_iff in N. tauto. }
    clear -H. induction d as [|[k v] d IH]; cbn in *; [auto|]. destruct (String.eqb_spec x k); [subst; tauto|]. cbn. f_equal. apply IH. tauto. }
  destruct (IH (sset d x [])) as [K1 K2].
  - rewrite X, <- app_assoc. exact N.
  - intros k l. destruct (String.eqb_spec x k) as [->|Nk]; [rewrite sget_sset_same; congruence|rewrite sget_sset_other by auto; apply F].
  - split; [rewrite K1, X, <- app_assoc; reflexivity|exact K2].
Qed.
Lemma keys_sset_in {A} (d : sdict A) k v : In k (keys d) -> keys (sset d k v) = keys d.
Proof.
  induction d as [|[k1 v1] d IH]; cbn; [tauto|]. intros H. destruct (String.eqb_spec k k1); [subst; auto|]. cbn. f_equal. apply IH. intuition congruence.
Qed.
Lemma push_key_ok {A} (nd nd' : sdict (list A)) k x : push_key nd k x = Ok nd' ->
  exists l y, sget nd k = Some l /\ x = Some y /\ nd' = sset nd k (l ++ [y]) /\ keys nd' = keys nd.
Proof.
  unfold push_key. destruct (sget nd k) as [l|] eqn:E; [|discriminate]. destruct x as [y|]; [|discriminate]. intros [= <-].
  exists l, y. repeat split. apply keys_sset_in, sget_in. eauto.
Qed.
Lemma push_all_ok {A} (d : sdict A) ks : NoDup ks -> forall nd nd', push_all nd ks d = Ok nd' ->
  keys nd' = keys nd /\ (forall k, ~ In k ks -> sget nd' k = sget nd k) /\
  forall k, In k ks -> exists l x, sget nd k = Some l /\ sget d k = Some x /\ sget nd' k = Some (l ++ [x]).
Proof.
  unfold push_all. induction ks as [|x ks IH]; intros N nd nd' H; cbn [foldM] in H.
  - injection H as <-. repeat split; auto. intros k [].
  - apply NoDup_cons_iff in N as [N1 N2]. destruct (push_key nd x (sget d x)) as [nd1|] eqn:E; cbn [bind] in H; [|discriminate].
    destruct (push_key_ok _ _ _ _ E) as (l & y & E1 & E2 & -> & K). destruct (IH N2 _ _ H) as (K1 & K2 & K3). split; [congruence|]. split.
    + intros k Hk. rewrite K2 by (cbn in Hk; tauto). apply sget_sset_other. intros ->. apply Hk. left; auto.
    + intros k [<-|Hk].
      * exists l, y. split; [auto|]. split; [auto|]. rewrite K2 by auto. apply sget_sset_same.
      * destruct (K3 k Hk) as (l' & z & A1 & A2 & A3). exists l', z. rewrite sget_sset_other in A1 by (intros ->; auto). auto.
Qed.

(** ---- soundness ---- *)
Lemma sound_image v im p : sound v -> same_dims im (v_image v) -> (forall q, p = Some q -> sound q) -> sound (new_image v im p).
Proof.
  intros S D P. destruct S as [old w j opts g d st ig p0 D0 J Gm P0]. cbn in *. constructor; auto. destruct D, D0. split; congruence.
Qed.
Lemma sound_set_psf v p : sound v -> sound p -> sound (v_set_psf v p).
Proof. intros S P. destruct S. cbn. constructor; auto. intros q [= <-]. auto. Qed.
Lemma sound_fit p g d : sound p -> (forall x, g = Some x -> gm_copy x = Ok x) -> sound (new_fit p g d).
Proof. intros S P. destruct S. cbn. constructor; auto. Qed.
Lemma sound_psf v p : sound v -> v_psf v = Some p -> sound p.
Proof. intros S H. destruct S. cbn in H. auto. Qed.
Lemma set_psf_new v p : v_set_psf v p = new_image v (v_image v) (Some p).
Proof. destruct v; reflexivity. Qed.
Lemma set_psf_same v p : v_psf v = Some p -> new_image v (v_image v) (Some p) = v.
Proof. destruct v; cbn. intros ->. reflexivity. Qed.

Section Cont.
Variable G : galsim.
Variable fstr : R -> string.
Variable W : Type.
Variable normal : W -> nat -> nat -> W * arr2 R.
Variables admom maxlike : W -> obsval -> W * res pfit.
Notation make_metacal := (make_metacal G W normal admom maxlike).
Notation metacal_one := (metacal_one G fstr W normal admom maxlike).
Notation metacal_list := (metacal_list G fstr W normal admom maxlike).
Notation metacal_mb := (metacal_mb G fstr W normal admom maxlike).
Notation get_all_metacal_ := (get_all_metacal_ G fstr W normal admom maxlike).
Notation mout := (mout G).

(** ---- setting up ---- *)
Lemma np_max_ok l m : np_max l = Ok m -> In m l /\ forall x, In x l -> x <= m.
Proof.
  unfold np_max. destruct l as [|a l]; [discriminate|]. intros [= <-]. revert a. induction l as [|b l IH]; intros a; cbn [fold_left].
  - split; [left; auto|]. intros x [<-|[]]. lra.
  - destruct (IH (Rmax a b)) as [I1 I2]. split.
    + destruct I1 as [I1|I1]; [|right; right; auto]. rewrite <- I1. unfold Rmax. destruct (Rle_dec a b); cbn; auto.
    + intros x [<-|[<-|Hx]]; [| |apply I2; right; auto].
      * apply Rle_trans with (Rmax a b); [apply Rmax_l|apply I2; left; auto].
      * apply Rle_trans with (Rmax a b); [apply Rmax_r|apply I2; left; auto].
Qed.
Lemma psf_noise_ok pim rng rng' n : setup_psf_noise W normal pim rng = (rng', Ok n) -> psf_noise_for W normal pim n.
Proof.
  unfold setup_psf_noise. destruct (np_max (elements pim)) as [mx|] eqn:M; [|discriminate]. destruct (np_max_ok _ _ M) as [M1 M2].
  set (pr := match rng with None => _ | Some _ => _ end). destruct pr as [r1 noise] eqn:P. intros [= <- H].
  destruct noise as [noise|]; cbn [bind] in H; [|discriminate]. destruct (Reqb_spec (mx / 50000) 0) as [Z|Z]; [discriminate|].
  injection H as <-. assert (Z' : mx <> 0) by (intros ->; apply Z; lra).
  exists mx. cbn [pn_flux pn_weight pn_noise]. split; [auto|]. split; [auto|]. split; [auto|].
  split; [unfold np_sum; rewrite fold_left_rsum; lra|]. split; [split; reflexivity|].
  split; [intros r c; cbn [at2]; field; auto|].
  intros ni [= ->]. unfold pr in P. destruct rng as [w|]; [|discriminate]. destruct (Rltb_spec (mx / 50000) 0) as [L|L]; [discriminate|].
  destruct (normal w (nrow pim) (ncol pim)) as [w' z] eqn:En. injection P as <- <-.
  split; [lra|]. exists w, w', z. split; [auto|]. split; [split; reflexivity|]. intros r c. reflexivity.
Qed.
Lemma v_store_ok p f p' : v_store p f = (p', Ok tt) -> sound p ->
  exists g d, p' = new_fit p g d /\ forall x, g = Some x -> gm_copy x = Ok x.
Proof.
  intros H S. destruct S as [im w j opts g d st ig p0 D0 J Gm P0]. cbn [v_store] in H.
  destruct (Z.eqb (pf_flags f) 0).
  - destruct (pf_gmix f) as [gm|]; cbn [bind] in H; [|discriminate]. destruct (gm_copy gm) as [c|] eqn:E; [|discriminate].
    injection H as <-. eexists (Some c), _. split; [reflexivity|]. intros x [= <-]. eapply gm_copy_fix; eauto.
  - injection H as <-. eexists g, _. split; [reflexivity|exact Gm].
Qed.
Lemma do_psf_fit_ok p flux w w' p' k : do_psf_fit G W admom maxlike p flux w = (w', p', Ok k) -> sound p ->
  (exists g d, p' = new_fit p g d) /\ sound p' /\ exists e1 e2 T, gs_gaussian G (fit_sigma e1 e2 T) flux = Ok k.
Proof.
  unfold do_psf_fit. destruct (admom w p) as [w1 [f|]]; [|discriminate]. destruct (v_store p f) as [p1 [[]|]] eqn:V; [|discriminate].
  intros H S. destruct (v_store_ok _ _ _ V S) as (g & d & -> & F).
  assert (X : p' = new_fit p g d /\ exists e1 e2 T, gs_gaussian G (fit_sigma e1 e2 T) flux = Ok k).
  { destruct (Z.eqb (pf_flags f) 0); [injection H as _ <- H; eauto|].
    destruct (maxlike w1 (new_fit p g d)) as [w2 [f2|]]; [|discriminate]. injection H as _ <- H. split; [auto|].
    destruct (if Z.eqb (pf_flags f2) 0 then _ else _) as [gm|]; cbn [bind] in H; [|discriminate].
    destruct (match gm_e1e2T gm with Raise GMixRangeError => _ | _ => _ end) as [[[e1 e2] T]|]; cbn [bind] in H; [|discriminate]. eauto. }
  destruct X as [-> X]. split; [eauto|]. split; [apply sound_fit; auto|exact X].
Qed.
Lemma make_metacal_ok v psf rng rng' v' m : make_metacal v psf rng = (rng', v', Ok m) -> sound v ->
  metacal_setup G W normal psf v m /\ sound (mc_obs G m) /\ sound (mc_psf G m) /\ mc_obs G m = v' /\ allowed_types G m = all_types G psf.
Proof.
  unfold Metacal_Model.make_metacal, set_data. intros H S. destruct (v_psf v) as [p|] eqn:Ep; [|discriminate].
  pose proof (sound_psf _ _ S Ep) as Sp.
  destruct (gs_pixel G _) as [px|] eqn:E1; cbn [bind] in H; [|discriminate].
  destruct (gs_interp G (v_image v) _) as [ii|] eqn:E2; cbn [bind] in H; [|discriminate].
  destruct (gs_interp G (v_image p) _) as [pi|] eqn:E3; cbn [bind] in H; [|discriminate]. cbn [md_psf md_pixel md_gal md_psf_int md_psf_nopix] in H.
  destruct psf; try (destruct (setup_psf_noise W normal (v_image p) rng) as [r1 [n|]] eqn:En; [|discriminate]; pose proof (psf_noise_ok _ _ _ _ En) as Pn).
  - injection H as <- <- <-. split; [|cbn; auto]. exists p, ii. cbn. rewrite set_psf_same by auto. repeat (split; [auto|]). auto.
  - destruct r1 as [w|]; [|discriminate]. destruct (do_psf_fit G W admom maxlike p (pn_flux n) w) as [[w' p'] [k|]] eqn:F; cbn [bind] in H; [|discriminate].
    injection H as <- <- <-. destruct (do_psf_fit_ok _ _ _ _ _ _ F Sp) as ((g & d & ->) & S' & e1 & e2 & T & X).
    assert (Fl : pn_flux n = rsum (elements (v_image p))) by (destruct Pn as (mx & _ & _ & _ & Fl & _); exact Fl).
    split; [|cbn; split; [apply sound_set_psf; auto|auto]]. exists p, ii. cbn.
    rewrite set_psf_new. do 7 (split; [first [auto | reflexivity]|]). split; [exact Pn|]. split; [exists g, d; reflexivity|]. rewrite <- Fl. exists e1, e2, T. exact X.
  - injection H as <- <- <-. split; [|cbn; auto]. exists p, ii. cbn. rewrite set_psf_same by auto. repeat (split; [auto|]). auto.
  - injection H as <- <- <-. split; [|cbn; auto]. exists p, ii. cbn. rewrite set_psf_same by auto. repeat (split; [auto|]). auto.
  - discriminate.
Qed.

(** ---- one observation ---- *)
Section Request.
Variable psf : psfarg G.
Variable step : R.
Hypothesis P : prints fstr [step; - step; 0].
(** the request of a state *)
Definition wants (s : gstate W) (K : string -> Prop) : Prop := forall k, returned (requested (all_types G psf) (fst s)) k <-> K k.
(** d has the keys K and its entries satisfy F *)
Definition filled {A} (K : string -> Prop) (F : string -> A -> Prop) (d : sdict A) : Prop :=
  NoDup (keys d) /\ (forall k, In k (keys d) <-> K k) /\ forall k x, sget d k = Some x -> F k x.

Lemma one_ok v s s' v' d K : metacal_one psf step v s = (s', (v', Ok d)) -> sound v -> wants s K ->
  wants s' K /\ filled K (fun k o => made_from G W normal psf step k v o) d.
Proof.
  unfold Metacal_Model.metacal_one. destruct s as [types rng]. intros H S Wn.
  destruct (make_metacal v psf rng) as [[r1 v1] [m|]] eqn:E; [|discriminate].
  destruct (make_metacal_ok _ _ _ _ _ _ E S) as (Se & S1 & S2 & Ev & Al).
  destruct (get_all G fstr m step types []) as [t' [c' r]] eqn:Ea. injection H as <- <- ->.
  split.
  - intros k. rewrite <- Al. cbn [fst]. rewrite (get_all_types _ _ _ _ _ _ _ _ Ea k). rewrite Al. apply Wn.
  - destruct (get_all_keys _ _ _ _ _ _ _ _ _ Ea) as [N I]. split; [auto|]. split.
    + intros k. rewrite I, Al. apply Wn.
    + intros k o Hk. exists m. split; [auto|].
      apply (get_all_contents G fstr m step types [] t' c' d P S1 S2 (Forall_nil _) Ea k o Hk).
Qed.

(** ---- lists ---- *)
Lemma push_filled {A} (td : sdict A) od od' K F Fl : filled K F td -> filled K Fl od ->
  (forall ks, (ks = keys od \/ ks = keys td) -> push_all od ks td = Ok od' -> filled K (fun k l => exists l0 x, l = l0 ++ [x] /\ Fl k l0 /\ F k x) od').
Proof.
  intros (N1 & I1 & C1) (N2 & I2 & C2) ks Hk H.
  assert (Nk : NoDup ks) by (destruct Hk as [->| ->]; auto).
  assert (Ik : forall k, In k ks <-> K k) by (intros k; destruct Hk as [->| ->]; auto).
  destruct (push_all_ok td ks Nk od od' H) as (K1 & K2 & K3). split; [rewrite K1; auto|]. split; [intros k; rewrite K1; auto|].
  intros k l Hl. assert (Hin : In k ks). { apply Ik, I2. rewrite <- K1. apply sget_in. eauto. }
  destruct (K3 k Hin) as (l0 & x & A1 & A2 & A3). rewrite A3 in Hl. injection Hl as <-. exists l0, x. auto.
Qed.
Lemma init_filled {A} (td : sdict A) K F : filled K F td -> filled K (fun _ l => l = @nil A) (init_dict (keys td)).
Proof. intros (N & I & C). destruct (init_keys (A := A) (keys td) N) as [E1 E2]. split; [rewrite E1; auto|]. split; [intros k; rewrite E1; auto|exact E2]. Qed.
Lemma filled_impl {A} K (F F' : string -> A -> Prop) d : filled K F d -> (forall k x, F k x -> F' k x) -> filled K F' d.
Proof. intros (N & I & C) H. split; [auto|]. split; auto. Qed.

Lemma list_ok l : Forall sound l -> forall pre od s s' l' r K, metacal_list psf step l od s = (s', (l', Ok r)) -> wants s K ->
  match od with None => pre = [] | Some d => filled K (fun k o => Forall2 (made_from G W normal psf step k) pre o) d end ->
  wants s' K /\
  match r with None => l = [] /\ od = None | Some d => filled K (fun k o => Forall2 (made_from G W normal psf step k) (pre ++ l) o) d end.
Proof.
  induction l as [|v l IH]; intros F pre od s s' l' r K H Wn Fo; cbn [Metacal_Model.metacal_list] in H.
  - injection H as <- <- <-. split; [auto|]. rewrite app_nil_r. destruct od; auto.
  - apply Forall_cons_iff in F as [F1 F2]. destruct (metacal_one psf step v s) as [s1 [v1 r1]] eqn:E.
    destruct r1 as [td|]; cbn [bind] in H; [|discriminate]. destruct (one_ok _ _ _ _ _ _ E F1 Wn) as [W1 Ft].
    set (od0 := match od with None => init_dict (keys td) | Some od => od end) in H.
    destruct (push_all od0 (keys od0) td) as [od1|] eqn:Ep; [|discriminate].
    destruct (metacal_list psf step l (Some od1) s1) as [s2 [l2 r2]] eqn:El. injection H as <- <- ->.
    assert (Fo0 : filled K (fun k o => Forall2 (made_from G W normal psf step k) pre o) od0).
    { unfold od0. destruct od as [od|]; [auto|]. subst pre. eapply filled_impl; [apply (init_filled _ _ _ Ft)|]. cbn. intros k x ->. constructor. }
    pose proof (push_filled _ _ _ _ _ _ Ft Fo0 (keys od0) (or_introl eq_refl) Ep) as Fp.
    destruct (IH F2 (pre ++ [v]) (Some od1) s1 s2 l2 r K El W1) as [W2 R].
    { eapply filled_impl; [exact Fp|]. cbn. intros k x (l0 & y & -> & A1 & A2). apply Forall2_app; auto. }
    split; [auto|]. destruct r as [d|]; [|destruct R as [_ R]; discriminate]. rewrite <- app_assoc in R. exact R.
Qed.
Lemma mb_ok l : Forall (Forall sound) l -> forall pre od s s' l' r K, metacal_mb psf step l od s = (s', (l', Ok r)) -> wants s K ->
  match od with None => pre = [] | Some d => filled K (fun k o => Forall2 (Forall2 (made_from G W normal psf step k)) pre o) d end ->
  wants s' K /\
  match r with None => l = [] /\ od = None | Some d => filled K (fun k o => Forall2 (Forall2 (made_from G W normal psf step k)) (pre ++ l) o) d end.
Proof.
  induction l as [|b l IH]; intros F pre od s s' l' r K H Wn Fo; cbn [Metacal_Model.metacal_mb] in H.
  - injection H as <- <- <-. split; [auto|]. rewrite app_nil_r. destruct od; auto.
  - apply Forall_cons_iff in F as [F1 F2]. destruct (metacal_list psf step b None s) as [s1 [b1 r1]] eqn:E.
    destruct r1 as [td|]; cbn [bind] in H; [|discriminate].
    destruct (list_ok _ F1 [] None _ _ _ _ K E Wn eq_refl) as [W1 Ft].
    destruct td as [td|]; [|destruct od; discriminate]. cbn [app] in Ft.
    assert (X : exists od0 od1 ks, (ks = keys od0 \/ ks = keys td) /\ push_all od0 ks td = Ok od1 /\
       filled K (fun k o => Forall2 (Forall2 (made_from G W normal psf step k)) pre o) od0 /\
       exists s2 l2 r2, metacal_mb psf step l (Some od1) s1 = (s2, (l2, r2)) /\ s2 = s' /\ r2 = Ok r).
    { destruct od as [od|].
      - destruct (push_all od (keys td) td) as [od1|] eqn:Ep; [|discriminate].
        destruct (metacal_mb psf step l (Some od1) s1) as [s2 [l2 r2]] eqn:El. injection H as <- <- ->.
        exists od, od1, (keys td). split; [auto|]. split; [auto|]. split; [auto|]. exists s2, l2, (Ok r). rewrite El. auto.
      - destruct (push_all (init_dict (keys td)) (keys td) td) as [od1|] eqn:Ep; [|discriminate].
        destruct (metacal_mb psf step l (Some od1) s1) as [s2 [l2 r2]] eqn:El. injection H as <- <- ->.
        exists (init_dict (keys td)), od1, (keys td). split; [auto|]. split; [auto|]. split; [|exists s2, l2, (Ok r); rewrite El; auto].
        subst pre. eapply filled_impl; [apply (init_filled _ _ _ Ft)|]. cbn. intros k x ->. constructor. }
    clear H. destruct X as (od0 & od1 & ks & Hk & Ep & Fo0 & s2 & l2 & r2 & El & -> & ->).
    pose proof (push_filled _ _ _ _ _ _ Ft Fo0 ks Hk Ep) as Fp.
    destruct (IH F2 (pre ++ [b]) (Some od1) s1 s' l2 r K El W1) as [W2 R].
    { eapply filled_impl; [exact Fp|]. cbn. intros k x (l0 & y & -> & A1 & A2). apply Forall2_app; auto. }
    split; [auto|]. destruct r as [d|]; [|destruct R as [_ R]; discriminate]. rewrite <- app_assoc in R. exact R.
Qed.

(** ---- containers ---- *)
Definition good_cont (obs : cont obsval) : Prop :=
  match obs with MObs _ v => sound v | MList _ l => Forall sound l | MMb _ l => Forall (Forall sound) l | MOther _ => True end.
Lemma wrap_ok {A B} (f : A -> B) r x : wrap f r = Ok x ->
  exists y, r = Ok y /\ match y, x with
                        | None, None => True
                        | Some d, Some d' => keys d' = keys d /\ forall k v, sget d' k = Some v -> exists u, sget d k = Some u /\ v = f u
                        | _, _ => False end.
Proof.
  unfold wrap. destruct r as [y|]; [|discriminate]. cbn. intros [= <-]. exists y. split; [auto|]. destruct y as [d|]; cbn; auto.
  split; [unfold keys; rewrite map_map; reflexivity|]. induction d as [|[k0 u] d IH]; cbn; intros k v H; [discriminate|].
  destruct (String.eqb k k0); [injection H as <-; eauto|auto].
Qed.
Lemma wrap_filled {A B} (f : A -> B) r d K F : wrap f r = Ok (Some d) ->
  (forall d0, r = Ok (Some d0) -> filled K F d0) -> filled K (fun k x => exists u, F k u /\ x = f u) d.
Proof.
  intros H X. destruct (wrap_ok _ _ _ H) as ([d0|] & -> & Y); [|contradiction]. destruct Y as [E1 E2].
  destruct (X d0 eq_refl) as (N & I & C). split; [rewrite E1; auto|]. split; [intros k; rewrite E1; auto|].
  intros k x Hx. destruct (E2 k x Hx) as (u & A1 & A2). exists u. auto.
Qed.
Lemma wrap_none {A B} (f : A -> B) r : wrap f r = Ok None -> r = Ok None.
Proof. intros H. destruct (wrap_ok _ _ _ H) as ([d0|] & -> & Y); [contradiction|auto]. Qed.
Lemma all_ok obs s s' obs' r K : get_all_metacal_ psf step obs s = (s', (obs', Ok r)) -> good_cont obs -> wants s K ->
  wants s' K /\
  match r with
  | None => obs = MList _ [] \/ obs = MMb _ []
  | Some d => filled K (fun k x => cont_rel (made_from G W normal psf step k) obs x) d
  end.
Proof.
  intros H Gd Wn. destruct obs as [v|l|l|]; cbn [Metacal_Model.get_all_metacal_] in H; [| | |discriminate].
  - destruct (metacal_one psf step v s) as [s1 [v1 r1]] eqn:E. injection H as <- <- H.
    destruct r1 as [d0|]; [|discriminate]. destruct (one_ok _ _ _ _ _ _ E Gd Wn) as [W1 F1]. split; [auto|].
    destruct r as [d|]; [|apply wrap_none in H; discriminate].
    eapply filled_impl; [eapply wrap_filled; [exact H|cbn; intros d1 [= <-]; exact F1]|cbn; intros k x (u & A & ->); constructor; exact A].
  - destruct (metacal_list psf step l None s) as [s1 [v1 r1]] eqn:E. injection H as <- <- H.
    destruct r1 as [d0|]; [|discriminate]. destruct (list_ok _ Gd [] None _ _ _ _ K E Wn eq_refl) as [W1 F1]. split; [auto|].
    destruct r as [d|]; [|apply wrap_none in H; injection H as ->; left; f_equal; apply F1].
    eapply filled_impl; [eapply wrap_filled; [exact H|cbn; intros d1 [= ->]; exact F1]|cbn; intros k x (u & A & ->); constructor; exact A].
  - destruct (metacal_mb psf step l None s) as [s1 [v1 r1]] eqn:E. injection H as <- <- H.
    destruct r1 as [d0|]; [|discriminate]. destruct (mb_ok _ Gd [] None _ _ _ _ K E Wn eq_refl) as [W1 F1]. split; [auto|].
    destruct r as [d|]; [|apply wrap_none in H; injection H as ->; right; f_equal; apply F1].
    eapply filled_impl; [eapply wrap_filled; [exact H|cbn; intros d1 [= ->]; exact F1]|cbn; intros k x (u & A & ->); constructor; exact A].
Qed.

(** ---- noise ---- *)
Lemma rot_there {A} (a : arr2 A) : rotated a (rot90 1 a).
Proof.
  split; [reflexivity|]. split; [reflexivity|]. intros r c [I1 I2]. cbn. f_equal. lia.
Qed.
Lemma rot_back {A} (a : arr2 A) : rotated (rot90 3 a) a.
Proof.
  split; [reflexivity|]. split; [reflexivity|]. intros r c [I1 I2]. cbn in *. reflexivity.
Qed.
Lemma rot_identity {A} (a b c : arr2 A) : rotated a b -> rotated c b -> same_pixels a c.
Proof.
  intros (A1 & A2 & A3) (B1 & B2 & B3). assert (D : same_dims a c) by (split; congruence). split; [exact D|].
  intros r k I. rewrite <- (A3 r k I). rewrite <- (B3 r k).
  - f_equal. destruct D as [D1 D2]. congruence.
  - destruct I, D. split; congruence.
Qed.
Lemma rotate_val_ok k v v' : rotate_val k v = Ok v' -> v' = new_image v (rot90 k (v_image v)) (v_psf v) /\ same_dims (rot90 k (v_image v)) (v_image v).
Proof. apply set_image_ok. Qed.

Lemma add_weight_ok a b x : add_weight a b = Some x ->
  (a <> 0 -> b <> 0 -> / a + / b <> 0 /\ x = / (/ a + / b)) /\ (a = 0 \/ b = 0 -> x = a).
Proof.
  unfold add_weight. destruct (Reqb_spec a 0) as [A|A]; cbn [negb andb].
  - intros [= <-]. split; [congruence|auto].
  - destruct (Reqb_spec b 0) as [B|B]; cbn [negb].
    + intros [= <-]. split; [congruence|auto].
    + unfold np_div. destruct (Reqb_spec (1 / a + 1 / b) 0) as [C|C]; [discriminate|]. intros [= <-].
      split; [|intuition congruence]. intros _ _. unfold Rdiv in *. rewrite !Rmult_1_l in *. auto.
Qed.
Lemma finite_image_inv im out : finite_image im = Ok out -> same_dims out im /\ forall r c, inside im r c -> at2 im r c = Some (at2 out r c).
Proof.
  unfold finite_image. destruct (forallb _ _) eqn:E; [|discriminate]. intros [= <-]. split; [split; reflexivity|].
  intros r c I. rewrite forallb_forall in E. specialize (E (at2 im r c)). cbn. destruct (at2 im r c) as [x|] eqn:Ex; [auto|].
  discriminate E. apply elements_in. eauto.
Qed.
Lemma doadd_ok o n0 n f : rotate_out G 3 n0 = Ok n -> doadd G o n = Ok f -> noise_added o n0 f.
Proof.
  unfold rotate_out, doadd. destruct (rotate_val 3 (mo_val G n0)) as [nv|] eqn:E; cbn [bind]; [|discriminate]. intros [= <-]. cbn [mo_val mo_psf_obj mo_orig].
  destruct (rotate_val_ok _ _ _ E) as [-> D0].
  destruct (new_image_fields (mo_val G n0) (rot90 3 (v_image (mo_val G n0))) (v_psf (mo_val G n0))) as (F1 & F2 & _). rewrite F1, F2.
  destruct (same_shape (v_image (mo_val G o)) _) eqn:S1; [|discriminate].
  destruct (same_shape (v_weight (mo_val G o)) _) eqn:S2; [|discriminate]. cbn [negb andb].
  destruct (v_write (mo_val G o) _ _ _) as [v1|] eqn:W1; cbn [bind]; [|discriminate]. apply write_ok in W1.
  destruct (finite_image _) as [w|] eqn:Fi; cbn [bind]; [|discriminate].
  destruct (v_write v1 _ _ _) as [v2|] eqn:W2; cbn [bind]; [|discriminate]. apply write_ok in W2. intros [= <-].
  exists (rot90 3 (v_image (mo_val G n0))). split; [apply rot_back|]. cbn [mo_orig mo_psf_obj mo_val]. split; [auto|]. split; [auto|].
  exists (add2 (v_image (mo_val G o)) (rot90 3 (v_image (mo_val G n0)))), w. split.
  { rewrite W2, W1. destruct (mo_val G o); reflexivity. }
  destruct (finite_image_inv _ _ Fi) as [Dw Hw]. split; [split; reflexivity|]. split; [exact Dw|]. split; [intros r c _; reflexivity|].
  intros r c I. apply add_weight_ok. apply (Hw r c). destruct I, Dw. split; congruence.
Qed.
Lemma zip_lemma {A B C D E F} (P1 : A -> B -> Prop) (R1 : A -> C -> Prop) (Q1 : C -> D -> Prop) (g : D -> res E) (f : B -> E -> res F) (T : A -> F -> Prop) l ls :
  Forall2 R1 l ls -> forall xs ns0 ns rs, Forall2 P1 l xs -> Forall2 Q1 ls ns0 -> mapM g ns0 = Ok ns -> zipM f xs ns = Ok rs ->
  (forall v x lv n0 n r, P1 v x -> R1 v lv -> Q1 lv n0 -> g n0 = Ok n -> f x n = Ok r -> T v r) -> Forall2 T l rs.
Proof.
  induction 1 as [|v lv l ls H HF IH]; intros xs ns0 ns rs A1 A2 A3 A4 X.
  - inversion A1; subst. injection A4 as <-. constructor.
  - inversion A1 as [|? x ? xs' B1 B2]; subst. inversion A2 as [|? n0 ? ns0' C1 C2]; subst. cbn [mapM] in A3.
    destruct (g n0) as [n|] eqn:En; cbn [bind] in A3; [|discriminate]. destruct (mapM g ns0') as [ns'|] eqn:Em; cbn [bind] in A3; [|discriminate].
    injection A3 as <-. cbn [zipM] in A4. destruct (f x n) as [r|] eqn:Ef; cbn [bind] in A4; [|discriminate].
    destruct (zipM f xs' ns') as [rs'|] eqn:Ez; cbn [bind] in A4; [|discriminate]. injection A4 as <-.
    constructor; [eapply X; eauto|]. eapply IH; eauto.
Qed.
Definition noise_of (use : bool) (o : simin) (rot : obsval) : Prop :=
  sound rot /\ exists noise, noise_image_of W normal use o noise /\ rotated (v_image noise) (v_image rot) /\ rot = new_image noise (v_image rot) (v_psf noise).
Lemma fix_one use k o x rot n0 n f : made_from G W normal psf step k (si_val o) x -> noise_of use o rot -> made_from G W normal psf step k rot n0 ->
  rotate_out G 3 n0 = Ok n -> doadd G x n = Ok f -> with_noise G W normal psf step use k o f.
Proof.
  intros M (_ & noise & N1 & N2 & N3) M2 Ro Da. exists noise, rot, x, n0. repeat (split; [assumption|]). eapply doadd_ok; eauto.
Qed.
Definition cvals (obs : cont simin) := vals obs.
Lemma fix_cont use k obs nobs x n0 n f : cont_rel (made_from G W normal psf step k) (vals obs) x ->
  cont_rel (noise_of use) obs nobs -> cont_rel (made_from G W normal psf step k) nobs n0 ->
  map_cont (rotate_out G 3) n0 = Ok n -> doadd_cont G x n = Ok f -> cont_rel (with_noise G W normal psf step use k) obs f.
Proof.
  assert (U : forall l' xs, Forall2 (made_from G W normal psf step k) (map si_val l') xs -> Forall2 (fun o x => made_from G W normal psf step k (si_val o) x) l' xs).
  { induction l' as [|a l' IH]; intros xs H; inversion H; subst; constructor; auto. }
  assert (U2 : forall l' xs, Forall2 (Forall2 (made_from G W normal psf step k)) (map (map si_val) l') xs -> Forall2 (Forall2 (fun o x => made_from G W normal psf step k (si_val o) x)) l' xs).
  { induction l' as [|a l' IH]; intros xs H; inversion H; subst; constructor; auto. }
  intros A1 A2 A3 A4 A5. destruct A2 as [o rot Ho|l l' Hl|l l' Hl]; cbn [vals] in A1; inversion A1; subst; inversion A3; subst; cbn [map_cont] in A4.
  - destruct (rotate_out G 3 _) as [n1|] eqn:E; [|discriminate]. injection A4 as <-. cbn [doadd_cont] in A5.
    destruct (doadd G b n1) as [f1|] eqn:Ed; [|discriminate]. injection A5 as <-. constructor. eapply fix_one; eauto.
  - destruct (mapM (rotate_out G 3) _) as [n1|] eqn:E; [|discriminate]. injection A4 as <-. cbn [doadd_cont] in A5.
    destruct (zipM (doadd G) _ n1) as [f1|] eqn:Ed; [|discriminate]. injection A5 as <-. constructor.
    eapply zip_lemma; [exact Hl|apply U; eassumption|eassumption|exact E|exact Ed|]. cbv beta. intros. eapply fix_one; eauto.
  - destruct (mapM (mapM (rotate_out G 3)) _) as [n1|] eqn:E; [|discriminate]. injection A4 as <-. cbn [doadd_cont] in A5.
    destruct (zipM (zipM (doadd G)) _ n1) as [f1|] eqn:Ed; [|discriminate]. injection A5 as <-. constructor.
    eapply zip_lemma; [exact Hl|apply U2; eassumption|eassumption|exact E|exact Ed|]. cbv beta. intros.
    eapply zip_lemma; [exact H2|exact H|exact H3|exact H4|exact H5|]. cbv beta. intros. eapply fix_one; eauto.
Qed.
Lemma fix_types_ok d nd r : fix_types G d nd = Ok r -> keys r = keys d /\
  forall k f, sget r k = Some f -> exists x n0 n, sget d k = Some x /\ sget nd k = Some n0 /\ map_cont (rotate_out G 3) n0 = Ok n /\ doadd_cont G x n = Ok f.
Proof.
  revert r. induction d as [|[k x] d IH]; intros r H; cbn [fix_types] in H.
  - injection H as <-. split; [auto|discriminate].
  - destruct (sget nd k) as [n0|] eqn:E; [|discriminate]. destruct (map_cont _ n0) as [n|] eqn:En; cbn [bind] in H; [|discriminate].
    destruct (doadd_cont G x n) as [f|] eqn:Ef; cbn [bind] in H; [|discriminate]. destruct (fix_types G d nd) as [rest|]; cbn [bind] in H; [|discriminate].
    injection H as <-. destruct (IH rest eq_refl) as [K1 K2]. split; [cbn; f_equal; exact K1|].
    intros k' f'. cbn [sget]. destruct (String.eqb_spec k' k) as [->|]; [intros [= <-]; eauto 10|apply K2].
Qed.

(** the noise observations *)
Lemma mapM_F2 {A B} (f : A -> res B) l l' : mapM f l = Ok l' -> Forall2 (fun x y => f x = Ok y) l l'.
Proof.
  revert l'. induction l as [|x l IH]; cbn; intros l' H; [injection H as <-; constructor|].
  destruct (f x) eqn:E; cbn [bind] in H; [|discriminate]. destruct (mapM f l) eqn:Em; cbn [bind] in H; [|discriminate]. injection H as <-. constructor; auto.
Qed.
Lemma rotate_noise use o noise rot : noise_image_of W normal use o noise -> sound noise -> rotate_val 1 noise = Ok rot -> noise_of use o rot.
Proof.
  intros N S H. destruct (rotate_val_ok _ _ _ H) as [-> D].
  destruct (new_image_fields noise (rot90 1 (v_image noise)) (v_psf noise)) as (F1 & _). split.
  - apply sound_image; auto. intros q Hq. eapply sound_psf; eauto.
  - exists noise. split; [auto|]. rewrite F1. split; [apply rot_there|auto].
Qed.
Lemma noise_attribute o n : sound (si_val o) -> (let* c := v_copy (si_val o) in replace_image c) = Ok n -> noise_image_of W normal true o n /\ sound n.
Proof.
  intros S. destruct (v_copy (si_val o)) as [c|] eqn:E; cbn [bind]; [|discriminate]. apply (v_copy_sound _ S) in E. subst c.
  unfold replace_image. destruct (v_opt (si_val o) SNoise) as [[a| |]|] eqn:En; try discriminate. intros H.
  destruct (set_image_ok _ _ _ H) as [-> D]. destruct (new_image_fields (si_val o) a (v_psf (si_val o))) as (F1 & F2 & F3 & F4 & _ & _ & F7).
  split; [|apply sound_image; auto; intros q Hq; eapply sound_psf; eauto].
  unfold noise_image_of. rewrite F1, F2, F3, F7. split; [auto|]. split; [split; auto|]. auto.
Qed.
Lemma noise_simulated o rng rng' out : sound (si_val o) -> simulate_one W normal None o sim_default rng = (rng', Ok out) ->
  noise_image_of W normal false o (so_val out) /\ sound (so_val out).
Proof.
  intros S H. destruct (simulate_shape W normal _ _ _ _ _ _ S H) as (im & w & n & V & Nn & D1 & D2 & Wv & _ & sim & E & nn & E1 & E2 & E3 & E4 & E5).
  cbn in E. injection E as <-. rewrite V. cbn [v_image v_weight v_jac v_psf] in *. destruct E2 as [E2a E2b]. cbn [nrow ncol] in E2a, E2b.
  split.
  - unfold noise_image_of. cbn [v_image v_weight v_jac v_psf]. split; [split; auto|]. split; [auto|].
    split; [intros r c; rewrite Wv; cbn; field|]. split; [auto|]. split; [auto|].
    destruct rng as [s|]; [|discriminate]. destruct (normal s (nrow (noise_weight o sim_default)) (ncol (noise_weight o sim_default))) as [s' z] eqn:Ez.
    destruct (noise_image_spec W normal (noise_weight o sim_default) true None s s' z Ez) as (law & L1 & L2).
    cbn [sp_add_all sp_factor sim_default] in E4. rewrite L1 in E4. injection E4 as _ ->. exists s, s', z, nn. cbv zeta. split; [exact Ez|]. split; [exact L2|].
    intros r c I. rewrite E5. cbn. ring.
  - constructor; [auto| | |].
    + destruct S; auto.
    + discriminate.
    + intros q Hq. eapply sound_psf; eauto.
Qed.
Definition good_in (obs : cont simin) : Prop := good_cont (vals obs).
Lemma chain_F2 {S A B} (st : A -> S -> B -> S -> Prop) (Q : A -> B -> Prop) s l l' s' : chain st s l l' s' ->
  (forall a s b s', In a l -> st a s b s' -> Q a b) -> Forall2 Q l l'.
Proof. induction 1; intros X; constructor; [eapply X; [left; eauto|eauto]|apply IHchain; intros; eapply X; [right; eauto|eauto]]. Qed.
Lemma simulated_cont obs rng rng' r : good_in obs -> simulate_obs W normal (GOne GINone) (sim_args obs) sim_default rng = (rng', Ok r) ->
  cont_rel (fun o n => noise_image_of W normal false o n /\ sound n) obs (sim_vals r).
Proof.
  intros Gd H. destruct obs as [o|l|l|]; cbn [sim_args] in H; [| | |discriminate].
  - destruct (obs_structure W normal _ _ _ _ _ _ H) as (out & x & g & -> & [= <-] & [= <-] & E). constructor. eapply noise_simulated; eauto.
  - destruct (list_structure W normal _ _ _ _ _ _ H) as (l' & x & g & -> & [= <-] & [= <-] & _ & C). constructor.
    unfold good_in in Gd. cbn in Gd. rewrite Forall_map, Forall_forall in Gd.
    assert (X : Forall2 (fun o out => noise_image_of W normal false o (so_val out) /\ sound (so_val out)) l l').
    { eapply chain_F2; [exact C|]. unfold sim_of. intros a s b s' I E. eapply noise_simulated; eauto. }
    clear -X. induction X; constructor; auto.
  - destruct (mb_structure W normal _ _ _ _ _ _ H) as (l' & -> & L & C). constructor.
    unfold good_in in Gd. cbn in Gd. rewrite Forall_map, Forall_forall in Gd.
    assert (X : Forall2 (fun ib outs => Forall2 (fun o out => noise_image_of W normal false o (so_val out) /\ sound (so_val out)) (snd ib) outs) (combine (seq 0 (length l)) l) l').
    { eapply chain_F2; [exact C|]. cbv beta. intros [i b] s outs s' I (x & [= <-] & _ & X). cbn [snd fst] in *. specialize (X None eq_refl).
      apply in_combine_r in I. specialize (Gd b I). cbn in Gd. rewrite Forall_map, Forall_forall in Gd.
      eapply chain_F2; [exact X|]. unfold sim_of. intros a t c t' I' E. eapply noise_simulated; eauto. }
    clear -X. revert l' X. generalize 0%nat. induction l as [|b l IH]; intros k l' X; cbn [length seq combine] in X; inversion X; subst; cbn [map]; constructor.
    + cbn [snd] in *. clear -H1. induction H1; constructor; auto.
    + eapply IH; eauto.
Qed.
Lemma replaced_cont obs n : good_in obs -> replace_with_noise (vals obs) = Ok n -> cont_rel (fun o n => noise_image_of W normal true o n /\ sound n) obs n.
Proof.
  assert (L : forall l c n, Forall sound (map si_val l) -> mapM v_copy (map si_val l) = Ok c -> mapM replace_image c = Ok n ->
     Forall2 (fun o n => noise_image_of W normal true o n /\ sound n) l n).
  { induction l as [|o l IH]; intros c m F H1 H2; cbn [map mapM] in *.
    - injection H1 as <-. injection H2 as <-. constructor.
    - apply Forall_cons_iff in F as [F1 F2]. destruct (v_copy (si_val o)) as [c1|] eqn:E1; cbn [bind] in H1; [|discriminate].
      destruct (mapM v_copy _) as [c2|] eqn:E2; cbn [bind] in H1; [|discriminate]. injection H1 as <-. cbn [mapM] in H2.
      destruct (replace_image c1) as [n1|] eqn:E3; cbn [bind] in H2; [|discriminate]. destruct (mapM replace_image c2) as [n2|] eqn:E4; cbn [bind] in H2; [|discriminate].
      injection H2 as <-. constructor; [|eapply IH; eauto]. apply noise_attribute; [auto|]. rewrite E1. exact E3. }
  intros Gd. unfold replace_with_noise. destruct obs as [o|l|l|]; cbn [vals map_cont]; [| | |discriminate].
  - destruct (v_copy (si_val o)) as [c|] eqn:E; cbn [rmap bind map_cont]; [|discriminate].
    destruct (replace_image c) as [m|] eqn:E2; cbn; [|discriminate]. intros [= <-]. constructor. apply noise_attribute; [exact Gd|]. rewrite E. exact E2.
  - destruct (mapM v_copy _) as [c|] eqn:E; cbn [rmap bind map_cont]; [|discriminate].
    destruct (mapM replace_image c) as [m|] eqn:E2; cbn; [|discriminate]. intros [= <-]. constructor. eapply L; eauto.
  - destruct (mapM (mapM v_copy) _) as [c|] eqn:E; cbn [rmap bind map_cont]; [|discriminate].
    destruct (mapM (mapM replace_image) c) as [m|] eqn:E2; cbn; [|discriminate]. intros [= <-]. constructor.
    unfold good_in in Gd. cbn in Gd. revert c m E E2 Gd. induction l as [|b l IH]; intros c m E E2 Gd; cbn [map mapM] in *.
    + injection E as <-. injection E2 as <-. constructor.
    + apply Forall_cons_iff in Gd as [G1 G2]. destruct (mapM v_copy (map si_val b)) as [c1|] eqn:E1; cbn [bind] in E; [|discriminate].
      destruct (mapM (mapM v_copy) _) as [c2|] eqn:E3; cbn [bind] in E; [|discriminate]. injection E as <-. cbn [mapM] in E2.
      destruct (mapM replace_image c1) as [n1|] eqn:E4; cbn [bind] in E2; [|discriminate]. destruct (mapM (mapM replace_image) c2) as [n2|] eqn:E5; cbn [bind] in E2; [|discriminate].
      injection E2 as <-. constructor; [eapply L; eauto|eapply IH; eauto].
Qed.
Lemma noise_obs_ok use obs rng rng' n nobs : good_in obs -> noise_observations W normal use obs rng = (rng', n) ->
  (let* n := n in map_cont (rotate_val 1) n) = Ok nobs -> cont_rel (noise_of use) obs nobs.
Proof.
  intros Gd H R. destruct n as [n|]; cbn [bind] in R; [|discriminate].
  assert (X : cont_rel (fun o n => noise_image_of W normal use o n /\ sound n) obs n).
  { unfold noise_observations in H. destruct use.
    - injection H as _ H. apply replaced_cont; auto.
    - destruct (simulate_obs W normal (GOne GINone) (sim_args obs) sim_default rng) as [r1 [r|]] eqn:E; cbn in H; [|discriminate].
      injection H as _ <-. eapply simulated_cont; eauto. }
  destruct X as [o m [X1 X2]|l l' X|l l' X]; cbn [map_cont] in R.
  - destruct (rotate_val 1 m) as [m'|] eqn:E; [|discriminate]. injection R as <-. constructor. eapply rotate_noise; eauto.
  - destruct (mapM (rotate_val 1) l') as [m'|] eqn:E; [|discriminate]. injection R as <-. constructor. apply mapM_F2 in E.
    clear Gd H. revert m' E. induction X as [|o m l l' [X1 X2] X IH]; intros m' E; inversion E; subst; constructor; [eapply rotate_noise; eauto|auto].
  - destruct (mapM (mapM (rotate_val 1)) l') as [m'|] eqn:E; [|discriminate]. injection R as <-. constructor. apply mapM_F2 in E.
    clear Gd H. revert m' E. induction X as [|b mb l l' Xb X IH]; intros m' E; inversion E as [|? y ? m2 E1 E2]; subst; constructor; [|auto].
    apply mapM_F2 in E1. clear -Xb E1. revert y E1. induction Xb as [|o m b mb [X1 X2] X IH]; intros y E; inversion E; subst; constructor; [eapply rotate_noise; eauto|auto].
Qed.
Lemma noise_good use obs nobs : cont_rel (noise_of use) obs nobs -> good_cont nobs.
Proof.
  intros [o n [S _]|l l' H|l l' H]; cbn; [auto| |].
  - induction H as [|? ? ? ? [S _]]; constructor; auto.
  - induction H as [|b nb l l' Hb]; constructor; auto. clear -Hb. induction Hb as [|? ? ? ? [S _]]; constructor; auto.
Qed.
Lemma fixnoise_ok use obs s s' obs' d K : fixnoise G fstr W normal admom maxlike psf step use obs s = (s', (obs', Ok d)) -> good_in obs -> wants s K ->
  wants s' K /\ filled K (fun k x => cont_rel (with_noise G W normal psf step use k) obs x) d.
Proof.
  unfold fixnoise. destruct s as [types rng]. intros H Gd Wn.
  destruct (noise_observations W normal use obs rng) as [r1 n] eqn:En. destruct (let* n := n in _) as [nobs|] eqn:Er; [|discriminate].
  pose proof (noise_obs_ok _ _ _ _ _ _ Gd En Er) as No.
  destruct (get_all_metacal_ psf step (vals obs) (types, r1)) as [s2 [o2 [d0|]]] eqn:E1; [|discriminate].
  destruct (get_all_metacal_ psf step nobs s2) as [s3 [o3 nr]] eqn:E2. injection H as <- <- H.
  destruct (all_ok _ _ _ _ _ K E1 Gd Wn) as [W2 F1].
  destruct nr as [nd|]; cbn [bind] in H; [|discriminate].
  destruct (all_ok _ _ _ _ _ K E2 (noise_good _ _ _ No) W2) as [W3 F2]. split; [auto|].
  destruct d0 as [d0|]; [|discriminate].
  assert (Hd : (d0 = [] /\ d = []) \/ exists nd0, nd = Some nd0 /\ fix_types G d0 nd0 = Ok d).
  { destruct d0 as [|a d0]; [injection H as <-; auto|]. destruct nd as [nd|]; [right; eauto|discriminate]. }
  clear H. destruct F1 as (N1 & I1 & C1). destruct Hd as [[-> ->]|(nd0 & -> & Hf)].
  - split; [constructor|]. split; [exact I1|discriminate].
  - destruct F2 as (N2 & I2 & C2). destruct (fix_types_ok _ _ _ Hf) as [Kk Kc]. split; [rewrite Kk; auto|]. split; [intros k; rewrite Kk; auto|].
    intros k f Hk. destruct (Kc k f Hk) as (x & n0 & n1 & A1 & A2 & A3 & A4). eapply fix_cont; eauto.
Qed.

(** ---- the result for all containers ---- *)
Notation get_all_metacal := (get_all_metacal G fstr W normal admom maxlike).
Lemma sound_good obs : sound_input obs -> good_in obs.
Proof.
  destruct obs; unfold good_in; cbn; auto; intros H; rewrite Forall_map; auto.
  eapply Forall_impl; [|exact H]. intros a Ha. rewrite Forall_map. exact Ha.
Qed.
Lemma rel_vals (Q : obsval -> mout -> Prop) obs x : cont_rel Q (vals obs) x -> cont_rel (fun o => Q (si_val o)) obs x.
Proof.
  assert (U : forall l' xs, Forall2 Q (map si_val l') xs -> Forall2 (fun o x => Q (si_val o) x) l' xs).
  { induction l' as [|a l' IH]; intros xs H; inversion H; subst; constructor; auto. }
  intros H. destruct obs as [o|l|l|]; cbn [vals] in H; inversion H; subst; constructor; auto.
  clear H. revert l' H1. induction l as [|b l IH]; cbn; intros xs H; inversion H; subst; constructor; auto.
Qed.
Theorem all_metacal fix_noise use obs types rng s' obs' d :
  get_all_metacal psf step fix_noise use obs (types, rng) = (s', (obs', Ok (Some d))) -> sound_input obs ->
  NoDup (keys d) /\ (forall k, In k (keys d) <-> returned (requested (all_types G psf) types) k) /\
  forall k x, sget d k = Some x ->
    cont_rel (if fix_noise then with_noise G W normal psf step use k else fun o => made_from G W normal psf step k (si_val o)) obs x.
Proof.
  intros H S. apply sound_good in S. unfold Metacal_Model.get_all_metacal in H.
  assert (Wn : wants (types, rng) (returned (requested (all_types G psf) types))) by (intros k; reflexivity).
  destruct fix_noise.
  - destruct (fixnoise G fstr W normal admom maxlike psf step use obs (types, rng)) as [s1 [o1 [d1|]]] eqn:E; cbn in H; [|discriminate].
    injection H as <- <- <-. apply (fixnoise_ok _ _ _ _ _ _ _ E S Wn).
  - destruct (all_ok _ _ _ _ _ _ H S Wn) as [_ (N & I & C)]. split; [auto|]. split; [auto|]. intros k x Hx. apply rel_vals, C, Hx.
Qed.

(** ---- validity of the request ---- *)
Definition valid (s : gstate W) : Prop := forall t, In t (requested (all_types G psf) (fst s)) -> In t (all_types G psf).
Lemma make_allowed v p rng rng' v' m : make_metacal v p rng = (rng', v', Ok m) -> allowed_types G m = all_types G p.
Proof.
  unfold Metacal_Model.make_metacal. destruct (set_data G v) as [dd|]; [|discriminate].
  destruct p; try (destruct (setup_psf_noise W normal _ rng) as [r1 [n|]]; [|discriminate]).
  - intros [= _ _ <-]. reflexivity.
  - destruct r1; [|discriminate]. destruct (do_psf_fit _ _ _ _ _ _ _) as [[w' p'] [k|]]; cbn [bind]; [|discriminate]. intros [= _ _ <-]. reflexivity.
  - intros [= _ _ <-]. reflexivity.
  - intros [= _ _ <-]. reflexivity.
  - discriminate.
Qed.
Lemma one_valid v s s' v' d : metacal_one psf step v s = (s', (v', Ok d)) -> valid s.
Proof.
  unfold Metacal_Model.metacal_one. destruct s as [types rng]. intros H.
  destruct (make_metacal v psf rng) as [[r1 v1] [m|]] eqn:E; [|discriminate].
  destruct (get_all G fstr m step types []) as [t' [c' r]] eqn:Ea. injection H as <- <- ->.
  destruct (get_all_inv _ _ _ _ _ _ _ _ _ Ea) as [V _]. rewrite (make_allowed _ _ _ _ _ _ E) in V. exact V.
Qed.
Lemma all_valid obs s s' obs' d : get_all_metacal_ psf step obs s = (s', (obs', Ok (Some d))) -> valid s.
Proof.
  intros H. destruct obs as [v|l|l|]; cbn [Metacal_Model.get_all_metacal_] in H; [| | |discriminate].
  - destruct (metacal_one psf step v s) as [s1 [v1 [r1|]]] eqn:E; [|discriminate]. eapply one_valid; eauto.
  - destruct l as [|v l]; cbn [Metacal_Model.metacal_list] in H; [discriminate|].
    destruct (metacal_one psf step v s) as [s1 [v1 [r1|]]] eqn:E; [|discriminate]. eapply one_valid; eauto.
  - destruct l as [|[|v b] l]; cbn [Metacal_Model.metacal_mb Metacal_Model.metacal_list] in H; [discriminate|discriminate|].
    destruct (metacal_one psf step v s) as [s1 [v1 [r1|]]] eqn:E; [|discriminate]. eapply one_valid; eauto.
Qed.
Theorem unknown_rejected fix_noise use obs types rng s' obs' r t :
  get_all_metacal psf step fix_noise use obs (types, rng) = (s', (obs', r)) ->
  In t (requested (all_types G psf) types) -> ~ In t (all_types G psf) -> forall d, r <> Ok (Some d).
Proof.
  intros H I N d ->. apply N. revert t I N. unfold Metacal_Model.get_all_metacal in H. destruct fix_noise.
  - unfold fixnoise in H. destruct (noise_observations W normal use obs rng) as [r1 n]. destruct (let* n := n in _) as [nobs|]; [|discriminate].
    destruct (get_all_metacal_ psf step (vals obs) (types, r1)) as [s2 [o2 [d0|]]] eqn:E1; [|discriminate].
    destruct (get_all_metacal_ psf step nobs s2) as [s3 [o3 nr]] eqn:E2.
    destruct d0 as [d0|]; [|destruct nr; discriminate]. intros t I _. apply (all_valid _ _ _ _ _ E1 t I).
  - intros t I _. apply (all_valid _ _ _ _ _ H t I).
Qed.

(** ---- the caller's list ---- *)
Lemma one_same v s s' r : metacal_one psf step v s = (s', r) -> paired (requested (all_types G psf) (fst s)) -> fst s' = fst s.
Proof.
  unfold Metacal_Model.metacal_one. destruct s as [types rng]. intros H Pr.
  destruct (make_metacal v psf rng) as [[r1 v1] [m|]] eqn:E; [|injection H as <- _; reflexivity].
  destruct (get_all G fstr m step types []) as [t' [c' r']] eqn:Ea. injection H as <- _.
  rewrite <- (make_allowed _ _ _ _ _ _ E) in Pr. apply (get_all_list_same _ _ _ _ _ _ _ _ Ea Pr).
Qed.
Lemma list_same l : forall od s s' r, metacal_list psf step l od s = (s', r) -> paired (requested (all_types G psf) (fst s)) -> fst s' = fst s.
Proof.
  induction l as [|v l IH]; intros od s s' r H Pr; cbn [Metacal_Model.metacal_list] in H; [injection H as <- _; reflexivity|].
  destruct (metacal_one psf step v s) as [s1 [v1 r1]] eqn:E. pose proof (one_same _ _ _ _ E Pr) as E1.
  destruct (let* td := r1 in _) as [od1|]; [|injection H as <- _; exact E1].
  destruct (metacal_list psf step l (Some od1) s1) as [s2 [l2 r2]] eqn:El. injection H as <- _.
  rewrite (IH _ _ _ _ El); [exact E1|rewrite E1; exact Pr].
Qed.
Lemma mb_same l : forall od s s' r, metacal_mb psf step l od s = (s', r) -> paired (requested (all_types G psf) (fst s)) -> fst s' = fst s.
Proof.
  induction l as [|v l IH]; intros od s s' r H Pr; cbn [Metacal_Model.metacal_mb] in H; [injection H as <- _; reflexivity|].
  destruct (metacal_list psf step v None s) as [s1 [v1 r1]] eqn:E. pose proof (list_same _ _ _ _ _ E Pr) as E1.
  destruct (let* td := r1 in _) as [od1|]; [|injection H as <- _; exact E1].
  destruct (metacal_mb psf step l (Some od1) s1) as [s2 [l2 r2]] eqn:El. injection H as <- _.
  rewrite (IH _ _ _ _ El); [exact E1|rewrite E1; exact Pr].
Qed.
Lemma all_same obs s s' r : get_all_metacal_ psf step obs s = (s', r) -> paired (requested (all_types G psf) (fst s)) -> fst s' = fst s.
Proof.
  intros H Pr. destruct obs as [v|l|l|]; cbn [Metacal_Model.get_all_metacal_] in H.
  - destruct (metacal_one psf step v s) as [s1 [v1 r1]] eqn:E. injection H as <- _. eapply one_same; eauto.
  - destruct (metacal_list psf step l None s) as [s1 [v1 r1]] eqn:E. injection H as <- _. eapply list_same; eauto.
  - destruct (metacal_mb psf step l None s) as [s1 [v1 r1]] eqn:E. injection H as <- _. eapply mb_same; eauto.
  - injection H as <- _. reflexivity.
Qed.
Theorem list_unchanged fix_noise use obs types rng types' rng' r :
  get_all_metacal psf step fix_noise use obs (types, rng) = ((types', rng'), r) ->
  paired (requested (all_types G psf) types) -> types' = types.
Proof.
  intros H Pr. unfold Metacal_Model.get_all_metacal in H. destruct fix_noise.
  - unfold fixnoise in H. destruct (noise_observations W normal use obs rng) as [r1 n].
    destruct (let* n := n in _) as [nobs|]; [|cbn in H; injection H as <- _ _; reflexivity].
    destruct (get_all_metacal_ psf step (vals obs) (types, r1)) as [s2 [o2 d0]] eqn:E1.
    pose proof (all_same _ _ _ _ E1 Pr) as X1. cbn [fst] in X1.
    destruct d0 as [d0|]; [|cbn in H; injection H as -> _; exact X1].
    destruct (get_all_metacal_ psf step nobs s2) as [s3 [o3 nr]] eqn:E2. injection H as -> _.
    rewrite <- X1. apply (all_same _ _ _ _ E2). rewrite X1. exact Pr.
  - apply (all_same _ _ _ _ H Pr).
Qed.

(** ---- without observations ---- *)
Theorem no_observation fix_noise use obs types rng s' obs' r :
  get_all_metacal psf step fix_noise use obs (types, rng) = (s', (obs', r)) -> no_observations obs ->
  r = if fix_noise then Raise TypeError else Ok None.
Proof.
  intros H N. unfold Metacal_Model.get_all_metacal in H. destruct fix_noise; destruct N as [->| ->]; cbn in H.
  - destruct use; cbn in H; injection H as _ _ <-; reflexivity.
  - destruct use; cbn in H; injection H as _ _ <-; reflexivity.
  - injection H as _ _ <-. reflexivity.
  - injection H as _ _ <-. reflexivity.
Qed.

(** ---- bootstrap ---- *)
Section Boot.
Variables (B rslt : Type).
Variable bootstrap : B -> cont mout -> B * cont mout * res rslt.
Lemma boot_types_ok d b b' rd od : boot_types G B rslt bootstrap d b = (b', Ok (rd, od)) ->
  keys rd = keys d /\ keys od = keys d /\
  forall k x, sget d k = Some x -> exists b1 b2 o r, bootstrap b1 x = (b2, o, Ok r) /\ sget rd k = Some r /\ sget od k = Some o.
Proof.
  revert b b' rd od. induction d as [|[k x] d IH]; intros b b' rd od H; cbn [boot_types] in H.
  - injection H as <- <- <-. repeat split; auto. discriminate.
  - destruct (bootstrap b x) as [[b1 o1] [r|]] eqn:E; [|discriminate].
    destruct (boot_types G B rslt bootstrap d b1) as [b2 [[rd2 od2]|]] eqn:Et; cbn [bind] in H; [|discriminate]. injection H as <- <- <-.
    destruct (IH _ _ _ _ Et) as (K1 & K2 & K3). split; [cbn; f_equal; exact K1|]. split; [cbn; f_equal; exact K2|].
    intros k' x'. cbn [sget]. destruct (String.eqb_spec k' k) as [->|Nk]; [|apply K3]. intros [= <-]. eauto 10.
Qed.
Theorem bootstrap_ok fix_noise use obs types rng b s' b' obs' rd od :
  metacal_bootstrap G fstr W normal admom maxlike B rslt bootstrap psf step fix_noise use obs (types, rng) b = (s', b', (obs', Ok (rd, od))) ->
  sound_input obs ->
  NoDup (keys rd) /\ keys od = keys rd /\ (forall k, In k (keys rd) <-> returned (requested (all_types G psf) types) k) /\
  forall k r, sget rd k = Some r -> exists x b1 b2 o,
    cont_rel (if fix_noise then with_noise G W normal psf step use k else fun o => made_from G W normal psf step k (si_val o)) obs x /\
    bootstrap b1 x = (b2, o, Ok r) /\ sget od k = Some o.
Proof.
  intros H S. unfold metacal_bootstrap in H. destruct (get_all_metacal psf step fix_noise use obs (types, rng)) as [s1 [o1 [[d|]|]]] eqn:E; try discriminate.
  destruct (boot_types G B rslt bootstrap d b) as [b1 r1] eqn:Eb. injection H as <- <- <- ->.
  destruct (boot_types_ok _ _ _ _ _ Eb) as (K1 & K2 & K3). destruct (all_metacal _ _ _ _ _ _ _ _ E S) as (N & I & C).
  split; [rewrite K1; auto|]. split; [congruence|]. split; [intros k; rewrite K1; auto|].
  intros k r Hk. assert (Hin : In k (keys d)) by (rewrite <- K1; apply sget_in; eauto). apply sget_in in Hin as [x Hx].
  destruct (K3 k x Hx) as (c1 & c2 & o & r' & A1 & A2 & A3). rewrite A2 in Hk. injection Hk as <-. exists x, c1, c2, o. auto.
Qed.
Theorem bootstrap_empty fix_noise use obs types rng b s' b' obs' r :
  metacal_bootstrap G fstr W normal admom maxlike B rslt bootstrap psf step fix_noise use obs (types, rng) b = (s', b', (obs', r)) ->
  no_observations obs -> r = Raise (if fix_noise then TypeError else AttributeError).
Proof.
  intros H N. unfold metacal_bootstrap in H. destruct (get_all_metacal psf step fix_noise use obs (types, rng)) as [s1 [o1 x]] eqn:E.
  rewrite (no_observation _ _ _ _ _ _ _ _ E N) in H. destruct fix_noise; injection H as _ _ _ <-; reflexivity.
Qed.
End Boot.

(** ---- the weights ---- *)
Lemma new_data_fields a im w j : v_image (new_data a im w j) = im /\ v_weight (new_data a im w j) = w /\ v_jac (new_data a im w j) = j.
Proof. destruct a. repeat split; reflexivity. Qed.
Lemma made_weight k v o : made_from G W normal psf step k v o -> v_weight (mo_val G o) = v_weight v.
Proof.
  intros (m & (p & ii & _ & _ & _ & _ & _ & _ & E & _) & (b & g1 & g2 & pim & q & im & _ & _ & _ & -> & _)).
  rewrite (proj1 (proj2 (new_image_fields _ _ _))), E. apply (new_image_fields _ _ _).
Qed.
Theorem weights_halved use k o f : with_noise G W normal psf step use k o f ->
  same_dims (v_weight (mo_val G f)) (v_weight (si_val o)) /\
  forall r c, inside (v_weight (mo_val G f)) r c -> at2 (v_weight (mo_val G f)) r c = at2 (v_weight (si_val o)) r c / 2.
Proof.
  intros (noise & rot & x & n & N1 & _ & N3 & M1 & M2 & (back & _ & _ & _ & im & w & E & D1 & D2 & _ & Hw)).
  rewrite E. destruct (new_data_fields (mo_val G x) im w (v_jac (mo_val G x))) as (_ & -> & _).
  rewrite (made_weight _ _ _ M1) in D2. split; [exact D2|]. intros r c I. specialize (Hw r c I). cbv zeta in Hw.
  rewrite (made_weight _ _ _ M1), (made_weight _ _ _ M2) in Hw. rewrite N3 in Hw.
  rewrite (proj1 (proj2 (new_image_fields _ _ _))) in Hw. destruct N1 as (_ & _ & N1 & _). rewrite N1 in Hw.
  destruct Hw as [H1 H2]. destruct (Req_dec (at2 (v_weight (si_val o)) r c) 0) as [Z|Z].
  - rewrite H2 by auto. rewrite Z. lra.
  - destruct (H1 Z Z) as [_ ->]. field. auto.
Qed.
End Request.
End Cont.
