(** Violations, and cases that meet the hypotheses, for the priors. *)
From Coq Require Import ClassicalEpsilon.
From Verif Require Import Base XReal Pixels_Model Priors_Model Priors_Spec Priors_Proofs
  Joint_Model Joint_Spec Joint_Proofs PriorSample_Model PriorSample_Spec PriorSample_Proofs.
Local Open Scope R_scope.

(** ** joint sums *)
Lemma xsum_np ls : Forall (fun l => xltb (Fin 0) l = false) ls -> xltb (Fin 0) (xsum ls) = false.
Proof.
  unfold xsum. assert (K : forall a, xltb (Fin 0) a = false -> Forall (fun l => xltb (Fin 0) l = false) ls ->
    xltb (Fin 0) (fold_left xadd ls a) = false).
  { induction ls as [|l ls IH]; intros a Ha H; [exact Ha|]. inversion H; subst. cbn [fold_left]. apply IH; [|assumption].
    apply xadd_np; assumption. }
  intros H. apply K; [|exact H]. cbn. apply Rltb_f. lra.
Qed.
Lemma joint_np cen g ps f : cen_made cen -> never_positive2 (p2_lnprob g) ->
  Forall (fun p => never_positive (p1_lnprob p)) ps -> lnprob_spec cen g ps f -> never_positive_pars f.
Proof.
  intros (a & b & s & t & Hc) Hg Hps Hf pars L H. apply Hf in H.
  destruct H as (ls & (x0 & x1 & x2 & x3 & rest & l0 & l1 & l2 & lr & -> & -> & E & Eg & Hl & F2) & ->).
  apply xsum_np. assert (K := cen_encodes a b s t cen x0 x1 Hc). destruct (cen_fdiff cen x0 x1). rewrite E in K.
  constructor; [apply K|]. constructor; [apply K|]. constructor; [exact (Hg _ _ _ Eg)|].
  apply (tail_np ps rest lr Hps). apply tail_ok. split; assumption.
Qed.
Lemma joint_mode cen g ps f a b s t m1 m2 ms : cen_init a b s t = Ok cen ->
  p2_lnprob g (Fin m1) (Fin m2) = Ok (Fin 0) ->
  Forall2 (fun p m => p1_lnprob p (Fin m) = Ok (Fin 0)) ps ms -> lnprob_spec cen g ps f ->
  f (Fin a :: Fin b :: Fin m1 :: Fin m2 :: map Fin ms) = Ok (Fin 0).
Proof.
  intros Hc Hg Hps Hf. apply Hf.
  assert (Ec : cen_lnprob_scalar_sep cen (Fin a) (Fin b) = (Fin 0, Fin 0)).
  { apply cen_init_inv in Hc. destruct Hc as (_ & _ & ->). rewrite cen_sep_quad. cbn [ce_cen1 ce_cen2 ce_s2inv1 ce_s2inv2 xsub xneg xadd]. rewrite !quad_fin. apply f_equal2; f_equal; ring. }
  exists (Fin 0 :: Fin 0 :: Fin 0 :: map (fun _ => Fin 0) ms). split.
  - exists (Fin a), (Fin b), (Fin m1), (Fin m2), (map Fin ms), (Fin 0), (Fin 0), (Fin 0), (map (fun _ => Fin 0) ms).
    repeat split; try assumption.
    + rewrite map_length, (Forall2_length Hps). lia.
    + clear -Hps. induction Hps; cbn; constructor; assumption.
  - clear. unfold xsum. cbn [fold_left xadd].
    assert (K : forall q, fold_left xadd (map (fun _ : R => Fin 0) ms) (Fin q) = Fin q).
    { induction ms as [|m ms IH]; intros q; [reflexivity|]. cbn [map fold_left xadd]. rewrite Rplus_0_r. apply IH. }
    rewrite K. f_equal. ring.
Qed.

(** ** arrays *)
Lemma agrees_array_ok p : (forall vs, Forall (fun v => v <> NaN) vs -> p1_lnprob_array p vs = rmap AArray (mapM (p1_lnprob p) vs)) -> array_ok p.
Proof. intros H vs ls Hv E. left. rewrite H, E by exact Hv. reflexivity. Qed.
Lemma flat_array_ok p : array_ok (flat_obj p).
Proof.
  intros vs ls Hv E. right. cbn in *. unfold flat_lnprob_scalar in E. rewrite mapM_if in E. unfold flat_lnprob_array.
  destruct (existsb (flat_out p) vs); [discriminate|]. injection E as <-. split; [reflexivity|].
  clear. induction vs as [|v vs IH]; cbn; [reflexivity|rewrite IH; reflexivity].
Qed.
Lemma normal_array_ok p : array_ok (normal_obj p).
Proof. apply agrees_array_ok. intros vs _. apply normal_agree. Qed.
Lemma lognormal_array_ok p : array_ok (lognormal_obj p).
Proof. apply agrees_array_ok. intros vs _. apply lognormal_agree. Qed.
Lemma erf_array_ok erf p : erf_like erf -> 0 < te_wmin p -> 0 < te_wmax p -> array_ok (erf_obj erf p).
Proof. intros He H1 H2. apply agrees_array_ok. intros vs Hv. exact (erf_agree erf p He H1 H2 vs Hv). Qed.
Lemma gba_array_ok s A p : gba_init s A = Ok p -> array_ok2 (gba_obj p).
Proof.
  intros H vs ls Hv E. cbn [gba_obj p2_lnprob p2_lnprob_array] in *. rewrite (ba_agree s A p H vs), E; [reflexivity|].
  clear -H Hv E. revert ls E. induction vs as [|[g1 g2] vs IH]; intros ls E; [constructor|]. cbn [mapM fst snd] in E.
  obind E l El. obind E l' El'. inversion Hv as [|? ? [N1 N2] Hv']; subst. cbn [fst snd] in *. constructor; [|exact (IH Hv' l' El')].
  unfold ba_lnprob_scalar2d in El. destruct (gsq_cases g1 g2) as [Q|[Q|(x & y & -> & -> & Q)]]; rewrite Q in El.
  - exfalso. destruct g1 as [x| | |], g2 as [y| | |]; cbn in Q; try discriminate; congruence.
  - cbn in El. discriminate.
  - exists x, y. split; [reflexivity|]. cbn [xsub xneg xadd xleb] in El.
    destruct (Rlt_dec (x * x + y * y) 1) as [K|K]; [exact K|]. rewrite Rleb_t in El by lra. discriminate.
Qed.

(** ** C68: where the array and the scalar evaluators differ *)
Lemma trunc_differs m s a b p : trunc_init m s a b = Ok p -> a <= b ->
  trunc_lnprob_scalar p (Fin a) <> Raise GMixRangeError /\ trunc_lnprob_array p [Fin a] = [NInf] /\
  (forall x, b < x -> trunc_lnprob_scalar p (Fin x) = Raise GMixRangeError /\ trunc_lnprob_array p [Fin x] = [NInf]) /\
  ~ agrees_on finite (trunc_lnprob_scalar p) (fun vs => Ok (AArray (trunc_lnprob_array p vs))).
Proof.
  intros H Hab. apply trunc_init_inv in H. destruct H as [Hs ->].
  assert (S : forall x, a <= x <= b -> trunc_out (mkTrunc m s (1 / s ^ 2) (1 / s) a b) (Fin x) = false).
  { intros x Hx. unfold trunc_out. cbn [xltb tg_min tg_max]. rewrite !Rltb_f by lra. reflexivity. }
  assert (E1 : trunc_lnprob_array (mkTrunc m s (1 / s ^ 2) (1 / s) a b) [Fin a] = [NInf]).
  { cbn [trunc_lnprob_array map xltb tg_min tg_max]. rewrite (Rltb_f a a) by lra. reflexivity. }
  split; [unfold trunc_lnprob_scalar; rewrite S by lra; discriminate|]. split; [exact E1|]. split.
  - intros x Hx. unfold trunc_lnprob_scalar, trunc_out, trunc_lnprob_array. cbn [map xltb tg_min tg_max].
    rewrite (Rltb_f x b) by lra. rewrite (Rltb_t b x) by lra. rewrite orb_true_r, andb_false_r. split; reflexivity.
  - intros K. specialize (K [Fin a] ltac:(constructor; [exists a; reflexivity|constructor])). cbv beta in K. rewrite E1 in K.
    cbn [mapM] in K. unfold trunc_lnprob_scalar in K. rewrite S in K by lra. cbn in K. discriminate.
Qed.
Lemma flat_differs a b x : a <= x <= b ->
  flat_lnprob_array (mkFlat a b) [Fin x; Fin x] = Ok (AScalar (Fin 0)) /\
  ~ agrees_on finite (flat_lnprob_scalar (mkFlat a b)) (flat_lnprob_array (mkFlat a b)).
Proof.
  intros H. assert (E : flat_lnprob_array (mkFlat a b) [Fin x; Fin x] = Ok (AScalar (Fin 0))).
  { unfold flat_lnprob_array, flat_out. cbn [existsb xltb fl_min fl_max]. rewrite !Rltb_f by lra. reflexivity. }
  split; [exact E|]. intros K.
  specialize (K [Fin x; Fin x] ltac:(repeat constructor; eexists; reflexivity)). rewrite E in K.
  destruct (mapM (flat_lnprob_scalar (mkFlat a b)) [Fin x; Fin x]); cbn in K; discriminate.
Qed.
Lemma ba_differs s A p x y : gba_init s A = Ok p -> 1 <= x * x + y * y ->
  ba_lnprob_scalar2d p (Fin x) (Fin y) = Raise GMixRangeError /\ ba_lnprob_array2d p [(Fin x, Fin y)] = [NInf].
Proof.
  intros H Hq. split; [exact (ba_range s A p x y H Hq)|]. unfold ba_lnprob_array2d. cbn [map fst snd].
  rewrite gsq_fin. cbn [xsub xneg xadd xltb]. rewrite Rltb_f by lra. reflexivity.
Qed.
Lemma cen_array_differs p x1 y1 x2 y2 : cen_prob_array p [(x1, y1); (x2, y2)] = Raise TypeError.
Proof. reflexivity. Qed.

(** ** C69 and C94: coellip *)
Lemma coellip_bounds_wrong n cen g T F P : (1 <= n)%nat -> coellip_init n cen g T (FOne F) = Ok P ->
  p1_bounds T <> None \/ p1_bounds F <> None ->
  exists l, ss_bounds (co_base P) = Some l /\ length l = (4 + (n + 1) * n)%nat /\
    (forall k, (4 <= k < length l)%nat -> exists lo hi, nth_error l k = Some (BNested lo hi)) /\
    ~ bounds_spec (coellip_ps n T F) (ss_bounds (co_base P)).
Proof.
  intros Hn H Hb. apply coellip_init_parts in H. destruct H as (_ & _ & _ & _ & _ & _ & E). rewrite E. cbn [fluxes].
  unfold coellip_bounds. set (allp := repeat T n ++ [F]).
  assert (Ex : existsb has_bounds allp = true).
  { apply existsb_exists. destruct Hb as [Hb|Hb].
    - exists T. split; [unfold allp; apply in_or_app; left; destruct n; [lia|left; reflexivity]|].
      unfold has_bounds. destruct (p1_bounds T); [reflexivity|congruence].
    - exists F. split; [unfold allp; apply in_or_app; right; left; reflexivity|].
      unfold has_bounds. destruct (p1_bounds F); [reflexivity|congruence]. }
  rewrite Ex. set (tailb := flat_map _ allp).
  assert (Lt : length tailb = ((n + 1) * n)%nat).
  { unfold tailb. assert (La : length allp = (n + 1)%nat) by (unfold allp; rewrite app_length, repeat_length; reflexivity).
    rewrite <- La. clear. induction allp as [|p l IH]; [reflexivity|]. cbn [flat_map length Nat.mul]. rewrite app_length, repeat_length, IH. reflexivity. }
  assert (Nt : forall k, (k < length tailb)%nat -> exists lo hi, nth_error tailb k = Some (BNested lo hi)).
  { intros k Hk. destruct (nth_error tailb k) as [e|] eqn:Ek; [|apply nth_error_None in Ek; lia].
    apply nth_error_In in Ek. unfold tailb in Ek. apply in_flat_map in Ek. destruct Ek as (p & _ & Ep).
    apply repeat_spec in Ep. subst e. eauto. }
  assert (Nl : forall k, (4 <= k < length (repeat no_bound 4 ++ tailb))%nat -> exists lo hi, nth_error (repeat no_bound 4 ++ tailb) k = Some (BNested lo hi)).
  { intros k Hk. rewrite app_length, repeat_length in Hk. rewrite nth_error_app2 by (rewrite repeat_length; lia).
    apply Nt. rewrite repeat_length. lia. }
  exists (repeat no_bound 4 ++ tailb). split; [reflexivity|]. split; [rewrite app_length, repeat_length, Lt; reflexivity|].
  split; [exact Nl|]. intros (Hl & Hk & _).
  assert (L5 : (4 < length (repeat no_bound 4 ++ tailb))%nat) by (rewrite app_length, repeat_length, Lt; nia).
  destruct (Nl 4%nat ltac:(lia)) as (lo & hi & E4). rewrite (Hk 4%nat L5) in E4. unfold own_bound in E4. cbn [Nat.ltb Nat.leb] in E4.
  destruct (nth_error _ _) as [p|]; [destruct (p1_bounds p) as [[? ?]|]|]; discriminate.
Qed.

Section Coellip.
Variable W : Type.
(** columns changed one after the other by [op old new] *)
Lemma fold_cols (op : R -> R -> R) (S : sampler1 W) n0 base k : forall s w m,
  exists w' m' vs,
    fold_left (fun (st : W * arr2 R) i => let (w, m) := st in let (w, v) := S w n0 in
      (w, mkArr (nrow m) (ncol m) (fun r c => if Nat.eqb c (base + i) then op (at2 m r c) (nth r v 0) else at2 m r c)))
      (seq s k) (w, m) = (w', m') /\
    drawn (repeat S k) w n0 vs w' /\ nrow m' = nrow m /\ ncol m' = ncol m /\
    forall r c, at2 m' r c = if (Nat.leb (base + s) c && Nat.ltb c (base + s + k))%bool
                             then op (at2 m r c) (nth r (nth (c - (base + s)) vs []) 0) else at2 m r c.
Proof.
  induction k as [|k IH]; intros s w m.
  - exists w, m, []. repeat split. intros r c. destruct (Nat.leb _ _) eqn:E1; [|reflexivity]. apply Nat.leb_le in E1.
    replace (Nat.ltb c (base + s + 0)) with false by (symmetry; apply Nat.ltb_ge; lia). reflexivity.
  - cbn [seq fold_left repeat]. destruct (S w n0) as [w1 v] eqn:Ev.
    set (m1 := mkArr _ _ _). destruct (IH (Datatypes.S s) w1 m1) as (w' & m' & vs & E & D & A & B & C).
    exists w', m', (v :: vs). split; [exact E|]. split; [cbn; exists w1; split; assumption|].
    split; [exact A|]. split; [exact B|]. intros r c. rewrite C. unfold m1. cbn [at2].
    destruct (Nat.eqb c (base + s)) eqn:E0.
    + apply Nat.eqb_eq in E0. subst c.
      replace (Nat.leb (base + Datatypes.S s) (base + s)) with false by (symmetry; apply Nat.leb_gt; lia).
      replace (Nat.leb (base + s) (base + s)) with true by (symmetry; apply Nat.leb_le; lia).
      replace (Nat.ltb (base + s) (base + s + Datatypes.S k)) with true by (symmetry; apply Nat.ltb_lt; lia).
      cbn [andb]. rewrite Nat.sub_diag. reflexivity.
    + apply Nat.eqb_neq in E0. destruct (Nat.leb (base + Datatypes.S s) c) eqn:E1.
      * apply Nat.leb_le in E1. replace (Nat.leb (base + s) c) with true by (symmetry; apply Nat.leb_le; lia). cbn [andb].
        replace (base + s + Datatypes.S k)%nat with (base + Datatypes.S s + k)%nat by lia.
        destruct (Nat.ltb c _); [|reflexivity].
        replace (c - (base + s))%nat with (Datatypes.S (c - (base + Datatypes.S s))) by lia. reflexivity.
      * apply Nat.leb_gt in E1. replace (Nat.leb (base + s) c) with false by (symmetry; apply Nat.leb_gt; lia). reflexivity.
Qed.
Lemma coellip_sample_ok (cen g : sampler2 W) T F ng w n : (1 <= ng)%nat ->
  let out := coellip_sample ng cen g T F w n in
  exists w1 c1 c2 w2 g1 g2 t0 ts fs,
    cen w n = (w1, (c1, c2)) /\ g w1 n = (w2, (g1, g2)) /\
    drawn (T :: repeat T ng ++ repeat F ng) w2 n (t0 :: ts ++ fs) (fst out) /\
    nrow (snd out) = n /\ ncol (snd out) = (4 + 2 * ng)%nat /\ length ts = ng /\ length fs = ng /\
    forall r c, (r < n)%nat -> (c < 4 + 2 * ng)%nat ->
      at2 (snd out) r c = nth r (nth c (c1 :: c2 :: g1 :: g2 :: ts ++ fs) []) 0 + (if Nat.eqb c 4 then nth r t0 0 else 0).
Proof.
  intros Hng out. unfold out, coellip_sample. destruct (cen w n) as [w1 [c1 c2]] eqn:Ec. destruct (g w1 n) as [w2 [g1 g2]] eqn:Eg.
  destruct (T w2 n) as [w3 t0] eqn:Et. cbn [fst snd].
  set (m0 := set_col _ 4 t0).
  destruct (fold_cols Rplus T n 4 ng 0 w3 m0) as (w4 & m1 & ts & E1 & D1 & A1 & B1 & C1).
  unfold add_col. rewrite E1. clear E1.
  destruct (fold_cols (fun _ v => v) F n (4 + ng) ng 0 w4 m1) as (w5 & m2 & fs & E2 & D2 & A2 & B2 & C2).
  unfold set_col. rewrite E2. clear E2. cbn [fst snd].
  assert (L1 := drawn_length _ _ _ _ _ _ D1). assert (L2 := drawn_length _ _ _ _ _ _ D2). rewrite repeat_length in L1, L2.
  exists w1, c1, c2, w2, g1, g2, t0, ts, fs. split; [reflexivity|]. split; [exact Eg|].
  split; [exists w3; split; [exact Et|exact (drawn_app _ _ _ _ _ _ _ _ _ D1 D2)]|].
  split; [rewrite A2, A1; reflexivity|]. split; [rewrite B2, B1; cbn; lia|]. split; [exact L1|]. split; [exact L2|].
  intros r c Hr Hc. rewrite C2. rewrite !Nat.add_0_r.
  destruct (Nat.leb (4 + ng) c) eqn:E1.
  - apply Nat.leb_le in E1. replace (Nat.ltb c (4 + ng + ng)) with true by (symmetry; apply Nat.ltb_lt; lia). cbn [andb].
    replace (Nat.eqb c 4) with false by (symmetry; apply Nat.eqb_neq; lia). rewrite Rplus_0_r.
    do 4 (destruct c as [|c]; [lia|]). cbn [nth]. rewrite app_nth2 by lia. f_equal. f_equal. lia.
  - apply Nat.leb_gt in E1. cbn [andb]. rewrite C1. unfold m0, set_col. cbn [at2 zeros2].
    destruct (Nat.leb (4 + 0) c) eqn:E4.
    + apply Nat.leb_le in E4. replace (Nat.ltb c (4 + 0 + ng)) with true by (symmetry; apply Nat.ltb_lt; lia). cbn [andb].
      do 4 (destruct c as [|c]; [lia|]). replace (S (S (S (S c))) - (4 + 0))%nat with c by lia.
      cbn [nth Nat.eqb]. rewrite app_nth1 by lia.
      destruct (Nat.eqb c 0); ring.
    + apply Nat.leb_gt in E4. do 4 (destruct c as [|c]; [cbn; ring|]). lia.
Qed.
End Coellip.

(** ** a concrete joint prior *)
Definition the_cen : cenprior := mkCen 0 0 1 1 (1 / 1) (1 / 1) (1 / 1 ^ 2) (1 / 1 ^ 2).
Definition the_normal : normal := mkNormal 0 1 (1 / 1) (1 / 1 ^ 2) (Some (0, 1)).
Definition the_ba : gba := mkBA 1 1 (1 / 1 ^ 2).
Lemma the_cen_made : cen_init 0 0 1 1 = Ok the_cen.
Proof. unfold cen_init, py_inv. rewrite !Reqb_f by lra. reflexivity. Qed.
Lemma the_normal_made : normal_init 0 1 (Some (0, 1)) = Ok the_normal.
Proof. unfold normal_init, py_inv. rewrite !Reqb_f by lra. reflexivity. Qed.
Lemma the_ba_made : gba_init 1 1 = Ok the_ba.
Proof. unfold gba_init, py_inv. rewrite !Reqb_f by lra. reflexivity. Qed.
Definition the_coellip : coellip :=
  mkCo 2 8 (mkSS the_cen (gba_obj the_ba) (normal_obj the_normal) [normal_obj the_normal]
              (coellip_bounds 2 (normal_obj the_normal) [normal_obj the_normal])).
Lemma the_coellip_made :
  coellip_init 2 the_cen (gba_obj the_ba) (normal_obj the_normal) (FOne (normal_obj the_normal)) = Ok the_coellip.
Proof. reflexivity. Qed.
(** all parameters at their modes but the flux of the second gaussian *)
Definition the_point : list xr := [Fin 0; Fin 0; Fin 0; Fin 0; Fin 0; Fin 0; Fin 0; Fin 1].
Definition the_points : arr2 xr := mkArr 1 8 (fun _ c => nth c the_point NaN).
Lemma ba_zero : ba_lnprob_scalar2d the_ba (Fin 0) (Fin 0) = Ok (Fin 0).
Proof. apply (ba_peak 1 1 the_ba the_ba_made). Qed.
Lemma normal_at x : normal_lnprob the_normal (Fin x) = Fin (- x ^ 2 / 2).
Proof. cbn. f_equal. field. Qed.
Lemma cen_zero : cen_lnprob_scalar the_cen (Fin 0) (Fin 0) = Fin 0.
Proof. cbn. f_equal. field. Qed.
Lemma the_scalar : coellip_lnprob the_coellip the_point = Ok (Fin (- (1 / 2))).
Proof.
  unfold coellip_lnprob, add_terms, the_point.
  cbn [the_coellip co_base co_npars co_ngauss ss_cen ss_g ss_T ss_F first_F length Nat.eqb negb map seq app mapM on1 on2 item nth_error bind
       gba_obj normal_obj p1_lnprob p2_lnprob Nat.add].
  rewrite cen_zero, ba_zero, !normal_at. cbn [bind fold_left xadd]. do 2 f_equal. field.
Qed.
Lemma the_array : coellip_lnprob_array the_coellip the_points = Ok (AArray [Fin 0]).
Proof.
  unfold coellip_lnprob_array, simple_lnprob_array, the_coellip, add_arrays. cbn [co_base ss_cen ss_g ss_T ss_F app].
  rewrite !enum_cons, enum_nil.
  assert (C : forall i, (i < 7)%nat -> column the_points i = Ok [Fin 0]).
  { intros i Hi. do 7 (destruct i as [|i]; [reflexivity|]). lia. }
  unfold on2a, on1a. rewrite !C by lia. cbn [bind combine cen_lnprob_array map fst snd foldM].
  rewrite cen_zero. cbn [gba_obj p2_lnprob_array bind].
  assert (G : ba_lnprob_array2d the_ba [(Fin 0, Fin 0)] = [Fin 0]).
  { assert (K := ba_agree 1 1 the_ba the_ba_made [(Fin 0, Fin 0)]
        ltac:(constructor; [exists 0, 0; split; [reflexivity|lra]|constructor])).
    cbn [mapM fst snd] in K. rewrite ba_zero in K. cbn [bind rmap] in K. set (l := ba_lnprob_array2d _ _) in *. clearbody l.
    injection K as K. exact K. }
  rewrite G. cbn [bind normal_obj p1_lnprob_array normal_lnprob_array map]. rewrite !normal_at.
  cbn [aadd length Nat.eqb combine map fst snd xadd bind]. do 4 f_equal. field.
Qed.
Lemma coellip_array_wrong : exists n cen g T F P, coellip_init n cen g T F = Ok P /\ array_ok2 g /\ array_ok T /\
  Forall array_ok (fluxes F) /\ ~ rows_spec (coellip_lnprob P) (coellip_lnprob_array P).
Proof.
  exists 2%nat, the_cen, (gba_obj the_ba), (normal_obj the_normal), (FOne (normal_obj the_normal)), the_coellip.
  split; [exact the_coellip_made|]. split; [exact (gba_array_ok 1 1 the_ba the_ba_made)|].
  split; [apply normal_array_ok|]. split; [constructor; [apply normal_array_ok|constructor]|].
  intros H. specialize (H the_points [Fin (- (1 / 2))]).
  assert (R : row the_points 0 = the_point) by reflexivity.
  assert (N : coellip_lnprob_array the_coellip the_points = Ok (AArray [Fin (- (1 / 2))])).
  { apply H.
    - intros r c Hr Hc. cbn in Hr, Hc. cbn [the_points at2]. do 8 (destruct c as [|c]; [discriminate|]). lia.
    - cbn [the_points nrow seq mapM]. change (row _ 0) with the_point. rewrite the_scalar. reflexivity.
    - cbn. lia. }
  rewrite the_array in N. injection N. lra.
Qed.
Lemma coellip_sample_wrong : exists ng (cen g : sampler2 unit) T F w n, (1 <= ng)%nat /\
  ~ sample_spec cen g (repeat T ng ++ repeat F ng) n w (coellip_sample ng cen g T F w n).
Proof.
  exists 1%nat, (fun w n => (w, (repeat 0 n, repeat 0 n))), (fun w n => (w, (repeat 0 n, repeat 0 n))),
    (fun w n => (w, repeat 1 n)), (fun w n => (w, repeat 1 n)), tt, 1%nat.
  split; [lia|]. intros (w1 & c1 & c2 & w2 & g1 & g2 & vs & _ & _ & D & _ & _ & H).
  specialize (H 0%nat 4%nat ltac:(lia) ltac:(cbn; lia)). cbn [nth] in H.
  cbn [repeat app drawn] in D. destruct vs as [|v vs]; [destruct D|]. destruct D as (w3 & [= <- <-] & _).
  cbn in H. lra.
Qed.

(** ** C95: probability and log probability *)
Lemma normal_exp p v : normal_prob p v = xexp (normal_lnprob p v).
Proof. reflexivity. Qed.
Lemma ba_exp s A p x y : gba_init s A = Ok p -> x * x + y * y < 1 ->
  exists l, ba_lnprob_scalar2d p (Fin x) (Fin y) = Ok (Fin l) /\ ba_prob_scalar2d p (Fin x) (Fin y) = Fin (A * exp l).
Proof.
  intros H Hq. assert (D := ba_density s A p x y H Hq). eexists. split; [exact D|].
  apply gba_init_inv in H. destruct H as [Hs ->]. unfold ba_prob_scalar2d. rewrite gsq_fin. cbn [xsub xneg xadd xltb].
  rewrite Rltb_t by lra. cbn [xmul xexp ba_A ba_sig2inv]. f_equal. f_equal.
  assert (Q : 0 <= x * x + y * y) by nra.
  assert (B : 0 < ba_pdf s (sqrt (x * x + y * y))).
  { unfold ba_pdf. rewrite pow2_sqrt by exact Q. apply Rmult_lt_0_compat; [apply pow_lt; lra|apply exp_pos]. }
  rewrite exp_ln by exact B. unfold ba_pdf. rewrite pow2_sqrt by exact Q.
  replace (-1 / 2 * (x * x + y * y) * (1 / s ^ 2)) with (- (x * x + y * y) / (2 * s ^ 2)) by (field; exact Hs). ring.
Qed.
Lemma ba_exp_out s A p x y : gba_init s A = Ok p -> 1 <= x * x + y * y ->
  ba_prob_scalar2d p (Fin x) (Fin y) = Fin 0.
Proof.
  intros H Hq. unfold ba_prob_scalar2d. rewrite gsq_fin. cbn [xsub xneg xadd xltb]. rewrite Rltb_f by lra.
  cbn. f_equal. ring.
Qed.
Lemma erf_exp erf p v : xltb (Fin 0) (erf_prob_scalar erf p v) = true -> erf_like erf ->
  xexp (erf_lnprob_scalar erf p v) = erf_prob_scalar erf p v.
Proof.
  intros H He. unfold erf_lnprob_scalar. destruct (erf_prob_cases erf p v He) as [E|(y & E & Hy)]; rewrite E in *; [discriminate|].
  cbn [xltb xleb] in *. apply Rltb_true in H. rewrite Rleb_f by lra. cbn [xlog]. rewrite Rltb_t by lra. cbn. f_equal. apply exp_ln. exact H.
Qed.
Lemma erf_negative erf : (forall x, erf (- x) = - erf x) -> (forall x y, x < y -> erf x < erf y) ->
  exists p x q, 0 < te_wmin p /\ 0 < te_wmax p /\ te_min p < te_max p /\
    erf_prob_scalar erf p (Fin x) = Fin q /\ q < 0 /\
    xexp (erf_lnprob_scalar erf p (Fin x)) <> erf_prob_scalar erf p (Fin x).
Proof.
  intros Ho Hi. exists (mkErf 0 1 10 10), (-10), (1/2 * erf 2 + 1/2 * erf (-10)).
  cbn [te_wmin te_wmax te_min te_max]. split; [lra|]. split; [lra|]. split; [lra|].
  assert (E : erf_prob_scalar erf (mkErf 0 1 10 10) (Fin (-10)) = Fin (1/2 * erf 2 + 1/2 * erf (-10))).
  { unfold erf_prob_scalar. cbn [te_wmin te_wmax te_min te_max xsub xneg xadd xdiv].
    rewrite !Reqb_f by lra. cbn [xerf xmul xadd].
    replace ((10 + - -10) / 10) with 2 by field. replace ((-10 + - 0) / 1) with (-10) by field. reflexivity. }
  assert (N : 1/2 * erf 2 + 1/2 * erf (-10) < 0).
  { replace (-10) with (- (10)) by ring. rewrite Ho. assert (K := Hi 2 10 ltac:(lra)). lra. }
  split; [exact E|]. split; [exact N|]. unfold erf_lnprob_scalar. rewrite E. cbn [xleb]. rewrite Rleb_t by lra. cbn.
  intros [= K]. lra.
Qed.

(** ** C96: the bound of the rejection sampler *)
Lemma envelope_fresh (min : (R -> xr) -> R -> res R) p gmax g0 s m : finds_min min ->
  envelope min (mkGS p gmax None) g0 = Ok (s, m) ->
  gs_prior s = p /\ forall g y, ba_prob_scalar1d p (Fin g) = Fin y -> y <= m.
Proof.
  intros Hm. unfold envelope, set_maxval1d. cbn [gs_maxval1d gs_prior gs_gmax]. intros H. obind H s' Es. obind Es q Emin.
  injection Es as <-. cbn [gs_maxval1d] in H. injection H as <- <-. split; [reflexivity|].
  intros g y Hy. destruct (Hm _ _ _ Emin) as [_ K]. specialize (K g (- y)). cbv beta in K. rewrite Hy in K. specialize (K eq_refl). lra.
Qed.
Lemma envelope_stale (min : (R -> xr) -> R -> res R) s m g0 A sigma s' : gs_maxval1d s = Some m ->
  set_pars s A sigma = Ok s' -> envelope min s' g0 = Ok (s', m) /\ gs_maxval1d s' = Some m.
Proof.
  intros Hs H. unfold set_pars in H. obind H p Ep. injection H as <-. unfold envelope. cbn [gs_maxval1d]. rewrite Hs. split; reflexivity.
Qed.
Lemma prob1d_scale A B sig p q g y : gba_init sig A = Ok p -> gba_init sig B = Ok q ->
  ba_prob_scalar1d p (Fin g) = Fin y -> ba_prob_scalar1d q (Fin g) = Fin (B * (y / A)) \/ A = 0.
Proof.
  intros Hp Hq. apply gba_init_inv in Hp, Hq. destruct Hp as [Hs ->], Hq as [_ ->]. unfold ba_prob_scalar1d.
  cbn [xmul xsub xneg xadd xltb ba_A ba_sig2inv]. intros H. destruct (Req_dec A 0) as [|HA]; [right; assumption|left].
  destruct (Rltb 0 (1 + - (g * g))); cbn [xmul xexp] in *.
  - set (e := exp _) in *. clearbody e. injection H as <-. f_equal. field. exact HA.
  - injection H as <-. f_equal. field. exact HA.
Qed.
(** the bound kept after set_pars is below the new density *)
Lemma envelope_too_low (min : (R -> xr) -> R -> res R) sig A p gmax g0 s m : finds_min min -> 0 < A ->
  gba_init sig A = Ok p -> envelope min (mkGS p gmax None) g0 = Ok (s, m) -> 0 < m ->
  exists s', set_pars s (2 * A) sig = Ok s' /\ envelope min s' g0 = Ok (s', m) /\
    exists g y, ba_prob_scalar1d (gs_prior s') (Fin g) = Fin y /\ m * (11 / 10) < y.
Proof.
  intros Hm HA Hp He H0. assert (Hp' := Hp). apply gba_init_inv in Hp'. destruct Hp' as [Hs Ep].
  assert (Hq : gba_init sig (2 * A) = Ok (mkBA (2 * A) sig (1 / sig ^ 2))).
  { unfold gba_init, py_inv. rewrite !Reqb_f by (apply pow_nonzero; exact Hs). reflexivity. }
  unfold envelope, set_maxval1d in He. cbn [gs_maxval1d gs_prior gs_gmax] in He. obind He s1 Es. obind Es q Emin.
  injection Es as <-. cbn [gs_maxval1d] in He. injection He as <- <-.
  eexists. split; [unfold set_pars; rewrite Hq; reflexivity|]. split; [reflexivity|]. cbn [gs_prior].
  destruct (Hm _ _ _ Emin) as [(g & Eg) _].
  assert (Ey : ba_prob_scalar1d p (Fin g) = Fin q).
  { cbv beta in Eg. destruct (ba_prob_scalar1d p (Fin g)) as [y| | |]; cbn in Eg; try discriminate. injection Eg as Eg. f_equal. lra. }
  exists g. destruct (prob1d_scale A (2 * A) sig p _ g q Hp Hq Ey) as [K|K]; [|lra].
  eexists. split; [exact K|]. replace (2 * A * (q / A)) with (2 * q) by (field; lra). lra.
Qed.
(** ** C97: what is outside the support *)
Lemma flat_raises a b x : flat_lnprob_scalar (mkFlat a b) (Fin x) = Raise GMixRangeError <-> ~ (a <= x <= b).
Proof.
  unfold flat_lnprob_scalar, flat_out. cbn [xltb fl_min fl_max]. destruct (Rle_dec a x), (Rle_dec x b);
    try (rewrite Rltb_f by lra); try (rewrite Rltb_t by lra); cbn [orb]; try (rewrite Rltb_f by lra); try (rewrite Rltb_t by lra);
    (split; [intros H; try discriminate; lra|intros H; try reflexivity; exfalso; apply H; lra]).
Qed.
Lemma trunc_raises m s a b p x : trunc_init m s a b = Ok p ->
  (trunc_lnprob_scalar p (Fin x) = Raise GMixRangeError <-> ~ (a <= x <= b)).
Proof.
  intros H. apply trunc_init_inv in H. destruct H as [Hs ->]. unfold trunc_lnprob_scalar, trunc_out. cbn [xltb tg_min tg_max].
  destruct (Rle_dec a x), (Rle_dec x b);
    try (rewrite (Rltb_f x a) by lra); try (rewrite (Rltb_t x a) by lra); cbn [orb]; try (rewrite (Rltb_f b x) by lra); try (rewrite (Rltb_t b x) by lra);
    (split; [intros H; try discriminate; lra|intros H; try reflexivity; exfalso; apply H; lra]).
Qed.
Lemma lognormal_raises m s sh p x : lognormal_init m s sh = Ok p ->
  (lognormal_lnprob_scalar p (Fin x) = Raise GMixRangeError <-> x <= shift_of sh).
Proof.
  intros H. unfold lognormal_lnprob_scalar. rewrite (init_shift _ _ _ _ H), apply_shift_fin. cbn [xleb].
  destruct (Rle_dec x (shift_of sh)); [rewrite Rleb_t by lra|rewrite Rleb_f by lra]; split; intros K; try reflexivity; try discriminate; lra.
Qed.
Lemma ba_raises s A p x y : gba_init s A = Ok p ->
  (ba_lnprob_scalar2d p (Fin x) (Fin y) = Raise GMixRangeError <-> 1 <= x ^ 2 + y ^ 2).
Proof.
  intros H. unfold ba_lnprob_scalar2d. rewrite gsq_fin. cbn [xsub xneg xadd xleb].
  destruct (Rle_dec 1 (x * x + y * y)); [rewrite Rleb_t by lra|rewrite Rleb_f by lra]; split; intros K; try reflexivity; try discriminate; lra.
Qed.
Lemma zdisk_raises r x y :
  zdisk_lnprob_scalar2d (zdisk_init r) (Fin x) (Fin y) = Raise GMixRangeError <-> r ^ 2 <= x ^ 2 + y ^ 2.
Proof.
  unfold zdisk_lnprob_scalar2d, xgeb. cbn [xsq xmul xadd xleb zdisk_init zd_radius_sq].
  destruct (Rle_dec (r ^ 2) (x * x + y * y)); [rewrite Rleb_t by lra|rewrite Rleb_f by lra]; split; intros K; try reflexivity; try discriminate; lra.
Qed.
Lemma nan_accepted a b m s p r :
  flat_lnprob_scalar (mkFlat a b) NaN = Ok (Fin 0) /\ flat_fdiff (mkFlat a b) NaN = Ok (Fin 0) /\
  (trunc_init m s a b = Ok p -> trunc_lnprob_scalar p NaN = Ok NaN) /\
  zdisk_lnprob_scalar2d (zdisk_init r) NaN NaN = Ok (Fin 0).
Proof. repeat split. Qed.
(** ** samples have a log probability *)
Lemma trunc_sample_ok {W} (G : rng W) m s a b p : good_rng G -> trunc_init m s a b = Ok p ->
  all_values (fun x => a < x < b /\ exists l, trunc_lnprob_scalar p (Fin x) = Ok l) (trunc_sample G p).
Proof.
  intros HG H fuel w n w' vals E. destruct (trunc_values W G HG p fuel w n w' vals E) as [Hl Hf]. split; [exact Hl|].
  eapply Forall_impl; [|exact Hf]. cbn beta. intros x Hx. assert (K := trunc_raises m s a b p x H).
  apply trunc_init_inv in H. destruct H as [_ ->]. cbn in Hx. split; [exact Hx|].
  unfold trunc_lnprob_scalar in *. destruct (trunc_out _ _); [exfalso|eauto]. apply K; [reflexivity|lra].
Qed.
Lemma g2d_lnprob {W} (G : rng W) s A p gmax maxval fuel w n w' g1 g2 : good_rng G -> gba_init s A = Ok p ->
  1 / 10000 < gmax -> gmax <= 1 -> g2d_sample G (ba_prob_array1d p) gmax maxval fuel w n = Some (w', Ok (g1, g2)) ->
  length g1 = n /\ length g2 = n /\
  forall i, (i < n)%nat -> nth i g1 0 ^ 2 + nth i g2 0 ^ 2 < 1 /\
    exists l, ba_lnprob_scalar2d p (Fin (nth i g1 0)) (Fin (nth i g2 0)) = Ok l.
Proof.
  intros HG Hp H1 H2 E. change (ba_prob_array1d p) with (map (fun g => let gsq := xmul g g in
                let omgsq := xsub (Fin 1) gsq in
                if xltb (Fin 0) omgsq then
                  xmul (xmul (xmul omgsq omgsq) (xexp (xmul (xmul (Fin (-1/2)) gsq) (Fin (ba_sig2inv p)))))
                       (xmul (xmul (xmul (Fin (ba_A p)) (Fin 2)) (Fin PI)) g)
                else Fin 0)) in E.
  destruct (g2d_values W G HG _ gmax maxval H1 H2 fuel w n w' g1 g2 E) as (L1 & L2 & gs & ths & _ & K).
  split; [exact L1|]. split; [exact L2|]. intros i Hi. destruct (K i Hi) as (_ & _ & _ & _ & B). split; [exact B|].
  assert (R := ba_raises s A p (nth i g1 0) (nth i g2 0) Hp). unfold ba_lnprob_scalar2d in *.
  destruct (xleb _ _); [exfalso|eauto]. apply (Rlt_not_le _ _ B). apply R. reflexivity.
Qed.
(** ** C66: priors that have no log probability *)
Lemma no_lnprob p q lo hi v : p1_lnprob (lmbounds_obj p) v = Raise AttributeError /\
  p1_lnprob (sinh_obj q) v = Raise AttributeError /\ p1_fdiff (lmbounds_obj p) v <> Raise AttributeError /\
  p1_fdiff (bounded_obj lo hi) v = Raise AttributeError /\ ~ encodes (lmbounds_obj p) /\ ~ encodes (sinh_obj q).
Proof.
  split; [reflexivity|]. split; [reflexivity|]. split; [discriminate|]. split; [reflexivity|].
  split; intros H; exact (H (Fin 0)).
Qed.
Lemma no_fdiff p : ~ encodes2 (zdisk_obj p).
Proof.
  intros H. specialize (H (Fin 0) (Fin 0)). cbn [zdisk_obj p2_lnprob p2_fdiff] in H. unfold zdisk_lnprob_scalar2d in H.
  destruct (xgeb _ _); cbn in H; [discriminate|exact H].
Qed.

(** ** cases that meet the hypotheses *)
Definition the_rng : rng nat :=
  mkRng nat (fun w a b n => (S w, repeat a n)) (fun w m s n => (S w, repeat (m + s * INR w) n)).
Lemma the_rng_good : good_rng the_rng.
Proof.
  split; [intros; cbn; apply repeat_length|]. split; [intros; cbn; apply repeat_length|].
  intros w a b n H. cbn. apply Forall_forall. intros x Hx. apply repeat_spec in Hx. subst x. lra.
Qed.
Definition the_trunc : trunc := mkTrunc 0 1 (1 / 1 ^ 2) (1 / 1) (1 / 2) 2.
Lemma the_trunc_made : trunc_init 0 1 (1 / 2) 2 = Ok the_trunc.
Proof. unfold trunc_init, py_inv. rewrite !Reqb_f by lra. reflexivity. Qed.
(** two passes: 0 is rejected, then 1 is accepted *)
Lemma the_trunc_run : trunc_sample the_rng the_trunc 5 0%nat 2%nat = Some (2%nat, Ok [1; 1]).
Proof.
  unfold trunc_sample. cbn [loop length repeat Nat.ltb Nat.leb].
  unfold trunc_pass at 1. cbn [the_rng rnormal the_trunc tg_mean tg_sigma tg_min tg_max repeat].
  replace (0 + 1 * INR 0) with 0 by (cbn; ring). unfold masked. cbn [filter].
  rewrite (Rltb_f (1 / 2) 0) by lra. cbn [andb length Nat.ltb Nat.leb].
  unfold trunc_pass at 1. cbn [the_rng rnormal the_trunc tg_mean tg_sigma tg_min tg_max repeat].
  replace (0 + 1 * INR 1) with 1 by (cbn; ring). unfold masked. cbn [filter].
  rewrite (Rltb_t (1 / 2) 1) by lra. rewrite (Rltb_t 1 2) by lra. cbn [andb length Nat.ltb Nat.leb].
  unfold put_slice. cbn [length Nat.add Nat.leb firstn app skipn Nat.sub loop Nat.ltb]. reflexivity.
Qed.

Definition the_density (g : R) : R := (1 - g * g) * (1 - g * g) * exp (-1 / 2 * (g * g) * 1) * (2 * PI * g).
Lemma the_density_1d g : exists y, ba_prob_scalar1d the_ba (Fin g) = Fin y /\
  ((1 - g * g <= 0 /\ y = 0) \/ (0 < 1 - g * g /\ y = the_density g)).
Proof.
  unfold ba_prob_scalar1d, the_ba. cbn [xmul xsub xadd xneg xltb ba_A ba_sig2inv xexp].
  destruct (Rlt_dec 0 (1 + - (g * g))) as [H|H].
  - rewrite Rltb_t by exact H. cbn [xmul]. eexists. split; [reflexivity|]. right. split; [lra|]. unfold the_density.
    replace (1 / 1 ^ 2) with 1 by field. ring.
  - rewrite Rltb_f by lra. cbn [xmul]. eexists. split; [reflexivity|]. left. split; [lra|ring].
Qed.
Lemma the_minimizer : exists min, finds_min min /\ exists s m, envelope min (mkGS the_ba 1 None) 0 = Ok (s, m) /\ 0 < m.
Proof.
  assert (Hpi := PI_RGT_0).
  destruct (continuity_ab_maj the_density 0 1 ltac:(lra)) as (c & Hc & Hr).
  { intros x _. apply derivable_continuous_pt. unfold the_density. reg. }
  set (m := the_density c).
  assert (P : 0 < m).
  { apply Rlt_le_trans with (the_density (1 / 2)); [|apply Hc; lra]. unfold the_density.
    assert (E := exp_pos (-1 / 2 * (1 / 2 * (1 / 2)) * 1)). apply Rmult_lt_0_compat; [|lra]. apply Rmult_lt_0_compat; [lra|exact E]. }
  assert (C : 0 < 1 - c * c).
  { destruct (Req_dec c 1) as [->|Hn]; [|nra]. exfalso. unfold m, the_density in P. nra. }
  set (f0 := fun g => xneg (ba_prob_scalar1d the_ba (Fin g))).
  exists (fun f _ => if excluded_middle_informative (forall g, f g = f0 g) then Ok m else Raise RuntimeError). split.
  - intros f x0 m'. destruct (excluded_middle_informative (forall g, f g = f0 g)) as [H|H]; [|discriminate]. intros [= <-]. split.
    + exists c. rewrite H. unfold f0. destruct (the_density_1d c) as (y & -> & [[? _]|[_ ->]]); [lra|reflexivity].
    + intros g y. rewrite H. unfold f0. destruct (the_density_1d g) as (z & -> & Hz). cbn [xneg]. intros [= <-].
      destruct Hz as [[_ ->]|[Hg ->]]; [lra|]. destruct (Rle_dec 0 g) as [Hp|Hp].
      * apply Ropp_le_contravar. apply Hc. nra.
      * assert (E := exp_pos (-1 / 2 * (g * g) * 1)). assert (the_density g <= 0); [|lra]. unfold the_density.
        assert (0 <= (1 - g * g) * (1 - g * g) * exp (-1 / 2 * (g * g) * 1)) by (apply Rmult_le_pos; nra). 
        assert (2 * PI * g <= 0) by nra. nra.
  - unfold envelope, set_maxval1d. cbn [gs_maxval1d gs_prior gs_gmax].
    destruct (excluded_middle_informative (forall g, xneg (ba_prob_scalar1d the_ba (Fin g)) = f0 g)) as [H|H]; [|exfalso; apply H; reflexivity].
    cbn [bind gs_maxval1d]. eexists _, m. split; [reflexivity|exact P].
Qed.
