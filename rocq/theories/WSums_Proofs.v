From Verif Require Import Base Shape_Model Shape_Spec Moments_Model Moments_Spec Jacobian_Model Pixels_Model Pixels_Proofs
  GMix_Model GMix_Spec GMix_Proofs Render_Model Render_Spec Render_Proofs WSums_Model WSums_Spec.

Lemma fset_same a i x : fset a i x i = x. Proof. unfold fset. rewrite Nat.eqb_refl. reflexivity. Qed.
Lemma fset_other a i x k : k <> i -> fset a i x k = a k.
Proof. intros H. unfold fset. destruct (Nat.eqb_spec k i); congruence. Qed.

Lemma cov_row i F c n : forall cov a,
  (forall l, fold_left (fun cov j => fset2 cov i j (cov i j + c * F i * F j)) (seq a n) cov i l =
     if (Nat.leb a l && Nat.ltb l (a + n))%bool then cov i l + c * F i * F l else cov i l) /\
  (forall k l, k <> i -> fold_left (fun cov j => fset2 cov i j (cov i j + c * F i * F j)) (seq a n) cov k l = cov k l).
Proof.
  induction n as [|n IH]; intros cov a; cbn [seq fold_left].
  - split; intros; [|reflexivity]. destruct (Nat.leb_spec a l), (Nat.ltb_spec l (a+0)); cbn [andb]; reflexivity || lia.
  - destruct (IH (fset2 cov i a (cov i a + c * F i * F a)) (S a)) as [A B]. split.
    + intros l. rewrite A. unfold fset2. rewrite Nat.eqb_refl. cbn [andb].
      destruct (Nat.leb_spec (S a) l), (Nat.ltb_spec l (S a + n)), (Nat.leb_spec a l), (Nat.ltb_spec l (a + S n)),
        (Nat.eqb_spec l a); cbn [andb]; try lia; subst; reflexivity.
    + intros k l H. rewrite B by exact H. unfold fset2. destruct (Nat.eqb_spec k i); [congruence|]. reflexivity.
Qed.

Lemma accumulate_loop N F wdata c n : forall a sums cov,
  (a + n = N)%nat ->
  let r := fold_left (fun sc i =>
        let '(sums, cov) := sc in
        (fset sums i (sums i + wdata * F i),
         fold_left (fun cov j => fset2 cov i j (cov i j + c * F i * F j)) (seq 0 N) cov))
      (seq a n) (sums, cov) in
  (forall k, fst r k = if (Nat.leb a k && Nat.ltb k N)%bool then sums k + wdata * F k else sums k) /\
  (forall k l, snd r k l = if (Nat.leb a k && Nat.ltb k N && Nat.ltb l N)%bool then cov k l + c * F k * F l else cov k l).
Proof.
  induction n as [|n IH]; intros a sums cov HN; cbn [seq fold_left].
  - split; intros; cbn [fst snd]; destruct (Nat.leb_spec a k), (Nat.ltb_spec k N); cbn [andb]; reflexivity || lia.
  - match goal with |- context [fold_left _ (seq (S a) n) (?s, ?c')] => destruct (IH (S a) s c') as [A B]; [lia|] end.
    cbv zeta in A, B. split.
    + intros k. rewrite A. destruct (Nat.eq_dec k a) as [->|Hk].
      * rewrite fset_same. destruct (Nat.leb_spec (S a) a), (Nat.leb_spec a a), (Nat.ltb_spec a N); cbn [andb]; try lia; reflexivity.
      * rewrite fset_other by exact Hk. destruct (Nat.leb_spec (S a) k), (Nat.leb_spec a k), (Nat.ltb_spec k N); cbn [andb]; try lia; reflexivity.
    + intros k l. rewrite B. destruct (cov_row a F c N cov 0) as [P Q]. cbn [Nat.leb Nat.add andb] in P. destruct (Nat.eq_dec k a) as [->|Hk].
      * rewrite P. destruct (Nat.leb_spec (S a) a), (Nat.leb_spec a a), (Nat.ltb_spec a N); cbn [andb]; try lia; reflexivity.
      * rewrite Q by exact Hk. destruct (Nat.leb_spec (S a) k), (Nat.leb_spec a k), (Nat.ltb_spec k N); cbn [andb]; try lia; reflexivity.
Qed.

Lemma accumulate_spec N F weight wdata w2 var s :
  let r := accumulate N F weight wdata w2 var s in
  ws_npix r = S (ws_npix s) /\ ws_wsum r = ws_wsum s + weight /\
  (forall k, (k < N)%nat -> ws_sums r k = ws_sums s k + wdata * F k) /\
  (forall k l, (k < N)%nat -> (l < N)%nat -> ws_cov r k l = ws_cov s k l + w2 * var * F k * F l).
Proof.
  unfold accumulate. destruct (accumulate_loop N F wdata (w2 * var) N 0 (ws_sums s) (ws_cov s) ltac:(lia)) as [A B].
  destruct (fold_left _ (seq 0 N) (ws_sums s, ws_cov s)) as [sums cov]. cbn [fst snd] in A, B. cbn [ws_npix ws_wsum ws_sums ws_cov].
  split; [reflexivity|]. split; [reflexivity|]. split.
  - intros k Hk. rewrite A. destruct (Nat.leb_spec 0 k), (Nat.ltb_spec k N); cbn [andb]; reflexivity || lia.
  - intros k l Hk Hl. rewrite B. destruct (Nat.leb_spec 0 k), (Nat.ltb_spec k N), (Nat.ltb_spec l N); cbn [andb]; reflexivity || lia.
Qed.

Lemma moment6 g p k : (k < 6)%nat -> F6 (px_v p) (px_u p) (px_v p - g_row g) (px_u p - g_col g) k = moment g k p.
Proof.
  intros H. do 6 (destruct k as [|k]; [cbn; unfold cone, cmul, rad2, cmod2, offset; cbn; ring|]). lia.
Qed.
Lemma moment17 g p k : (k < 17)%nat -> F17 (px_v p) (px_u p) (px_v p - g_row g) (px_u p - g_col g) k = moment g k p.
Proof.
  intros H. do 17 (destruct k as [|k]; [cbn; unfold cone, cmul, rad2, cmod2, offset; cbn; ring|]). lia.
Qed.

(** the normalised weight evaluates to its surface brightness *)
Definition ready (wt gm : gmix) : Prop :=
  forall v u area, gmix_eval_pixel wt v u area = Some (brightness gm v u * area).

Lemma wsums_loop higher wt gm g maxrad : ready wt gm -> forall l s0,
  (forall p, In p (used g maxrad l) -> px_ierr p <> 0) ->
  exists s, foldM (wsums_body higher wt (g_row g) (g_col g) (maxrad ^ 2)) l s0 = Ok s /\
    is_sums gm g higher (used g maxrad l) s0 s.
Proof.
  intros Hr. induction l as [|p l IH]; intros s0 Hi; cbn [foldM].
  - exists s0. split; [reflexivity|]. unfold is_sums; cbn [used filter map length]. rewrite rsum_nil.
    split; [lia|]. split; [ring|]. split; intros; ring.
  - unfold wsums_body at 1. cbv zeta.
    assert (ER : (px_u p - g_col g) * (px_u p - g_col g) + (px_v p - g_row g) * (px_v p - g_row g) = rad2 g p).
    { unfold rad2, cmod2, offset; cbn; ring. }
    rewrite ER. cbn [used filter] in Hi |- *. destruct (Rltb (rad2 g p) (maxrad ^ 2)) eqn:E.
    2:{ cbn [bind]. exact (IH s0 Hi). }
    rewrite Hr. rewrite Reqb_f. 2:{ intros K. apply (Hi p); [left; reflexivity|]. nra. }
    cbn [bind]. fold (pixel_model gm p).
    set (F := if higher then F17 (px_v p) (px_u p) (px_v p - g_row g) (px_u p - g_col g) else F6 (px_v p) (px_u p) (px_v p - g_row g) (px_u p - g_col g)).
    assert (EF : forall k, (k < nmom higher)%nat -> F k = moment g k p).
    { intros k Hk. unfold F. destruct higher; [apply moment17|apply moment6]; exact Hk. }
    set (w := pixel_model gm p) in *. fold (nmom higher).
    match goal with |- context [foldM _ l ?a] => set (s1 := a) end.
    destruct (accumulate_spec (nmom higher) F w (w * px_val p) (w * w) (1 / (px_ierr p * px_ierr p)) s0) as (A & B & C' & D).
    fold s1 in A, B, C', D.
    destruct (IH s1) as (s & Es & I1 & I2 & I3 & I4).
    { intros q Hq. apply Hi. right. exact Hq. }
    exists s. split; [exact Es|]. unfold is_sums. fold (used g maxrad l) in *. cbn [map length]. rewrite !rsum_cons.
    split; [lia|]. split; [rewrite I2, B; fold w; ring|]. split.
    + intros k Hk. rewrite I3, C', EF, rsum_cons by exact Hk. fold w. ring.
    + intros k m Hk Hm. rewrite I4, D, !EF, rsum_cons by assumption. fold w.
      assert (px_ierr p <> 0) by (apply Hi; left; reflexivity). field. assumption.
Qed.

Lemma ready_norms gm gm' : good_gmix gm -> set_norms_if_needed gm = (gm', Ok tt) -> ready gm' gm.
Proof.
  intros H E v u area. destruct (norms_if_needed gm H) as (gm1 & E1 & S & N). rewrite E in E1. injection E1 as <-.
  destruct H as (_ & H1 & H2 & _). destruct (good_parts gm gm' H1 H2 S) as (P & B & _).
  rewrite eval_pixel_exact by assumption. rewrite B. reflexivity.
Qed.

Lemma get_weighted_sums_spec gm g rest pixels maxrad higher s0 :
  good_gmix gm -> gm = g :: rest ->
  (forall p, In p (used g maxrad pixels) -> px_ierr p <> 0) ->
  exists gm' s, get_weighted_sums gm pixels (Some maxrad) higher (Some s0) = (gm', Ok s) /\ same_gmix gm gm' /\
    is_sums gm g higher (used g maxrad pixels) s0 s.
Proof.
  intros H Eg Hi. destruct (norms_if_needed gm H) as (gm' & E & S & N).
  pose proof (ready_norms gm gm' H E) as Hr. unfold get_weighted_sums. rewrite E. cbn [bind]. exists gm'.
  unfold nb_weighted_sums. rewrite Eg in S. inversion S as [|? g' ? rest' Sg _]; subst. 
  destruct Sg as (_ & Er & Ec & _). rewrite <- Er, <- Ec.
  destruct (wsums_loop higher (g' :: rest') (g :: rest) g maxrad Hr pixels s0 Hi) as (s & Es & I).
  exists s. rewrite Es. auto.
Qed.

Lemma fresh_is_zero gm pixels maxrad higher :
  get_weighted_sums gm pixels maxrad higher None = get_weighted_sums gm pixels maxrad higher (Some wsums_zero).
Proof. reflexivity. Qed.

Lemma used_pixel_zero_error gm g rest pixels maxrad higher s0 p :
  good_gmix gm -> gm = g :: rest -> In p (used g maxrad pixels) -> px_ierr p = 0 ->
  snd (get_weighted_sums gm pixels (Some maxrad) higher (Some s0)) = Raise ZeroDivisionError.
Proof.
  intros H Eg Hi Hz. destruct (norms_if_needed gm H) as (gm' & E & S & N).
  pose proof (ready_norms gm gm' H E) as Hr. unfold get_weighted_sums. rewrite E. cbn [bind snd].
  unfold nb_weighted_sums. rewrite Eg in S. inversion S as [|? g' ? rest' Sg _]; subst.
  destruct Sg as (_ & Er & Ec & _). rewrite <- Er, <- Ec. clear - Hr Hi Hz.
  revert s0 Hi. induction pixels as [|q l IH]; intros s0 Hi; [destruct Hi|]. cbn [foldM].
  assert (ER : (px_u q - g_col g) * (px_u q - g_col g) + (px_v q - g_row g) * (px_v q - g_row g) = rad2 g q).
  { unfold rad2, cmod2, offset; cbn; ring. }
  unfold wsums_body at 1. cbv zeta. rewrite ER. cbn [used filter] in Hi.
  destruct (Rltb (rad2 g q) (maxrad ^ 2)) eqn:EE.
  - rewrite Hr. destruct (Reqb_spec (px_ierr q * px_ierr q) 0) as [K|K]; [reflexivity|]. cbn [bind].
    destruct Hi as [->|Hi]; [rewrite Hz in K; lra|]. apply IH. exact Hi.
  - cbn [bind]. apply IH. exact Hi.
Qed.

(** continuing a result with more pixels = one pass over all of them; no condition at all *)
Lemma get_weighted_sums_app gm a b maxrad higher s0 gm1 s1 :
  get_weighted_sums gm a maxrad higher s0 = (gm1, Ok s1) -> (forall g rest, gm1 = g :: rest -> g_norm_set g = true) ->
  get_weighted_sums gm (a ++ b) maxrad higher s0 = get_weighted_sums gm1 b maxrad higher (Some s1).
Proof.
  unfold get_weighted_sums at 1. destruct (set_norms_if_needed gm) as [gm' r] eqn:E. intros H Hn.
  destruct r as [[]|]; cbn [bind] in H; [|discriminate].
  assert (gm1 = gm') by congruence. subst gm1. unfold get_weighted_sums. rewrite E. cbn [bind].
  assert (ne : gm' <> []).
  { intros ->. unfold set_norms_if_needed in E. destruct gm as [|g gm]; [discriminate|].
    destruct (negb (g_norm_set g)); [|discriminate]. cbn [gmix_set_norms] in E. destruct (gauss2d_set_norm g); [|discriminate].
    destruct (gmix_set_norms gm). discriminate. }
  assert (E2 : set_norms_if_needed gm' = (gm', Ok tt)).
  { destruct gm' as [|g' rest]; [congruence|]. unfold set_norms_if_needed. rewrite (Hn g' rest eq_refl). reflexivity. }
  rewrite E2. cbn [bind]. set (s := match s0 with Some _ => _ | None => _ end) in *.
  assert (K : forall m, nb_weighted_sums higher gm' a s m = Ok s1 -> nb_weighted_sums higher gm' (a ++ b) s m = nb_weighted_sums higher gm' b s1 m).
  { intros m Hm. unfold nb_weighted_sums in *. destruct gm' as [|g' rest]; [congruence|]. rewrite foldM_app, Hm. reflexivity. }
  f_equal. destruct maxrad as [m|]; [apply K; congruence|].
  destruct (gm_get_sigma gm') as [sigma|]; [apply K; congruence|congruence].
Qed.

(** ** covariance *)
Lemma rsum_swap {A B} (f : A -> B -> R) la lb :
  rsum (map (fun a => rsum (map (f a) lb)) la) = rsum (map (fun b => rsum (map (fun a => f a b) la)) lb).
Proof.
  induction la as [|a la IH]; cbn [map]; rewrite ?rsum_nil, ?rsum_cons.
  - induction lb as [|b lb IHb]; cbn [map]; rewrite ?rsum_nil, ?rsum_cons; [reflexivity|]. rewrite <- IHb. ring.
  - rewrite IH, <- rsum_map_plus. apply rsum_map_ext. intros. cbn [map]. rewrite rsum_cons. reflexivity.
Qed.

Lemma psd_sums gm g higher l s0 s : psd (nmom higher) (ws_cov s0) ->
  is_sums gm g higher l s0 s -> psd (nmom higher) (ws_cov s).
Proof.
  intros [Sy Po] (_ & _ & _ & HC). split.
  - intros k m Hk Hm. rewrite !HC, Sy by assumption. f_equal. apply rsum_map_ext. intros. ring.
  - intros x. specialize (Po x). set (N := nmom higher) in *.
    assert (E : rsum (map (fun k => rsum (map (fun m => x k * ws_cov s k m * x m) (seq 0 N))) (seq 0 N)) =
      rsum (map (fun k => rsum (map (fun m => x k * ws_cov s0 k m * x m) (seq 0 N))) (seq 0 N)) +
      rsum (map (fun p => (pixel_model gm p)^2 * (/ px_ierr p ^ 2) * (rsum (map (fun k => x k * moment g k p) (seq 0 N)))^2) l)).
    { rewrite (rsum_map_ext _ (fun k => rsum (map (fun m => x k * ws_cov s0 k m * x m) (seq 0 N)) +
          rsum (map (fun p => (pixel_model gm p)^2 * (/ px_ierr p ^ 2) * (rsum (map (fun m => x m * moment g m p) (seq 0 N))) * (x k * moment g k p)) l))).
      - rewrite rsum_map_plus. f_equal. rewrite rsum_swap. apply rsum_map_ext. intros p _.
        rewrite rsum_map_mult. cbn [pow]. ring.
      - intros k Hk. rewrite (rsum_map_ext (fun m => x k * ws_cov s k m * x m)
          (fun m => x k * ws_cov s0 k m * x m + rsum (map (fun p => (x k * moment g k p) * ((pixel_model gm p)^2 * (/ px_ierr p ^ 2)) * (x m * moment g m p)) l))).
        + rewrite rsum_map_plus. f_equal. rewrite rsum_swap. apply rsum_map_ext. intros p _. rewrite rsum_map_mult. ring.
        + intros m Hm. apply in_seq in Hk, Hm. rewrite HC by lia.
          rewrite Rmult_plus_distr_l, Rmult_plus_distr_r. f_equal.
          rewrite <- rsum_map_mult, Rmult_comm, <- rsum_map_mult. apply rsum_map_ext. intros; ring. }
    rewrite E. apply Rplus_le_le_0_compat; [exact Po|]. apply rsum_nonneg. intros y Hy. apply in_map_iff in Hy.
    destruct Hy as (p & <- & _). apply Rmult_le_pos; [|apply pow2_ge_0]. apply Rmult_le_pos; [apply pow2_ge_0|].
    destruct (Req_dec (px_ierr p) 0) as [Ez|Ez]; [rewrite Ez; replace (0^2) with 0 by ring; rewrite Rinv_0; lra|].
    left. apply Rinv_0_lt_compat. pose proof (Rsqr_pos_lt _ Ez) as Hs. unfold Rsqr in Hs. cbn. lra.
Qed.
Lemma psd_zero n : psd n (ws_cov wsums_zero).
Proof.
  split; [reflexivity|]. intros x. right. symmetry.
  rewrite (rsum_map_ext _ (fun _ => 0 * 0)).
  - rewrite rsum_map_mult. ring.
  - intros k _. rewrite (rsum_map_ext _ (fun _ => 0 * 0)); [rewrite rsum_map_mult; ring|]. intros; cbn; ring.
Qed.

(** the default radius *)
Lemma default_radius gm gm' pixels higher s0 : set_norms_if_needed gm = (gm', Ok tt) -> flux_of gm' <> 0 -> 0 <= trace2 (cov_of gm') ->
  get_weighted_sums gm pixels None higher s0 = get_weighted_sums gm pixels (Some (100 * sqrt (trace2 (cov_of gm') / 2))) higher s0.
Proof.
  intros E HF HT. unfold get_weighted_sums. rewrite E. cbn [bind].
  destruct (getters_spec gm' HF) as (_ & _ & _ & Hs & _). rewrite (Hs HT). reflexivity.
Qed.
Lemma same_moments a b : same_gmix a b -> flux_of a = flux_of b /\ cov_of a = cov_of b.
Proof.
  intros S. assert (K : forall f : gauss -> R, (forall x y, same_gauss x y -> f x = f y) -> map f a = map f b).
  { intros f Hf. induction S as [|x y la lb Hxy S IH]; [reflexivity|]. cbn. f_equal; auto. }
  assert (EF : flux_of a = flux_of b). { unfold flux_of. rewrite (K g_p); [reflexivity|]. intros x y Hx; apply Hx. }
  split; [exact EF|].
  assert (M : forall f : gauss -> R, (forall x y, same_gauss x y -> f x = f y) -> mean_of f a = mean_of f b).
  { intros f Hf. unfold mean_of. rewrite EF. rewrite (K (fun g => g_p g * f g)); [reflexivity|].
    intros x y Hx. rewrite (Hf x y Hx). destruct Hx as (-> & _). reflexivity. }
  assert (ER : row_of a = row_of b) by (apply M; intros x y Hx; apply Hx).
  assert (EC : col_of a = col_of b) by (apply M; intros x y Hx; apply Hx).
  unfold cov_of. rewrite ER, EC.
  rewrite !(M (fun g => _ + _)); [reflexivity|..]; intros x y (A & B & C' & D & E & G & _); rewrite ?B, ?C', ?D, ?E, ?G; reflexivity.
Qed.
Lemma default_radius_good gm pixels higher s0 : good_gmix gm -> flux_of gm <> 0 -> 0 <= trace2 (cov_of gm) ->
  get_weighted_sums gm pixels None higher s0 = get_weighted_sums gm pixels (Some (100 * sqrt (trace2 (cov_of gm) / 2))) higher s0.
Proof.
  intros H HF HT. destruct (norms_if_needed gm H) as (gm' & E & S & _). destruct (same_moments _ _ S) as [A B].
  rewrite (default_radius gm gm'); rewrite <- ?A, <- ?B; auto.
Qed.
Lemma norm_set_after gm gm' : good_gmix gm -> set_norms_if_needed gm = (gm', Ok tt) -> forall g rest, gm' = g :: rest -> g_norm_set g = true.
Proof.
  intros H E g rest ->. destruct (norms_if_needed gm H) as (gm1 & E1 & S & N). rewrite E in E1. injection E1 as <-.
  apply Forall_cons_iff in N. destruct N as [[Hn _] _]. exact Hn.
Qed.
Lemma get_weighted_sums_app_good gm a b maxrad higher s0 gm1 s1 : good_gmix gm ->
  get_weighted_sums gm a maxrad higher s0 = (gm1, Ok s1) ->
  get_weighted_sums gm (a ++ b) maxrad higher s0 = get_weighted_sums gm1 b maxrad higher (Some s1).
Proof.
  intros H E. apply get_weighted_sums_app; [exact E|]. intros g rest. apply norm_set_after with gm; [exact H|].
  unfold get_weighted_sums in E. destruct (set_norms_if_needed gm) as [g' r]. destruct r as [[]|]; cbn [bind] in E; congruence.
Qed.
Lemma sums_fresh gm g rest pixels maxrad higher :
  good_gmix gm -> gm = g :: rest ->
  (forall p, In p (used g maxrad pixels) -> px_ierr p <> 0) ->
  exists gm' s, get_weighted_sums gm pixels (Some maxrad) higher None = (gm', Ok s) /\ same_gmix gm gm' /\ is_sums gm g higher (used g maxrad pixels) wsums_zero s /\ psd (nmom higher) (ws_cov s).
Proof.
  intros H Eg Hi. rewrite fresh_is_zero. destruct (get_weighted_sums_spec gm g rest pixels maxrad higher wsums_zero H Eg Hi) as (gm' & s & E & S & I).
  exists gm', s. split; [exact E|]. split; [exact S|]. split; [exact I|]. eapply psd_sums; [apply psd_zero|exact I].
Qed.
