(** Proofs about GMixND. *)
From Verif Require Import Base XReal Priors_Model GMixND_Model GMixND_Spec.
Local Open Scope R_scope.

(** ** sums *)
Lemma sum_n_ext n f g : (forall i, (i < n)%nat -> f i = g i) -> sum_n n f = sum_n n g.
Proof. intros H. unfold sum_n. f_equal. apply map_ext_in. intros i Hi. apply in_seq in Hi. apply H. lia. Qed.
Lemma sum_n_mult n f k : sum_n n (fun i => k * f i) = k * sum_n n f.
Proof. apply rsum_map_mult. Qed.
Lemma sum_n_mult_r n f k : sum_n n (fun i => f i * k) = sum_n n f * k.
Proof. rewrite (sum_n_ext n _ (fun i => k * f i)) by (intros; ring). rewrite sum_n_mult. ring. Qed.
Lemma sum_n_plus n f g : sum_n n (fun i => f i + g i) = sum_n n f + sum_n n g.
Proof. apply rsum_map_plus. Qed.
Lemma sum_n_0 n : sum_n n (fun _ => 0) = 0.
Proof. apply rsum_zero. Qed.
Lemma sum_n_S n f : sum_n (S n) f = sum_n n f + f n.
Proof. unfold sum_n. rewrite seq_S, map_app, rsum_app. cbn. ring. Qed.
Lemma sum_n_swap n m f : sum_n n (fun i => sum_n m (fun j => f i j)) = sum_n m (fun j => sum_n n (fun i => f i j)).
Proof.
  induction n as [|n IH].
  - symmetry. rewrite (sum_n_ext m _ (fun _ => 0)); [apply sum_n_0|reflexivity].
  - rewrite sum_n_S, IH, <- sum_n_plus. apply sum_n_ext. intros j _. rewrite sum_n_S. reflexivity.
Qed.
Lemma sum_n_delta n f i : (i < n)%nat -> sum_n n (fun j => delta i j * f j) = f i.
Proof.
  intros Hi. induction n as [|n IH]; [lia|]. rewrite sum_n_S. unfold delta at 2.
  destruct (Nat.eqb_spec i n) as [->|Hn].
  - rewrite (sum_n_ext n _ (fun _ => 0)).
    + rewrite sum_n_0. ring.
    + intros j Hj. unfold delta. destruct (Nat.eqb_spec n j); [lia|ring].
  - rewrite IH by lia. ring.
Qed.
Lemma sum_n_nonneg n f : (forall i, (i < n)%nat -> 0 <= f i) -> 0 <= sum_n n f.
Proof.
  intros H. apply rsum_nonneg. intros x Hx. apply in_map_iff in Hx. destruct Hx as [i [<- Hi]].
  apply in_seq in Hi. apply H. lia.
Qed.

(** ** the distance is the quadratic form of the inverse *)
Lemma distance2_inv d M V v : inverse d M V ->
  forall q, distance2 d M v q <-> q = sum_n d (fun i => sum_n d (fun j => v i * v j * V i j)).
Proof.
  intros [HL HR] q. split.
  - intros [y [Hy ->]]. apply sum_n_ext. intros i Hi.
    rewrite (sum_n_ext d _ (fun j => v i * (V i j * v j))) by (intros; ring).
    rewrite sum_n_mult. f_equal.
    transitivity (sum_n d (fun j => V i j * sum_n d (fun k => M j k * y k))).
    2:{ apply sum_n_ext. intros j Hj. rewrite Hy by lia. reflexivity. }
    transitivity (sum_n d (fun j => sum_n d (fun k => V i j * M j k * y k))).
    2:{ apply sum_n_ext. intros j Hj. rewrite <- sum_n_mult. apply sum_n_ext. intros k _. ring. }
    rewrite sum_n_swap.
    rewrite (sum_n_ext d _ (fun k => delta i k * y k)).
    + rewrite sum_n_delta by lia. reflexivity.
    + intros k Hk. rewrite sum_n_mult_r. rewrite HL by lia. reflexivity.
  - intros ->. exists (fun i => sum_n d (fun j => V i j * v j)). split.
    + intros i Hi.
      transitivity (sum_n d (fun j => sum_n d (fun k => M i j * V j k * v k))).
      { apply sum_n_ext. intros j Hj. rewrite <- sum_n_mult. apply sum_n_ext. intros k _. ring. }
      rewrite sum_n_swap.
      rewrite (sum_n_ext d _ (fun k => delta i k * v k)).
      * apply sum_n_delta. lia.
      * intros k Hk. rewrite sum_n_mult_r. rewrite HR by lia. reflexivity.
    + apply sum_n_ext. intros i Hi. rewrite <- sum_n_mult. apply sum_n_ext. intros j _. ring.
Qed.

(** ** the loops *)
Lemma put_len {A} (x : arr1 A) i v : len1 (put x i v) = len1 x. Proof. reflexivity. Qed.
Lemma fill_xdiff_len d p m xd : len1 (fill_xdiff d p m xd) = len1 xd.
Proof.
  unfold fill_xdiff. generalize (seq 0 d). intros l. revert xd. induction l as [|j l IH]; intros xd; [reflexivity|].
  cbn [fold_left]. rewrite IH. reflexivity.
Qed.
Lemma fill_xdiff_at d p m xd j : (j < d)%nat -> at1 (fill_xdiff d p m xd) j = xsub (p j) (Fin (m j)).
Proof.
  unfold fill_xdiff. revert xd. induction d as [|d IH]; intros xd Hj; [lia|].
  rewrite seq_S, fold_left_app. cbn [fold_left]. cbn [put at1 Nat.add].
  destruct (Nat.eqb_spec j d) as [->|Hn]; [reflexivity|]. apply IH. lia.
Qed.
Lemma fold_left_ext_in {A B} (f g : B -> A -> B) l b : (forall x y, In y l -> f x y = g x y) -> fold_left f l b = fold_left g l b.
Proof.
  revert b. induction l as [|a l IH]; intros b H; [reflexivity|]. cbn [fold_left]. rewrite H by (left; reflexivity).
  apply IH. intros x y Hy. apply H. right. exact Hy.
Qed.
Lemma calc_chi2_ext d V a b : (forall j, (j < d)%nat -> at1 a j = at1 b j) -> calc_chi2 d V a = calc_chi2 d V b.
Proof.
  intros H. unfold calc_chi2. apply fold_left_ext_in. intros c i Hi. apply fold_left_ext_in. intros c' j Hj.
  apply in_seq in Hi. apply in_seq in Hj. rewrite (H i), (H j) by lia. reflexivity.
Qed.
Lemma fold_fin {A} (f : A -> R) l c : fold_left (fun s j => xadd s (Fin (f j))) l (Fin c) = Fin (c + rsum (map f l)).
Proof.
  revert c. induction l as [|j l IH]; intros c; cbn [fold_left map].
  - rewrite rsum_nil. f_equal. ring.
  - cbn [xadd]. rewrite IH, rsum_cons. f_equal. ring.
Qed.
Lemma calc_chi2_fin d V v a : (forall j, (j < d)%nat -> at1 a j = Fin (v j)) ->
  calc_chi2 d V a = Fin (sum_n d (fun i => sum_n d (fun j => v i * v j * V i j))).
Proof.
  intros H. rewrite (calc_chi2_ext d V a (mkA1 (len1 a) (fun j => Fin (v j)))) by exact H.
  unfold calc_chi2. cbn [at1].
  rewrite (fold_left_ext_in _ (fun c i => xadd c (Fin (sum_n d (fun j => v i * v j * V i j))))
             (seq 0 d) (Fin 0)).
  - rewrite fold_fin. f_equal. unfold sum_n. ring.
  - intros c i _. destruct c as [c| | |].
    + cbn [xmul]. rewrite (fold_fin (fun j => v i * v j * V i j)). reflexivity.
    + cbn [xadd xmul]. induction (seq 0 d); [reflexivity|exact IHl].
    + cbn [xadd xmul]. induction (seq 0 d); [reflexivity|exact IHl].
    + cbn [xadd xmul]. induction (seq 0 d); [reflexivity|exact IHl].
Qed.

(** the logarithm of one component, from fresh scratch space *)
Definition lnp_of (k : normed) (means : arr2d R) (pars : nat -> xr) (i : nat) : xr :=
  let d := nc2 means in
  calc_lnp (calc_chi2 d (at3 (x_icovars k) i) (mkA1 d (fun j => xsub (pars j) (Fin (at2d means i j))))) (at1 (x_log_pnorms k) i).
Lemma lnp_scratch k means pars i xd :
  calc_lnp (calc_chi2 (nc2 means) (at3 (x_icovars k) i) (fill_xdiff (nc2 means) pars (at2d means i) xd)) (at1 (x_log_pnorms k) i)
  = lnp_of k means pars i.
Proof. unfold lnp_of. f_equal. apply calc_chi2_ext. intros j Hj. rewrite fill_xdiff_at by exact Hj. reflexivity. Qed.

Definition max_of (lnp : nat -> xr) (n : nat) : xr :=
  fold_left (fun m i => if xgtb (lnp i) m then lnp i else m) (seq 0 n) (Fin lnpmax_start).
Lemma passes k means pars n sc : exists sc',
  fold_left (prob_pass k means pars) (seq 0 n) (Fin lnpmax_start, sc) = (max_of (lnp_of k means pars) n, sc') /\
  len1 (x_tmp sc') = len1 (x_tmp sc) /\ len1 (x_xdiff sc') = len1 (x_xdiff sc) /\
  forall i, (i < n)%nat -> at1 (x_tmp sc') i = lnp_of k means pars i.
Proof.
  induction n as [|n IH].
  - exists sc. split; [reflexivity|]. split; [reflexivity|]. split; [reflexivity|]. intros i Hi; lia.
  - destruct IH as [sc' [E [Ht [Hx Hi]]]]. unfold max_of in *. rewrite !seq_S, !fold_left_app. rewrite E. cbn [fold_left Nat.add].
    unfold prob_pass at 1. rewrite lnp_scratch.
    eexists. split; [reflexivity|]. cbn [x_tmp x_xdiff]. split; [rewrite put_len; exact Ht|].
    split; [rewrite fill_xdiff_len; exact Hx|].
    intros i Hl. cbn [put at1]. destruct (Nat.eqb_spec i n) as [->|Hn]; [reflexivity|]. apply Hi. lia.
Qed.

Definition kernel_value (lnp : nat -> xr) (n : nat) (dolog : bool) : xr :=
  let m := max_of lnp n in
  let p := fold_left (fun p i => xadd p (xexp (xsub (lnp i) m))) (seq 0 n) (Fin 0) in
  if dolog then xadd (xlog p) m else xmul p (xexp m).
Lemma kernel_prob_value k means pars sc dolog :
  in_bounds k means pars sc = true -> (len1 (x_log_pnorms k) <= len1 (x_tmp sc))%nat ->
  exists sc', kernel_prob k means pars sc dolog
    = Some (kernel_value (lnp_of k means (at1 pars)) (len1 (x_log_pnorms k)) dolog, sc') /\
    len1 (x_tmp sc') = len1 (x_tmp sc) /\ len1 (x_xdiff sc') = len1 (x_xdiff sc).
Proof.
  intros HB HT. unfold kernel_prob. rewrite HB. apply Nat.leb_le in HT. rewrite HT. cbn [negb andb].
  destruct (passes k means (at1 pars) (len1 (x_log_pnorms k)) sc) as [sc' [E [Ht [Hx Hi]]]]. rewrite E.
  exists sc'. split; [|auto]. f_equal. f_equal. unfold kernel_value.
  assert (forall m, fold_left (fun p i => xadd p (xexp (xsub (at1 (x_tmp sc') i) m))) (seq 0 (len1 (x_log_pnorms k))) (Fin 0) =
    fold_left (fun p i => xadd p (xexp (xsub (lnp_of k means (at1 pars) i) m))) (seq 0 (len1 (x_log_pnorms k))) (Fin 0)) as G.
  { intros m. apply fold_left_ext_in. intros c i Hin. apply in_seq in Hin. rewrite Hi by lia. reflexivity. }
  rewrite !G. reflexivity.
Qed.

(** ** values: components whose logarithms are finite or minus infinity *)
Definition ln_of (p : R) : xr := if Reqb p 0 then NInf else Fin (ln p).
Lemma ln_of_xlog p : 0 <= p -> ln_of p = xlog (Fin p).
Proof. intros H. unfold ln_of. cbn. destruct (Reqb_spec p 0) as [->|Hn]; rcase; try lra; try reflexivity. Qed.
Lemma ln_of_exp p : 0 <= p -> xexp (ln_of p) = Fin p.
Proof.
  intros H. unfold ln_of. destruct (Reqb_spec p 0) as [->|Hn]; [reflexivity|]. cbn. rewrite exp_ln; [reflexivity|lra].
Qed.
Lemma max_fin lnp n ps : (forall i, (i < n)%nat -> 0 <= ps i) -> (forall i, (i < n)%nat -> lnp i = ln_of (ps i)) -> exists m, max_of lnp n = Fin m.
Proof.
  intros H0 H. unfold max_of. induction n as [|n IH]; [exists lnpmax_start; reflexivity|].
  rewrite seq_S, fold_left_app. cbn [fold_left Nat.add]. destruct IH as [m ->]; auto.
  rewrite H by lia. unfold ln_of. destruct (Reqb (ps n) 0).
  - cbn. exists m. reflexivity.
  - cbn. destruct (Rltb m (ln (ps n))); eauto.
Qed.
Lemma sum_exp lnp n ps m : (forall i, (i < n)%nat -> 0 <= ps i) -> (forall i, (i < n)%nat -> lnp i = ln_of (ps i)) ->
  fold_left (fun p i => xadd p (xexp (xsub (lnp i) (Fin m)))) (seq 0 n) (Fin 0) = Fin (sum_n n ps * exp (- m)).
Proof.
  intros H0 H. transitivity (fold_left (fun p i => xadd p (Fin (ps i * exp (- m)))) (seq 0 n) (Fin 0)).
  - apply fold_left_ext_in. intros c i Hi. apply in_seq in Hi. f_equal. rewrite H by lia. unfold ln_of.
    destruct (Reqb_spec (ps i) 0) as [E|Hn].
    + cbn. f_equal. rewrite E. ring.
    + cbn. f_equal. rewrite exp_plus, exp_ln; [reflexivity|]. specialize (H0 i ltac:(lia)). lra.
  - rewrite fold_fin. f_equal. fold (sum_n n (fun i => ps i * exp (- m))). rewrite sum_n_mult_r. ring.
Qed.
Lemma kernel_value_spec lnp n ps dolog : (forall i, (i < n)%nat -> 0 <= ps i) -> (forall i, (i < n)%nat -> lnp i = ln_of (ps i)) ->
  kernel_value lnp n dolog = if dolog then xlog (Fin (sum_n n ps)) else Fin (sum_n n ps).
Proof.
  intros H0 H. unfold kernel_value. destruct (max_fin lnp n ps H0 H) as [m Hm]. rewrite !Hm, !(sum_exp lnp n ps m H0 H).
  pose proof (sum_n_nonneg n ps H0) as HS. pose proof (exp_pos (- m)) as He.
  destruct dolog.
  - cbn [xlog]. destruct (Req_dec (sum_n n ps) 0) as [E|E].
    + rewrite E, Rmult_0_l. rewrite (Rltb_f 0 0), (Reqb_t 0 0) by lra. reflexivity.
    + assert (0 < sum_n n ps) by lra. assert (0 < sum_n n ps * exp (- m)) by nra.
      rewrite !Rltb_t by assumption. cbn. f_equal. rewrite ln_mult, ln_exp by assumption. ring.
  - cbn. f_equal. rewrite Rmult_assoc, <- exp_plus. replace (- m + m) with 0 by ring. rewrite exp_0. ring.
Qed.

(** ** the state of an object whose mixture was set *)
Section Obj.
Context {W : Type}.
Variable X : ext W.

Record coherent (s : gmixnd) (x : mixture) : Prop := mkCoh
  { co_mix : n_mix s = Some x;
    co_norm : exists k, n_norm s = Some k /\ calc_icovars_and_norms X x = Ok k;
    co_scr : exists sc, n_scr s = Some sc /\ len1 (x_tmp sc) = x_ngauss x /\ len1 (x_xdiff sc) = x_ndim x;
    co_n : x_ngauss x = len1 (x_weights x); co_d : x_ndim x = nc2 (x_means x) }.

Lemma set_mixture_coherent s w m c s' : set_mixture X s w m c = (s', Ok tt) ->
  coherent s' (mkMix w (means_shaped m) (covars_shaped c) (len1 w) (nc2 (means_shaped m))).
Proof.
  unfold set_mixture. set (x := mkMix _ _ _ _ _). destruct (calc_icovars_and_norms X x) as [k|e] eqn:E; intros H; inversion H; subst s'.
  constructor; cbn; eauto.
Qed.
Lemma set_mixture_run s w m c : snd (set_mixture X s w m c) = Ok tt \/ exists e, snd (set_mixture X s w m c) = Raise e.
Proof. unfold set_mixture. destruct (calc_icovars_and_norms X _); cbn; eauto. Qed.

Lemma with_scr_coherent s x sc : coherent s x -> len1 (x_tmp sc) = x_ngauss x -> len1 (x_xdiff sc) = x_ndim x ->
  coherent (with_scr s sc) x.
Proof. intros [H1 H2 H3 H4 H5] HT HX. constructor; cbn; eauto. Qed.

Lemma get_prob1_coherent s x p l c s' r : coherent s x -> get_prob1 s p l c = Some (s', r) -> coherent s' x.
Proof.
  intros HC. pose proof HC as [HM [k [HK HKe]] [sc [HS [HT HX]]] HN HD]. unfold get_prob1. rewrite HK, HM, HS.
  destruct c as [c|].
  - unfold kernel_component. destruct (negb _); [intros H; inversion H; subst; apply with_scr_coherent; auto|].
    destruct (negb _); [discriminate|]. intros H; inversion H; subst. apply with_scr_coherent; auto; cbn; auto.
    rewrite fill_xdiff_len. exact HX.
  - unfold kernel_prob. destruct (negb _); [discriminate|].
    destruct (passes k (x_means x) (at1 p) (len1 (x_log_pnorms k)) sc) as [sc' [E [Ht [Hx Hi]]]]. rewrite E.
    intros H; inversion H; subst. apply with_scr_coherent; auto; congruence.
Qed.
Lemma get_prob_rows_coherent rows x p l s s' r : coherent s x -> get_prob_rows s rows p l = Some (s', r) -> coherent s' x.
Proof.
  revert s r. induction rows as [|a rows IH]; intros s r HC; cbn [get_prob_rows]; [intros H; inversion H; subst; exact HC|].
  destruct (get_prob1 s a p l) as [[s1 [v|e]]|] eqn:E; [| |discriminate].
  - pose proof (get_prob1_coherent _ _ _ _ _ _ _ HC E) as HC1.
    destruct (get_prob_rows s1 rows p l) as [[s2 [vs|e]]|] eqn:F; [| |discriminate]; intros H; inversion H; subst; eapply IH; eauto.
  - intros H; inversion H; subst. eapply get_prob1_coherent; eauto.
Qed.
Lemma with_gmm_coherent s x g : coherent s x -> coherent (mkNd (n_mix s) (n_norm s) (n_scr s) g) x.
Proof. intros [H1 H2 H3 H4 H5]. constructor; cbn; auto. Qed.
Lemma sample_state wd s n wd' s' r : sample X wd s n = (wd', (s', r)) ->
  n_mix s' = n_mix s /\ n_norm s' = n_norm s /\ n_scr s' = n_scr s /\
  (n_gmm s' = n_gmm s \/ n_gmm s = None /\ exists x, n_mix s = Some x /\ n_gmm s' = Some (gmm_of x)).
Proof.
  unfold sample. destruct (n_gmm s) as [g|] eqn:E.
  - destruct (e_sample X g wd _) as [wd1 sm]. intros H; inversion H; subst. auto.
  - unfold set_gmm. destruct (n_mix s) as [x|] eqn:M.
    + destruct (e_cholesky X (x_covars x)) as [[]|e]; [|intros H; inversion H; subst; rewrite ?E, ?M; auto 6].
      destruct (e_sample X _ wd _) as [wd1 sm]. intros H; inversion H; subst. cbn. rewrite ?M. repeat split; auto.
      right. split; [auto|]. exists x. auto.
    + intros H; inversion H; subst. rewrite ?E, ?M. auto 6.
Qed.
Lemma coherent_same s s' x : coherent s x -> n_mix s' = n_mix s -> n_norm s' = n_norm s -> n_scr s' = n_scr s -> coherent s' x.
Proof. intros [H1 H2 H3 H4 H5] A B C. constructor; rewrite ?A, ?B, ?C; auto. Qed.

(** an object that was given a mixture, or none at all *)
Definition sound (s : gmixnd) : Prop := s = mkNd None None None (n_gmm s) \/ exists x, coherent s x.
Lemma empty_prob s p l c : s = mkNd None None None (n_gmm s) -> get_prob1 s p l c = Some (s, Raise AttributeError).
Proof. intros ->. reflexivity. Qed.
Lemma set_sound s w m c s' r : set_mixture X s w m c = (s', r) -> ran r = true -> exists x, coherent s' x.
Proof.
  intros H R. destruct (set_mixture_run s w m c) as [E|[e E]]; rewrite H in E; cbn in E; subst r; [|discriminate].
  eexists. eapply set_mixture_coherent. exact H.
Qed.
Lemma step_sound wd s op wd' s' b : sound s -> nd_step X (wd, s) op = Some (wd', s', b) -> (is_setter op = true -> b = true) -> sound s'.
Proof.
  intros HS. destruct op as [w m c| |data n|p l c|p l c|n]; cbn [nd_step is_setter].
  - destruct (set_mixture X s w m c) as [s1 r] eqn:E. intros H R; inversion H; subst. right. eapply set_sound; eauto.
  - unfold load_mixture. destruct (e_file X wd) as [[[w m] c]|e].
    + destruct (set_mixture X s w m c) as [s1 r] eqn:E. intros H R; inversion H; subst. right. eapply set_sound; eauto.
    + intros H R; inversion H; subst. specialize (R eq_refl). discriminate.
  - unfold fit. destruct (e_fit X wd (data_shaped data) n) as [wd1 [g|e]].
    + destruct (set_mixture X _ (q_weights g) _ (q_covars g)) as [s1 r] eqn:E. intros H R; inversion H; subst. right. eapply set_sound; eauto.
    + intros H R; inversion H; subst. specialize (R eq_refl). discriminate.
  - destruct (get_prob1 s p l c) as [[s1 r]|] eqn:E; [|discriminate]. intros H _; inversion H; subst.
    destruct HS as [HS|[x HS]].
    + rewrite (empty_prob s p l c HS) in E. inversion E; subst. left. exact HS.
    + right. exists x. eapply get_prob1_coherent; eauto.
  - destruct (get_prob_rows s _ l c) as [[s1 r]|] eqn:E; [|discriminate]. intros H _; inversion H; subst.
    destruct HS as [HS|[x HS]].
    + destruct (map _ _) as [|a rows]; cbn [get_prob_rows] in E.
      * inversion E; subst. left. exact HS.
      * rewrite (empty_prob s a l c HS) in E. inversion E; subst. left. exact HS.
    + right. exists x. eapply get_prob_rows_coherent; eauto.
  - destruct (sample X wd s n) as [wd1 [s1 r]] eqn:E. intros H _; inversion H; subst.
    destruct (sample_state _ _ _ _ _ _ E) as [A [B [C D]]].
    destruct HS as [HS|[x HS]].
    + left. destruct s' as [a b c d]. cbn in *. rewrite HS in A, B, C. cbn in A, B, C. subst. reflexivity.
    + right. exists x. eapply coherent_same; eauto.
Qed.
Lemma runs_sound ws ops ws' : runs X ws ops ws' -> sound (snd ws) -> sound (snd ws').
Proof.
  induction 1 as [ws|[wd0 s0] op wd s b ops ws' H HB HR IH]; intros HS; [exact HS|].
  apply IH. cbn [snd]. eapply step_sound; eauto.
Qed.
Lemma new_sound wd file w m c s : new_nd X wd file w m c = Ok s -> sound s.
Proof.
  unfold new_nd. destruct file.
  - unfold load_mixture. destruct (e_file X wd) as [[[w' m'] c']|e]; [|discriminate].
    destruct (set_mixture X empty_nd w' m' c') as [s1 r] eqn:E. destruct r as [u|e]; cbn; intros H; inversion H; subst.
    right. eapply set_sound; eauto.
  - destruct w as [w|], m as [m|], c as [c|]; try discriminate.
    + destruct (set_mixture X empty_nd w m c) as [s1 r] eqn:E. destruct r as [u|e]; cbn; intros H; inversion H; subst.
      right. eapply set_sound; eauto.
    + intros H; inversion H; subst. left. reflexivity.
Qed.

(** ** the norms of a proper mixture *)
Lemma nth_mapM_ok {A B} (f : A -> res B) l ys i a d : mapM f l = Ok ys -> nth_error l i = Some a -> f a = Ok (nth i ys d).
Proof.
  revert l ys. induction i as [|i IH]; intros [|x l] ys H Hn; cbn in Hn; try discriminate; cbn in H;
    destruct (f x) as [y|] eqn:E; try discriminate; cbn in H; destruct (mapM f l) as [zs|] eqn:F; try discriminate;
    inversion H; subst; cbn.
  - inversion Hn; subst. exact E.
  - apply (IH l); assumption.
Qed.
Lemma nth_error_seq0 n i : (i < n)%nat -> nth_error (seq 0 n) i = Some i.
Proof.
  intros H. rewrite (nth_error_nth' (seq 0 n) 0%nat) by (rewrite seq_length; exact H).
  f_equal. rewrite seq_nth by exact H. reflexivity.
Qed.

Lemma norms_proper x k i : proper x -> linalg_ok X x -> calc_icovars_and_norms X x = Ok k -> (i < x_ngauss x)%nat ->
  exists V, inverse (x_ndim x) (covar_of x i) V /\ at3 (x_icovars k) i = V /\
    at1 (x_pnorms k) i = Fin (at1 (x_weights x) i * / sqrt ((2 * PI) ^ x_ndim x * mdet (x_ndim x) (covar_of x i))) /\
    at1 (x_log_pnorms k) i = xlog (at1 (x_pnorms k) i).
Proof.
  intros HP HL HK Hi. destruct (HL i Hi) as [HD [V [HV HI]]].
  unfold calc_icovars_and_norms in HK. destruct (mapM _ _) as [l|e] eqn:E in HK; [|discriminate]. cbn in HK.
  apply (f_equal (fun r => match r with Ok k => k | Raise _ => k end)) in HK. cbv beta iota in HK. subst k. cbn.
  pose proof (nth_mapM_ok _ _ _ i i (Fin 0, fun _ _ => 0) E (nth_error_seq0 _ _ Hi)) as HC.
  unfold calc_one, cov_at in HC. destruct (pr_cov x HP) as [f Hf].
  assert (covar_of x i = f i) as Hcov by (unfold covar_of; rewrite Hf; reflexivity).
  rewrite Hf in HC. cbn [d0 d1 d2 at3] in HC. destruct (Nat.ltb_spec i (x_ngauss x)); [|lia]. cbn [bind] in HC.
  rewrite Nat.eqb_refl in HC. rewrite <- Hcov, HV in HC. cbn [bind] in HC. unfold assign_icov in HC. rewrite Nat.eqb_refl in HC.
  pose proof (pr_pos x HP i Hi) as HPos. rewrite HD in HC.
  assert (0 < (2 * PI) ^ x_ndim x * mdet (x_ndim x) (covar_of x i)) as HQ.
  { apply Rmult_lt_0_compat; [|exact HPos]. apply pow_lt. pose proof PI_RGT_0. lra. }
  pose proof (sqrt_lt_R0 _ HQ) as HSq.
  set (Q := (2 * PI) ^ x_ndim x * mdet (x_ndim x) (covar_of x i)) in *. clearbody Q.
  cbn in HC. rewrite (Rltb_f Q 0) in HC by lra. cbn in HC. rewrite (Reqb_f (sqrt Q) 0) in HC by lra.
  apply (f_equal (fun r => match r with Ok p => p | Raise _ => (Fin 0, V) end)) in HC. cbv beta iota in HC.
  match type of HC with _ = ?t => change (nth i l (Fin 0, fun _ _ : nat => 0)) with t end. rewrite <- HC. cbn.
  exists V. split; [exact HI|]. split; [reflexivity|]. split; [|reflexivity]. f_equal. unfold Rdiv. ring.
Qed.
Lemma norms_shape x k : calc_icovars_and_norms X x = Ok k ->
  len1 (x_log_pnorms k) = x_ngauss x /\ d0 (x_icovars k) = x_ngauss x /\ d1 (x_icovars k) = x_ndim x /\ d2 (x_icovars k) = x_ndim x.
Proof.
  unfold calc_icovars_and_norms. destruct (mapM _ _); [|discriminate]. cbn. intros H.
  apply (f_equal (fun r => match r with Ok k => k | Raise _ => k end)) in H. cbv beta iota in H. subst k. cbn. auto.
Qed.

(** the density of each component exists, and it is what the kernels compute *)
Lemma component_lnp x k v i : proper x -> linalg_ok X x -> calc_icovars_and_norms X x = Ok k -> (i < x_ngauss x)%nat ->
  exists p, component_density x v i p /\ (forall p', component_density x v i p' -> p' = p) /\ 0 <= p /\
    lnp_of k (x_means x) (fun j => Fin (v j)) i = ln_of p.
Proof.
  intros HP HL HK Hi. destruct (norms_proper x k i HP HL HK Hi) as [V [HI [HV [HN HLn]]]].
  set (dv := fun j => v j - at2d (x_means x) i j).
  set (q := sum_n (x_ndim x) (fun a => sum_n (x_ndim x) (fun b => dv a * dv b * V a b))).
  exists (at1 (x_weights x) i * gauss_density (x_ndim x) (covar_of x i) q).
  assert (forall q', distance2 (x_ndim x) (covar_of x i) dv q' <-> q' = q) as HQ by (intros q'; apply (distance2_inv _ _ V); exact HI).
  pose proof (pr_pos x HP i Hi) as HPos. pose proof (pr_w x HP i Hi) as HW.
  assert (0 < sqrt ((2 * PI) ^ x_ndim x * mdet (x_ndim x) (covar_of x i))) as HSq.
  { apply sqrt_lt_R0. apply Rmult_lt_0_compat; [|exact HPos]. apply pow_lt. pose proof PI_RGT_0. lra. }
  assert (0 < gauss_density (x_ndim x) (covar_of x i) q) as HG.
  { unfold gauss_density. apply Rdiv_lt_0_compat; [apply exp_pos|exact HSq]. }
  split; [exists q; split; [apply HQ; reflexivity|reflexivity]|].
  split; [intros p' [q' [Hq' ->]]; apply HQ in Hq'; subst q'; reflexivity|].
  split; [nra|].
  unfold lnp_of. rewrite (pr_d x HP), HV, HLn, HN.
  rewrite (calc_chi2_fin (x_ndim x) V dv) by (intros j Hj; cbn; unfold dv; f_equal; ring).
  fold q. set (S0 := sqrt _) in *. unfold calc_lnp, ln_of, gauss_density. fold S0. cbn [xmul xlog].
  set (w := at1 (x_weights x) i) in *. clearbody w q S0.
  pose proof (exp_pos (- (1 / 2) * q)) as HE. pose proof (Rinv_0_lt_compat _ HSq) as HSi.
  destruct (Req_dec w 0) as [Hw|Hw].
  - rewrite Hw. rewrite !Rmult_0_l. rewrite (Rltb_f 0 0), (Reqb_t 0 0) by lra. reflexivity.
  - assert (0 < w * / S0) by (apply Rmult_lt_0_compat; lra).
    assert (0 < w * (exp (- (1 / 2) * q) / S0)).
    { unfold Rdiv. rewrite (Rmult_comm (exp _)), <- Rmult_assoc. apply Rmult_lt_0_compat; lra. }
    rewrite (Rltb_t 0 (w * / S0)), (Reqb_f (w * (exp (- (1 / 2) * q) / S0)) 0) by lra. cbn [xadd]. f_equal.
    replace (w * (exp (- (1 / 2) * q) / S0)) with (exp (- (1 / 2) * q) * (w * / S0)) by (unfold Rdiv; ring).
    rewrite (ln_mult (exp (- (1 / 2) * q)) (w * / S0)), ln_exp by lra. reflexivity.
Qed.

Lemma coherent_bounds s x k sc pars : coherent s x -> proper x -> calc_icovars_and_norms X x = Ok k ->
  len1 (x_xdiff sc) = x_ndim x -> (x_ndim x <= len1 pars)%nat -> in_bounds k (x_means x) pars sc = true.
Proof.
  intros HC HP HK HX HL. destruct (norms_shape x k HK) as [A [B [C D]]]. unfold in_bounds.
  rewrite A, B, C, D, (pr_d x HP), HX. destruct (pr_n x HP) as [_ ->].
  rewrite !Nat.leb_refl. cbn. rewrite andb_true_r. apply Nat.leb_le. exact HL.
Qed.

(** evaluating all components at once *)
Theorem prob_is_density s x v pars dolog : coherent s x -> proper x -> linalg_ok X x ->
  (x_ndim x <= len1 pars)%nat -> (forall j, (j < x_ndim x)%nat -> at1 pars j = Fin (v j)) ->
  exists p s', density x v p /\ (forall p', density x v p' -> p' = p) /\ 0 <= p /\
    get_prob1 s pars dolog None = Some (s', Ok (if dolog then xlog (Fin p) else Fin p)).
Proof.
  intros HC HP HL Hlen Hv. pose proof HC as [HM [k [HK HKe]] [sc [HS [HT HX]]] HN HD].
  assert (exists ps, forall i, (i < x_ngauss x)%nat -> component_density x v i (ps i) /\ (forall p', component_density x v i p' -> p' = ps i) /\ 0 <= ps i /\
    lnp_of k (x_means x) (fun j => Fin (v j)) i = ln_of (ps i)) as [ps Hps].
  { assert (forall n, (n <= x_ngauss x)%nat -> exists ps, forall i, (i < n)%nat -> component_density x v i (ps i) /\ (forall p', component_density x v i p' -> p' = ps i) /\ 0 <= ps i /\
      lnp_of k (x_means x) (fun j => Fin (v j)) i = ln_of (ps i)) as G.
    { induction n as [|n IH]; intros Hn; [exists (fun _ => 0); intros i Hi; lia|].
      destruct (IH ltac:(lia)) as [ps Hps]. destruct (component_lnp x k v n HP HL HKe ltac:(lia)) as [p Hp].
      exists (fun i => if Nat.eqb i n then p else ps i). intros i Hi. destruct (Nat.eqb_spec i n) as [->|Hne]; [exact Hp|].
      apply Hps. lia. }
    apply (G (x_ngauss x)). lia. }
  assert (forall i, (i < x_ngauss x)%nat -> lnp_of k (x_means x) (at1 pars) i = ln_of (ps i)) as Hlnp.
  { intros i Hi. destruct (Hps i Hi) as [_ [_ [_ <-]]]. unfold lnp_of. f_equal. apply calc_chi2_ext. cbn. intros j Hj.
    rewrite (pr_d x HP) in Hj. rewrite Hv by exact Hj. reflexivity. }
  destruct (norms_shape x k HKe) as [HLn _].
  destruct (kernel_prob_value k (x_means x) pars sc dolog) as [sc' [E _]].
  { eapply coherent_bounds; eauto. }
  { rewrite HLn, HT. lia. }
  exists (sum_n (x_ngauss x) ps), (with_scr s sc').
  split; [exists ps; split; [intros i Hi; apply (Hps i Hi)|reflexivity]|].
  split.
  { intros p' [ps' [Hp' ->]]. apply sum_n_ext. intros i Hi. destruct (Hps i Hi) as [_ [U _]]. apply U. apply Hp'. exact Hi. }
  split; [apply sum_n_nonneg; intros i Hi; apply (Hps i Hi)|].
  unfold get_prob1. rewrite HK, HM, HS, E. do 3 f_equal.
  rewrite HLn. apply kernel_value_spec; [|exact Hlnp]. intros i Hi. apply (Hps i Hi).
Qed.

(** one component *)
Theorem component_is_density s x v pars dolog c : coherent s x -> proper x -> linalg_ok X x ->
  (x_ndim x <= len1 pars)%nat -> (forall j, (j < x_ndim x)%nat -> at1 pars j = Fin (v j)) ->
  (c < x_ngauss x)%nat ->
  exists p s', component_density x v c p /\ (forall p', component_density x v c p' -> p' = p) /\ 0 <= p /\
    get_prob1 s pars dolog (Some (Z.of_nat c)) = Some (s', Ok (if dolog then xlog (Fin p) else Fin p)).
Proof.
  intros HC HP HL Hlen Hv Hc. pose proof HC as [HM [k [HK HKe]] [sc [HS [HT HX]]] HN HD].
  destruct (component_lnp x k v c HP HL HKe Hc) as [p [H1 [H2 [H3 H4]]]].
  destruct (norms_shape x k HKe) as [HLn _].
  eexists p, _. split; [exact H1|]. split; [exact H2|]. split; [exact H3|].
  unfold get_prob1. rewrite HK, HM, HS. unfold kernel_component. rewrite HLn.
  destruct (Z.leb_spec 0 (Z.of_nat c)); [|lia]. destruct (Z.ltb_spec (Z.of_nat c) (Z.of_nat (x_ngauss x))); [|lia].
  cbn [negb andb]. rewrite (coherent_bounds s x k sc pars HC HP HKe HX Hlen). cbn [negb].
  rewrite Nat2Z.id, lnp_scratch.
  replace (lnp_of k (x_means x) (at1 pars) c) with (ln_of p).
  2:{ rewrite <- H4. unfold lnp_of. f_equal. apply calc_chi2_ext. cbn. intros j Hj. rewrite (pr_d x HP) in Hj. rewrite Hv by exact Hj. reflexivity. }
  rewrite ln_of_exp by exact H3. rewrite <- (ln_of_xlog p H3). reflexivity.
Qed.
Theorem component_range s x v dolog c : coherent s x ->
  (c < 0 \/ Z.of_nat (x_ngauss x) <= c)%Z -> exists s', get_prob1 s v dolog (Some c) = Some (s', Raise AssertionError).
Proof.
  intros HC Hc. pose proof HC as [HM [k [HK HKe]] [sc [HS [HT HX]]] HN HD]. destruct (norms_shape x k HKe) as [HLn _].
  unfold get_prob1. rewrite HK, HM, HS. unfold kernel_component. rewrite HLn.
  destruct (Z.leb_spec 0 c); destruct (Z.ltb_spec c (Z.of_nat (x_ngauss x))); try lia; cbn; eauto.
Qed.

(** arrays *)
Theorem rows_scalar s x rows dolog comp (vals : list xr) : coherent s x ->
  Forall2 (fun p v => forall s, coherent s x -> exists s', get_prob1 s p dolog comp = Some (s', Ok v)) rows vals ->
  exists s', get_prob_rows s rows dolog comp = Some (s', Ok vals).
Proof.
  intros HC H. revert s HC. induction H as [|p v rows vals Hp Hr IH]; intros s HC; [exists s; reflexivity|].
  cbn [get_prob_rows]. destruct (Hp s HC) as [s1 E]. rewrite E.
  destruct (IH s1) as [s2 F]; [eapply get_prob1_coherent; eauto|]. rewrite F. eauto.
Qed.

(** ** sampling *)
Definition in_step (s : gmixnd) : Prop := n_gmm s = None \/ exists x, n_mix s = Some x /\ n_gmm s = Some (gmm_of x).
Lemma get_prob1_attr s p l c s' r : get_prob1 s p l c = Some (s', r) -> n_mix s' = n_mix s /\ n_gmm s' = n_gmm s.
Proof.
  unfold get_prob1. destruct (n_norm s) as [k|]; [|intros H; inversion H; subst; auto].
  destruct (n_mix s) as [x|] eqn:M; [|intros H; inversion H; subst; auto].
  destruct (n_scr s) as [sc|]; [|intros H; inversion H; subst; auto].
  destruct c as [c|].
  - destruct (kernel_component _ _ _ _ _ _) as [[v sc']|]; [|discriminate]. intros H; inversion H; subst; cbn; auto.
  - destruct (kernel_prob _ _ _ _ _) as [[v sc']|]; [|discriminate]. intros H; inversion H; subst; cbn; auto.
Qed.
Lemma get_prob_rows_attr rows s l c s' r : get_prob_rows s rows l c = Some (s', r) -> n_mix s' = n_mix s /\ n_gmm s' = n_gmm s.
Proof.
  revert s r. induction rows as [|a rows IH]; intros s r; cbn [get_prob_rows]; [intros H; inversion H; subst; auto|].
  destruct (get_prob1 s a l c) as [[s1 [v|e]]|] eqn:E; [| |discriminate].
  - destruct (get_prob1_attr _ _ _ _ _ _ E) as [A B].
    destruct (get_prob_rows s1 rows l c) as [[s2 [vs|e]]|] eqn:F; [| |discriminate]; intros H; inversion H; subst;
      destruct (IH _ _ F) as [A' B']; split; congruence.
  - intros H; inversion H; subst. eapply get_prob1_attr; eauto.
Qed.
Lemma set_mixture_attr s w m c s' r : set_mixture X s w m c = (s', r) ->
  n_gmm s' = n_gmm s /\ n_mix s' = Some (mkMix w (means_shaped m) (covars_shaped c) (len1 w) (nc2 (means_shaped m))).
Proof. unfold set_mixture. destruct (calc_icovars_and_norms X _); intros H; inversion H; subst; auto. Qed.

Lemma step_in_step wd s op wd' s' b : fits_full X -> in_step s -> replaces op = false -> nd_step X (wd, s) op = Some (wd', s', b) -> in_step s'.
Proof.
  intros HF HS. destruct op as [w m c| |data n|p l c|p l c|n]; cbn [nd_step replaces]; intros HR; try discriminate.
  - unfold fit. destruct (e_fit X wd (data_shaped data) n) as [wd1 [g|e]] eqn:EF.
    + destruct (set_mixture X _ (q_weights g) _ (q_covars g)) as [s1 r] eqn:E. intros H; inversion H; subst.
      destruct (set_mixture_attr _ _ _ _ _ _ E) as [A B]. right. eexists. split; [exact B|]. rewrite A. cbn.
      destruct (HF _ _ _ _ _ EF) as [c Hc]. unfold gmm_of. cbn. rewrite Hc. cbn. rewrite <- Hc. destruct g; reflexivity.
    + intros H; inversion H; subst. exact HS.
  - destruct (get_prob1 s p l c) as [[s1 r]|] eqn:E; [|discriminate]. intros H; inversion H; subst.
    destruct (get_prob1_attr _ _ _ _ _ _ E) as [A B]. unfold in_step. rewrite A, B. exact HS.
  - destruct (get_prob_rows s _ l c) as [[s1 r]|] eqn:E; [|discriminate]. intros H; inversion H; subst.
    destruct (get_prob_rows_attr _ _ _ _ _ _ E) as [A B]. unfold in_step. rewrite A, B. exact HS.
  - destruct (sample X wd s n) as [wd1 [s1 r]] eqn:E. intros H; inversion H; subst.
    destruct (sample_state _ _ _ _ _ _ E) as [A [_ [_ [D|[D [x [D1 D2]]]]]]].
    + unfold in_step. rewrite A, D. exact HS.
    + right. exists x. rewrite A. auto.
Qed.
Lemma runs_in_step ws ops ws' : fits_full X -> runs_any X ws ops ws' -> Forall (fun op => replaces op = false) ops -> in_step (snd ws) -> in_step (snd ws').
Proof.
  intros HF. induction 1 as [ws|[wd0 s0] op wd s b ops ws' H HR IH]; intros HO HS; [exact HS|].
  inversion HO; subst. apply IH; [assumption|]. cbn [snd]. eapply step_in_step; eauto.
Qed.
Lemma sample_current wd s x n : in_step s -> n_mix s = Some x ->
  (forall e, e_cholesky X (x_covars x) <> Raise e) ->
  fst (sample X wd s n) = fst (e_sample X (gmm_of x) wd (match n with None => 1%nat | Some n => n end)) /\
  snd (snd (sample X wd s n)) =
    (let* m := snd (e_sample X (gmm_of x) wd (match n with None => 1%nat | Some n => n end)) in
     shape_samples (x_ndim x) (match n with None => true | Some _ => false end) m).
Proof.
  intros [HS|[x' [HX HS]]] HM HCh.
  - unfold sample. rewrite HS. unfold set_gmm. rewrite HM.
    destruct (e_cholesky X (x_covars x)) as [[]|e] eqn:E; [|destruct (HCh e eq_refl)].
    unfold gmm_of. destruct (e_sample X _ wd _) as [wd1 sm]. cbn. rewrite ?HM. auto.
  - rewrite HM in HX. inversion HX; subst x'. unfold sample. rewrite HS.
    destruct (e_sample X (gmm_of x) wd _) as [wd1 sm]. cbn. rewrite ?HM. auto.
Qed.

(** ** one dimension, from 1-dimensional arrays *)
Lemma set_1d_ok s w m c n : linalg_numbers X -> len1 w = n -> (forall i, (i < n)%nat -> 0 < c i) ->
  exists s', set_mixture X s w (Means1 n m) (Covars1 n c) = (s', Ok tt).
Proof.
  intros HX Hw Hc. unfold set_mixture. cbn [means_shaped covars_shaped nc2]. rewrite Hw.
  assert (exists k, calc_icovars_and_norms X (mkMix w (mkA2 n 1 (fun i _ => m i)) (Covars3 (mkA3 n 1 1 (fun i _ _ => c i))) n 1) = Ok k) as [k Hk].
  { unfold calc_icovars_and_norms. cbn [x_ngauss x_ndim x_covars x_weights].
    assert (exists l, mapM (calc_one X 1 (Covars3 (mkA3 n 1 1 (fun i _ _ => c i)))) (seq 0 n) = Ok l) as [l Hl].
    { assert (forall q, (forall i, In i q -> (i < n)%nat) -> exists l, mapM (calc_one X 1 (Covars3 (mkA3 n 1 1 (fun i _ _ => c i)))) q = Ok l) as G.
      { induction q as [|i q IH]; intros Hq; [exists []; reflexivity|]. cbn [mapM].
        assert (i < n)%nat as Hi by (apply Hq; left; reflexivity).
        unfold calc_one at 1, cov_at. cbn [d0 d1 d2 at3]. destruct (Nat.ltb_spec i n); [|lia]. cbn [bind Nat.eqb].
        destruct (HX (fun _ _ => c i) (Hc i Hi)) as [_ [V [E _]]]. rewrite E. cbn [bind assign_icov Nat.eqb].
        destruct IH as [l ->]; [intros j Hj; apply Hq; right; exact Hj|]. cbn [bind]. eexists. reflexivity. }
      apply G. intros i Hi. apply in_seq in Hi. lia. }
    rewrite Hl. cbn [bind]. eexists. reflexivity. }
  rewrite Hk. eexists. reflexivity.
Qed.
Lemma density_1d_gen w m c n v : (forall i, (i < n)%nat -> 0 < c i) ->
  density (mkMix w (mkA2 n 1 (fun i _ => m i)) (Covars3 (mkA3 n 1 1 (fun i _ _ => c i))) n 1) (fun _ => v)
    (sum_n n (fun i => at1 w i * (exp (- (v - m i) ^ 2 / (2 * c i)) / sqrt (2 * PI * c i)))).
Proof.
  intros Hc. eexists. split; [|reflexivity]. cbn [x_ngauss]. intros i Hi. specialize (Hc i Hi).
  exists ((v - m i) ^ 2 / c i). split.
  - exists (fun _ => (v - m i) / c i). split.
    + intros a Ha. unfold covar_of, sum_n. cbn. field. lra.
    + unfold sum_n. cbn. field. lra.
  - unfold gauss_density, covar_of. cbn [x_weights x_ndim x_covars at3]. f_equal. f_equal.
    + f_equal. field. lra.
    + f_equal. cbn. ring.
Qed.
Lemma proper_1d_gen w m c n : len1 w = n -> (forall i, (i < n)%nat -> 0 <= at1 w i) -> (forall i, (i < n)%nat -> 0 < c i) ->
  proper (mkMix w (mkA2 n 1 (fun i _ => m i)) (Covars3 (mkA3 n 1 1 (fun i _ _ => c i))) n 1).
Proof.
  intros Hw H0 Hc. constructor; cbn [x_weights x_means x_covars x_ngauss x_ndim nr2 nc2]; auto.
  - eexists. reflexivity.
  - intros i Hi. unfold covar_of. cbn. specialize (Hc i Hi). lra.
Qed.
Lemma linalg_1d_gen w m c n : linalg_numbers X -> (forall i, (i < n)%nat -> 0 < c i) ->
  linalg_ok X (mkMix w (mkA2 n 1 (fun i _ => m i)) (Covars3 (mkA3 n 1 1 (fun i _ _ => c i))) n 1).
Proof.
  intros HX Hc i Hi. cbn [x_ngauss x_ndim] in *. unfold covar_of. cbn [x_covars at3]. specialize (Hc i Hi).
  destruct (HX (fun _ _ => c i) Hc) as [HD [V [E HV]]]. split.
  - rewrite HD. unfold mdet, sum_n. cbn. ring.
  - exists V. split; [exact E|]. split; intros a b Ha Hb; replace a with 0%nat by lia; replace b with 0%nat by lia;
      unfold delta, sum_n; cbn; rewrite HV; field; lra.
Qed.
Theorem prob_1d_gen s w m c n v : linalg_numbers X -> len1 w = n -> (forall i, (i < n)%nat -> 0 <= at1 w i) -> (forall i, (i < n)%nat -> 0 < c i) ->
  exists s' s'', set_mixture X s w (Means1 n m) (Covars1 n c) = (s', Ok tt) /\
    get_prob_scalar s' (point 1 (fun _ => v)) None =
      Some (s'', Ok (Fin (sum_n n (fun i => at1 w i * (exp (- (v - m i) ^ 2 / (2 * c i)) / sqrt (2 * PI * c i)))))).
Proof.
  intros HX Hw H0 Hc. destruct (set_1d_ok s w m c n HX Hw Hc) as [s' E]. pose proof (set_mixture_coherent _ _ _ _ _ E) as HC.
  cbn [means_shaped covars_shaped nc2] in HC. rewrite Hw in HC.
  destruct (prob_is_density s' _ (fun _ => v) (point 1 (fun _ => v)) false HC (proper_1d_gen w m c n Hw H0 Hc) (linalg_1d_gen w m c n HX Hc)) as [p [s'' [_ [HU [_ EP]]]]]; auto.
  exists s', s''. split; [exact E|]. unfold get_prob_scalar. rewrite EP. rewrite (HU _ (density_1d_gen w m c n v Hc)). reflexivity.
Qed.
End Obj.
