(** Theorems about GMixND: C78, C107-C109. *)
From Verif Require Import Base XReal Priors_Model GMixND_Model GMixND_Spec GMixND_Proofs GMixNDCex_Proofs.
Local Open Scope R_scope.

(** ** C78: the value is the density of the mixture *)

(** after any calls, provided that those which set the mixture returned: the value is the density of
    the mixture given by the attributes, or its logarithm; the density exists and is unique *)
Theorem C78_density : forall W (X : ext W) wd file w m c s ops wd' s' x v,
  new_nd X wd file w m c = Ok s -> runs X (wd, s) ops (wd', s') -> n_mix s' = Some x -> proper x -> linalg_ok X x ->
  exists p s1 s2, density x v p /\ (forall p', density x v p' -> p' = p) /\ 0 <= p /\
    get_prob_scalar s' (point (x_ndim x) v) None = Some (s1, Ok (Fin p)) /\
    get_lnprob_scalar s' (point (x_ndim x) v) None = Some (s2, Ok (xlog (Fin p))).
Proof.
  intros W X wd file w m c s ops wd' s' x v HN HR HM HP HL.
  destruct (runs_sound X _ _ _ HR (new_sound X _ _ _ _ _ _ HN)) as [HS|[x' HC]]; cbn [snd] in *.
  - rewrite HS in HM. discriminate.
  - pose proof (co_mix X _ _ HC) as HM'. assert (x' = x) by congruence. subst x'.
    destruct (prob_is_density X s' x v (point (x_ndim x) v) false HC HP HL) as [p [s1 [Hd [HU [H0 E]]]]]; auto.
    destruct (prob_is_density X s' x v (point (x_ndim x) v) true HC HP HL) as [p2 [s2 [Hd2 [_ [_ E2]]]]]; auto.
    rewrite (HU _ Hd2) in E2. exists p, s1, s2. auto.
Qed.
Print Assumptions C78_density.

(** the same for one component; other numbers are refused *)
Theorem C78_component : forall W (X : ext W) wd file w m c s ops wd' s' x v,
  new_nd X wd file w m c = Ok s -> runs X (wd, s) ops (wd', s') -> n_mix s' = Some x -> proper x -> linalg_ok X x ->
  (forall i, (i < x_ngauss x)%nat -> exists p s1 s2, component_density x v i p /\ (forall p', component_density x v i p' -> p' = p) /\ 0 <= p /\
    get_prob_scalar s' (point (x_ndim x) v) (Some (Z.of_nat i)) = Some (s1, Ok (Fin p)) /\
    get_lnprob_scalar s' (point (x_ndim x) v) (Some (Z.of_nat i)) = Some (s2, Ok (xlog (Fin p)))) /\
  (forall z, (z < 0 \/ Z.of_nat (x_ngauss x) <= z)%Z ->
    exists s1 s2, get_prob_scalar s' (point (x_ndim x) v) (Some z) = Some (s1, Raise AssertionError) /\
      get_lnprob_scalar s' (point (x_ndim x) v) (Some z) = Some (s2, Raise AssertionError)).
Proof.
  intros W X wd file w m c s ops wd' s' x v HN HR HM HP HL.
  destruct (runs_sound X _ _ _ HR (new_sound X _ _ _ _ _ _ HN)) as [HS|[x' HC]]; cbn [snd] in *.
  - rewrite HS in HM. discriminate.
  - pose proof (co_mix X _ _ HC) as HM'. assert (x' = x) by congruence. subst x'. split.
    + intros i Hi.
      destruct (component_is_density X s' x v (point (x_ndim x) v) false i HC HP HL) as [p [s1 [Hd [HU [H0 E]]]]]; auto.
      destruct (component_is_density X s' x v (point (x_ndim x) v) true i HC HP HL) as [p2 [s2 [Hd2 [_ [_ E2]]]]]; auto.
      rewrite (HU _ Hd2) in E2. exists p, s1, s2. auto 6.
    + intros z Hz. destruct (component_range X s' x (point (x_ndim x) v) false z HC Hz) as [s1 E].
      destruct (component_range X s' x (point (x_ndim x) v) true z HC Hz) as [s2 E2]. exists s1, s2. auto.
Qed.
Print Assumptions C78_component.

(** arrays of points: the density of each, in order *)
Theorem C78_arrays : forall W (X : ext W) wd file w m c s ops wd' s' x n (vs : nat -> nat -> R) (dolog : bool),
  new_nd X wd file w m c = Ok s -> runs X (wd, s) ops (wd', s') -> n_mix s' = Some x -> proper x -> linalg_ok X x ->
  exists ps (s'' : gmixnd), Forall2 (density x) (map vs (seq 0 n)) ps /\
    (if dolog then get_lnprob_array else get_prob_array) s' (inr (mkA2 n (x_ndim x) (fun i j => Fin (vs i j)))) None =
      Some (s'', Ok (map (fun p => if dolog then xlog (Fin p) else Fin p) ps)).
Proof.
  intros W X wd file w m c s ops wd' s' x n vs dolog HN HR HM HP HL.
  destruct (runs_sound X _ _ _ HR (new_sound X _ _ _ _ _ _ HN)) as [HS|[x' HC]]; cbn [snd] in *.
  { rewrite HS in HM. discriminate. }
  pose proof (co_mix X _ _ HC) as HM'. assert (x' = x) by congruence. subst x'.
  assert (exists ps, Forall2 (density x) (map vs (seq 0 n)) ps) as [ps Hps].
  { generalize (seq 0 n). induction l as [|i l [ps IH]]; [exists []; constructor|].
    destruct (prob_is_density X s' x (vs i) (point (x_ndim x) (vs i)) dolog HC HP HL) as [p [s1 [Hd _]]]; [cbn; lia|reflexivity|].
    exists (p :: ps). constructor; assumption. }
  exists ps.
  destruct (rows_scalar X s' x (map (row_arr (mkA2 n (x_ndim x) (fun i j => Fin (vs i j)))) (seq 0 n)) dolog None
              (map (fun p => if dolog then xlog (Fin p) else Fin p) ps) HC) as [s'' E].
  { clear HR. revert ps Hps. generalize (seq 0 n). induction l as [|i l IH]; intros ps Hps; inversion Hps; subst; cbn [map]; constructor.
    - intros s0 HC0. destruct (prob_is_density X s0 x (vs i) (row_arr (mkA2 n (x_ndim x) (fun i j => Fin (vs i j))) i) dolog HC0 HP HL) as [p [s1 [_ [HU [_ E]]]]]; [cbn; lia|reflexivity|].
      exists s1. rewrite E. rewrite (HU _ H1). reflexivity.
    - apply IH. assumption. }
  exists s''. split; [exact Hps|]. destruct dolog; exact E.
Qed.
Print Assumptions C78_arrays.

(** in one dimension, also for a plain array of numbers *)
Theorem C78_arrays_1d : forall W (X : ext W) wd file w m c s ops wd' s' x n (v : nat -> R) (dolog : bool),
  new_nd X wd file w m c = Ok s -> runs X (wd, s) ops (wd', s') -> n_mix s' = Some x -> proper x -> linalg_ok X x -> x_ndim x = 1%nat ->
  exists ps s'', Forall2 (density x) (map (fun i _ => v i) (seq 0 n)) ps /\
    (if dolog then get_lnprob_array else get_prob_array) s' (inl (mkA1 n (fun i => Fin (v i)))) None =
      Some (s'', Ok (map (fun p => if dolog then xlog (Fin p) else Fin p) ps)).
Proof.
  intros W X wd file w m c s ops wd' s' x n v dolog HN HR HM HP HL HD.
  destruct (C78_arrays W X wd file w m c s ops wd' s' x n (fun i _ => v i) dolog HN HR HM HP HL) as [ps [s'' [A B]]].
  exists ps, s''. split; [exact A|]. rewrite HD in B. destruct dolog; exact B.
Qed.
Print Assumptions C78_arrays_1d.

(** in one dimension, with 1-dimensional means and covars: the usual formula *)
Theorem C78_one_dimension : forall W (X : ext W) s w m c n v,
  linalg_numbers X -> len1 w = n -> (forall i, (i < n)%nat -> 0 <= at1 w i) -> (forall i, (i < n)%nat -> 0 < c i) ->
  exists s' s'', set_mixture X s w (Means1 n m) (Covars1 n c) = (s', Ok tt) /\
    get_prob_scalar s' (point 1 (fun _ => v)) None =
      Some (s'', Ok (Fin (sum_n n (fun i => at1 w i * (exp (- (v - m i) ^ 2 / (2 * c i)) / sqrt (2 * PI * c i)))))).
Proof. intros W X. exact (prob_1d_gen X). Qed.
Print Assumptions C78_one_dimension.
Example C78_one_dimension_hypotheses_hold : linalg_numbers ext12 /\ len1 ex_w = 2%nat /\ (forall i, (i < 2)%nat -> 0 <= at1 ex_w i).
Proof.
  split; [|split; [reflexivity|intros i Hi; two; cbn; lra]]. intros M HM. split.
  - unfold ext12, e_det, mdet, sum_n. cbn. ring.
  - unfold ext12, e_inv, inv12. rewrite Reqb_f by lra. eexists. split; reflexivity.
Qed.

(** two gaussians in two dimensions *)
Example C78_hypotheses_hold :
  proper ex_x /\ linalg_ok ext12 ex_x /\
  exists s, new_nd ext12 tt false (Some ex_w) (Some (Means2 ex_m)) (Some ex_c) = Ok s /\ n_mix s = Some ex_x /\ runs ext12 (tt, s) [] (tt, s).
Proof.
  split; [exact ex_proper|]. split; [exact ex_linalg|]. destruct ex_set as [s [A B]]. exists s. split; [exact A|]. split; [exact B|constructor].
Qed.

(** ** C107: sampling *)

(** sample draws from the mixture of the attributes, as long as set_mixture and load_mixture are not
    called on the object after it was made *)
Theorem C107_current : forall W (X : ext W) wd file w m c s ops wd' s' x n,
  fits_full X -> new_nd X wd file w m c = Ok s -> runs_any X (wd, s) ops (wd', s') -> Forall (fun op => replaces op = false) ops ->
  n_mix s' = Some x -> (forall e, e_cholesky X (x_covars x) <> Raise e) ->
  fst (sample X wd' s' n) = fst (e_sample X (gmm_of x) wd' (match n with None => 1%nat | Some n => n end)) /\
  snd (snd (sample X wd' s' n)) =
    (let* m := snd (e_sample X (gmm_of x) wd' (match n with None => 1%nat | Some n => n end)) in
     shape_samples (x_ndim x) (match n with None => true | Some _ => false end) m).
Proof.
  intros W X wd file w m c s ops wd' s' x n HF HN HR HO HM HCh. apply (sample_current X); auto.
  apply (runs_in_step X (wd, s) ops (wd', s') HF HR HO). left. cbn [snd].
  revert HN. unfold new_nd, load_mixture. destruct file.
  - destruct (e_file X wd) as [[[w' m'] c']|e]; [|discriminate].
    destruct (set_mixture X empty_nd w' m' c') as [s1 r] eqn:E. destruct (set_mixture_attr X _ _ _ _ _ _ E) as [A _].
    destruct r; cbn; intros H; inversion H; subst. exact A.
  - destruct w as [w|], m as [m|], c as [c|]; try discriminate.
    + destruct (set_mixture X empty_nd w m c) as [s1 r] eqn:E. destruct (set_mixture_attr X _ _ _ _ _ _ E) as [A _].
      destruct r; cbn; intros H; inversion H; subst. exact A.
    + intros H; inversion H; subst. reflexivity.
Qed.
Print Assumptions C107_current.

(** what is returned: a number or one point without n; n of them otherwise *)
Theorem C107_shape : forall ndim m, (0 < nr2 m)%nat -> nc2 m = ndim -> (0 < ndim)%nat ->
  shape_samples ndim true m = Ok (if Nat.eqb ndim 1 then SNum (at2d m 0 0) else S1 (mkA1 ndim (at2d m 0))) /\
  shape_samples ndim false m = Ok (if Nat.eqb ndim 1 then S1 (mkA1 (nr2 m) (fun i => at2d m i 0%nat)) else S2 m).
Proof.
  intros ndim m HR HC HD. unfold shape_samples. rewrite HC. destruct (Nat.ltb_spec 0 ndim); [|lia]. destruct (Nat.ltb_spec 0 (nr2 m)); [|lia].
  destruct (Nat.eqb ndim 1); split; reflexivity.
Qed.
Print Assumptions C107_shape.

(** after a first sample, set_mixture has no effect on sampling *)
Theorem C107_replaced_refuted : exists (W : Type) (X : ext W) wd s s1 s2 x n,
  new_nd X wd false (Some one_w) (Some (Means1 1 (fun _ => 0))) (Some (Covars1 1 (fun _ => 1))) = Ok s /\
  fst (snd (sample X wd s n)) = s1 /\
  set_mixture X s1 one_w (Means1 1 (fun _ => 5)) (Covars1 1 (fun _ => 1)) = (s2, Ok tt) /\ n_mix s2 = Some x /\
  (forall e, e_cholesky X (x_covars x) <> Raise e) /\
  snd (snd (sample X wd s2 n)) = Ok (SNum 0) /\
  (let* m := snd (e_sample X (gmm_of x) wd 1%nat) in shape_samples (x_ndim x) true m) = Ok (SNum 5).
Proof.
  exists unit, ext12, tt, st_ok, smp_s, smp_s2, (x_1d 1 5), None.
  split. { unfold new_nd. rewrite (set_1d empty_nd 1 0 R1_neq_R0). reflexivity. }
  split; [reflexivity|]. split; [apply set_1d; apply R1_neq_R0|].
  destruct stale_sample as [s' [A B]]. split; [exact A|]. split; [discriminate|]. split; [rewrite B; reflexivity|]. reflexivity.
Qed.
Print Assumptions C107_replaced_refuted.

Example C107_hypotheses_hold : fits_full ext12 /\ new_nd ext12 tt false (Some one_w) (Some (Means1 1 (fun _ => 0))) (Some (Covars1 1 (fun _ => 1))) = Ok st_ok /\
  exists ws, runs_any ext12 (tt, st_ok) [OpSample None; OpSample (Some 3%nat)] ws /\ n_mix (snd ws) = Some (x_1d 1 0).
Proof.
  split; [intros wd data n wd' g H; discriminate|]. split; [unfold new_nd; rewrite (set_1d empty_nd 1 0 R1_neq_R0); reflexivity|].
  destruct (sample ext12 tt st_ok None) as [[] [s1 r1]] eqn:E1. destruct (sample ext12 tt s1 (Some 3%nat)) as [[] [s2 r2]] eqn:E2.
  exists (tt, s2). split.
  - eapply any_cons; [cbn; rewrite E1; reflexivity|]. eapply any_cons; [cbn; rewrite E2; reflexivity|]. constructor.
  - cbn [snd]. destruct (sample_state ext12 _ _ _ _ _ _ E1) as [A _]. destruct (sample_state ext12 _ _ _ _ _ _ E2) as [B _].
    rewrite B, A. apply (co_mix ext12 _ _ (coherent_1d empty_nd 1 0 Rlt_0_1)).
Qed.

(** ** C108: a set_mixture that raises *)

(** the singular covariance is refused, but the object then evaluates the old gaussian at the new
    mean: neither mixture *)
Theorem C108_failed_set_refuted : exists (W : Type) (X : ext W) wd s s' w m c v p p',
  new_nd X wd false (Some one_w) (Some (Means1 1 (fun _ => 0))) (Some (Covars1 1 (fun _ => 1))) = Ok s /\
  set_mixture X s w m c = (s', Raise LinAlgError) /\
  option_map snd (get_prob_scalar s v None) = Some (Ok (Fin p)) /\ option_map snd (get_prob_scalar s' v None) = Some (Ok (Fin p')) /\ p < p'.
Proof.
  exists unit, ext12, tt, st_ok, st_bad, one_w, (Means1 1 (fun _ => 5)), (Covars1 1 (fun _ => 0)), (point 1 (fun _ => 5)).
  destruct ok_prob as [s1 [p [A B]]]. destruct bad_prob as [s2 C]. exists p, (/ sqrt (2 * PI)).
  split. { unfold new_nd. rewrite (set_1d empty_nd 1 0 R1_neq_R0). reflexivity. }
  split. { unfold st_bad. rewrite <- bad_raises. apply surjective_pairing. }
  unfold get_prob_scalar. rewrite A, C. auto.
Qed.
Print Assumptions C108_failed_set_refuted.

(** ** C109: the shapes of the arguments *)

(** what is accepted: covariances in a 3-dimensional array, square, one for each weight; of the
    dimension of the means, or of dimension one *)
Theorem C109_accepted : forall W (X : ext W) s w m c s', set_mixture X s w m c = (s', Ok tt) -> (0 < len1 w)%nat ->
  exists k, covars_shaped c = Covars3 k /\ (len1 w <= d0 k)%nat /\ d1 k = d2 k /\ (d1 k = nc2 (means_shaped m) \/ d1 k = 1%nat).
Proof.
  intros W X s w m c s' H Hw. pose proof (set_mixture_coherent X _ _ _ _ _ H) as [_ [k [_ HK]] _ _ _].
  unfold calc_icovars_and_norms in HK. cbn [x_ngauss x_ndim x_covars] in HK. destruct (mapM _ _) as [l|e] eqn:E in HK; [|discriminate].
  assert (forall i, (i < len1 w)%nat -> exists y, calc_one X (nc2 (means_shaped m)) (covars_shaped c) i = Ok y) as G.
  { intros i Hi. eexists. apply (nth_mapM_ok _ _ _ i i (Fin 0, fun _ _ => 0) E (nth_error_seq0 _ _ Hi)). }
  destruct (covars_shaped c) as [| |q]; [destruct (G 0%nat Hw) as [y Hy]; discriminate|destruct (G 0%nat Hw) as [y Hy]; discriminate|].
  exists q. split; [reflexivity|]. split.
  - destruct (Nat.le_gt_cases (len1 w) (d0 q)) as [|Hlt]; [assumption|]. exfalso.
    destruct (G (d0 q) Hlt) as [y Hy]. unfold calc_one, cov_at in Hy. rewrite Nat.ltb_irrefl in Hy. discriminate.
  - destruct (G 0%nat Hw) as [y Hy]. unfold calc_one, cov_at in Hy. destruct (Nat.ltb 0 (d0 q)); [|discriminate]. cbn [bind] in Hy.
    destruct (Nat.eqb_spec (d1 q) (d2 q)) as [Hd|]; [|discriminate]. split; [exact Hd|].
    destruct (e_inv X (d1 q) (at3 q 0)); [|discriminate]. cbn [bind] in Hy. unfold assign_icov in Hy.
    destruct (Nat.eqb_spec (d1 q) (nc2 (means_shaped m))); [auto|]. destruct (Nat.eqb_spec (d1 q) 1); [auto|discriminate].
Qed.
Print Assumptions C109_accepted.

(** covariances of dimension one are accepted for means of dimension two; along the diagonal the
    "density" then does not decrease *)
Theorem C109_shapes_refuted : exists (W : Type) (X : ext W) s w m c,
  set_mixture X empty_nd w m c = (s, Ok tt) /\ nc2 (means_shaped m) = 2%nat /\ covars_shaped c = Covars3 (mkA3 1 1 1 (fun _ _ _ => 4)) /\
  forall t, option_map snd (get_lnprob_scalar s (point 2 (fun j => if Nat.eqb j 0 then t else - t)) None) =
            option_map snd (get_lnprob_scalar s (point 2 (fun _ => 0)) None) /\
            exists r, option_map snd (get_lnprob_scalar s (point 2 (fun _ => 0)) None) = Some (Ok (Fin r)).
Proof.
  exists unit, ext12, flat_s, one_w, flat_m, flat_c.
  split. { unfold flat_s. rewrite <- flat_accepted. apply surjective_pairing. }
  split; [reflexivity|]. split; [reflexivity|]. intros t. destruct (flat_diagonal t) as [s' [s'' [A B]]]. unfold get_lnprob_scalar. rewrite A, B. split; [reflexivity|]. eexists. reflexivity.
Qed.
Print Assumptions C109_shapes_refuted.
