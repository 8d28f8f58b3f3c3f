From Verif Require Import Base Shape_Model Moments_Model Jacobian_Model Pixels_Model GMix_Model Obs_Model ObsVal_Model SimObs_Model SimObs_Spec Metacal_Model Metacal_Spec.
Local Open Scope R_scope.

Lemma shear_dilation_spec sh : shear_dilation sh = 1 + 2 * sqrt (sh_g1 sh ^ 2 + sh_g2 sh ^ 2) /\ 1 <= shear_dilation sh.
Proof. unfold shear_dilation. split; [auto|]. pose proof (sqrt_pos (sh_g1 sh ^ 2 + sh_g2 sh ^ 2)). lra. Qed.
(** shear stretches lengths by at most sqrt((1+g)/(1-g)) *)
Lemma dilation_covers sh : let g := sqrt (sh_g1 sh ^ 2 + sh_g2 sh ^ 2) in 0 < g -> g < 1 ->
  (sqrt ((1 + g) / (1 - g)) <= shear_dilation sh <-> 2 * g ^ 2 <= 1).
Proof.
  cbv zeta. set (g := sqrt _). intros P H. unfold shear_dilation. fold g. split.
  - intros L. apply Rnot_lt_le. intros C.
    assert (Q : sqrt ((1 + g) / (1 - g)) ^ 2 <= (1 + 2 * g) ^ 2).
    { apply pow_incr. split; [apply sqrt_pos|exact L]. }
    rewrite pow2_sqrt in Q by (apply Rmult_le_pos; [lra|apply Rlt_le, Rinv_0_lt_compat; lra]).
    apply Rmult_le_compat_r with (r := 1 - g) in Q; [|lra]. unfold Rdiv in Q. rewrite Rmult_assoc, Rinv_l, Rmult_1_r in Q by lra. nra.
  - intros L. apply Rsqr_incr_0_var; [|lra]. rewrite Rsqr_sqrt; [|apply Rmult_le_pos; [lra|apply Rlt_le, Rinv_0_lt_compat; lra]].
    unfold Rsqr. apply Rmult_le_reg_r with (1 - g); [lra|]. unfold Rdiv. rewrite Rmult_assoc, Rinv_l, Rmult_1_r by lra. nra.
Qed.

(** ---- ellipticity ---- *)
Lemma eigmax_e e1 e2 T irr irc icc : e2mom e1 e2 T = (irr, irc, icc) -> eigmax irr irc icc = T / 2 + Rabs (T / 2) * sqrt (e1 ^ 2 + e2 ^ 2).
Proof.
  unfold e2mom. intros [= <- <- <-]. unfold eigmax.
  replace ((((1 - e1) * T / 2 - (1 + e1) * T / 2) / 2) ^ 2 + (e2 * T / 2) ^ 2) with ((T / 2) ^ 2 * (e1 ^ 2 + e2 ^ 2)) by field.
  rewrite sqrt_mult by nra. replace (sqrt ((T / 2) ^ 2)) with (Rabs (T / 2)); [field|].
  rewrite <- (sqrt_Rsqr_abs (T / 2)). f_equal. unfold Rsqr. ring.
Qed.
Lemma ellip_dilation_spec e1 e2 T : 0 < T -> exists d, get_ellip_dilation e1 e2 T = Some d /\
  d = Rmin (11 / 10) (2 * sqrt (1 + sqrt (e1 ^ 2 + e2 ^ 2)) - 1) /\ 1 <= d <= 11 / 10.
Proof.
  intros P. unfold get_ellip_dilation. destruct (e2mom e1 e2 T) as [[irr irc] icc] eqn:E. rewrite (eigmax_e _ _ _ _ _ _ E).
  set (e := sqrt (e1 ^ 2 + e2 ^ 2)). assert (Pe : 0 <= e) by apply sqrt_pos.
  rewrite Reqb_f by lra. rewrite Rabs_right by lra.
  replace ((T / 2 + T / 2 * e) / (T / 2)) with (1 + e) by (field; lra). rewrite Rltb_f by lra.
  assert (Q : 1 <= sqrt (1 + e)). { rewrite <- sqrt_1 at 1. apply sqrt_le_1_alt. lra. }
  eexists. split; [reflexivity|]. replace (1 + 2 * (sqrt (1 + e) - 1)) with (2 * sqrt (1 + e) - 1) by ring.
  unfold Rmin. destruct (Rltb_spec (11 / 10) (2 * sqrt (1 + e) - 1)), (Rle_dec (11 / 10) (2 * sqrt (1 + e) - 1)); lra.
Qed.
Lemma ellip_dilation_zero e1 e2 : get_ellip_dilation e1 e2 0 = None.
Proof. unfold get_ellip_dilation, e2mom. rewrite Reqb_t by lra. reflexivity. Qed.
(** negative T: a factor below 1 *)
Lemma ellip_dilation_negative e1 e2 T : T < 0 -> 0 < sqrt (e1 ^ 2 + e2 ^ 2) <= 1 ->
  exists d, get_ellip_dilation e1 e2 T = Some d /\ d < 1.
Proof.
  intros P H. unfold get_ellip_dilation. destruct (e2mom e1 e2 T) as [[irr irc] icc] eqn:E. rewrite (eigmax_e _ _ _ _ _ _ E).
  set (e := sqrt (e1 ^ 2 + e2 ^ 2)) in *. rewrite Reqb_f by lra. rewrite Rabs_left by lra.
  replace ((T / 2 + - (T / 2) * e) / (T / 2)) with (1 - e) by (field; lra). rewrite Rltb_f by lra.
  assert (Q : sqrt (1 - e) < 1). { rewrite <- sqrt_1 at 2. apply sqrt_lt_1_alt. lra. }
  rewrite Rltb_f by lra. eexists. split; [reflexivity|]. lra.
Qed.
Lemma fit_sigma_spec e1 e2 T : 0 < T -> exists s d, fit_sigma e1 e2 T = Some s /\ get_ellip_dilation e1 e2 T = Some d /\ 0 < s /\ s ^ 2 = T / 2 * d.
Proof.
  intros P. destruct (ellip_dilation_spec e1 e2 T P) as (d & E & _ & D1 & D2). unfold fit_sigma. rewrite E.
  rewrite Rltb_f by nra. exists (sqrt (T * d / 2)), d. split; [auto|]. split; [auto|]. split; [apply sqrt_lt_R0; nra|].
  rewrite pow2_sqrt by nra. field.
Qed.
(** the kernel of fitgauss: round psfs are covered *)
Lemma fit_covers_round T sh : 0 < T -> let g := sqrt (sh_g1 sh ^ 2 + sh_g2 sh ^ 2) in 0 < g -> 2 * g ^ 2 <= 1 ->
  exists s, fit_sigma 0 0 T = Some s /\ T / 2 * ((1 + g) / (1 - g)) <= (s * shear_dilation sh) ^ 2.
Proof.
  intros P g Pg L. assert (Hg : g < 1) by nra. destruct (fit_sigma_spec 0 0 T P) as (s & d & E & Ed & Ps & Es). exists s. split; [auto|].
  destruct (ellip_dilation_spec 0 0 T P) as (d' & E' & D & _). rewrite Ed in E'. injection E' as <-.
  replace (0 ^ 2 + 0 ^ 2) with 0 in D by ring. rewrite sqrt_0, Rplus_0_r, sqrt_1 in D.
  rewrite Rmin_right in D by lra. rewrite D in Es. rewrite Rpow_mult_distr, Es. unfold shear_dilation. fold g.
  replace (T / 2 * (2 * 1 - 1) * (1 + 2 * g) ^ 2) with (T / 2 * (1 + 2 * g) ^ 2) by ring.
  apply Rmult_le_compat_l; [lra|]. apply Rmult_le_reg_r with (1 - g); [lra|]. unfold Rdiv. rewrite Rmult_assoc, Rinv_l, Rmult_1_r by lra. nra.
Qed.
(** a psf of ellipticity 0.2 is not: along its major axis it is wider, before and after the
    shear of the kernel *)
Lemma fit_too_small : exists e1 e2 T sh s, 0 < T /\ Shape_init (1 / 100) 0 = Ok sh /\ fit_sigma e1 e2 T = Some s /\
  s ^ 2 < T / 2 * (1 + sqrt (e1 ^ 2 + e2 ^ 2)) /\ (s * shear_dilation sh) ^ 2 < T / 2 * (1 + sqrt (e1 ^ 2 + e2 ^ 2)).
Proof.
  destruct (fit_sigma_spec (1 / 5) 0 1 ltac:(lra)) as (s & d & E & Ed & Ps & Es).
  destruct (ellip_dilation_spec (1 / 5) 0 1 ltac:(lra)) as (d' & E' & _ & _ & D). rewrite Ed in E'. injection E' as <-.
  assert (Q : sqrt ((1 / 5) ^ 2 + 0 ^ 2) = 1 / 5) by (replace ((1 / 5) ^ 2 + 0 ^ 2) with ((1 / 5) ^ 2) by ring; rewrite sqrt_pow2; lra).
  assert (Q2 : sqrt ((1 / 100) ^ 2 + 0 ^ 2) = 1 / 100) by (replace ((1 / 100) ^ 2 + 0 ^ 2) with ((1 / 100) ^ 2) by ring; rewrite sqrt_pow2; lra).
  unfold Shape_init. 
  exists (1 / 5), 0, 1. eexists. exists s. split; [lra|]. split.
  { rewrite Rleb_f; [reflexivity|]. replace (1 / 100 * (1 / 100) + 0 * 0) with ((1 / 100) ^ 2 + 0 ^ 2) by ring. rewrite Q2. lra. }
  split; [auto|]. rewrite Q. unfold shear_dilation. cbn [sh_g1 sh_g2]. rewrite Q2. rewrite Rpow_mult_distr. rewrite Es. split; nra.
Qed.

(** ---- the Gaussian target ---- *)
Section Target.
Variable G : galsim.
Lemma np_min_ok l m : np_min l = Ok m -> In m l /\ forall x, In x l -> m <= x.
Proof.
  unfold np_min. destruct l as [|a l]; [discriminate|]. intros [= <-]. revert a. induction l as [|b l IH]; intros a; cbn [fold_left].
  - split; [left; auto|]. intros x [<-|[]]. lra.
  - destruct (IH (Rmin a b)) as [I1 I2]. split.
    + destruct I1 as [I1|I1]; [|right; right; auto]. rewrite <- I1. unfold Rmin. destruct (Rle_dec a b); cbn; auto.
    + intros x [<-|[<-|Hx]]; [| |apply I2; right; auto].
      * apply Rle_trans with (Rmin a b); [apply I2; left; auto|apply Rmin_l].
      * apply Rle_trans with (Rmin a b); [apply I2; left; auto|apply Rmin_r].
Qed.
Lemma kgrid_in n r c : In (r, c) (kgrid n) <-> (r < n)%nat /\ (c < n)%nat.
Proof.
  unfold kgrid. rewrite in_flat_map. split.
  - intros (x & Hx & H). apply in_map_iff in H as (y & [= -> ->] & Hy). apply in_seq in Hx, Hy. lia.
  - intros [H1 H2]. exists r. split; [apply in_seq; lia|]. apply in_map_iff. exists c. split; [auto|apply in_seq; lia].
Qed.
Theorem gauss_target_spec p flux q : gauss_target_psf G p flux = Ok q ->
  let dk := gs_stepk G p / 4 in
  exists n k r c sigma, gs_kimage G dk p = Ok (n, k) /\ (r < n)%nat /\ (c < n)%nat /\
    k r c < gs_flux G p / 100 /\
    (forall r' c', (r' < n)%nat -> (c' < n)%nat -> ksq dk n r' c' < ksq dk n r c -> gs_flux G p / 100 <= k r' c') /\
    gs_gaussian G (Some sigma) flux = Ok q /\ exp (- (ksq dk n r c * sigma ^ 2 / 2)) = 3 / 1000.
Proof.
  unfold gauss_target_psf, ksq_max. cbv zeta. set (dk := gs_stepk G p / 4).
  destruct (gs_kimage G dk p) as [[n k]|] eqn:E; cbn [bind]; [|discriminate].
  destruct (np_min _) as [m|] eqn:M; cbn [bind]; [|discriminate]. destruct (np_min_ok _ _ M) as [M1 M2].
  destruct (Reqb_spec m 0) as [Z|Z]; [discriminate|]. intros H.
  apply in_map_iff in M1 as ([r c] & Hm & Hf). apply filter_In in Hf as [Hg Hk]. cbn [fst snd] in *. apply kgrid_in in Hg as [Hr Hc].
  apply Rltb_true in Hk. unfold small_kval in *. exists n, k, r, c, (sqrt (- (2) * ln smaller_kval / m)).
  assert (Pm : 0 < m). { subst m. unfold ksq in *. pose proof (pow2_ge_0 (INR c - INR n / 2)). pose proof (pow2_ge_0 (INR r - INR n / 2)). pose proof (pow2_ge_0 dk). assert (0 <= ((INR c - INR n / 2) ^ 2 + (INR r - INR n / 2) ^ 2) * dk ^ 2) by (apply Rmult_le_pos; lra). lra. }
  assert (Ln : ln smaller_kval < 0). { rewrite <- ln_1. apply ln_increasing; unfold smaller_kval; lra. }
  split; [auto|]. split; [auto|]. split; [auto|]. split; [lra|]. split.
  - intros r' c' H1 H2 L. apply Rnot_lt_le. intros C. rewrite Hm in L.
    assert (X : m <= ksq dk n r' c'); [|lra]. apply M2. apply in_map_iff. exists (r', c'). split; [auto|]. apply filter_In. split; [apply kgrid_in; auto|].
    cbn [fst snd]. apply Rltb_t. lra.
  - split; [exact H|]. rewrite Hm. rewrite pow2_sqrt; [|apply Rmult_le_pos; [nra|apply Rlt_le, Rinv_0_lt_compat; auto]].
    replace (- (m * (- (2) * ln smaller_kval / m) / 2)) with (ln smaller_kval) by (field; auto). apply exp_ln. unfold smaller_kval. lra.
Qed.
End Target.

(** ---- the input ---- *)
Section Input.
Variable G : galsim.
Variable fstr : R -> String.string.
Variable W : Type.
Variable normal : W -> nat -> nat -> W * arr2 R.
Variables (admom maxlike : W -> obsval -> W * res pfit).
Variable psf : psfarg G.
Variable step : R.
Notation metacal_one := (metacal_one G fstr W normal admom maxlike).
Notation metacal_list := (metacal_list G fstr W normal admom maxlike).
Notation metacal_mb := (metacal_mb G fstr W normal admom maxlike).

Lemma psf_same v : v_psf v = None \/ exists p, v_psf v = Some p /\ v_set_psf v p = v.
Proof. destruct v as [im w j opts g d st ig [p|]]; [right; exists p; split; reflexivity|left; reflexivity]. Qed.
Lemma store_fit p f p' r : v_store p f = (p', r) -> exists g d, p' = new_fit p g d.
Proof.
  unfold v_store. destruct p as [im w j opts g d st ig q]. destruct (Z.eqb (pf_flags f) 0).
  - destruct (let* gm := pf_gmix f in gm_copy gm); intros [= <- _]; do 2 eexists; reflexivity.
  - intros [= <- _]. do 2 eexists. reflexivity.
Qed.
Lemma fit_fit p flux w w' p' r : do_psf_fit G W admom maxlike p flux w = (w', p', r) -> exists g d, p' = new_fit p g d.
Proof.
  assert (Same : exists g d, p = new_fit p g d) by (destruct p; do 2 eexists; reflexivity).
  unfold do_psf_fit. destruct (admom w p) as [w1 [f|]]; [|intros [= _ <- _]; exact Same].
  destruct (v_store p f) as [p1 [u|]] eqn:E; [|intros [= _ <- _]; exact (store_fit _ _ _ _ E)].
  pose proof (store_fit _ _ _ _ E) as S. destruct (Z.eqb _ 0); [intros [= _ <- _]; exact S|].
  destruct (maxlike w1 p1) as [w2 [f2|]]; intros [= _ <- _]; exact S.
Qed.
Lemma make_touched v rng rng' v' r : make_metacal G W normal admom maxlike v psf rng = (rng', v', r) -> touched G psf v v'.
Proof.
  unfold make_metacal, touched. destruct (set_data G v) as [dd|] eqn:Ed; [|intros [= _ <- _]; left; auto].
  assert (Hp : v_psf v = Some (md_psf G dd)).
  { unfold set_data in Ed. destruct (v_psf v) as [p|]; [|discriminate].
    destruct (gs_pixel G _); [|discriminate]. cbn [bind] in Ed. destruct (gs_interp G (v_image v) _); [|discriminate]. cbn [bind] in Ed.
    destruct (gs_interp G (v_image p) _); [|discriminate]. injection Ed as <-. reflexivity. }
  destruct psf; try (intros [= _ <- _]; left; auto; fail);
    try (destruct (setup_psf_noise W normal (v_image (md_psf G dd)) rng) as [r1 [n|]]; intros [= _ <- _]; left; auto; fail).
  destruct (setup_psf_noise W normal (v_image (md_psf G dd)) rng) as [r1 [n|]]; [|intros [= _ <- _]; left; auto].
  destruct r1 as [w|]; [|intros [= _ <- _]; left; auto].
  destruct (do_psf_fit G W admom maxlike (md_psf G dd) (pn_flux n) w) as [[w' p'] k] eqn:E. intros [= _ <- _]. right.
  destruct (fit_fit _ _ _ _ _ _ E) as (g & d & ->). split; [auto|]. exists (md_psf G dd), g, d. split; [auto|]. destruct v; reflexivity.
Qed.
Lemma one_touched v s s' v' r : metacal_one psf step v s = (s', (v', r)) -> touched G psf v v'.
Proof.
  unfold Metacal_Model.metacal_one. destruct s as [t rng]. destruct (make_metacal _ _ _ _ _ v psf rng) as [[r1 v1] [m|]] eqn:E.
  - destruct (get_all G fstr m step t []) as [t' [c x]]. intros [= _ <- _]. apply (make_touched _ _ _ _ _ E).
  - intros [= _ <- _]. apply (make_touched _ _ _ _ _ E).
Qed.
Lemma same_touched l : Forall2 (touched G psf) l l.
Proof. induction l; constructor; auto. left; auto. Qed.
Lemma list_touched l : forall od s s' l' r, metacal_list psf step l od s = (s', (l', r)) -> Forall2 (touched G psf) l l'.
Proof.
  induction l as [|v l IH]; intros od s s' l' r H; cbn [Metacal_Model.metacal_list] in H; [injection H as _ <- _; constructor|].
  destruct (metacal_one psf step v s) as [s1 [v1 r1]] eqn:E.
  match type of H with (match ?x with _ => _ end = _) => destruct x as [od'|] end.
  - destruct (metacal_list psf step l (Some od') s1) as [s2 [l2 r2]] eqn:E2. injection H as _ <- _.
    constructor; [apply (one_touched _ _ _ _ _ E)|apply (IH _ _ _ _ _ E2)].
  - injection H as _ <- _. constructor; [apply (one_touched _ _ _ _ _ E)|apply same_touched].
Qed.
Lemma mb_touched l : forall od s s' l' r, metacal_mb psf step l od s = (s', (l', r)) -> Forall2 (Forall2 (touched G psf)) l l'.
Proof.
  induction l as [|v l IH]; intros od s s' l' r H; cbn [Metacal_Model.metacal_mb] in H; [injection H as _ <- _; constructor|].
  destruct (metacal_list psf step v None s) as [s1 [v1 r1]] eqn:E.
  match type of H with (match ?x with _ => _ end = _) => destruct x as [od'|] end.
  - destruct (metacal_mb psf step l (Some od') s1) as [s2 [l2 r2]] eqn:E2. injection H as _ <- _.
    constructor; [apply (list_touched _ _ _ _ _ _ E)|apply (IH _ _ _ _ _ E2)].
  - injection H as _ <- _. constructor; [apply (list_touched _ _ _ _ _ _ E)|].
    clear. induction l; constructor; auto. apply same_touched.
Qed.
Lemma get_touched obs s s' obs' r : get_all_metacal_ G fstr W normal admom maxlike psf step obs s = (s', (obs', r)) ->
  obs <> MOther _ -> cont_rel (touched G psf) obs obs'.
Proof.
  intros H N. destruct obs as [v|l|l|]; cbn [get_all_metacal_] in H; [| | |congruence].
  - destruct (metacal_one psf step v s) as [s1 [v1 r1]] eqn:E. injection H as _ <- _. constructor. apply (one_touched _ _ _ _ _ E).
  - destruct (metacal_list psf step l None s) as [s1 [v1 r1]] eqn:E. injection H as _ <- _. constructor. apply (list_touched _ _ _ _ _ _ E).
  - destruct (metacal_mb psf step l None s) as [s1 [v1 r1]] eqn:E. injection H as _ <- _. constructor. apply (mb_touched _ _ _ _ _ _ E).
Qed.
Lemma cont_refl (o : cont obsval) : o <> MOther _ -> cont_rel (touched G psf) o o.
Proof.
  intros N. destruct o as [v|l|l|]; [| | |congruence]; constructor; [left; auto|apply same_touched|].
  induction l; constructor; auto. - apply same_touched. - apply IHl. discriminate.
Qed.
Theorem input_touched fix_noise use obs s s' obs' r :
  get_all_metacal G fstr W normal admom maxlike psf step fix_noise use obs s = (s', (obs', r)) -> obs <> MOther _ ->
  cont_rel (touched G psf) (vals obs) obs'.
Proof.
  intros H N. assert (N' : vals obs <> MOther _) by (destruct obs; try discriminate; congruence).
  unfold get_all_metacal in H. destruct fix_noise; [|apply (get_touched _ _ _ _ _ H N')].
  destruct (fixnoise _ _ _ _ _ _ _ _ _ _ _) as [s1 [o1 r1]] eqn:E. injection H as _ <- _. unfold fixnoise in E. destruct s as [t rng].
  destruct (noise_observations W normal use obs rng) as [rg n]. destruct (let* n := n in _) as [nobs|]; [|injection E as _ <- _; apply cont_refl, N'].
  destruct (get_all_metacal_ _ _ _ _ _ _ psf step (vals obs) (t, rg)) as [s2 [o2 d]] eqn:E2.
  pose proof (get_touched _ _ _ _ _ E2 N') as T. destruct d as [d|].
  - destruct (get_all_metacal_ _ _ _ _ _ _ psf step nobs s2) as [s3 [o3 nr]]. injection E as _ <- _. exact T.
  - injection E as _ <- _. exact T.
Qed.
Lemma rel_eq {A} (a b : cont A) : cont_rel eq a b -> a = b.
Proof.
  intros [x y ->|l l' F|l l' F]; [reflexivity| |]; f_equal.
  - induction F; congruence.
  - induction F as [|x y l l' H F IH]; [reflexivity|]. f_equal; [|exact IH]. clear - H. induction H; congruence.
Qed.
Lemma forall2_weaken {A B} (P Q : A -> B -> Prop) l l' : (forall a b, P a b -> Q a b) -> Forall2 P l l' -> Forall2 Q l l'.
Proof. intros H F. induction F; constructor; auto. Qed.
Theorem input_unchanged fix_noise use obs s s' obs' r :
  get_all_metacal G fstr W normal admom maxlike psf step fix_noise use obs s = (s', (obs', r)) -> obs <> MOther _ ->
  psf <> PFitGauss G -> obs' = vals obs.
Proof.
  intros H N P. symmetry. apply rel_eq. pose proof (input_touched _ _ _ _ _ _ _ H N) as T.
  assert (Q : forall a b, touched G psf a b -> a = b) by (intros a b [->|[E _]]; congruence).
  destruct T as [x y X|l l' X|l l' X]; constructor; auto.
  - apply (forall2_weaken _ _ _ _ Q X).
  - apply (forall2_weaken _ _ _ _ (fun a b => forall2_weaken _ _ a b Q) X).
Qed.
End Input.
