From Coq Require String.
From Verif Require Import Base XReal Flags_Model Pixels_Model LM_Model LM_Spec LM_Proofs Priors_Model Priors_Spec Priors_Proofs
  PriorSample_Model PriorSample_Spec PriorFit_Model PriorFit_Spec.
Import String.StringSyntax.
Local Open Scope R_scope.
Local Open Scope string_scope.
Local Open Scope list_scope.

Lemma kget_dget d k : kget d k = dget d k.
Proof. induction d as [|[k' v] d IH]; [reflexivity|]. cbn. rewrite IH. reflexivity. Qed.

(** ** LogNormal *)
Lemma logn_curve_prob m s p x : s <> 0 -> lognormal_init m s None = Ok p -> 0 < x ->
  lognormal_value p (Fin x) = Fin (ln (logn_curve m s x)) /\ 0 < logn_curve m s x.
Proof.
  intros Hs H Hx. assert (K := lognormal_density m s None p x Hs H).
  unfold lognormal_lnprob_scalar in K. rewrite (init_shift _ _ _ _ H) in K. cbn [apply_shift shift_of xleb] in K.
  rewrite Rleb_f in K by lra. rewrite Rminus_0_r in K. specialize (K Hx). injection K as K. rewrite K.
  destruct (lognormal_init_inv m s None p Hs H) as (Hm & Hlv & ->). cbv zeta in *. cbn [lg_logmean lg_logvar lg_mode].
  unfold logn_curve. cbv zeta.
  replace (ln m - 1 / 2 * ln (1 + s ^ 2 / m ^ 2)) with (ln m - ln (1 + s ^ 2 / m ^ 2) / 2) by field.
  split; [reflexivity|]. unfold logn_pdf. rewrite ln_exp.
  repeat apply Rdiv_lt_0_compat; try apply exp_pos; lra.
Qed.
Lemma lognormal_prob_at m s p x : s <> 0 -> lognormal_init m s None = Ok p -> 0 < x ->
  lognormal_prob_scalar p (Fin x) = Ok (Fin (logn_curve m s x)).
Proof.
  intros Hs H Hx. destruct (logn_curve_prob m s p x Hs H Hx) as (E & Hp).
  unfold lognormal_prob_scalar, lognormal_lnprob_scalar. rewrite (init_shift _ _ _ _ H).
  cbn [apply_shift xleb]. rewrite Rleb_f by lra. cbn [bind]. rewrite E. cbn [xexp]. rewrite exp_ln by exact Hp. reflexivity.
Qed.
Lemma lognormal_prob_array_at m s p (data : list (R * R)) : s <> 0 -> lognormal_init m s None = Ok p ->
  Forall (fun d => 0 < fst d) data ->
  lognormal_prob_array p (map (fun d => Fin (fst d)) data) = Ok (map (fun d => Fin (logn_curve m s (fst d))) data).
Proof.
  intros Hs H HF. unfold lognormal_prob_array, lognormal_lnprob_array. rewrite (init_shift _ _ _ _ H).
  assert (existsb (fun v => xleb v (Fin 0)) (map (apply_shift None) (map (fun d => Fin (fst d)) data)) = false) as ->.
  { induction HF as [|d l Hd HF IH]; [reflexivity|]. cbn [map existsb apply_shift xleb]. rewrite Rleb_f by lra. exact IH. }
  cbn [bind]. f_equal. rewrite !map_map. apply map_ext_in. intros d Hd.
  rewrite Forall_forall in HF. cbn [apply_shift].
  destruct (logn_curve_prob m s p (fst d) Hs H (HF d Hd)) as (E & Hp). rewrite E. cbn [xexp]. rewrite exp_ln by exact Hp. reflexivity.
Qed.
Lemma ln_init_pos m s : 0 < m -> exists p, lognormal_init m s None = Ok p.
Proof. intros H. unfold lognormal_init. rewrite Rleb_f by lra. eexists. reflexivity. Qed.
Lemma combine_map_self {A B} (f : A -> B) (l : list A) : combine (map f l) l = map (fun d => (f d, d)) l.
Proof. induction l; cbn; congruence. Qed.
Lemma ln_fdiff_eq m s c (data : list (R * R)) : 0 < m -> s <> 0 -> Forall (fun d => 0 < fst d) data ->
  ln_fdiff data [Some m; Some s; Some c] = OkX (map (fun d => Some (c * logn_curve m s (fst d) - snd d)) data).
Proof.
  intros Hm Hs HF. unfold ln_fdiff. destruct (ln_init_pos m s Hm) as (p & E). rewrite E. cbn [bind].
  rewrite (lognormal_prob_array_at m s p data Hs E HF). f_equal. rewrite combine_map_self, map_map.
  apply map_ext. intros d. cbn [fst snd xmul xsub xneg xadd of_xr]. f_equal. ring.
Qed.
(** points at or below zero, and a mean at or below zero: the curve is refused *)
Lemma ln_fdiff_refused m s c (data : list (R * R)) : m <= 0 \/ Exists (fun d => fst d <= 0) data ->
  ln_fdiff data [Some m; Some s; Some c] = OkX (repeat None (length data)).
Proof.
  intros [H|H]; unfold ln_fdiff, lognormal_init.
  - rewrite Rleb_t by lra. reflexivity.
  - destruct (Rleb m 0); [reflexivity|]. cbn [bind]. unfold lognormal_prob_array, lognormal_lnprob_array. cbn [lg_shift].
    assert (existsb (fun v => xleb v (Fin 0)) (map (apply_shift None) (map (fun d => Fin (fst d)) data)) = true) as ->.
    { induction H as [d l Hd|d l H IH]; cbn [map existsb apply_shift xleb].
      - rewrite Rleb_t by lra. reflexivity.
      - rewrite IH. apply Bool.orb_true_r. }
    reflexivity.
Qed.
Lemma ln_own_curve m s p data : s <> 0 -> lognormal_init m s None = Ok p -> on_curve p data ->
  ln_fdiff data [Some m; Some s; Some 1] = OkX (repeat (Some 0) (length data)).
Proof.
  intros Hs H HF. assert (Hm : 0 < m) by (destruct (lognormal_init_inv m s None p Hs H); assumption).
  assert (K : Forall (fun d => 0 < fst d /\ logn_curve m s (fst d) = snd d) data).
  { eapply Forall_impl; [|exact HF]. intros d E. cbn beta in E.
    assert (0 < fst d).
    { destruct (Rlt_le_dec 0 (fst d)) as [L|L]; [exact L|]. exfalso.
      unfold lognormal_prob_scalar, lognormal_lnprob_scalar in E. rewrite (init_shift _ _ _ _ H) in E.
      cbn [apply_shift xleb] in E. rewrite Rleb_t in E by lra. discriminate. }
    split; [assumption|]. rewrite (lognormal_prob_at m s p (fst d) Hs H) in E by assumption. congruence. }
  rewrite ln_fdiff_eq; [|exact Hm|exact Hs|eapply Forall_impl; [|exact K]; cbn; tauto].
  f_equal. clear HF. induction K as [|d l (Hd & E) K IH]; [reflexivity|]. cbn [map length repeat]. rewrite IH, E. do 2 f_equal. ring.
Qed.

Section One.
Variable W : Type.
Variable G : rng W.
Variable lmdif : (vec -> resx vec) -> vec -> nat -> resx lmret.
Variable leastsq : (vec -> resx vec) -> vec -> nat -> resx lmtup.
Variable inv : omat -> option omat.
Variable eig : nat -> (nat -> nat -> R) -> option (list R).
Variable message : Z -> String.string.
Local Notation RUN := (run_leastsq lmdif leastsq inv eig message).

Definition guess11 (data : list (R * R)) : vec :=
  [omul (amean (map fst data)) (Some (11/10)); omul (astd (map fst data)) (Some (11/10)); omul (amean (map snd data)) (Some (11/10))].

Lemma has_flags func guess np ks bounds maxfev d : RUN func guess np ks bounds maxfev = OkX d ->
  exists f, dget d "flags" = Some (LInt f).
Proof.
  unfold run_leastsq. destruct (run_try _ _ _ _ _ _ _ _ _ _ _) eqn:E.
  - intros [= <-]. unfold run_try in E. destruct (leastsqbound _ _ _ _ _ _ _) as [t|]; [|discriminate].
    cbn [bindx] in E. destruct (tp_ier t =? 0)%Z; [discriminate|]. destruct (4 <? tp_ier t)%Z; [injection E as <-; eexists; reflexivity|].
    destruct (tp_cov t); [|injection E as <-; eexists; reflexivity].
    destruct (func (tp_x t)); [|discriminate]. cbn [bindx] in E.
    match type of E with (if ?b then _ else _) = _ => destruct b end; [injection E as <-; eexists; reflexivity|].
    match type of E with (if ?b then _ else _) = _ => destruct b end; injection E as <-; eexists; reflexivity.
  - destruct e; try destruct b; intros [= <-]; eexists; reflexivity.
Qed.

Lemma one_guess data k w : flat_uniform G ->
  snd (ln_fit_loop G lmdif inv eig message leastsq data k w) = RUN (ln_fdiff data) (guess11 data) 0 false None 0.
Proof.
  intros HG. revert w. induction k as [|k IH]; intros w; cbn [ln_fit_loop];
    specialize (HG w (1/10) 3%nat); destruct (uniform G w (1/10) (1/10) 3) as [w' u]; cbn [snd] in HG; subst u; cbn [repeat map];
    change (1 + 1 / 10) with (1 + 1 / 10); replace (1 + 1/10) with (11/10) by lra; fold (guess11 data);
    destruct (RUN (ln_fdiff data) (guess11 data) 0 false None 0) as [d|e b] eqn:E; try reflexivity;
    destruct (has_flags _ _ _ _ _ _ _ E) as (f & Ef); rewrite kget_dget, Ef; destruct (f =? 0)%Z; try reflexivity.
  rewrite IH. reflexivity.
Qed.
End One.

(** ** GPriorBA *)
Lemma ba_curve_eq odd A sigma xs : sigma <> 0 ->
  ba_curve odd [Some A; Some sigma] xs = map (fun g => Some (ba_density A sigma g)) xs.
Proof.
  intros Hs. unfold ba_curve. rewrite Reqb_f by exact Hs. unfold ba_prob_array1d. rewrite !map_map. apply map_ext. intros g.
  cbn [xmul xsub xneg xadd xltb ba_sig2inv ba_A]. unfold ba_density. replace (g ^ 2) with (g * g) by ring.
  destruct (Rltb_spec (g * g) 1).
  - rewrite Rltb_t by lra. cbn [xmul xexp of_xr]. f_equal.
    replace (-1 / 2 * (g * g) * (1 / sigma ^ 2)) with (- (g * g / (2 * sigma ^ 2))) by (field; exact Hs). ring.
  - rewrite Rltb_f by lra. reflexivity.
Qed.
Lemma ba_fdiff_eq odd A sigma (data : list (R * R)) : sigma <> 0 -> Forall (fun d => 0 < snd d) data ->
  ba_fdiff odd data [Some A; Some sigma] = OkX (map (fun d => Some ((ba_density A sigma (fst d) - snd d) / sqrt (snd d))) data).
Proof.
  intros Hs HF. unfold ba_fdiff. f_equal. rewrite (ba_curve_eq odd A sigma (map fst data) Hs).
  unfold zip_with. rewrite map_map, combine_map_self, map_map. apply map_ext_in. intros d Hd.
  rewrite Forall_forall in HF. specialize (HF d Hd). assert (K := sqrt_lt_R0 _ HF).
  cbn [fst snd oadd oap2 odiv]. rewrite Reqb_f by lra. cbn [omul oap2]. f_equal. field. lra.
Qed.
Lemma filter_twice {A} (f : A -> bool) l : filter f (filter f l) = filter f l.
Proof. induction l as [|x l IH]; [reflexivity|]. cbn. destruct (f x) eqn:E; [cbn; rewrite E, IH; reflexivity|exact IH]. Qed.

Section Two.
Variable W : Type.
Variable G : rng W.
Variable lmdif : (vec -> resx vec) -> vec -> nat -> resx lmret.
Variable inv : omat -> option omat.
Variable eig : nat -> (nat -> nat -> R) -> option (list R).
Variable message : Z -> String.string.
Variable leastsq : vec -> nat -> solver.
Variable odd : vec -> list R -> vec.
Local Notation FIT := (ba_fit G lmdif inv eig message leastsq odd).

Lemma ba_dropped data guess s w : FIT data guess s w = FIT (filter (fun d => Rltb 0 (snd d)) data) guess s w.
Proof. unfold ba_fit. rewrite filter_twice. reflexivity. Qed.

Lemma ba_done data g s w w' s' : FIT data (Some g) s w = (w', s', OkX tt) ->
  exists e, bs_perr s' = Some e /\
  (e <> placeholder (length g) -> bs_fit s' = Some (bs_pars s') /\
     exists t, snd (exec odd (filter (fun d => Rltb 0 (snd d)) data) (leastsq g 4000) (bs_pars s)) = OkX t /\ bs_pars s' = tp_x t).
Proof.
  unfold ba_fit. set (dat := filter _ _). unfold ba_run.
  destruct (exec odd dat (leastsq g 4000) (bs_pars s)) as [cur r].
  unfold run_leastsq. destruct (run_try _ _ _ _ _ _ _ _ _ _ _) as [d|e b] eqn:E.
  2:{ destruct e; try destruct b; cbn; discriminate. }
  unfold run_try in E. cbn [leastsqbound] in E. destruct r as [t|]; [|discriminate]. cbn [bindx] in E.
  cbn [asks_again]. destruct (tp_ier t =? 0)%Z; [discriminate|]. destruct (4 <? tp_ier t)%Z.
  { injection E as <-. cbn. intros [= <- <-]. eexists. split; [reflexivity|]. cbn. intros K. destruct (K eq_refl). }
  cbn [negb andb]. destruct (tp_cov t) as [cov0|].
  2:{ injection E as <-. cbn. intros [= <- <-]. eexists. split; [reflexivity|]. cbn. intros K. destruct (K eq_refl). }
  destruct (ba_fdiff odd dat (tp_x t)) as [fd|]; [|discriminate]. cbn [bindx] in E.
  match type of E with (if ?b then _ else _) = _ => destruct b end.
  { injection E as <-. cbn. intros [= <- <-]. eexists. split; [reflexivity|]. cbn. intros K. destruct (K eq_refl). }
  match type of E with (if ?b then _ else _) = _ => destruct b end; injection E as <-; cbn; intros [= <- <-];
    (eexists; split; [reflexivity|]; intros _; split; [reflexivity|]; exists t; split; reflexivity).
Qed.
End Two.

Lemma amean_eq x : x <> [] -> amean x = Some (mean_of x).
Proof.
  intros H. unfold amean, odiv, mean_of. rewrite Reqb_f; [reflexivity|]. apply not_0_INR. destruct x; [congruence|discriminate].
Qed.
Lemma astd_eq x : x <> [] -> astd x = Some (std_of x).
Proof.
  intros H. unfold astd. rewrite (amean_eq x H). rewrite amean_eq by (destruct x; [congruence|discriminate]). cbn [obind]. unfold osqrt, std_of. rewrite Rltb_f; [reflexivity|].
  unfold mean_of at 1. apply Rmult_le_pos.
  - generalize (mean_of x). intros m. clear H. induction x as [|v x IH]; [cbn; lra|]. cbn [map]. rewrite rsum_cons. pose proof (pow2_ge_0 (v - m)). lra.
  - left. apply Rinv_0_lt_compat. apply lt_0_INR. rewrite map_length. destruct x; [congruence|cbn; lia].
Qed.

(** the guess for a shape prior *)
Lemma ba_guess_near W (G : rng W) (x0 y0 x1 y1 : R) data num w : uniform_between G ->
  exists A sigma, snd (ba_guess G ((x0, y0) :: (x1, y1) :: data) num w) = Ok [Some A; Some sigma] /\
    Rabs (A - 13/10 * num * (x1 - x0)) <= 2/10 * Rabs (13/10 * num * (x1 - x0)) /\ Rabs (sigma - 16/100) <= 2/10 * (16/100).
Proof.
  intros HG. unfold ba_guess. cbn [fst]. set (a := 13/10 * num * (x1 - x0)).
  destruct (HG w (-1) 1 1%nat) as [L1 F1]. destruct (uniform G w (-1) 1 1) as [w1 u]. cbn [snd] in *.
  destruct (HG w1 (-1) 1 1%nat) as [L2 F2]. destruct (uniform G w1 (-1) 1 1) as [w2 v]. cbn [snd] in *.
  destruct u as [|u [|]]; try discriminate. destruct v as [|v [|]]; try discriminate.
  specialize (F1 ltac:(lra)). specialize (F2 ltac:(lra)). apply Forall_inv in F1, F2.
  eexists _, _. split; [reflexivity|]. split.
  - replace (a * (1 + 2/10 * u) - a) with (2/10 * (a * u)) by field. rewrite Rabs_mult, (Rabs_pos_eq (2/10)) by lra.
    apply Rmult_le_compat_l; [lra|]. rewrite Rabs_mult. rewrite <- (Rmult_1_r (Rabs a)) at 2. apply Rmult_le_compat_l; [apply Rabs_pos|]. apply Rabs_le. lra.
  - apply Rabs_le. lra.
Qed.
(** without a guess it is used *)
Lemma ba_no_guess W (G : rng W) lmdif inv eig message leastsq odd data s w w1 g :
  ba_guess G (filter (fun d => Rltb 0 (snd d)) data) (rsum (map snd (filter (fun d => Rltb 0 (snd d)) data))) w = (w1, Ok g) ->
  ba_fit G lmdif inv eig message leastsq odd data None s w = ba_fit G lmdif inv eig message leastsq odd data (Some g) s w1.
Proof. intros E. unfold ba_fit. rewrite E. reflexivity. Qed.
(** unless the minimizer has a solution with a covariance, the prior is left where the
    minimizer last asked *)
Lemma ba_last W (G : rng W) lmdif inv eig message leastsq odd data g s w cur r :
  exec odd (filter (fun d => Rltb 0 (snd d)) data) (leastsq g 4000%nat) (bs_pars s) = (cur, r) -> asks_again r = None ->
  bs_pars (snd (fst (ba_fit G lmdif inv eig message leastsq odd data (Some g) s w))) = cur.
Proof.
  intros E N. unfold ba_fit, ba_run. rewrite E, N. destruct (run_leastsq _ _ _ _ _ _ _ _ _ _ _) as [d|e b]; [|reflexivity].
  destruct (kget d "pars") as [[| | |]|]; try reflexivity. destruct (kget d "pars_cov") as [[| | |]|]; try reflexivity. destruct (kget d "pars_err") as [[| | |]|]; reflexivity.
Qed.
