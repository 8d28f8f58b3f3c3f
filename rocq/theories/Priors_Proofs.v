From Verif Require Import Base XReal Priors_Model Priors_Spec.
Local Open Scope R_scope.

Lemma Rdiv_le_0_compat a b : 0 <= a -> 0 < b -> 0 <= a / b.
Proof. intros Ha Hb. unfold Rdiv. apply Rmult_le_pos; [exact Ha|]. left. apply Rinv_0_lt_compat. exact Hb. Qed.
Lemma ln_div' a b : 0 < a -> 0 < b -> ln (a / b) = ln a - ln b.
Proof.
  intros Ha Hb. unfold Rdiv. rewrite ln_mult; [|exact Ha|apply Rinv_0_lt_compat; exact Hb].
  rewrite ln_Rinv by exact Hb. ring.
Qed.
Ltac neq := apply Rgt_not_eq; lra.
Lemma inv_ok x y : py_inv x = Ok y -> x <> 0 /\ y = 1 / x.
Proof. unfold py_inv. rcase; [discriminate|]. intros [= <-]. auto. Qed.

Lemma bind_inv {A B} (m : res A) (f : A -> res B) y :
  bind m f = Ok y -> exists x, m = Ok x /\ f x = Ok y.
Proof. destruct m; [|discriminate]. intros H. exists a. auto. Qed.

Ltac obind H x E := apply bind_inv in H; destruct H as (x & E & H).

Lemma normal_init_inv m s b p : normal_init m s b = Ok p -> s <> 0 /\ p = mkNormal m s (1 / s) (1 / s ^ 2) b.
Proof.
  unfold normal_init. intros H. obind H a Ea. obind H c Ec.
  apply inv_ok in Ea, Ec. destruct Ea, Ec. subst. injection H as <-. auto.
Qed.
Lemma trunc_init_inv m s a b p :
  trunc_init m s a b = Ok p -> s <> 0 /\ p = mkTrunc m s (1 / s ^ 2) (1 / s) a b.
Proof.
  unfold trunc_init. intros H. obind H x Ea. obind H y Ec.
  apply inv_ok in Ea, Ec. destruct Ea, Ec. subst. injection H as <-. auto.
Qed.
Lemma cen_init_inv a b s t p :
  cen_init a b s t = Ok p -> s <> 0 /\ t <> 0 /\ p = mkCen a b s t (1 / s) (1 / t) (1 / s ^ 2) (1 / t ^ 2).
Proof.
  unfold cen_init. intros H. obind H x Ex. obind H y Ey. obind H z Ez. obind H u Eu.
  apply inv_ok in Ex, Ey, Ez, Eu. destruct Ex, Ey, Ez, Eu. subst. injection H as <-. auto.
Qed.
Lemma gba_init_inv s A p : gba_init s A = Ok p -> s <> 0 /\ p = mkBA A s (1 / s ^ 2).
Proof.
  unfold gba_init. intros H. obind H x Ex. obind H y Ey.
  apply inv_ok in Ex. destruct Ex as [Hs ->]. injection H as <-. split; [|reflexivity].
  intros ->. apply Hs. ring.
Qed.

(** ** extended reals *)
Lemma rsgn_pos x : 0 < x -> rsgn x = SPos.
Proof. intros H. unfold rsgn. rewrite Rltb_t by lra. reflexivity. Qed.
Lemma rsgn_neg x : x < 0 -> rsgn x = SNeg.
Proof. intros H. unfold rsgn. rewrite Rltb_f by lra. rewrite Rltb_t by lra. reflexivity. Qed.

Lemma inv_sq_pos s : s <> 0 -> 0 < 1 / s ^ 2.
Proof. intros H. apply Rdiv_lt_0_compat; [lra|]. assert (0 <= s^2) by apply pow2_ge_0. assert (s^2 <> 0) by (apply pow_nonzero; exact H). lra. Qed.

(** -1/2 * d * d * k for an extended d and a positive k *)
Definition quad (d : xr) (k : R) : xr := xmul (xmul (xmul (Fin (-1/2)) d) d) (Fin k).
Lemma quad_fin x k : quad (Fin x) k = Fin (-1/2 * x * x * k).
Proof. reflexivity. Qed.
Lemma quad_inf k d : 0 < k -> d = PInf \/ d = NInf -> quad d k = NInf.
Proof.
  intros Hk [->| ->]; unfold quad; cbn [xmul xsgn]; rewrite (rsgn_neg (-1/2)) by lra;
    cbn [inf_of xmul xsgn]; rewrite (rsgn_pos k Hk); reflexivity.
Qed.
Lemma quad_nan k : quad NaN k = NaN. Proof. reflexivity. Qed.
Lemma quad_np d k : 0 < k -> xltb (Fin 0) (quad d k) = false.
Proof.
  intros Hk. destruct d as [x| | |]; try (rewrite quad_inf by auto; reflexivity); [|reflexivity].
  rewrite quad_fin. cbn [xltb]. apply Rltb_f. nra.
Qed.
Lemma quad_le d k : 0 < k -> d <> NaN -> xleb (quad d k) (Fin 0) = true.
Proof.
  intros Hk Hd. destruct d as [x| | |]; try (rewrite quad_inf by auto; reflexivity); [|congruence].
  rewrite quad_fin. cbn [xleb]. apply Rleb_t. nra.
Qed.
(** (d * s)^2 = -2 (-1/2 d d s^2) *)
Lemma quad_sq d k s : 0 < k -> k = s * s -> xmul (xmul d (Fin s)) (xmul d (Fin s)) = xmul (Fin (-2)) (quad d k).
Proof.
  intros Hk Hs. destruct d as [x| | |].
  - rewrite quad_fin. cbn [xmul]. f_equal. rewrite Hs. field.
  - rewrite quad_inf by auto. cbn [xmul xsgn]. rewrite (rsgn_neg (-2)) by lra.
    destruct (Rtotal_order s 0) as [H|[H|H]]; [rewrite (rsgn_neg s H)|subst; lra|rewrite (rsgn_pos s H)]; reflexivity.
  - rewrite quad_inf by auto. cbn [xmul xsgn]. rewrite (rsgn_neg (-2)) by lra.
    destruct (Rtotal_order s 0) as [H|[H|H]]; [rewrite (rsgn_neg s H)|subst; lra|rewrite (rsgn_pos s H)]; reflexivity.
  - reflexivity.
Qed.
Lemma quad_flip (m : R) (v : xr) k : 0 < k -> quad (xsub (Fin m) v) k = quad (xsub v (Fin m)) k.
Proof.
  intros Hk. destruct v as [x| | |]; cbn [xsub xneg xadd].
  - rewrite !quad_fin. f_equal. ring.
  - rewrite !quad_inf by auto. reflexivity.
  - rewrite !quad_inf by auto. reflexivity.
  - reflexivity.
Qed.

(** sqrt (clip (-2 l)), squared, is -2 l when l is not positive *)
Lemma sqrt_clip l : xltb (Fin 0) l = false ->
  xmul (xsqrt (xclip0 (xmul (Fin (-2)) l))) (xsqrt (xclip0 (xmul (Fin (-2)) l))) = xmul (Fin (-2)) l.
Proof.
  destruct l as [x| | |]; cbn [xltb]; intros H.
  - apply Rltb_false in H. cbn [xmul]. unfold xclip0. cbn [xltb]. rewrite Rltb_f by lra.
    cbn [xsqrt]. rewrite Rltb_f by lra. cbn [xmul]. f_equal. apply sqrt_sqrt. lra.
  - discriminate.
  - cbn [xmul xsgn]. rewrite (rsgn_neg (-2)) by lra. reflexivity.
  - reflexivity.
Qed.
Lemma clip_nonneg l : l <> NaN -> xleb (Fin 0) (xsqrt (xclip0 l)) = true.
Proof.
  intros H. destruct l as [x| | |]; unfold xclip0; cbn [xltb].
  - rcase; cbn [xsqrt xleb].
    + rewrite Rltb_f by lra. cbn [xleb]. apply Rleb_t. apply sqrt_pos.
    + rewrite Rltb_f by lra. cbn [xleb]. apply Rleb_t. apply sqrt_pos.
  - reflexivity.
  - cbn [xsqrt]. rewrite Rltb_f by lra. cbn [xleb]. apply Rleb_t. apply sqrt_pos.
  - congruence.
Qed.

Lemma exp_div a b : exp a / exp b = exp (a - b).
Proof. unfold Rminus, Rdiv. rewrite exp_plus, exp_Ropp. reflexivity. Qed.
(** ** Normal *)
Lemma normal_lnprob_quad p v : normal_lnprob p v = quad (xsub (Fin (no_mean p)) v) (no_s2inv p).
Proof. reflexivity. Qed.
Lemma normal_density m s b p x :
  normal_init m s b = Ok p -> normal_lnprob p (Fin x) = Fin (ln (gauss_pdf m s x / gauss_pdf m s m)).
Proof.
  intros H. apply normal_init_inv in H. destruct H as [Hs ->]. cbn. f_equal.
  unfold gauss_pdf. rewrite exp_div, ln_exp. field. exact Hs.
Qed.
Lemma normal_peak m s b p : normal_init m s b = Ok p -> peaks_at_zero (fun v => Ok (normal_lnprob p v)) m.
Proof.
  intros H. apply normal_init_inv in H. destruct H as [Hs ->]. split.
  - intros v r Hv [= <-]. rewrite normal_lnprob_quad. apply quad_le; cbn.
    + apply inv_sq_pos; exact Hs.
    + destruct v; cbn; congruence.
  - cbn. do 2 f_equal. ring.
Qed.
Lemma normal_strict m s b p x : normal_init m s b = Ok p -> normal_lnprob p (Fin x) = Fin 0 -> x = m.
Proof.
  intros H. apply normal_init_inv in H. destruct H as [Hs ->]. cbn. intros [= E].
  assert (K := inv_sq_pos s Hs). apply Rmult_integral in E. destruct E as [E|E].
  - assert ((m - x) ^ 2 = 0) by lra. assert (m + - x = 0); [|lra]. nra.
  - cbn in K. rewrite E in K. lra.
Qed.
Lemma normal_encodes m s b p : normal_init m s b = Ok p -> encodes (normal_obj p).
Proof.
  intros H v. apply normal_init_inv in H. destruct H as [Hs ->]. cbn [normal_obj p1_lnprob p1_fdiff].
  unfold same_term. rewrite normal_lnprob_quad. cbn [no_mean no_s2inv].
  assert (K := inv_sq_pos s Hs). rewrite quad_flip by exact K. unfold normal_fdiff. cbn [no_mean no_sinv].
  apply quad_sq; [exact K|]. field. exact Hs.
Qed.

(** ** LogNormal *)
Lemma ln_gt_0 x : 1 < x -> 0 < ln x.
Proof. intros H. rewrite <- ln_1. apply ln_increasing; lra. Qed.
Lemma logvar_pos m s : 0 < m -> s <> 0 -> 0 < ln (1 + s ^ 2 / m ^ 2).
Proof.
  intros Hm Hs. apply ln_gt_0. assert (0 < s ^ 2 / m ^ 2); [|lra].
  apply Rdiv_lt_0_compat; [|apply pow_lt; exact Hm].
  assert (0 <= s^2) by apply pow2_ge_0. assert (s^2 <> 0) by (apply pow_nonzero; exact Hs). lra.
Qed.
Lemma lognormal_init_inv m s sh p : s <> 0 -> lognormal_init m s sh = Ok p ->
  0 < m /\ let lv := ln (1 + s ^ 2 / m ^ 2) in let lm := ln m - 1/2 * lv in
  0 < lv /\ p = mkLogn sh m s lm lv (sqrt lv) (Fin (1 / lv)) (exp (lm - lv)) (lm - lv)
                 (Fin (-1/2 * (1 / lv * (lm - lv - lm) ^ 2) - (lm - lv))).
Proof.
  intros Hs. unfold lognormal_init. rcase; [discriminate|]. intros E.
  assert (Hm : 0 < m) by lra. assert (K := logvar_pos m s Hm Hs). split; [exact Hm|]. cbv zeta. split; [exact K|].
  set (lv := ln (1 + s ^ 2 / m ^ 2)) in *. clearbody lv.
  cbv zeta in E. assert (D : xdiv (Fin 1) (Fin lv) = Fin (1 / lv)) by (cbn [xdiv]; rewrite Reqb_f by neq; reflexivity).
  rewrite D in E. cbn [xmul xsub xneg xadd] in E. injection E as E. rewrite <- E. reflexivity.
Qed.

(** the value is the completed square *)
Lemma lognormal_value_fin m s sh p x : s <> 0 -> lognormal_init m s sh = Ok p -> 0 < x ->
  lognormal_value p (Fin x) = Fin (- (ln x - lg_logmode p) ^ 2 / (2 * lg_logvar p)).
Proof.
  intros Hs H Hx. destruct (lognormal_init_inv m s sh p Hs H) as (Hm & Hv & ->). cbv zeta in *.
  unfold lognormal_value. cbn [lg_logivar lg_logmean lg_lnprob_max lg_logmode lg_logvar].
  cbn [xlog]. rewrite Rltb_t by exact Hx. cbn [xsub xneg xadd xsq xmul]. f_equal.
  field. neq.
Qed.
Lemma lognormal_value_inf m s sh p : s <> 0 -> lognormal_init m s sh = Ok p ->
  lognormal_value p PInf = NInf.
Proof.
  intros Hs H. destruct (lognormal_init_inv m s sh p Hs H) as (Hm & Hv & ->). cbv zeta in *.
  unfold lognormal_value. cbn [lg_logivar lg_logmean lg_lnprob_max].
  cbn [xlog xsub xneg xadd xsq xmul inf_of xsgn].
  rewrite (rsgn_pos (1 / _)) by (apply Rdiv_lt_0_compat; lra). cbn [inf_of xmul xsgn].
  rewrite (rsgn_neg (-1/2)) by lra. reflexivity.
Qed.
Lemma lognormal_value_np m s sh p v : s <> 0 -> lognormal_init m s sh = Ok p -> xleb v (Fin 0) = false ->
  xltb (Fin 0) (lognormal_value p v) = false /\ (v <> NaN -> xleb (lognormal_value p v) (Fin 0) = true).
Proof.
  intros Hs H Hv. destruct (lognormal_init_inv m s sh p Hs H) as (Hm & Hlv & Ep). cbv zeta in *.
  destruct v as [x| | |]; cbn [xleb] in Hv; try discriminate.
  - apply Rleb_false in Hv. rewrite (lognormal_value_fin m s sh p x Hs H Hv).
    assert (0 <= (ln x - lg_logmode p) ^ 2 / (2 * lg_logvar p)).
    { apply Rdiv_le_0_compat; [apply pow2_ge_0|]. rewrite Ep. cbn [lg_logvar]. lra. }
    assert (- (ln x - lg_logmode p) ^ 2 / (2 * lg_logvar p) <= 0) by (unfold Rdiv in *; lra).
    cbn [xltb xleb]. split; [apply Rltb_f; lra|intros _; apply Rleb_t; lra].
  - rewrite (lognormal_value_inf m s sh p Hs H). split; [reflexivity|]. intros _. reflexivity.
  - split; [|congruence]. unfold lognormal_value. cbn [xlog xsub xadd xsq xmul].
    destruct (lg_logivar p); reflexivity.
Qed.
Lemma apply_shift_fin sh x : apply_shift sh (Fin x) = Fin (x - shift_of sh).
Proof. destruct sh; cbn; f_equal; ring. Qed.
Lemma apply_shift_nan sh v : apply_shift sh v = NaN -> v = NaN.
Proof. destruct sh; destruct v; cbn; congruence. Qed.
Lemma init_shift m s sh p : lognormal_init m s sh = Ok p -> lg_shift p = sh.
Proof. unfold lognormal_init. rcase; [discriminate|]. intros [= <-]. reflexivity. Qed.
Lemma lognormal_peak m s sh p : s <> 0 -> lognormal_init m s sh = Ok p ->
  peaks_at_zero (lognormal_lnprob_scalar p) (lg_mode p + shift_of sh).
Proof.
  intros Hs H. split.
  - intros v r Hv. unfold lognormal_lnprob_scalar. destruct (xleb _ _) eqn:E; [discriminate|].
    intros [= <-]. apply (lognormal_value_np m s sh p _ Hs H E). intros K. apply apply_shift_nan in K. congruence.
  - unfold lognormal_lnprob_scalar. rewrite (init_shift m s sh p H), apply_shift_fin.
    replace (lg_mode p + shift_of sh - shift_of sh) with (lg_mode p) by ring.
    assert (0 < lg_mode p).
    { destruct (lognormal_init_inv m s sh p Hs H) as (Hm & Hlv & ->). cbn [lg_mode]. apply exp_pos. }
    cbn [xleb]. rewrite Rleb_f by lra. rewrite (lognormal_value_fin m s sh p _ Hs H) by lra.
    do 2 f_equal.
    assert (ln (lg_mode p) = lg_logmode p) as ->.
    { destruct (lognormal_init_inv m s sh p Hs H) as (Hm & Hlv & ->). cbn [lg_mode lg_logmode]. apply ln_exp. }
    unfold Rdiv. ring.
Qed.
(** the parameters of the logarithm give the mean and variance asked for *)
Lemma lognormal_moments m s sh p : s <> 0 -> lognormal_init m s sh = Ok p ->
  exp (lg_logmean p + lg_logvar p / 2) = m /\
  (exp (lg_logvar p) - 1) * exp (2 * lg_logmean p + lg_logvar p) = s ^ 2.
Proof.
  intros Hs H. destruct (lognormal_init_inv m s sh p Hs H) as (Hm & Hlv & ->). cbv zeta in *.
  cbn [lg_logmean lg_logvar]. set (lv := ln (1 + s ^ 2 / m ^ 2)) in *.
  assert (E : exp lv = 1 + s ^ 2 / m ^ 2).
  { unfold lv. apply exp_ln. assert (0 <= s ^ 2 / m ^ 2); [|lra].
    apply Rdiv_le_0_compat; [apply pow2_ge_0|apply pow_lt; exact Hm]. }
  split.
  - replace (ln m - 1/2 * lv + lv / 2) with (ln m) by field. apply exp_ln. exact Hm.
  - replace (2 * (ln m - 1/2 * lv) + lv) with (ln m + ln m) by field.
    rewrite exp_plus, exp_ln by exact Hm. rewrite E. field. neq.
Qed.
Lemma lognormal_density m s sh p x : s <> 0 -> lognormal_init m s sh = Ok p -> shift_of sh < x ->
  lognormal_lnprob_scalar p (Fin x) =
  Ok (Fin (ln (logn_pdf (lg_logmean p) (lg_logvar p) (x - shift_of sh) /
               logn_pdf (lg_logmean p) (lg_logvar p) (lg_mode p)))).
Proof.
  intros Hs H Hx. unfold lognormal_lnprob_scalar. rewrite (init_shift m s sh p H), apply_shift_fin.
  cbn [xleb]. rewrite Rleb_f by lra. rewrite (lognormal_value_fin m s sh p _ Hs H) by lra. do 2 f_equal.
  set (y := x - shift_of sh). assert (Hy : 0 < y) by (unfold y; lra). clearbody y.
  destruct (lognormal_init_inv m s sh p Hs H) as (Hm & Hlv & ->). cbv zeta in *.
  cbn [lg_logmean lg_logvar lg_mode lg_logmode].
  set (lv := ln (1 + s ^ 2 / m ^ 2)) in *. set (lm := ln m - 1/2 * lv).
  unfold logn_pdf. rewrite ln_exp.
  assert (P1 := exp_pos (- (ln y - lm) ^ 2 / (2 * lv))).
  assert (P2 := exp_pos (- (lm - lv - lm) ^ 2 / (2 * lv))).
  assert (P3 := exp_pos (lm - lv)).
  rewrite ln_div' by (apply Rdiv_lt_0_compat; assumption).
  rewrite !ln_div' by assumption. rewrite !ln_exp. field. neq.
Qed.
Lemma lognormal_encodes m s sh p : s <> 0 -> lognormal_init m s sh = Ok p -> encodes (lognormal_obj p).
Proof.
  intros Hs H v. cbn [lognormal_obj p1_lnprob p1_fdiff]. unfold same_term, lognormal_fdiff.
  destruct (lognormal_lnprob_scalar p v) eqn:E; cbn [bind]; [|reflexivity].
  apply sqrt_clip. revert E. unfold lognormal_lnprob_scalar. destruct (xleb _ _) eqn:E; [discriminate|].
  intros [= <-]. apply (lognormal_value_np m s sh p _ Hs H E).
Qed.

(** ** FlatPrior *)
Lemma flat_peak a b x : a <= x <= b -> peaks_at_zero (flat_lnprob_scalar (mkFlat a b)) x.
Proof.
  intros H. split.
  - intros v r _. unfold flat_lnprob_scalar. destruct (flat_out _ _); [discriminate|]. intros [= <-].
    cbn. apply Rleb_t. lra.
  - unfold flat_lnprob_scalar, flat_out. cbn. rewrite !Rltb_f by lra. reflexivity.
Qed.
Lemma flat_encodes p : encodes (flat_obj p).
Proof.
  intros v. cbn [flat_obj p1_lnprob p1_fdiff]. unfold flat_lnprob_scalar, flat_fdiff, same_term.
  destruct (flat_out p v); [reflexivity|]. cbn. f_equal. ring.
Qed.

(** ** TruncatedGaussian *)
Lemma trunc_value_quad p v : trunc_value p v = quad (xsub v (Fin (tg_mean p))) (tg_ivar p).
Proof. reflexivity. Qed.
Lemma trunc_le m s a b p : trunc_init m s a b = Ok p ->
  forall v r, v <> NaN -> trunc_lnprob_scalar p v = Ok r -> xleb r (Fin 0) = true.
Proof.
  intros H v r Hv. apply trunc_init_inv in H. destruct H as [Hs ->].
  unfold trunc_lnprob_scalar. destruct (trunc_out _ _); [discriminate|]. intros [= <-].
  rewrite trunc_value_quad. apply quad_le; cbn [tg_ivar tg_mean].
  - apply inv_sq_pos; exact Hs.
  - destruct v; cbn; congruence.
Qed.
Lemma trunc_peak m s a b p : a <= m <= b -> trunc_init m s a b = Ok p ->
  peaks_at_zero (trunc_lnprob_scalar p) m.
Proof.
  intros Hm H. split; [exact (trunc_le m s a b p H)|].
  apply trunc_init_inv in H. destruct H as [Hs ->].
  unfold trunc_lnprob_scalar, trunc_out. cbn. rewrite !Rltb_f by lra. cbn. do 2 f_equal. ring.
Qed.
(** with the mean outside the range the log probability is negative everywhere *)
Lemma trunc_mean_outside m s a b p : trunc_init m s a b = Ok p -> m < a \/ b < m ->
  forall x r, trunc_lnprob_scalar p (Fin x) = Ok r -> exists y, r = Fin y /\ y < 0.
Proof.
  intros H Ho x r. apply trunc_init_inv in H. destruct H as [Hs ->].
  unfold trunc_lnprob_scalar, trunc_out. cbn. destruct (Rltb x a) eqn:E1; [discriminate|].
  destruct (Rltb b x) eqn:E2; [discriminate|]. cbn. intros [= <-]. eexists. split; [reflexivity|].
  apply Rltb_false in E1, E2. assert (K := inv_sq_pos s Hs). cbn in K.
  assert (0 < (x + - m) * (x + - m)) by (assert (x + - m <> 0) by lra; nra). nra.
Qed.
Lemma trunc_encodes m s a b p : trunc_init m s a b = Ok p -> encodes (trunc_obj p).
Proof.
  intros H v. apply trunc_init_inv in H. destruct H as [Hs ->].
  cbn [trunc_obj p1_lnprob p1_fdiff]. unfold trunc_lnprob_scalar, trunc_fdiff, same_term.
  destruct (trunc_out _ v); [reflexivity|]. rewrite trunc_value_quad. cbn [tg_mean tg_ivar tg_sinv].
  apply quad_sq; [apply inv_sq_pos; exact Hs|]. field. exact Hs.
Qed.

(** ** TwoSidedErf *)
Lemma xerf_bound erf v : erf_like erf -> v <> NaN -> exists y, xerf erf v = Fin y /\ -1 <= y <= 1.
Proof.
  intros He Hv. destruct v as [x| | |]; cbn [xerf].
  - exists (erf x). split; [reflexivity|apply He].
  - exists 1. split; [reflexivity|lra].
  - exists (-1). split; [reflexivity|lra].
  - congruence.
Qed.
Lemma xerf_cases erf v : erf_like erf -> xerf erf v = NaN \/ exists y, xerf erf v = Fin y /\ -1 <= y <= 1.
Proof.
  intros He. destruct v as [x| | |]; [right|right|right|left].
  4: reflexivity. all: apply xerf_bound; [exact He|discriminate].
Qed.
Lemma erf_prob_cases erf p v : erf_like erf ->
  erf_prob_scalar erf p v = NaN \/ exists y, erf_prob_scalar erf p v = Fin y /\ -1 <= y <= 1.
Proof.
  intros He. unfold erf_prob_scalar.
  destruct (xerf_cases erf (xdiv (xsub (Fin (te_max p)) v) (Fin (te_wmax p))) He) as [->|(y & -> & Hy)];
    [left; reflexivity|].
  destruct (xerf_cases erf (xdiv (xsub v (Fin (te_min p))) (Fin (te_wmin p))) He) as [->|(z & -> & Hz)];
    [left; reflexivity|].
  right. cbn. eexists. split; [reflexivity|lra].
Qed.
Lemma ln_le_0 x : 0 < x -> x <= 1 -> ln x <= 0.
Proof. intros H H1. rewrite <- ln_1. destruct H1 as [H1| ->]; [left; apply ln_increasing; assumption|right; reflexivity]. Qed.
Lemma erf_np erf p v : erf_like erf -> xltb (Fin 0) (erf_lnprob_scalar erf p v) = false.
Proof.
  intros He. unfold erf_lnprob_scalar. destruct (erf_prob_cases erf p v He) as [->|(y & -> & Hy)]; [reflexivity|].
  cbn [xleb]. rcase; [reflexivity|]. cbn [xlog]. rewrite Rltb_t by lra. cbn [xltb]. apply Rltb_f. apply ln_le_0; lra.
Qed.
Lemma erf_prob_not_nan erf p v : erf_like erf -> 0 < te_wmin p -> 0 < te_wmax p -> v <> NaN ->
  exists y, erf_prob_scalar erf p v = Fin y /\ -1 <= y <= 1.
Proof.
  intros He H1 H2 Hv. unfold erf_prob_scalar.
  destruct (xerf_bound erf (xdiv (xsub (Fin (te_max p)) v) (Fin (te_wmax p))) He) as (y & -> & Hy).
  { destruct v; cbn; try congruence; rewrite ?Reqb_f by neq; try discriminate; rewrite rsgn_pos by lra; discriminate. }
  destruct (xerf_bound erf (xdiv (xsub v (Fin (te_min p))) (Fin (te_wmin p))) He) as (z & -> & Hz).
  { destruct v; cbn; try congruence; rewrite ?Reqb_f by neq; try discriminate; rewrite rsgn_pos by lra; discriminate. }
  cbn. eexists. split; [reflexivity|lra].
Qed.
Lemma erf_le erf p v : erf_like erf -> 0 < te_wmin p -> 0 < te_wmax p -> v <> NaN ->
  xleb (erf_lnprob_scalar erf p v) (Fin 0) = true.
Proof.
  intros He H1 H2 Hv. unfold erf_lnprob_scalar.
  destruct (erf_prob_not_nan erf p v He H1 H2 Hv) as (y & -> & Hy).
  cbn [xleb]. rcase; [reflexivity|]. cbn [xlog]. rewrite Rltb_t by lra. cbn [xleb]. apply Rleb_t. apply ln_le_0; lra.
Qed.
(** zero exactly where both error functions are one *)
Lemma erf_zero erf p x : erf_like erf -> 0 < te_wmin p -> 0 < te_wmax p ->
  (erf_lnprob_scalar erf p (Fin x) = Fin 0 <->
   erf ((te_max p - x) / te_wmax p) = 1 /\ erf ((x - te_min p) / te_wmin p) = 1).
Proof.
  intros He H1 H2. unfold erf_lnprob_scalar, erf_prob_scalar. cbn [xsub xneg xadd xdiv].
  rewrite !Reqb_f by neq. cbn [xerf xmul xadd].
  change (te_max p + - x) with (te_max p - x). change (x + - te_min p) with (x - te_min p).
  assert (A := He ((te_max p - x) / te_wmax p)). assert (B := He ((x - te_min p) / te_wmin p)).
  set (u := erf ((te_max p - x) / te_wmax p)) in *. set (v := erf ((x - te_min p) / te_wmin p)) in *.
  cbn [xleb]. split.
  - rcase; [discriminate|]. cbn [xlog]. rewrite Rltb_t by lra. intros [= E].
    assert (1/2 * u + 1/2 * v = 1).
    { rewrite <- (exp_ln (1/2 * u + 1/2 * v)) by lra. rewrite E. apply exp_0. }
    lra.
  - intros [-> ->]. rewrite Rleb_f by lra. cbn [xlog]. rewrite Rltb_t by lra. f_equal.
    replace (1/2 * 1 + 1/2 * 1) with 1 by field. apply ln_1.
Qed.
Lemma erf_encodes erf p : erf_like erf -> encodes (erf_obj erf p).
Proof. intros He v. cbn. apply sqrt_clip. apply erf_np. exact He. Qed.

(** ** CenPrior *)
Lemma cen_sum p x1 x2 : ce_s2inv2 p <> 0 -> cen_lnprob_scalar p x1 x2 =
  xadd (fst (cen_lnprob_scalar_sep p x1 x2)) (snd (cen_lnprob_scalar_sep p x1 x2)).
Proof.
  intros H0. unfold cen_lnprob_scalar, cen_lnprob_scalar_sep. cbn [fst snd]. unfold xsub at 1. f_equal.
  destruct x2 as [x| | |]; cbn [xsub xneg xadd xmul xsgn]; try reflexivity.
  - f_equal. field.
  - rewrite (rsgn_pos (1/2)) by lra. rewrite (rsgn_neg (-1/2)) by lra. cbn [inf_of xmul xsgn].
    destruct (Rtotal_order (ce_s2inv2 p) 0) as [H|[H|H]]; [rewrite (rsgn_neg _ H)|contradiction|rewrite (rsgn_pos _ H)]; reflexivity.
  - rewrite (rsgn_pos (1/2)) by lra. rewrite (rsgn_neg (-1/2)) by lra. cbn [inf_of xmul xsgn].
    destruct (Rtotal_order (ce_s2inv2 p) 0) as [H|[H|H]]; [rewrite (rsgn_neg _ H)|contradiction|rewrite (rsgn_pos _ H)]; reflexivity.
Qed.
Lemma cen_sep_quad p x1 x2 : cen_lnprob_scalar_sep p x1 x2 =
  (quad (xsub (Fin (ce_cen1 p)) x1) (ce_s2inv1 p), quad (xsub (Fin (ce_cen2 p)) x2) (ce_s2inv2 p)).
Proof. reflexivity. Qed.
Lemma xadd_le a b : xleb a (Fin 0) = true -> xleb b (Fin 0) = true -> xleb (xadd a b) (Fin 0) = true.
Proof.
  destruct a as [x| | |], b as [y| | |]; cbn; try discriminate; try reflexivity.
  intros Hx Hy. apply Rleb_true in Hx, Hy. apply Rleb_t. lra.
Qed.
Lemma xadd_np a b : xltb (Fin 0) a = false -> xltb (Fin 0) b = false -> xltb (Fin 0) (xadd a b) = false.
Proof.
  destruct a as [x| | |], b as [y| | |]; cbn; try discriminate; try reflexivity.
  intros Hx Hy. apply Rltb_false in Hx, Hy. apply Rltb_f. lra.
Qed.
Lemma le_np a : xleb a (Fin 0) = true -> xltb (Fin 0) a = false.
Proof. destruct a as [x| | |]; cbn; try discriminate; try reflexivity. intros H. apply Rleb_true in H. apply Rltb_f. lra. Qed.
Lemma cen_peak a b s t p : cen_init a b s t = Ok p ->
  peaks_at_zero2 (fun x y => Ok (cen_lnprob_scalar p x y)) a b.
Proof.
  intros H. apply cen_init_inv in H. destruct H as (Hs & Ht & ->). split.
  - intros v1 v2 r H1 H2 [= <-]. rewrite cen_sum.
    + rewrite cen_sep_quad. cbn [fst snd ce_cen1 ce_cen2 ce_s2inv1 ce_s2inv2].
      apply xadd_le; apply quad_le; try (apply inv_sq_pos; assumption).
      * destruct v1; cbn; congruence.
      * destruct v2; cbn; congruence.
    + apply Rgt_not_eq. exact (inv_sq_pos t Ht).
  - cbn. do 2 f_equal. ring.
Qed.
Lemma cen_encodes a b s t p x1 x2 : cen_init a b s t = Ok p ->
  let (f1, f2) := cen_fdiff p x1 x2 in let (l1, l2) := cen_lnprob_scalar_sep p x1 x2 in
  xmul f1 f1 = xmul (Fin (-2)) l1 /\ xmul f2 f2 = xmul (Fin (-2)) l2 /\
  cen_lnprob_scalar p x1 x2 = xadd l1 l2 /\ xltb (Fin 0) l1 = false /\ xltb (Fin 0) l2 = false.
Proof.
  intros H. apply cen_init_inv in H. destruct H as (Hs & Ht & ->).
  unfold cen_fdiff. rewrite cen_sep_quad. cbn [ce_cen1 ce_cen2 ce_s2inv1 ce_s2inv2 ce_sinv1 ce_sinv2].
  assert (K1 := inv_sq_pos s Hs). assert (K2 := inv_sq_pos t Ht).
  rewrite (quad_flip a x1 (1 / s ^ 2)) by exact K1. rewrite (quad_flip b x2 (1 / t ^ 2)) by exact K2.
  split; [apply quad_sq; [exact K1|field; exact Hs]|].
  split; [apply quad_sq; [exact K2|field; exact Ht]|].
  split; [|split; apply quad_np; assumption].
  rewrite cen_sum by (apply Rgt_not_eq; exact K2).
  rewrite cen_sep_quad. cbn [fst snd ce_cen1 ce_cen2 ce_s2inv1 ce_s2inv2].
  rewrite (quad_flip a x1 (1 / s ^ 2)) by exact K1. rewrite (quad_flip b x2 (1 / t ^ 2)) by exact K2. reflexivity.
Qed.

(** ** GPriorBA *)
Lemma gsq_fin x y : gsq_of (Fin x) (Fin y) = Fin (x * x + y * y). Proof. reflexivity. Qed.
Lemma ba_value_fin s A p q : gba_init s A = Ok p -> 0 <= q -> q < 1 ->
  ba_value p (Fin q) (Fin (1 - q)) = Fin (2 * ln (1 - q) - q / (2 * s ^ 2)).
Proof.
  intros H H0 H1. apply gba_init_inv in H. destruct H as [Hs ->]. unfold ba_value.
  cbn [xlog]. rewrite Rltb_t by lra. cbn [xmul xsub xneg xadd ba_sig2inv]. f_equal. field. exact Hs.
Qed.
Lemma gsq_cases g1 g2 : gsq_of g1 g2 = NaN \/ gsq_of g1 g2 = PInf \/
  exists x y, g1 = Fin x /\ g2 = Fin y /\ gsq_of g1 g2 = Fin (x * x + y * y).
Proof. destruct g1, g2; cbn; auto. right. right. eauto. Qed.
Lemma ba_value_np s A p q : gba_init s A = Ok p -> 0 <= q -> q < 1 ->
  xleb (ba_value p (Fin q) (Fin (1 - q))) (Fin 0) = true.
Proof.
  intros H H0 H1. rewrite (ba_value_fin s A p q H H0 H1). cbn [xleb]. apply Rleb_t.
  assert (ln (1 - q) <= 0) by (apply ln_le_0; lra).
  apply gba_init_inv in H. destruct H as [Hs _]. assert (K := inv_sq_pos s Hs).
  assert (0 <= q / (2 * s ^ 2)); [|lra].
  replace (q / (2 * s ^ 2)) with (q * (1 / s ^ 2) / 2) by (field; exact Hs). nra.
Qed.
Lemma ba_le s A p g1 g2 r : gba_init s A = Ok p -> g1 <> NaN -> g2 <> NaN ->
  ba_lnprob_scalar2d p g1 g2 = Ok r -> xleb r (Fin 0) = true.
Proof.
  intros H N1 N2. unfold ba_lnprob_scalar2d.
  destruct (gsq_cases g1 g2) as [E|[E|(x & y & -> & -> & E)]].
  - destruct g1, g2; cbn in E; try discriminate; congruence.
  - rewrite E. cbn. discriminate.
  - rewrite E. cbn [xsub xneg xadd]. change (1 + - (x * x + y * y)) with (1 - (x * x + y * y)).
    cbn [xleb]. rcase; [discriminate|]. intros [= <-]. apply (ba_value_np s A p _ H); nra.
Qed.
Lemma ba_np s A p g1 g2 r : gba_init s A = Ok p -> ba_lnprob_scalar2d p g1 g2 = Ok r -> xltb (Fin 0) r = false.
Proof.
  intros H. destruct (gsq_cases g1 g2) as [E|[E|(x & y & -> & -> & E)]].
  - unfold ba_lnprob_scalar2d. rewrite E. cbn. intros [= <-]. reflexivity.
  - unfold ba_lnprob_scalar2d. rewrite E. cbn. discriminate.
  - intros K. apply le_np. apply (ba_le s A p (Fin x) (Fin y) r H); [discriminate|discriminate|exact K].
Qed.
Lemma ba_peak s A p : gba_init s A = Ok p -> peaks_at_zero2 (ba_lnprob_scalar2d p) 0 0.
Proof.
  intros H. split.
  - intros v1 v2 r H1 H2. exact (ba_le s A p v1 v2 r H H1 H2).
  - unfold ba_lnprob_scalar2d. rewrite gsq_fin. cbn [xsub xneg xadd].
    change (1 + - (0 * 0 + 0 * 0)) with (1 - (0 * 0 + 0 * 0)). cbn [xleb]. rewrite Rleb_f by lra.
    rewrite (ba_value_fin s A p _ H) by lra. do 2 f_equal.
    replace (1 - (0 * 0 + 0 * 0)) with 1 by ring. rewrite ln_1. unfold Rdiv. ring.
Qed.
Lemma ba_density s A p x y : gba_init s A = Ok p -> x * x + y * y < 1 ->
  ba_lnprob_scalar2d p (Fin x) (Fin y) = Ok (Fin (ln (ba_pdf s (sqrt (x * x + y * y))))).
Proof.
  intros H Hq. unfold ba_lnprob_scalar2d. rewrite gsq_fin. cbn [xsub xneg xadd].
  assert (0 <= x * x + y * y) by nra.
  change (1 + - (x * x + y * y)) with (1 - (x * x + y * y)). cbn [xleb]. rewrite Rleb_f by lra.
  rewrite (ba_value_fin s A p _ H) by lra. do 2 f_equal. apply gba_init_inv in H. destruct H as [Hs _].
  unfold ba_pdf. rewrite pow2_sqrt by assumption. set (q := x * x + y * y) in *.
  rewrite ln_mult; [|apply pow_lt; lra|apply exp_pos]. rewrite ln_exp.
  replace ((1 - q) ^ 2) with ((1 - q) * (1 - q)) by ring. rewrite ln_mult by lra. field. exact Hs.
Qed.
Lemma ba_range s A p x y : gba_init s A = Ok p -> 1 <= x * x + y * y ->
  ba_lnprob_scalar2d p (Fin x) (Fin y) = Raise GMixRangeError.
Proof.
  intros H Hq. unfold ba_lnprob_scalar2d. rewrite gsq_fin. cbn [xsub xneg xadd xleb].
  rewrite Rleb_t by lra. reflexivity.
Qed.
Lemma ba_encodes s A p : gba_init s A = Ok p -> encodes2 (gba_obj p).
Proof.
  intros H v1 v2. cbn [gba_obj p2_lnprob p2_fdiff]. unfold same_term, ba_fdiff_scalar.
  destruct (ba_lnprob_scalar2d p v1 v2) eqn:E; cbn [bind]; [|reflexivity].
  apply sqrt_clip. exact (ba_np s A p v1 v2 _ H E).
Qed.

(** ** ZDisk2D *)
Lemma zdisk_peak r x y : x ^ 2 + y ^ 2 < r ^ 2 -> peaks_at_zero2 (zdisk_lnprob_scalar2d (zdisk_init r)) x y.
Proof.
  intros H. split.
  - intros v1 v2 q _ _. unfold zdisk_lnprob_scalar2d. destruct (xgeb _ _); [discriminate|].
    intros [= <-]. cbn. apply Rleb_t. lra.
  - unfold zdisk_lnprob_scalar2d, xgeb. cbn [zdisk_init zd_radius_sq xsq xmul xadd xleb].
    rewrite Rleb_f by nra. reflexivity.
Qed.

(** ** every constructed prior with both methods encodes its log probability *)
Lemma made_encodes erf p : erf_like erf -> made_1d erf p -> encodes p.
Proof.
  intros He [(a & b & ->)|[(a & wa & b & wb & ->)|[(m & s & b & q & H & ->)|[(m & s & sh & q & Hs & H & ->)|(m & s & a & b & q & H & ->)]]]].
  - apply flat_encodes.
  - apply erf_encodes. exact He.
  - exact (normal_encodes m s b q H).
  - exact (lognormal_encodes m s sh q Hs H).
  - exact (trunc_encodes m s a b q H).
Qed.
Lemma made_np erf p : erf_like erf -> made_1d erf p -> never_positive (p1_lnprob p).
Proof.
  intros He [(a & b & ->)|[(a & wa & b & wb & ->)|[(m & s & b & q & H & ->)|[(m & s & sh & q & Hs & H & ->)|(m & s & a & b & q & H & ->)]]]]; intros v r; cbn.
  - unfold flat_lnprob_scalar. destruct (flat_out _ _); [discriminate|]. intros [= <-]. cbn. apply Rltb_f. lra.
  - intros [= <-]. apply erf_np. exact He.
  - intros [= <-]. apply normal_init_inv in H. destruct H as [Hs ->]. rewrite normal_lnprob_quad.
    apply quad_np. cbn. apply inv_sq_pos. exact Hs.
  - unfold lognormal_lnprob_scalar. destruct (xleb _ _) eqn:E; [discriminate|]. intros [= <-].
    apply (lognormal_value_np m s sh q _ Hs H E).
  - unfold trunc_lnprob_scalar. destruct (trunc_out _ _); [discriminate|]. intros [= <-].
    apply trunc_init_inv in H. destruct H as [Hs ->]. rewrite trunc_value_quad. apply quad_np.
    cbn. apply inv_sq_pos. exact Hs.
Qed.

(** ** C68 *)
Lemma mapM_Ok {A B} (f : A -> B) l : mapM (fun x => Ok (f x)) l = Ok (map f l).
Proof. induction l as [|x l IH]; [reflexivity|]. cbn. rewrite IH. reflexivity. Qed.
Lemma mapM_if {A B} (bad : A -> bool) (f : A -> B) e l :
  mapM (fun x => if bad x then Raise e else Ok (f x)) l =
  if existsb bad l then Raise e else Ok (map f l).
Proof.
  induction l as [|x l IH]; [reflexivity|]. cbn. destruct (bad x); [reflexivity|]. cbn. rewrite IH.
  destruct (existsb bad l); reflexivity.
Qed.
Lemma normal_agree p : agrees (fun v => Ok (normal_lnprob p v)) (fun vs => Ok (AArray (normal_lnprob_array p vs))).
Proof. intros vs. rewrite mapM_Ok. reflexivity. Qed.
Lemma lognormal_agree p : agrees (lognormal_lnprob_scalar p) (p1_lnprob_array (lognormal_obj p)).
Proof.
  intros vs. cbn [lognormal_obj p1_lnprob_array]. unfold lognormal_lnprob_array, lognormal_lnprob_scalar.
  rewrite (mapM_if (fun v => xleb (apply_shift (lg_shift p) v) (Fin 0))
             (fun v => lognormal_value p (apply_shift (lg_shift p) v))).
  f_equal. rewrite map_map.
  replace (existsb (fun v => xleb v (Fin 0)) (map (apply_shift (lg_shift p)) vs))
    with (existsb (fun v => xleb (apply_shift (lg_shift p) v) (Fin 0)) vs); [reflexivity|].
  induction vs as [|v vs IH]; [reflexivity|]. cbn. rewrite IH. reflexivity.
Qed.
Lemma lognormal_prob_agree p : agrees (lognormal_prob_scalar p) (fun vs => rmap AArray (lognormal_prob_array p vs)).
Proof.
  intros vs. unfold lognormal_prob_array.
  assert (E : lognormal_lnprob_array p vs = mapM (lognormal_lnprob_scalar p) vs).
  { assert (K := lognormal_agree p vs). cbn [lognormal_obj p1_lnprob_array] in K.
    destruct (lognormal_lnprob_array p vs), (mapM (lognormal_lnprob_scalar p) vs); cbn in K; congruence. }
  rewrite E. f_equal. clear E. induction vs as [|v vs IH]; [reflexivity|]. cbn.
  unfold lognormal_prob_scalar at 1. destruct (lognormal_lnprob_scalar p v); cbn; [|reflexivity].
  rewrite <- IH. destruct (mapM _ vs); reflexivity.
Qed.
Lemma erf_agree erf p : erf_like erf -> 0 < te_wmin p -> 0 < te_wmax p ->
  agrees_on (fun v => v <> NaN) (fun v => Ok (erf_lnprob_scalar erf p v))
   (fun vs => Ok (AArray (erf_lnprob_array erf p vs))).
Proof.
  intros He H1 H2 vs Hvs. rewrite mapM_Ok. cbn. do 2 f_equal. unfold erf_lnprob_array, erf_prob_array.
  rewrite map_map. apply map_ext_in. intros v Hv. rewrite Forall_forall in Hvs.
  unfold erf_lnprob_scalar. destruct (erf_prob_not_nan erf p v He H1 H2 (Hvs v Hv)) as (y & -> & _).
  cbn [xltb xleb]. rcase; rcase; try lra; reflexivity.
Qed.
Lemma flat_prob_agree p : agrees_on finite (flat_prob_scalar p) (flat_prob_array p).
Proof.
  intros vs Hvs. unfold flat_prob_scalar, flat_prob_array. rewrite mapM_if.
  destruct (existsb (flat_out p) vs); [reflexivity|]. cbn. do 2 f_equal. apply map_ext_in.
  intros v Hv. rewrite Forall_forall in Hvs. destruct (Hvs v Hv) as [x ->]. cbn. f_equal. ring.
Qed.
Lemma trunc_agree m s a b p : trunc_init m s a b = Ok p ->
  agrees_on (fun v => exists x, v = Fin x /\ a < x < b) (trunc_lnprob_scalar p)
    (fun vs => Ok (AArray (trunc_lnprob_array p vs))).
Proof.
  intros H vs Hvs. apply trunc_init_inv in H. destruct H as [Hs ->].
  unfold trunc_lnprob_scalar. rewrite mapM_if.
  replace (existsb (trunc_out (mkTrunc m s (1 / s ^ 2) (1 / s) a b)) vs) with false.
  - cbn. do 2 f_equal. unfold trunc_lnprob_array. apply map_ext_in. intros v Hv.
    rewrite Forall_forall in Hvs. destruct (Hvs v Hv) as (x & -> & Hx). cbn [xltb tg_min tg_max].
    rewrite !Rltb_t by lra. reflexivity.
  - symmetry. apply not_true_is_false. intros K. apply existsb_exists in K. destruct K as (v & Hv & K).
    rewrite Forall_forall in Hvs. destruct (Hvs v Hv) as (x & -> & Hx). revert K. unfold trunc_out. cbn.
    rewrite !Rltb_f by lra. discriminate.
Qed.
Lemma ba_agree s A p : gba_init s A = Ok p ->
  agrees2_on (fun v => exists x y, v = (Fin x, Fin y) /\ x * x + y * y < 1)
    (ba_lnprob_scalar2d p) (fun gs => Ok (AArray (ba_lnprob_array2d p gs))).
Proof.
  intros H vs Hvs. unfold ba_lnprob_scalar2d. rewrite (mapM_if (fun v => xleb (xsub (Fin 1) (gsq_of (fst v) (snd v))) (Fin 0))
    (fun v => ba_value p (gsq_of (fst v) (snd v)) (xsub (Fin 1) (gsq_of (fst v) (snd v))))).
  replace (existsb _ vs) with false.
  - cbn. do 2 f_equal. unfold ba_lnprob_array2d. apply map_ext_in. intros v Hv.
    rewrite Forall_forall in Hvs. destruct (Hvs v Hv) as (x & y & -> & Hx). cbn [fst snd]. rewrite gsq_fin.
    cbn [xsub xneg xadd xltb]. rewrite Rltb_t by lra. reflexivity.
  - symmetry. apply not_true_is_false. intros K. apply existsb_exists in K. destruct K as (v & Hv & K).
    rewrite Forall_forall in Hvs. destruct (Hvs v Hv) as (x & y & -> & Hx). revert K. cbn [fst snd]. rewrite gsq_fin.
    cbn [xsub xneg xadd xleb]. rewrite Rleb_f by lra. discriminate.
Qed.
Lemma ba_prob_agree p vs : Forall finite2 vs ->
  ba_prob_array2d p vs = map (fun v => ba_prob_scalar2d p (fst v) (snd v)) vs.
Proof.
  intros Hvs. unfold ba_prob_array2d. apply map_ext_in. intros v Hv. rewrite Forall_forall in Hvs.
  destruct (Hvs v Hv) as [[x Ex] [y Ey]]. destruct v as [v1 v2]. cbn [fst snd] in *. subst.
  unfold ba_prob_scalar2d. rewrite gsq_fin. cbn [xsub xneg xadd xltb].
  destruct (Rltb 0 (1 + - (x * x + y * y))); cbn; f_equal; ring.
Qed.
Lemma ba_prob1d_agree p vs : Forall finite vs -> ba_prob_array1d p vs = map (ba_prob_scalar1d p) vs.
Proof.
  intros Hvs. unfold ba_prob_array1d. apply map_ext_in. intros v Hv. rewrite Forall_forall in Hvs.
  destruct (Hvs v Hv) as [x ->]. unfold ba_prob_scalar1d. cbn [xmul xsub xneg xadd xltb].
  destruct (Rltb 0 (1 + - (x * x))); cbn; f_equal; ring.
Qed.
Lemma zdisk_prob_agree p vs : Forall (fun v => fst v <> NaN /\ snd v <> NaN) vs ->
  zdisk_prob_array2d p vs = map (fun v => zdisk_prob_scalar2d p (fst v) (snd v)) vs.
Proof.
  intros Hvs. unfold zdisk_prob_array2d. apply map_ext_in. intros v Hv. rewrite Forall_forall in Hvs.
  destruct (Hvs v Hv) as [H1 H2]. destruct v as [v1 v2]. cbn [fst snd] in *.
  unfold zdisk_prob_scalar2d, xgeb, xsq.
  destruct v1 as [x| | |], v2 as [y| | |]; try congruence; cbn; try reflexivity.
  rcase; rcase; try lra; reflexivity.
Qed.
