(** C65, C66, C68, C95, C97 for the priors of single parameters, centres and shapes. *)
From Verif Require Import Base XReal Priors_Model Priors_Spec Priors_Proofs PriorSample_Model PriorSample_Spec PriorSample_Proofs
  Joint_Model Joint_Spec Joint_Proofs PriorsCex_Proofs.
Local Open Scope R_scope.

(** ** C65 *)
Theorem C65_normal : forall m s b p, normal_init m s b = Ok p ->
  peaks_at_zero (fun v => Ok (normal_lnprob p v)) m /\
  (forall x, normal_lnprob p (Fin x) = Fin 0 -> x = m) /\
  forall x, normal_lnprob p (Fin x) = Fin (ln (gauss_pdf m s x / gauss_pdf m s m)).
Proof.
  intros m s b p H. split; [exact (normal_peak m s b p H)|]. split; intros x; [exact (normal_strict m s b p x H)|exact (normal_density m s b p x H)].
Qed.
Print Assumptions C65_normal.
Theorem C65_lognormal : forall m s sh p, s <> 0 -> lognormal_init m s sh = Ok p ->
  peaks_at_zero (lognormal_lnprob_scalar p) (lg_mode p + shift_of sh) /\
  (forall x, shift_of sh < x -> lognormal_lnprob_scalar p (Fin x) =
     Ok (Fin (ln (logn_pdf (lg_logmean p) (lg_logvar p) (x - shift_of sh) /
                  logn_pdf (lg_logmean p) (lg_logvar p) (lg_mode p))))) /\
  exp (lg_logmean p + lg_logvar p / 2) = m /\
  (exp (lg_logvar p) - 1) * exp (2 * lg_logmean p + lg_logvar p) = s ^ 2.
Proof.
  intros m s sh p Hs H. split; [exact (lognormal_peak m s sh p Hs H)|]. split.
  - intros x. exact (lognormal_density m s sh p x Hs H).
  - exact (lognormal_moments m s sh p Hs H).
Qed.
Print Assumptions C65_lognormal.
Theorem C65_flat : forall a b x, a <= x <= b -> peaks_at_zero (flat_lnprob_scalar (mkFlat a b)) x.
Proof. exact flat_peak. Qed.
Print Assumptions C65_flat.
Theorem C65_truncated_gaussian : forall m s a b p, trunc_init m s a b = Ok p ->
  (forall v r, v <> NaN -> trunc_lnprob_scalar p v = Ok r -> xleb r (Fin 0) = true) /\
  (a <= m <= b -> peaks_at_zero (trunc_lnprob_scalar p) m).
Proof. intros m s a b p H. split; [exact (trunc_le m s a b p H)|]. intros Hm. exact (trunc_peak m s a b p Hm H). Qed.
Print Assumptions C65_truncated_gaussian.
(** a truncated gaussian whose mean is outside of its limits has no point of log probability 0 *)
Theorem C65_truncated_gaussian_mode_refuted : exists m s a b p, trunc_init m s a b = Ok p /\ a < b /\
  (exists x l, trunc_lnprob_scalar p (Fin x) = Ok l) /\
  forall mode, ~ peaks_at_zero (trunc_lnprob_scalar p) mode.
Proof.
  exists 0, 1, (1 / 2), 2, the_trunc. split; [exact the_trunc_made|]. split; [lra|]. split.
  - exists 1. unfold trunc_lnprob_scalar, trunc_out. cbn [the_trunc xltb tg_min tg_max]. rewrite !Rltb_f by lra. cbn [orb]. eexists. reflexivity.
  - intros mode [_ H]. destruct (trunc_mean_outside 0 1 (1 / 2) 2 the_trunc the_trunc_made ltac:(left; lra) _ _ H) as (y & [= <-] & Hy). lra.
Qed.
Print Assumptions C65_truncated_gaussian_mode_refuted.
Theorem C65_two_sided_erf : forall erf p, erf_like erf -> 0 < te_wmin p -> 0 < te_wmax p ->
  (forall v, v <> NaN -> xleb (erf_lnprob_scalar erf p v) (Fin 0) = true) /\
  (forall x, erf_lnprob_scalar erf p (Fin x) = Fin 0 <->
     erf ((te_max p - x) / te_wmax p) = 1 /\ erf ((x - te_min p) / te_wmin p) = 1).
Proof. intros erf p He H1 H2. split; [intros v Hv; exact (erf_le erf p v He H1 H2 Hv)|intros x; exact (erf_zero erf p x He H1 H2)]. Qed.
Print Assumptions C65_two_sided_erf.
Theorem C65_centre : forall a b s t p, cen_init a b s t = Ok p ->
  peaks_at_zero2 (fun x y => Ok (cen_lnprob_scalar p x y)) a b.
Proof. exact cen_peak. Qed.
Print Assumptions C65_centre.
Theorem C65_shape : forall s A p, gba_init s A = Ok p ->
  peaks_at_zero2 (ba_lnprob_scalar2d p) 0 0 /\
  forall x y, x * x + y * y < 1 ->
    ba_lnprob_scalar2d p (Fin x) (Fin y) = Ok (Fin (ln (ba_pdf s (sqrt (x * x + y * y))))).
Proof. intros s A p H. split; [exact (ba_peak s A p H)|]. intros x y Hq. exact (ba_density s A p x y H Hq). Qed.
Print Assumptions C65_shape.
Theorem C65_disk : forall r x y, x ^ 2 + y ^ 2 < r ^ 2 -> peaks_at_zero2 (zdisk_lnprob_scalar2d (zdisk_init r)) x y.
Proof. exact zdisk_peak. Qed.
Print Assumptions C65_disk.
Example C65_hypotheses_hold : normal_init 0 1 (Some (0, 1)) = Ok the_normal /\ cen_init 0 0 1 1 = Ok the_cen /\
  gba_init 1 1 = Ok the_ba /\ trunc_init 0 1 (1 / 2) 2 = Ok the_trunc /\ (exists p, lognormal_init 2 1 (Some 1) = Ok p) /\
  erf_like (fun x => x / sqrt (1 + x ^ 2)).
Proof.
  split; [exact the_normal_made|]. split; [exact the_cen_made|]. split; [exact the_ba_made|]. split; [exact the_trunc_made|].
  split; [unfold lognormal_init; rewrite Rleb_f by lra; eexists; reflexivity|].
  intros x. assert (P := pow2_ge_0 x). assert (S : 0 < sqrt (1 + x ^ 2)) by (apply sqrt_lt_R0; lra).
  assert (Q := sqrt_sqrt (1 + x ^ 2) ltac:(lra)). set (q := sqrt (1 + x ^ 2)) in *.
  split; apply (Rmult_le_reg_r q); try exact S; unfold Rdiv; rewrite Rmult_assoc, Rinv_l by lra; nra.
Qed.

(** ** C66 *)
Theorem C66_priors : forall erf p, erf_like erf -> made_1d erf p -> encodes p /\ never_positive (p1_lnprob p).
Proof. intros erf p He Hp. split; [exact (made_encodes erf p He Hp)|exact (made_np erf p He Hp)]. Qed.
Print Assumptions C66_priors.
Theorem C66_shape : forall s A p, gba_init s A = Ok p -> encodes2 (gba_obj p) /\ never_positive2 (ba_lnprob_scalar2d p).
Proof. intros s A p H. split; [exact (ba_encodes s A p H)|]. intros v1 v2 r. exact (ba_np s A p v1 v2 r H). Qed.
Print Assumptions C66_shape.
Theorem C66_centre : forall a b s t p x1 x2, cen_init a b s t = Ok p ->
  let (f1, f2) := cen_fdiff p x1 x2 in let (l1, l2) := cen_lnprob_scalar_sep p x1 x2 in
  xmul f1 f1 = xmul (Fin (-2)) l1 /\ xmul f2 f2 = xmul (Fin (-2)) l2 /\
  cen_lnprob_scalar p x1 x2 = xadd l1 l2 /\ xltb (Fin 0) l1 = false /\ xltb (Fin 0) l2 = false.
Proof. exact cen_encodes. Qed.
Print Assumptions C66_centre.
(** LMBounds and Sinh have residuals but no log probability, ZDisk2D the reverse *)
Theorem C66_missing_methods_refuted : forall p q r,
  ~ encodes (lmbounds_obj p) /\ ~ encodes (sinh_obj q) /\ ~ encodes2 (zdisk_obj r).
Proof.
  intros p q r. assert (K := no_lnprob p q 0 0 (Fin 0)). split; [apply K|]. split; [apply K|]. exact (no_fdiff r).
Qed.
Print Assumptions C66_missing_methods_refuted.
Example C66_hypotheses_hold : made_1d (fun x => x / sqrt (1 + x ^ 2)) (normal_obj the_normal) /\
  made_1d (fun x => x / sqrt (1 + x ^ 2)) (trunc_obj the_trunc).
Proof.
  split.
  - right. right. left. exists 0, 1, (Some (0, 1)), the_normal. split; [exact the_normal_made|reflexivity].
  - right. right. right. right. exists 0, 1, (1 / 2), 2, the_trunc. split; [exact the_trunc_made|reflexivity].
Qed.

(** ** C68 *)
Theorem C68_normal : forall p, agrees (fun v => Ok (normal_lnprob p v)) (fun vs => Ok (AArray (normal_lnprob_array p vs))).
Proof. exact normal_agree. Qed.
Print Assumptions C68_normal.
Theorem C68_lognormal : forall p, agrees (lognormal_lnprob_scalar p) (p1_lnprob_array (lognormal_obj p)) /\
  agrees (lognormal_prob_scalar p) (fun vs => rmap AArray (lognormal_prob_array p vs)).
Proof. intros p. split; [exact (lognormal_agree p)|exact (lognormal_prob_agree p)]. Qed.
Print Assumptions C68_lognormal.
Theorem C68_two_sided_erf : forall erf p, erf_like erf -> 0 < te_wmin p -> 0 < te_wmax p ->
  agrees_on (fun v => v <> NaN) (fun v => Ok (erf_lnprob_scalar erf p v))
   (fun vs => Ok (AArray (erf_lnprob_array erf p vs))).
Proof. exact erf_agree. Qed.
Print Assumptions C68_two_sided_erf.
Theorem C68_flat_probability : forall p, agrees_on finite (flat_prob_scalar p) (flat_prob_array p).
Proof. exact flat_prob_agree. Qed.
Print Assumptions C68_flat_probability.
Theorem C68_truncated_gaussian_inside : forall m s a b p, trunc_init m s a b = Ok p ->
  agrees_on (fun v => exists x, v = Fin x /\ a < x < b) (trunc_lnprob_scalar p)
    (fun vs => Ok (AArray (trunc_lnprob_array p vs))).
Proof. exact trunc_agree. Qed.
Print Assumptions C68_truncated_gaussian_inside.
Theorem C68_shape_inside : forall s A p, gba_init s A = Ok p ->
  agrees2_on (fun v => exists x y, v = (Fin x, Fin y) /\ x * x + y * y < 1)
    (ba_lnprob_scalar2d p) (fun gs => Ok (AArray (ba_lnprob_array2d p gs))) /\
  (forall vs, Forall finite2 vs -> ba_prob_array2d p vs = map (fun v => ba_prob_scalar2d p (fst v) (snd v)) vs) /\
  (forall vs, Forall finite vs -> ba_prob_array1d p vs = map (ba_prob_scalar1d p) vs).
Proof. intros s A p H. split; [exact (ba_agree s A p H)|]. split; [exact (ba_prob_agree p)|exact (ba_prob1d_agree p)]. Qed.
Print Assumptions C68_shape_inside.
Theorem C68_disk : forall p vs, Forall (fun v => fst v <> NaN /\ snd v <> NaN) vs ->
  zdisk_prob_array2d p vs = map (fun v => zdisk_prob_scalar2d p (fst v) (snd v)) vs.
Proof. exact zdisk_prob_agree. Qed.
Print Assumptions C68_disk.
(** the limits themselves: a value for the scalar, -inf in the array; beyond: raise, -inf *)
Theorem C68_truncated_gaussian_refuted : forall m s a b p, trunc_init m s a b = Ok p -> a <= b ->
  trunc_lnprob_scalar p (Fin a) <> Raise GMixRangeError /\ trunc_lnprob_array p [Fin a] = [NInf] /\
  (forall x, b < x -> trunc_lnprob_scalar p (Fin x) = Raise GMixRangeError /\ trunc_lnprob_array p [Fin x] = [NInf]) /\
  ~ agrees_on finite (trunc_lnprob_scalar p) (fun vs => Ok (AArray (trunc_lnprob_array p vs))).
Proof. exact trunc_differs. Qed.
Print Assumptions C68_truncated_gaussian_refuted.
Theorem C68_flat_refuted : forall a b x, a <= x <= b ->
  flat_lnprob_array (mkFlat a b) [Fin x; Fin x] = Ok (AScalar (Fin 0)) /\
  ~ agrees_on finite (flat_lnprob_scalar (mkFlat a b)) (flat_lnprob_array (mkFlat a b)).
Proof. exact flat_differs. Qed.
Print Assumptions C68_flat_refuted.
Theorem C68_shape_refuted : forall s A p x y, gba_init s A = Ok p -> 1 <= x * x + y * y ->
  ba_lnprob_scalar2d p (Fin x) (Fin y) = Raise GMixRangeError /\ ba_lnprob_array2d p [(Fin x, Fin y)] = [NInf].
Proof. exact ba_differs. Qed.
Print Assumptions C68_shape_refuted.
Theorem C68_centre_refuted : forall p x1 y1 x2 y2, cen_prob_array p [(x1, y1); (x2, y2)] = Raise TypeError.
Proof. exact cen_array_differs. Qed.
Print Assumptions C68_centre_refuted.
Example C68_hypotheses_hold : trunc_init 0 1 (1 / 2) 2 = Ok the_trunc /\ trunc_lnprob_array the_trunc [Fin (1 / 2)] = [NInf] /\
  ba_lnprob_array2d the_ba [(Fin 1, Fin 1)] = [NInf].
Proof.
  split; [exact the_trunc_made|]. split; [exact (proj1 (proj2 (trunc_differs 0 1 (1 / 2) 2 the_trunc the_trunc_made ltac:(lra))))|].
  exact (proj2 (ba_differs 1 1 the_ba 1 1 the_ba_made ltac:(lra))).
Qed.

(** ** C95 *)
Theorem C95_probability_is_exponential :
  (forall p v, normal_prob p v = xexp (normal_lnprob p v)) /\
  (forall p v l, lognormal_lnprob_scalar p v = Ok l -> lognormal_prob_scalar p v = Ok (xexp l)) /\
  (forall p v, (let* l := flat_lnprob_scalar p v in Ok (xexp l)) = flat_prob_scalar p v) /\
  (forall p x y, cen_prob_scalar p x y = xexp (cen_lnprob_scalar p x y)).
Proof.
  split; [exact normal_exp|]. split; [intros p v l H; unfold lognormal_prob_scalar; rewrite H; reflexivity|].
  split; [|reflexivity]. intros p v. unfold flat_lnprob_scalar, flat_prob_scalar. destruct (flat_out p v); [reflexivity|].
  cbn. rewrite exp_0. reflexivity.
Qed.
Print Assumptions C95_probability_is_exponential.
(** the probability of the shape prior has the factor A; zero outside *)
Theorem C95_shape : forall s A p x y, gba_init s A = Ok p ->
  (x * x + y * y < 1 -> exists l, ba_lnprob_scalar2d p (Fin x) (Fin y) = Ok (Fin l) /\
     ba_prob_scalar2d p (Fin x) (Fin y) = Fin (A * exp l)) /\
  (1 <= x * x + y * y -> ba_prob_scalar2d p (Fin x) (Fin y) = Fin 0).
Proof. intros s A p x y H. split; intros Hq; [exact (ba_exp s A p x y H Hq)|exact (ba_exp_out s A p x y H Hq)]. Qed.
Print Assumptions C95_shape.
Theorem C95_two_sided_erf : forall erf p v, xltb (Fin 0) (erf_prob_scalar erf p v) = true -> erf_like erf ->
  xexp (erf_lnprob_scalar erf p v) = erf_prob_scalar erf p v.
Proof. exact erf_exp. Qed.
Print Assumptions C95_two_sided_erf.
(** with different widths the probability is negative far from the interval *)
Theorem C95_two_sided_erf_refuted : forall erf,
  (forall x, erf (- x) = - erf x) -> (forall x y, x < y -> erf x < erf y) ->
  exists p x q, 0 < te_wmin p /\ 0 < te_wmax p /\ te_min p < te_max p /\
    erf_prob_scalar erf p (Fin x) = Fin q /\ q < 0 /\
    xexp (erf_lnprob_scalar erf p (Fin x)) <> erf_prob_scalar erf p (Fin x).
Proof. exact erf_negative. Qed.
Print Assumptions C95_two_sided_erf_refuted.
Example C95_hypotheses_hold : (forall x, (fun x => x) (- x) = - (fun x => x) x) /\ (forall x y : R, x < y -> (fun x => x) x < (fun x => x) y) /\
  gba_init 1 1 = Ok the_ba /\ ba_lnprob_scalar2d the_ba (Fin 0) (Fin 0) = Ok (Fin 0).
Proof. split; [reflexivity|]. split; [intros; assumption|]. split; [exact the_ba_made|exact ba_zero]. Qed.

(** ** C97 *)
Theorem C97_finite_arguments :
  (forall a b x, flat_lnprob_scalar (mkFlat a b) (Fin x) = Raise GMixRangeError <-> ~ (a <= x <= b)) /\
  (forall m s a b p x, trunc_init m s a b = Ok p ->
     (trunc_lnprob_scalar p (Fin x) = Raise GMixRangeError <-> ~ (a <= x <= b))) /\
  (forall m s sh p x, lognormal_init m s sh = Ok p ->
     (lognormal_lnprob_scalar p (Fin x) = Raise GMixRangeError <-> x <= shift_of sh)) /\
  (forall s A p x y, gba_init s A = Ok p ->
     (ba_lnprob_scalar2d p (Fin x) (Fin y) = Raise GMixRangeError <-> 1 <= x ^ 2 + y ^ 2)) /\
  (forall r x y, zdisk_lnprob_scalar2d (zdisk_init r) (Fin x) (Fin y) = Raise GMixRangeError <-> r ^ 2 <= x ^ 2 + y ^ 2).
Proof.
  split; [exact flat_raises|]. split; [exact trunc_raises|]. split; [exact lognormal_raises|]. split; [exact ba_raises|exact zdisk_raises].
Qed.
Print Assumptions C97_finite_arguments.
(** nan passes the tests *)
Theorem C97_nan_refuted : forall a b r,
  flat_lnprob_scalar (mkFlat a b) NaN = Ok (Fin 0) /\ flat_fdiff (mkFlat a b) NaN = Ok (Fin 0) /\
  (forall m s p, trunc_init m s a b = Ok p -> trunc_lnprob_scalar p NaN = Ok NaN) /\
  zdisk_lnprob_scalar2d (zdisk_init r) NaN NaN = Ok (Fin 0).
Proof.
  intros a b r. split; [reflexivity|]. split; [reflexivity|]. split; [|reflexivity]. intros m s p.
  exact (proj1 (proj2 (proj2 (nan_accepted a b m s p r)))).
Qed.
Print Assumptions C97_nan_refuted.
Example C97_hypotheses_hold : trunc_init 0 1 (1 / 2) 2 = Ok the_trunc /\ gba_init 1 1 = Ok the_ba /\
  flat_lnprob_scalar (mkFlat 0 1) (Fin 2) = Raise GMixRangeError.
Proof. split; [exact the_trunc_made|]. split; [exact the_ba_made|]. apply flat_raises. lra. Qed.
