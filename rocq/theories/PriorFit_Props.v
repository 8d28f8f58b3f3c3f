(** C123: fits of the parameters of a prior to a curve. *)
From Coq Require String.
From Verif Require Import Base XReal Flags_Model Pixels_Model LM_Model LM_Spec Priors_Model Priors_Spec
  PriorSample_Model PriorFit_Model PriorFit_Spec PriorFit_Proofs PriorFitCex_Proofs.
Local Open Scope R_scope.
Local Open Scope list_scope.

Example C123_hypotheses_hold : flat_uniform G0 /\ uniform_between G0 /\ Forall (fun d => 0 < fst d) pts /\
  (exists s' e, ba_fit G0 no_lmdif no_inv eig0 msg0 works odd0 [(1/2, 1); (1/4, 1); (1/8, 1); (3/4, 0)] (Some [Some 1; Some 1]) start tt
    = (tt, s', OkX tt) /\ bs_perr s' = Some e /\ e <> placeholder 2 /\ bs_fit s' = Some [Some 2; Some 1]).
Proof.
  split; [exact G0_flat|]. split. { intros w a b n. split; [apply repeat_length|]. intros H. apply Forall_forall. intros u Hu. apply repeat_spec in Hu. subst u. lra. }  split; [exact pts_pos|exact works_ok]. Qed.

(** what LogNormal.fit minimizes: amplitude times the lognormal with the trial mean and
    width, minus the data; other trial values are refused *)
Theorem C123_lognormal_residuals : forall m s c data,
  (0 < m -> s <> 0 -> Forall (fun d => 0 < fst d) data ->
   ln_fdiff data [Some m; Some s; Some c] = OkX (map (fun d => Some (c * logn_curve m s (fst d) - snd d)) data)) /\
  (m <= 0 \/ Exists (fun d => fst d <= 0) data ->
   ln_fdiff data [Some m; Some s; Some c] = OkX (repeat None (length data))).
Proof. intros m s c data. split; [exact (ln_fdiff_eq m s c data)|exact (ln_fdiff_refused m s c data)]. Qed.
Print Assumptions C123_lognormal_residuals.

(** a prior without a shift fits its own curve with its own parameters *)
Theorem C123_own_curve : forall m s p data, s <> 0 -> lognormal_init m s None = Ok p -> on_curve p data ->
  ln_fdiff data [Some m; Some s; Some 1] = OkX (repeat (Some 0) (length data)).
Proof. exact ln_own_curve. Qed.
Print Assumptions C123_own_curve.
(** a prior with a shift does not: the shift is not part of the curve that is fitted *)
Theorem C123_own_curve_refuted : ~ (forall m s sh p data, s <> 0 -> lognormal_init m s sh = Ok p -> on_curve p data ->
  ln_fdiff data [Some m; Some s; Some 1] = OkX (repeat (Some 0) (length data))).
Proof. exact shifted_cex. Qed.
Print Assumptions C123_own_curve_refuted.

(** whatever the generator and the number of attempts, the outcome is that of one run from
    1.1 times the moments of the data *)
Theorem C123_one_attempt : forall W (G : rng W) lmdif leastsq inv eig message data w, flat_uniform G -> data <> [] ->
  snd (ln_fit G lmdif inv eig message leastsq data w) =
  run_leastsq lmdif leastsq inv eig message (ln_fdiff data)
    [Some (mean_of (map fst data) * (11/10)); Some (std_of (map fst data) * (11/10)); Some (mean_of (map snd data) * (11/10))]
    0 false None 0.
Proof.
  intros W G lmdif leastsq inv eig message data w H Hn.
  unfold ln_fit. rewrite (one_guess W G lmdif leastsq inv eig message data 3 w H). unfold guess11.
  rewrite !amean_eq, !astd_eq by (destruct data; [congruence|discriminate]). reflexivity.
Qed.
Print Assumptions C123_one_attempt.
(** so trying again does not help: a minimizer that fails from a single starting point can
    still make the fit fail *)
Theorem C123_retry_refuted : ~ (forall W (G : rng W) lmdif leastsq inv eig message data w g0,
  flat_uniform G ->
  (forall g, length g = 3%nat -> g <> g0 -> succeeded (run_leastsq lmdif leastsq inv eig message (ln_fdiff data) g 0 false None 0)) ->
  succeeded (snd (ln_fit G lmdif inv eig message leastsq data w))).
Proof. exact retry_cex. Qed.
Print Assumptions C123_retry_refuted.

(** the shape prior: density minus data over the root of the data, for the points that are
    positive *)
Theorem C123_shape_residuals : forall odd A sigma data, sigma <> 0 -> Forall (fun d => 0 < snd d) data ->
  ba_fdiff odd data [Some A; Some sigma] = OkX (map (fun d => Some ((ba_density A sigma (fst d) - snd d) / sqrt (snd d))) data).
Proof. exact ba_fdiff_eq. Qed.
Print Assumptions C123_shape_residuals.
Theorem C123_shape_dropped : forall W (G : rng W) lmdif inv eig message leastsq odd data guess s w,
  ba_fit G lmdif inv eig message leastsq odd data guess s w =
  ba_fit G lmdif inv eig message leastsq odd (filter (fun d => Rltb 0 (snd d)) data) guess s w.
Proof. intros W G lmdif inv eig message leastsq odd data guess s w. exact (ba_dropped W G lmdif inv eig message leastsq odd data guess s w). Qed.
Print Assumptions C123_shape_dropped.
(** without a guess it starts within 20% of 1.3 times the sum times the spacing, and of 0.16 *)
Theorem C123_shape_guess : forall W (G : rng W) lmdif inv eig message leastsq odd data s w x0 y0 x1 y1 rest, uniform_between G ->
  filter (fun d => Rltb 0 (snd d)) data = (x0, y0) :: (x1, y1) :: rest ->
  exists w1 A sigma, ba_fit G lmdif inv eig message leastsq odd data None s w = ba_fit G lmdif inv eig message leastsq odd data (Some [Some A; Some sigma]) s w1 /\
    let A0 := 13/10 * rsum (map snd ((x0, y0) :: (x1, y1) :: rest)) * (x1 - x0) in
    Rabs (A - A0) <= 2/10 * Rabs A0 /\ Rabs (sigma - 16/100) <= 2/10 * (16/100).
Proof.
  intros W G lmdif inv eig message leastsq odd data s w x0 y0 x1 y1 rest HG E.
  destruct (ba_guess_near W G x0 y0 x1 y1 rest (rsum (map snd ((x0, y0) :: (x1, y1) :: rest))) w HG) as (A & sigma & Eg & B).
  exists (fst (ba_guess G ((x0, y0) :: (x1, y1) :: rest) (rsum (map snd ((x0, y0) :: (x1, y1) :: rest))) w)), A, sigma.
  split; [|exact B]. apply ba_no_guess. rewrite E.
  destruct (ba_guess G ((x0, y0) :: (x1, y1) :: rest) _ w) as [w1 g]. cbn [fst snd] in *. subst g. reflexivity.
Qed.
Print Assumptions C123_shape_guess.
(** after a fit with errors, the prior has the parameters that are reported, which are the
    solution of the minimizer *)
Theorem C123_shape_fit : forall W (G : rng W) lmdif inv eig message leastsq odd data g s w w' s',
  ba_fit G lmdif inv eig message leastsq odd data (Some g) s w = (w', s', OkX tt) ->
  exists e, bs_perr s' = Some e /\
  (e <> placeholder (length g) -> bs_fit s' = Some (bs_pars s') /\
     exists t, snd (exec odd (filter (fun d => Rltb 0 (snd d)) data) (leastsq g 4000%nat) (bs_pars s)) = OkX t /\ bs_pars s' = tp_x t).
Proof. intros W G lmdif inv eig message leastsq odd. exact (ba_done W G lmdif inv eig message leastsq odd). Qed.
Print Assumptions C123_shape_fit.
(** a fit that failed leaves the prior at the last parameters that were tried *)
Theorem C123_shape_failed_refuted : ~ (forall W (G : rng W) lmdif inv eig message leastsq odd data g s w w' s',
  ba_fit G lmdif inv eig message leastsq odd data (Some g) s w = (w', s', OkX tt) ->
  bs_perr s' = Some (placeholder (length g)) -> bs_pars s' = bs_pars s).
Proof. exact failed_cex. Qed.
Print Assumptions C123_shape_failed_refuted.
(** precisely: unless the minimizer has a solution with a covariance *)
Theorem C123_shape_last : forall W (G : rng W) lmdif inv eig message leastsq odd data g s w cur r,
  exec odd (filter (fun d => Rltb 0 (snd d)) data) (leastsq g 4000%nat) (bs_pars s) = (cur, r) ->
  (forall t, r = OkX t -> tp_ier t = 0%Z \/ (4 < tp_ier t)%Z \/ tp_cov t = None) ->
  bs_pars (snd (fst (ba_fit G lmdif inv eig message leastsq odd data (Some g) s w))) = cur.
Proof.
  intros W G lmdif inv eig message leastsq odd data g s w cur r E H. apply (ba_last _ _ _ _ _ _ _ _ _ _ _ _ _ r E).
  destruct r as [t|]; [|reflexivity]. cbn [asks_again]. destruct (H t eq_refl) as [-> | [Q | -> ]]; [reflexivity| |destruct (_ && _)%bool; reflexivity].
  apply Z.ltb_lt in Q. rewrite Q, Bool.andb_false_r. reflexivity.
Qed.
Print Assumptions C123_shape_last.
(** and raises KeyError for failures that run_leastsq reports by flags *)
Theorem C123_shape_error_refuted : ~ (forall W (G : rng W) lmdif inv eig message leastsq odd data g s w,
  (exists d, snd (ba_run lmdif inv eig message leastsq odd (filter (fun d => Rltb 0 (snd d)) data) g (bs_pars s)) = OkX d) ->
  exists w' s', ba_fit G lmdif inv eig message leastsq odd data (Some g) s w = (w', s', OkX tt)).
Proof. exact keyerror_cex. Qed.
Print Assumptions C123_shape_error_refuted.
