(** C43, C44, C45 (adaptive moments), C84-C86 *)
From Verif Require Import Base XReal Moments_Spec Moments_Model Jacobian_Model Pixels_Model GMix_Model GMix_Spec Render_Spec GMixObj_Model GMixObj_Proofs Flags_Model
  MomResult_Model Admom_Model Admom_Spec Admom2_Proofs Admom3_Proofs Admom4_Proofs Admom5_Proofs.
Local Open Scope R_scope.

(** ** C43 *)
(** there is a tilted object of four pixels for which the fit succeeds, and a fit with negative flux that fails *)
Example C43_hypotheses_hold : forall cenonly, let c := mkAc 200 5 (1/100000) (1/1000) cenonly in
  good_input c obsW [gW] /\ exists d, snd (am_run c obsW [gW]) = Ok d /\ d_flags d = 0%Z /\ d_numiter d = 2%nat /\ d_T d = Fin 10.
Proof. exact sample_ok. Qed.
Example C43_failure_hypotheses_hold : let c := mkAc 200 5 (1/100000) (1/1000) false in
  good_input c obsN [gW] /\ exists d, snd (am_run c obsN [gW]) = Ok d /\ d_numiter d = 1%nat /\ failed_dict d NONPOS_FLUX.
Proof. exact flux_sample. Qed.
(** a result without flags: the fit converged, and the final weight passed all the tests on the way *)
Theorem C43_flags_zero_converged : forall c o wt d, good_input c o wt -> snd (am_run c o wt) = Ok d -> d_flags d = 0%Z ->
  (2 <= d_numiter d < ac_maxiter c)%nat /\ exists wc, converges c (ao_pix o) (plain wt) (d_numiter d) wc /\
    dict_describes d wc (ao_pix o) (get_area (ao_jac o)) /\ shape_describes d wc (ao_pix o) /\ plain (fst (am_run c o wt)) = wc.
Proof. exact ok_converged. Qed.
Print Assumptions C43_flags_zero_converged.
(** the textbook algorithm ends in exactly one way *)
Theorem C43_one_outcome : forall c o wt, good_input c o wt ->
  (exists f n, ends c (ao_pix o) (plain wt) f n) /\
  (forall f n f' n', ends c (ao_pix o) (plain wt) f n -> ends c (ao_pix o) (plain wt) f' n' -> f = f' /\ n = n').
Proof. intros c o wt G. split; [exact (outcome_exists c o wt G)|]. intros f n f' n'. apply ends_det. Qed.
Print Assumptions C43_one_outcome.
(** the result reports that way, except in the last iteration, and all quantities are nan when it is a failure *)
Theorem C43_result_reports_outcome : forall c o wt f n, good_input c o wt -> ends c (ao_pix o) (plain wt) f n -> (n <= ac_maxiter c)%nat /\
  exists d, snd (am_run c o wt) = Ok d /\ d_numiter d = n /\
    (base_flag c n f <> 0%Z -> failed_dict d (base_flag c n f)) /\
    (base_flag c n f = 0%Z -> exists wc, converges c (ao_pix o) (plain wt) n wc /\ dict_describes d wc (ao_pix o) (get_area (ao_jac o)) /\ shape_describes d wc (ao_pix o) /\ plain (fst (am_run c o wt)) = wc).
Proof. exact outcome. Qed.
Print Assumptions C43_result_reports_outcome.

(** ** C44 *)
(** a fit that converges in the last permitted iteration is reported as not converged, without results *)
Theorem C44_last_iteration_refuted : forall cenonly, let c := mkAc 2 5 (1/100000) (1/1000) cenonly in
  good_input c obsW [gW] /\ converges c (ao_pix obsW) (plain [gW]) 2 [gW] /\
  exists d, snd (am_run c obsW [gW]) = Ok d /\ Z.land (d_flags d) MAXITER <> 0%Z /\ d_T d = NaN.
Proof. exact last_iter. Qed.
Print Assumptions C44_last_iteration_refuted.
(** a fit that fails in the last permitted iteration loses the cause *)
Theorem C44_cause_lost_refuted : let c := mkAc 1 5 (1/100000) (1/1000) false in
  good_input c obsN [gW] /\ ends c (ao_pix obsN) (plain [gW]) NONPOS_FLUX 1 /\
  exists d, snd (am_run c obsN [gW]) = Ok d /\ Z.land (d_flags d) NONPOS_FLUX = 0%Z /\ Z.land (d_flags d) MAXITER <> 0%Z.
Proof. exact cause_lost. Qed.
Print Assumptions C44_cause_lost_refuted.
(** what the bit says *)
Theorem C44_maxiter_bit_partial : forall c o wt d, good_input c o wt -> snd (am_run c o wt) = Ok d ->
  (Z.land (d_flags d) MAXITER <> 0%Z <-> d_numiter d = ac_maxiter c).
Proof. exact maxiter_bit. Qed.
Print Assumptions C44_maxiter_bit_partial.

(** ** C45 *)
(** the mixture passed as guess is overwritten with the final weight *)
Theorem C45_admom_guess_refuted : exists h' r g g', am_go confU heapU obsU (GObj 0) = Some (h', r) /\ read heapU 0 = Some g /\ read h' 0 = Some g' /\
  gm_get_full_pars (o_data g) = [1; 0; 0; 1; 0; 1] /\ gm_get_full_pars (o_data g') = [1; 0; 1; 1; 0; 1].
Proof. exact guess_changed. Qed.
Print Assumptions C45_admom_guess_refuted.
(** nothing else is *)
Theorem C45_admom_others_untouched : forall c h o i g, wf h -> read h i = Some g -> exists h' r, am_go c h o (GObj i) = Some (h', r) /\
  (forall j, j <> i -> read h' j = read h j).
Proof. intros c h o i g W R. destruct (go_writes c h o i g W R) as (h' & r & E & _ & _ & _ & _ & O). eauto. Qed.
Print Assumptions C45_admom_others_untouched.

(** ** C84 *)
(** N^-1 = M^-1 - W^-1; inv2 is the inverse *)
Theorem C84_deweighting : forall W M, can_deweight W M ->
  (forall m, det2 m <> 0 ->
    xx m * xx (inv2 m) + xy m * xy (inv2 m) = 1 /\ xx m * xy (inv2 m) + xy m * yy (inv2 m) = 0 /\
    xy m * xx (inv2 m) + yy m * xy (inv2 m) = 0 /\ xy m * xy (inv2 m) + yy m * yy (inv2 m) = 1) /\
  inv2 (deweighted W M) = sub2 (inv2 M) (inv2 W) /\ (deweighted W M = W -> M = half W).
Proof.
  intros W M C. split; [exact inv2_inverse|]. split; [apply deweight_inverse; exact C|apply deweight_fixed; exact C].
Qed.
Print Assumptions C84_deweighting.
Theorem C84_fixed_point : forall W, det2 W <> 0 -> deweighted W (half W) = W.
Proof. exact deweight_half. Qed.
Print Assumptions C84_fixed_point.
(** the mixture made from a result is the final weight, normalised *)
Theorem C84_result_gmix : forall c o wt d, good_input c o wt -> snd (am_run c o wt) = Ok d -> d_flags d = 0%Z ->
  exists wc g, converges c (ao_pix o) (plain wt) (d_numiter d) wc /\ am_get_gmix d = Ok g /\
    o_data g = [gauss2d_set 1 (row0_of wc) (col0_of wc) (yy (cov0_of wc)) (xy (cov0_of wc)) (xx (cov0_of wc))].
Proof. exact result_gmix. Qed.
Print Assumptions C84_result_gmix.
Theorem C84_failed_gmix : forall d, d_flags d <> 0%Z -> am_get_gmix d = Raise RuntimeError.
Proof. exact failed_gmix. Qed.
Print Assumptions C84_failed_gmix.

(** ** C85 *)
Example C85_hypotheses_hold : let c := mkAc 200 5 (1/100000) (1/1000) true in
  usable_obs c obsW /\ wf heapW /\ (exists g, read heapW 0 = Some g /\ o_kind g = KFull /\ good_guess (o_data g) /\ positive_weight (o_data g)) /\
  exists h' d, find_cen_admom c heapW obsW (WGmix 0) 1 None = Some (h', Ok (d, (Fin 0, Fin 0))) /\ d_flags d = 0%Z.
Proof. exact find_sample. Qed.
Theorem C85_find_cen_gmix : forall c h o i g ntry rng, usable_obs c o -> wf h -> read h i = Some g -> o_kind g = KFull -> good_guess (o_data g) -> positive_weight (o_data g) ->
  ntry <> 0%nat -> (ntry = 1%nat \/ exists l, rng = Some l /\ (ntry <= length l)%nat) ->
  exists h' d cen, find_cen_admom c h o (WGmix i) ntry rng = Some (h', Ok (d, cen)) /\
    (forall j, (j < length (h_objs h))%nat -> read h' j = read h j) /\
    (d_flags d = 0%Z -> exists wc, found c o (cov0_of (o_data g)) d wc /\ cen = (Fin (row0_of wc), Fin (col0_of wc))) /\
    (d_flags d <> 0%Z -> cen = (NaN, NaN)).
Proof. exact find_gmix. Qed.
Print Assumptions C85_find_cen_gmix.
Theorem C85_find_cen_fwhm : forall c h o f ntry rng, usable_obs c o -> wf h -> 0 < f ->
  ntry <> 0%nat -> (ntry = 1%nat \/ exists l, rng = Some l /\ (ntry <= length l)%nat) ->
  exists h' d cen, find_cen_admom c h o (WFwhm f) ntry rng = Some (h', Ok (d, cen)) /\
    (forall j, (j < length (h_objs h))%nat -> read h' j = read h j) /\
    (d_flags d = 0%Z -> exists wc, found c o (mkSym (fwhm_to_T f / 2) 0 (fwhm_to_T f / 2)) d wc /\ cen = (Fin (row0_of wc), Fin (col0_of wc))) /\
    (d_flags d <> 0%Z -> cen = (NaN, NaN)).
Proof. exact find_fwhm. Qed.
Print Assumptions C85_find_cen_fwhm.
Theorem C85_arguments : forall c h o w ntry rng, wf h ->
  ((1 < ntry)%nat -> rng = None -> find_cen_admom c h o w ntry rng = Some (h, Raise ValueError)) /\
  (ntry = 1%nat -> find_cen_admom c h o WNone ntry rng = Some (h, Raise ValueError)) /\
  (forall i g, ntry = 0%nat -> read h i = Some g -> o_kind g = KFull -> exists h', find_cen_admom c h o (WGmix i) ntry rng = Some (h', Raise UnboundLocalError)).
Proof. exact find_errors. Qed.
Print Assumptions C85_arguments.

(** ** C86 *)
(** whatever happens in the fit, a result is returned *)
Theorem C86_always_a_result_partial : forall c o wt, good_input c o wt -> exists d, snd (am_run c o wt) = Ok d.
Proof. exact always_result. Qed.
Print Assumptions C86_always_a_result_partial.
(** a pixel of zero weight, present when ignore_zero_weight=False, makes the fit raise *)
Theorem C86_zero_weight_refuted : let o := mkAo [mkPix 0 0 1 1 1; mkPix 0 0 1 1 0] jac1 in
  good_guess [gU 0] /\ real_pixels (ao_pix o) /\ snd (am_run confU o [gU 0]) = Raise ZeroDivisionError.
Proof. exact zero_weight_sample. Qed.
Print Assumptions C86_zero_weight_refuted.
Theorem C86_no_iterations_refuted : forall c o wt, wt <> [] -> ac_maxiter c = 0%nat -> snd (am_run c o wt) = Raise UnboundLocalError.
Proof. exact no_iterations. Qed.
Print Assumptions C86_no_iterations_refuted.
