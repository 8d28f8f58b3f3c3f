(** C46, C47, C48 *)
From Verif Require Import Base GMixObj_Model Runners_Model Runners_Spec Runners_Proofs Runners2_Proofs Runners3_Proofs.
Local Open Scope R_scope.

(** ** C46 *)
(** a fitter that fails twice and then succeeds: five tries allowed, and two *)
Example C46_hypotheses_hold : forall m, let fail := (1%Z, None) in let good := (0%Z, Some gm1) in
  fit1 (AObs 0) 5 (m, [fail; fail; good; fail]) = ((m, [fail]), Ok good) /\ fit1 (AObs 0) 2 (m, [fail; fail; good; fail]) = ((m, [good; fail]), Ok fail).
Proof. exact three_tries. Qed.
(** a result is that of the first successful try, or of the last of ntry failed ones *)
Theorem C46_result : forall W G rslt r_flags fitter_go guesser a ntry s s' r,
  run_fitter W G rslt r_flags fitter_go guesser a ntry s = (s', Ok r) <-> outcome_ok W G rslt r_flags fitter_go guesser a ntry s s' r.
Proof. exact run_fitter_ok. Qed.
Print Assumptions C46_result.
(** an exception is that of a try after failed tries, or there were no tries *)
Theorem C46_exception : forall W G rslt r_flags fitter_go guesser a ntry s s' e,
  run_fitter W G rslt r_flags fitter_go guesser a ntry s = (s', Raise e) <-> outcome_bad W G rslt r_flags fitter_go guesser a ntry s s' e.
Proof. exact run_fitter_raise. Qed.
Print Assumptions C46_exception.
(** a failure is returned only after exactly ntry failures *)
Theorem C46_failure_means_all_failed : forall W G rslt r_flags fitter_go guesser a ntry s s' r f,
  run_fitter W G rslt r_flags fitter_go guesser a ntry s = (s', Ok r) -> r_flags r = Some f -> f <> 0%Z -> fails W G rslt r_flags fitter_go guesser a ntry s s' (Some r).
Proof. intros W G rslt r_flags fitter_go guesser a ntry s s' r f E F N. apply run_fitter_ok in E. destruct E as [(k & s1 & l & _ & _ & _ & Z)|E]; [congruence|exact E]. Qed.
Print Assumptions C46_failure_means_all_failed.
(** runners leave observations and metadata alone *)
Theorem C46_memory_kept : forall W G rslt r_flags fitter_go guesser a ntry s s' o,
  run_fitter W G rslt r_flags fitter_go guesser a ntry s = (s', o) -> fst s' = fst s.
Proof. exact run_fitter_mem. Qed.
Print Assumptions C46_memory_kept.

(** ** C47 *)
Example C47_hypotheses_hold : wf_mem (mem2 3) /\ wf_arg (mem2 3) (AList 0) /\ NoDup (map (meta_of (mem2 3)) (targets (mem2 3) (AList 0))) /\
  exists m1 p, psf1 (AList 0) 1 true (mem2 3, [(1%Z, None); (0%Z, Some gm1)]) = ((m1, []), Ok p) /\ flat p = [(1%Z, None); (0%Z, Some gm1)].
Proof.
  split; [exact (proj1 mem2_wf)|]. split; [cbn; auto|]. split; [destruct boot_ok as (x & _ & N); exact N|].
  destruct not_shared as (m1 & p & m2 & k & A & B & _). exists m1, p. auto.
Qed.
(** every psf is fitted once, in order, with the retries of C46, each result recorded before the next fit, and the results have the structure of the argument;
    otherwise the argument was of another type or one of the fits raised *)
Theorem C47_all_fitted : forall W G rslt r_flags r_get_gmix fitter_go guesser a ntry m w s' o, wf_mem m -> wf_arg m a ->
  run_psf_fitter W G rslt r_flags r_get_gmix fitter_go guesser a ntry true (m, w) = (s', o) ->
  match o with
  | Ok p => fit_all W G rslt r_flags r_get_gmix fitter_go guesser ntry (targets m a) (m, w) s' (flat p) /\ same_shape m a p
  | Raise e => a = AOther /\ e = ValueError /\ s' = (m, w) \/ breaks_off W G rslt r_flags r_get_gmix fitter_go guesser ntry (targets m a) (m, w) s' e
  end.
Proof. exact psf_spec. Qed.
Print Assumptions C47_all_fitted.
(** the containers, the references and all mixtures of observations that are not fitted stay *)
Theorem C47_structure_kept : forall W G rslt r_flags r_get_gmix fitter_go guesser ntry ts s s' rs,
  fit_all W G rslt r_flags r_get_gmix fitter_go guesser ntry ts s s' rs ->
  same_structure (fst s) (fst s') /\ length rs = length ts /\ forall j, ~ In j ts -> gmix_of (fst s') j = gmix_of (fst s) j.
Proof.
  intros W G rslt r_flags r_get_gmix fitter_go guesser ntry ts s s' rs F. destruct (fit_all_same _ _ _ _ _ _ _ _ _ _ _ _ F) as [A B]. split; [exact A|]. split; [exact B|].
  exact (recorded_gmix_other _ _ _ _ _ _ _ _ _ _ _ _ F).
Qed.
Print Assumptions C47_structure_kept.
(** each dict holds the last result recorded in it *)
Theorem C47_results_recorded : forall W G rslt r_flags r_get_gmix fitter_go guesser ntry ts s s' rs,
  fit_all W G rslt r_flags r_get_gmix fitter_go guesser ntry ts s s' rs -> forall d, result_of (fst s') d = last_result (fst s) d (combine ts rs) (result_of (fst s) d).
Proof. exact recorded_last. Qed.
Print Assumptions C47_results_recorded.
(** with dicts of their own: each psf has its own result, and the mixture of it when it succeeded *)
Theorem C47_own_results : forall W G rslt r_flags r_get_gmix fitter_go guesser ntry ts s s' rs,
  fit_all W G rslt r_flags r_get_gmix fitter_go guesser ntry ts s s' rs -> NoDup (map (meta_of (fst s)) ts) ->
  forall k t r d, nth_error ts k = Some t -> nth_error rs k = Some r -> meta_of (fst s) t = Some d ->
  result_of (fst s') d = Some r /\ new_gmix rslt r_flags r_get_gmix r (gmix_of (fst s) t) (gmix_of (fst s') t).
Proof. exact recorded_own. Qed.
Print Assumptions C47_own_results.
(** the claim about mixtures, for psfs without one before *)
Theorem C47_mixture_only_after_success_partial : forall W G rslt r_flags r_get_gmix fitter_go guesser ntry ts s s' rs,
  fit_all W G rslt r_flags r_get_gmix fitter_go guesser ntry ts s s' rs -> NoDup (map (meta_of (fst s)) ts) ->
  forall k t r d, nth_error ts k = Some t -> nth_error rs k = Some r -> meta_of (fst s) t = Some d ->
  gmix_of (fst s) t = None -> gmix_of (fst s') t <> None -> r_flags r = Some 0%Z.
Proof. exact only_success. Qed.
Print Assumptions C47_mixture_only_after_success_partial.
(** in general it is false: a refit that fails leaves the mixture of the earlier fit *)
Theorem C47_stale_mixture_refuted : exists m1 m2 p1 p2, psf1 (AObs 0) 1 true (mem2 3, [(0%Z, Some gm1); (1%Z, None)]) = ((m1, [(1%Z, None)]), Ok p1) /\
  psf1 (AObs 0) 1 true (m1, [(1%Z, None)]) = ((m2, []), Ok p2) /\
  target m1 0 = 1%nat /\ result_of m2 1 = Some (1%Z, None) /\ gmix_of m2 1 <> None.
Proof. exact stale. Qed.
Print Assumptions C47_stale_mixture_refuted.
(** set_result=False changes nothing *)
Theorem C47_without_set_result : forall W G rslt r_flags r_get_gmix fitter_go guesser a ntry s s' o,
  run_psf_fitter W G rslt r_flags r_get_gmix fitter_go guesser a ntry false s = (s', o) -> fst s' = fst s.
Proof. exact no_set_result. Qed.
Print Assumptions C47_without_set_result.

(** ** C48 *)
Example C48_hypotheses_hold : exists m1 p m2 k, psf1 (AList 0) 1 true (mem2 3, [(1%Z, None); (0%Z, Some gm1)]) = ((m1, []), Ok p) /\ flat p = [(1%Z, None); (0%Z, Some gm1)] /\
  remove_failed_psf_obs rs_t rs_flags (AList 0) m1 = (m2, Ok (AList k)) /\ nth_error (m_lists m2) k = Some (mkCl [2%nat] 4).
Proof. exact not_shared. Qed.
Theorem C48_observation : forall rslt r_flags (m : rmem rslt) i, wf_mem m -> known rslt r_flags m i ->
  (psf_flag rslt r_flags m i 0 /\ remove_failed_psf_obs rslt r_flags (AObs i) m = (m, Ok (AObs i))) \/
  (~ psf_flag rslt r_flags m i 0 /\ remove_failed_psf_obs rslt r_flags (AObs i) m = (m, Raise BootPSFFailure)).
Proof. exact remove_obs. Qed.
Print Assumptions C48_observation.
(** a new list of exactly the good observations, in order; BootPSFFailure when there are none; nothing that existed changes *)
Theorem C48_list : forall rslt r_flags (m : rmem rslt) i, wf_mem m -> wf_arg m (AList i) -> known_list rslt r_flags m i ->
  exists m' o, remove_failed_psf_obs rslt r_flags (AList i) m = (m', o) /\ extends m m' /\
    ((exists k, o = Ok (AList k) /\ good_part rslt r_flags m m' i k) \/ (o = Raise BootPSFFailure /\ all_failed rslt r_flags m i)).
Proof. exact remove_alist. Qed.
Print Assumptions C48_list.
Theorem C48_multiband : forall rslt r_flags (m : rmem rslt) i b, wf_mem m -> nth_error (m_mbs m) i = Some b -> Forall (known_list rslt r_flags m) (cl_items b) ->
  exists m' o, remove_failed_psf_obs rslt r_flags (AMb i) m = (m', o) /\ extends m m' /\
    ((exists k ks, o = Ok (AMb k) /\ (length (m_mbs m) <= k)%nat /\ nth_error (m_mbs m') k = Some (mkCl ks (cl_meta b)) /\ Forall2 (good_part rslt r_flags m m') (cl_items b) ks) \/
     (o = Raise BootPSFFailure /\ exists x, In x (cl_items b) /\ all_failed rslt r_flags m x)).
Proof. exact remove_amb. Qed.
Print Assumptions C48_multiband.
(** the two outcomes exclude each other *)
Theorem C48_not_both : forall rslt r_flags (m m' : rmem rslt) i k, good_part rslt r_flags m m' i k -> ~ all_failed rslt r_flags m i.
Proof. exact good_not_failed. Qed.
Print Assumptions C48_not_both.
(** bootstrap on a list: fit of exactly the observations whose own psf fit succeeded *)
Theorem C48_bootstrap : forall W G rslt r_flags r_get_gmix run pr i l m w s' o, wf_mem m -> nth_error (m_lists m) i = Some l ->
  (forall x, In x (cl_items l) -> exists ox p, nth_error (m_obs m) x = Some ox /\ ro_psf ox = Some p) -> NoDup (map (meta_of m) (targets m (AList i))) ->
  bootstrap W G rslt r_flags r_get_gmix (AList i) run (Some (pr, true)) true (m, w) = (s', o) ->
  (exists e, o = Raise e /\ breaks_off W G rslt r_flags r_get_gmix (ru_fitter _ _ _ pr) (ru_guesser _ _ _ pr) (ru_ntry _ _ _ pr) (targets m (AList i)) (m, w) s' e) \/
  (exists m1 w1 rs, fit_all W G rslt r_flags r_get_gmix (ru_fitter _ _ _ pr) (ru_guesser _ _ _ pr) (ru_ntry _ _ _ pr) (targets m (AList i)) (m, w) (m1, w1) rs /\
    exists m2, extends m1 m2 /\ let out := map fst (filter (succeeded rslt r_flags) (combine (cl_items l) rs)) in
      ((out = [] /\ o = Raise BootPSFFailure /\ s' = (m2, w1)) \/
       (out <> [] /\ exists k, (length (m_lists m) <= k)%nat /\ nth_error (m_lists m2) k = Some (mkCl out (cl_meta l)) /\
          match o with
          | Ok r => outcome_ok W G rslt r_flags (ru_fitter _ _ _ run) (ru_guesser _ _ _ run) (AList k) (ru_ntry _ _ _ run) (m2, w1) s' r
          | Raise e => outcome_bad W G rslt r_flags (ru_fitter _ _ _ run) (ru_guesser _ _ _ run) (AList k) (ru_ntry _ _ _ run) (m2, w1) s' e
          end))).
Proof. exact boot_list. Qed.
Print Assumptions C48_bootstrap.
Example C48_bootstrap_hypotheses_hold : exists s', bootstrap (list rs_t) unit rs_t rs_flags rs_gmix (AList 0) run1 (Some (run1, true)) true (mem2 3, [(1%Z, None); (0%Z, Some gm1); (0%Z, None)]) = (s', Ok (0%Z, None)) /\
  NoDup (map (meta_of (mem2 3)) (targets (mem2 3) (AList 0))).
Proof. exact boot_ok. Qed.
(** without ignore_failed_psf or without psf runner nothing is removed *)
Theorem C48_no_psf_runner : forall W G rslt r_flags r_get_gmix a run ign s,
  bootstrap W G rslt r_flags r_get_gmix a run None ign s = run_fitter W G rslt r_flags (ru_fitter _ _ _ run) (ru_guesser _ _ _ run) a (ru_ntry _ _ _ run) s.
Proof. exact boot_no_psf_runner. Qed.
Print Assumptions C48_no_psf_runner.
(** psfs that share their meta dict: the observation with the failed psf is kept *)
Theorem C48_shared_meta_refuted : wf_mem (mem2 1) /\ exists m1 p m2 k, psf1 (AList 0) 1 true (mem2 1, [(1%Z, None); (0%Z, Some gm1)]) = ((m1, []), Ok p) /\ flat p = [(1%Z, None); (0%Z, Some gm1)] /\
  remove_failed_psf_obs rs_t rs_flags (AList 0) m1 = (m2, Ok (AList k)) /\ nth_error (m_lists m2) k = Some (mkCl [0%nat; 2%nat] 4).
Proof. exact (conj (proj2 mem2_wf) shared). Qed.
Print Assumptions C48_shared_meta_refuted.
(** an observation without psf is accepted by the psf runner and then makes bootstrap raise AttributeError, not BootPSFFailure *)
Theorem C48_no_psf_refuted : exists m1 p, psf1 (AObs 1) 1 true (mem2 3, [(0%Z, Some gm1)]) = ((m1, []), Ok p) /\
  exists s', bootstrap (list rs_t) unit rs_t rs_flags rs_gmix (AObs 1) run1 (Some (run1, true)) true (mem2 3, [(0%Z, Some gm1); (0%Z, None)]) = (s', Raise AttributeError).
Proof. exact boot_no_psf. Qed.
Print Assumptions C48_no_psf_refuted.
