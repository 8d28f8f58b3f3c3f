(** Concrete fitters and memories. *)
From Verif Require Import Base GMix_Model GMixObj_Model GMixObj_Proofs Jacobian_Model Runners_Model Runners_Spec Runners_Proofs Runners2_Proofs.
Local Open Scope R_scope.

(** results: flags and mixture; the fitter returns the next one of a list of results *)
Definition rs_t : Type := Z * option gmobj.
Definition rs_flags (r : rs_t) : option Z := Some (fst r).
Definition rs_gmix (r : rs_t) : option (res gmobj) := Some (match snd r with Some g => Ok g | None => Raise RuntimeError end).
Definition next_result (m : rmem rs_t) (w : list rs_t) (a : arg) (g : option unit) : list rs_t * res rs_t :=
  match w with r :: w => (w, Ok r) | [] => ([], Raise RuntimeError) end.
Definition fit1 := run_fitter (list rs_t) unit rs_t rs_flags next_result None.
Definition psf1 := run_psf_fitter (list rs_t) unit rs_t rs_flags rs_gmix next_result None.
Definition gm1 : gmobj := mkObj KFull 1 6 [1; 0; 0; 1; 0; 1] [gauss2d_set 1 0 0 1 0 1].
(** two observations with psfs of their own in a list, and that list as the only band *)
Definition mem2 (d : nat) : rmem rs_t :=
  mkMem [mkRo (Some 1%nat) 0 None; mkRo None 1 None; mkRo (Some 3%nat) 2 None; mkRo None d None] [None; None; None; None; None; None]
        [mkCl [0%nat; 2%nat] 4] [mkCl [0%nat] 5].
Lemma mem2_wf : wf_mem (mem2 3) /\ wf_mem (mem2 1).
Proof.
  split; split.
  all: first [intros [|[|[|[|[]]]]] o p E P; cbn in E; try discriminate E; injection E as <-; cbn in P; try discriminate P; injection P as <-; cbn; lia
     |intros [|[|[|[|[]]]]] o E; cbn in E; try discriminate E; injection E as <-; cbn; lia
     |intros [|[]] l x E Hx; cbn in E; try discriminate E; injection E as <-; cbn in Hx; cbn; lia].
Qed.
Lemma three_tries m : let fail := (1%Z, None) in let good := (0%Z, Some gm1) in
  fit1 (AObs 0) 5 (m, [fail; fail; good; fail]) = ((m, [fail]), Ok good) /\ fit1 (AObs 0) 2 (m, [fail; fail; good; fail]) = ((m, [good; fail]), Ok fail).
Proof. split; reflexivity. Qed.
(** a successful fit, then one that fails *)
Lemma stale : exists m1 m2 p1 p2, psf1 (AObs 0) 1 true (mem2 3, [(0%Z, Some gm1); (1%Z, None)]) = ((m1, [(1%Z, None)]), Ok p1) /\
  psf1 (AObs 0) 1 true (m1, [(1%Z, None)]) = ((m2, []), Ok p2) /\
  target m1 0 = 1%nat /\ result_of m2 1 = Some (1%Z, None) /\ gmix_of m2 1 <> None.
Proof.
  unfold psf1. cbn. eexists. eexists. eexists. eexists. split; [reflexivity|]. cbn. split; [reflexivity|]. split; [reflexivity|]. split; [reflexivity|discriminate].
Qed.
(** psfs that share their meta dict *)
Lemma shared : exists m1 p m2 k, psf1 (AList 0) 1 true (mem2 1, [(1%Z, None); (0%Z, Some gm1)]) = ((m1, []), Ok p) /\ flat p = [(1%Z, None); (0%Z, Some gm1)] /\
  remove_failed_psf_obs rs_t rs_flags (AList 0) m1 = (m2, Ok (AList k)) /\ nth_error (m_lists m2) k = Some (mkCl [0%nat; 2%nat] 4).
Proof.
  unfold psf1. cbn. eexists. eexists. eexists. eexists. split; [reflexivity|]. split; [reflexivity|]. cbn. split; [reflexivity|reflexivity].
Qed.
(** with dicts of their own *)
Lemma not_shared : exists m1 p m2 k, psf1 (AList 0) 1 true (mem2 3, [(1%Z, None); (0%Z, Some gm1)]) = ((m1, []), Ok p) /\ flat p = [(1%Z, None); (0%Z, Some gm1)] /\
  remove_failed_psf_obs rs_t rs_flags (AList 0) m1 = (m2, Ok (AList k)) /\ nth_error (m_lists m2) k = Some (mkCl [2%nat] 4).
Proof.
  unfold psf1. cbn. eexists. eexists. eexists. eexists. split; [reflexivity|]. split; [reflexivity|]. cbn. split; [reflexivity|reflexivity].
Qed.
Definition run1 : runner (list rs_t) unit rs_t := mkRun _ _ _ next_result None 1.
Lemma boot_ok : exists s', bootstrap (list rs_t) unit rs_t rs_flags rs_gmix (AList 0) run1 (Some (run1, true)) true (mem2 3, [(1%Z, None); (0%Z, Some gm1); (0%Z, None)]) = (s', Ok (0%Z, None)) /\
  NoDup (map (meta_of (mem2 3)) (targets (mem2 3) (AList 0))).
Proof. eexists. split; [reflexivity|]. cbn. repeat constructor; cbn; intuition congruence. Qed.
(** an observation without psf: it is fitted itself, then its psf is asked for *)
Lemma boot_no_psf : exists m1 p, psf1 (AObs 1) 1 true (mem2 3, [(0%Z, Some gm1)]) = ((m1, []), Ok p) /\
  exists s', bootstrap (list rs_t) unit rs_t rs_flags rs_gmix (AObs 1) run1 (Some (run1, true)) true (mem2 3, [(0%Z, Some gm1); (0%Z, None)]) = (s', Raise AttributeError).
Proof. unfold psf1. eexists. eexists. split; [reflexivity|]. eexists. reflexivity. Qed.
Lemma boot_no_results : exists s', bootstrap (list rs_t) unit rs_t rs_flags rs_gmix (AObs 0) run1 (Some (run1, false)) true (mem2 3, [(0%Z, Some gm1); (0%Z, None)]) = (s', Raise KeyError).
Proof. eexists. reflexivity. Qed.
(** a band without any observations counts as failed; no bands at all do not *)
Lemma empty_band : remove_failed_psf_obs rs_t rs_flags (AMb 0) (mkMem [] [] [mkCl [] 0] [mkCl [0%nat] 1]) = (mkMem [] [] [mkCl [] 0; mkCl [] 0] [mkCl [0%nat] 1; mkCl [] 1], Raise BootPSFFailure) /\
  remove_failed_psf_obs rs_t rs_flags (AMb 0) (mkMem [] [] [] [mkCl [] 0]) = (mkMem [] [] [] [mkCl [] 0; mkCl [] 0], Ok (AMb 1)).
Proof. split; reflexivity. Qed.
