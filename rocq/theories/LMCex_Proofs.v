(** Concrete runs of bounded least squares. *)
From Coq Require String.
From Verif Require Import Base Flags_Model Pixels_Model LM_Model LM_Spec LM_Proofs.
Import String.StringSyntax.
Local Open Scope R_scope.
Local Open Scope string_scope.
Local Open Scope list_scope.
Local Notation string := String.string.

(** a solver that evaluates the function at the start and stops there *)
Definition ex_lmdif (f : vec -> resx vec) (i : vec) (k : nat) : resx lmret :=
  bindx (f i) (fun _ => OkX (mkRet i (fun _ _ => Some 1) (seq 1 (length i)) 3 1)).
(** a solver without bounds that finds a singular matrix *)
Definition ex_leastsq (f : vec -> resx vec) (x : vec) (k : nat) : resx lmtup :=
  bindx (f x) (fun _ => OkX (mkTup x None 3 "message" 1)).
(** a solver that reports status i *)
Definition ex_status (i : Z) (f : vec -> resx vec) (x : vec) (k : nat) : resx lmtup :=
  bindx (f x) (fun _ => OkX (mkTup x None 3 "message" i)).
(** inverse and eigenvalues of 1 x 1 arrays *)
Definition ex_inv (M : omat) : option omat :=
  if Nat.eqb (nrow M) 1 then
    match at2 M 0 0 with
    | Some a => if Reqb a 0 then None else Some (mkArr 1 1 (fun _ _ => Some (/ a)))
    | None => None
    end
  else None.
Definition ex_eig (n : nat) (M : nat -> nat -> R) : option (list R) :=
  if Nat.eqb n 1 then Some [M 0%nat 0%nat] else None.
Definition ex_msg (i : Z) : string := "message".
(** one parameter between 0 and 2, two residuals *)
Definition ex_func (x : vec) : resx vec := OkX [Some 1; Some 2].
Definition ex_bounds : list bound := [(Some 0, Some 2)].
Definition ex_zero_div (x : vec) : resx vec := RaiseX ZeroDivisionError false.

Lemma ex_keeps : keeps_length ex_lmdif.
Proof.
  intros f i k r H. unfold ex_lmdif in H. apply bindx_ok in H as [a [_ H]].
  injection H as <-. reflexivity.
Qed.
Lemma ex_black_box : black_box ex_lmdif.
Proof. intros f f' i k H. unfold ex_lmdif. rewrite (H i eq_refl). reflexivity. Qed.
Lemma ex_known : known_status ex_leastsq.
Proof.
  intros f x k t H. unfold ex_leastsq in H. apply bindx_ok in H as [a [_ H]].
  injection H as <-. cbn. lia.
Qed.
Lemma ex_minpack : forall f i k r, ex_lmdif f i k = OkX r -> minpack_output (length i) r.
Proof.
  intros f i k r H. unfold ex_lmdif in H. apply bindx_ok in H as [a [_ H]]. injection H as <-.
  unfold minpack_output. cbn. split; [reflexivity|]. split; [apply seq_length|].
  apply Forall_forall. intros x Hx. apply in_seq in Hx. lia.
Qed.
Lemma ex_eig_complete : eig_complete ex_eig.
Proof.
  intros n M l H lam (v & (i & Hi & Hv) & Heq). unfold ex_eig in H.
  destruct (Nat.eqb_spec n 1) as [->|]; [|discriminate]. injection H as <-.
  assert (i = 0%nat) by lia. subst i. specialize (Heq 0%nat ltac:(lia)). cbn in Heq.
  left. apply (Rmult_eq_reg_r (v 0%nat)); [lra|exact Hv].
Qed.
Lemma ex_inv_correct : inv_correct ex_inv.
Proof.
  intros n A B H. unfold ex_inv in H. cbn in H.
  destruct (Nat.eqb_spec n 1) as [->|]; [|discriminate].
  destruct (Reqb_spec (A 0%nat 0%nat) 0) as [|Hne]; [discriminate|]. injection H as <-.
  exists (fun _ _ => / A 0%nat 0%nat). split; [reflexivity|].
  intros i k Hi Hk. assert (i = 0%nat) by lia. assert (k = 0%nat) by lia. subst. cbn. field. exact Hne.
Qed.
Lemma ex_inv_extensional : inv_extensional ex_inv.
Proof.
  intros n f g H. unfold ex_inv. cbn. destruct (Nat.eqb_spec n 1) as [->|]; [|reflexivity].
  rewrite H by lia. reflexivity.
Qed.

Lemma ex_within : Forall2 within ex_bounds [1].
Proof. constructor; [split; cbn; intros z [= <-]; lra|constructor]. Qed.
Lemma ex_open : Forall open_bound ex_bounds.
Proof. constructor; [intros l u [= <- <-]; lra|constructor]. Qed.
Lemma ex_consistent : Forall consistent ex_bounds.
Proof. constructor; [exists 1; split; cbn; intros z [= <-]; lra|constructor]. Qed.

Lemma ex_fit k : exists c, leastsqbound ex_lmdif ex_leastsq ex_inv ex_msg ex_func [Some 1]
    (Some ex_bounds) k = OkX (mkTup [Some 1] (Some c) 3 "message" 1) /\
  nrow c = 1%nat /\ ncol c = 1%nat /\ at2 c 0 0 = Some 1.
Proof.
  unfold leastsqbound, ex_bounds. rewrite convert_e2i_ok by reflexivity. cbn [bindx].
  assert (H0 : e2i_lam (Some 0, Some 2) (Some 1) = Some 0).
  { cbn. rewrite Reqb_f by lra. cbn.
    replace (2 * (1 - 0) / (2 - 0) - 1) with 0 by field. unfold oarcsin.
    rewrite !Rltb_f by lra. rewrite asin_0. reflexivity. }
  assert (H1 : i2e_lam (Some 0, Some 2) (Some 0) = Some 1).
  { cbn. rewrite sin_0. f_equal; field. }
  unfold zip_with. cbn [combine map fst snd]. rewrite H0.
  unfold ex_func at 1. cbn [bindx length Nat.eqb Nat.ltb Nat.leb negb].
  unfold ex_lmdif. rewrite convert_i2e_ok by reflexivity. unfold zip_with. cbn [combine map fst snd].
  rewrite H1. unfold ex_func. cbn [bindx rt_info rt_x rt_ipvt rt_fjac rt_nfev Z.leb Z.compare
    Pos.compare Pos.compare_cont andb negb length].
  rewrite convert_i2e_ok by reflexivity. unfold zip_with. cbn [combine map fst snd].
  rewrite H1. cbn [bindx].
  assert (Hg : i2e_grad [Some 0] [(Some 0, Some 2)] = [Some 1]).
  { unfold i2e_grad, zip_with. cbn. rewrite cos_0. do 2 f_equal. field. }
  rewrite Hg. cbn [seq take_ipvt fold_right bindx length ipvt_index nth_error].
  unfold cov_from, ex_inv. cbn [nrow Nat.eqb at2].
  unfold odot. cbn [seq map nth Nat.leb ipvt_index Nat.eqb odiv omul oap2 osum fold_left oadd].
  rewrite Reqb_f by lra. cbn [omul oap2 osum fold_left oadd].
  unfold osum. cbn [fold_left oadd oap2].
  replace (0 + (0 + 1 / 1 * 1) * (0 + 1 / 1 * 1)) with 1 by field.
  rewrite Reqb_f by lra.
  eexists. split; [reflexivity|]. split; [reflexivity|]. split; [reflexivity|].
  cbn. f_equal; field.
Qed.

Lemma ex_run k : exists d, run_leastsq ex_lmdif ex_leastsq ex_inv ex_eig ex_msg ex_func [Some 1] 0
    false (Some ex_bounds) k = OkX d /\ dget d "flags" = Some (LInt 0) /\
    dget d "pars" = Some (LVec [Some 1]).
Proof.
  destruct (ex_fit k) as (c & Hc & Hr & Hcl & Hcc).
  change [Some 1] with (tp_x (mkTup [Some 1] (Some c) 3 "message" 1)) at 2.
  eapply success_reported with (n := 1%nat) (C0 := fun _ _ => 1) (residuals := [1; 2]).
  - exact Hc.
  - cbn; lia.
  - reflexivity.
  - exact Hr.
  - exact Hcl.
  - intros i j Hi Hj. assert (i = 0%nat) by lia. assert (j = 0%nat) by lia. subst. exact Hcc.
  - reflexivity.
  - reflexivity.
  - cbn. lia.
  - intros i _. cbn. unfold chi2. cbn. lra.
  - intros M HM. exists [M 0%nat 0%nat]. split; [reflexivity|]. repeat constructor.
    rewrite HM by lia. cbn. unfold chi2. cbn. lra.
Qed.

(** the function divides by zero *)
Lemma ex_missing_keys : exists d,
  run_leastsq ex_lmdif ex_leastsq ex_inv ex_eig ex_msg ex_zero_div [Some 1] 0 false None 0 = OkX d /\
  In "pars_err" result_keys /\ In "ier" result_keys /\
  dget d "pars_err" = None /\ dget d "ier" = None.
Proof.
  eexists. split; [reflexivity|]. split; [cbn; tauto|]. split; [cbn; tauto|]. split; reflexivity.
Qed.

(** a singular covariance *)
Lemma ex_singular : exists d,
  run_leastsq ex_lmdif ex_leastsq ex_inv ex_eig ex_msg ex_func [Some 1] 0 false None 0 = OkX d /\
  dget d "flags" = Some (LInt LM_SINGULAR_MATRIX) /\ dget d "pars" = Some (LVec [Some 1]).
Proof. eexists. split; [reflexivity|]. split; reflexivity. Qed.

Lemma ex_status_tup i : leastsqbound ex_lmdif (ex_status i) ex_inv ex_msg ex_func [Some 1] None 0
  = OkX (mkTup [Some 1] None 3 "message" i).
Proof. reflexivity. Qed.
