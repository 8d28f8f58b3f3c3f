From Coq Require String.
From Verif Require Import Base XReal Flags_Model Pixels_Model LM_Model LM_Spec LM_Proofs Priors_Model Priors_Spec Priors_Proofs
  PriorSample_Model PriorSample_Spec PriorFit_Model PriorFit_Spec PriorFit_Proofs.
Import String.StringSyntax.
Local Open Scope R_scope.
Local Open Scope string_scope.
Local Open Scope list_scope.

Definition no_lmdif : (vec -> resx vec) -> vec -> nat -> resx lmret := fun _ _ _ => RaiseX OtherError false.
Definition no_inv : omat -> option omat := fun _ => None.
Definition eig0 : nat -> (nat -> nat -> R) -> option (list R) := fun _ _ => Some [].
Definition msg0 : Z -> String.string := fun _ => "".
Definition G0 : rng unit := mkRng unit (fun w a b n => (w, repeat a n)) (fun w m s n => (w, repeat m n)).
Lemma G0_flat : flat_uniform G0.
Proof. intros w a n. reflexivity. Qed.

(** a solver that fails from one starting point only *)
Definition pts : list (R * R) := [(1, 1); (2, 1); (3, 1); (4, 1)].
Definition vec_dec (a b : vec) : {a = b} + {a <> b}.
Proof. repeat decide equality. apply Req_EM_T. Defined.
Definition zero3 : omat := mkArr 3 3 (fun _ _ => Some 0).
Definition picky : (vec -> resx vec) -> vec -> nat -> resx lmtup := fun _ g _ =>
  if vec_dec g (guess11 pts) then OkX (mkTup g None 1 "" 5)
  else OkX (mkTup [Some 1; Some 1; Some 1] (Some zero3) 1 "" 1).

Lemma pts_pos : Forall (fun d => 0 < fst d) pts.
Proof. repeat constructor; cbn; lra. Qed.
Lemma picky_elsewhere g : g <> guess11 pts ->
  succeeded (run_leastsq no_lmdif picky no_inv eig0 msg0 (ln_fdiff pts) g 0 false None 0) \/ length g <> 3%nat.
Proof.
  intros Hg. destruct (Nat.eq_dec (length g) 3) as [L|L]; [left|right; exact L].
  unfold succeeded, run_leastsq, run_try. cbn [leastsqbound]. unfold picky. destruct (vec_dec g (guess11 pts)) as [E|_]; [destruct (Hg E)|].
  cbn [bindx tp_ier tp_x tp_cov tp_mesg tp_nfev]. change (1 =? 0)%Z with false. change (4 <? 1)%Z with false. cbv iota.
  rewrite (ln_fdiff_eq 1 1 1 pts) by (try lra; exact pts_pos). cbn [bindx]. rewrite L.
  cbn [length map pts]. change ((Z.of_nat 4 - Z.of_nat 0 - Z.of_nat 3 =? 0)%Z) with false. cbv iota.
  match goal with |- context [test_cov eig0 ?M] => assert (E : test_cov eig0 M = 0%Z) end.
  { unfold test_cov, np_eig. cbn. rewrite !Reqb_f by lra. cbn. rewrite !Rltb_f by lra. reflexivity. }
  rewrite E. cbn. eexists. split; reflexivity.
Qed.
Lemma picky_here : exists d, snd (ln_fit G0 no_lmdif no_inv eig0 msg0 picky pts tt) = OkX d /\ dget d "flags" = Some (LInt 1).
Proof.
  unfold ln_fit. rewrite (one_guess unit G0 no_lmdif picky no_inv eig0 msg0 pts 3 tt G0_flat).
  unfold run_leastsq, run_try. cbn [leastsqbound]. unfold picky. destruct (vec_dec (guess11 pts) (guess11 pts)) as [_|N]; [|destruct (N eq_refl)].
  cbn. eexists. split; reflexivity.
Qed.
Lemma retry_cex : ~ (forall W (G : rng W) lmdif leastsq inv eig message data w g0,
  flat_uniform G ->
  (forall g, length g = 3%nat -> g <> g0 -> succeeded (run_leastsq lmdif leastsq inv eig message (ln_fdiff data) g 0 false None 0)) ->
  succeeded (snd (ln_fit G lmdif inv eig message leastsq data w))).
Proof.
  intros H. destruct (H unit G0 no_lmdif picky no_inv eig0 msg0 pts tt (guess11 pts) G0_flat) as (d & E & F).
  - intros g L N. destruct (picky_elsewhere g N) as [K|K]; [exact K|destruct (K L)].
  - destruct picky_here as (d' & E' & F'). rewrite E in E'. injection E' as <-. rewrite F in F'. discriminate.
Qed.

(** a shifted prior and its own curve *)
Lemma shifted_cex : ~ (forall m s sh p data, s <> 0 -> lognormal_init m s sh = Ok p -> on_curve p data ->
  ln_fdiff data [Some m; Some s; Some 1] = OkX (repeat (Some 0) (length data))).
Proof.
  intros H. destruct (ln_init_pos 1 1 Rlt_0_1) as (p0 & E0).
  assert (exists p, lognormal_init 1 1 (Some 1) = Ok p) as (p & E).
  { unfold lognormal_init. rewrite Rleb_f by lra. eexists. reflexivity. }
  assert (N : (1:R) <> 0) by lra.
  assert (Hp : 0 < lg_mode p).
  { destruct (lognormal_init_inv 1 1 (Some 1) p N E) as (_ & _ & ->). cbn [lg_mode]. apply exp_pos. }
  assert (Q : lognormal_prob_scalar p (Fin (lg_mode p + 1)) = Ok (Fin 1)).
  { destruct (lognormal_peak 1 1 (Some 1) p N E) as (_ & K). cbn [shift_of] in K. unfold lognormal_prob_scalar. rewrite K. cbn. rewrite exp_0. reflexivity. }
  assert (Hc : on_curve p [(lg_mode p + 1, 1)]) by (constructor; [exact Q|constructor]).
  specialize (H 1 1 (Some 1) p [(lg_mode p + 1, 1)] N E Hc).
  rewrite ln_fdiff_eq in H; [|lra|lra|repeat constructor; cbn; lra]. cbn in H. injection H as H.
  assert (C : logn_curve 1 1 (lg_mode p + 1) = 1) by lra.
  destruct (logn_curve_prob 1 1 p0 (lg_mode p + 1) N E0 ltac:(lra)) as (V & _). rewrite C, ln_1 in V.
  rewrite (lognormal_value_fin 1 1 None p0 (lg_mode p + 1) N E0 ltac:(lra)) in V. injection V as V.
  destruct (lognormal_init_inv 1 1 None p0 N E0) as (_ & Hlv & E0'). cbv zeta in *.
  destruct (lognormal_init_inv 1 1 (Some 1) p N E) as (_ & _ & E'). cbv zeta in *.
  assert (lg_logvar p0 = ln (1 + 1 ^ 2 / 1 ^ 2)) as L by (rewrite E0'; reflexivity). rewrite L in V.
  assert (lg_logmode p0 = ln (lg_mode p)) as M by (rewrite E0', E'; cbn [lg_logmode lg_mode]; rewrite ln_exp; reflexivity). rewrite M in V.
  assert (I : ln (lg_mode p) < ln (lg_mode p + 1)) by (apply ln_increasing; lra).
  set (d := ln (lg_mode p + 1) - ln (lg_mode p)) in V. assert (0 < d) by (unfold d; lra).
  set (lv := ln (1 + 1 ^ 2 / 1 ^ 2)) in *. assert (0 < d ^ 2 / (2 * lv)) by (apply Rdiv_lt_0_compat; [apply pow_lt; lra|lra]).
  unfold Rdiv in *. lra.
Qed.

(** a fit that stops at the maximal number of calls *)
Definition tries (x : vec) : vec -> nat -> solver := fun _ _ => Ask x (fun _ => Stop (OkX (mkTup x None 1 "" 5))).
Definition odd0 : vec -> list R -> vec := fun _ xs => map (fun _ => None) xs.
Definition start : bstate := mkBS [Some 1; Some (3/10)] None None None.
Lemma failed_cex : ~ (forall W (G : rng W) lmdif inv eig message leastsq odd data g s w w' s',
  ba_fit G lmdif inv eig message leastsq odd data (Some g) s w = (w', s', OkX tt) ->
  bs_perr s' = Some (placeholder (length g)) -> bs_pars s' = bs_pars s).
Proof.
  intros H. specialize (H unit G0 no_lmdif no_inv eig0 msg0 (tries [Some 2; Some 1]) odd0 [] [Some 1; Some 1] start tt).
  specialize (H _ _ eq_refl eq_refl). cbn in H. injection H as H. lra.
Qed.
(** residuals that are not finite *)
Lemma keyerror_cex : ~ (forall W (G : rng W) lmdif inv eig message leastsq odd data g s w,
  (exists d, snd (ba_run lmdif inv eig message leastsq odd (filter (fun d => Rltb 0 (snd d)) data) g (bs_pars s)) = OkX d) ->
  exists w' s', ba_fit G lmdif inv eig message leastsq odd data (Some g) s w = (w', s', OkX tt)).
Proof.
  intros H. specialize (H unit G0 no_lmdif no_inv eig0 msg0 (fun _ _ => Stop (RaiseX ValueError true)) odd0 [] [Some 1; Some 1] start tt).
  destruct H as (w' & s' & H); [eexists; reflexivity|]. cbn in H. discriminate.
Qed.
(** a fit that works *)
Definition zero2 : omat := mkArr 2 2 (fun _ _ => Some 0).
Definition works : vec -> nat -> solver := fun g _ => Ask g (fun _ => Stop (OkX (mkTup [Some 2; Some 1] (Some zero2) 1 "" 1))).
Lemma works_ok : exists s' e, ba_fit G0 no_lmdif no_inv eig0 msg0 works odd0 [(1/2, 1); (1/4, 1); (1/8, 1); (3/4, 0)] (Some [Some 1; Some 1]) start tt
  = (tt, s', OkX tt) /\ bs_perr s' = Some e /\ e <> placeholder 2 /\ bs_fit s' = Some [Some 2; Some 1].
Proof.
  unfold ba_fit. cbn [filter snd]. rewrite !Rltb_t, Rltb_f by lra.
  unfold ba_run, works. cbn [exec]. rewrite (ba_fdiff_eq odd0 1 1) by (try lra; repeat constructor; cbn; lra).
  cbn [exec asks_again tp_ier tp_cov tp_x]. change (1 =? 0)%Z with false. change (4 <? 1)%Z with false. cbn [negb andb].
  unfold run_leastsq, run_try. cbn [leastsqbound bindx tp_ier tp_cov tp_x tp_mesg tp_nfev].
  change (1 =? 0)%Z with false. change (4 <? 1)%Z with false. cbv iota.
  rewrite (ba_fdiff_eq odd0 2 1) by (try lra; repeat constructor; cbn; lra). cbn [bindx length map].
  change ((Z.of_nat 3 - Z.of_nat 0 - Z.of_nat 2 =? 0)%Z) with false. cbv iota.
  match goal with |- context [test_cov eig0 ?M] => assert (E : test_cov eig0 M = 0%Z) end.
  { unfold test_cov, np_eig. cbn. rewrite !Reqb_f by lra. cbn. rewrite !Rltb_f by lra. reflexivity. }
  rewrite E. cbn. rewrite !Reqb_f by lra. cbn. do 2 eexists. split; [reflexivity|]. cbn. split; [reflexivity|].
  split; [|reflexivity]. unfold placeholder. cbn. unfold osqrt. rewrite !Rltb_f by lra. intros K. injection K as K. rewrite Rmult_0_l, sqrt_0 in K.
  unfold CDEF in K. lra.
Qed.
