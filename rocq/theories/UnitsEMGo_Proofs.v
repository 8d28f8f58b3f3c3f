From Verif Require Import Base Moments_Spec Jacobian_Model Pixels_Model GMix_Model GMix_Spec Render_Spec GMixObj_Model GMix_Proofs
  EM_Model EM_Spec EM_Proofs EMIter_Proofs EMLoop_Proofs EMGo_Proofs EMResult_Proofs EMCex_Proofs UnitsEM_Spec UnitsEM_Proofs.
Local Open Scope R_scope.

(** ** a successful run never divides by zero *)
Definition den_ok (k : em_kind) (psf : gmix) (mi : nat) (h : list em) (i : nat) : Prop :=
  forall j, (1 <= j <= i)%nat -> (mi <= j)%nat -> denominator k psf h j <> Some 0.
Lemma denominator_app k psf h t j : (j < length h)%nat -> denominator k psf (h ++ t) j = denominator k psf h j.
Proof. intros H. unfold denominator. destruct k; apply watched_app; lia. Qed.

Section Den.
Variables (k : em_kind) (c : em_conf) (psf : gmix) (fill : bool) (s0 : em).
Hypothesis Hn : psf <> [].
Hypothesis Hf : flux_of psf <> 0.
Lemma test_ok h i st s' d : length h = S i -> nth_error h i = Some (abs st) -> e_last st = watched k psf h i ->
  em_test k (watch k psf (abs st) s') (e_last st) = Ok d -> denominator k psf (h ++ [s']) (S i) <> Some 0.
Proof.
  intros L N W E. unfold denominator. rewrite (watched_new k c psf h i st s' L N) || rewrite (watched_new k psf h i st s' L N).
  replace (S i - 1)%nat with i by lia.
  rewrite watched_app by lia. rewrite <- W. unfold em_test in E. destruct k.
  1,2,3: destruct (watch _ _ _ _) as [x|]; [|discriminate]; unfold Reqb in E; destruct (Req_EM_T x 0) as [->|]; [discriminate|congruence].
  cbn [watch] in E. destruct (e_last st) as [y|]; [|discriminate]. unfold Reqb in E.
  destruct (Req_EM_T y 0) as [->|Hy]; [discriminate|congruence].
Qed.
Lemma loop_den n : forall h i st st' m, good k c psf fill s0 h i st -> open_ k c psf h i st -> den_ok k psf (c_miniter c) h i ->
  em_loop k c psf fill n i st = Ok (st', m) ->
  exists h', good k c psf fill s0 h' m st' /\ den_ok k psf (c_miniter c) h' m.
Proof.
  induction n as [|n IH]; intros h i st st' m G O D E; cbn [em_loop] in E.
  - injection E as <- <-. exists h. auto.
  - destruct (em_iter k c psf fill i st) as [[s1 stop]|e] eqn:EI; cbn [bind] in E; [|discriminate].
    destruct (iter_good k c psf fill s0 Hn Hf _ _ _ _ _ G O EI) as [G1 C1].
    assert (D1 : den_ok k psf (c_miniter c) (h ++ [abs s1]) (S i)).
    { destruct G as [L N RU I NO FD]. destruct O as [W NC]. destruct (iter_sound k c psf fill Hn Hf i st s1 stop I EI) as (LG & I' & T & LS).
      intros j Hj Mj. destruct (Nat.eq_dec j (S i)) as [->|NE].
      - destruct (Nat.leb_spec (c_miniter c) (S i)); [|lia]. destruct T as (d & ET & _). eapply test_ok; eassumption.
      - rewrite denominator_app by lia. apply D; lia. }
    destruct stop; [injection E as <- <-; exists (h ++ [abs s1]); auto|]. eapply IH; eassumption.
Qed.
End Den.
Lemma em_run_den k c pixels gm psf out : psf <> [] -> flux_of psf <> 0 ->
  em_run k c pixels gm psf (views psf gm) (existsb masked pixels) = Ok out ->
  exists h, is_run k psf (c_vary_sky c) (mkEM gm pixels (c_sky c)) h /\ length h = S (o_numiter out) /\ den_ok k psf (c_miniter c) h (o_numiter out).
Proof.
  intros Hn Hf E. unfold em_run in E. destruct (gmix_set_norms (views psf gm)) as [conv' r] eqn:EN.
  destruct r as [[]|e]; cbn [bind] in E; [|discriminate].
  pose proof (norms_inv _ _ EN (views_coherent psf gm)) as V. pose proof (same_of_norms _ _ EN (views_coherent psf gm)) as EV.
  destruct (start_good k c psf pixels gm conv' V EV) as [G O]. unfold first_last in *.
  destruct (em_loop _ _ _ _ _ _ _) as [[st m]|e] eqn:EL; cbn [bind] in E; [|discriminate].
  assert (D0 : den_ok k psf (c_miniter c) [mkEM gm pixels (c_sky c)] 0) by (intros j Hj; lia).
  destruct (loop_den k c psf (existsb masked pixels) (mkEM gm pixels (c_sky c)) Hn Hf (c_maxiter c) _ _ _ _ _ G O D0 EL) as (h & [L N RU I NO FD] & D).
  destruct m as [|m]; [destruct (e_fdiff st); discriminate|]. destruct (e_fdiff st) as [d|] eqn:EF; [|discriminate].
  injection E as <-. cbn [o_numiter]. exists h. auto.
Qed.

(** ** the quantity watched, in both units *)
Definition times_o (c : R) (x : option R) : option R := match x with Some a => Some (c * a) | None => None end.
Lemma em_times_refl s : em_times 1 s s.
Proof.
  split; [|split; [|ring]].
  - apply Forall2_refl'. intros g. unfold pars_times, pars_of. rewrite Rmult_1_l. reflexivity.
  - apply Forall2_refl'. intros p. unfold pix_times. rewrite Rmult_1_l. tauto.
Qed.
Lemma gmix_times_sym c G G' : 0 < c -> gmix_times c G G' -> gmix_times (/ c) G' G.
Proof.
  intros C. unfold gmix_times. induction 1 as [|g g' l l' E _ IH]; constructor; [|exact IH]. unfold pars_times, pars_of in *.
  injection E as -> -> -> -> -> ->. do 5 f_equal. field. lra.
Qed.
Lemma pix_times_sym c l l' : 0 < c -> Forall2 (pix_times c) l l' -> Forall2 (pix_times (/ c)) l' l.
Proof.
  intros C. induction 1 as [|p p' l l' E _ IH]; constructor; [|exact IH]. unfold pix_times in *. destruct E as (-> & -> & -> & -> & E).
  repeat split; try tauto. field. lra.
Qed.
Lemma calls_times_sym c m obs guess sky m2 obs2 guess2 sky2 : 0 < c ->
  calls_times c m obs guess sky m2 obs2 guess2 sky2 -> calls_times (/ c) m2 obs2 guess2 sky2 m obs guess sky.
Proof.
  intros C (px & px' & s & G & G' & P & A & B & D & E & F & H & I & J). exists px', px, (c * s), G', G, P.
  replace (/ c * (c * s)) with s by (field; lra). split; [exact B|]. split; [exact A|]. split; [apply pix_times_sym; assumption|].
  split; [exact F|]. split; [exact E|]. split; [apply gmix_times_sym; assumption|]. auto.
Qed.

Section Two.
Variables (c : R) (k : em_kind) (psf : gmix) (vs : bool) (s0 s0' : em) (h h' : list em).
Hypothesis C : 0 < c.
Hypothesis T0 : em_times c s0 s0'.
Hypothesis R : is_run k psf vs s0 h.
Hypothesis R' : is_run k psf vs s0' h'.

Lemma nth_both i : (i < length h)%nat -> (i < length h')%nat -> exists a b, nth_error h i = Some a /\ nth_error h' i = Some b /\ em_times c a b.
Proof.
  intros L L'. destruct (nth_error h i) as [a|] eqn:Ea; [|apply nth_error_None in Ea; lia].
  destruct (nth_error h' i) as [b|] eqn:Eb; [|apply nth_error_None in Eb; lia].
  exists a, b. split; [reflexivity|]. split; [reflexivity|]. eapply runs_times; eassumption.
Qed.
Lemma watched_flux i : k = FluxOnly -> (i < length h)%nat -> (i < length h')%nat -> watched k psf h' i = times_o c (watched k psf h i).
Proof.
  intros K L L'. destruct (nth_both i L L') as (a & b & Ea & Eb & (E & _)). unfold watched. rewrite K, Ea, Eb. cbn [times_o]. f_equal. apply flux_times; assumption.
Qed.
Lemma watched_like i : k <> FluxOnly -> (i < length h)%nat -> (i < length h')%nat ->
  exists a b, nth_error h i = Some a /\ nth_error h' i = Some b /\ watched k psf h (S i) = log_like psf a /\
    watched k psf h' (S i) = match log_like psf a with Some L => Some (L + INR (lit psf a) * ln c) | None => None end.
Proof.
  intros K L L'. destruct (nth_both i L L') as (a & b & Ea & Eb & E). exists a, b. split; [exact Ea|]. split; [exact Eb|].
  unfold watched. rewrite Ea, Eb. rewrite <- (log_like_times c C psf a b E). destruct k; try contradiction; auto.
Qed.
Lemma change_flux i : k = FluxOnly -> (1 <= i)%nat -> (i < length h)%nat -> (i < length h')%nat -> change k psf h' i = change k psf h i.
Proof.
  intros K I L L'. unfold change, denominator. rewrite !watched_flux by (assumption || lia). rewrite K.
  destruct (watched FluxOnly psf h i) as [x|]; [|reflexivity]. cbn [times_o]. destruct (watched FluxOnly psf h (i - 1)) as [y|]; [|reflexivity]. cbn [times_o].
  destruct (Req_EM_T y 0) as [->|N]; destruct (Req_EM_T (c * _) 0) as [Z|Z]; try reflexivity.
  - exfalso; apply Z; ring.
  - exfalso; nra.
  - f_equal. f_equal. field. split; [exact N|lra].
Qed.
Lemma den_flux i : k = FluxOnly -> (1 <= i)%nat -> (i < length h)%nat -> (i < length h')%nat -> denominator k psf h' i = Some 0 -> denominator k psf h i = Some 0.
Proof.
  intros K I L L'. unfold denominator. rewrite !watched_flux by (assumption || lia). rewrite K.
  destruct (watched FluxOnly psf h (i - 1)) as [y|]; cbn [times_o]; intros E; [|discriminate E]. injection E as E. f_equal. nra.
Qed.
End Two.

(** the same state whatever the run *)
Lemma den_same k psf vs s0 h h' j : is_run k psf vs s0 h -> is_run k psf vs s0 h' -> (1 <= j)%nat -> (j < length h)%nat -> (j < length h')%nat ->
  denominator k psf h' j = denominator k psf h j.
Proof.
  intros R R' J L L'. assert (W : forall i, (i < length h)%nat -> (i < length h')%nat -> watched k psf h' i = watched k psf h i).
  { intros i Li Li'. assert (D : k = FluxOnly \/ k <> FluxOnly) by (destruct k; auto; right; discriminate). destruct D as [D|D].
    - rewrite (watched_flux 1 k psf vs s0 s0 h h'); auto using Rlt_0_1, em_times_refl. destruct (watched k psf h i); [cbn; f_equal; ring|reflexivity].
    - destruct i as [|i]; [unfold watched; destruct k; try contradiction; reflexivity|].
      destruct (watched_like 1 k psf vs s0 s0 h h' Rlt_0_1 (em_times_refl s0) R R' i D) as (a & b & _ & _ & -> & ->); [lia|lia|].
      rewrite ln_1. destruct (log_like psf a); [f_equal; ring|reflexivity]. }
  unfold denominator. destruct k; apply W; lia.
Qed.
Lemma go_den f m obs guess sky m' r n d x : valid_call m obs guess -> em_go f m obs guess sky = Some (m', Ok r) -> r_fit r = Some (n, d, x) ->
  forall px s G P h, ran f m obs guess sky px s G P h -> length h = S n -> den_ok (f_kind f) P (f_miniter f) h n.
Proof.
  intros V E F px s G P h (D1 & D2 & D3 & RR) L j Hj Mj. pose proof (valid_wf _ _ _ V) as W. destruct V as (_ & Hg & Hp).
  destruct (go_cases f m obs guess sky m' (Ok r) W Hg Hp E) as [_ Q].
  destruct Q as [(e & Q & _)|(px1 & s1 & G1 & P1 & E1 & E2 & E3 & Q)]; [discriminate|].
  destruct (data_unique _ _ _ _ _ _ _ D1 E1) as [<- <-]. pose proof (guess_unique _ _ _ _ D2 E2) as <-. pose proof (psf_unique _ _ _ _ D3 E3) as <-.
  destruct (psf_flux _ _ _ D3) as [F1 NP]. assert (F0 : flux_of P <> 0) by lra.
  destruct (em_run (f_kind f) (conf_of f s) px G P (views P G) (existsb masked px)) as [out|e] eqn:ER.
  2:{ exfalso. destruct e; try discriminate; injection Q as ->; discriminate. }
  destruct Q as (i & jj & a & b & Q & _). injection Q as ->. cbn [r_fit] in F. injection F as F _ _.
  destruct (em_run_den _ _ _ _ _ _ NP F0 ER) as (h1 & R1 & L1 & DN). rewrite F in *.
  rewrite (den_same _ _ _ _ h1 h j R1 RR) by lia. apply DN; assumption.
Qed.
