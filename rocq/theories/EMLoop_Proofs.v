From Verif Require Import Base Moments_Spec Pixels_Model GMix_Model GMix_Spec GMix_Proofs
  Render_Model Render_Spec Render_Proofs GaussAp_Proofs GMixObj_Model EM_Model EM_Spec EM_Proofs EMIter_Proofs.
Local Open Scope R_scope.

Section Loop.
Variables (k : em_kind) (c : em_conf) (psf : gmix) (fill : bool) (s0 : em).
Hypothesis Hn : psf <> [].
Hypothesis Hf : flux_of psf <> 0.

Lemma nth_error_app_lt {A} (h t : list A) i : (i < length h)%nat -> nth_error (h ++ t) i = nth_error h i.
Proof. intros H. apply nth_error_app1. exact H. Qed.
Lemma watched_app h t i : (i < length h)%nat -> watched k psf (h ++ t) i = watched k psf h i.
Proof.
  intros H. unfold watched. destruct k; try (destruct i; [reflexivity|]); rewrite nth_error_app_lt by lia; reflexivity.
Qed.
Lemma change_app h t i : (i < length h)%nat -> change k psf (h ++ t) i = change k psf h i.
Proof. intros H. unfold change, denominator. rewrite !watched_app by lia. reflexivity. Qed.
Lemma converged_app tol mi h t i : (i < length h)%nat -> converged k psf tol mi (h ++ t) i <-> converged k psf tol mi h i.
Proof. intros H. unfold converged. rewrite change_app by exact H. tauto. Qed.

Definition fd_ok (h : list em) (i : nat) (fd : option (option R)) : Prop :=
  fd = if (Nat.leb 1 i && Nat.leb (c_miniter c) i)%bool then Some (change k psf h i) else None.
Record good (h : list em) (i : nat) (st : em_state) : Prop := mkGood {
  gd_len : length h = S i;
  gd_nth : nth_error h i = Some (abs st);
  gd_run : is_run k psf (c_vary_sky c) s0 h;
  gd_inv : Inv psf fill st;
  gd_no : forall j, (1 <= j < i)%nat -> ~ converged k psf (c_tol c) (c_miniter c) h j;
  gd_fd : fd_ok h i (e_fdiff st) }.
(** not stopped yet *)
Definition open_ (h : list em) (i : nat) (st : em_state) : Prop :=
  e_last st = watched k psf h i /\ (1 <= i -> ~ converged k psf (c_tol c) (c_miniter c) h i)%nat.

Lemma run_snoc h s s' : is_run k psf (c_vary_sky c) s0 h -> nth_error h (length h - 1) = Some s ->
  legal k c psf s s' -> is_run k psf (c_vary_sky c) s0 (h ++ [s']).
Proof.
  intros (R0 & R1 & R2) Hs (L1 & L2). assert (HL : (0 < length h)%nat) by (destruct h; [discriminate|cbn; lia]).
  split; [rewrite nth_error_app_lt by exact HL; exact R0|]. split.
  - intros i a b Ha Hb. destruct (Nat.lt_ge_cases (S i) (length h)) as [L|L].
    + rewrite nth_error_app_lt in Ha, Hb by lia. eapply R1; eassumption.
    + assert (E : S i = length h).
      { assert (S i < length (h ++ [s']))%nat by (apply nth_error_Some; congruence). rewrite app_length in H; cbn in H. lia. }
      rewrite nth_error_app_lt in Ha by lia. rewrite E, nth_error_app2, Nat.sub_diag in Hb by lia. cbn in Hb. injection Hb as <-.
      replace (length h - 1)%nat with i in Hs by lia. rewrite Ha in Hs. injection Hs as ->. exact L1.
  - intros a Ha. apply in_app_iff in Ha. destruct Ha as [Ha|[<-|[]]]; [apply R2; exact Ha|exact L2].
Qed.
Lemma watched_new h i st s' : length h = S i -> nth_error h i = Some (abs st) ->
  watched k psf (h ++ [s']) (S i) = watch k psf (abs st) s'.
Proof.
  intros L N. unfold watched, watch. destruct k; try (rewrite nth_error_app_lt, N by lia; reflexivity).
  rewrite nth_error_app2, L, Nat.sub_diag by lia. reflexivity.
Qed.
Lemma test_change h i st s' d : length h = S i -> nth_error h i = Some (abs st) -> e_last st = watched k psf h i ->
  em_test k (watch k psf (abs st) s') (e_last st) = Ok d -> d = change k psf (h ++ [s']) (S i).
Proof.
  intros L N W E. unfold change, denominator. rewrite (watched_new h i st s' L N). replace (S i - 1)%nat with i by lia.
  rewrite watched_app by lia. rewrite <- W. unfold em_test in E. destruct k.
  1,2,3: destruct (watch _ _ _ _) as [x|]; [|congruence]; unfold Reqb in E; destruct (Req_EM_T x 0); [discriminate|];
    injection E as <-; destruct (e_last st); reflexivity.
  destruct (watch _ _ _ _) as [x|]; [|congruence]. destruct (e_last st) as [y|]; [|congruence]. unfold Reqb in E.
  destruct (Req_EM_T y 0) as [|Hy]; [discriminate|]. injection E as <-. f_equal. f_equal. field. exact Hy.
Qed.
Lemma test_raise h i st s' e : length h = S i -> nth_error h i = Some (abs st) -> e_last st = watched k psf h i ->
  em_test k (watch k psf (abs st) s') (e_last st) = Raise e -> denominator k psf (h ++ [s']) (length h) = Some 0.
Proof.
  intros L N W E. rewrite L. unfold denominator. rewrite (watched_new h i st s' L N). replace (S i - 1)%nat with i by lia.
  rewrite watched_app by lia. rewrite <- W. unfold em_test in E. destruct k.
  1,2,3: destruct (watch _ _ _ _) as [x|]; [|discriminate]; unfold Reqb in E; destruct (Req_EM_T x 0) as [->|]; [reflexivity|discriminate].
  destruct (watch _ _ _ _) as [x|]; [|discriminate]. destruct (e_last st) as [y|]; [|discriminate]. unfold Reqb in E.
  destruct (Req_EM_T y 0) as [->|Hy]; [reflexivity|discriminate].
Qed.

Lemma iter_good h i st st' stop : good h i st -> open_ h i st -> em_iter k c psf fill i st = Ok (st', stop) ->
  good (h ++ [abs st']) (S i) st' /\
  (if stop then converged k psf (c_tol c) (c_miniter c) (h ++ [abs st']) (S i) else open_ (h ++ [abs st']) (S i) st').
Proof.
  intros [L N RU I NO FD] [W NC] E. destruct (iter_sound k c psf fill Hn Hf i st st' stop I E) as (LG & I' & T & LS).
  assert (N1 : nth_error (h ++ [abs st']) (S i) = Some (abs st')) by (rewrite nth_error_app2, L, Nat.sub_diag by lia; reflexivity).
  assert (FDN : fd_ok (h ++ [abs st']) (S i) (e_fdiff st') /\
    (if stop then converged k psf (c_tol c) (c_miniter c) (h ++ [abs st']) (S i)
     else ~ converged k psf (c_tol c) (c_miniter c) (h ++ [abs st']) (S i))).
  { unfold fd_ok. cbn [Nat.leb andb]. destruct (Nat.leb_spec (c_miniter c) (S i)) as [Lm|Lm].
    - destruct T as (d & ET & EF & ES). pose proof (test_change h i st (abs st') d L N W ET) as ED.
      split; [rewrite EF, ED; reflexivity|]. subst stop. rewrite ED. destruct (change k psf (h ++ [abs st']) (S i)) as [x|] eqn:EC.
      + destruct (Rltb_spec x (c_tol c)) as [Lx|Lx]; [split; [exact Lm|eauto]|]. intros (_ & y & Ey & Ly). rewrite EC in Ey. injection Ey as <-. lra.
      + intros (_ & y & Ey & _). rewrite EC in Ey. discriminate.
    - destruct T as [EF ->]. split; [|intros (K & _); lia]. rewrite EF, FD. unfold fd_ok.
      destruct (Nat.leb_spec (c_miniter c) i); [lia|]. rewrite andb_false_r. reflexivity. }
  destruct FDN as [FD' CV]. split.
  - constructor; [rewrite app_length, L; cbn; lia|exact N1| |exact I'| |exact FD'].
    + apply (run_snoc h (abs st)); [exact RU|rewrite L; replace (S i - 1)%nat with i by lia; exact N|exact LG].
    + intros j Hj. rewrite converged_app by lia. destruct (Nat.eq_dec j i) as [->|]; [apply NC; lia|apply NO; lia].
  - destruct stop; [exact CV|]. split; [|intros _; exact CV]. rewrite (LS eq_refl). symmetry. apply watched_new; assumption.
Qed.

Lemma loop_ok n : forall h i st st' m, good h i st -> open_ h i st -> em_loop k c psf fill n i st = Ok (st', m) ->
  exists h', good h' m st' /\ (m <= i + n)%nat /\ (m = i + n \/ (i < m /\ converged k psf (c_tol c) (c_miniter c) h' m))%nat.
Proof.
  induction n as [|n IH]; intros h i st st' m G O E; cbn [em_loop] in E.
  - injection E as <- <-. exists h. split; [exact G|]. split; [lia|left; lia].
  - destruct (em_iter k c psf fill i st) as [[s1 stop]|e] eqn:EI; cbn [bind] in E; [|discriminate].
    destruct (iter_good _ _ _ _ _ G O EI) as [G1 C1]. destruct stop.
    + injection E as <- <-. exists (h ++ [abs s1]). split; [exact G1|]. split; [lia|]. right. split; [lia|exact C1].
    + destruct (IH _ _ _ _ _ G1 C1 E) as (h' & G' & L' & D'). exists h'. split; [exact G'|]. split; [lia|]. destruct D' as [->|[? ?]]; [left; lia|right; split; [lia|assumption]].
Qed.
Lemma loop_raise n : forall h i st e, good h i st -> open_ h i st -> em_loop k c psf fill n i st = Raise e ->
  (e = GMixRangeError \/ e = ZeroDivisionError) /\
  exists h', is_run k psf (c_vary_sky c) s0 h' /\ (length h' <= i + n)%nat /\
    (forall j, (1 <= j < length h')%nat -> ~ converged k psf (c_tol c) (c_miniter c) h' j) /\
    stuck k psf (c_vary_sky c) (c_miniter c) h'.
Proof.
  induction n as [|n IH]; intros h i st e G O E; cbn [em_loop] in E; [discriminate|].
  destruct (em_iter k c psf fill i st) as [[s1 stop]|e1] eqn:EI; cbn [bind] in E.
  - destruct (iter_good _ _ _ _ _ G O EI) as [G1 C1]. destruct stop; [discriminate|].
    destruct (IH _ _ _ _ G1 C1 E) as (H1 & h' & A & B & C). split; [exact H1|]. exists h'. split; [exact A|]. split; [lia|exact C].
  - injection E as ->. destruct G as [L N RU I NO FD]. destruct O as [W NC]. destruct (iter_raise k c psf fill Hn Hf i st e I EI) as [HE HS].
    split; [exact HE|]. exists h. split; [exact RU|]. split; [lia|]. split.
    + intros j Hj. rewrite L in Hj. destruct (Nat.eq_dec j i) as [->|]; [apply NC; lia|apply NO; lia].
    + intros s s' Hs ST EV. rewrite L in Hs. replace (S i - 1)%nat with i in Hs by lia. rewrite N in Hs. injection Hs as <-.
      destruct (HS s' (conj ST EV)) as (e' & Lm & ET). split; [lia|]. eapply test_raise; eassumption.
Qed.
End Loop.

(** ** a whole run *)
Definition first_last (k : em_kind) (gm : gmix) : option R := match k with FluxOnly => Some (rsum (map g_p gm)) | _ => Some (- (99999 * 10 ^ 8)) end.
Lemma start_good k c psf pixels gm conv : Forall2 visible (views psf gm) conv -> Forall evaluable (views psf gm) ->
  let st := mkSt gm conv pixels (c_sky c) (first_last k gm) None in
  good k c psf (existsb masked pixels) (mkEM gm pixels (c_sky c)) [mkEM gm pixels (c_sky c)] 0 st /\ open_ k c psf [mkEM gm pixels (c_sky c)] 0 st.
Proof.
  intros V EV st. split.
  - constructor; [reflexivity|reflexivity| | | |].
    + split; [reflexivity|]. split; [intros i s s' _ H; destruct i; discriminate|]. intros s [<-|[]]. exact EV.
    + split; [exact V|reflexivity].
    + intros j Hj. lia.
    + reflexivity.
  - split; [|lia]. unfold st, first_last, watched; cbn [e_last]. destruct k; reflexivity.
Qed.

Definition out_em (o : em_out) : em := mkEM (o_gm o) (o_pix o) (o_sky o).
(** the part of a state that is seen by the rest of the program *)
Definition same_em (a b : em) : Prop := Forall2 (fun x y => six x = six y) (m_gm a) (m_gm b) /\ m_pix a = m_pix b /\ m_sky a = m_sky b.

Lemma em_run_ok k c pixels gm psf out : psf <> [] -> flux_of psf <> 0 ->
  em_run k c pixels gm psf (views psf gm) (existsb masked pixels) = Ok out ->
  let s0 := mkEM gm pixels (c_sky c) in
  exists h s, is_run k psf (c_vary_sky c) s0 h /\ length h = S (o_numiter out) /\
    nth_error h (o_numiter out) = Some s /\ o_gm out = map norm_unset (m_gm s) /\ o_pix out = m_pix s /\ o_sky out = m_sky s /\
    Forall2 visible (views psf (m_gm s)) (o_conv out) /\
    (1 <= o_numiter out <= c_maxiter c)%nat /\ (c_miniter c <= o_numiter out)%nat /\
    (forall j, (1 <= j < o_numiter out)%nat -> ~ converged k psf (c_tol c) (c_miniter c) h j) /\
    (o_numiter out = c_maxiter c \/ converged k psf (c_tol c) (c_miniter c) h (o_numiter out)) /\
    o_fdiff out = change k psf h (o_numiter out).
Proof.
  intros Hn Hf E s0. unfold em_run in E. destruct (gmix_set_norms (views psf gm)) as [conv' r] eqn:EN.
  destruct r as [[]|e]; cbn [bind] in E; [|discriminate].
  pose proof (norms_inv _ _ EN (views_coherent psf gm)) as V. pose proof (same_of_norms _ _ EN (views_coherent psf gm)) as EV.
  destruct (start_good k c psf pixels gm conv' V EV) as [G O]. unfold first_last in *.
  destruct (em_loop _ _ _ _ _ _ _) as [[st m]|e] eqn:EL; cbn [bind] in E; [|discriminate].
  destruct (loop_ok k c psf (existsb masked pixels) s0 Hn Hf (c_maxiter c) _ _ _ _ _ G O EL) as (h & [L N RU I NO FD] & LM & D).
  destruct m as [|m]; [destruct (e_fdiff st); discriminate|]. destruct (e_fdiff st) as [d|] eqn:EF; [|discriminate].
  injection E as <-. cbn [o_numiter o_gm o_pix o_sky o_fdiff].
  unfold fd_ok in FD. destruct (Nat.leb_spec (c_miniter c) (S m)) as [Lm|Lm]; [|rewrite andb_false_r in FD; discriminate].
  cbn [Nat.leb andb] in FD. injection FD as FD. 
  exists h, (abs st). split; [exact RU|]. split; [exact L|]. split; [exact N|]. split; [reflexivity|]. split; [reflexivity|]. split; [reflexivity|].
  split; [apply I|]. split; [lia|]. split; [exact Lm|]. split; [exact NO|]. split; [|exact FD].
  destruct D as [D|[_ D]]; [left; lia|right; exact D].
Qed.
Lemma em_run_raise k c pixels gm psf e : psf <> [] -> flux_of psf <> 0 ->
  em_run k c pixels gm psf (views psf gm) (existsb masked pixels) = Raise e ->
  let s0 := mkEM gm pixels (c_sky c) in
  (e = GMixRangeError \/ e = ZeroDivisionError) /\
    (~ Forall evaluable (views psf gm) \/
     exists h, is_run k psf (c_vary_sky c) s0 h /\ (length h <= c_maxiter c)%nat /\
       (forall j, (1 <= j < length h)%nat -> ~ converged k psf (c_tol c) (c_miniter c) h j) /\
       stuck k psf (c_vary_sky c) (c_miniter c) h) \/
  e = UnboundLocalError /\ (c_maxiter c = 0 \/ c_maxiter c < c_miniter c)%nat.
Proof.
  intros Hn Hf E s0. unfold em_run in E.
  destruct (evaluable_all_dec (views psf gm)) as [EV|EV].
  2:{ destruct (norms_fail _ (views_coherent psf gm) EV) as (x & EN). rewrite EN in E. cbn [bind] in E. injection E as <-. left. auto. }
  destruct (norms_ok _ (views_coherent psf gm) EV) as (conv' & EN & V). rewrite EN in E. cbn [bind] in E.
  destruct (start_good k c psf pixels gm conv' V EV) as [G O]. unfold first_last in *.
  destruct (em_loop _ _ _ _ _ _ _) as [[st m]|e1] eqn:EL; cbn [bind] in E.
  - right. destruct (loop_ok k c psf (existsb masked pixels) s0 Hn Hf (c_maxiter c) _ _ _ _ _ G O EL) as (h & [L N RU I NO FD] & LM & D).
    destruct m as [|m].
    + split; [destruct (e_fdiff st); congruence|]. left. destruct D as [D|[? _]]; lia.
    + destruct (e_fdiff st) as [d|] eqn:EF; [discriminate|]. split; [congruence|]. right. unfold fd_ok in FD.
      cbn [Nat.leb andb] in FD. destruct (Nat.leb_spec (c_miniter c) (S m)) as [Lm|Lm]; [discriminate|]. destruct D as [D|[_ (D & _)]]; lia.
  - injection E as ->. left. destruct (loop_raise k c psf (existsb masked pixels) s0 Hn Hf (c_maxiter c) _ _ _ _ G O EL) as (HE & h & A & B & C & D).
    split; [exact HE|]. right. exists h. auto.
Qed.
