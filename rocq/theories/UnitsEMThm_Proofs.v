From Verif Require Import Base Moments_Spec Jacobian_Model Pixels_Model GMix_Model GMix_Spec Render_Spec GMixObj_Model GMix_Proofs
  EM_Model EM_Spec EM_Proofs EMIter_Proofs EMLoop_Proofs EMGo_Proofs EMResult_Proofs EMCex_Proofs UnitsEM_Spec UnitsEM_Proofs UnitsEMGo_Proofs.
Local Open Scope R_scope.

Lemma start c f m obs guess sky m2 obs2 guess2 sky2 : calls_times c m obs guess sky m2 obs2 guess2 sky2 ->
  exists P s0 s0', em_times c s0 s0' /\
    (forall px s G P' h, ran f m obs guess sky px s G P' h -> P' = P /\ is_run (f_kind f) P (f_vary_sky f) s0 h) /\
    (forall px s G P' h, ran f m2 obs2 guess2 sky2 px s G P' h -> P' = P /\ is_run (f_kind f) P (f_vary_sky f) s0' h) /\
    (forall px s G P', data_given m obs sky px s -> guess_given m guess G -> psf_given m obs P' -> P' = P /\ G = m_gm s0) /\
    (forall px s G P', data_given m2 obs2 sky2 px s -> guess_given m2 guess2 G -> psf_given m2 obs2 P' -> P' = P /\ G = m_gm s0').
Proof.
  intros (px & px' & s & G & G' & P & A & A' & D & E & E' & F & H & H'). exists P, (mkEM G px s), (mkEM G' px' (c * s)).
  split; [split; [exact F|split; [exact D|reflexivity]]|].
  assert (K1 : forall px1 s1 G1 P1, data_given m obs sky px1 s1 -> guess_given m guess G1 -> psf_given m obs P1 -> px1 = px /\ s1 = s /\ G1 = G /\ P1 = P).
  { intros px1 s1 G1 P1 Q1 Q2 Q3. destruct (data_unique _ _ _ _ _ _ _ A Q1) as [<- <-]. pose proof (guess_unique _ _ _ _ E Q2) as <-.
    pose proof (psf_unique _ _ _ _ H Q3) as <-. auto. }
  assert (K2 : forall px1 s1 G1 P1, data_given m2 obs2 sky2 px1 s1 -> guess_given m2 guess2 G1 -> psf_given m2 obs2 P1 -> px1 = px' /\ s1 = c * s /\ G1 = G' /\ P1 = P).
  { intros px1 s1 G1 P1 Q1 Q2 Q3. destruct (data_unique _ _ _ _ _ _ _ A' Q1) as [<- <-]. pose proof (guess_unique _ _ _ _ E' Q2) as <-.
    pose proof (psf_unique _ _ _ _ H' Q3) as <-. auto. }
  split; [|split; [|split]].
  - intros px1 s1 G1 P1 h (Q1 & Q2 & Q3 & Q4). destruct (K1 _ _ _ _ Q1 Q2 Q3) as (-> & -> & -> & ->). auto.
  - intros px1 s1 G1 P1 h (Q1 & Q2 & Q3 & Q4). destruct (K2 _ _ _ _ Q1 Q2 Q3) as (-> & -> & -> & ->). auto.
  - intros px1 s1 G1 P1 Q1 Q2 Q3. destruct (K1 _ _ _ _ Q1 Q2 Q3) as (-> & -> & -> & ->). auto.
  - intros px1 s1 G1 P1 Q1 Q2 Q3. destruct (K2 _ _ _ _ Q1 Q2 Q3) as (-> & -> & -> & ->). auto.
Qed.

(** no exception for the calls considered *)
Lemma no_raise c f m obs guess sky m2 obs2 guess2 sky2 m' e : calls_times c m obs guess sky m2 obs2 guess2 sky2 -> valid_call m2 obs2 guess2 ->
  (1 <= f_maxiter f)%nat -> (f_miniter f <= f_maxiter f)%nat -> em_go f m2 obs2 guess2 sky2 = Some (m', Raise e) -> False.
Proof.
  intros (px & px' & s & G & G' & P & A & A' & D & E & E' & F & H & H') V M1 M2 Q.
  destruct (go_result _ _ _ _ _ _ _ V Q) as (_ & B). destruct B as [[B|[B|B]]|(_ & B)]; [| | |lia].
  - destruct B as (-> & im0 & I0 & B). destruct A' as (im1 & im & I1 & P1 & P2). assert (im1 = im0) by congruence. subst im1.
    destruct B as [B|(im2 & s2 & B1 & B2)]; [congruence|]. assert (im2 = im) by congruence. subst im2. congruence.
  - destruct B as (i & x & B1 & B2 & B3). unfold psf_given in H'. rewrite B1 in H'. destruct H' as (y & cc & Y1 & Y2 & _). congruence.
  - destruct B as (x & B1 & B2). destruct E' as (y & cc & Y1 & Y2 & _). congruence.
Qed.

(** the same number of iterations: the same result *)
Theorem same_iterations c f m obs guess sky m2 obs2 guess2 sky2 m' r m2' r2 n d d2 s s2 : 0 < c ->
  calls_times c m obs guess sky m2 obs2 guess2 sky2 -> valid_call m obs guess -> valid_call m2 obs2 guess2 ->
  em_go f m obs guess sky = Some (m', Ok r) -> em_go f m2 obs2 guess2 sky2 = Some (m2', Ok r2) ->
  r_fit r = Some (n, d, s) -> r_fit r2 = Some (n, d2, s2) ->
  r_flags r2 = r_flags r /\ s2 = c * s /\ same_mixtures c m' r m2' r2.
Proof.
  intros C CT V V2 E E2 F F2. destruct (start c f _ _ _ _ _ _ _ _ CT) as (P & s0 & s0' & T0 & U1 & U2 & _).
  destruct (go_result _ _ _ _ _ _ _ V E) as (_ & [Q|(-> & _)]); [|discriminate].
  destruct (go_result _ _ _ _ _ _ _ V2 E2) as (_ & [Q2|(-> & _)]); [|discriminate].
  destruct Q as (px & s1 & G & P1 & h & n1 & t & d1 & a & b & R & L & N & ER & GA & SA & GB & SB & _).
  destruct Q2 as (px' & s1' & G' & P2 & h' & n1' & t' & d1' & a' & b' & R' & L' & N' & ER' & GA' & SA' & GB' & SB' & _).
  destruct (U1 _ _ _ _ _ R) as [-> RR]. destruct (U2 _ _ _ _ _ R') as [-> RR'].
  rewrite ER in F. rewrite ER' in F2. cbn [r_fit] in F, F2. injection F as -> <- <-. injection F2 as -> <- <-.
  pose proof (runs_times c C _ _ _ _ _ _ _ T0 RR RR' _ _ _ N N') as (TG & _ & TS).
  split; [rewrite ER, ER'; reflexivity|]. split; [exact TS|]. intros [|].
  - rewrite GB, GB'. eapply same_pars_times; [|exact SB']. eapply same_pars_times_l; [exact SB|]. apply views_times. exact TG.
  - rewrite GA, GA'. eapply same_pars_times; [|exact SA']. eapply same_pars_times_l; [exact SA|]. exact TG.
Qed.

(** ** fits of the fluxes only *)
Lemma no_mix c psf vs s0 s0' h h' n tol mi mx : 0 < c -> em_times c s0 s0' -> is_run FluxOnly psf vs s0 h -> is_run FluxOnly psf vs s0' h' ->
  length h = S n -> (1 <= n <= mx)%nat -> (n = mx \/ converged FluxOnly psf tol mi h n) -> den_ok FluxOnly psf mi h n ->
  (length h' <= mx)%nat -> (forall j, (1 <= j < length h')%nat -> ~ converged FluxOnly psf tol mi h' j) -> stuck FluxOnly psf vs mi h' -> False.
Proof.
  intros C T0 R R' L NM CV D L' NC ST. assert (P' : (1 <= length h')%nat) by (destruct R' as (H0 & _); destruct h'; [discriminate|cbn; lia]).
  destruct (Nat.le_gt_cases (length h') n) as [LE|GT].
  - destruct (nth_both c FluxOnly psf vs s0 s0' h h' C T0 R R' (length h' - 1)) as (a & a' & Ea & Ea' & Ta); [lia|lia|].
    destruct (nth_error h (length h')) as [b|] eqn:Eb; [|apply nth_error_None in Eb; lia].
    assert (SB : em_step FluxOnly psf vs a b). { destruct R as (_ & R & _). apply (R (length h' - 1)%nat); [exact Ea|]. replace (S (length h' - 1)) with (length h') by lia. exact Eb. }
    destruct (step_times c C _ _ _ _ _ _ Ta SB) as (b' & SB' & (Tb & _)).
    assert (EV : Forall evaluable (views psf (m_gm b'))). { eapply evaluable_times; [exact Tb|]. destruct R as (_ & _ & R). apply R. eapply nth_error_In; exact Eb. }
    destruct (ST a' b' Ea' SB' EV) as [M0 DN].
    assert (R2 : is_run FluxOnly psf vs s0' (h' ++ [b'])).
    { apply (run_snoc FluxOnly (mkConf 0 0 0 0 vs) psf s0' h' a'); [exact R'|exact Ea'|split; assumption]. }
    apply (D (length h')); [lia|exact M0|]. eapply (den_flux c FluxOnly psf vs s0 s0' h (h' ++ [b'])); eauto; [lia|rewrite app_length; cbn; lia].
  - destruct CV as [->|CV]; [lia|]. apply (NC n); [lia|]. destruct CV as (M0 & d & Ed & Ld). split; [exact M0|]. exists d. split; [|exact Ld].
    rewrite <- Ed. eapply (change_flux c FluxOnly psf vs s0 s0' h h'); eauto; lia.
Qed.
Lemma no_mix_calls c f m obs guess sky m2 obs2 guess2 sky2 m' r m2' r2 : 0 < c -> f_kind f = FluxOnly ->
  calls_times c m obs guess sky m2 obs2 guess2 sky2 -> valid_call m obs guess -> valid_call m2 obs2 guess2 ->
  em_go f m obs guess sky = Some (m', Ok r) -> em_go f m2 obs2 guess2 sky2 = Some (m2', Ok r2) ->
  success f m obs guess sky m' r -> failure f m2 obs2 guess2 sky2 r2 -> False.
Proof.
  intros C K CT V V2 E E2 Q Q2. destruct (start c f _ _ _ _ _ _ _ _ CT) as (P & s0 & s0' & T0 & U1 & U2 & U3 & U4).
  destruct Q as (px & s1 & G & P1 & h & n & t & d1 & a & b & R & L & N & ER & GA & SA & GB & SB & NM & MM & NC & CV & DD).
  assert (DN : den_ok (f_kind f) P1 (f_miniter f) h n).
  { eapply go_den; [exact V|exact E|rewrite ER; reflexivity|exact R|exact L]. }
  destruct (U1 _ _ _ _ _ R) as [-> RR]. destruct Q2 as (_ & px' & s' & G' & P2 & X1 & X2 & X3 & X4).
  destruct (U4 _ _ _ _ X1 X2 X3) as [-> EG]. destruct X4 as [X4|(h' & R' & L' & NC' & ST)].
  - apply X4. rewrite EG. eapply evaluable_times; [apply T0|]. destruct RR as (H0 & _ & H). apply H. eapply nth_error_In; exact H0.
  - destruct (U2 _ _ _ _ _ R') as [_ RR']. rewrite K in *. eapply (no_mix c P (f_vary_sky f) s0 s0' h h' n); eauto.
Qed.
Theorem flux_only c f m obs guess sky m2 obs2 guess2 sky2 m' r m2' r2 : 0 < c -> f_kind f = FluxOnly ->
  calls_times c m obs guess sky m2 obs2 guess2 sky2 -> valid_call m obs guess -> valid_call m2 obs2 guess2 ->
  em_go f m obs guess sky = Some (m', Ok r) -> em_go f m2 obs2 guess2 sky2 = Some (m2', Ok r2) -> same_fit c m' r m2' r2.
Proof.
  intros C K CT V V2 E E2.
  destruct (go_result _ _ _ _ _ _ _ V E) as (_ & [Q|Q]); destruct (go_result _ _ _ _ _ _ _ V2 E2) as (_ & [Q2|Q2]).
  - destruct (start c f _ _ _ _ _ _ _ _ CT) as (P & s0 & s0' & T0 & U1 & U2 & _).
    destruct Q as (px & s1 & G & P1 & h & n & t & d1 & a & b & R & L & N & ER & GA & SA & GB & SB & NM & MM & NC & CV & DD).
    destruct Q2 as (px' & s1' & G' & P2 & h' & n' & t' & d1' & a' & b' & R' & L' & N' & ER' & GA' & SA' & GB' & SB' & NM' & MM' & NC' & CV' & DD').
    destruct (U1 _ _ _ _ _ R) as [-> RR]. destruct (U2 _ _ _ _ _ R') as [-> RR']. rewrite K in *.
    assert (CE : forall i, (1 <= i)%nat -> (i < length h)%nat -> (i < length h')%nat -> change FluxOnly P h' i = change FluxOnly P h i).
    { intros i I1 I2 I3. eapply (change_flux c FluxOnly P (f_vary_sky f) s0 s0' h h'); eauto. }
    assert (NN : n' = n).
    { destruct (Nat.lt_trichotomy n' n) as [B|[B|B]]; [exfalso|exact B|exfalso].
      - destruct CV' as [->|(CV1 & d & CV2 & CV3)]; [lia|]. apply (NC n'); [lia|]. split; [exact CV1|]. exists d. split; [|exact CV3]. rewrite <- CV2. symmetry. apply CE; lia.
      - destruct CV as [->|(CV1 & d & CV2 & CV3)]; [lia|]. apply (NC' n); [lia|]. split; [exact CV1|]. exists d. split; [|exact CV3]. rewrite <- CV2. apply CE; lia. }
    subst n'. assert (FF : r_fit r = Some (n, d1, m_sky t)) by (rewrite ER; reflexivity).
    assert (FF' : r_fit r2 = Some (n, d1', m_sky t')) by (rewrite ER'; reflexivity).
    destruct (same_iterations c f m obs guess sky m2 obs2 guess2 sky2 m' r m2' r2 n d1 d1' _ _ C CT V V2 E E2 FF FF') as (A1 & A2 & A3).
    split; [exact A1|]. split; [|exact A3]. rewrite FF, FF'. split; [reflexivity|]. split; [|exact A2]. rewrite DD, DD'. apply CE; lia.
  - exfalso. eapply (no_mix_calls c); eassumption.
  - exfalso. eapply (no_mix_calls (/ c)); [apply Rinv_0_lt_compat; exact C|exact K|apply calls_times_sym; [exact C|exact CT]| | | | |exact Q2|exact Q]; eassumption.
  - destruct Q as (-> & _). destruct Q2 as (-> & _). split; [reflexivity|]. split; [exact I|]. intros [|]; reflexivity.
Qed.

(** ** the likelihood depends on the units *)
Lemma lit_zero psf s : lit psf s = 0%nat -> log_like psf s = Some 0.
Proof.
  unfold lit, log_like. induction (filled psf s) as [|p l IH]; [reflexivity|]. cbn [filter map osum].
  destruct (Req_EM_T (model psf (m_gm s) p) 0) as [Z|Z]; [|discriminate]. intros E. rewrite (IH E). f_equal. ring.
Qed.
Theorem units_matter f m obs guess sky m' r n d s : f_kind f <> FluxOnly -> valid_call m obs guess ->
  em_go f m obs guess sky = Some (m', Ok r) -> r_fit r = Some (n, Some d, s) ->
  exists c, 0 < c /\ forall m2 obs2 guess2 sky2 m2' r2, calls_times c m obs guess sky m2 obs2 guess2 sky2 -> valid_call m2 obs2 guess2 ->
    em_go f m2 obs2 guess2 sky2 = Some (m2', Ok r2) -> forall d2 s2, r_fit r2 <> Some (n, d2, s2).
Proof.
  intros K V E F. destruct (go_result _ _ _ _ _ _ _ V E) as (_ & [Q|(-> & _)]); [|discriminate].
  destruct Q as (px & s1 & G & P & h & n1 & t & d1 & a & b & R & L & N & ER & GA & SA & GB & SB & NM & MM & NC & CV & DD).
  rewrite ER in F. cbn [r_fit] in F. injection F as -> -> <-. destruct n as [|n]; [lia|].
  destruct (nth_error h n) as [u|] eqn:Eu; [|apply nth_error_None in Eu; lia].
  assert (WL : watched (f_kind f) P h (S n) = log_like P u) by (unfold watched; rewrite Eu; destruct (f_kind f); try contradiction; reflexivity).
  assert (LL : exists x, log_like P u = Some x /\ x <> 0).
  { unfold change, denominator in DD. rewrite WL in DD.
    destruct (log_like P u) as [x|]; [|discriminate]. exists x. split; [reflexivity|]. intros ->.
    destruct (watched (f_kind f) P h (S n - 1)); [|discriminate]. destruct (f_kind f); try contradiction; destruct (Req_EM_T 0 0); try discriminate; lra. }
  destruct LL as (x & LL & X0). assert (NZ : (0 < lit P u)%nat).
  { destruct (lit P u) eqn:Z; [|lia]. apply lit_zero in Z. congruence. }
  apply lt_INR in NZ. cbn [INR] in NZ.
  exists (exp (- x / INR (lit P u))). split; [apply exp_pos|]. intros m2 obs2 guess2 sky2 m2' r2 CT V2 E2 d2 s2 F2.
  destruct (start _ f _ _ _ _ _ _ _ _ CT) as (P' & s0 & s0' & T0 & U1 & U2 & _).
  destruct (U1 _ _ _ _ _ R) as [<- RR].
  destruct (go_result _ _ _ _ _ _ _ V2 E2) as (_ & [Q2|(-> & _)]); [|discriminate].
  destruct Q2 as (px' & s1' & G' & P2 & h' & n' & t' & d1' & a' & b' & R' & L' & N' & ER' & GA' & SA' & GB' & SB' & NM' & MM' & NC' & CV' & DD').
  assert (DN : den_ok (f_kind f) P2 (f_miniter f) h' n'). { eapply go_den; [exact V2|exact E2|rewrite ER'; reflexivity|exact R'|exact L']. }
  destruct (U2 _ _ _ _ _ R') as [-> RR']. rewrite ER' in F2. cbn [r_fit] in F2. injection F2 as -> <- <-.
  destruct (watched_like _ _ _ _ _ _ _ _ (exp_pos (- x / INR (lit P u))) T0 RR RR' n K) as (u1 & u' & E1 & E1' & _ & W); [lia|lia|].
  assert (u1 = u) by congruence. subst u1. rewrite LL, ln_exp in W. apply (DN (S n)); [lia|lia|].
  assert (DE : denominator (f_kind f) P h' (S n) = watched (f_kind f) P h' (S n)) by (unfold denominator; destruct (f_kind f); try contradiction; reflexivity).
  rewrite DE, W. f_equal. field. lra.
Qed.

(** in large enough units the fit ends after miniter iterations *)
Theorem units_stop f m obs guess sky m' r n d s px0 x0 G0 P h0 a b La Lb : f_kind f <> FluxOnly -> (2 <= f_miniter f)%nat -> 0 < f_tol f -> valid_call m obs guess ->
  em_go f m obs guess sky = Some (m', Ok r) -> r_fit r = Some (n, d, s) ->
  ran f m obs guess sky px0 x0 G0 P h0 -> nth_error h0 (f_miniter f - 2) = Some a -> nth_error h0 (f_miniter f - 1) = Some b ->
  log_like P a = Some La -> log_like P b = Some Lb -> lit P a = lit P b -> (0 < lit P b)%nat ->
  exists c0, 0 < c0 /\ forall c m2 obs2 guess2 sky2 m2' r2, c0 <= c -> calls_times c m obs guess sky m2 obs2 guess2 sky2 -> valid_call m2 obs2 guess2 ->
    em_go f m2 obs2 guess2 sky2 = Some (m2', Ok r2) -> exists d2 s2, r_fit r2 = Some (f_miniter f, d2, s2).
Proof.
  intros K MI TL V E F R0 Ea Eb LA LB LIT NZ. apply lt_INR in NZ. cbn [INR] in NZ. set (N := INR (lit P b)) in *.
  exists (exp ((Rabs (Lb - La) / f_tol f + 1 - Lb) / N)). split; [apply exp_pos|]. intros c m2 obs2 guess2 sky2 m2' r2 C0 CT V2 E2.
  assert (C : 0 < c) by (eapply Rlt_le_trans; [apply exp_pos|exact C0]).
  assert (LC : Rabs (Lb - La) / f_tol f + 1 <= Lb + N * ln c).
  { assert (H : (Rabs (Lb - La) / f_tol f + 1 - Lb) / N <= ln c).
    { rewrite <- (ln_exp ((Rabs (Lb - La) / f_tol f + 1 - Lb) / N)). destruct C0 as [C0|C0]; [left; apply ln_increasing; [apply exp_pos|exact C0]|rewrite C0; right; reflexivity]. }
    apply (Rmult_le_compat_l N) in H; [|lra]. replace (N * ((Rabs (Lb - La) / f_tol f + 1 - Lb) / N)) with (Rabs (Lb - La) / f_tol f + 1 - Lb) in H by (field; lra). lra. }
  pose proof (Rabs_pos (Lb - La)) as AP.
  assert (QP : 0 <= Rabs (Lb - La) / f_tol f) by (apply Rmult_le_pos; [exact AP|left; apply Rinv_0_lt_compat; exact TL]).
  assert (LCP : 0 < Lb + N * ln c) by lra.
  assert (CH : Rabs ((Lb + N * ln c - (La + N * ln c)) / (Lb + N * ln c)) < f_tol f).
  { replace (Lb + N * ln c - (La + N * ln c)) with (Lb - La) by ring. unfold Rdiv. rewrite Rabs_mult, (Rabs_right (/ _)) by (left; apply Rinv_0_lt_compat; exact LCP).
    apply (Rmult_lt_reg_r (Lb + N * ln c)); [exact LCP|]. rewrite Rmult_assoc, Rinv_l, Rmult_1_r by lra.
    apply Rlt_le_trans with (f_tol f * (Rabs (Lb - La) / f_tol f + 1)); [|apply Rmult_le_compat_l; lra].
    replace (f_tol f * (Rabs (Lb - La) / f_tol f + 1)) with (Rabs (Lb - La) + f_tol f) by (field; lra). lra. }
  destruct (start _ f _ _ _ _ _ _ _ _ CT) as (P' & s0 & s0' & T0 & U1 & U2 & U3 & U4).
  destruct (U1 _ _ _ _ _ R0) as [<- RR0].
  destruct (go_result _ _ _ _ _ _ _ V E) as (_ & [Q|(-> & _)]); [|discriminate].
  destruct Q as (px & s1 & G & P1 & h & n1 & t & d1 & aa & bb & R & L & NT & ER & GA & SA & GB & SB & NM & MM & NC & CV & DD).
  destruct (U1 _ _ _ _ _ R) as [-> RR]. rewrite ER in F. cbn [r_fit] in F. injection F as -> _ _.
  (** the states of [h0] and [h] have the same likelihood *)
  assert (LK : forall i x y, nth_error h0 i = Some x -> nth_error h i = Some y -> log_like P y = log_like P x /\ lit P y = lit P x).
  { intros i x y X Y. pose proof (runs_times 1 Rlt_0_1 _ _ _ _ _ _ _ (em_times_refl s0) RR0 RR i x y X Y) as T. split.
    - rewrite (log_like_times 1 Rlt_0_1 P x y T), ln_1. destruct (log_like P x); [f_equal; ring|reflexivity].
    - unfold lit. pose proof (filled_times 1 P x y T) as FT. destruct T as (TG & _). clear - FT TG.
      induction FT as [|p p' l l' H _ IH]; [reflexivity|]. cbn [filter]. rewrite (model_times 1 P _ _ _ _ TG H), Rmult_1_l.
      destruct (Req_EM_T _ 0); [exact IH|cbn [length]; congruence]. }
  (** convergence of the second run at miniter *)
  assert (CONV : forall h', is_run (f_kind f) P (f_vary_sky f) s0' h' -> (f_miniter f < length h')%nat ->
     converged (f_kind f) P (f_tol f) (f_miniter f) h' (f_miniter f) /\ denominator (f_kind f) P h' (f_miniter f) <> Some 0).
  { intros h' RR' L'.
    destruct (watched_like c _ _ _ _ _ _ _ C T0 RR RR' (f_miniter f - 1) K) as (y & y' & Y1 & Y2 & _ & W2); [lia|lia|].
    destruct (watched_like c _ _ _ _ _ _ _ C T0 RR RR' (f_miniter f - 2) K) as (z & z' & Z1 & Z2 & _ & W1); [lia|lia|].
    replace (S (f_miniter f - 1)) with (f_miniter f) in W2 by lia. replace (S (f_miniter f - 2)) with (f_miniter f - 1)%nat in W1 by lia.
    destruct (LK _ _ _ Eb Y1) as [B1 B2]. destruct (LK _ _ _ Ea Z1) as [A1 A2]. rewrite B1, LB, B2 in W2. rewrite A1, LA, A2, LIT in W1. fold N in W1, W2.
    assert (DE : denominator (f_kind f) P h' (f_miniter f) = Some (Lb + N * ln c)) by (rewrite <- W2; unfold denominator; destruct (f_kind f); try contradiction; reflexivity).
    split; [|rewrite DE; intros J; injection J as J; lra]. split; [lia|]. eexists. split; [|exact CH]. unfold change. rewrite DE, W1, W2.
    destruct (Req_EM_T (Lb + N * ln c) 0); [lra|reflexivity]. }
  destruct (go_result _ _ _ _ _ _ _ V2 E2) as (_ & [Q2|Q2]).
  - destruct Q2 as (px' & s1' & G' & P2 & h' & n' & t' & d1' & a' & b' & R' & L' & N' & ER' & GA' & SA' & GB' & SB' & NM' & MM' & NC' & CV' & DD').
    destruct (U2 _ _ _ _ _ R') as [-> RR']. rewrite ER'. cbn [r_fit]. assert (n' = f_miniter f) as ->; [|eauto].
    destruct (Nat.eq_dec n' (f_miniter f)) as [|NE]; [assumption|exfalso]. apply (NC' (f_miniter f)); [lia|]. apply CONV; [exact RR'|lia].
  - exfalso. destruct Q2 as (_ & px' & s' & G' & P2 & X1 & X2 & X3 & X4). destruct (U4 _ _ _ _ X1 X2 X3) as [-> EG]. destruct X4 as [X4|(h' & R' & L' & NC' & ST)].
    + apply X4. rewrite EG. eapply evaluable_times; [apply T0|]. destruct RR as (H0 & _ & H). apply H. eapply nth_error_In; exact H0.
    + destruct (U2 _ _ _ _ _ R') as [_ RR']. assert (P1' : (1 <= length h')%nat) by (destruct RR' as (H0 & _); destruct h'; [discriminate|cbn; lia]).
      destruct (Nat.lt_ge_cases (f_miniter f) (length h')) as [GT|LE]; [apply (NC' (f_miniter f)); [lia|]; apply CONV; assumption|].
      destruct (nth_both c _ _ _ _ _ _ _ C T0 RR RR' (length h' - 1)) as (y & y' & Y1 & Y2 & Ty); [lia|lia|].
      destruct (nth_error h (length h')) as [z|] eqn:Ez; [|apply nth_error_None in Ez; lia].
      assert (SZ : em_step (f_kind f) P (f_vary_sky f) y z). { destruct RR as (_ & RR & _). apply (RR (length h' - 1)%nat); [exact Y1|]. replace (S (length h' - 1)) with (length h') by lia. exact Ez. }
      destruct (step_times c C _ _ _ _ _ _ Ty SZ) as (z' & SZ' & (Tz & _)).
      assert (EV : Forall evaluable (views P (m_gm z'))). { eapply evaluable_times; [exact Tz|]. destruct RR as (_ & _ & RR). apply RR. eapply nth_error_In; exact Ez. }
      destruct (ST y' z' Y2 SZ' EV) as [M0 DN].
      assert (R2 : is_run (f_kind f) P (f_vary_sky f) s0' (h' ++ [z'])).
      { apply (run_snoc (f_kind f) (mkConf 0 0 0 0 (f_vary_sky f)) P s0' h' y'); [exact RR'|exact Y2|split; assumption]. }
      destruct (CONV _ R2) as [_ DD2]; [rewrite app_length; cbn; lia|]. apply DD2. replace (f_miniter f) with (length h') by lia. exact DN.
Qed.
