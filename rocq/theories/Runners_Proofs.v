(** Runners: tries, fits of psfs, choice of observations. *)
From Verif Require Import Base GMixObj_Model Jacobian_Model Jacobian_Proofs Runners_Model Runners_Spec.

Lemma upd_length' {A} (l : list A) : forall i x, length (upd l i x) = length l.
Proof. induction l; intros [|i] x; cbn; auto. Qed.
Lemma upd_same' {A} (l : list A) : forall i x, (i < length l)%nat -> nth_error (upd l i x) i = Some x.
Proof. induction l; intros [|i] x H; cbn in *; try lia; auto. apply IHl. lia. Qed.
Lemma upd_other' {A} (l : list A) : forall i j x, i <> j -> nth_error (upd l i x) j = nth_error l j.
Proof. induction l; intros [|i] [|j] x H; cbn; auto; try congruence. Qed.
Lemma upd_map {A B} (f : A -> B) (l : list A) : forall i x y, nth_error l i = Some y -> f x = f y -> map f (upd l i x) = map f l.
Proof. induction l; intros [|i] x y E F; cbn in *; try discriminate; [injection E as ->; congruence|]. f_equal. eapply IHl; eassumption. Qed.
Lemma nth_some {A} (l : list A) i : (i < length l)%nat -> exists x, nth_error l i = Some x.
Proof. intros H. destruct (nth_error l i) eqn:E; [eauto|]. apply nth_error_None in E. lia. Qed.
Lemma nth_lt {A} (l : list A) i x : nth_error l i = Some x -> (i < length l)%nat.
Proof. intros E. apply nth_error_Some. congruence. Qed.

Section Proofs.
Variables (W G rslt : Type).
Variable r_flags : rslt -> option Z.
Variable r_get_gmix : rslt -> option (res gmobj).
Let mem := rmem rslt.
Let st : Type := mem * W.
Variable fitter_go : mem -> W -> arg -> option G -> W * res rslt.
Variable guesser : option (mem -> W -> arg -> W * res G).
Notation attempt := (attempt W G rslt fitter_go guesser).
Notation try_loop := (try_loop W G rslt r_flags fitter_go guesser).
Notation run_fitter := (run_fitter W G rslt r_flags fitter_go guesser).
Notation tries := (tries W G rslt fitter_go guesser).
Notation breaks := (breaks W G rslt r_flags fitter_go guesser).
Notation fails := (fails W G rslt r_flags fitter_go guesser).
Notation outcome_ok := (outcome_ok W G rslt r_flags fitter_go guesser).

Lemma attempt_ok a s s' r : attempt a s = (s', Ok r) <-> tries a s s' r.
Proof.
  destruct s as [m w]. unfold Runners_Model.attempt. split.
  - destruct guesser as [gs|] eqn:EG.
    + destruct (gs m w a) as [w1 [g|e]] eqn:E1; [|discriminate]. destruct (fitter_go m w1 a (Some g)) as [w2 [r'|e]] eqn:E2; [|discriminate].
      intros E. injection E as <- <-. eapply t_guess; eauto.
    + destruct (fitter_go m w a None) as [w1 [r'|e]] eqn:E1; [|discriminate]. intros E. injection E as <- <-. eapply t_plain; eauto.
  - intros T. inversion T as [m0 w0 w1 r0 EG E1 X1 X2|m0 w0 w1 w2 gs g r0 EG E1 E2 X1 X2]; rewrite EG, E1; [reflexivity|rewrite E2; reflexivity].
Qed.
Lemma attempt_raise a s s' e : attempt a s = (s', Raise e) -> breaks a s s' e.
Proof.
  destruct s as [m w]. unfold Runners_Model.attempt. destruct guesser as [gs|] eqn:EG.
  - destruct (gs m w a) as [w1 [g|e']] eqn:E1.
    + destruct (fitter_go m w1 a (Some g)) as [w2 [r'|e']] eqn:E2; [discriminate|]. intros E. injection E as <- <-. eapply b_go; eauto.
    + intros E. injection E as <- <-. eapply b_guess; eauto.
  - destruct (fitter_go m w a None) as [w1 [r'|e']] eqn:E1; [discriminate|]. intros E. injection E as <- <-. eapply b_plain; eauto.
Qed.
Lemma breaks_attempt a s s' e : breaks a s s' e ->
  attempt a s = (s', Raise e) \/ exists r, attempt a s = (s', Ok r) /\ r_flags r = None /\ e = KeyError.
Proof.
  destruct 1 as [m w w' e EG E1|m w w1 gs e EG E1|m w w1 w2 gs g e EG E1 E2|s s' r T F].
  - left. unfold Runners_Model.attempt. rewrite EG, E1. reflexivity.
  - left. unfold Runners_Model.attempt. rewrite EG, E1. reflexivity.
  - left. unfold Runners_Model.attempt. rewrite EG, E1, E2. reflexivity.
  - right. exists r. split; [apply attempt_ok; exact T|auto].
Qed.
Lemma tries_mem a s s' r : tries a s s' r -> fst s' = fst s.
Proof. destruct 1; reflexivity. Qed.
Lemma breaks_mem a s s' e : breaks a s s' e -> fst s' = fst s.
Proof. destruct 1 as [| | |s s' r T _]; try reflexivity. apply tries_mem in T. exact T. Qed.
Lemma fails_mem a k s s' l : fails a k s s' l -> fst s' = fst s.
Proof. induction 1 as [|k s s1 s2 l r f F IH T _ _]; [reflexivity|]. apply tries_mem in T. congruence. Qed.
Lemma fails_last a k s s' l : fails a k s s' l -> (l = None <-> k = 0%nat).
Proof. destruct 1; split; congruence. Qed.

(** the loop, after k failed tries *)
Lemma loop_forward a n : forall k s0 s l, fails a k s0 s l -> forall s' o, try_loop n a l s = (s', o) ->
  match o with
  | Ok r => outcome_ok a (k + n) s0 s' r
  | Raise e => (k + n = 0 /\ e = UnboundLocalError /\ s' = s0)%nat \/
      exists j s1 l1, (j < k + n)%nat /\ fails a j s0 s1 l1 /\ breaks a s1 s' e
  end.
Proof.
  induction n as [|n IH]; intros k s0 s l F s' o E; cbn [Runners_Model.try_loop] in E.
  - injection E as <- <-. rewrite Nat.add_0_r. destruct l as [r|]; [right; exact F|].
    left. pose proof (proj1 (fails_last _ _ _ _ _ F) eq_refl) as ->. inversion F; subst. auto.
  - destruct (attempt a s) as [s1 [r|e]] eqn:EA.
    + destruct (r_flags r) as [f|] eqn:EF.
      * destruct (Z.eqb_spec f 0) as [->|NZ].
        -- injection E as <- <-. left. exists k, s, l. apply attempt_ok in EA. split; [lia|auto].
        -- apply attempt_ok in EA. pose proof (f_more W G rslt r_flags fitter_go guesser a k s0 s s1 l r f F EA EF NZ) as F'.
           specialize (IH (S k) s0 s1 (Some r) F' s' o E). rewrite Nat.add_succ_r. exact IH.
      * injection E as <- <-. right. exists k, s, l. split; [lia|]. split; [exact F|]. eapply b_flags; [|exact EF]. apply attempt_ok. exact EA.
    + injection E as <- <-. right. exists k, s, l. split; [lia|]. split; [exact F|]. apply attempt_raise. exact EA.
Qed.
Lemma skip_fails a k s0 s l : fails a k s0 s l -> forall n, try_loop (k + n) a None s0 = try_loop n a l s.
Proof.
  induction 1 as [|k s s1 s2 l r f F IH T EF NZ]; intros n; [reflexivity|]. replace (S k + n)%nat with (k + S n)%nat by lia. rewrite IH. cbn [Runners_Model.try_loop].
  apply attempt_ok in T. rewrite T, EF. apply Z.eqb_neq in NZ. rewrite NZ. reflexivity.
Qed.
Lemma run_fitter_ok a n s s' r : run_fitter a n s = (s', Ok r) <-> outcome_ok a n s s' r.
Proof.
  split.
  - intros E. exact (loop_forward a n 0 s s None (f_none _ _ _ _ _ _ _ _) s' (Ok r) E).
  - unfold Runners_Model.run_fitter. intros [(k & s1 & l & L & F & T & EF)|F].
    + replace n with (k + S (n - S k))%nat by lia. rewrite (skip_fails _ _ _ _ _ F). cbn [Runners_Model.try_loop]. apply attempt_ok in T. rewrite T, EF. reflexivity.
    + rewrite <- (Nat.add_0_r n), (skip_fails _ _ _ _ _ F). reflexivity.
Qed.
Lemma run_fitter_raise a n s s' e : run_fitter a n s = (s', Raise e) <->
  (n = 0 /\ e = UnboundLocalError /\ s' = s)%nat \/ exists k s1 l, (k < n)%nat /\ fails a k s s1 l /\ breaks a s1 s' e.
Proof.
  split.
  - intros E. exact (loop_forward a n 0 s s None (f_none _ _ _ _ _ _ _ _) s' (Raise e) E).
  - unfold Runners_Model.run_fitter. intros [(-> & -> & ->)|(k & s1 & l & L & F & B)]; [reflexivity|].
    replace n with (k + S (n - S k))%nat by lia. rewrite (skip_fails _ _ _ _ _ F). cbn [Runners_Model.try_loop].
    apply breaks_attempt in B. destruct B as [->|(r & -> & EF & ->)]; [reflexivity|]. rewrite EF. reflexivity.
Qed.
Lemma run_fitter_mem a n s s' o : run_fitter a n s = (s', o) -> fst s' = fst s.
Proof.
  destruct o as [r|e]; intros E.
  - apply run_fitter_ok in E. destruct E as [(k & s1 & l & _ & F & T & _)|F]; [apply tries_mem in T; apply fails_mem in F; congruence|apply fails_mem in F; exact F].
  - apply run_fitter_raise in E. destruct E as [(_ & _ & ->)|(k & s1 & l & _ & F & B)]; [reflexivity|]. apply breaks_mem in B. apply fails_mem in F. congruence.
Qed.
Lemma outcome_flags a n s s' r : outcome_ok a n s s' r -> exists f, r_flags r = Some f.
Proof. intros [(k & s1 & l & _ & _ & _ & E)|F]; [eauto|]. inversion F; subst. eauto. Qed.
(** the number of tries is determined *)
Lemma tries_det a s s1 s2 r1 r2 : tries a s s1 r1 -> tries a s s2 r2 -> s1 = s2 /\ r1 = r2.
Proof. intros A B. apply attempt_ok in A, B. rewrite A in B. injection B as <- <-. auto. Qed.
Lemma fails_det a k : forall s s1 l1 s2 l2, fails a k s s1 l1 -> fails a k s s2 l2 -> s1 = s2 /\ l1 = l2.
Proof.
  induction k as [|k IH]; intros s s1 l1 s2 l2 A B; inversion A; inversion B; subst; [auto|].
  match goal with H1 : Runners_Spec.fails _ _ _ _ _ _ _ k s _ _, H2 : Runners_Spec.fails _ _ _ _ _ _ _ k s _ _ |- _ => destruct (IH _ _ _ _ _ H1 H2) as [<- <-] end.
  match goal with H1 : Runners_Spec.tries _ _ _ _ _ _ _ _ _, H2 : Runners_Spec.tries _ _ _ _ _ _ _ _ _ |- _ => destruct (tries_det _ _ _ _ _ _ H1 H2) as [<- <-] end. auto.
Qed.

(** ** memory *)
Lemma meta_same (m m' : rmem rslt) : same_structure m m' -> forall i, meta_of m' i = meta_of m i.
Proof.
  intros (_ & _ & _ & E) i. unfold meta_of. apply (f_equal (fun l => nth_error l i)) in E. rewrite !nth_error_map in E.
  destruct (nth_error (m_obs m') i), (nth_error (m_obs m) i); cbn in *; try discriminate; [injection E as _ ->|]; reflexivity.
Qed.
Lemma psf_same (m m' : rmem rslt) : same_structure m m' -> forall i, option_map ro_psf (nth_error (m_obs m') i) = option_map ro_psf (nth_error (m_obs m) i).
Proof.
  intros (_ & _ & _ & E) i. apply (f_equal (fun l => nth_error l i)) in E. rewrite !nth_error_map in E.
  destruct (nth_error (m_obs m') i), (nth_error (m_obs m) i); cbn in *; try discriminate; [injection E as -> _|]; reflexivity.
Qed.
Lemma target_same (m m' : rmem rslt) : same_structure m m' -> forall i, target m' i = target m i.
Proof.
  intros S i. pose proof (psf_same m m' S i) as E. unfold target.
  destruct (nth_error (m_obs m') i), (nth_error (m_obs m) i); cbn in *; try discriminate; [injection E as ->|]; reflexivity.
Qed.
Lemma same_refl (m : mem) : same_structure m m. Proof. unfold same_structure. auto. Qed.
Lemma same_trans (m1 m2 m3 : mem) : same_structure m1 m2 -> same_structure m2 m3 -> same_structure m1 m3.
Proof. unfold same_structure. intuition congruence. Qed.
Lemma obs_length (m m' : rmem rslt) : same_structure m m' -> length (m_obs m') = length (m_obs m).
Proof. intros (_ & _ & _ & E). apply (f_equal (@length _)) in E. rewrite !map_length in E. exact E. Qed.
Lemma wf_same (m m' : rmem rslt) : same_structure m m' -> wf_mem m -> wf_mem m'.
Proof.
  intros S WF. pose proof (obs_length _ _ S) as L. pose proof (meta_same _ _ S) as M. pose proof (psf_same _ _ S) as P. destruct S as (S1 & S2 & S3 & _). split.
  - intros i o p E Q. specialize (P i). rewrite E in P. cbn in P. destruct (nth_error (m_obs m) i) as [o'|] eqn:E'; [|discriminate]. cbn in P. injection P as P. rewrite L.
    eapply (wf_psf _ m WF); [exact E'|congruence].
  - intros i o E. specialize (M i). unfold meta_of in M. rewrite E in M. cbn in M. destruct (nth_error (m_obs m) i) as [o'|] eqn:E'; [|discriminate]. cbn in M. injection M as M. rewrite S3, M.
    eapply (wf_meta _ m WF); exact E'.
  - rewrite S1, L. exact (wf_items _ m WF).
  - rewrite S1, S2. exact (wf_mbs _ m WF).
Qed.
Lemma target_lt (m : rmem rslt) i : wf_mem m -> (i < length (m_obs m))%nat -> (target m i < length (m_obs m))%nat.
Proof.
  intros WF H. unfold target. destruct (nth_error (m_obs m) i) as [o|] eqn:E; [|exact H]. destruct (ro_psf o) as [p|] eqn:P; [|exact H]. eapply (wf_psf _ m WF); eauto.
Qed.
Lemma set_result_spec (m : rmem rslt) d r : (d < length (m_dict m))%nat -> same_structure m (set_result_in m d r) /\ m_obs (set_result_in m d r) = m_obs m /\
  forall d', result_of (set_result_in m d r) d' = if Nat.eqb d d' then Some r else result_of m d'.
Proof.
  intros L. split; [unfold same_structure, set_result_in; cbn; rewrite upd_length'; auto|]. split; [reflexivity|]. intros d'. unfold result_of, set_result_in. cbn [m_dict].
  destruct (Nat.eqb_spec d d') as [<-|N]; [rewrite upd_same' by exact L; reflexivity|rewrite upd_other' by exact N; reflexivity].
Qed.
Lemma set_gmix_spec (m : rmem rslt) i g o : nth_error (m_obs m) i = Some o -> same_structure m (set_gmix_in m i g) /\ m_dict (set_gmix_in m i g) = m_dict m /\
  gmix_of (set_gmix_in m i g) i = g /\ forall j, j <> i -> gmix_of (set_gmix_in m i g) j = gmix_of m j.
Proof.
  intros E. unfold set_gmix_in. rewrite E. split; [|split; [reflexivity|]].
  - unfold same_structure. cbn. repeat split; auto. eapply upd_map; [exact E|reflexivity].
  - unfold gmix_of. cbn [m_obs]. split; [rewrite upd_same' by (apply nth_error_Some; congruence); reflexivity|]. intros j N. rewrite upd_other' by auto. reflexivity.
Qed.
Notation store := (store rslt r_flags r_get_gmix).
Notation records := (records rslt r_flags r_get_gmix).
Lemma store_spec (m : rmem rslt) t o r : wf_mem m -> nth_error (m_obs m) t = Some o -> r_flags r <> None ->
  match store t o r m with
  | (m', Ok _) => records m t r m'
  | (m', Raise e) => same_structure m m' /\ r_flags r = Some 0%Z /\ exists gr, r_get_gmix r = Some gr /\ (gr = Raise e \/ exists g, gr = Ok g /\ obj_copy g = Raise e)
  end.
Proof.
  intros WF E F. assert (LD : (ro_meta o < length (m_dict m))%nat) by (eapply (wf_meta _ m WF); exact E).
  destruct (set_result_spec m (ro_meta o) r LD) as (S1 & O1 & R1). unfold Runners_Model.store. set (m1 := set_result_in m (ro_meta o) r) in *.
  assert (ME : meta_of m t = Some (ro_meta o)) by (unfold meta_of; rewrite E; reflexivity).
  assert (GS : forall j, gmix_of m1 j = gmix_of m j) by (intros j; unfold gmix_of; rewrite O1; reflexivity).
  assert (plain : new_gmix rslt r_flags r_get_gmix r (gmix_of m t) (gmix_of m1 t) -> records m t r m1).
  { intros N. split; [exact S1|]. split; [intros d; rewrite R1, ME; reflexivity|]. split; [intros j _; apply GS|exact N]. }
  destruct (r_flags r) as [f|] eqn:EF; [|congruence]. destruct (Z.eqb_spec f 0) as [->|NZ].
  - destruct (r_get_gmix r) as [[g|e]|] eqn:EG.
    + unfold obs_set_gmix. assert (E1 : nth_error (m_obs m1) t = Some o) by (rewrite O1; exact E). destruct (obj_copy g) as [c|e] eqn:EC.
      * destruct (set_gmix_spec m1 t (Some c) o E1) as (S2 & D2 & G2 & H2). split; [eapply same_trans; eassumption|]. split; [|split].
        -- intros d. unfold result_of. rewrite D2. fold (result_of m1 d). rewrite R1, ME. reflexivity.
        -- intros j N. rewrite H2, GS; auto.
        -- unfold new_gmix. rewrite EF, EG, G2. eauto.
      * destruct (set_gmix_spec m1 t None o E1) as (S2 & _). split; [eapply same_trans; eassumption|]. split; [reflexivity|]. exists (Ok g). split; [reflexivity|]. right. eauto.
    + split; [exact S1|]. split; [reflexivity|]. exists (Raise e). auto.
    + apply plain. unfold new_gmix. rewrite EF, EG, GS. reflexivity.
  - apply plain. unfold new_gmix. rewrite EF, GS. destruct f; [congruence|reflexivity|reflexivity].
Qed.

Notation psf_fit_obs := (psf_fit_obs W G rslt r_flags r_get_gmix fitter_go guesser).
Notation psf_fit_list := (psf_fit_list W G rslt r_flags r_get_gmix fitter_go guesser).
Notation run_psf_fitter := (run_psf_fitter W G rslt r_flags r_get_gmix fitter_go guesser).
Notation fit_all := (fit_all W G rslt r_flags r_get_gmix fitter_go guesser).
Notation fit_breaks := (fit_breaks W G rslt r_flags r_get_gmix fitter_go guesser).
Notation breaks_off := (breaks_off W G rslt r_flags r_get_gmix fitter_go guesser).
Lemma fit_obs_spec ntry i m w s' o : wf_mem m -> (i < length (m_obs m))%nat -> psf_fit_obs ntry true i (m, w) = (s', o) ->
  match o with
  | Ok r => exists w1 m2, outcome_ok (AObs (target m i)) ntry (m, w) (m, w1) r /\ records m (target m i) r m2 /\ s' = (m2, w1)
  | Raise e => fit_breaks ntry (target m i) (m, w) s' e
  end.
Proof.
  intros WF Hi E. pose proof (target_lt m i WF Hi) as TL. unfold Runners_Model.psf_fit_obs in E. cbn [fst] in E.
  destruct (nth_some _ _ Hi) as (ob & Eo). rewrite Eo in E. assert (T : target m i = match ro_psf ob with Some p => p | None => i end) by (unfold target; rewrite Eo; reflexivity).
  rewrite <- T in E. destruct (run_fitter (AObs (target m i)) ntry (m, w)) as [[m1 w1] [r|e]] eqn:ER.
  - pose proof (run_fitter_mem _ _ _ _ _ ER) as M1. cbn [fst] in M1. subst m1. apply run_fitter_ok in ER. destruct (nth_some _ _ TL) as (ot & Et). rewrite Et in E.
    destruct (outcome_flags _ _ _ _ _ ER) as (f & EF). pose proof (store_spec m (target m i) ot r WF Et ltac:(congruence)) as SS.
    destruct (store (target m i) ot r m) as [m' [u|e]]; injection E as <- <-; [eauto|]. destruct SS as (S & F0 & gr & EG & Q).
    right. exists w1, r, gr. split; [exact ER|]. auto.
  - injection E as <- <-. left. apply run_fitter_raise. exact ER.
Qed.
Lemma fit_all_same ntry ts s s' rs : fit_all ntry ts s s' rs -> same_structure (fst s) (fst s') /\ length rs = length ts.
Proof.
  induction 1 as [|t ts m w w1 r m2 s' rs O R F [IH L]]; [split; [apply same_refl|reflexivity]|]. cbn. split; [|congruence].
  destruct R as (S & _). eapply same_trans; eassumption.
Qed.
Lemma fit_all_app ntry ts1 : forall ts2 s s1 s2 rs1 rs2, fit_all ntry ts1 s s1 rs1 -> fit_all ntry ts2 s1 s2 rs2 -> fit_all ntry (ts1 ++ ts2) s s2 (rs1 ++ rs2).
Proof. intros ts2 s s1 s2 rs1 rs2 A. revert ts2 s2 rs2. induction A as [|t ts m w w1 r m2 s' rs O R F IH]; intros ts2 s2 rs2 B; [exact B|]. cbn. eapply fa_cons; eauto. Qed.
Lemma collect_obs ntry items : forall m w s' o, wf_mem m -> (forall x, In x items -> (x < length (m_obs m))%nat) ->
  collect (psf_fit_obs ntry true) items (m, w) = (s', o) ->
  match o with
  | Ok rs => fit_all ntry (map (target m) items) (m, w) s' rs
  | Raise e => breaks_off ntry (map (target m) items) (m, w) s' e
  end.
Proof.
  induction items as [|i items IH]; intros m w s' o WF IN E; cbn [collect] in E; [injection E as <- <-; constructor|].
  pose proof (fit_obs_spec ntry i m w) as FS. destruct (psf_fit_obs ntry true i (m, w)) as [s1 [r|e]] eqn:E1.
  - destruct (FS _ _ WF (IN i (or_introl eq_refl)) eq_refl) as (w1 & m2 & O & R & ->). clear FS. pose proof R as (S & _).
    assert (TS : map (target m2) items = map (target m) items) by (apply map_ext; apply target_same; exact S).
    destruct (collect (psf_fit_obs ntry true) items (m2, w1)) as [s2 o2] eqn:E2.
    assert (IN2 : forall x, In x items -> (x < length (m_obs m2))%nat) by (intros x Hx; rewrite (obs_length _ _ S); apply IN; right; exact Hx).
    pose proof (IH _ _ _ _ (wf_same _ _ S WF) IN2 E2) as Q. rewrite TS in Q. destruct o2 as [rs|e]; injection E as <- <-.
    + cbn [map]. eapply fa_cons; eassumption.
    + destruct Q as (ts1 & t & ts2 & sx & rs & ET & F & B). exists (target m i :: ts1), t, ts2, sx, (r :: rs). cbn [map]. rewrite ET. split; [reflexivity|]. split; [|exact B]. eapply fa_cons; eassumption.
  - injection E as <- <-. pose proof (FS _ _ WF (IN i (or_introl eq_refl)) eq_refl) as B. exists [], (target m i), (map (target m) items), (m, w), []. split; [reflexivity|]. split; [constructor|exact B].
Qed.
Lemma fit_list_spec ntry i m w s' o : wf_mem m -> (i < length (m_lists m))%nat -> psf_fit_list ntry true i (m, w) = (s', o) ->
  match o with
  | Ok rs => fit_all ntry (map (target m) (items_of (m_lists m) i)) (m, w) s' rs
  | Raise e => breaks_off ntry (map (target m) (items_of (m_lists m) i)) (m, w) s' e
  end.
Proof.
  intros WF Hi E. unfold Runners_Model.psf_fit_list in E. cbn [fst] in E. unfold items_of. destruct (nth_some _ _ Hi) as (l & El). rewrite El in *.
  apply collect_obs; auto. intros x Hx. eapply (wf_items _ m WF); eauto.
Qed.
Lemma collect_lists ntry bands : forall m w s' o, wf_mem m -> (forall x, In x bands -> (x < length (m_lists m))%nat) ->
  collect (psf_fit_list ntry true) bands (m, w) = (s', o) ->
  match o with
  | Ok rs => fit_all ntry (flat_map (fun l => map (target m) (items_of (m_lists m) l)) bands) (m, w) s' (concat rs) /\ map (@length rslt) rs = map (fun k => length (items_of (m_lists m) k)) bands
  | Raise e => breaks_off ntry (flat_map (fun l => map (target m) (items_of (m_lists m) l)) bands) (m, w) s' e
  end.
Proof.
  induction bands as [|i bands IH]; intros m w s' o WF IN E; cbn [collect] in E; [injection E as <- <-; split; [constructor|reflexivity]|].
  pose proof (fit_list_spec ntry i m w) as FS. destruct (psf_fit_list ntry true i (m, w)) as [s1 [r|e]] eqn:E1.
  - pose proof (FS _ _ WF (IN i (or_introl eq_refl)) eq_refl) as FA. clear FS. destruct (fit_all_same _ _ _ _ _ FA) as [S L]. cbn [fst] in S. rewrite map_length in L.
    destruct s1 as [m2 w2]. cbn [fst] in S. pose proof S as (SL & _).
    assert (TS : flat_map (fun l => map (target m2) (items_of (m_lists m2) l)) bands = flat_map (fun l => map (target m) (items_of (m_lists m) l)) bands).
    { rewrite SL. clear - S. induction bands as [|b bands IH]; [reflexivity|]. cbn. rewrite IH. f_equal. apply map_ext. apply target_same. exact S. }
    destruct (collect (psf_fit_list ntry true) bands (m2, w2)) as [s2 o2] eqn:E2.
    assert (IN2 : forall x, In x bands -> (x < length (m_lists m2))%nat) by (intros x Hx; rewrite SL; apply IN; right; exact Hx).
    pose proof (IH _ _ _ _ (wf_same _ _ S WF) IN2 E2) as Q. rewrite TS in Q. destruct o2 as [rs|e]; injection E as <- <-.
    + destruct Q as [Q1 Q2]. split; [cbn [flat_map concat]; eapply fit_all_app; eassumption|]. cbn [map]. rewrite L, Q2, SL. reflexivity.
    + destruct Q as (ts1 & t & ts2 & sx & rs & ET & F & B). cbn [flat_map]. rewrite ET. exists (map (target m) (items_of (m_lists m) i) ++ ts1), t, ts2, sx, (r ++ rs). rewrite <- app_assoc. split; [reflexivity|]. split; [|exact B]. eapply fit_all_app; eassumption.
  - injection E as <- <-. destruct (FS _ _ WF (IN i (or_introl eq_refl)) eq_refl) as (ts1 & t & ts2 & sx & rs & ET & F & B). cbn [flat_map]. rewrite ET.
    exists ts1, t, (ts2 ++ flat_map (fun l => map (target m) (items_of (m_lists m) l)) bands), sx, rs. rewrite <- app_assoc. split; [reflexivity|auto].
Qed.
Lemma psf_spec a ntry m w s' o : wf_mem m -> wf_arg m a -> run_psf_fitter a ntry true (m, w) = (s', o) ->
  match o with
  | Ok p => fit_all ntry (targets m a) (m, w) s' (flat p) /\ same_shape m a p
  | Raise e => a = AOther /\ e = ValueError /\ s' = (m, w) \/ breaks_off ntry (targets m a) (m, w) s' e
  end.
Proof.
  intros WF WA E. destruct a as [i|i|i|]; cbn [Runners_Model.run_psf_fitter wf_arg targets fst] in *.
  - destruct (psf_fit_obs ntry true i (m, w)) as [s1 o1] eqn:E1. pose proof (fit_obs_spec ntry i m w s1 o1 WF WA E1) as Q. destruct o1 as [r|e]; cbn [rmap] in E; injection E as <- <-.
    + destruct Q as (w1 & m2 & O & R & ->). split; [|exact I]. eapply fa_cons; [exact O|exact R|constructor].
    + right. exists [], (target m i), [], (m, w), []. split; [reflexivity|]. split; [constructor|exact Q].
  - destruct (psf_fit_list ntry true i (m, w)) as [s1 o1] eqn:E1. pose proof (fit_list_spec ntry i m w s1 o1 WF WA E1) as Q. destruct o1 as [r|e]; cbn [rmap] in E; injection E as <- <-; [|right; exact Q].
    split; [exact Q|]. cbn. apply fit_all_same in Q. destruct Q as [_ L]. rewrite map_length in L. exact L.
  - destruct (nth_some _ _ WA) as (b & Eb). rewrite Eb in E. destruct (collect (psf_fit_list ntry true) (cl_items b) (m, w)) as [s1 o1] eqn:E1.
    assert (IB : items_of (m_mbs m) i = cl_items b) by (unfold items_of; rewrite Eb; reflexivity). cbn [same_shape]. rewrite IB.
    pose proof (collect_lists ntry (cl_items b) m w s1 o1 WF (fun x Hx => wf_mbs _ m WF i b x Eb Hx) E1) as Q. destruct o1 as [r|e]; cbn [rmap] in E; injection E as <- <-; [exact Q|right; exact Q].
  - injection E as <- <-. left. auto.
Qed.
(** without set_result nothing in memory changes *)
Lemma collect_mem {A B} (f : A -> st -> st * res B) : (forall x s s' o, f x s = (s', o) -> fst s' = fst s) -> forall l s s' o, collect f l s = (s', o) -> fst s' = fst s.
Proof.
  intros H. induction l as [|x l IH]; intros s s' o E; cbn [collect] in E; [injection E as <- <-; reflexivity|].
  destruct (f x s) as [s1 [y|e]] eqn:E1; [|injection E as <- <-; eapply H; exact E1].
  destruct (collect f l s1) as [s2 [ys|e]] eqn:E2; injection E as <- <-; rewrite (IH _ _ _ E2); eapply H; exact E1.
Qed.
Lemma fit_obs_mem ntry i s s' o : psf_fit_obs ntry false i s = (s', o) -> fst s' = fst s.
Proof.
  unfold Runners_Model.psf_fit_obs. destruct (nth_error (m_obs (fst s)) i) as [ob|]; [|intros E; injection E as <- <-; reflexivity].
  set (t := match ro_psf ob with Some p => p | None => i end). destruct (run_fitter (AObs t) ntry s) as [[m1 w1] [r|e]] eqn:ER; intros E; injection E as <- <-; exact (run_fitter_mem _ _ _ _ _ ER).
Qed.
Lemma fit_list_mem ntry i s s' o : psf_fit_list ntry false i s = (s', o) -> fst s' = fst s.
Proof.
  unfold Runners_Model.psf_fit_list. destruct (nth_error (m_lists (fst s)) i) as [l|]; [|intros E; injection E as <- <-; reflexivity].
  apply collect_mem. apply fit_obs_mem.
Qed.
Lemma no_set_result a ntry s s' o : run_psf_fitter a ntry false s = (s', o) -> fst s' = fst s.
Proof.
  destruct a as [i|i|i|]; cbn [Runners_Model.run_psf_fitter].
  - destruct (psf_fit_obs ntry false i s) as [s1 o1] eqn:E1. intros E. injection E as <- <-. eapply fit_obs_mem; exact E1.
  - destruct (psf_fit_list ntry false i s) as [s1 o1] eqn:E1. intros E. injection E as <- <-. eapply fit_list_mem; exact E1.
  - destruct (nth_error (m_mbs (fst s)) i) as [b|]; [|intros E; injection E as <- <-; reflexivity].
    destruct (collect (psf_fit_list ntry false) (cl_items b) s) as [s1 o1] eqn:E1. intros E. injection E as <- <-. eapply collect_mem; [apply fit_list_mem|exact E1].
  - intros E. injection E as <- <-. reflexivity.
Qed.

(** ** what is recorded *)
Lemma recorded_last ntry ts s s' rs : fit_all ntry ts s s' rs -> forall d, result_of (fst s') d = last_result (fst s) d (combine ts rs) (result_of (fst s) d).
Proof.
  induction 1 as [|t ts m w w1 r m2 s' rs O R F IH]; intros d; [reflexivity|]. rewrite IH. cbn [fst combine last_result]. destruct R as (S & RD & _ & _). rewrite RD.
  unfold last_result. cbn [combine fold_left fst snd].
  assert (EX : forall l init init', init = init' -> fold_left (fun acc (p : nat * rslt) => match meta_of m2 (fst p) with Some x => if Nat.eqb x d then Some (snd p) else acc | None => acc end) l init
     = fold_left (fun acc (p : nat * rslt) => match meta_of m (fst p) with Some x => if Nat.eqb x d then Some (snd p) else acc | None => acc end) l init').
  { induction l as [|[t' r'] l IHl]; intros init init' ->; [reflexivity|]. cbn [fold_left fst snd]. apply IHl. rewrite (meta_same _ _ S). reflexivity. }
  apply EX. destruct (meta_of m t) as [x|]; [destruct (Nat.eqb x d)|]; reflexivity.
Qed.
Lemma recorded_gmix_other ntry ts s s' rs : fit_all ntry ts s s' rs -> forall j, ~ In j ts -> gmix_of (fst s') j = gmix_of (fst s) j.
Proof.
  induction 1 as [|t ts m w w1 r m2 s' rs O R F IH]; intros j N; [reflexivity|]. rewrite IH by (intros K; apply N; right; exact K). destruct R as (_ & _ & H & _). cbn. apply H. intros ->. apply N. left. reflexivity.
Qed.
Lemma last_absent (m : mem) d l : (forall t, In t (map fst l) -> meta_of m t <> Some d) -> forall init, last_result m d l init = init.
Proof.
  unfold last_result. induction l as [|[t r] l IH]; intros H init; [reflexivity|]. cbn [fold_left fst snd]. rewrite IH by (intros t' Ht; apply H; right; exact Ht).
  pose proof (H t (or_introl eq_refl)) as Q. destruct (meta_of m t) as [x|]; [|reflexivity]. destruct (Nat.eqb_spec x d) as [->|]; [congruence|reflexivity].
Qed.
Lemma recorded_own ntry ts s s' rs : fit_all ntry ts s s' rs -> NoDup (map (meta_of (fst s)) ts) -> forall k t r d, nth_error ts k = Some t -> nth_error rs k = Some r -> meta_of (fst s) t = Some d ->
  result_of (fst s') d = Some r /\ new_gmix rslt r_flags r_get_gmix r (gmix_of (fst s) t) (gmix_of (fst s') t).
Proof.
  intros F. pose proof (recorded_last _ _ _ _ _ F) as RL. revert RL. 
  induction F as [|t0 ts m w w1 r0 m2 s' rs O R F IH]; intros RL ND k t r d Et Er M; [destruct k; discriminate|].
  cbn [fst] in *. cbn [map] in ND. apply NoDup_cons_iff in ND. destruct ND as [NI ND]. pose proof R as (S & RD & GO & GN).
  destruct k as [|k]; cbn [nth_error] in Et, Er.
  - injection Et as ->. injection Er as ->. split.
    + rewrite RL. unfold last_result. cbn [combine fold_left fst snd]. rewrite M, Nat.eqb_refl. apply (last_absent m d (combine ts rs)).
      intros t' Ht Mt. apply NI. rewrite M, <- Mt. apply in_map. apply in_map_iff in Ht. destruct Ht as ([a b] & <- & Hc). apply in_combine_l in Hc. exact Hc.
    + rewrite (recorded_gmix_other _ _ _ _ _ F); [exact GN|]. intros K. apply NI. apply in_map. exact K.
  - assert (ND2 : NoDup (map (meta_of m2) ts)) by (erewrite map_ext; [exact ND|apply meta_same; exact S]).
    assert (M2 : meta_of m2 t = Some d) by (rewrite (meta_same _ _ S); exact M).
    destruct (IH (recorded_last _ _ _ _ _ F) ND2 k t r d Et Er M2) as [A B]. split; [exact A|].
    rewrite GO in B; [exact B|]. intros ->. apply NI. apply in_map. eapply nth_error_In; exact Et.
Qed.
End Proofs.
