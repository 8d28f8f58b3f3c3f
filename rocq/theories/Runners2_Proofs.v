(** Choosing observations with good psf fits; bootstrap. *)
From Verif Require Import Base GMixObj_Model Jacobian_Model Runners_Model Runners_Spec Runners_Proofs.

Lemma Forall2_impl' {A B} (P Q : A -> B -> Prop) l l' : (forall x y, P x y -> Q x y) -> Forall2 P l l' -> Forall2 Q l l'.
Proof. intros H. induction 1; constructor; auto. Qed.
Section Remove.
Variable rslt : Type.
Variable r_flags : rslt -> option Z.
Notation mem := (rmem rslt).
Notation psf_flags := (psf_flags rslt r_flags).
Notation psf_flag := (psf_flag rslt r_flags).
Notation keep_good := (keep_good rslt r_flags).
Notation remove_list := (remove_list rslt r_flags).
Notation remove_lists := (remove_lists rslt r_flags).
Notation remove_failed_psf_obs := (remove_failed_psf_obs rslt r_flags).
Notation known := (known rslt r_flags).

Lemma psf_flag_ok (m : mem) i f : wf_mem m -> psf_flag m i f <-> psf_flags m i = Ok f.
Proof.
  intros WF. unfold Runners_Model.psf_flags. split.
  - intros (o & p & d & r & Eo & Ep & Ed & Er & Ef). rewrite Eo, Ep. unfold meta_of in Ed. destruct (nth_error (m_obs m) p) as [op|]; [|discriminate]. cbn in Ed. injection Ed as ->.
    unfold result_of in Er. destruct (nth_error (m_dict m) d) as [x|]; [|discriminate]. subst x. rewrite Ef. reflexivity.
  - destruct (nth_error (m_obs m) i) as [o|] eqn:Eo; [|discriminate]. destruct (ro_psf o) as [p|] eqn:Ep; [|discriminate].
    destruct (nth_error (m_obs m) p) as [op|] eqn:Eop; [|discriminate]. destruct (nth_error (m_dict m) (ro_meta op)) as [[r|]|] eqn:Ed; try discriminate.
    destruct (r_flags r) as [f'|] eqn:Ef; [|discriminate]. intros E. injection E as ->. exists o, p, (ro_meta op), r.
    split; [exact Eo|]. split; [exact Ep|]. split; [unfold meta_of; rewrite Eop; reflexivity|]. split; [unfold result_of; rewrite Ed; reflexivity|exact Ef].
Qed.
Lemma psf_flags_same (m m' : mem) i : m_obs m' = m_obs m -> m_dict m' = m_dict m -> psf_flags m' i = psf_flags m i.
Proof. intros A B. unfold Runners_Model.psf_flags. rewrite A, B. reflexivity. Qed.
Lemma psf_flag_same (m m' : mem) i f : m_obs m' = m_obs m -> m_dict m' = m_dict m -> psf_flag m' i f <-> psf_flag m i f.
Proof. intros A B. unfold Runners_Spec.psf_flag, meta_of, result_of. rewrite A, B. reflexivity. Qed.
Lemma push_new l c x : push (l ++ [c]) (length l) x = l ++ [mkCl (cl_items c ++ [x]) (cl_meta c)].
Proof.
  unfold push. rewrite nth_error_app2, Nat.sub_diag by lia. cbn [nth_error]. induction l as [|a l IH]; [reflexivity|]. cbn. f_equal. exact IH.
Qed.
Lemma keep_good_spec items : forall m ls out md, wf_mem m -> m_lists m = ls ++ [mkCl out md] -> Forall (known m) items ->
  exists res, keep_good items (length ls) m = (mkMem (m_obs m) (m_dict m) (ls ++ [mkCl (out ++ res) md]) (m_mbs m), Ok tt) /\ kept (fun x => psf_flag m x 0) items res.
Proof.
  assert (WFL : forall (m : mem) l, wf_mem m -> forall i o p, nth_error (m_obs (mkMem (m_obs m) (m_dict m) l (m_mbs m))) i = Some o -> ro_psf o = Some p -> (p < length (m_obs m))%nat)
    by (intros m l WF i o p E P; cbn in E; eapply (wf_psf _ m WF); eauto).
  intros m ls out md WF. revert out. assert (ST : exists l0, m = mkMem (m_obs m) (m_dict m) l0 (m_mbs m)) by (exists (m_lists m); destruct m; reflexivity).
  assert (PF : forall x f, psf_flag m x f <-> psf_flags m x = Ok f) by (intros; apply psf_flag_ok; exact WF).
  assert (H : forall m1 out, m_obs m1 = m_obs m -> m_dict m1 = m_dict m -> m_mbs m1 = m_mbs m -> m_lists m1 = ls ++ [mkCl out md] -> Forall (known m) items ->
    exists res, keep_good items (length ls) m1 = (mkMem (m_obs m) (m_dict m) (ls ++ [mkCl (out ++ res) md]) (m_mbs m), Ok tt) /\ kept (fun x => psf_flag m x 0) items res).
  { induction items as [|x items IH]; intros m1 out A B C D K.
    - exists []. cbn. rewrite app_nil_r. split; [|constructor]. destruct m1; cbn in *; subst; reflexivity.
    - apply Forall_cons_iff in K. destruct K as [[f Kx] K]. cbn [Runners_Model.keep_good]. rewrite (psf_flags_same m m1) by assumption.
      pose proof (proj1 (PF x f) Kx) as Kx'. rewrite Kx'. destruct (Z.eqb_spec f 0) as [->|N].
      + destruct (IH (append_list m1 (length ls) x) (out ++ [x]) A B C ltac:(cbn; rewrite D, push_new; reflexivity) K) as (res & E & KP).
        exists (x :: res). rewrite E, <- app_assoc. split; [reflexivity|]. constructor; [exact Kx|exact KP].
      + destruct (IH m1 out A B C D K) as (res & E & KP). exists res. rewrite E. split; [reflexivity|]. apply k_no; [|exact KP].
        intros Z0. apply PF in Z0. congruence. }
  intros out D K. apply H; auto.
Qed.
Lemma kept_nil P l : kept P l [] <-> forall x, In x l -> ~ P x.
Proof.
  split.
  - intros K. remember (@nil nat) as n eqn:En. induction K as [|x l l' p K IH|x l l' p K IH]; intros y [].
    + discriminate. + discriminate. + subst. exact p. + apply IH; assumption.
  - induction l as [|x l IH]; intros H; constructor; [apply H; left; reflexivity|]. apply IH. intros y Hy. apply H. right. exact Hy.
Qed.
Lemma kept_det P l : forall a b, kept P l a -> kept P l b -> a = b.
Proof.
  induction l as [|x l IH]; intros a b A B; inversion A; inversion B; subst; try contradiction; auto. f_equal. auto.
Qed.
Lemma add_wf (m : mem) c : wf_mem m -> (forall x, In x (cl_items c) -> (x < length (m_obs m))%nat) -> wf_mem (add_list m c).
Proof.
  intros WF H. split; cbn; intros i0 x y.
  - apply (wf_psf _ m WF).
  - exact (wf_meta _ m WF i0 x y).
  - destruct (Nat.lt_ge_cases i0 (length (m_lists m))) as [L|L]; [rewrite nth_error_app1 by exact L; apply (wf_items _ m WF)|].
    rewrite nth_error_app2 by exact L. destruct (i0 - length (m_lists m))%nat as [|q]; cbn; [intros Q; injection Q as <-; apply H|destruct q; discriminate].
  - intros Q1 Q2. rewrite app_length. cbn. pose proof (wf_mbs _ m WF _ _ _ Q1 Q2). lia.
Qed.
Lemma remove_list_spec m i l : wf_mem m -> nth_error (m_lists m) i = Some l -> Forall (known m) (cl_items l) ->
  exists out, kept (fun x => psf_flag m x 0) (cl_items l) out /\
    remove_list i m = (add_list m (mkCl out (cl_meta l)), if Nat.eqb (length out) 0 then Raise BootPSFFailure else Ok (length (m_lists m))).
Proof.
  intros WF E K. unfold Runners_Model.remove_list. rewrite E. set (m1 := add_list m (mkCl [] (cl_meta l))).
  assert (WF1 : wf_mem m1) by (apply add_wf; [exact WF|intros x []]).
  assert (K1 : Forall (known m1) (cl_items l)).
  { rewrite Forall_forall in *. intros x Hx. destruct (K x Hx) as (f & F). exists f. apply (psf_flag_same m m1); auto. }
  destruct (keep_good_spec (cl_items l) m1 (m_lists m) [] (cl_meta l) WF1 eq_refl K1) as (out & EK & KP). rewrite EK. cbn [m_lists].
  rewrite nth_error_app2, Nat.sub_diag by lia. cbn [nth_error cl_items app]. exists out. split; [|reflexivity].
  clear - KP. induction KP; constructor; auto.
Qed.
Lemma good_part_intro m m' i l out : nth_error (m_lists m) i = Some l -> (exists L, m_lists m' = m_lists (add_list m (mkCl out (cl_meta l))) ++ L) -> kept (fun x => psf_flag m x 0) (cl_items l) out -> out <> [] ->
  good_part rslt r_flags m m' i (length (m_lists m)).
Proof.
  intros E (L & EL) K N. exists l, out. split; [exact E|]. split; [lia|]. split; [|auto]. rewrite EL. cbn. rewrite <- app_assoc, nth_error_app2, Nat.sub_diag by lia. reflexivity.
Qed.
Lemma kept_in P l out : kept P l out -> forall x, In x out -> In x l /\ P x.
Proof.
  induction 1 as [|x l l' p K IH|x l l' p K IH]; intros y H; [destruct H| |].
  - destruct H as [<-|H]; [split; [left; reflexivity|exact p]|]. destruct (IH y H). split; [right|]; assumption.
  - destruct (IH y H). split; [right|]; assumption.
Qed.
Lemma remove_lists_spec bands : forall m bs out md, wf_mem m -> m_mbs m = bs ++ [mkCl out md] ->
  Forall (fun i => exists l, nth_error (m_lists m) i = Some l /\ Forall (known m) (cl_items l)) bands ->
  exists m', m_obs m' = m_obs m /\ m_dict m' = m_dict m /\ (exists L, m_lists m' = m_lists m ++ L) /\
   ((exists ks, remove_lists bands (length bs) m = (m', Ok tt) /\ m_mbs m' = bs ++ [mkCl (out ++ ks) md] /\ Forall2 (good_part rslt r_flags m m') bands ks) \/
    (exists b B, remove_lists bands (length bs) m = (m', Raise BootPSFFailure) /\ m_mbs m' = bs ++ [B] /\ In b bands /\ all_failed rslt r_flags m b)).
Proof.
  induction bands as [|i bands IH]; intros m bs out md WF EB K.
  - exists m. split; [reflexivity|]. split; [reflexivity|]. split; [exists []; rewrite app_nil_r; reflexivity|]. left. exists []. rewrite app_nil_r. split; [reflexivity|]. split; [exact EB|constructor].
  - apply Forall_cons_iff in K. destruct K as [(l & El & Kl) K]. destruct (remove_list_spec m i l WF El Kl) as (res & KP & ER). cbn [Runners_Model.remove_lists]. rewrite ER.
    destruct (Nat.eqb_spec (length res) 0) as [Z|NZ].
    + apply length_zero_iff_nil in Z. subst res. exists (add_list m (mkCl [] (cl_meta l))). split; [reflexivity|]. split; [reflexivity|]. split; [eexists; reflexivity|].
      right. exists i, (mkCl out md). split; [reflexivity|]. split; [exact EB|]. split; [left; reflexivity|]. intros x Hx. unfold items_of in Hx. rewrite El in Hx. exact (proj1 (kept_nil _ _) KP x Hx).
    + set (m1 := add_list m (mkCl res (cl_meta l))). set (m2 := append_mb m1 (length bs) (length (m_lists m))).
      assert (W1 : wf_mem m1). { apply add_wf; [exact WF|]. cbn [cl_items]. intros x Hx. destruct (kept_in _ _ _ KP x Hx) as [Hl _]. eapply (wf_items _ m WF); eauto. }
      assert (EB2 : m_mbs m2 = bs ++ [mkCl (out ++ [length (m_lists m)]) md]) by (cbn; rewrite EB, push_new; reflexivity).
      assert (W2 : wf_mem m2).
      { split; [exact (wf_psf _ m1 W1)|exact (wf_meta _ m1 W1)|exact (wf_items _ m1 W1)|]. intros j b x Eb Hx. change (m_lists m2) with (m_lists m1). rewrite EB2 in Eb.
        destruct (Nat.lt_ge_cases j (length bs)) as [L|L].
        - eapply (wf_mbs _ m1 W1); [|exact Hx]. cbn. rewrite EB. rewrite nth_error_app1 in Eb |- * by exact L. exact Eb.
        - rewrite nth_error_app2 in Eb by exact L. destruct (j - length bs)%nat as [|q]; cbn in Eb; [|destruct q; discriminate]. injection Eb as <-. cbn in Hx. apply in_app_iff in Hx.
          destruct Hx as [Hx|[<-|[]]]; [|cbn; rewrite app_length; cbn; lia].
          apply (wf_mbs _ m1 W1 (length bs) (mkCl out md) x); [|exact Hx]. cbn. rewrite EB, nth_error_app2, Nat.sub_diag by lia. reflexivity. }
      assert (K2 : Forall (fun i => exists l, nth_error (m_lists m2) i = Some l /\ Forall (known m2) (cl_items l)) bands).
      { eapply Forall_impl; [|exact K]. cbn beta. intros b (lb & Eb & Kb). exists lb. split.
        - cbn. rewrite nth_error_app1 by (eapply nth_lt; exact Eb). exact Eb.
        - eapply Forall_impl; [|exact Kb]. intros x (f & F). exists f. apply (psf_flag_same m m2); auto. }
      destruct (IH m2 bs (out ++ [length (m_lists m)]) md W2 EB2 K2) as (m' & A & B & (L & EL) & D).
      exists m'. split; [exact A|]. split; [exact B|]. split; [exists ([mkCl res (cl_meta l)] ++ L); rewrite EL; cbn; rewrite <- app_assoc; reflexivity|].
      destruct D as [(ks & E & EM & F2)|(b & Bx & E & EM & IB & AF)].
      * left. exists (length (m_lists m) :: ks). split; [exact E|]. split; [rewrite EM, <- app_assoc; reflexivity|]. constructor.
        -- eapply good_part_intro; [exact El|exists L; rewrite EL; reflexivity|exact KP|]. intros ->. apply NZ. reflexivity.
        -- clear - F2 K. induction F2 as [|b k bands ks (lb & o & Eb & Lk & Ek & KPb & Nb) F2 IH]; constructor; apply Forall_cons_iff in K; destruct K as [(lb' & Eb' & _) K]; [|auto].
           exists lb, o. assert (Q : nth_error (m_lists m) b = Some lb) by (cbn in Eb; rewrite nth_error_app1 in Eb by (eapply nth_lt; exact Eb'); exact Eb).
           split; [exact Q|]. split; [cbn in Lk; rewrite app_length in Lk; lia|]. split; [exact Ek|]. split; [|exact Nb]. clear - KPb. induction KPb; constructor; auto.
      * right. exists b, Bx. split; [exact E|]. split; [exact EM|]. split; [right; exact IB|]. intros x Hx F. apply (AF x).
        -- assert (Lb : exists lb, nth_error (m_lists m) b = Some lb) by (rewrite Forall_forall in K; destruct (K b IB) as (lb & Q & _); eauto). destruct Lb as (lb & Eb). unfold items_of in *. rewrite Eb in Hx.
           cbn. rewrite nth_error_app1 by (eapply nth_lt; exact Eb). rewrite Eb. exact Hx.
        -- apply (psf_flag_same m m2); auto.
Qed.

Lemma remove_obs m i : wf_mem m -> known m i ->
  (psf_flag m i 0 /\ remove_failed_psf_obs (AObs i) m = (m, Ok (AObs i))) \/ (~ psf_flag m i 0 /\ remove_failed_psf_obs (AObs i) m = (m, Raise BootPSFFailure)).
Proof.
  intros WF (f & F). pose proof (proj1 (psf_flag_ok m i f WF) F) as E. cbn [Runners_Model.remove_failed_psf_obs]. rewrite E. cbn [bind]. destruct (Z.eqb_spec f 0) as [->|N]; [left; auto|right].
  split; [|reflexivity]. intros Q. apply (psf_flag_ok m i 0 WF) in Q. congruence.
Qed.
Lemma remove_alist m i : wf_mem m -> wf_arg m (AList i) -> known_list rslt r_flags m i ->
  exists m' o, remove_failed_psf_obs (AList i) m = (m', o) /\ extends m m' /\
    ((exists k, o = Ok (AList k) /\ good_part rslt r_flags m m' i k) \/ (o = Raise BootPSFFailure /\ all_failed rslt r_flags m i)).
Proof.
  intros WF WA K. cbn [wf_arg] in WA. destruct (nth_some _ _ WA) as (l & El). unfold known_list, items_of in K. rewrite El in K.
  destruct (remove_list_spec m i l WF El K) as (out & KP & E). cbn [Runners_Model.remove_failed_psf_obs]. rewrite E. exists (add_list m (mkCl out (cl_meta l))).
  eexists. split; [reflexivity|]. split; [unfold extends; cbn; repeat split; [eexists; reflexivity|exists []; rewrite app_nil_r; reflexivity]|].
  destruct (Nat.eqb_spec (length out) 0) as [Z|NZ]; cbn [rmap].
  - right. split; [reflexivity|]. apply length_zero_iff_nil in Z. subst out. intros x Hx. unfold items_of in Hx. rewrite El in Hx. exact (proj1 (kept_nil _ _) KP x Hx).
  - left. eexists. split; [reflexivity|]. eapply good_part_intro; [exact El|exists []; rewrite app_nil_r; reflexivity|exact KP|]. intros ->. apply NZ. reflexivity.
Qed.
Lemma remove_amb m i b : wf_mem m -> nth_error (m_mbs m) i = Some b -> Forall (known_list rslt r_flags m) (cl_items b) ->
  exists m' o, remove_failed_psf_obs (AMb i) m = (m', o) /\ extends m m' /\
    ((exists k ks, o = Ok (AMb k) /\ (length (m_mbs m) <= k)%nat /\ nth_error (m_mbs m') k = Some (mkCl ks (cl_meta b)) /\ Forall2 (good_part rslt r_flags m m') (cl_items b) ks) \/
     (o = Raise BootPSFFailure /\ exists x, In x (cl_items b) /\ all_failed rslt r_flags m x)).
Proof.
  intros WF Eb K. cbn [Runners_Model.remove_failed_psf_obs]. rewrite Eb. set (m1 := add_mb m (mkCl [] (cl_meta b))).
  assert (W1 : wf_mem m1).
  { split; [exact (wf_psf _ m WF)|exact (wf_meta _ m WF)|exact (wf_items _ m WF)|]. cbn. intros j c x Ec Hx.
    destruct (Nat.lt_ge_cases j (length (m_mbs m))) as [L|L]; [rewrite nth_error_app1 in Ec by exact L; eapply (wf_mbs _ m WF); eauto|].
    rewrite nth_error_app2 in Ec by exact L. destruct (j - length (m_mbs m))%nat as [|q]; cbn in Ec; [injection Ec as <-; destruct Hx|destruct q; discriminate]. }
  assert (K1 : Forall (fun i => exists l, nth_error (m_lists m1) i = Some l /\ Forall (known m1) (cl_items l)) (cl_items b)).
  { rewrite Forall_forall in *. intros x Hx. pose proof (K x Hx) as Q. destruct (nth_some _ _ (wf_mbs _ m WF _ _ _ Eb Hx)) as (l & El). exists l. split; [exact El|].
    unfold known_list, items_of in Q. rewrite El in Q. eapply Forall_impl; [|exact Q]. intros y (f & F). exists f. apply (psf_flag_same m m1); auto. }
  destruct (remove_lists_spec (cl_items b) m1 (m_mbs m) [] (cl_meta b) W1 eq_refl K1) as (m' & A & B & C & D).
  exists m'. destruct D as [(ks & E & EM & F2)|(x & Bx & E & EM & IX & AF)]; rewrite E; eexists; (split; [reflexivity|]); (split; [split; [exact A|split; [exact B|split; [exact C|eexists; exact EM]]]|]).
  - left. exists (length (m_mbs m)), ks. split; [reflexivity|]. split; [lia|]. split; [rewrite EM, nth_error_app2, Nat.sub_diag by lia; reflexivity|].
    eapply Forall2_impl'; [|exact F2]. intros u v (l & out & U1 & U2 & U3 & U4 & U5). exists l, out. split; [exact U1|]. split; [exact U2|]. split; [exact U3|]. split; [|exact U5].
    clear - U4. induction U4; constructor; auto.
  - right. split; [reflexivity|]. exists x. split; [exact IX|]. intros y Hy F. apply (AF y Hy). apply (psf_flag_same m m1); auto.
Qed.
(** good observations and failures exclude each other *)
Lemma good_not_failed m m' i k : good_part rslt r_flags m m' i k -> ~ all_failed rslt r_flags m i.
Proof.
  intros (l & out & El & _ & _ & K & N) AF. destruct out as [|x out]; [congruence|]. destruct (kept_in _ _ _ K x (or_introl eq_refl)) as [I F]. apply (AF x); [|exact F].
  unfold items_of. rewrite El. exact I.
Qed.
Lemma no_psf m i o : nth_error (m_obs m) i = Some o -> ro_psf o = None -> remove_failed_psf_obs (AObs i) m = (m, Raise AttributeError).
Proof. intros E P. cbn. unfold Runners_Model.psf_flags. rewrite E, P. reflexivity. Qed.
End Remove.

Section Boot.
Variables (W G rslt : Type).
Variable r_flags : rslt -> option Z.
Variable r_get_gmix : rslt -> option (res gmobj).
Notation mem := (rmem rslt).
Notation bootstrap := (bootstrap W G rslt r_flags r_get_gmix).
(** the flag found by the selection is that of the observation's own fit *)
Lemma own_flag fg gs ntry ts s s' rs : fit_all W G rslt r_flags r_get_gmix fg gs ntry ts s s' rs -> NoDup (map (meta_of (fst s)) ts) ->
  forall i o p k r, nth_error (m_obs (fst s)) i = Some o -> ro_psf o = Some p -> nth_error ts k = Some p -> nth_error rs k = Some r -> wf_mem (fst s) ->
  forall f, psf_flag rslt r_flags (fst s') i f <-> r_flags r = Some f.
Proof.
  intros F ND i o p k r Eo Ep Ek Er WF f. destruct (fit_all_same _ _ _ _ _ _ _ _ _ _ _ _ F) as [S _].
  destruct (nth_some _ _ (wf_psf _ _ WF _ _ _ Eo Ep)) as (op & Eop). assert (Mp : meta_of (fst s) p = Some (ro_meta op)) by (unfold meta_of; rewrite Eop; reflexivity).
  destruct (recorded_own _ _ _ _ _ _ _ _ _ _ _ _ F ND k p r _ Ek Er Mp) as [RR _].
  pose proof (psf_same _ _ _ S i) as PS. rewrite Eo in PS. cbn in PS. destruct (nth_error (m_obs (fst s')) i) as [o'|] eqn:Eo'; [|discriminate]. cbn in PS. injection PS as PS.
  pose proof (meta_same _ _ _ S p) as MS. rewrite Mp in MS. unfold Runners_Spec.psf_flag. split.
  - intros (o1 & p1 & d1 & r1 & A1 & A2 & A3 & A4 & A5). rewrite Eo' in A1. injection A1 as <-. assert (p1 = p) by congruence. subst p1. assert (d1 = ro_meta op) by congruence. subst d1. congruence.
  - intros E. exists o', p, (ro_meta op), r. split; [exact Eo'|]. split; [congruence|]. auto.
Qed.
Lemma fit_all_flags fg gs ntry ts s s' rs : fit_all W G rslt r_flags r_get_gmix fg gs ntry ts s s' rs -> Forall (fun r => exists f, r_flags r = Some f) rs.
Proof. induction 1 as [|t ts m w w1 r m2 s' rs O R F IH]; constructor; [|exact IH]. eapply outcome_flags; exact O. Qed.
Notation succeeded := (succeeded rslt r_flags).
Lemma kept_filter P : forall items rs out, length rs = length items -> (forall k x r, nth_error items k = Some x -> nth_error rs k = Some r -> (P x <-> r_flags r = Some 0%Z)) ->
  kept P items out -> out = map fst (filter succeeded (combine items rs)).
Proof.
  induction items as [|x items IH]; intros rs out L H K; [inversion K; reflexivity|]. destruct rs as [|r rs]; [discriminate|]. cbn in L.
  assert (Hx : P x <-> r_flags r = Some 0%Z) by (apply (H 0%nat); reflexivity). assert (H' : forall k y q, nth_error items k = Some y -> nth_error rs k = Some q -> (P y <-> r_flags q = Some 0%Z)) by (intros k y q A B; apply (H (S k)); assumption).
  cbn [combine filter]. unfold Runners_Spec.succeeded at 1. cbn [snd].
  inversion K as [|y l l' p K1|y l l' p K1]; subst.
  - apply Hx in p. rewrite p. cbn. f_equal. apply IH; auto.
  - destruct (r_flags r) as [[| |]|]; try (apply IH; auto; fail). exfalso. apply p, Hx. reflexivity.
Qed.
Lemma boot_list run pr i l m w s' o : wf_mem m -> nth_error (m_lists m) i = Some l ->
  (forall x, In x (cl_items l) -> exists ox p, nth_error (m_obs m) x = Some ox /\ ro_psf ox = Some p) -> NoDup (map (meta_of m) (targets m (AList i))) ->
  bootstrap (AList i) run (Some (pr, true)) true (m, w) = (s', o) ->
  (exists e, o = Raise e /\ breaks_off W G rslt r_flags r_get_gmix (ru_fitter _ _ _ pr) (ru_guesser _ _ _ pr) (ru_ntry _ _ _ pr) (targets m (AList i)) (m, w) s' e) \/
  (exists m1 w1 rs, fit_all W G rslt r_flags r_get_gmix (ru_fitter _ _ _ pr) (ru_guesser _ _ _ pr) (ru_ntry _ _ _ pr) (targets m (AList i)) (m, w) (m1, w1) rs /\
    exists m2, extends m1 m2 /\ let out := map fst (filter succeeded (combine (cl_items l) rs)) in
      ((out = [] /\ o = Raise BootPSFFailure /\ s' = (m2, w1)) \/
       (out <> [] /\ exists k, (length (m_lists m) <= k)%nat /\ nth_error (m_lists m2) k = Some (mkCl out (cl_meta l)) /\
          match o with
          | Ok r => outcome_ok W G rslt r_flags (ru_fitter _ _ _ run) (ru_guesser _ _ _ run) (AList k) (ru_ntry _ _ _ run) (m2, w1) s' r
          | Raise e => outcome_bad W G rslt r_flags (ru_fitter _ _ _ run) (ru_guesser _ _ _ run) (AList k) (ru_ntry _ _ _ run) (m2, w1) s' e
          end))).
Proof.
  intros WF El HP ND E. unfold Runners_Model.bootstrap in E. assert (WA : wf_arg m (AList i)) by (cbn; eapply nth_lt; exact El).
  destruct (run_psf_fitter W G rslt r_flags r_get_gmix (ru_fitter _ _ _ pr) (ru_guesser _ _ _ pr) (AList i) (ru_ntry _ _ _ pr) true (m, w)) as [[m1 w1] [p|e]] eqn:EP.
  2: { injection E as <- <-. left. exists e. split; [reflexivity|]. pose proof (psf_spec _ _ _ _ _ _ _ _ _ _ _ _ _ WF WA EP) as [(Q & _)|Q]; [discriminate|exact Q]. }
  right. destruct (psf_spec _ _ _ _ _ _ _ _ _ _ _ _ _ WF WA EP) as [FA SH]. exists m1, w1, (flat p). split; [exact FA|].
  destruct (fit_all_same _ _ _ _ _ _ _ _ _ _ _ _ FA) as [S LR]. cbn [fst] in S. pose proof (wf_same _ _ _ S WF) as WF1. pose proof S as (SL & _).
  assert (IT : items_of (m_lists m) i = cl_items l) by (unfold items_of; rewrite El; reflexivity).
  assert (IT1 : items_of (m_lists m1) i = cl_items l) by (rewrite SL; exact IT). assert (El1 : nth_error (m_lists m1) i = Some l) by (rewrite SL; exact El).
  cbn [targets] in *. rewrite IT in *. rewrite map_length in LR.
  assert (OF : forall k x r, nth_error (cl_items l) k = Some x -> nth_error (flat p) k = Some r -> forall f, psf_flag rslt r_flags m1 x f <-> r_flags r = Some f).
  { intros k x r Ex Er f. destruct (HP x (nth_error_In _ _ Ex)) as (ox & px & Eox & Epx). apply (own_flag _ _ _ _ _ _ _ FA ND x ox px k r Eox Epx); [|exact Er|exact WF].
    rewrite nth_error_map, Ex. cbn. f_equal. unfold target. rewrite Eox, Epx. reflexivity. }
  assert (KN : known_list rslt r_flags m1 i).
  { unfold known_list. rewrite IT1. apply Forall_forall. intros x Hx. apply In_nth_error in Hx. destruct Hx as (k & Ex).
    destruct (nth_some (flat p) k) as (r & Er); [rewrite LR; eapply nth_lt; exact Ex|]. pose proof (fit_all_flags _ _ _ _ _ _ _ FA) as FF. rewrite Forall_forall in FF.
    destruct (FF r (nth_error_In _ _ Er)) as (f & Ef). exists f. apply (OF k x r Ex Er). exact Ef. }
  destruct (remove_alist rslt r_flags m1 i WF1 ltac:(cbn; eapply nth_lt; exact El1) KN) as (m2 & o2 & ER & EX & D). rewrite ER in E. exists m2. split; [exact EX|]. cbv zeta.
  destruct D as [(k & -> & l' & out & El' & Lk & Ek & KP & NE)|[-> AF]].
  - right. rewrite El1 in El'. injection El' as <-. rewrite <- (kept_filter _ (cl_items l) (flat p) out LR (fun k x r A B => OF k x r A B 0%Z) KP). split; [exact NE|]. exists k. split; [rewrite <- SL; exact Lk|]. split; [exact Ek|].
    destruct o as [r|e]; [apply run_fitter_ok in E|apply run_fitter_raise in E]; exact E.
  - left. injection E as <- <-. split; [|auto]. unfold all_failed in AF. rewrite IT1 in AF. apply kept_nil in AF. symmetry. apply (kept_filter _ _ (flat p) [] LR (fun k x r A B => OF k x r A B 0%Z) AF).
Qed.
Lemma only_success fitter_go guesser ntry ts s s' rs :
  fit_all W G rslt r_flags r_get_gmix fitter_go guesser ntry ts s s' rs -> NoDup (map (meta_of (fst s)) ts) ->
  forall k t r d, nth_error ts k = Some t -> nth_error rs k = Some r -> meta_of (fst s) t = Some d ->
  gmix_of (fst s) t = None -> gmix_of (fst s') t <> None -> r_flags r = Some 0%Z.
Proof.
  intros F ND k t r d A B M N NN. destruct (recorded_own _ _ _ _ _ _ _ _ _ _ _ _ F ND k t r d A B M) as [_ Q]. unfold new_gmix in Q.
  destruct (r_flags r) as [[|p|p]|]; [reflexivity| | |]; congruence.
Qed.
Lemma boot_no_psf_runner a run ign s : bootstrap a run None ign s = run_fitter W G rslt r_flags (ru_fitter _ _ _ run) (ru_guesser _ _ _ run) a (ru_ntry _ _ _ run) s.
Proof. reflexivity. Qed.
End Boot.
