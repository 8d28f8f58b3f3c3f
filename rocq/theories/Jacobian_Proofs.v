From Verif Require Import Base Jacobian_Model Jacobian_Spec.

Lemma get_vu_maps j r c v u : get_vu j r c = (v,u) <-> maps_to j r c v u.
Proof.
  unfold get_vu, maps_to. split.
  - intros H; injection H as <- <-; auto.
  - intros [-> ->]; reflexivity.
Qed.

Lemma get_rowcol_maps j v u r c :
  consistent j -> true_det j <> 0 ->
  (get_rowcol j v u = Ok (r,c) <-> maps_to j r c v u).
Proof.
  intros [Hd _] Hn. unfold get_rowcol, maps_to. rewrite Hd.
  rewrite Reqb_f by exact Hn. unfold true_det in *. split.
  - intros H; injection H as <- <-. split; field; exact Hn.
  - intros [-> ->]. peq; field; exact Hn.
Qed.

Lemma rowcol_of_vu j r c v u :
  consistent j -> true_det j <> 0 -> get_vu j r c = (v,u) -> get_rowcol j v u = Ok (r,c).
Proof. intros Hc Hn H. apply get_rowcol_maps; auto. apply get_vu_maps; exact H. Qed.

Lemma vu_of_rowcol j r c v u :
  consistent j -> true_det j <> 0 -> get_rowcol j v u = Ok (r,c) -> get_vu j r c = (v,u).
Proof. intros Hc Hn H. apply get_vu_maps. apply get_rowcol_maps; auto. Qed.

Lemma rowcol_total j v u :
  consistent j -> true_det j <> 0 -> exists r c, get_rowcol j v u = Ok (r,c).
Proof.
  intros [Hd _] Hn. unfold get_rowcol. rewrite Hd, Reqb_f by exact Hn. eauto.
Qed.

Lemma rowcol_raises j v u :
  consistent j -> (get_rowcol j v u = Raise ZeroDivisionError <-> true_det j = 0).
Proof.
  intros [Hd _]. unfold get_rowcol. rewrite Hd. rcase; split; intros; auto; discriminate || contradiction.
Qed.

Lemma cen_maps j : get_vu j (fst (get_cen j)) (snd (get_cen j)) = (0,0).
Proof. unfold get_vu, get_cen; cbn. f_equal; ring. Qed.

Lemma finish_consistent a b c d e f : consistent (finish_init a b c d e f).
Proof. unfold consistent, finish_init, true_det; cbn. auto. Qed.

Lemma init_consistent kw j : Jacobian_init kw = Ok j -> consistent j.
Proof.
  unfold Jacobian_init, init_xy, init_rowcol.
  destruct kw as [kx ky kr kc a1 a2 a3 a4 b1 b2 b3 b4 w]; cbn [k_x k_y k_row k_col k_dudx k_dudy k_dvdx k_dvdy k_dvdrow k_dvdcol k_dudrow k_dudcol k_wcs].
  destruct kx as [x|].
  - destruct w as [w|]; cbn [bind].
    + destruct ky; cbn; [|discriminate]. intros H; injection H as <-. apply finish_consistent.
    + destruct ky, a1, a2, a3, a4; cbn; try discriminate. intros H; injection H as <-. apply finish_consistent.
  - destruct kr as [r|]; [|discriminate]. destruct w as [w|]; cbn [bind].
    + destruct kc; cbn; [|discriminate]. intros H; injection H as <-. apply finish_consistent.
    + destruct kc, b1, b2, b3, b4; cbn; try discriminate. intros H; injection H as <-. apply finish_consistent.
Qed.

Lemma consistent_scale j : consistent j ->
  get_det j = true_det j /\ get_scale j = sqrt (Rabs (true_det j)) /\
  get_area j = Rabs (true_det j) /\ jacobian_get_area j = get_area j /\ get_area j = get_scale j ^ 2.
Proof.
  intros [Hd Hs]. unfold get_det, get_scale, get_area, jacobian_get_area. rewrite Hs, Hd.
  repeat split. replace (sqrt (Rabs (true_det j)) ^ 2) with (sqrt (Rabs (true_det j)) * sqrt (Rabs (true_det j))) by ring.
  apply sqrt_sqrt, Rabs_pos.
Qed.

Lemma init_same r c dvdr dvdc dudr dudc :
  let j := finish_init r c dvdr dvdc dudr dudc in
  Jacobian_init (kw_rowcol r c dvdr dvdc dudr dudc) = Ok j /\
  Jacobian_init (kw_xy c r dudc dudr dvdc dvdr) = Ok j /\
  Jacobian_init (kw_rowcol_wcs r c (mkWcs dudc dudr dvdc dvdr)) = Ok j /\
  Jacobian_init (kw_xy_wcs c r (mkWcs dudc dudr dvdc dvdr)) = Ok j /\
  get_cen j = (r,c) /\ dvdrow j = dvdr /\ dvdcol j = dvdc /\ dudrow j = dudr /\ dudcol j = dudc.
Proof. cbn. repeat split. Qed.

Lemma init_errors kw :
  (k_x kw = None -> k_row kw = None -> Jacobian_init kw = Raise ValueError) /\
  (k_x kw <> None -> k_wcs kw = None ->
     (k_y kw = None \/ k_dudx kw = None \/ k_dudy kw = None \/ k_dvdx kw = None \/ k_dvdy kw = None) ->
     Jacobian_init kw = Raise ValueError) /\
  (k_x kw = None -> k_row kw <> None -> k_wcs kw = None ->
     (k_col kw = None \/ k_dvdrow kw = None \/ k_dvdcol kw = None \/ k_dudrow kw = None \/ k_dudcol kw = None) ->
     Jacobian_init kw = Raise ValueError).
Proof.
  unfold Jacobian_init, init_xy, init_rowcol.
  destruct kw as [kx ky kr kc a1 a2 a3 a4 b1 b2 b3 b4 w]; cbn [k_x k_y k_row k_col k_dudx k_dudy k_dvdx k_dvdy k_dvdrow k_dvdcol k_dudrow k_dudcol k_wcs].
  repeat split.
  - intros -> ->. reflexivity.
  - intros Hx -> H. destruct kx; [|congruence].
    destruct ky, a1, a2, a3, a4; cbn; try reflexivity; exfalso; intuition discriminate.
  - intros -> Hr -> H. destruct kr; [|congruence].
    destruct kc, b1, b2, b3, b4; cbn; try reflexivity; exfalso; intuition discriminate.
Qed.

Lemma diagonal_spec scale r c :
  exists j, DiagonalJacobian_init scale (mkKw None None (Some r) (Some c) None None None None None None None None None) = Ok j /\
    DiagonalJacobian_init scale (mkKw (Some c) (Some r) None None None None None None None None None None None) = Ok j /\
    (forall row col, get_vu j row col = (scale * (row - r), scale * (col - c))) /\
    get_scale j = Rabs scale /\ get_cen j = (r,c).
Proof.
  eexists; split; [reflexivity|]. split; [reflexivity|]. cbn. repeat split.
  - intros. unfold get_vu; cbn. f_equal; ring.
  - unfold get_scale; cbn. replace (scale * scale - 0*0) with (scale*scale) by ring.
    rewrite Rabs_mult. apply sqrt_square, Rabs_pos.
Qed.

Lemma unit_spec kw : UnitJacobian_init kw = DiagonalJacobian_init 1 kw.
Proof. reflexivity. Qed.

Lemma copy_eq j : consistent j -> Jacobian_copy j = Ok j.
Proof.
  intros [Hd Hs]. unfold Jacobian_copy; cbn. unfold finish_init.
  destruct j; cbn in *. unfold true_det in *; cbn in *. subst. reflexivity.
Qed.

Lemma eq_iff a b : Jacobian_eq a b = true <-> a = b.
Proof.
  unfold Jacobian_eq. rewrite !andb_true_iff, !Reqb_true. destruct a, b; cbn. split.
  - intros (((((((-> & ->) & ->) & ->) & ->) & ->) & ->) & ->). reflexivity.
  - intros H; injection H; intros; subst; repeat split; reflexivity.
Qed.

Lemma set_cen_ok j r c kw :
  (k_row kw = Some r /\ k_col kw = Some c) \/ (k_row kw = None /\ k_x kw = Some c /\ k_y kw = Some r) ->
  exists j', set_cen j kw = (j', Ok tt) /\ get_cen j' = (r,c) /\ same_matrix j j' /\
             jdet j' = jdet j /\ jscale j' = jscale j.
Proof.
  unfold set_cen. intros [[-> ->]|(-> & -> & ->)]; eexists; repeat split; reflexivity.
Qed.

Lemma set_cen_keeps j kw : same_matrix j (fst (set_cen j kw)) /\
  jdet (fst (set_cen j kw)) = jdet j /\ jscale (fst (set_cen j kw)) = jscale j.
Proof.
  unfold set_cen, same_matrix. destruct (k_row kw); [destruct (k_col kw)|destruct (k_x kw); [destruct (k_y kw)|]];
  cbn; repeat split; reflexivity.
Qed.

Lemma set_cen_consistent j kw : consistent j -> consistent (fst (set_cen j kw)).
Proof.
  intros [Hd Hs]. destruct (set_cen_keeps j kw) as ((E1 & E2 & E3 & E4) & E5 & E6).
  unfold consistent, true_det in *. rewrite <- E1, <- E2, <- E3, <- E4, E5, E6. auto.
Qed.

Lemma set_cen_refuted :
  exists j kw j', set_cen j kw = (j', Raise KeyError) /\ j' <> j.
Proof.
  exists (finish_init 0 0 1 0 0 1), (mkKw None None (Some 5) None None None None None None None None None None).
  eexists. split; [reflexivity|]. unfold finish_init, set_row0; cbn. intros H; injection H; lra.
Qed.

Lemma galsim_roundtrip j :
  consistent j ->
  Jacobian_init (kw_rowcol_wcs (row0 j) (col0 j) (get_galsim_wcs j)) = Ok j.
Proof. intros H. apply (copy_eq j H). Qed.

(** heap *)
Lemma nth_upd_same {A} (l : list A) i x y : nth_error l i = Some y -> nth_error (upd l i x) i = Some x.
Proof. revert i; induction l as [|h t IH]; intros [|i]; cbn; try discriminate; auto. Qed.
Lemma nth_upd_other {A} (l : list A) i k x : i <> k -> nth_error (upd l i x) k = nth_error l k.
Proof. revert i k; induction l as [|h t IH]; intros [|i] [|k] H; cbn; auto; congruence. Qed.

Lemma jstep_other h o i j :
  nth_error h i = Some j -> ~ targets o i -> nth_error (jstep h o) i = Some j.
Proof.
  intros H Ht. destruct o as [k|k kw]; cbn [jstep targets] in *.
  - destruct (nth_error h k) as [jk|]; [|exact H].
    destruct (Jacobian_copy jk); [|exact H].
    rewrite nth_error_app1; [exact H|]. apply nth_error_Some. congruence.
  - destruct (nth_error h k) as [jk|]; [|exact H]. rewrite nth_upd_other; [exact H|congruence].
Qed.

Lemma jsteps_other ops h i j :
  nth_error h i = Some j -> (forall o, In o ops -> ~ targets o i) ->
  nth_error (fold_left jstep ops h) i = Some j.
Proof.
  revert h; induction ops as [|o ops IH]; intros h H Ht; [exact H|].
  cbn [fold_left]. apply IH; [|intros o' Ho'; apply Ht; right; exact Ho'].
  apply jstep_other; [exact H|]. apply Ht; left; reflexivity.
Qed.

Lemma copy_independent h i j ops :
  nth_error h i = Some j -> consistent j ->
  let h' := jstep h (JCopy i) in
  let k := length h in
  nth_error h' k = Some j /\ k <> i /\
  ((forall o, In o ops -> ~ targets o k) -> nth_error (fold_left jstep ops h') k = Some j) /\
  ((forall o, In o ops -> ~ targets o i) -> nth_error (fold_left jstep ops h') i = Some j).
Proof.
  intros H Hc. cbv zeta. cbn [jstep]. rewrite H, (copy_eq j Hc).
  assert (L : (i < length h)%nat) by (apply nth_error_Some; congruence).
  assert (E : nth_error (h ++ [j]) (length h) = Some j).
  { rewrite nth_error_app2 by lia. rewrite Nat.sub_diag. reflexivity. }
  split; [exact E|]. split; [lia|]. split; intros Ht; apply jsteps_other; auto.
  rewrite nth_error_app1 by lia. exact H.
Qed.

(** every reachable object keeps consistent redundant fields *)
Lemma jstep_inv h o : Forall consistent h -> Forall consistent (jstep h o).
Proof.
  intros H. destruct o as [k|k kw]; cbn [jstep].
  - destruct (nth_error h k) as [jk|] eqn:E; [|exact H].
    destruct (Jacobian_copy jk) as [j'|] eqn:E'; [|exact H].
    apply Forall_app; split; [exact H|]. constructor; [|constructor].
    unfold Jacobian_copy in E'. eapply init_consistent; exact E'.
  - destruct (nth_error h k) as [jk|] eqn:E; [|exact H].
    assert (C : consistent jk) by (rewrite Forall_forall in H; apply H; eapply nth_error_In; exact E).
    clear E. revert k; induction h as [|x t IH]; intros [|k]; cbn; auto.
    + inversion H; subst. constructor; auto. apply set_cen_consistent; exact C.
    + inversion H; subst. constructor; auto.
Qed.
Lemma jsteps_inv ops h : Forall consistent h -> Forall consistent (fold_left jstep ops h).
Proof. revert h; induction ops as [|o ops IH]; intros h H; [exact H|]. cbn. apply IH, jstep_inv, H. Qed.
