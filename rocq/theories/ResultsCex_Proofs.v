(** The image of an adaptive-moments result depends on pixels of zero weight. *)
From Verif Require Import Base XReal Moments_Spec Jacobian_Model Jacobian_Spec Pixels_Model GMix_Model GMix_Spec GMix_Proofs GMixObj_Model
  Render_Model Render_Spec Render_Proofs FastExp_Model Flags_Model EM_Model EM_Spec EMCex_Proofs EMExample_Proofs
  PSFFlux_Model Admom_Model Admom_Spec Admom_Proofs Admom2_Proofs Admom3_Proofs Admom4_Proofs Admom5_Proofs Results_Model Results_Spec Results_Proofs.
Local Open Scope R_scope.

Definition corner (v u k : R) : R := k / in_pixel gW (mkPix u v 1 0 1).
(** corners as in pxW, x in the centre *)
Definition imW (x : R) : arr2 R := mkArr 3 5 (fun r c =>
  match r, c with
  | O, O => corner (-1) (-2) 3 | O, 4%nat => corner (-1) 2 1 | 2%nat, O => corner 1 (-2) 1 | 2%nat, 4%nat => corner 1 2 3
  | 1%nat, 2%nat => x | _, _ => 0 end).
Definition wtW : arr2 R := mkArr 3 5 (fun r c => match r, c with O, O | O, 4%nat | 2%nat, O | 2%nat, 4%nat => 1 | _, _ => 0 end).
Lemma imW_pixels x : make_pixels (imW x) wtW jac1 true = Ok pxW.
Proof.
  cbv [make_pixels make_pixels_gen fill_pixels fill_body count_gt0 zeros_pixels foldM seq fold_left nrow ncol at2 imW wtW jac1 get_vu
    jacobian_get_area jscale row0 col0 dvdrow dvdcol dudrow dudcol Nat.mul Nat.add repeat put length Nat.ltb Nat.leb Nat.eqb upd bind andb INR].
  rewrite !l01, !l00. cbv iota beta. rewrite ?e10, ?e00, ?l10. cbv [put length Nat.ltb Nat.leb Nat.eqb upd bind repeat andb].
  repeat rewrite ?e10, ?e00, ?l10. cbv [put length Nat.ltb Nat.leb Nat.eqb upd bind repeat andb]. rewrite !sqrt_1. f_equal. unfold pxW, pixv, corner. repeat (apply f_equal2; [f_equal; ring|]). reflexivity.
Qed.
Lemma imW_same x y : same_where_used (imW x) (imW y) wtW.
Proof.
  split; [reflexivity|split; [reflexivity|]]. cbn [nrow ncol imW wtW at2]. intros r c Hr Hc.
  destruct r as [|[|[|r]]]; [..|lia]; destruct c as [|[|[|[|[|c]]]]]; try lia; intros; reflexivity || lra.
Qed.
Lemma imW_total x : total_of (imW x) = total_of (imW 0) + x.
Proof. unfold total_of. cbn [nrow ncol imW seq map at2]. rewrite !rsum_cons, !rsum_nil. ring. Qed.
Lemma component_centre F : component (gauss2d_set F 0 0 2 2 8) 0 0 = F * component gW 0 0.
Proof. unfold component, gcov, gW, gauss2d_set. cbn [g_p g_row g_col g_irr g_irc g_icc]. rewrite !Rmult_1_l. reflexivity. Qed.
Lemma centre_pos : 0 < component gW 0 0.
Proof.
  unfold component. cbn [gW gauss2d_set g_p]. rewrite Rmult_1_l. apply Rdiv_lt_0_compat; [apply exp_pos|].
  assert (0 < det2 (gcov gW)) by (unfold det2, gcov, cov, gW, gauss2d_set; cbn; lra). pose proof PI_RGT_0. pose proof (sqrt_lt_R0 _ H). nra.
Qed.
Lemma masked_image : exists c wt w j px i1 i2 d a b,
  make_pixels i1 w j true = Ok px /\ make_pixels i2 w j true = Ok px /\ same_where_used i1 i2 w /\
  good_input c (mkAo px j) wt /\ snd (am_run c (mkAo px j) wt) = Ok d /\ d_flags d = 0%Z /\
  am_make_image d j i1 = Some (Ok a) /\ am_make_image d j i2 = Some (Ok b) /\ at2 a 1 2 <> at2 b 1 2.
Proof.
  set (c := mkAc 200 5 (1/100000) (1/1000) false). destruct (sample_ok false) as (G & d & E & F & N & _). fold c in G, E.
  assert (X : forall x, exists a, am_make_image d jac1 (imW x) = Some (Ok a) /\ at2 a 1 2 = Some (total_of (imW x) * component gW 0 0)).
  { intros x. destruct (am_image c obsW [gW] d (imW x) G E F) as (wc & im & CV & EI & _ & _ & S). exists im. split; [exact EI|].
    assert (wc = [gW]). { rewrite N in CV. eapply converges_unique; [exact CV|apply convergesW; cbn; lra|reflexivity]. } subst wc.
    rewrite (S 1%nat 2%nat 0 0) by (cbn [nrow ncol imW]; lia || (split; cbn; ring)). f_equal. unfold with_flux, brightness. cbn [map]. rewrite rsum_cons, rsum_nil.
    cbn [row0_of col0_of cov0_of gW gauss2d_set g_row g_col gcov cov xx xy yy g_irr g_irc g_icc obsW ao_jac jac1 jscale]. fold gW. rewrite component_centre. ring. }
  destruct (X 0) as (a & A1 & A2). destruct (X 1) as (b & B1 & B2).
  exists c, [gW], wtW, jac1, pxW, (imW 0), (imW 1), d, a, b. repeat (split; [first [apply imW_pixels|apply imW_same|assumption]|]).
  rewrite A2, B2, (imW_total 1). intros K. injection K as K. pose proof centre_pos. nra.
Qed.
(** an EM fit with an image *)
Lemma em_sample : exists f m obs guess sky m' r a P im0, valid_call m obs guess /\ em_go f m obs guess sky = Some (m', Ok r) /\
  EM_Model.get_gmix m' r false = Ok a /\ o_data a <> [] /\ psf_given m obs P /\ nth_error (em_im m) (eo_image obs) = Some im0 /\ nrow im0 = 1%nat /\ ncol im0 = 2%nat.
Proof.
  destruct (guess_exists 0) as (h & G). destruct (near_run h 0 5 G ltac:(lia)) as (m' & r & E & hh & t & a & R & L & T & FL & FT & CV & GA).
  exists (fit1 5), (mem h 0), ob, 0%nat, (Some 0), m', r, a, P0, (img 0). split; [apply (mem_valid 0); exact G|]. split; [exact E|]. split; [exact GA|].
  split; [|split; [apply R|auto]]. pose proof R as (_ & GG & _). destruct (EMThm_Proofs.c39 _ _ _ _ _ _ _ _ _ (mem_valid 0 _ _ G) E GA GG) as (LE & _).
  destruct (o_data a); [discriminate|discriminate].
Qed.
