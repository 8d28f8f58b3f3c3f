(** Executions that violate what a user expects, and examples. *)
From Verif Require Import Base Jacobian_Model Pixels_Model Obs_Model Obs_Spec ObsZone_Proofs Obs_Proofs ObsThm_Proofs.
From Coq Require String.

Definition im1 (v : R) : arr2 R := mkArr 1 1 (fun _ _ => v).
Definition pix1 (v w : R) (j : jac) : list (pixel R) :=
  [mkPix (snd (get_vu j (INR 0) (INR 0))) (fst (get_vu j (INR 0) (INR 0))) (jacobian_get_area j) v (sqrt w)].
Lemma mp1 v w j ign : 0 < w -> make_pixels (im1 v) (im1 w) j ign = Ok (pix1 v w j).
Proof.
  intros H. unfold make_pixels, make_pixels_gen, count_gt0, im1, fill_pixels, fill_body. cbn [nrow ncol at2 seq fold_left].
  rewrite (Rltb_t 0 w) by lra.
  destruct ign; cbn [Nat.eqb bind zeros_pixels repeat foldM seq nrow ncol at2 andb Nat.mul Nat.add];
    rewrite ?(Rleb_f w 0) by lra; rewrite ?(Rltb_f w 0) by lra; unfold pix1;
    destruct (get_vu j (INR 0) (INR 0)) as [a b]; cbn [put length Nat.ltb Nat.leb upd bind Nat.eqb fst snd]; reflexivity.
Qed.
Lemma mp0 v j : make_pixels (im1 v) (im1 0) j true = Raise GMixFatalError.
Proof.
  unfold make_pixels, make_pixels_gen, count_gt0, im1. cbn [nrow ncol at2 seq fold_left]. rewrite Rltb_f by lra. reflexivity.
Qed.

Definition jac1 : jac :=
  match UnitJacobian_init (mkKw None None (Some ((INR 1 - 1) / 2)) (Some ((INR 1 - 1) / 2)) None None None None None None None None None) with
  | Ok j => j | Raise _ => mkJac 0 0 0 0 0 0 0 0 end.
Lemma jac1_ok : UnitJacobian_init (mkKw None None (Some ((INR 1 - 1) / 2)) (Some ((INR 1 - 1) / 2)) None None None None None None None None None) = Ok jac1.
Proof. reflexivity. Qed.

(** im = np.array([[v]]); obs = Observation(im) *)
Definition newobs (a : nat) : op := NewObs a false ANone ANone ANone ANone JNone GNone PNone DNone ANone true true.
Definition p1 : list op := [NewArr (C2 (im1 1)) true; newobs 0].
Definition none_opts : slot -> option nat := fun s => match s with SBmask => None | SOrmask => None | SNoise => None | SMfrac => None end.
Definition o1 : obs := mkObs 0 1 2 none_opts None None 0 true true false (Some (pix1 1 1 jac1)).
Definition s1 : mem :=
  mkMem [mkBuf (C2 (im1 1)) true; mkBuf (C2 (im1 1)) true; mkBuf (CJ jac1) true] [mkAr 0 true; mkAr 1 true; mkAr 2 true] [[]] [o1].
Ltac mkpix a b c d := match goal with |- context[make_pixels ?x ?y ?z ?t] => change (make_pixels x y z t) with (make_pixels a b c d) end.
Lemma run1 : exec empty_mem p1 = s1.
Proof.
  unfold p1, newobs. cbn [exec step]. unfold new_arr at 1. cbn [fst m_bufs m_arrs m_metas m_obs app length empty_mem].
  unfold new_obs, ascontig, shape2, contents, weight_value, jac_value, pixels_value, meta_value, opt_value, gmix_value, psf_value, push_obs, view_check, contents.
  unfold assert, bindM, get_arr, get_buf, ret, new_arr, new_meta, lift. cbn [nth_error m_arrs m_bufs m_metas m_obs a_buf b_data nrow ncol im1 fst snd app length negb orb].
  rewrite jac1_ok. cbn [nth_error m_arrs m_bufs m_metas m_obs a_buf b_data nrow ncol im1 fst snd app length negb orb].
  mkpix (im1 1) (im1 1) jac1 true. rewrite (mp1 1 1 jac1 true) by lra. reflexivity.
Qed.

Ltac compute_mem := cbn [nth_error m_arrs m_bufs m_metas m_obs a_buf a_w b_data b_own nrow ncol fst snd app length negb orb
  ob_image ob_weight ob_jac ob_opt ob_gmix ob_psf ob_meta ob_store ob_ign ob_wr ob_pix with_image with_weight with_flags with_pix
  overwrite shape_eqb Nat.eqb andb upd attr_ref Bool.eqb im1].
Ltac open_step := cbn [step exec]; unfold unit_, write_arr, set_weight, exit_, enter, getattr, get_view, update_pixels, new_obs, ascontig, shape2, contents, weight_value,
    jac_value, pixels_value, meta_value, opt_value, gmix_value, psf_value, push_obs, view_check, shape2, ascontig, contents, put_obs;
  unfold assert, bindM, get_arr, get_buf, get_obs, ret, new_arr, new_meta, lift, fail; compute_mem.

(** the caller's array is used without a copy: writing to it changes the observation *)
Definition s1w (v : R) : mem :=
  mkMem [mkBuf (C2 (im1 v)) true; mkBuf (C2 (im1 1)) true; mkBuf (CJ jac1) true] [mkAr 0 true; mkAr 1 true; mkAr 2 true] [[]] [o1].
Lemma run1w v : step (Write 0 (C2 (im1 v))) s1 = (s1w v, Ok 0%nat).
Proof. open_step. reflexivity. Qed.
Lemma s1w_stale v : v <> 1 -> ~ pixels_match (s1w v) o1.
Proof.
  intros Hv (im & w & j & l & A & B & C & D & E). cbn in A, B, C, E.
  injection A as <-. injection B as <-. injection C as <-. injection E as <-.
  assert (D' : make_pixels (im1 v) (im1 1) jac1 true = Ok (pix1 1 1 jac1)) by exact D.
  rewrite mp1 in D' by lra. unfold pix1 in D'. injection D'. auto.
Qed.
Lemma s1w_reads v : reads (s1w v) 0 (OV (im1 v) (im1 1) jac1 (fun _ => None) None [] true true None).
Proof.
  apply (ReadsNoPsf (s1w v) 0 o1); try reflexivity. intros []; reflexivity.
Qed.

(** all weights zero: update_pixels raises after the weights have been assigned *)
Definition s2 : mem :=
  mkMem [mkBuf (C2 (im1 1)) true; mkBuf (C2 (im1 1)) true; mkBuf (CJ jac1) true; mkBuf (C2 (im1 0)) true]
        [mkAr 0 true; mkAr 1 true; mkAr 2 true; mkAr 3 true] [[]] [with_weight o1 3].
Lemma run2 : exec s1 [NewArr (C2 (im1 0)) true] = mkMem (m_bufs s2) (m_arrs s2) [[]] [o1].
Proof. reflexivity. Qed.
Lemma run2' : step (SetWeight 0 (AArr 3 false)) (exec s1 [NewArr (C2 (im1 0)) true]) = (s2, Raise GMixFatalError).
Proof.
  rewrite run2. unfold s2, o1. open_step. mkpix (im1 1) (im1 0) jac1 true. rewrite mp0. reflexivity.
Qed.
Lemma s2_stale : ~ pixels_match s2 (with_weight o1 3).
Proof.
  intros (im & w & j & l & A & B & C & D & E). cbn in A, B, C, E.
  injection A as <-. injection B as <-. injection C as <-. assert (D' : make_pixels (im1 1) (im1 0) jac1 true = Ok l) by exact D. rewrite mp0 in D'. discriminate.
Qed.

(** Observation(obs.image) shares the memory of obs *)
Definition o2 : obs := mkObs 3 4 5 none_opts None None 1 true true false (Some (pix1 1 1 jac1)).
Definition s3 : mem :=
  mkMem (m_bufs s1 ++ [mkBuf (C2 (im1 1)) true; mkBuf (CJ jac1) true]) (m_arrs s1 ++ [mkAr 0 false; mkAr 3 true; mkAr 4 true]) [[]; []] [o1; o2].
Lemma run3 : exec s1 [GetAttr 0 VImage; newobs 3] = s3.
Proof.
  unfold s1, s3, newobs, o1. open_step. rewrite jac1_ok. compute_mem. mkpix (im1 1) (im1 1) jac1 true. rewrite (mp1 1 1 jac1 true) by lra. reflexivity.
Qed.
Definition s4 (v : R) : mem :=
  mkMem [mkBuf (C2 (im1 v)) true; mkBuf (C2 (im1 1)) true; mkBuf (CJ jac1) true; mkBuf (C2 (im1 1)) true; mkBuf (CJ jac1) true]
        [mkAr 0 true; mkAr 1 true; mkAr 2 true; mkAr 0 false; mkAr 3 true; mkAr 4 true; mkAr 0 true] [[]; []]
        [mkObs 0 1 2 none_opts None None 0 true true false (Some (pix1 v 1 jac1)); o2].
Definition block v : list op := [Enter 0; GetAttr 0 VImage; Write 6 (C2 (im1 v)); Exit 0].
Lemma run4 v : exec s3 (block v) = s4 v.
Proof.
  unfold s3, s1, block, o1, o2. cbn [m_bufs m_arrs app]. open_step. compute_mem.
  unfold assert, bindM, get_arr, get_buf, get_obs, ret, new_arr, new_meta, lift, fail; compute_mem.
  mkpix (im1 v) (im1 1) jac1 true. rewrite (mp1 v 1 jac1 true) by lra. reflexivity.
Qed.
Lemma s4_stale v : v <> 1 -> ~ pixels_match (s4 v) o2.
Proof.
  intros Hv (im & w & j & l & A & B & C & D & E). cbn in A, B, C, E.
  injection A as <-. injection B as <-. injection C as <-. injection E as <-.
  assert (D' : make_pixels (im1 v) (im1 1) jac1 true = Ok (pix1 1 1 jac1)) by exact D.
  rewrite mp1 in D' by lra. unfold pix1 in D'. injection D'. auto.
Qed.

(** a view taken inside a block stays writeable after the block *)
Definition s5 (v : R) : mem :=
  mkMem [mkBuf (C2 (im1 v)) true; mkBuf (C2 (im1 1)) true; mkBuf (CJ jac1) true] [mkAr 0 true; mkAr 1 true; mkAr 2 true; mkAr 0 true] [[]]
    [o1].
Lemma run5 : exec s1 [Enter 0; GetAttr 0 VImage; Exit 0] = s5 1.
Proof.
  unfold s1, o1. open_step. compute_mem.
  mkpix (im1 1) (im1 1) jac1 true. rewrite (mp1 1 1 jac1 true) by lra. reflexivity.
Qed.
Lemma run5w v : step (Write 3 (C2 (im1 v))) (s5 1) = (s5 v, Ok 0%nat).
Proof. unfold s5. open_step. reflexivity. Qed.
Lemma s5_stale v : v <> 1 -> ~ pixels_match (s5 v) o1.
Proof.
  intros Hv (im & w & j & l & A & B & C & D & E). cbn in A, B, C, E.
  injection A as <-. injection B as <-. injection C as <-. injection E as <-.
  assert (D' : make_pixels (im1 v) (im1 1) jac1 true = Ok (pix1 1 1 jac1)) by exact D.
  rewrite mp1 in D' by lra. unfold pix1 in D'. injection D'. auto.
Qed.

(** nested blocks: the inner exit ends the outer block *)
Lemma run6 : exists m, exec s1 [Enter 0; Enter 0; Exit 0; GetAttr 0 VImage] = m /\ m_obs m = [o1] /\ nth_error (m_arrs m) 3 = Some (mkAr 0 false).
Proof.
  eexists. split; [reflexivity|]. unfold s1, o1. open_step. compute_mem.
  mkpix (im1 1) (im1 1) jac1 true. rewrite (mp1 1 1 jac1 true) by lra. compute_mem. split; reflexivity.
Qed.

(** ---- examples: the hypotheses of the theorems can be met ---- *)
Lemma disciplined_app p q : forall m, disciplined m p -> disciplined (exec m p) q -> disciplined m (p ++ q).
Proof. induction p as [|x p IH]; intros m; cbn [app exec disciplined]; [tauto|]. intros (A & B & C) D. auto. Qed.
Definition blk v : list op := [Enter 0; GetAttr 0 VImage; Write 3 (C2 (im1 v)); Exit 0].
Definition o1w : obs := with_flags o1 true true true.
Definition s6 (v : R) : mem :=
  mkMem [mkBuf (C2 (im1 v)) true; mkBuf (C2 (im1 1)) true; mkBuf (CJ jac1) true] [mkAr 0 true; mkAr 1 true; mkAr 2 true; mkAr 0 true] [[]] [o1w].
Definition s6e (v : R) : mem :=
  mkMem [mkBuf (C2 (im1 v)) true; mkBuf (C2 (im1 1)) true; mkBuf (CJ jac1) true] [mkAr 0 true; mkAr 1 true; mkAr 2 true; mkAr 0 true] [[]]
    [mkObs 0 1 2 none_opts None None 0 true true false (Some (pix1 v 1 jac1))].
Lemma run_enter : step (Enter 0) s1 = (mkMem (m_bufs s1) (m_arrs s1) [[]] [o1w], Ok 0%nat).
Proof. reflexivity. Qed.
Lemma run_get : step (GetAttr 0 VImage) (mkMem (m_bufs s1) (m_arrs s1) [[]] [o1w]) = (s6 1, Ok 3%nat).
Proof. reflexivity. Qed.
Lemma run_write v : step (Write 3 (C2 (im1 v))) (s6 1) = (s6 v, Ok 0%nat).
Proof. unfold s6. open_step. reflexivity. Qed.
Lemma run_exit v : step (Exit 0) (s6 v) = (s6e v, Ok 0%nat).
Proof.
  unfold s6, o1w, o1. open_step. mkpix (im1 v) (im1 1) jac1 true. rewrite (mp1 v 1 jac1 true) by lra. reflexivity.
Qed.
Lemma step_new1 : step (newobs 0) (mkMem [mkBuf (C2 (im1 1)) true] [mkAr 0 true] [] []) = (s1, Ok 0%nat).
Proof.
  unfold newobs. open_step. rewrite jac1_ok. compute_mem. mkpix (im1 1) (im1 1) jac1 true. rewrite (mp1 1 1 jac1 true) by lra. reflexivity.
Qed.
Lemma example_disciplined v : disciplined empty_mem (p1 ++ blk v).
Proof.
  apply disciplined_app.
  - unfold p1. cbn [disciplined]. split; [discriminate|]. split; [discriminate|]. split; [discriminate|].
    change (fst (step (NewArr (C2 (im1 1)) true) empty_mem)) with (mkMem [mkBuf (C2 (im1 1)) true] [mkAr 0 true] [] []).
    rewrite step_new1. split; [discriminate|exact Logic.I].
  - rewrite run1. unfold blk. cbn [disciplined]. rewrite run_enter. cbn [fst snd]. rewrite run_get. cbn [fst snd].
    rewrite run_write. cbn [fst snd]. rewrite run_exit. cbn [fst snd].
    repeat (split; [try discriminate|]); try exact Logic.I; try discriminate.
    intros a c _ i o b N W. destruct i as [|[|i]]; cbn in N; [injection N as <-; discriminate W|discriminate N..].
Qed.

Lemma jac1_copy : Jacobian_copy jac1 = Ok jac1.
Proof. eapply unit_fix. exact jac1_ok. Qed.
Lemma example_copy : exists m', step (CopyObs 0) s1 = (m', Ok 1%nat).
Proof.
  unfold s1, o1. cbn [step length m_obs copy_obs]. unfold copy_opt, copy_view, view_check, get_meta, new_meta, none_opts.
  open_step. rewrite jac1_copy. compute_mem. mkpix (im1 1) (im1 1) jac1 true. rewrite (mp1 1 1 jac1 true) by lra. eexists; reflexivity.
Qed.
Lemma example_converted : exists m', step (NewObs 0 true (AArr 0 true) ANone ANone ANone JNone GNone PNone DNone ANone true true)
   (exec empty_mem [NewArr (C2 (im1 1)) true]) = (m', Ok 0%nat).
Proof.
  change (exec empty_mem [NewArr (C2 (im1 1)) true]) with (mkMem [mkBuf (C2 (im1 1)) true] [mkAr 0 true] [] []).
  open_step. rewrite jac1_ok. compute_mem. mkpix (im1 1) (im1 1) jac1 true. rewrite (mp1 1 1 jac1 true) by lra. eexists; reflexivity.
Qed.
Definition im2 : arr2 R := mkArr 2 1 (fun _ _ => 0).
Lemma example_failed : exists m', step (SetImage 0 3 false) (exec s1 [NewArr (C2 im2) true]) = (m', Raise AssertionError).
Proof. eexists. reflexivity. Qed.
