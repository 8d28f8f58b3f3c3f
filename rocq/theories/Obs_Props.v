(** Theorems on class Observation: C30, C31, C33, C34, C35. *)
From Verif Require Import Base Jacobian_Model Pixels_Model Obs_Model Obs_Spec ObsZone_Proofs Obs_Proofs ObsThm_Proofs ObsSet_Proofs ObsCex_Proofs.
From Coq Require String.

(** ---- C30: the pixels match the image, weight and jacobian ---- *)

(** after every program that writes data only inside writeable() blocks of all the
    observations that use the data, and in which no image is without positive weights *)
Theorem C30_pixels_match : forall p, disciplined empty_mem p ->
  forall i o, nth_error (m_obs (exec empty_mem p)) i = Some o -> ob_wr o = false ->
    pixels_match (exec empty_mem p) o.
Proof. exact pixels_invariant. Qed.
Print Assumptions C30_pixels_match.
Example C30_hypotheses_hold : forall v, disciplined empty_mem (p1 ++ blk v).
Proof. exact example_disciplined. Qed.

(** after any program at all, a setter or block exit that returns leaves matching pixels *)
Theorem C30_after_update : forall p x i m' u, remakes_pixels x i -> step x (exec empty_mem p) = (m', Ok u) ->
  exists o, nth_error (m_obs m') i = Some o /\ pixels_match m' o.
Proof. exact remakes_match. Qed.
Print Assumptions C30_after_update.
Theorem C30_after_creation : forall p x i m',
  (exists a b c d e f g h q j k l n, x = NewObs a b c d e f g h q j k l n) \/ (exists k, x = CopyObs k) ->
  step x (exec empty_mem p) = (m', Ok i) -> exists o, nth_error (m_obs m') i = Some o /\ ob_wr o = false /\ pixels_match m' o.
Proof. exact created_match. Qed.
Print Assumptions C30_after_creation.

(** obs.weight = zeros raises GMixFatalError with the new weights already stored *)
Theorem C30_zero_weights_refuted :
  exists p i w m' o, step (SetWeight i w) (exec empty_mem p) = (m', Raise GMixFatalError) /\
    disciplined empty_mem p /\ nth_error (m_obs m') i = Some o /\ ob_wr o = false /\ ~ pixels_match m' o.
Proof.
  exists (p1 ++ [NewArr (C2 (im1 0)) true]), 0%nat, (AArr 3 false), s2, (with_weight o1 3).
  rewrite exec_app, run1. split; [exact run2'|]. split; [|split; [reflexivity|split; [reflexivity|exact s2_stale]]].
  apply disciplined_app.
  - pose proof (example_disciplined 1) as D. unfold p1 in *. cbn [app disciplined] in D |- *. tauto.
  - rewrite run1. cbn [disciplined]. repeat split; discriminate.
Qed.
Print Assumptions C30_zero_weights_refuted.
(** Observation(obs.image) uses the memory of obs: an update of obs inside its own
    writeable() block leaves the pixels of the second observation behind *)
Theorem C30_shared_image_refuted : forall v, v <> 1 ->
  exists o, nth_error (m_obs (exec empty_mem (p1 ++ [GetAttr 0 VImage; newobs 3] ++ block v))) 1 = Some o /\
    ob_wr o = false /\ ~ pixels_match (exec empty_mem (p1 ++ [GetAttr 0 VImage; newobs 3] ++ block v)) o.
Proof.
  intros v Hv. rewrite !exec_app, run1, run3, run4. exists o2. split; [reflexivity|split; [reflexivity|exact (s4_stale v Hv)]].
Qed.
Print Assumptions C30_shared_image_refuted.

(** ---- C31: no writing outside writeable() blocks ---- *)

(** an array obtained outside a block rejects writes for ever *)
Theorem C31_read_only_view : forall p i k o m' v, let m := exec empty_mem p in
  nth_error (m_obs m) i = Some o -> ob_wr o = false -> step (GetAttr i k) m = (m', Ok v) ->
  forall q c, step (Write v c) (exec m' q) = (exec m' q, Raise ValueError).
Proof. exact read_only_view. Qed.
Print Assumptions C31_read_only_view.
Example C31_hypotheses_hold : exists p i k o m' v, let m := exec empty_mem p in
  nth_error (m_obs m) i = Some o /\ ob_wr o = false /\ step (GetAttr i k) m = (m', Ok v).
Proof. exists p1, 0%nat, VImage, o1. eexists. exists 3%nat. cbv zeta. rewrite run1. split; [reflexivity|split; reflexivity]. Qed.
(** with obs.writeable(): obs.image[...] = im *)
Theorem C31_block_write : forall p i o im m1 m2 v m3 m4, let m := exec empty_mem p in
  nth_error (m_obs m) i = Some o -> step (Enter i) m = (m1, Ok 0%nat) -> step (GetAttr i VImage) m1 = (m2, Ok v) ->
  step (Write v (C2 im)) m2 = (m3, Ok 0%nat) -> step (Exit i) m3 = (m4, Ok 0%nat) ->
  exists o', nth_error (m_obs m4) i = Some o' /\ content_at m4 (ob_image o') = Some (C2 im) /\ pixels_match m4 o'.
Proof. exact block_write. Qed.
Print Assumptions C31_block_write.
Example C31_block_hypotheses_hold : exists p i o im m1 m2 v m3 m4, let m := exec empty_mem p in
  nth_error (m_obs m) i = Some o /\ step (Enter i) m = (m1, Ok 0%nat) /\ step (GetAttr i VImage) m1 = (m2, Ok v) /\
  step (Write v (C2 im)) m2 = (m3, Ok 0%nat) /\ step (Exit i) m3 = (m4, Ok 0%nat).
Proof.
  exists p1, 0%nat, o1, (im1 2). do 2 eexists. exists 3%nat. do 2 eexists. cbv zeta. rewrite run1.
  split; [reflexivity|]. split; [exact run_enter|]. split; [exact run_get|]. split; [exact (run_write 2)|exact (run_exit 2)].
Qed.
(** a view obtained inside a block can still be written after the block *)
Theorem C31_escaped_view_refuted : forall v, v <> 1 ->
  let m := exec empty_mem (p1 ++ [Enter 0; GetAttr 0 VImage; Exit 0]) in
  exists m' o, step (Write 3 (C2 (im1 v))) m = (m', Ok 0%nat) /\ nth_error (m_obs m) 0 = Some o /\
    nth_error (m_obs m') 0 = Some o /\ ob_wr o = false /\ pixels_match m o /\ ~ pixels_match m' o.
Proof.
  intros v Hv. cbv zeta. rewrite exec_app, run1, run5. exists (s5 v), o1.
  split; [apply run5w|]. split; [reflexivity|split; [reflexivity|split; [reflexivity|split; [|exact (s5_stale v Hv)]]]].
  exists (im1 1), (im1 1), jac1, (pix1 1 1 jac1). repeat split. apply mp1. lra.
Qed.
Print Assumptions C31_escaped_view_refuted.
(** nested blocks: leaving the inner block ends the outer one *)
Theorem C31_nested_block_refuted :
  exists m, exec empty_mem (p1 ++ [Enter 0; Enter 0; Exit 0; GetAttr 0 VImage]) = m /\
    exists a, nth_error (m_arrs m) 3 = Some a /\ a_w a = false.
Proof.
  rewrite exec_app, run1. destruct run6 as (m & E & _ & A). exists m. split; [exact E|]. eexists. split; [exact A|reflexivity].
Qed.
Print Assumptions C31_nested_block_refuted.

(** ---- C33: copies ---- *)
Theorem C33_copy_equal : forall p i m' i', let m := exec empty_mem p in
  step (CopyObs i) m = (m', Ok i') ->
  exists v, reads m i v /\ reads m' i' v /\ forall k u, reads m k u -> reads m' k u.
Proof. exact copy_equal. Qed.
Print Assumptions C33_copy_equal.
(** programs that mention no object older than the copy change nothing that existed
    before, and programs that mention no object made by copy() do not change the copy *)
Theorem C33_copy_independent : forall p i m' i', let m := exec empty_mem p in
  step (CopyObs i) m = (m', Ok i') ->
  (forall q, Forall (only_later_objects m) q -> forall k v, reads m k v -> reads (exec m' q) k v) /\
  (forall q, Forall (no_object_between m m') q -> forall v, reads m' i' v -> reads (exec m' q) i' v).
Proof. exact copy_independent. Qed.
Print Assumptions C33_copy_independent.
Example C33_hypotheses_hold : exists p i m' i', step (CopyObs i) (exec empty_mem p) = (m', Ok i').
Proof. exists p1, 0%nat. rewrite run1. destruct example_copy as [m' E]. exists m', 1%nat. exact E. Qed.

(** ---- C34: the constructor and the caller's arrays ---- *)

(** arrays of doubles in C order are not copied *)
Theorem C34_refuted : forall v, v <> 1 ->
  let m := exec empty_mem p1 in let m' := exec m [Write 0 (C2 (im1 v))] in
  exists a b o, reads m 0 a /\ reads m' 0 b /\ a <> b /\
    nth_error (m_obs m') 0 = Some o /\ ob_wr o = false /\ ~ pixels_match m' o.
Proof.
  intros v Hv. cbv zeta. rewrite run1. cbn [exec]. rewrite run1w. cbn [fst].
  do 2 eexists. exists o1. split; [apply (s1w_reads 1)|]. split; [apply (s1w_reads v)|].
  split; [|split; [reflexivity|split; [reflexivity|exact (s1w_stale v Hv)]]].
  intros E. injection E as E. apply (f_equal (fun f => f 0%nat 0%nat)) in E. auto.
Qed.
Print Assumptions C34_refuted.
(** when every array has to be converted the statement holds *)
Theorem C34_converted_partial : forall p image w bm om no j g mf st ig m' i, let m := exec empty_mem p in
  converted w -> converted bm -> converted om -> converted no -> converted mf ->
  step (NewObs image true w bm om no j g PNone DNone mf st ig) m = (m', Ok i) ->
  forall q, Forall (no_object_between m m') q -> forall v, reads m' i v -> reads (exec m' q) i v.
Proof. exact converted_snapshot. Qed.
Print Assumptions C34_converted_partial.
Example C34_hypotheses_hold : exists m',
  step (NewObs 0 true (AArr 0 true) ANone ANone ANone JNone GNone PNone DNone ANone true true)
   (exec empty_mem [NewArr (C2 (im1 1)) true]) = (m', Ok 0%nat).
Proof. exact example_converted. Qed.

(** ---- C35: failed setters ---- *)
Theorem C35_failed_setter_partial : forall p x i e m', let m := exec empty_mem p in
  checked_setter x i -> (forall o, nth_error (m_obs m) i = Some o -> ob_wr o = false) ->
  step x m = (m', Raise e) -> e <> GMixFatalError -> unchanged m m'.
Proof. exact failed_setter. Qed.
Print Assumptions C35_failed_setter_partial.
Example C35_hypotheses_hold : exists p x i e m', checked_setter x i /\
  (forall o, nth_error (m_obs (exec empty_mem p)) i = Some o -> ob_wr o = false) /\
  step x (exec empty_mem p) = (m', Raise e) /\ e <> GMixFatalError.
Proof.
  exists (p1 ++ [NewArr (C2 im2) true]), (SetImage 0 3 false), 0%nat, AssertionError. rewrite exec_app, run1.
  destruct example_failed as [m' E]. exists m'. split; [reflexivity|]. split; [intros o [= <-]; reflexivity|]. split; [exact E|discriminate].
Qed.
(** set_psf and set_gmix, when there was nothing to lose *)
Theorem C35_failed_absent_partial : forall m i x e m' o, nth_error (m_obs m) i = Some o ->
  ((exists q, x = SetPsf i q) /\ ob_psf o = None) \/ ((exists q, x = SetGmix i q) /\ ob_gmix o = None) ->
  step x m = (m', Raise e) -> m' = m.
Proof. exact failed_absent. Qed.
Print Assumptions C35_failed_absent_partial.
(** a bad argument of set_psf (set_gmix) always removes the psf (gmix) that was there *)
Theorem C35_set_psf_refuted : forall m i o, nth_error (m_obs m) i = Some o ->
  exists m' o', step (SetPsf i PBad) m = (m', Raise AssertionError) /\ nth_error (m_obs m') i = Some o' /\ ob_psf o' = None.
Proof.
  intros m i o N. cbn [step]. unfold unit_, set_psf, bindM, get_obs, put_obs, psf_value, fail. rewrite N.
  do 2 eexists. split; [reflexivity|]. cbn. split; [eapply nth_upd_same; eauto|reflexivity].
Qed.
Print Assumptions C35_set_psf_refuted.
Theorem C35_set_gmix_refuted : forall m i o, nth_error (m_obs m) i = Some o ->
  exists m' o', step (SetGmix i GBad) m = (m', Raise AssertionError) /\ nth_error (m_obs m') i = Some o' /\ ob_gmix o' = None.
Proof.
  intros m i o N. cbn [step]. unfold unit_, set_gmix, bindM, get_obs, put_obs, gmix_value, fail. rewrite N.
  do 2 eexists. split; [reflexivity|]. cbn. split; [eapply nth_upd_same; eauto|reflexivity].
Qed.
Print Assumptions C35_set_gmix_refuted.
(** set_weight with zeros: the exception leaves the new weights in place *)
Theorem C35_set_weight_refuted :
  exists p i w m' o o', let m := exec empty_mem p in
    step (SetWeight i w) m = (m', Raise GMixFatalError) /\ nth_error (m_obs m) i = Some o /\ ob_wr o = false /\
    nth_error (m_obs m') i = Some o' /\ content_at m (ob_weight o) = Some (C2 (im1 1)) /\ content_at m' (ob_weight o') = Some (C2 (im1 0)).
Proof.
  exists (p1 ++ [NewArr (C2 (im1 0)) true]), 0%nat, (AArr 3 false), s2, o1, (with_weight o1 3).
  cbv zeta. rewrite exec_app, run1. split; [exact run2'|]. rewrite run2. repeat split.
Qed.
Print Assumptions C35_set_weight_refuted.

(** ---- C83: a setter that returns has assigned the named attribute and nothing else ---- *)
Theorem C83_setter_assigns : forall p x i k c m' u o, let m := exec empty_mem p in
  nth_error (m_obs m) i = Some o -> assigns m o x i k c -> step x m = (m', Ok u) ->
  exists o', nth_error (m_obs m') i = Some o' /\
    shown m' o' k = c /\ (forall k', k' <> k -> shown m' o' k' = shown m o k') /\ same_rest o o' /\
    (forall j x, j <> i -> nth_error (m_obs m) j = Some x -> nth_error (m_obs m') j = Some x) /\
    (forall a x, content_at m a = Some x -> content_at m' a = Some x) /\
    (forall d x, nth_error (m_metas m) d = Some x -> nth_error (m_metas m') d = Some x).
Proof. exact setter_assigns. Qed.
Print Assumptions C83_setter_assigns.
Example C83_hypotheses_hold : exists p x i k c m' u o, let m := exec empty_mem p in
  nth_error (m_obs m) i = Some o /\ assigns m o x i k c /\ step x m = (m', Ok u) /\ k = VOpt SMfrac /\ c <> shown m o k.
Proof.
  exists p1, (SetOpt 0 SMfrac (AArr 0 false)), 0%nat, (VOpt SMfrac). do 3 eexists. exists o1. cbv zeta. rewrite run1.
  split; [reflexivity|]. split; [split; [reflexivity|split; [reflexivity|reflexivity]]|].
  split; [reflexivity|]. split; [reflexivity|]. cbn. discriminate.
Qed.
