(** Theorems on the equality of observations: C32, and C33 (a copy equals the original). *)
From Verif Require Import Base XReal Jacobian_Model Pixels_Model Obs_Model Obs_Spec ObsCex_Proofs ObsEq_Model ObsEq_Spec ObsEq_Proofs.
From Verif Require GMixObj_Model ObsThm_Proofs.
From Coq Require String.

(** for observations with the same optional attributes and sizes, == never raises and is
    True exactly when all attributes agree.  Missing for C32: the same for observations that
    differ in the attributes they have, or in shape; there the code fails, see below. *)
Theorem C32_same_form_partial : forall a b, proper a -> proper b -> same_form a b ->
  exists r, obs_eq a b = Ok r /\ (r = true <-> same_value a b).
Proof. exact obs_eq_decided. Qed.
Print Assumptions C32_same_form_partial.
Theorem C32_reflexive : forall a, proper a -> obs_eq a a = Ok true.
Proof. exact obs_eq_refl. Qed.
Print Assumptions C32_reflexive.
Theorem C32_symmetric_partial : forall a b, proper a -> proper b -> same_form a b -> obs_eq a b = obs_eq b a.
Proof. exact obs_eq_sym. Qed.
Print Assumptions C32_symmetric_partial.
Theorem C32_transitive_partial : forall a b c, proper a -> proper b -> proper c -> same_form a b -> same_form b c ->
  obs_eq a b = Ok true -> obs_eq b c = Ok true -> obs_eq a c = Ok true.
Proof. exact obs_eq_trans. Qed.
Print Assumptions C32_transitive_partial.
(** observations made by a program, with dictionaries, are proper *)
Theorem C32_programs_proper : forall p i v, (forall d, In d (m_metas (exec empty_mem p)) -> NoDup (map fst d)) ->
  reads (exec empty_mem p) i v -> proper v.
Proof. exact reads_proper. Qed.
Print Assumptions C32_programs_proper.
Example C32_hypotheses_hold : exists a b c, proper a /\ proper b /\ proper c /\ same_form a b /\ same_form b c /\
  obs_eq a b = Ok true /\ obs_eq b c = Ok true.
Proof.
  pose (a := ov1 (Some (C2 (im1 3))) None (Some (ov1 None None None 2)) 1).
  assert (P : proper a).
  { cbn. split; [constructor|]. split.
    { intros [] c H; try discriminate. injection H as <-. eauto. }
    split; [discriminate|]. split; [constructor|]. split; [intros [] c H; discriminate|]. split; [discriminate|exact I]. }
  exists a, a, a. split; [exact P|]. split; [exact P|]. split; [exact P|]. split; [apply same_form_refl, P|]. split; [apply same_form_refl, P|].
  split; apply obs_eq_refl, P.
Qed.

(** an observation without a bit mask equals one with a bit mask, and the comparison the
    other way round raises; the same for the psf and the mixture *)
Theorem C32_presence_refuted :
  (forall v c, obs_eq (ov1 None None None v) (ov1 (Some c) None None v) = Ok true /\
     obs_eq (ov1 (Some c) None None v) (ov1 None None None v) = Raise AttributeError) /\
  (forall v q, obs_eq (ov1 None None None v) (ov1 None None (Some q) v) = Ok true /\
     obs_eq (ov1 None None (Some q) v) (ov1 None None None v) = Raise RuntimeError) /\
  (forall v g, obs_eq (ov1 None None None v) (ov1 None (Some g) None v) = Ok true /\
     obs_eq (ov1 None (Some g) None v) (ov1 None None None v) = Raise RuntimeError).
Proof. exact (conj missing_bmask (conj missing_psf missing_gmix)). Qed.
Print Assumptions C32_presence_refuted.
(** a single pixel equals a constant image of any size *)
Theorem C32_shapes_refuted : forall v n m,
  obs_eq (OV (im1 v) (im1 1) jac1 (fun _ => None) None [] true true None)
         (OV (mkArr n m (fun _ _ => v)) (mkArr n m (fun _ _ => 1)) jac1 (fun _ => None) None [] true true None) = Ok true.
Proof. exact broadcast_obs. Qed.
Print Assumptions C32_shapes_refuted.
(** images of other shapes raise *)
Theorem C32_shapes_raise_refuted : exists a b, proper a /\ proper b /\ obs_eq a b = Raise ValueError.
Proof.
  eexists. eexists. split; [|split; [|exact wrong_shape_obs]];
    (cbn; split; [constructor|split; [discriminate|split; [discriminate|exact I]]]).
Qed.
Print Assumptions C32_shapes_raise_refuted.
(** an image with a NaN is not equal to itself *)
Theorem C32_nan_refuted : exists a : arr2 xr, arr2_eq xeqb a a = Ok false.
Proof. exact nan_not_equal. Qed.
Print Assumptions C32_nan_refuted.

(** lists: equal exactly when all elements are, in order *)
Theorem C32_lists : forall a b, obslist_eq a b = Ok true <->
  Forall2 (fun x y => obs_eq x y = Ok true) (ol_items a) (ol_items b).
Proof. exact (list_eq_true obs_eq). Qed.
Print Assumptions C32_lists.
Theorem C32_multiband_lists : forall a b, mbobs_eq a b = Ok true <->
  Forall2 (fun x y => Forall2 (fun u v => obs_eq u v = Ok true) (ol_items x) (ol_items y)) (ol_items a) (ol_items b).
Proof.
  intros a b. unfold mbobs_eq. rewrite list_eq_true. split; intros H; induction H; constructor; auto; apply list_eq_true; auto.
Qed.
Print Assumptions C32_multiband_lists.
(** but the dictionaries of the lists are not compared *)
Theorem C32_list_meta_refuted : forall (d d' : dict) (l : list obsval), Forall proper l ->
  obslist_eq (mkOL l d) (mkOL l d') = Ok true.
Proof. exact metas_ignored. Qed.
Print Assumptions C32_list_meta_refuted.

(** C33: a copy equals the original *)
Theorem C33_copy_eq : forall p i m' i', let m := exec empty_mem p in
  (forall d, In d (m_metas m) -> NoDup (map fst d)) -> step (CopyObs i) m = (m', Ok i') ->
  exists v v', reads m' i v /\ reads m' i' v' /\ obs_eq v v' = Ok true /\ obs_eq v' v = Ok true.
Proof.
  cbv zeta. intros p i m' i' D H. destruct (ObsThm_Proofs.copy_equal p i m' i' H) as (v & A & B & C).
  exists v, v. split; [exact (C i v A)|]. split; [exact B|]. split; apply obs_eq_refl; exact (reads_proper p i v D A).
Qed.
Print Assumptions C33_copy_eq.
Example C33_copy_eq_hypotheses_hold : exists p i m' i', let m := exec empty_mem p in
  (forall d, In d (m_metas m) -> NoDup (map fst d)) /\ step (CopyObs i) m = (m', Ok i').
Proof.
  exists p1, 0%nat. cbv zeta. rewrite run1. destruct example_copy as [m' E]. exists m', 1%nat. split; [|exact E].
  intros d [<-|[]]. constructor.
Qed.
