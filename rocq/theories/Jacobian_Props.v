(** C11, C12 *)
From Verif Require Import Base Jacobian_Model Jacobian_Spec Jacobian_Proofs.

Example C11_hypotheses_hold :
  exists j, Jacobian_init (kw_rowcol 3 4 2 1 (-1) 3) = Ok j /\ consistent j /\ true_det j <> 0.
Proof.
  eexists; split; [reflexivity|]. split; [apply finish_consistent|]. unfold true_det; cbn; lra.
Qed.

(** every Jacobian that can be built, copied or moved has coherent redundant fields *)
Theorem C11_constructed_consistent : forall kw j, Jacobian_init kw = Ok j -> consistent j.
Proof. exact init_consistent. Qed.
Print Assumptions C11_constructed_consistent.

Theorem C11_vu_is_the_affine_map : forall j r c v u, get_vu j r c = (v,u) <-> maps_to j r c v u.
Proof. exact get_vu_maps. Qed.
Print Assumptions C11_vu_is_the_affine_map.

Theorem C11_rowcol_of_vu : forall j r c v u,
  consistent j -> true_det j <> 0 -> get_vu j r c = (v,u) -> get_rowcol j v u = Ok (r,c).
Proof. exact rowcol_of_vu. Qed.
Print Assumptions C11_rowcol_of_vu.

Theorem C11_vu_of_rowcol : forall j r c v u,
  consistent j -> true_det j <> 0 -> get_rowcol j v u = Ok (r,c) -> get_vu j r c = (v,u).
Proof. exact vu_of_rowcol. Qed.
Print Assumptions C11_vu_of_rowcol.

Theorem C11_rowcol_total : forall j v u,
  consistent j -> true_det j <> 0 -> exists r c, get_rowcol j v u = Ok (r,c).
Proof. exact rowcol_total. Qed.
Print Assumptions C11_rowcol_total.

Theorem C11_singular_raises : forall j v u,
  consistent j -> (get_rowcol j v u = Raise ZeroDivisionError <-> true_det j = 0).
Proof. exact rowcol_raises. Qed.
Print Assumptions C11_singular_raises.

Theorem C11_centre_is_origin : forall j, get_vu j (fst (get_cen j)) (snd (get_cen j)) = (0,0).
Proof. exact cen_maps. Qed.
Print Assumptions C11_centre_is_origin.

Theorem C12_scale_det_area : forall j, consistent j ->
  get_det j = true_det j /\ get_scale j = sqrt (Rabs (true_det j)) /\
  get_area j = Rabs (true_det j) /\ jacobian_get_area j = get_area j /\ get_area j = get_scale j ^ 2.
Proof. exact consistent_scale. Qed.
Print Assumptions C12_scale_det_area.

(** the four ways of giving the same transformation build the same object *)
Theorem C12_constructions_agree : forall r c dvdr dvdc dudr dudc,
  exists j,
  Jacobian_init (kw_rowcol r c dvdr dvdc dudr dudc) = Ok j /\
  Jacobian_init (kw_xy c r dudc dudr dvdc dvdr) = Ok j /\
  Jacobian_init (kw_rowcol_wcs r c (mkWcs dudc dudr dvdc dvdr)) = Ok j /\
  Jacobian_init (kw_xy_wcs c r (mkWcs dudc dudr dvdc dvdr)) = Ok j /\
  get_cen j = (r,c) /\ dvdrow j = dvdr /\ dvdcol j = dvdc /\ dudrow j = dudr /\ dudcol j = dudc.
Proof. intros r c dvdr dvdc dudr dudc. exact (ex_intro _ _ (init_same r c dvdr dvdc dudr dudc)). Qed.
Print Assumptions C12_constructions_agree.

Theorem C12_incomplete_arguments_raise : forall kw,
  (k_x kw = None -> k_row kw = None -> Jacobian_init kw = Raise ValueError) /\
  (k_x kw <> None -> k_wcs kw = None ->
     (k_y kw = None \/ k_dudx kw = None \/ k_dudy kw = None \/ k_dvdx kw = None \/ k_dvdy kw = None) ->
     Jacobian_init kw = Raise ValueError) /\
  (k_x kw = None -> k_row kw <> None -> k_wcs kw = None ->
     (k_col kw = None \/ k_dvdrow kw = None \/ k_dvdcol kw = None \/ k_dudrow kw = None \/ k_dudcol kw = None) ->
     Jacobian_init kw = Raise ValueError).
Proof. exact init_errors. Qed.
Print Assumptions C12_incomplete_arguments_raise.

Theorem C12_diagonal : forall scale r c,
  exists j, DiagonalJacobian_init scale (mkKw None None (Some r) (Some c) None None None None None None None None None) = Ok j /\
    DiagonalJacobian_init scale (mkKw (Some c) (Some r) None None None None None None None None None None None) = Ok j /\
    (forall row col, get_vu j row col = (scale * (row - r), scale * (col - c))) /\
    get_scale j = Rabs scale /\ get_cen j = (r,c).
Proof. exact diagonal_spec. Qed.
Print Assumptions C12_diagonal.

Theorem C12_unit : forall kw, UnitJacobian_init kw = DiagonalJacobian_init 1 kw.
Proof. exact unit_spec. Qed.
Print Assumptions C12_unit.

Theorem C12_set_cen : forall j r c kw,
  (k_row kw = Some r /\ k_col kw = Some c) \/ (k_row kw = None /\ k_x kw = Some c /\ k_y kw = Some r) ->
  exists j', set_cen j kw = (j', Ok tt) /\ get_cen j' = (r,c) /\ same_matrix j j' /\
             jdet j' = jdet j /\ jscale j' = jscale j.
Proof. exact set_cen_ok. Qed.
Print Assumptions C12_set_cen.

(** a set_cen that raises can leave the centre half changed *)
Theorem C12_failed_set_cen_refuted :
  exists j kw j', set_cen j kw = (j', Raise KeyError) /\ j' <> j.
Proof. exact set_cen_refuted. Qed.
Print Assumptions C12_failed_set_cen_refuted.

Theorem C12_equality : forall a b, Jacobian_eq a b = true <-> a = b.
Proof. exact eq_iff. Qed.
Print Assumptions C12_equality.

Theorem C12_copy_equal : forall j, consistent j -> Jacobian_copy j = Ok j.
Proof. exact copy_eq. Qed.
Print Assumptions C12_copy_equal.

(** after any history of copies and re-centrings that never targets it, an object and
    its copy keep their value *)
Theorem C12_copy_independent : forall h i j ops,
  nth_error h i = Some j -> consistent j ->
  let h' := jstep h (JCopy i) in
  let k := length h in
  nth_error h' k = Some j /\ k <> i /\
  ((forall o, In o ops -> ~ targets o k) -> nth_error (fold_left jstep ops h') k = Some j) /\
  ((forall o, In o ops -> ~ targets o i) -> nth_error (fold_left jstep ops h') i = Some j).
Proof. exact copy_independent. Qed.
Print Assumptions C12_copy_independent.

Theorem C12_reachable_consistent : forall ops h,
  Forall consistent h -> Forall consistent (fold_left jstep ops h).
Proof. exact jsteps_inv. Qed.
Print Assumptions C12_reachable_consistent.

Theorem C12_galsim_wcs_round_trip : forall j, consistent j ->
  Jacobian_init (kw_rowcol_wcs (row0 j) (col0 j) (get_galsim_wcs j)) = Ok j.
Proof. exact galsim_roundtrip. Qed.
Print Assumptions C12_galsim_wcs_round_trip.
