(** Properties C17-C20: GMix objects, their copies and their cached fields. *)
From Verif Require Import Base Shape_Spec Moments_Spec Jacobian_Model Pixels_Model GMix_Model GMix_Spec Render_Model Render_Spec
  WSums_Model GMixObj_Model GMixObj_Spec GMixObj_Proofs.

(** C17.  Independence: whatever objects a program has created, a call on one of them
    changes no other; copies, sheared, rounded and convolved mixtures are new objects. *)
Theorem C17_calls_change_one_object : forall l1 l2 h h' j x,
  run empty_heap l1 = Some h -> run h l2 = Some h' ->
  (forall m, ~ In (OCall j m) l2) -> read h j = Some x -> read h' j = Some x.
Proof. exact (fun l1 l2 h h' j x H1 H2 Hn Hx => run_frame l2 l1 h h' j x H1 H2 Hn Hx). Qed.
Print Assumptions C17_calls_change_one_object.
Theorem C17_call_on_object : forall l h i m x x' r,
  run empty_heap l = Some h -> read h i = Some x -> call x m = Some (x', r) ->
  exists h', step h (OCall i m) = Some (h', r) /\ read h' i = Some x'.
Proof. exact step_call. Qed.
Print Assumptions C17_call_on_object.
Theorem C17_new_object : forall l h i n x y,
  run empty_heap l = Some h -> read h i = Some x -> make x n = Some (Ok y) ->
  exists h', step h (OMake i n) = Some (h', Ok tt) /\ read h' (length (h_objs h)) = Some y /\ read h' i = Some x.
Proof. exact step_make. Qed.
Print Assumptions C17_new_object.

(** Equality for plain mixtures, whatever their history. *)
Theorem C17_plain_copy_equal : forall o, o_kind o = KFull ->
  exists c, obj_copy o = Ok c /\ o_kind c = KFull /\ o_ngauss c = o_ngauss o /\ o_data c = o_data o /\
    gmix_eq (o_data o) (o_data c) = Ok true.
Proof. exact full_copy_equal. Qed.
Print Assumptions C17_plain_copy_equal.

(** Equality for every class after any calls except set_flux and a rejected fill.  (The
    full claim has no such restriction; it is false, see below.) *)
Theorem C17_copy_equal_partial : forall l o o', built o -> all_keep o l -> calls o l = Some o' ->
  exists c, obj_copy o' = Ok c /\ o_kind c = o_kind o' /\ o_ngauss c = o_ngauss o' /\ gmix_eq (o_data o') (o_data c) = Ok true.
Proof. exact copy_equal. Qed.
Print Assumptions C17_copy_equal_partial.

(** For the model classes a copy forgets set_flux and shears; after a rejected fill it
    raises. *)
Theorem C17_set_flux_lost_refuted : forall o f o', built o -> o_kind o <> KFull ->
  call o (MSetFlux f) = Some (o', Ok tt) ->
  flux_of (o_data o') = f /\ exists c, obj_copy o' = Ok c /\ flux_of (o_data c) = flux_of (o_data o).
Proof. exact set_flux_lost. Qed.
Print Assumptions C17_set_flux_lost_refuted.
Theorem C17_copy_of_sheared_refuted : forall o s1 s2 x, built o -> o_kind o <> KFull ->
  make o (NShear s1 s2) = Some (Ok x) -> obj_copy x = obj_copy o.
Proof. exact shear_is_copy. Qed.
Print Assumptions C17_copy_of_sheared_refuted.
Theorem C17_after_rejected_fill_refuted : forall o pars o' e, built o -> o_kind o <> KFull ->
  length pars = o_npars o -> call o (MFill pars) = Some (o', Raise e) ->
  o_data o' = o_data o /\ obj_copy o' = Raise e.
Proof. exact failed_fill. Qed.
Print Assumptions C17_after_rejected_fill_refuted.

(** an object of a model class meets all these hypotheses *)
Definition ex_pars : list R := [0;0;0;0;2;3].
Definition ex_comp (F : R) : gauss := gauss2d_set (F * 1) 0 0 (/ 2 * 2 * 1 * (1 - 0)) (/ 2 * 2 * 1 * 0) (/ 2 * 2 * 1 * (1 + 0)).
Example C17_hypotheses_hold :
  let o := mkObj (KModel Mgauss) 1 6 ex_pars [ex_comp 3] in
  built o /\ o_kind o <> KFull /\ (exists o', call o (MSetFlux 7) = Some (o', Ok tt)) /\
  (exists o', call o (MFill [0;0;2;0;1;1]) = Some (o', Raise GMixRangeError)) /\
  all_keep o [MSetCen 1 2; MReset] /\ (exists o', calls o [MSetCen 1 2; MReset] = Some o').
Proof.
  assert (G : g1g2_to_e1e2_nb 0 0 = Ok (0,0)) by exact g2e_zero.
  cbn zeta. split; [|split; [discriminate|split; [|split; [|split]]]].
  - right; right; left. exists Mgauss, ex_pars. unfold new_model, finish, obj_fill, obj__fill, blank, ex_pars.
    cbn [length Nat.eqb o_npars model_npars model_ngauss negb o_kind o_ngauss fill_func]. unfold gmix_fill_gauss, gmix_fill_simple, getp.
    cbn [nth_error bind]. rewrite G. reflexivity.
  - cbn [call o_data]. unfold gm_set_flux, np_div. cbn [map ex_comp gauss2d_set g_p]. rewrite rsum_cons.
    rewrite Reqb_f by (unfold rsum; cbn; lra). eexists; reflexivity.
  - cbn [call]. unfold obj_fill, obj__fill. cbn [length Nat.eqb o_npars negb o_kind o_ngauss fill_func].
    unfold gmix_fill_gauss, gmix_fill_simple, getp. cbn [nth_error bind].
    unfold g1g2_to_e1e2_nb. rewrite Rleb_t; [eexists; reflexivity|].
    replace (2 * 2 + 0 * 0) with (2 * 2) by ring. rewrite sqrt_square; lra.
  - cbn [all_keep keeps_pars]. destruct (call _ (MSetCen 1 2)) as [[o1 r]|]; cbn; auto.
  - cbn [calls]. cbn [call o_data]. unfold gm_set_cen, gm_get_cen, np_div. cbn [map ex_comp gauss2d_set g_p g_row g_col]. rewrite !rsum_cons.
    rewrite !(Reqb_f (3 * 1 + _)) by (unfold rsum; cbn; lra). cbn [o_kind set2 o_pars ex_pars calls call]. eexists; reflexivity.
Qed.

(** C18 at the level of objects: right whenever copying is. *)
Theorem C18_get_sheared_partial : forall l o o' s1 s2, built o -> all_keep o l -> calls o l = Some o' ->
  Forall (fun g => posdef (gcov g)) (o_data o') -> in_disk (s1,s2) ->
  exists x, make o' (NShear s1 s2) = Some (Ok x) /\ o_kind x = o_kind o' /\
    Forall2 (fun g g' => g_p g' = g_p g /\ g_row g' = g_row g /\ g_col g' = g_col g /\
               gcov g' = sheared s1 s2 (gcov g) /\ coherent g' /\ g_norm_set g' = false) (o_data o') (o_data x).
Proof. exact (fun l o o' s1 s2 B K E => shear_api o' s1 s2 (copy_after_calls l o o' (built_tracks o B) K E)). Qed.
Print Assumptions C18_get_sheared_partial.
(** A model mixture forgets an earlier shear. *)
Theorem C18_two_shears_refuted : forall o s1 s2 t1 t2 x, built o -> o_kind o <> KFull ->
  make o (NShear s1 s2) = Some (Ok x) -> make x (NShear t1 t2) = make o (NShear t1 t2).
Proof. exact shear_twice. Qed.
Print Assumptions C18_two_shears_refuted.

(** C19 *)
(** the components are round, with the flux and centre they had *)
Theorem C19_round_components : forall gm b gm', gmix_make_round gm b = Some (Ok gm') ->
  exists factor, Forall2 (rounded factor) gm gm'.
Proof. exact round_components. Qed.
Print Assumptions C19_round_components.
(** the common factor: the size becomes 2 sqrt det, or with preserve_size twice the largest
    eigenvalue, of the whole mixture's covariance *)
Theorem C19_size : forall gm, flux_of gm <> 0 -> posdef (cov_of gm) ->
  (exists gm' f, gmix_make_round gm false = Some (Ok gm') /\ Forall2 (rounded f) gm gm' /\
     f * trace2 (cov_of gm) = 2 * sqrt (det2 (cov_of gm))) /\
  (exists gm' f lam, gmix_make_round gm true = Some (Ok gm') /\ Forall2 (rounded f) gm gm' /\
     f * trace2 (cov_of gm) = 2 * lam /\
     lam * lam - trace2 (cov_of gm) * lam + det2 (cov_of gm) = 0 /\
     (forall y, y * y - trace2 (cov_of gm) * y + det2 (cov_of gm) = 0 -> y <= lam)).
Proof. exact round_size. Qed.
Print Assumptions C19_size.
(** consistent for the single-profile models (concentric, co-elliptical).  (The full claim
    is for all mixtures; it is false, see below.) *)
Theorem C19_coelliptical_partial : forall gm row col e1 e2 FT, coelliptical gm row col e1 e2 FT ->
  flux_of gm <> 0 -> posdef (cov_of gm) ->
  exists gm', gmix_make_round gm false = Some (Ok gm') /\ Forall coherent gm' /\ flux_of gm' = flux_of gm /\
    row_of gm' = row /\ col_of gm' = col /\ has_shape (cov_of gm') 0 0 (2 * sqrt (det2 (cov_of gm))).
Proof. exact round_coelliptical. Qed.
Print Assumptions C19_coelliptical_partial.
Example C19_hypotheses_hold :
  let gm := [gauss2d_set 2 0 0 (3/4) 0 (5/4); gauss2d_set 4 0 0 (3/2) 0 (5/2)] in
  coelliptical gm 0 0 (1/4) 0 [(2,2);(4,4)] /\ flux_of gm <> 0 /\ posdef (cov_of gm).
Proof.
  cbn zeta. set (gm := [_; _]).
  assert (H : coelliptical gm 0 0 (1/4) 0 [(2,2);(4,4)]).
  { repeat constructor; unfold has_shape, trace2, coherent, gcov, cov, det2, gauss2d_set; cbn; lra. }
  assert (F : flux_of gm <> 0) by (unfold flux_of, gm; cbn; lra).
  split; [exact H|]. split; [exact F|].
  assert (FF : flux_of gm = 6) by (unfold flux_of, gm; cbn; ring).
  assert (R1 : row_of gm = 0) by (unfold row_of, mean_of; rewrite FF; unfold gm; cbn; field).
  assert (R2 : col_of gm = 0) by (unfold col_of, mean_of; rewrite FF; unfold gm; cbn; field).
  unfold posdef, det2, cov_of. rewrite R1, R2. unfold mean_of. rewrite FF. unfold gm; cbn. lra.
Qed.
(** false in general: the stored determinant is the one of the unrounded component *)
Theorem C19_preserve_size_refuted :
  exists gm', gmix_make_round [gauss2d_set 1 0 0 1 0 4] true = Some (Ok gm') /\ draws_wrong gm'.
Proof. exact stale_preserve. Qed.
Print Assumptions C19_preserve_size_refuted.
Theorem C19_default_refuted :
  exists gm', gmix_make_round [gauss2d_set 1 0 0 1 0 4; gauss2d_set 1 0 0 4 0 1] false = Some (Ok gm') /\ draws_wrong gm'.
Proof. exact stale_default. Qed.
Print Assumptions C19_default_refuted.
(** "The center of all gaussians is set to the common mean" (docstring) does not happen *)
Theorem C19_common_centre_refuted :
  exists gm', gmix_make_round [gauss2d_set 1 1 0 1 0 1; gauss2d_set 1 (-1) 0 1 0 1] false = Some (Ok gm') /\
    map g_row gm' = [1; -1].
Proof. exact round_centres. Qed.
Print Assumptions C19_common_centre_refuted.

(** C20.  In programs without make_round and in which no normalisation fails, no object
    can be told from a mixture built afresh from its parameters.  (The full claim has no
    such restriction; it is false, see below.) *)
Theorem C20_caches_partial : forall l h i o,
  clean empty_heap l -> run empty_heap l = Some h -> read h i = Some o -> o_data o <> [] ->
  exists fr, GMix_pars (gm_get_full_pars (o_data o)) = Ok fr /\ same_use (o_data o) fr.
Proof. exact clean_use. Qed.
Print Assumptions C20_caches_partial.
Example C20_hypotheses_hold : exists h o,
  let l := [ONewFull [1;0;0;1;0;1]; OCall 0 MReset; OCall 0 (MFill [2;0;0;1;0;1]); OMake 0 NCopy] in
  clean empty_heap l /\ run empty_heap l = Some h /\ read h 1 = Some o /\ o_data o <> [].
Proof. do 2 eexists. cbn. repeat split; discriminate. Qed.
(** a normalisation that fails once is forgotten: an object that could not be drawn can be
    drawn the second time *)
Theorem C20_failed_norms_refuted : exists l h o fr, run empty_heap l = Some h /\ read h 0 = Some o /\
  GMix_pars (gm_get_full_pars (o_data o)) = Ok fr /\
  (forall nr nc j fast, snd (make_image fr nr nc (Some j) fast) = Raise GMixRangeError) /\
  (forall nr nc j fast, exists im, snd (make_image (o_data o) nr nc (Some j) fast) = Ok im).
Proof. exact stale_norms. Qed.
Print Assumptions C20_failed_norms_refuted.

(** C14 at the level of objects: GMixModel(pars, model) accepts exactly the documented
    number of parameters and holds the mixture of theorems C14_gauss ... C14_bdf *)
Theorem C14_GMixModel : forall m pars,
  (doc_npars m = Some (length pars) -> match doc_fill m pars with
     | Ok d => exists o, new_model m pars = Ok o /\ o_data o = d /\ o_kind o = KModel m /\ o_ngauss o = length d /\ o_pars o = pars
     | Raise e => new_model m pars = Raise e end) /\
  (doc_npars m <> Some (length pars) -> new_model m pars = Raise ValueError).
Proof. exact new_model_spec. Qed.
Print Assumptions C14_GMixModel.
