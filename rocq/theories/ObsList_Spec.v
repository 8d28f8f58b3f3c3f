(** What a user expects of the containers of observations. *)
From Verif Require Import Base Pixels_Model Obs_Model Obs_Spec ObsEq_Model ObsList_Model.
Local Open Scope R_scope.

(** all elements have the class the container promises *)
Definition typed (m : lmem) : Prop :=
  forall l c, nth_error (l_conts m) l = Some c ->
    Forall (fun x => class_of m x = Some (elem (ct_cls c))) (ct_items c).
(** the operations the classes define themselves, with integers as indices *)
Definition checked (o : lop) : Prop :=
  match o with LSetSlice _ _ _ _ | LExtend _ _ | LInsert _ _ _ => False | _ => True end.

(** container l is an ObsList of the observations is *)
Definition is_list (m : lmem) (l : nat) (is : list nat) : Prop :=
  exists c, nth_error (l_conts m) l = Some c /\ ct_cls c = CList /\ ct_items c = map RObs is.
(** container b is a MultiBandObsList of these ObsLists *)
Definition is_mb (m : lmem) (b : nat) (ls : list nat) : Prop :=
  exists c, nth_error (l_conts m) b = Some c /\ ct_cls c = CMb /\ ct_items c = map RCont ls.
(** nothing that existed before is changed *)
Definition same_before (m m' : lmem) : Prop :=
  m_obs (l_mem m') = m_obs (l_mem m) /\ m_bufs (l_mem m') = m_bufs (l_mem m) /\ m_arrs (l_mem m') = m_arrs (l_mem m) /\
  (forall d x, nth_error (m_metas (l_mem m)) d = Some x -> nth_error (m_metas (l_mem m')) d = Some x) /\
  (forall l c, nth_error (l_conts m) l = Some c -> nth_error (l_conts m') l = Some c) /\ l_kobs m' = l_kobs m.

(** the values of the observations in a list, with its dictionary *)
Definition list_value (m : lmem) (l : nat) (v : olist obsval) : Prop :=
  exists c, nth_error (l_conts m) l = Some c /\ ct_cls c = CList /\
    nth_error (m_metas (l_mem m)) (ct_meta c) = Some (ol_meta v) /\
    Forall2 (fun x u => exists i, x = RObs i /\ reads (l_mem m) i u) (ct_items c) (ol_items v).
Definition mb_value (m : lmem) (b : nat) (v : olist (olist obsval)) : Prop :=
  exists c, nth_error (l_conts m) b = Some c /\ ct_cls c = CMb /\
    nth_error (m_metas (l_mem m)) (ct_meta c) = Some (ol_meta v) /\
    Forall2 (fun x u => exists l, x = RCont l /\ list_value m l u) (ct_items c) (ol_items v).

(** the objects a call mentions *)
Definition ref_obs (x : ref) : list nat := match x with RObs i => [i] | _ => [] end.
Definition ref_conts (x : ref) : list nat := match x with RCont i => [i] | _ => [] end.
Definition lop_arrs (o : lop) : list nat := match o with LBase o => op_arrs o | _ => [] end.
Definition lop_obs (o : lop) : list nat :=
  match o with
  | LBase o => op_obs o
  | LAppend _ x | LSetItem _ _ x | LSetSlice _ _ _ x | LInsert _ _ x | LGetMb x | LGetKMb x => ref_obs x
  | LExtend _ xs => flat_map ref_obs xs
  | _ => []
  end.
Definition lop_metas (o : lop) : list nat :=
  match o with LBase o => op_metas o | LNew _ d => meta_ids d | _ => [] end.
Definition lop_conts (o : lop) : list nat :=
  match o with
  | LAppend l x | LSetItem l _ x | LSetSlice l _ _ x | LInsert l _ x => l :: ref_conts x
  | LExtend l xs => l :: flat_map ref_conts xs
  | LCopy l => [l]
  | LGetMb x | LGetKMb x => ref_conts x
  | _ => []
  end.
Definition later_only (m : lmem) (o : lop) : Prop :=
  Forall (fun a => length (m_arrs (l_mem m)) <= a)%nat (lop_arrs o) /\
  Forall (fun a => length (m_obs (l_mem m)) <= a)%nat (lop_obs o) /\
  Forall (fun a => length (m_metas (l_mem m)) <= a)%nat (lop_metas o) /\
  Forall (fun a => length (l_conts m) <= a)%nat (lop_conts o).
Definition none_between (m m' : lmem) (o : lop) : Prop :=
  Forall (fun a => a < length (m_arrs (l_mem m)) \/ length (m_arrs (l_mem m')) <= a)%nat (lop_arrs o) /\
  Forall (fun a => a < length (m_obs (l_mem m)) \/ length (m_obs (l_mem m')) <= a)%nat (lop_obs o) /\
  Forall (fun a => a < length (m_metas (l_mem m)) \/ length (m_metas (l_mem m')) <= a)%nat (lop_metas o) /\
  Forall (fun a => a < length (l_conts m) \/ length (l_conts m') <= a)%nat (lop_conts o).

(** ---- signal to noise: sums over the pixels with positive weight ---- *)
Definition pixel_sum (im w : arr2 R) (f : R -> R -> R) : R :=
  rsum (map (fun r => rsum (map (fun c => if Rlt_dec 0 (at2 w r c) then f (at2 im r c) (at2 w r c) else 0)
                               (seq 0 (ncol w)))) (seq 0 (nrow w))).
Definition i_sum (v : obsval) : R := let '(OV im w _ _ _ _ _ _ _) := v in pixel_sum im w (fun i _ => i).
Definition v_sum (v : obsval) : R := let '(OV im w _ _ _ _ _ _ _) := v in pixel_sum im w (fun _ x => / x).
Definition n_sum (v : obsval) : R := let '(OV im w _ _ _ _ _ _ _) := v in pixel_sum im w (fun _ _ => 1).
(** some pixel has a positive weight *)
Definition has_weight (v : obsval) : Prop :=
  let '(OV _ w _ _ _ _ _ _ _) := v in exists r c, (r < nrow w)%nat /\ (c < ncol w)%nat /\ 0 < at2 w r c.
