(** What a user expects of Observation objects, stated on the memory. *)
From Verif Require Import Base Jacobian_Model Pixels_Model Obs_Model.

(** the data seen through an ndarray object *)
Definition content_at (m : mem) (a : nat) : option content :=
  match nth_error (m_arrs m) a with
  | None => None
  | Some x => option_map b_data (nth_error (m_bufs m) (a_buf x))
  end.
Definition buffer_of (m : mem) (a : nat) : option nat := option_map a_buf (nth_error (m_arrs m) a).

(** obs.pixels is make_pixels of the current data, or None when pixels are not stored *)
Definition pixels_match (m : mem) (o : obs) : Prop :=
  if ob_store o then
    exists im w j l,
      content_at m (ob_image o) = Some (C2 im) /\ content_at m (ob_weight o) = Some (C2 w) /\
      content_at m (ob_jac o) = Some (CJ j) /\
      make_pixels im w j (ob_ign o) = Ok l /\ ob_pix o = Some l
  else ob_pix o = None.

(** the memory of the data from which the pixels are made *)
Definition pixel_buffer (m : mem) (o : obs) (b : nat) : Prop :=
  buffer_of m (ob_image o) = Some b \/ buffer_of m (ob_weight o) = Some b \/ buffer_of m (ob_jac o) = Some b.

(** Programs that write image, weight and Jacobian data only while all observations that
    use the data are inside a writeable() block, and in which make_pixels never finds an
    image without any positive weight. *)
Fixpoint disciplined (m : mem) (p : list op) : Prop :=
  match p with
  | [] => True
  | x :: p =>
      (forall a c, x = Write a c ->
         forall i o b, nth_error (m_obs m) i = Some o -> ob_wr o = false ->
           buffer_of m a = Some b -> ~ pixel_buffer m o b) /\
      snd (step x m) <> Raise GMixFatalError /\
      disciplined (fst (step x m)) p
  end.

(** ---- the value of an observation: everything reachable from it ---- *)
(** the value of observation i *)
Inductive reads (m : mem) : nat -> obsval -> Prop :=
| Reads i o im w j opts d p pv :
    nth_error (m_obs m) i = Some o ->
    content_at m (ob_image o) = Some (C2 im) ->
    content_at m (ob_weight o) = Some (C2 w) ->
    content_at m (ob_jac o) = Some (CJ j) ->
    (forall s, match ob_opt o s with
               | None => opts s = None
               | Some a => exists c, content_at m a = Some c /\ opts s = Some c
               end) ->
    nth_error (m_metas m) (ob_meta o) = Some d ->
    ob_psf o = Some p -> reads m p pv ->
    reads m i (OV im w j opts (ob_gmix o) d (ob_store o) (ob_ign o) (Some pv))
| ReadsNoPsf i o im w j opts d :
    nth_error (m_obs m) i = Some o ->
    content_at m (ob_image o) = Some (C2 im) ->
    content_at m (ob_weight o) = Some (C2 w) ->
    content_at m (ob_jac o) = Some (CJ j) ->
    (forall s, match ob_opt o s with
               | None => opts s = None
               | Some a => exists c, content_at m a = Some c /\ opts s = Some c
               end) ->
    nth_error (m_metas m) (ob_meta o) = Some d ->
    ob_psf o = None ->
    reads m i (OV im w j opts (ob_gmix o) d (ob_store o) (ob_ign o) None).

(** ---- the objects a call mentions ---- *)
Definition arg_ids (w : arg_arr) : list nat := match w with ANone => [] | AArr a _ => [a] end.
Definition op_arrs (x : op) : list nat :=
  match x with
  | Write a _ => [a]
  | NewObs a _ b c d e _ _ _ _ f _ _ => a :: arg_ids b ++ arg_ids c ++ arg_ids d ++ arg_ids e ++ arg_ids f
  | SetImage _ a _ => [a]
  | SetWeight _ w | SetOpt _ _ w => arg_ids w
  | _ => []
  end.
Definition psf_ids (p : arg_psf) : list nat := match p with PObs i => [i] | _ => [] end.
Definition meta_ids (p : arg_meta) : list nat := match p with DDict i => [i] | _ => [] end.
Definition op_obs (x : op) : list nat :=
  match x with
  | NewObs _ _ _ _ _ _ _ _ p _ _ _ _ => psf_ids p
  | SetImage i _ _ | SetWeight i _ | SetOpt i _ _ | SetJacobian i _ | SetGmix i _ | SetMeta i _
  | UpdateMeta i _ | SetStore i _ | SetIgnore i _ | UpdatePixels i | Enter i | Exit i
  | GetAttr i _ | CopyObs i => [i]
  | SetPsf i p => i :: psf_ids p
  | _ => []
  end.
Definition op_metas (x : op) : list nat :=
  match x with
  | WriteMeta i _ => [i]
  | NewObs _ _ _ _ _ _ _ _ _ d _ _ _ => meta_ids d
  | SetMeta _ d => meta_ids d
  | _ => []
  end.

(** the call mentions no object that existed in m *)
Definition only_later_objects (m : mem) (x : op) : Prop :=
  Forall (fun a => length (m_arrs m) <= a)%nat (op_arrs x) /\
  Forall (fun a => length (m_obs m) <= a)%nat (op_obs x) /\
  Forall (fun a => length (m_metas m) <= a)%nat (op_metas x).
(** the call mentions no object created between m and m' *)
Definition no_object_between (m m' : mem) (x : op) : Prop :=
  Forall (fun a => a < length (m_arrs m) \/ length (m_arrs m') <= a)%nat (op_arrs x) /\
  Forall (fun a => a < length (m_obs m) \/ length (m_obs m') <= a)%nat (op_obs x) /\
  Forall (fun a => a < length (m_metas m) \/ length (m_metas m') <= a)%nat (op_metas x).

(** nothing that existed before the call has changed *)
Definition unchanged (m m' : mem) : Prop :=
  m_obs m' = m_obs m /\
  (forall a c, content_at m a = Some c -> content_at m' a = Some c) /\
  (forall d x, nth_error (m_metas m) d = Some x -> nth_error (m_metas m') d = Some x).

(** ---- groups of calls ---- *)

(** the calls after which the pixels of observation i have been made anew *)
Definition remakes_pixels (x : op) (i : nat) : Prop :=
  match x with
  | SetImage k _ _ | SetWeight k _ | SetJacobian k _ | UpdatePixels k | Exit k => k = i
  | _ => False
  end.
(** setters that check their argument before they assign *)
Definition checked_setter (x : op) (i : nat) : Prop :=
  match x with
  | SetImage k _ _ | SetWeight k _ | SetOpt k _ _ | SetJacobian k _ | SetMeta k _ | UpdateMeta k _ => k = i
  | _ => False
  end.
(** an argument for which ascontiguousarray makes a copy *)
Definition converted (w : arg_arr) : Prop := match w with ANone => True | AArr _ cv => cv = true end.

(** the data shown by an array attribute; None if there is none *)
Definition shown (m : mem) (o : obs) (k : attr) : option content :=
  match k with
  | VImage => content_at m (ob_image o)
  | VWeight => content_at m (ob_weight o)
  | VJac => content_at m (ob_jac o)
  | VOpt s => match ob_opt o s with Some a => content_at m a | None => None end
  end.
(** x assigns the value c to the attribute k of observation i.  Without argument the
    weights are all 1 and the jacobian has its centre in the middle of the image. *)
Definition assigns (m : mem) (o : obs) (x : op) (i : nat) (k : attr) (c : option content) : Prop :=
  match x with
  | SetImage i' a _ => i' = i /\ k = VImage /\ c = content_at m a
  | SetWeight i' (AArr a _) => i' = i /\ k = VWeight /\ c = content_at m a
  | SetWeight i' ANone => i' = i /\ k = VWeight /\
      exists im, shown m o VImage = Some (C2 im) /\ c = Some (C2 (mkArr (nrow im) (ncol im) (fun _ _ => 1)))
  | SetOpt i' s (AArr a _) => i' = i /\ k = VOpt s /\ c = content_at m a
  | SetOpt i' s ANone => i' = i /\ k = VOpt s /\ c = None
  | SetJacobian i' (JJac j) => i' = i /\ k = VJac /\ exists j', Jacobian_copy j = Ok j' /\ c = Some (CJ j')
  | SetJacobian i' JNone => i' = i /\ k = VJac /\
      exists im, shown m o VImage = Some (C2 im) /\
        c = Some (CJ (mkJac ((INR (nrow im) - 1) / 2) ((INR (ncol im) - 1) / 2) 1 0 0 1 1 1))
  | _ => False
  end.
(** everything but the array attributes *)
Definition same_rest (o o' : obs) : Prop :=
  ob_gmix o' = ob_gmix o /\ ob_psf o' = ob_psf o /\ ob_meta o' = ob_meta o /\ ob_store o' = ob_store o /\ ob_ign o' = ob_ign o /\ ob_wr o' = ob_wr o.
