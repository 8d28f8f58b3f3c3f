(** Properties C01-C06. *)
From Verif Require Import Base Shape_Model Shape_Spec Shape_Proofs.

(** C01: shearing a valid shape by a valid shear never fails and stays in the disk,
    for both calling conventions. *)
Theorem C01_get_sheared_valid : forall self s1 s2,
  valid_shape self -> in_disk (s1,s2) ->
  exists s', Shape_get_sheared self (ByScalars s1 (Some s2)) = Ok s' /\
             valid_shape s' /\ sh_g s' < 1 /\
             shear_reduced (sh_g1 self) (sh_g2 self) s1 s2 = Ok (sh_g1 s', sh_g2 s').
Proof. exact get_sheared_valid. Qed.
Print Assumptions C01_get_sheared_valid.

Theorem C01_by_shape_same : forall self sh,
  Shape_get_sheared self (ByShape sh) =
  Shape_get_sheared self (ByScalars (sh_g1 sh) (Some (sh_g2 sh))).
Proof. exact get_sheared_by_shape. Qed.
Print Assumptions C01_by_shape_same.

(** the constructor accepts exactly the open unit disk *)
Theorem C01_constructor_accepts : forall g1 g2, in_disk (g1,g2) ->
  Shape_init g1 g2 = Ok (mkShape g1 g2 (sqrt (g1*g1+g2*g2))).
Proof. exact Shape_init_ok. Qed.
Print Assumptions C01_constructor_accepts.

Theorem C01_constructor_rejects : forall g1 g2, ~ in_disk (g1,g2) ->
  Shape_init g1 g2 = Raise GMixRangeError.
Proof. exact Shape_init_raise. Qed.
Print Assumptions C01_constructor_rejects.

Example C01_hypotheses_hold :
  valid_shape (mkShape (3/10) (4/10) (sqrt (3/10*(3/10)+4/10*(4/10)))) /\ in_disk (-1/2, 7/10).
Proof.
  split; [apply init_valid, Shape_init_ok|]; unfold in_disk, cmod2; cbn; lra.
Qed.

(** C02: shear_reduced succeeds with z exactly when z = (g+s)/(1+conj(s) g). *)
Theorem C02_moebius : forall g1 g2 s1 s2 z,
  shear_reduced g1 g2 s1 s2 = Ok z <-> moebius (g1,g2) (s1,s2) z.
Proof. exact shear_moebius_iff. Qed.
Print Assumptions C02_moebius.

Theorem C02_raises_iff : forall g1 g2 s1 s2,
  shear_reduced g1 g2 s1 s2 = Raise ZeroDivisionError <->
  cadd cone (cmul (cconj (s1,s2)) (g1,g2)) = czero.
Proof. exact shear_raises_iff. Qed.
Print Assumptions C02_raises_iff.

Theorem C02_zero_shear_identity : forall g1 g2, shear_reduced g1 g2 0 0 = Ok (g1, g2).
Proof. exact shear_zero_id. Qed.
Print Assumptions C02_zero_shear_identity.

Theorem C02_negative_shear_undoes : forall g1 g2 s1 s2 z1 z2,
  cmod2 (s1,s2) <> 1 ->
  shear_reduced g1 g2 s1 s2 = Ok (z1,z2) ->
  shear_reduced z1 z2 (-s1) (-s2) = Ok (g1,g2).
Proof. exact shear_undo. Qed.
Print Assumptions C02_negative_shear_undoes.

Theorem C02_modulus_symmetric : forall g1 g2 s1 s2 z w,
  shear_reduced g1 g2 s1 s2 = Ok z -> shear_reduced s1 s2 g1 g2 = Ok w ->
  cmod2 z = cmod2 w.
Proof. exact shear_modulus_sym. Qed.
Print Assumptions C02_modulus_symmetric.

Theorem C02_rotation_equivariant : forall g1 g2 s1 s2 z1 z2 t,
  shear_reduced g1 g2 s1 s2 = Ok (z1,z2) ->
  let (g1',g2') := rotate_shape g1 g2 t in
  let (s1',s2') := rotate_shape s1 s2 t in
  shear_reduced g1' g2' s1' s2' = Ok (rotate_shape z1 z2 t).
Proof. exact shear_rotation_equivariant. Qed.
Print Assumptions C02_rotation_equivariant.

Example C02_hypotheses_hold :
  cmod2 (2/10, -1/10) <> 1 /\
  exists z, shear_reduced (3/10) (4/10) (2/10) (-1/10) = Ok z.
Proof.
  split; [unfold cmod2; cbn; lra|].
  apply shear_total; unfold in_disk, cmod2; cbn; lra.
Qed.

(** C03 *)
Theorem C03_rotation_is_phase : forall g1 g2 t,
  rotate_shape g1 g2 t = cmul (g1,g2) (cexp_i (- (2*t))).
Proof. exact rotate_shape_spec. Qed.
Print Assumptions C03_rotation_is_phase.

Theorem C03_modulus_preserved : forall g1 g2 t,
  cmod2 (rotate_shape g1 g2 t) = cmod2 (g1,g2).
Proof. exact rotate_shape_mod. Qed.
Print Assumptions C03_modulus_preserved.

(** Shape.get_rotated never fails on a valid shape, agrees with rotate_shape and
    keeps the stored modulus; rotate() in place has the same effect *)
Theorem C03_get_rotated : forall self t, valid_shape self ->
  Shape_get_rotated self t =
  Ok (mkShape (fst (rotate_shape (sh_g1 self) (sh_g2 self) t))
              (snd (rotate_shape (sh_g1 self) (sh_g2 self) t)) (sh_g self)).
Proof. exact get_rotated_eq. Qed.
Print Assumptions C03_get_rotated.

Theorem C03_rotate_in_place : forall self t, valid_shape self ->
  exists s', Shape_get_rotated self t = Ok s' /\ Shape_rotate self t = (s', Ok tt).
Proof. exact rotate_inplace_eq. Qed.
Print Assumptions C03_rotate_in_place.

Theorem C03_compose : forall self t u a b, valid_shape self ->
  Shape_get_rotated self t = Ok a -> Shape_get_rotated a u = Ok b ->
  Shape_get_rotated self (t + u) = Ok b.
Proof. exact get_rotated_compose. Qed.
Print Assumptions C03_compose.

Theorem C03_zero_and_pi : forall g1 g2,
  rotate_shape g1 g2 0 = (g1,g2) /\ rotate_shape g1 g2 PI = (g1,g2).
Proof. exact (fun g1 g2 => conj (rotate_zero g1 g2) (rotate_pi g1 g2)). Qed.
Print Assumptions C03_zero_and_pi.

Theorem C03_undo : forall self t a, valid_shape self ->
  Shape_get_rotated self t = Ok a -> Shape_get_rotated a (-t) = Ok self.
Proof. exact get_rotated_undo. Qed.
Print Assumptions C03_undo.

Theorem C03_copy_and_neg : forall self, valid_shape self ->
  Shape_copy self = Ok self /\
  Shape_neg self = Ok (mkShape (- sh_g1 self) (- sh_g2 self) (sh_g self)).
Proof. exact copy_and_neg. Qed.
Print Assumptions C03_copy_and_neg.

Example C03_hypotheses_hold :
  let s := mkShape (3/10) (4/10) (sqrt (3/10*(3/10)+4/10*(4/10))) in
  valid_shape s /\ exists a, Shape_get_rotated s (PI/3) = Ok a.
Proof.
  cbn zeta. assert (V : valid_shape (mkShape (3/10) (4/10) (sqrt (3/10*(3/10)+4/10*(4/10))))).
  { apply init_valid, Shape_init_ok. unfold in_disk, cmod2; cbn; lra. }
  split; [exact V|]. eexists. apply get_rotated_eq; exact V.
Qed.

(** C04: each scalar conversion realises the textbook relation, raises exactly
    outside the open unit disk, and the pairs are inverse to each other. *)
Theorem C04_g_to_e : forall g1 g2, in_disk (g1,g2) ->
  exists e, g1g2_to_e1e2 g1 g2 = Ok e /\ e_of_g (g1,g2) e /\ in_disk e.
Proof. exact g2e_spec. Qed.
Print Assumptions C04_g_to_e.

Theorem C04_e_to_g : forall e1 e2, in_disk (e1,e2) ->
  exists g, e1e2_to_g1g2 e1 e2 = Ok g /\ e_of_g g (e1,e2) /\ in_disk g.
Proof. exact e2g_spec. Qed.
Print Assumptions C04_e_to_g.

Theorem C04_g_to_eta : forall g1 g2, in_disk (g1,g2) ->
  exists eta, g1g2_to_eta1eta2 g1 g2 = Ok eta /\ eta_of_g (g1,g2) eta.
Proof. exact g2eta_spec. Qed.
Print Assumptions C04_g_to_eta.

Theorem C04_eta_to_g : forall a b,
  exists g, eta1eta2_to_g1g2 a b = Ok g /\ eta_of_g g (a,b) /\ in_disk g.
Proof. exact eta2g_spec. Qed.
Print Assumptions C04_eta_to_g.

Theorem C04_e_to_eta : forall e1 e2,
  e1e2_to_eta1eta2 e1 e2 =
  (let* (g1, g2) := e1e2_to_g1g2 e1 e2 in g1g2_to_eta1eta2 g1 g2).
Proof. exact e2eta_via_g. Qed.
Print Assumptions C04_e_to_eta.

Theorem C04_roundtrip_g_e : forall g1 g2 e1 e2,
  g1g2_to_e1e2 g1 g2 = Ok (e1,e2) <-> e1e2_to_g1g2 e1 e2 = Ok (g1,g2).
Proof. exact (fun g1 g2 e1 e2 => conj (g2e_e2g g1 g2 e1 e2) (e2g_g2e e1 e2 g1 g2)). Qed.
Print Assumptions C04_roundtrip_g_e.

Theorem C04_roundtrip_g_eta : forall g1 g2 a b,
  g1g2_to_eta1eta2 g1 g2 = Ok (a,b) <-> eta1eta2_to_g1g2 a b = Ok (g1,g2).
Proof. exact (fun g1 g2 a b => conj (g2eta_eta2g g1 g2 a b) (eta2g_g2eta a b g1 g2)). Qed.
Print Assumptions C04_roundtrip_g_eta.

Theorem C04_raise_outside : forall x y, ~ in_disk (x,y) ->
  g1g2_to_e1e2 x y = Raise GMixRangeError /\ e1e2_to_g1g2 x y = Raise GMixRangeError /\
  g1g2_to_eta1eta2 x y = Raise GMixRangeError /\ e1e2_to_eta1eta2 x y = Raise GMixRangeError.
Proof. exact scalar_raise. Qed.
Print Assumptions C04_raise_outside.

(** array forms: elementwise the scalar result, with the modulus limited to
    ONE_MINUS_EPS for the e/g pair; one bad element makes the whole call raise *)
Theorem C04_arrays_g_e : forall l, (forall p, In p l -> in_disk p) ->
  (exists out, g1g2_to_e1e2_arr l = Ok out /\
    Forall2 (fun p q => exists e, g1g2_to_e1e2 (fst p) (snd p) = Ok e /\ q = clamp_mod e) l out) /\
  (exists out, e1e2_to_g1g2_arr l = Ok out /\
    Forall2 (fun p q => exists e, e1e2_to_g1g2 (fst p) (snd p) = Ok e /\ q = clamp_mod e) l out).
Proof. exact (fun l H => conj (g2e_arr_eq l H) (e2g_arr_eq l H)). Qed.
Print Assumptions C04_arrays_g_e.

Theorem C04_arrays_eta : forall l, (forall p, In p l -> in_disk p) ->
  (exists out, g1g2_to_eta1eta2_arr l = Ok out /\
    Forall2 (fun p q => g1g2_to_eta1eta2 (fst p) (snd p) = Ok q) l out) /\
  (exists out, e1e2_to_eta1eta2_arr l = Ok out /\
    Forall2 (fun p q => e1e2_to_eta1eta2 (fst p) (snd p) = Ok q) l out).
Proof. exact (fun l H => conj (g2eta_arr_eq l H) (e2eta_arr_eq l H)). Qed.
Print Assumptions C04_arrays_eta.

Theorem C04_array_eta_to_g : forall l,
  exists out, eta1eta2_to_g1g2_arr l = Ok out /\
    Forall2 (fun p q => eta1eta2_to_g1g2 (fst p) (snd p) = Ok q) l out.
Proof. exact eta2g_arr_eq. Qed.
Print Assumptions C04_array_eta_to_g.

Theorem C04_arrays_raise : forall l, (exists p, In p l /\ ~ in_disk p) ->
  g1g2_to_e1e2_arr l = Raise GMixRangeError /\ e1e2_to_g1g2_arr l = Raise GMixRangeError /\
  g1g2_to_eta1eta2_arr l = Raise GMixRangeError /\ e1e2_to_eta1eta2_arr l = Raise GMixRangeError.
Proof. exact arr_raise. Qed.
Print Assumptions C04_arrays_raise.

(** what the clamp does: nothing below the limit, and it never leaves the disk or
    turns the shape *)
Theorem C04_clamp_meaning : forall r,
  (sqrt (cmod2 r) <= 1 - / 10000000000000000 -> clamp_mod r = r) /\
  (in_disk r -> in_disk (clamp_mod r)) /\
  (r <> czero -> same_direction r (clamp_mod r)).
Proof. exact clamp_meaning. Qed.
Print Assumptions C04_clamp_meaning.

Example C04_hypotheses_hold :
  in_disk (3/10, -6/10) /\ ~ in_disk (6/10, 8/10) /\
  (exists p, In p [(0,0); (6/10,8/10)] /\ ~ in_disk p).
Proof.
  split; [|split].
  - unfold in_disk, cmod2; cbn; lra.
  - unfold in_disk, cmod2; cbn; lra.
  - exists (6/10,8/10). split; [right; left; reflexivity|]. unfold in_disk, cmod2; cbn; lra.
Qed.

(** C05 *)
Theorem C05_jacobian : forall g1 g2 s1 s2 J (f : R -> R -> R * R),
  (forall a b z, shear_reduced a b s1 s2 = Ok z -> f a b = z) ->
  dgs_by_dgo_jacob g1 g2 s1 s2 = Ok J ->
  jacobian_det f g1 g2 J.
Proof. exact jacob_det. Qed.
Print Assumptions C05_jacobian.

Theorem C05_defined_iff : forall g1 g2 s1 s2,
  (exists J, dgs_by_dgo_jacob g1 g2 s1 s2 = Ok J) <->
  (exists z, shear_reduced g1 g2 s1 s2 = Ok z).
Proof. exact jacob_defined. Qed.
Print Assumptions C05_defined_iff.

Example C05_hypotheses_hold :
  exists f, (forall a b z, shear_reduced a b (1/10) (2/10) = Ok z -> f a b = z) /\
  exists J, dgs_by_dgo_jacob (3/10) (4/10) (1/10) (2/10) = Ok J.
Proof.
  exists (fun a b => match shear_reduced a b (1/10) (2/10) with Ok z => z | Raise _ => (0,0) end).
  split.
  - intros a b z H. rewrite H. reflexivity.
  - apply jacob_defined. apply shear_total; unfold in_disk, cmod2; cbn; lra.
Qed.

(** C06: the full statement "a failed update leaves the Shape unchanged" is false:
    g1 and g2 keep the rejected values while g keeps the old modulus. *)
Theorem C06_failed_update_refuted :
  exists self a b self',
    valid_shape self /\ Shape_set_g1g2 self a b = (self', Raise GMixRangeError) /\ self' <> self
    /\ ~ valid_shape self' /\ sh_g1 self' = a /\ sh_g2 self' = b /\ sh_g self' = sh_g self.
Proof. exact set_g1g2_refuted. Qed.
Print Assumptions C06_failed_update_refuted.

(** the part that holds: success exactly inside the disk, with the state of a fresh Shape *)
Theorem C06_success_partial : forall self a b,
  in_disk (a,b) -> exists s', Shape_set_g1g2 self a b = (s', Ok tt) /\ Shape_init a b = Ok s'.
Proof. exact set_g1g2_ok. Qed.
Print Assumptions C06_success_partial.

Theorem C06_raises_iff : forall self a b,
  snd (Shape_set_g1g2 self a b) = Raise GMixRangeError <-> ~ in_disk (a,b).
Proof. exact set_g1g2_raises_iff. Qed.
Print Assumptions C06_raises_iff.
