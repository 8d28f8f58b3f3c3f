(** Observations as values: the operations of Obs_Model that the code of metacal and
    simulations performs on objects of its own, without the memory.  Copies share no data
    with the original (C33), so values suffice. *)
From Verif Require Import Base Jacobian_Model Pixels_Model Obs_Model.

(** ngmix/observation.py:812-828 update_pixels: it may raise *)
Definition v_pixels (im w : arr2 R) (j : jac) (store ign : bool) : res unit :=
  if store then rmap (fun _ => tt) (make_pixels im w j ign) else Ok tt.

(** ngmix/observation.py:678-736 copy, __deepcopy__ *)
Fixpoint v_copy (v : obsval) : res obsval :=
  let '(OV im w j opts g d st ig p) := v in
  let* g1 := match g with None => Ok None | Some g => rmap Some (gm_copy g) end in
  let* p' := match p with None => Ok None | Some q => rmap Some (v_copy q) end in
  let* j' := Jacobian_copy j in
  let* _ := v_pixels im w j' st ig in
  let* g2 := match g1 with None => Ok None | Some g => rmap Some (gm_copy g) end in
  Ok (OV im w j' opts g2 d st ig p').

(** ngmix/observation.py:114-154 Observation(im, weight=w, jacobian=j, psf=p) *)
Definition v_new (im w : arr2 R) (j : jac) (p : option obsval) : res obsval :=
  if negb (shape_eqb (nrow w, ncol w) (nrow im, ncol im)) then Raise AssertionError else
  let* j' := Jacobian_copy j in
  let* _ := v_pixels im w j' true true in
  Ok (OV im w j' (fun _ => None) None [] true true p).

(** ngmix/observation.py:313-347 set_image *)
Definition v_set_image (v : obsval) (im : arr2 R) : res obsval :=
  let '(OV old w j opts g d st ig p) := v in
  if negb (shape_eqb (nrow im, ncol im) (nrow old, ncol old)) then Raise AssertionError else
  let* _ := v_pixels im w j st ig in
  Ok (OV im w j opts g d st ig p).
(** ngmix/observation.py:552-562 set_psf *)
Definition v_set_psf (v : obsval) (p : obsval) : obsval :=
  let '(OV im w j opts g d st ig _) := v in OV im w j opts g d st ig (Some p).

Definition v_image (v : obsval) : arr2 R := let '(OV im _ _ _ _ _ _ _ _) := v in im.
Definition v_weight (v : obsval) : arr2 R := let '(OV _ w _ _ _ _ _ _ _) := v in w.
Definition v_jac (v : obsval) : jac := let '(OV _ _ j _ _ _ _ _ _) := v in j.
Definition v_opt (v : obsval) : slot -> option content := let '(OV _ _ _ o _ _ _ _ _) := v in o.
Definition v_gmix (v : obsval) : option gmobj := let '(OV _ _ _ _ g _ _ _ _) := v in g.
Definition v_meta (v : obsval) : dict := let '(OV _ _ _ _ _ d _ _ _) := v in d.
Definition v_psf (v : obsval) : option obsval := let '(OV _ _ _ _ _ _ _ _ p) := v in p.
