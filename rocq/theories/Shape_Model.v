(** Model of ngmix/shape.py: reduced shear, Shape, ellipticity conversions. *)
From Verif Require Import Base.

(** ngmix/shape.py:6 *)
Definition ONE_MINUS_EPS : R := 9999999999999999 / 10000000000000000.

(** ngmix/shape.py:9-35 shear_reduced.  Scalars (python floats): the division by
    A*A + B*B raises ZeroDivisionError when it vanishes.  The array form is the
    same expression elementwise (numpy would give nan instead of raising). *)
Definition shear_reduced (g1 g2 s1 s2 : R) : res (R * R) :=
  let A := 1 + g1 * s1 + g2 * s2 in
  let B := g2 * s1 - g1 * s2 in
  if Reqb (A * A + B * B) 0 then Raise ZeroDivisionError else
  let denom_inv := 1 / (A * A + B * B) in
  let g1o := A * (g1 + s1) + B * (g2 + s2) in
  let g2o := A * (g2 + s2) - B * (g1 + s1) in
  Ok (g1o * denom_inv, g2o * denom_inv).

(** ngmix/shape.py:38-66 class Shape: the three attributes *)
Record shape := mkShape { sh_g1 : R; sh_g2 : R; sh_g : R }.

(** ngmix/shape.py:58-66 Shape.__init__ *)
Definition Shape_init (g1 g2 : R) : res shape :=
  let g := sqrt (g1 * g1 + g2 * g2) in
  if Rleb 1 g then Raise GMixRangeError
  else Ok (mkShape g1 g2 g).

(** ngmix/shape.py:68-83 Shape.set_g1g2.  Mutation: returns the new state of the
    object together with the outcome; g1 and g2 are assigned before the check. *)
Definition Shape_set_g1g2 (self : shape) (g1 g2 : R) : shape * res unit :=
  let self1 := mkShape g1 g2 (sh_g self) in
  let g := sqrt (g1 * g1 + g2 * g2) in
  if Rleb 1 g then (self1, Raise GMixRangeError)
  else (mkShape g1 g2 g, Ok tt).

(** the two calling conventions of get_sheared: a Shape, or scalars (s2 optional) *)
Inductive shear_arg := ByShape (s : shape) | ByScalars (s1 : R) (s2 : option R).

(** ngmix/shape.py:85-112 Shape.get_sheared *)
Definition Shape_get_sheared (self : shape) (a : shear_arg) : res shape :=
  let* (s1, s2) := match a with
                   | ByShape sh => Ok (sh_g1 sh, sh_g2 sh)
                   | ByScalars s1 None => Raise ValueError
                   | ByScalars s1 (Some s2) => Ok (s1, s2)
                   end in
  let* (g1, g2) := shear_reduced (sh_g1 self) (sh_g2 self) s1 s2 in
  Shape_init g1 g2.

(** ngmix/shape.py:114-118 Shape.__neg__ *)
Definition Shape_neg (self : shape) : res shape :=
  Shape_init (- sh_g1 self) (- sh_g2 self).

(** ngmix/shape.py:120-141 Shape.get_rotated *)
Definition Shape_get_rotated (self : shape) (theta : R) : res shape :=
  let twotheta := 2 * theta in
  let cos2angle := cos twotheta in
  let sin2angle := sin twotheta in
  let g1rot := sh_g1 self * cos2angle + sh_g2 self * sin2angle in
  let g2rot := - sh_g1 self * sin2angle + sh_g2 self * cos2angle in
  Shape_init g1rot g2rot.

(** ngmix/shape.py:143-161 Shape.rotate (in place) *)
Definition Shape_rotate (self : shape) (theta : R) : shape * res unit :=
  let twotheta := 2 * theta in
  let cos2angle := cos twotheta in
  let sin2angle := sin twotheta in
  let g1rot := sh_g1 self * cos2angle + sh_g2 self * sin2angle in
  let g2rot := - sh_g1 self * sin2angle + sh_g2 self * cos2angle in
  Shape_set_g1g2 self g1rot g2rot.

(** ngmix/shape.py:163-173 Shape.copy *)
Definition Shape_copy (self : shape) : res shape :=
  Shape_init (sh_g1 self) (sh_g2 self).

(** numpy.arctanh on [0,1): the inverse hyperbolic tangent *)
Definition arctanh (x : R) : R := / 2 * ln ((1 + x) / (1 - x)).

(** ngmix/shape.py:179-235 g1g2_to_e1e2, scalar branch (198, 220-235) *)
Definition g1g2_to_e1e2 (g1 g2 : R) : res (R * R) :=
  let g := sqrt (g1 * g1 + g2 * g2) in
  if Rleb 1 g then Raise GMixRangeError else
  if Reqb g 0 then Ok (0, 0) else
  let eta := 2 * arctanh g in
  let e := tanh eta in
  let e := if Rleb 1 e then ONE_MINUS_EPS else e in
  let fac := e / g in
  Ok (fac * g1, fac * g2).

(** numpy.clip(x, lo, hi) *)
Definition clip (x lo hi : R) : R := Rmin (Rmax x lo) hi.

(** ngmix/shape.py:198-217 g1g2_to_e1e2, array branch; the two input arrays of
    equal size are one list of pairs *)
Definition g1g2_to_e1e2_arr (l : list (R * R)) : res (list (R * R)) :=
  let gs := map (fun p => sqrt (fst p * fst p + snd p * snd p)) l in
  if existsb (fun g => Rleb 1 g) gs then Raise GMixRangeError else
  Ok (map (fun p =>
        let g := sqrt (fst p * fst p + snd p * snd p) in
        let eta := 2 * arctanh g in
        let e := tanh eta in
        let e := clip e 0 ONE_MINUS_EPS in
        if negb (Reqb g 0) then (let fac := e / g in (fac * fst p, fac * snd p))
        else (0, 0)) l).

(** ngmix/shape.py:238-293 e1e2_to_g1g2, scalar branch (253, 273-293) *)
Definition e1e2_to_g1g2 (e1 e2 : R) : res (R * R) :=
  let e := sqrt (e1 * e1 + e2 * e2) in
  if Rleb 1 e then Raise GMixRangeError else
  if Reqb e 0 then Ok (0, 0) else
  let eta := arctanh e in
  let g := tanh (/ 2 * eta) in
  let g := if Rleb 1 g then ONE_MINUS_EPS else g in
  let fac := g / e in
  Ok (fac * e1, fac * e2).

(** ngmix/shape.py:253-271 e1e2_to_g1g2, array branch *)
Definition e1e2_to_g1g2_arr (l : list (R * R)) : res (list (R * R)) :=
  let es := map (fun p => sqrt (fst p * fst p + snd p * snd p)) l in
  if existsb (fun e => Rleb 1 e) es then Raise GMixRangeError else
  Ok (map (fun p =>
        let e := sqrt (fst p * fst p + snd p * snd p) in
        let eta := arctanh e in
        let g := tanh (/ 2 * eta) in
        let g := clip g 0 ONE_MINUS_EPS in
        if negb (Reqb e 0) then (let fac := g / e in (fac * fst p, fac * snd p))
        else (0, 0)) l).

(** ngmix/shape.py:330-347 g1g2_to_eta1eta2, scalar branch *)
Definition g1g2_to_eta1eta2 (g1 g2 : R) : res (R * R) :=
  let g := sqrt (g1 * g1 + g2 * g2) in
  if Rleb 1 g then Raise GMixRangeError else
  if Reqb g 0 then Ok (0, 0) else
  let eta := 2 * arctanh g in
  let fac := eta / g in
  Ok (fac * g1, fac * g2).

(** ngmix/shape.py:311-328 g1g2_to_eta1eta2, array branch *)
Definition g1g2_to_eta1eta2_arr (l : list (R * R)) : res (list (R * R)) :=
  let gs := map (fun p => sqrt (fst p * fst p + snd p * snd p)) l in
  if existsb (fun g => Rleb 1 g) gs then Raise GMixRangeError else
  Ok (map (fun p =>
        let g := sqrt (fst p * fst p + snd p * snd p) in
        if Rltb 0 g then
          (let eta := 2 * arctanh g in
           let fac := eta / g in (fac * fst p, fac * snd p))
        else (0, 0)) l).

(** ngmix/shape.py:372-387 e1e2_to_eta1eta2, array code *)
Definition e1e2_to_eta1eta2_arr (l : list (R * R)) : res (list (R * R)) :=
  let es := map (fun p => sqrt (fst p * fst p + snd p * snd p)) l in
  if existsb (fun e => Rleb 1 e) es then Raise GMixRangeError else
  Ok (map (fun p =>
        let e := sqrt (fst p * fst p + snd p * snd p) in
        if Rltb 0 e then
          (let eta := arctanh e in
           let fac := eta / e in (fac * fst p, fac * snd p))
        else (0, 0)) l).

(** ngmix/shape.py:365-370, 389-393: a scalar is wrapped in an array of size one
    and unwrapped with [0] *)
Definition unwrap1 (r : res (list (R * R))) : res (R * R) :=
  let* l := r in
  match l with x :: _ => Ok x | [] => Raise IndexError end.

Definition e1e2_to_eta1eta2 (e1 e2 : R) : res (R * R) :=
  unwrap1 (e1e2_to_eta1eta2_arr [(e1, e2)]).

(** ngmix/shape.py:418-434 eta1eta2_to_g1g2, array code *)
Definition eta1eta2_to_g1g2_arr (l : list (R * R)) : res (list (R * R)) :=
  let gs := map (fun p => tanh (/ 2 * sqrt (fst p * fst p + snd p * snd p))) l in
  if existsb (fun g => Rleb 1 g) gs then Raise GMixRangeError else
  Ok (map (fun p =>
        let eta := sqrt (fst p * fst p + snd p * snd p) in
        let g := tanh (/ 2 * eta) in
        if negb (Reqb eta 0) then (let fac := g / eta in (fac * fst p, fac * snd p))
        else (0, 0)) l).

(** ngmix/shape.py:411-416, 436-440 eta1eta2_to_g1g2 on scalars *)
Definition eta1eta2_to_g1g2 (eta1 eta2 : R) : res (R * R) :=
  unwrap1 (eta1eta2_to_g1g2_arr [(eta1, eta2)]).

(** ngmix/shape.py:443-468 dgs_by_dgo_jacob (python floats) *)
Definition dgs_by_dgo_jacob (g1 g2 s1 s2 : R) : res R :=
  let ssq := s1 * s1 + s2 * s2 in
  let num := (ssq - 1) ^ 2 in
  let denom := (1 + 2 * g1 * s1 + 2 * g2 * s2 + g1 ^ 2 * ssq + g2 ^ 2 * ssq) ^ 2 in
  if Reqb denom 0 then Raise ZeroDivisionError else Ok (num / denom).

(** ngmix/shape.py:471-489 get_round_factor *)
Definition get_round_factor (g1 g2 : R) : R :=
  let gsq := g1 ^ 2 + g2 ^ 2 in
  (1 - gsq) / (1 + gsq).

(** ngmix/shape.py:492-517 rotate_shape *)
Definition rotate_shape (g1 g2 theta : R) : R * R :=
  let twotheta := 2 * theta in
  let cos2angle := cos twotheta in
  let sin2angle := sin twotheta in
  let g1rot := g1 * cos2angle + g2 * sin2angle in
  let g2rot := - g1 * sin2angle + g2 * cos2angle in
  (g1rot, g2rot).
