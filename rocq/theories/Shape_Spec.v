(** What the shape properties mean, independent of the model in Shape_Model. *)
From Verif Require Import Base Shape_Model.

(** complex numbers as pairs *)
Definition C := (R * R)%type.
Definition cadd (a b : C) : C := (fst a + fst b, snd a + snd b).
Definition cmul (a b : C) : C :=
  (fst a * fst b - snd a * snd b, fst a * snd b + snd a * fst b).
Definition cconj (a : C) : C := (fst a, - snd a).
Definition cneg (a : C) : C := (- fst a, - snd a).
Definition cone : C := (1, 0).
Definition czero : C := (0, 0).
(** squared modulus *)
Definition cmod2 (a : C) : R := fst a * fst a + snd a * snd a.
(** e^{i t} *)
Definition cexp_i (t : R) : C := (cos t, sin t).

(** z = (g + s) / (1 + conj(s) g), as a product so that no division is needed *)
Definition moebius (g s z : C) : Prop :=
  cadd cone (cmul (cconj s) g) <> czero /\
  cmul z (cadd cone (cmul (cconj s) g)) = cadd g s.

Definition in_disk (a : C) : Prop := cmod2 a < 1.

(** a Shape object in a consistent state: inside the disk, stored modulus right *)
Definition valid_shape (s : shape) : Prop :=
  in_disk (sh_g1 s, sh_g2 s) /\ sh_g s = sqrt (cmod2 (sh_g1 s, sh_g2 s)).

(** limit the modulus to 1 - 1e-16, keeping the direction *)
Definition clamp_mod (r : C) : C :=
  let m := sqrt (cmod2 r) in
  let lim := 1 - / 10000000000000000 in
  if Rleb m lim then r else (lim / m * fst r, lim / m * snd r).

(** b points along a (same position angle) *)
Definition same_direction (a b : C) : Prop :=
  exists k, 0 < k /\ b = (k * fst a, k * snd a).

(** the "distortion" ellipticity belonging to reduced shear g (the closed form
    quoted in the doc string, e = 2 g / (1 + |g|^2)) *)
Definition e_of_g (g e : C) : Prop :=
  fst e * (1 + cmod2 g) = 2 * fst g /\ snd e * (1 + cmod2 g) = 2 * snd g.

(** conformal shear eta: |g| = tanh(|eta|/2), same direction *)
Definition eta_of_g (g eta : C) : Prop :=
  sqrt (cmod2 g) = tanh (sqrt (cmod2 eta) / 2) /\
  (g = czero <-> eta = czero) /\
  (g <> czero -> same_direction g eta).

(** J is the Jacobian determinant of f at (x,y) *)
Definition jacobian_det (f : R -> R -> R * R) (x y J : R) : Prop :=
  exists fx fy gx gy,
    derivable_pt_lim (fun t => fst (f t y)) x fx /\
    derivable_pt_lim (fun t => fst (f x t)) y fy /\
    derivable_pt_lim (fun t => snd (f t y)) x gx /\
    derivable_pt_lim (fun t => snd (f x t)) y gy /\
    J = fx * gy - fy * gx.
