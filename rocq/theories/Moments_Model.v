(** Model of the conversion functions of ngmix/moments.py (lines 64-395), scalar
    python floats. *)
From Verif Require Import Base Shape_Model.

(** the literal of ngmix/moments.py:68,83 *)
Definition FWHM_FAC : R := 23548200450309493 / 10000000000000000.

(** ngmix/moments.py:64-68 *)
Definition sigma_to_fwhm (sigma : R) : R := sigma * FWHM_FAC.

(** ngmix/moments.py:71-76; np.sqrt of a negative number is nan, which the reals
    do not have: only meaningful for T >= 0 *)
Definition T_to_fwhm (T : R) : R := let sigma := sqrt (T / 2) in sigma_to_fwhm sigma.

(** ngmix/moments.py:79-83 *)
Definition fwhm_to_sigma (fwhm : R) : R := fwhm / FWHM_FAC.

(** ngmix/moments.py:86-91 *)
Definition fwhm_to_T (fwhm : R) : R := let sigma := fwhm_to_sigma fwhm in 2 * sigma ^ 2.

(** ngmix/moments.py:94-102 *)
Definition r50_to_sigma (r50 : R) : R := let fwhm := 2 * r50 in fwhm_to_sigma fwhm.

(** ngmix/moments.py:105-111 *)
Definition sigma_to_r50 (sigma : R) : R := let fwhm := sigma_to_fwhm sigma in fwhm / 2.

(** ngmix/moments.py:114-124 *)
Definition r50_to_T (r50 : R) : R := let sigma := r50_to_sigma r50 in 2 * sigma ^ 2.

(** ngmix/moments.py:127-132 *)
Definition T_to_r50 (T : R) : R := let sigma := sqrt (T / 2) in sigma_to_r50 sigma.

(** ngmix/moments.py:135-163 moms_to_e1e2, scalar branch *)
Definition moms_to_e1e2 (M1 M2 T : R) : res (R * R) :=
  if Rleb T 0 then Raise GMixRangeError else
  let Tinv := 1 / T in
  Ok (M1 * Tinv, M2 * Tinv).

(** ngmix/moments.py:151-163 moms_to_e1e2, array branch; arrays of equal size as a
    list of triples *)
Definition moms_to_e1e2_arr (l : list (R * R * R)) : res (list (R * R)) :=
  if existsb (fun m => Rleb (snd m) 0) l then Raise GMixRangeError else
  Ok (map (fun m => let '(M1, M2, T) := m in
                    let Tinv := 1 / T in (M1 * Tinv, M2 * Tinv)) l).

(** ngmix/moments.py:166-183 *)
Definition get_Tround (T g1 g2 : R) : R :=
  let gsq := g1 ^ 2 + g2 ^ 2 in T * (1 - gsq) / (1 + gsq).

(** ngmix/moments.py:186-203 *)
Definition get_T (Tround g1 g2 : R) : res R :=
  let gsq := g1 ^ 2 + g2 ^ 2 in
  if Reqb (1 - gsq) 0 then Raise ZeroDivisionError
  else Ok (Tround * (1 + gsq) / (1 - gsq)).

(** ngmix/moments.py:206-240 *)
Definition get_sheared_M1M2T (M1 M2 T s1 s2 : R) : res (R * R * R) :=
  let* (e1, e2) := moms_to_e1e2 M1 M2 T in
  let* (g1, g2) := e1e2_to_g1g2 e1 e2 in
  let* (g1s, g2s) := shear_reduced g1 g2 s1 s2 in
  let Tround := get_Tround T g1 g2 in
  let* Ts := get_T Tround g1s g2s in
  let* (e1s, e2s) := g1g2_to_e1e2 g1s g2s in
  Ok (Ts * e1s, Ts * e2s, Ts).

(** ngmix/moments.py:243-265 *)
Definition get_sheared_g1g2T (g1 g2 T s1 s2 : R) : res (R * R * R) :=
  let* (g1s, g2s) := shear_reduced g1 g2 s1 s2 in
  let Tround := get_Tround T g1 g2 in
  let* Ts := get_T Tround g1s g2s in
  Ok (g1s, g2s, Ts).

(** ngmix/moments.py:294-316 mom2e (python floats) *)
Definition mom2e (Irr Irc Icc : R) : res (R * R * R) :=
  let T := Irr + Icc in
  if Reqb T 0 then Raise ZeroDivisionError else
  let e1 := (Icc - Irr) / T in
  let e2 := 2 * Irc / T in
  Ok (e1, e2, T).

(** ngmix/moments.py:319-340 *)
Definition mom2g (Irr Irc Icc : R) : res (R * R * R) :=
  let* (e1, e2, T) := mom2e Irr Irc Icc in
  let* (g1, g2) := e1e2_to_g1g2 e1 e2 in
  Ok (g1, g2, T).

(** ngmix/moments.py:343-367 *)
Definition e2mom (e1 e2 T : R) : R * R * R :=
  let Irc := e2 * T / 2 in
  let Icc := (1 + e1) * T / 2 in
  let Irr := (1 - e1) * T / 2 in
  (Irr, Irc, Icc).

(** ngmix/moments.py:370-395 *)
Definition g2mom (g1 g2 T : R) : res (R * R * R) :=
  let* (e1, e2) := g1g2_to_e1e2 g1 g2 in
  let Irc := e2 * T / 2 in
  let Icc := (1 + e1) * T / 2 in
  let Irr := (1 - e1) * T / 2 in
  Ok (Irr, Irc, Icc).

(** ngmix/moments.py:268-291 *)
Definition get_sheared_moments (irr irc icc s1 s2 : R) : res (R * R * R) :=
  let* (g1, g2, T) := mom2g irr irc icc in
  let* (g1s, g2s, Ts) := get_sheared_g1g2T g1 g2 T s1 s2 in
  g2mom g1s g2s Ts.
