(** Model of ngmix/util.py:57-80 (errors of ratios) and ngmix/moments.py:398-641
    (make_mom_result, regularize_mom_shapes).  Array elements are extended reals: NaN
    entries are usual (pre-PSF moments have no centroids). *)
From Coq Require Import String.
From Verif Require Import Base XReal Moments_Model Flags_Model.

(** ngmix/util.py:57-68 get_ratio_var on numpy scalars *)
Definition get_ratio_var (a b var_a var_b cov_ab : xr) : res xr :=
  if xeqb b (Fin 0) then Raise ValueError else
  let rsq := xmul (xdiv a b) (xdiv a b) in
  Ok (xmul rsq (xsub (xadd (xdiv var_a (xmul a a)) (xdiv var_b (xmul b b)))
                     (xdiv (xmul (Fin 2) cov_ab) (xmul a b)))).
(** numpy.clip(x, 0, inf) *)
Definition xclip0 (x : xr) : xr := if xltb x (Fin 0) then Fin 0 else x.
(** ngmix/util.py:71-80 get_ratio_error *)
Definition get_ratio_error (a b var_a var_b cov_ab : xr) : res xr :=
  let* var := get_ratio_var a b var_a var_b cov_ab in
  Ok (xsqrt (xclip0 var)).

(** square numpy array *)
Record smat := mkSmat { sm_n : nat; sm_at : nat -> nat -> xr }.
Definition mget (m : smat) (i j : nat) : res xr :=
  if Nat.ltb i (sm_n m) && Nat.ltb j (sm_n m) then Ok (sm_at m i j) else Raise IndexError.
Definition vget (v : list xr) (i : nat) : res xr :=
  match nth_error v i with Some x => Ok x | None => Raise IndexError end.

(** MOMENTS_NAME_MAP, ngmix/moments.py:8-61 *)
Open Scope string_scope.
Definition MOMENTS_NAME_MAP : list (string * nat) :=
  [("Mv", 0); ("Mu", 1); ("M1", 2); ("M2", 3); ("MT", 4); ("MF", 5);
   ("M00", 5); ("M10", 1); ("M01", 0); ("M11", 4); ("M20", 2); ("M02", 3);
   ("M21", 6); ("M12", 7); ("M30", 8); ("M03", 9);
   ("M22", 10); ("M31", 11); ("M13", 12); ("M40", 13); ("M14", 14); ("M33", 15); ("M44", 16)]%nat.
Close Scope string_scope.

(** the result dict; pars is absent unless set.  The flag strings are get_flags_str of the
    flags (Flags_Model) and are not stored again here. *)
Record momres := mkMom {
  m_flags : Z; m_flux : xr; m_sums : list xr; m_cov : smat; m_sums_norm : xr;
  m_flux_flags : Z; m_T_flags : Z;
  m_flux_err : xr; m_T : xr; m_T_err : xr; m_s2n : xr; m_e1 : xr; m_e2 : xr;
  m_e_err : xr * xr; m_sums_err : list xr; m_pars : option (list xr);
  m_named : list (string * (xr * xr)) }.

(** ngmix/moments.py:541-574 _add_moments_by_name *)
Definition add_moments_by_name (sums : list xr) (cov : smat) : res (list (string * (xr * xr))) :=
  let* fsum := vget sums 5 in
  let* c55 := mget cov 5 5 in
  let fsum_err := xsqrt c55 in
  foldM (fun acc ni =>
    let '(name, ind) := ni in
    if Z.gtb (Z.of_nat ind) (Z.of_nat (length sums) - 1) then Ok acc else
    if String.eqb name "MF" || String.eqb name "M00" then Ok (acc ++ [(name, (fsum, fsum_err))]) else
    if xgtb fsum (Fin 0) then
      let* s := vget sums ind in
      let* cii := mget cov ind ind in
      let* cif := mget cov ind 5 in
      let* err := get_ratio_error s fsum cii c55 cif in
      Ok (acc ++ [(name, (xdiv s fsum, err))])
    else Ok (acc ++ [(name, (NaN, NaN))])) MOMENTS_NAME_MAP [].

(** ngmix/moments.py:398-538 make_mom_result; indices are those of MOMENTS_NAME_MAP *)
Definition make_mom_result (sums : list xr) (cov : smat) (sums_norm : option xr) : res momres :=
  if negb (Nat.eqb (length sums) 6) && negb (Nat.eqb (length sums) 17) then Raise ValueError else
  if negb (Nat.eqb (sm_n cov) 6) && negb (Nat.eqb (sm_n cov) 17) then Raise ValueError else
  let* sv := vget sums 0 in
  let* su := vget sums 1 in
  let* s1 := vget sums 2 in
  let* s2 := vget sums 3 in
  let* sT := vget sums 4 in
  let* sF := vget sums 5 in
  let* cFF := mget cov 5 5 in
  let* cTT := mget cov 4 4 in
  let* cTF := mget cov 4 5 in
  let* c11 := mget cov 2 2 in
  let* c22 := mget cov 3 3 in
  let* c1T := mget cov 2 4 in
  let* c2T := mget cov 3 4 in
  (* flux only: 456-461 *)
  let '(flux_err, s2n, flux_flags) :=
    if xgtb cFF (Fin 0) then (xsqrt cFF, xdiv sF (xsqrt cFF), 0%Z)
    else (NaN, NaN, Z.lor 0 NONPOS_VAR) in
  (* flux and T: 463-479 *)
  let* (T, T_err, T_flags) :=
    if xgtb cFF (Fin 0) && xgtb cTT (Fin 0) then
      if xgtb sF (Fin 0) then
        let* err := get_ratio_error sT sF cTT cFF cTF in
        Ok (xdiv sT sF, err, 0%Z)
      else Ok (NaN, NaN, Z.lor 0 NONPOS_FLUX)
    else Ok (NaN, NaN, Z.lor 0 NONPOS_VAR) in
  (* 481-485 *)
  let diag := map (fun i => sm_at cov i i) (seq 0 (sm_n cov)) in
  let '(sums_err, flags) :=
    if forallb (fun c => xgtb c (Fin 0)) diag then (map xsqrt diag, 0%Z)
    else (repeat NaN 6, Z.lor 0 NONPOS_VAR) in
  (* 487-528 *)
  let* (e1, e2, e_err, pars, flags) :=
    if Z.eqb flags 0 then
      if xgtb sF (Fin 0) then
        if xgtb T (Fin 0) then
          let e1 := xdiv s1 sT in
          let e2 := xdiv s2 sT in
          let* err1 := get_ratio_error s1 sT c11 cTT c1T in
          let* err2 := get_ratio_error s2 sT c22 cTT c2T in
          let '(e_err, flags) :=
            if isfinite err1 && isfinite err2 then ((err1, err2), flags)
            else ((NaN, NaN), Z.lor flags NONPOS_SHAPE_VAR) in
          Ok (e1, e2, e_err, Some [sv; su; e1; e2; T; sF], flags)
        else Ok (NaN, NaN, (NaN, NaN), None, Z.lor flags NONPOS_SIZE)
      else Ok (NaN, NaN, (NaN, NaN), None, Z.lor flags NONPOS_FLUX)
    else Ok (NaN, NaN, (NaN, NaN), None, flags) in
  let* named := add_moments_by_name sums cov in
  Ok (mkMom flags sF sums cov (match sums_norm with Some x => x | None => NaN end)
        flux_flags T_flags flux_err T T_err s2n e1 e2 e_err sums_err pars named).

(** numpy.dot of a 6x6 matrix with a vector and with a matrix; 0*NaN is NaN *)
Definition xsum (l : list xr) : xr := fold_left xadd l (Fin 0).
Definition xdot_mv (a : nat -> nat -> xr) (v : nat -> xr) : nat -> xr :=
  fun i => xsum (map (fun k => xmul (a i k) (v k)) (seq 0 6)).
Definition xdot_mm (a b : nat -> nat -> xr) : nat -> nat -> xr :=
  fun i j => xsum (map (fun k => xmul (a i k) (b k j)) (seq 0 6)).
(** ngmix/moments.py:608-613 *)
Definition amat (T_reg : R) : nat -> nat -> xr :=
  fun i j => if Nat.eqb i 4 && Nat.eqb j 5 then Fin T_reg else if Nat.eqb i j then Fin 1 else Fin 0.

(** ngmix/moments.py:577-641 regularize_mom_shapes.  The temporary writes to res["sums"]
    (618-629) restore the original values. *)
Definition regularize_mom_shapes (r : momres) (fwhm_reg : R) : res momres :=
  if negb (Rltb 0 fwhm_reg) then Ok r else
  if negb (Nat.eqb (length (m_sums r)) 6) then Raise ValueError else
  if negb (Nat.eqb (sm_n (m_cov r)) 6) then Raise ValueError else
  let T_reg := fwhm_to_T fwhm_reg in
  let raw i := nth i (m_sums r) NaN in  (* length checked above *)
  let filled i := if (Nat.eqb i 0 || Nat.eqb i 1) && isnan (raw i) then Fin 0 else raw i in
  let reg i := if (Nat.eqb i 0 || Nat.eqb i 1) && isnan (raw i) then NaN
               else xdot_mv (amat T_reg) filled i in
  let reg_cov := xdot_mm (amat T_reg) (xdot_mm (sm_at (m_cov r)) (fun i j => amat T_reg j i)) in
  let* m := make_mom_result (map reg (seq 0 6)) (mkSmat 6 reg_cov) None in
  Ok (mkMom (Z.lor (m_flags m) (m_flags r)) (m_flux m) (m_sums m) (m_cov m) (m_sums_norm m)
        (m_flux_flags m) (m_T_flags r) (m_flux_err m) (m_T r) (m_T_err r) (m_s2n m) (m_e1 m) (m_e2 m)
        (m_e_err m) (m_sums_err m) (m_pars m) (m_named m)).
