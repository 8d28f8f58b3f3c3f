(** Model of adaptive moments: ngmix/admom/admom_nb.py and ngmix/admom/admom.py. *)
From Verif Require Import Base XReal Shape_Model Moments_Model Jacobian_Model Pixels_Model GMix_Model Render_Model WSums_Model
  GMixObj_Model Flags_Model MomResult_Model.
Local Open Scope R_scope.

(** _admom_conf_dtype, ngmix/admom/admom.py:585-591 *)
Record am_conf := mkAc { ac_maxiter : nat; ac_shiftmax : R; ac_etol : R; ac_Ttol : R; ac_cenonly : bool }.
(** _admom_result_dtype, ngmix/admom/admom.py:571-583: npix, wsum, sums, sums_cov are the
    fields of wsums; F is scratch space *)
Record am_rec := mkAr { ar_flags : Z; ar_numiter : nat; ar_ws : wsums; ar_pars : list xr; ar_rho4 : xr }.
Definition am_rec0 : am_rec := mkAr 0 0 wsums_zero (repeat (Fin 0) 6) (Fin 0).

(** body of admom_censums, ngmix/admom/admom_nb.py:118-128 *)
Definition censums_body (wt : gmix) (s : wsums) (p : pixel R) : res wsums :=
  let* weight := gmix_eval_pixel_fast wt (px_v p) (px_u p) (px_area p) in
  let wdata := weight * px_val p in
  let a := ws_sums s in
  let a := fset a 0 (a 0%nat + wdata * px_v p) in
  let a := fset a 1 (a 1%nat + wdata * px_u p) in
  let a := fset a 5 (a 5%nat + wdata) in
  Ok (mkWs (S (ws_npix s)) (ws_wsum s) a (ws_cov s)).

(** ngmix/admom/admom_nb.py:161-167 *)
Definition F7 (v u vmod umod chi2 : R) : nat -> R :=
  fset (fset (fset (fset (fset (fset (fset (fun _ => 0) 0 v) 1 u) 2 (umod * umod - vmod * vmod))
    3 (2 * vmod * umod)) 4 (umod * umod + vmod * vmod)) 5 1) 6 (chi2 * chi2).
(** body of admom_momsums, ngmix/admom/admom_nb.py:142-175.  1.0/(ierr*ierr) raises
    ZeroDivisionError in compiled code.  g is the first component; its normalisations are
    set (admom_nb.py:38). *)
Definition momsums_body (wt : gmix) (g : gauss) (s : wsums) (p : pixel R) : res wsums :=
  let* weight := gmix_eval_pixel_fast wt (px_v p) (px_u p) (px_area p) in
  if Reqb (px_ierr p * px_ierr p) 0 then Raise ZeroDivisionError else
  let var := 1 / (px_ierr p * px_ierr p) in
  let vmod := px_v p - g_row g in
  let umod := px_u p - g_col g in
  let wdata := weight * px_val p in
  let w2 := weight * weight in
  match g_nrm g with
  | None => Raise OtherError (* not reached *)
  | Some n =>
      let chi2 := n_dcc n * vmod * vmod + n_drr n * umod * umod - 2 * n_drc n * vmod * umod in
      Ok (accumulate 7 (F7 (px_v p) (px_u p) vmod umod chi2) weight wdata w2 var s)
  end.

(** ngmix/admom/admom_nb.py:178-226 deweight_moments: the new irr, irc, icc of the first
    component; None if flags was set to LOW_DET *)
Definition deweight_moments (g : gauss) (Irr Irc Icc : R) : option gauss :=
  let detm := Irr * Icc - Irc * Irc in
  if Rleb detm GMIX_LOW_DETVAL then None else
  let Wrr := g_irr g in
  let Wrc := g_irc g in
  let Wcc := g_icc g in
  let detw := Wrr * Wcc - Wrc * Wrc in
  if Rleb detw GMIX_LOW_DETVAL then None else
  let idetw := 1 / detw in
  let idetm := 1 / detm in
  let Nrr := Icc * idetm - Wcc * idetw in
  let Ncc := Irr * idetm - Wrr * idetw in
  let Nrc := - Irc * idetm + Wrc * idetw in
  let detn := Nrr * Ncc - Nrc * Nrc in
  if Rleb detn GMIX_LOW_DETVAL then None else
  let idetn := 1 / detn in
  let irr := Ncc * idetn in
  let icc := Nrr * idetn in
  let irc := - Nrc * idetn in
  Some (mkGauss (g_p g) (g_row g) (g_col g) irr irc icc (irr * icc - irc * irc) (g_norm_set g) (g_nrm g)).

(** wt['row'][0] = row; wt['col'][0] = col *)
Definition set_cen0 (g : gauss) (row col : R) : gauss :=
  mkGauss (g_p g) row col (g_irr g) (g_irc g) (g_icc g) (g_det g) (g_norm_set g) (g_nrm g).

(** variables of the loop; as_old: e1old, e2old, Told, None when they are NaN *)
Record am_state := mkAs { as_wt : gmix; as_rec : am_rec; as_old : option (R * R * R) }.
Definition stop_with (wt : gmix) (r : am_rec) (old : option (R * R * R)) (flag : Z) : am_state * res bool :=
  (mkAs wt (mkAr flag (ar_numiter r) (ar_ws r) (ar_pars r) (ar_rho4 r)) old, Ok true).
(** clear_result (ngmix/admom/admom_nb.py:229-243) followed by sums *)
Definition with_ws (r : am_rec) (ws : wsums) : am_rec := mkAr (ar_flags r) (ar_numiter r) ws (repeat NaN 6) NaN.

(** one pass of the loop, ngmix/admom/admom_nb.py:33-103; the state is also returned when
    an exception is raised because wt is changed in place.  true: break. *)
Definition am_iter (c : am_conf) (roworig colorig : R) (pixels : list (pixel R)) (s : am_state) : am_state * res bool :=
  match as_wt s with
  | [] => (s, Raise OtherError) (* reads past the end of the array *)
  | g0 :: _ =>
      if Rltb (g_det g0) GMIX_LOW_DETVAL then stop_with (as_wt s) (as_rec s) (as_old s) LOW_DET else
      match gmix_set_norms (as_wt s) with
      | (wt, Raise e) => (mkAs wt (as_rec s) (as_old s), Raise e)
      | ([], Ok _) => (s, Raise OtherError) (* not reached *)
      | (g1 :: rest, Ok _) =>
          let wt := g1 :: rest in
          match foldM (censums_body wt) pixels wsums_zero with
          | Raise e => (mkAs wt (as_rec s) (as_old s), Raise e)
          | Ok ws =>
              let r := with_ws (as_rec s) ws in
              if Rleb (ws_sums ws 5) 0 then stop_with wt r (as_old s) NONPOS_FLUX else
              let g2 := set_cen0 g1 (ws_sums ws 0 / ws_sums ws 5) (ws_sums ws 1 / ws_sums ws 5) in
              let wt := g2 :: rest in
              if Rltb (ac_shiftmax c) (Rabs (g_row g2 - roworig)) || Rltb (ac_shiftmax c) (Rabs (g_col g2 - colorig))
              then stop_with wt r (as_old s) CEN_SHIFT else
              match foldM (momsums_body wt g2) pixels wsums_zero with
              | Raise e => (mkAs wt r (as_old s), Raise e)
              | Ok ws =>
                  let r := with_ws r ws in
                  if Rleb (ws_sums ws 5) 0 then stop_with wt r (as_old s) NONPOS_FLUX else
                  let finv := 1 / ws_sums ws 5 in
                  let M1 := ws_sums ws 2 * finv in
                  let M2 := ws_sums ws 3 * finv in
                  let T := ws_sums ws 4 * finv in
                  let Irr := 5/10 * (T - M1) in
                  let Icc := 5/10 * (T + M1) in
                  let Irc := 5/10 * M2 in
                  if Rleb T 0 then stop_with wt r (as_old s) NONPOS_SIZE else
                  let e1 := (Icc - Irr) / T in
                  let e2 := 2 * Irc / T in
                  let conv := match as_old s with
                              | None => false
                              | Some (e1old, e2old, Told) =>
                                  Rltb (Rabs (e1 - e1old)) (ac_etol c) && Rltb (Rabs (e2 - e2old)) (ac_etol c)
                                  && Rltb (Rabs (T / Told - 1)) (ac_Ttol c)
                              end in
                  if conv then
                    (mkAs wt (mkAr (ar_flags r) (ar_numiter r) ws
                       (map Fin [g_row g2; g_col g2; g_icc g2 - g_irr g2; 2 * g_irc g2; g_icc g2 + g_irr g2; 1])
                       (Fin (ws_sums ws 6 / ws_sums ws 5))) (as_old s), Ok true)
                  else if ac_cenonly c then (mkAs wt r (Some (e1, e2, T)), Ok false)
                  else match deweight_moments g2 Irr Irc Icc with
                       | None => stop_with wt r (as_old s) LOW_DET
                       | Some g3 => (mkAs (g3 :: rest) r (Some (e1, e2, T)), Ok false)
                       end
              end
          end
      end
  end.
(** the loop from iteration i with n iterations left; the result is the number of
    iterations made, i+1 at the end *)
Fixpoint am_loop (c : am_conf) (roworig colorig : R) (pixels : list (pixel R)) (n i : nat) (s : am_state)
  : am_state * res nat :=
  match n with
  | O => (s, Ok i)
  | S n => match am_iter c roworig colorig pixels s with
           | (s', Raise e) => (s', Raise e)
           | (s', Ok true) => (s', Ok (S i))
           | (s', Ok false) => am_loop c roworig colorig pixels n (S i) s'
           end
  end.
(** ngmix/admom/admom_nb.py:13-108 admom: the mixture and the record are changed in place.
    With maxiter = 0 the loop variable has no value; in python UnboundLocalError. *)
Definition admom (c : am_conf) (wt : gmix) (pixels : list (pixel R)) (r : am_rec) : gmix * am_rec * res unit :=
  match wt with
  | [] => (wt, r, Raise OtherError) (* reads past the end of the array *)
  | g :: _ =>
      let (s, n) := am_loop c (g_row g) (g_col g) pixels (ac_maxiter c) 0 (mkAs wt r None) in
      match n with
      | Raise e => (as_wt s, as_rec s, Raise e)
      | Ok O => (as_wt s, as_rec s, Raise UnboundLocalError)
      | Ok (S i) =>
          let r := as_rec s in
          (as_wt s, mkAr (if Nat.eqb (S i) (ac_maxiter c) then MAXITER else ar_flags r) (S i) (ar_ws r) (ar_pars r) (ar_rho4 r), Ok tt)
      end
  end.

(** ---- ngmix/admom/admom.py ---- *)

(** the result dict.  Left out: e, e_err and e_cov, which repeat e1, e2, e1err, e2err; the
    strings, which are get_flags_str of the flags; sums_norm, which is wsum. *)
Record am_dict := mkAd {
  d_flags : Z; d_numiter : nat; d_ws : wsums; d_pars : list xr;
  d_flux_flags : Z; d_T_flags : Z; d_rho4_flags : Z;
  d_flux : xr; d_flux_mean : xr; d_flux_err : xr; d_s2n : xr; d_T : xr; d_T_err : xr;
  d_rho4 : xr; d_rho4_err : xr; d_e1 : xr; d_e2 : xr; d_e1err : xr; d_e2err : xr }.
Definition set5 (l : list xr) (x : xr) : list xr :=
  match l with a :: b :: c :: d :: e :: _ :: l => a :: b :: c :: d :: e :: x :: l | _ => l end.
Definition xnth (l : list xr) (i : nat) : xr := nth i l NaN. (* pars always has 6 elements *)

(** ngmix/admom/admom.py:406-568 get_result *)
Definition get_result (r : am_rec) (jac_area : R) (wgt_norm : xr) : res am_dict :=
  let ws := ar_ws r in
  let s i := Fin (ws_sums ws i) in
  let cv i j := Fin (ws_cov ws i j) in
  let flags := ar_flags r in
  let ok := Z.eqb flags 0 in
  (* 453-458 *)
  let T := if ok then xnth (ar_pars r) 4 else NaN in
  let rho4 := if ok then ar_rho4 r else NaN in
  let flux_mean := if ok then xdiv (s 5%nat) (Fin (ws_wsum ws)) else NaN in
  let pars := if ok then set5 (ar_pars r) flux_mean else ar_pars r in
  (* 461-478 *)
  let '(flux, flux_err, s2n, flux_flags) :=
    if ok then
      if xltb (Fin GMIX_LOW_DETVAL) T then
        let fnorm := xmul (xmul (Fin jac_area) wgt_norm) (Fin (ws_wsum ws)) in
        let flux := xdiv (s 5%nat) fnorm in
        if xgtb (cv 5 5)%nat (Fin 0) then
          let flux_err := xdiv (xsqrt (cv 5 5)%nat) fnorm in
          (flux, flux_err, xdiv flux flux_err, 0%Z)
        else (flux, NaN, NaN, Z.lor 0 NONPOS_VAR)
      else (NaN, NaN, NaN, Z.lor 0 NONPOS_SIZE)
    else (NaN, NaN, NaN, Z.lor 0 flags) in
  (* 480-518 *)
  let* (T_err, T_flags) :=
    if ok then
      if xgtb (cv 4 4)%nat (Fin 0) && xgtb (cv 5 5)%nat (Fin 0) then
        if xgtb (s 5%nat) (Fin 0) then
          let* err := get_ratio_error (s 4%nat) (s 5%nat) (cv 4 4)%nat (cv 5 5)%nat (cv 4 5)%nat in
          Ok (xmul (Fin 4) err, 0%Z)
        else Ok (NaN, Z.lor 0 NONPOS_FLUX)
      else Ok (NaN, Z.lor 0 NONPOS_VAR)
    else Ok (NaN, Z.lor 0 flags) in
  let* (rho4, rho4_err, rho4_flags) :=
    if ok then
      if xgtb (cv 6 6)%nat (Fin 0) && xgtb (cv 5 5)%nat (Fin 0) then
        if xgtb (s 5%nat) (Fin 0) then
          let* err := get_ratio_error (s 6%nat) (s 5%nat) (cv 6 6)%nat (cv 5 5)%nat (cv 6 5)%nat in
          Ok (xdiv (s 6%nat) (s 5%nat), xmul (Fin 4) err, 0%Z)
        else Ok (rho4, NaN, Z.lor 0 NONPOS_FLUX)
      else Ok (rho4, NaN, Z.lor 0 NONPOS_VAR)
    else Ok (rho4, NaN, Z.lor 0 flags) in
  (* 521-522 *)
  let flags := if forallb (fun i => xgtb (cv i i) (Fin 0)) (seq 2 5) then flags else Z.lor flags NONPOS_VAR in
  (* 524-561 *)
  let* (e1, e2, e1err, e2err, flags) :=
    if Z.eqb flags 0 then
      if xgtb (s 5%nat) (Fin 0) then
        if xgtb T (Fin 0) then
          let e1 := xdiv (xnth pars 2) T in
          let e2 := xdiv (xnth pars 3) T in
          let* r1 := get_ratio_error (s 2%nat) (s 4%nat) (cv 2 2)%nat (cv 4 4)%nat (cv 2 4)%nat in
          let* r2 := get_ratio_error (s 3%nat) (s 4%nat) (cv 3 3)%nat (cv 4 4)%nat (cv 3 4)%nat in
          let e1err := xmul (Fin 2) r1 in
          let e2err := xmul (Fin 2) r2 in
          Ok (if negb (isfinite e1err) || negb (isfinite e2err) then (e1, e2, NaN, NaN, Z.lor flags NONPOS_SHAPE_VAR)
              else (e1, e2, e1err, e2err, flags))
        else Ok (NaN, NaN, NaN, NaN, Z.lor flags NONPOS_SIZE)
      else Ok (NaN, NaN, NaN, NaN, Z.lor flags NONPOS_FLUX)
    else Ok (NaN, NaN, NaN, NaN, flags) in
  Ok (mkAd flags (ar_numiter r) ws pars flux_flags T_flags rho4_flags flux flux_mean flux_err s2n T T_err
        rho4 rho4_err e1 e2 e1err e2err).

(** an observation, as far as adaptive moments use it: the pixel array and the jacobian *)
Record aobs := mkAo { ao_pix : list (pixel R); ao_jac : jac }.
(** the guess: a mixture object, or a number T and the five numbers in [0,1) that
    RandomState.uniform draws *)
Inductive am_guess := GObj (i : nat) | GT (T : R) (u1 u2 u3 u4 u5 : R).
(** rng.uniform(low, high) *)
Definition uniform (low high u : R) : R := low + (high - low) * u.
(** ngmix/admom/admom.py:392-403 _generate_guess *)
Definition generate_guess (o : aobs) (Tguess u1 u2 u3 u4 u5 : R) : res gmobj :=
  let scale := get_scale (ao_jac o) in
  new_model Mgauss [uniform (- (5/10) * scale) (5/10 * scale) u1; uniform (- (5/10) * scale) (5/10 * scale) u2;
                    uniform (- (3/10)) (3/10) u3; uniform (- (3/10)) (3/10) u4;
                    Tguess * (1 + uniform (- (1/10)) (1/10) u5); 1].
(** wt_gmix["norm"][0] *)
Definition norm0 (wt : gmix) : res xr :=
  match wt with
  | [] => Raise IndexError
  | g :: _ => Ok (match g_nrm g with Some n => Fin (n_norm n) | None => NaN end)
  end.
(** ngmix/admom/admom.py:345-360: new contents of the mixture and the result *)
Definition am_run (c : am_conf) (o : aobs) (wt : gmix) : gmix * res am_dict :=
  let '(wt', r, e) := admom c wt (ao_pix o) am_rec0 in
  match (match e with
         | Ok _ => Ok r
         | Raise GMixRangeError => Ok (mkAr GMIX_RANGE_ERROR (ar_numiter r) (ar_ws r) (ar_pars r) (ar_rho4 r))
         | Raise e => Raise e
         end) with
  | Raise e => (wt', Raise e)
  | Ok r => (wt', let* n := norm0 wt' in get_result r (get_area (ao_jac o)) n)
  end.
(** ngmix/admom/admom.py:325-368 AdmomFitter.go for an Observation; None: no such object.
    A mixture generated from T is dropped after the call. *)
Definition am_go (c : am_conf) (h : heap) (o : aobs) (guess : am_guess) : option (heap * res am_dict) :=
  match guess with
  | GObj i => match read h i with
              | None => None
              | Some g => let (d, r) := am_run c o (o_data g) in Some (write h i (with_data g d), r)
              end
  | GT T u1 u2 u3 u4 u5 =>
      Some (h, let* g := generate_guess o T u1 u2 u3 u4 u5 in snd (am_run c o (o_data g)))
  end.

(** ngmix/admom/admom.py:236-253 AdmomResult.get_gmix *)
Definition am_get_gmix (d : am_dict) : res gmobj :=
  if negb (Z.eqb (d_flags d) 0) then Raise RuntimeError else
  match d_pars d with
  | [Fin row; Fin col; Fin M1; Fin M2; Fin T; _] =>
      if Reqb T 0 then Raise OtherError else (* numpy: non-finite e1, e2 *)
      let* (g1, g2) := e1e2_to_g1g2 (M1 / T) (M2 / T) in
      new_model Mgauss [row; col; g1; g2; T; 1]
  | _ => Raise OtherError (* NaN in pars; not reached with flags = 0 *)
  end.

(** ngmix/admom/admom.py:74-164 find_cen_admom.  rng: the pairs of numbers in [0,1) drawn
    for each new centre; None: no generator. *)
Inductive weight_arg := WGmix (i : nat) | WFwhm (fwhm : R) | WNone.
Definition cen_weight (h : heap) (w : weight_arg) : option (res gmobj) :=
  match w with
  | WGmix i => match read h i with None => None | Some g => Some (obj_copy g) end
  | WFwhm fwhm => Some (new_model Mgauss [0; 0; 0; 0; fwhm_to_T fwhm; 1])
  | WNone => Some (Raise ValueError)
  end.
(** the loop over tries, 149-157; k is the weight object.  None: the draws ran out, or the
    weight becomes non-finite. *)
Fixpoint cen_loop (c : am_conf) (o : aobs) (many : bool) (k : nat) (ntry : nat) (draws : list (R * R)) (h : heap)
    (last : option am_dict) : option (heap * res (option am_dict)) :=
  match ntry with
  | O => Some (h, Ok last)
  | S ntry =>
      match am_go c h o (GObj k) with
      | None => None
      | Some (h', Raise e) => Some (h', Raise e)
      | Some (h', Ok d) =>
          if Z.eqb (d_flags d) 0 then Some (h', Ok (Some d)) else
          if many then
            match draws with
            | [] => None
            | (u1, u2) :: draws =>
                let scale := get_scale (ao_jac o) in
                match step h' (OCall k (MSetCen (uniform (- scale / 2) (scale / 2) u1) (uniform (- scale / 2) (scale / 2) u2))) with
                | None => None
                | Some (h2, Raise e) => Some (h2, Raise e)
                | Some (h2, Ok _) => cen_loop c o many k ntry draws h2 (Some d)
                end
            end
          else cen_loop c o many k ntry draws h' (Some d)
      end
  end.
Definition find_cen_admom (c : am_conf) (h : heap) (o : aobs) (w : weight_arg) (ntry : nat) (rng : option (list (R * R)))
  : option (heap * res (am_dict * (xr * xr))) :=
  let c := mkAc (ac_maxiter c) (ac_shiftmax c) (ac_etol c) (ac_Ttol c) true in
  if Nat.ltb 1 ntry && (match rng with None => true | _ => false end) then Some (h, Raise ValueError) else
  match cen_weight h w with
  | None => None
  | Some (Raise e) => Some (h, Raise e)
  | Some (Ok wt) =>
      let k := length (h_objs h) in
      match cen_loop c o (Nat.ltb 1 ntry) k ntry (match rng with Some l => l | None => [] end) (alloc h wt) None with
      | None => None
      | Some (h', Raise e) => Some (h', Raise e)
      | Some (h', Ok None) => Some (h', Raise UnboundLocalError)
      | Some (h', Ok (Some d)) =>
          Some (h', if Z.eqb (d_flags d) 0 then
                      let* g := am_get_gmix d in
                      match gm_get_cen (o_data g) with
                      | Some (row, col) => Ok (d, (Fin row, Fin col))
                      | None => Ok (d, (NaN, NaN))
                      end
                    else Ok (d, (NaN, NaN)))
      end
  end.
