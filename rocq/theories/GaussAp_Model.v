(** Model of GMix.get_gaussap_flux (ngmix/gmix/gmix.py:292-359) and of ngmix/gaussap.py. *)
From Verif Require Import Base XReal Shape_Model Moments_Model GMix_Model GMixObj_Model.
From Verif Require Flags_Model.

(** numpy.linalg.inv and det on 2x2 arrays [[a, b], [c, d]] *)
Record mat2 := mkMat { ma : R; mb : R; mc : R; md : R }.
Definition mdet (m : mat2) : R := ma m * md m - mb m * mc m.
Definition minv (m : mat2) : res mat2 :=
  if Reqb (mdet m) 0 then Raise LinAlgError else
  Ok (mkMat (md m / mdet m) (- mb m / mdet m) (- mc m / mdet m) (ma m / mdet m)).
Definition madd (a b : mat2) : mat2 := mkMat (ma a + ma b) (mb a + mb b) (mc a + mc b) (md a + md b).

(** the keyword arguments fwhm, T, sigma in the order they are looked at (304-311); only the
    first one given matters *)
Inductive aperture := ApFwhm (fwhm : R) | ApT (T : R) | ApSigma (sigma : R) | ApNone.

(** gmix.py:325-357 factor of one component; a NaN is possible for the square root *)
Definition ap_fac (wt_mat_inv : mat2) (g : gauss) : xr :=
  let det := g_det g in
  if Rltb GMIX_LOW_DETVAL det then
    let mat := mkMat (g_irr g) (g_irc g) (g_irc g) (g_icc g) in
    match (let* mat_inv := minv mat in
           let invsum := madd mat_inv wt_mat_inv in
           let* newmat := minv invsum in
           Ok (mdet newmat)) with
    | Ok newdet =>
        let fac := xsqrt (Fin (newdet / det)) in
        if xgtb fac (Fin 1) then Fin 1 else fac
    | Raise _ => Fin 1  (* LinAlgError is the only exception possible here *)
    end
  else Fin 1.

(** ngmix/gmix/gmix.py:292-359 for a real sigma *)
Definition gaussap_sigma (gm : gmix) (sigma : R) : res xr :=
  let sigma2 := sigma ^ 2 in
  let* wt_mat_inv := minv (mkMat sigma2 0 0 sigma2) in
  Ok (fold_left (fun apflux g => xadd apflux (xmul (Fin (g_p g)) (ap_fac wt_mat_inv g))) gm (Fin 0)).
(** a negative T gives sigma = NaN, and then every component with a normal determinant
    contributes NaN (unless its matrix is singular) *)
Definition gaussap_nan (gm : gmix) : xr :=
  fold_left (fun apflux g =>
    let singular := Reqb (mdet (mkMat (g_irr g) (g_irc g) (g_irc g) (g_icc g))) 0 in
    if Rltb GMIX_LOW_DETVAL (g_det g) && negb singular then NaN else xadd apflux (Fin (g_p g))) gm (Fin 0).
Definition gm_get_gaussap_flux (gm : gmix) (ap : aperture) : res xr :=
  match ap with
  | ApFwhm fwhm => gaussap_sigma gm (fwhm_to_sigma fwhm)
  | ApT T => if Rltb T 0 then Ok (gaussap_nan gm) else gaussap_sigma gm (sqrt (T / 2))
  | ApSigma sigma => gaussap_sigma gm sigma
  | ApNone => Raise ValueError
  end.

(** ---- ngmix/gaussap.py ---- *)

(** the model argument: 'cm' or a name that GMixModel knows *)
Inductive apmodel := ACM | AModel (m : mname).

(** a numpy 2-d array: all rows have ncol elements *)
Record table := mkTable { t_ncol : nat; t_rows : list (list R) }.

(** gaussap.py:154-171 _get_band_npars; _get_nband is the number of columns - npars + 1 *)
Definition get_band_npars (model : apmodel) : nat := match model with AModel Mbdf => 7 | _ => 6 end.
Definition get_nband (ncol : nat) (model : apmodel) : Z := (Z.of_nat ncol - Z.of_nat (get_band_npars model) + 1)%Z.

(** gaussap.py:138-151 _get_band_pars on the row of the object; nband >= 1 makes all the
    columns exist *)
Definition clip_T (T : R) : R := Rmax (/ 10000) T.
Definition get_band_pars (row : list R) (model : apmodel) (band : nat) : res (list R) :=
  let npars := get_band_npars model in
  match nth_error row (npars - 1 + band) with
  | None => Raise IndexError
  | Some flux =>
      match firstn (npars - 1) row with
      | a :: b :: c :: d :: T :: rest => Ok (a :: b :: c :: d :: clip_T T :: rest ++ [flux])
      | _ => Raise ValueError (* could not broadcast *)
      end
  end.

(** gaussap.py:83-109 _do_gap: flux, flags *)
Definition do_gap (fwhm : R) (model : apmodel) (row : list R) (cm : R * R) (band : nat) : res (xr * Z) :=
  match (let* tpars := get_band_pars row model band in
         let* gm := match model with
                    | ACM => new_cm (fst cm) (snd cm) tpars
                    | AModel m => new_model m tpars
                    end in
         gm_get_gaussap_flux (o_data gm) (ApFwhm fwhm)) with
  | Ok flux => Ok (flux, 0%Z)
  | Raise GMixRangeError => Ok (NaN, Flags_Model.GMIX_RANGE_ERROR)
  | Raise e => Raise e
  end.

(** gaussap.py:112-135 _prepare and 16-80 get_gaussap_flux.  fracdev and TdByTe are only
    used for 'cm'. *)
Definition get_gaussap_flux (pars : table) (model : apmodel) (fwhm : R) (fracdev TdByTe : list R) (mask : option (list bool))
  : res (list (list (xr * Z))) :=
  let nobj := length (t_rows pars) in
  let* mask := match mask with
               | Some m => if Nat.eqb (length m) nobj then Ok m else Raise AssertionError
               | None => Ok (repeat true nobj)
               end in
  let* cms := match model with
              | ACM => if negb (Nat.eqb (length fracdev) nobj) then Raise AssertionError else
                       if negb (Nat.eqb (length TdByTe) nobj) then Raise AssertionError else
                       Ok (combine fracdev TdByTe)
              | _ => Ok (repeat (0, 0) nobj)  (* not used *)
              end in
  if Nat.eqb nobj 0 then Raise IndexError else  (* pars[0] *)
  let nband := get_nband (t_ncol pars) model in
  if (nband <? 0)%Z then Raise ValueError else  (* negative dimension *)
  mapM (fun rmc =>
    let '(row, m, cm) := rmc in
    if negb m then Ok (repeat (NaN, Flags_Model.NO_ATTEMPT) (Z.to_nat nband))
    else mapM (fun band => do_gap fwhm model row cm band) (seq 0 (Z.to_nat nband)))
    (combine (combine (t_rows pars) mask) cms).
