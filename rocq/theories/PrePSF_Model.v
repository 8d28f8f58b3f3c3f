(** Model of ngmix/prepsfmom.py.

    Complex numbers are pairs of reals.  scipy.fft.fftn is the discrete Fourier transform it
    computes, without rounding.  Arrays selected with a boolean mask are lists over the selected
    modes, in the order of numpy.  None stands for results that are not finite (a psf whose zero
    frequency mode vanishes).  The functions of this file are those without caching; caching is in
    PrePSFCache_Model. *)
From Verif Require Import Base XReal Moments_Model Jacobian_Model Pixels_Model FastExp_Model MomResult_Model.
Local Open Scope R_scope.

(** ** Complex numbers *)
Record cplx := mkC { re : R; im : R }.
Definition cmul (a b : cplx) : cplx := mkC (re a * re b - im a * im b) (re a * im b + im a * re b).
Definition cconj (a : cplx) : cplx := mkC (re a) (- im a).
Definition cscale (x : R) (a : cplx) : cplx := mkC (x * re a) (x * im a).
Definition cabs (a : cplx) : R := sqrt (re a ^ 2 + im a ^ 2).
(** None: division by zero *)
Definition cdiv (a b : cplx) : option cplx :=
  let d := re b ^ 2 + im b ^ 2 in
  if Reqb d 0 then None else Some (cscale (/ d) (cmul a (cconj b))).
(** cos(x) + 1j*sin(x) *)
Definition cis (x : R) : cplx := mkC (cos x) (sin x).

(** ** Apodisation *)
(** ngmix/prepsfmom.py:368-384 _ap_kern_kern *)
Definition ap_kern (x m h : R) : R :=
  let y := (x - m) / h + 3 in
  if Rltb y (-3) then 0 else
  if Rltb 3 y then 1 else
  -5 * y ^ 7 / 69984 + 7 * y ^ 5 / 2592 - 35 * y ^ 3 / 864 + 35 * y / 96 + 1 / 2.
(** m[r, c] *= v *)
Definition mul_at (m : arr2 R) (r c : nat) (v : R) : arr2 R :=
  mkArr (nrow m) (ncol m) (fun r' c' => if Nat.eqb r' r && Nat.eqb c' c then at2 m r' c' * v else at2 m r' c').
(** ngmix/prepsfmom.py:387-400 _build_square_apodization_mask *)
Definition ap_range_of (ap_rad : R) : nat := Z.to_nat (trunc (6 * ap_rad + 1 / 2)).
Definition build_mask (ap_rad : R) (m : arr2 R) : arr2 R :=
  let ap_range := ap_range_of ap_rad in
  let ny := nrow m in
  let nx := ncol m in
  let m := fold_left (fun m y => fold_left (fun m x =>
             let m := mul_at m y x (ap_kern (INR y) (INR ap_range) ap_rad) in
             mul_at m (ny - 1 - y) x (ap_kern (INR y) (INR ap_range) ap_rad)) (seq 0 nx) m)
             (seq 0 (Nat.min (ap_range + 1) ny)) m in
  fold_left (fun m y => fold_left (fun m x =>
             let m := mul_at m y x (ap_kern (INR x) (INR ap_range) ap_rad) in
             mul_at m y (nx - 1 - x) (ap_kern (INR x) (INR ap_range) ap_rad)) (seq 0 (Nat.min (ap_range + 1) nx)) m)
             (seq 0 ny) m.
Definition ones_like (im : arr2 R) : arr2 R := mkArr (nrow im) (ncol im) (fun _ _ => 1).
Definition apodize (im : arr2 R) (ap_rad : R) : arr2 R :=
  if Rltb 0 ap_rad then let m := build_mask ap_rad (ones_like im) in mkArr (nrow im) (ncol im) (fun r c => at2 im r c * at2 m r c) else im.

(** ** Padding *)
(** numpy.pad with zeros; negative widths are refused *)
Definition np_pad (im : arr2 R) (before after : Z) : res (arr2 R) :=
  if (before <? 0)%Z || (after <? 0)%Z then Raise ValueError else
  let b := Z.to_nat before in
  let a := Z.to_nat after in
  Ok (mkArr (b + nrow im + a) (b + ncol im + a)
        (fun r c => if Nat.leb b r && Nat.ltb r (b + nrow im) && Nat.leb b c && Nat.ltb c (b + ncol im) then at2 im (r - b) (c - b) else 0)).
(** ngmix/prepsfmom.py:403-423 _zero_pad_image *)
Definition zero_pad (im : arr2 R) (target_dim : Z) : res (arr2 R * Z * Z) :=
  let twice := (target_dim - Z.of_nat (nrow im))%Z in
  let before := (twice / 2)%Z in
  let after := if (twice mod 2 =? 0)%Z then before else (before + 1)%Z in
  let* p := np_pad im before after in
  Ok (p, before, after).

(** ** Fourier transforms *)
(** scipy.fft.fftn of a real two dimensional array *)
Definition fftn (a : arr2 R) : res (arr2 cplx) :=
  if Nat.eqb (nrow a) 0 || Nat.eqb (ncol a) 0 then Raise ValueError else
  let phase k l r c := 2 * PI * (INR k * INR r / INR (nrow a) + INR l * INR c / INR (ncol a)) in
  let total f := rsum (flat_map (fun r => map (f r) (seq 0 (ncol a))) (seq 0 (nrow a))) in
  Ok (mkArr (nrow a) (ncol a) (fun k l =>
    mkC (total (fun r c => at2 a r c * cos (phase k l r c))) (total (fun r c => - (at2 a r c * sin (phase k l r c)))))).
(** scipy.fft.fftfreq(n)[k] *)
Definition fftfreq (n k : nat) : R := if Nat.leb (2 * k + 1) n then INR k / INR n else (INR k - INR n) / INR n.
(** ngmix/prepsfmom.py:471-485 _zero_pad_and_compute_fft_impl *)
Definition pad_fft (image : arr2 R) (cen_row cen_col : R) (target_dim : Z) (ap_rad : R) : res (arr2 cplx * R * R) :=
  let* (pim, before, after) := zero_pad (apodize image ap_rad) target_dim in
  let* k := fftn pim in
  Ok (k, cen_row + IZR before, cen_col + IZR before).
(** ngmix/prepsfmom.py:488-496 _pixel_fft; numpy.sinc *)
Definition sinc (x : R) : R := if Reqb x 0 then 1 else sin (PI * x) / (PI * x).
Definition pixel_fft (dim : nat) : arr2 cplx := mkArr dim dim (fun k l => mkC (sinc (fftfreq dim l) * sinc (fftfreq dim k)) 0).

(** all modes of a dim x dim array, row by row *)
Definition modes (dim : nat) : list (nat * nat) := flat_map (fun k => map (fun l => (k, l)) (seq 0 dim)) (seq 0 dim).
(** a[msk] *)
Definition select (dim : nat) (msk : list (nat * nat)) (a : arr2 cplx) : res (list cplx) :=
  if Nat.eqb (nrow a) dim && Nat.eqb (ncol a) dim then Ok (map (fun kl => at2 a (fst kl) (snd kl)) msk) else Raise IndexError.
(** ngmix/prepsfmom.py:426-451 _compute_cen_phase_shift on the selected modes *)
Definition cen_phase (cen_row cen_col : R) (dim : nat) (kl : nat * nat) : cplx :=
  cmul (cis (fftfreq dim (snd kl) * (2 * PI * cen_col))) (cis (fftfreq dim (fst kl) * (2 * PI * cen_row))).
(** ngmix/prepsfmom.py:454-468 _compute_cen_phase_shift_orig *)
Definition cen_phase_orig (cen_row cen_col : R) (dim : nat) (kl : nat * nat) : cplx :=
  cis (fftfreq dim (fst kl) * (2 * PI) * cen_row + fftfreq dim (snd kl) * (2 * PI) * cen_col).

(** ** Deconvolution *)
(** the psf mode after truncation, ngmix/prepsfmom.py:534-542 *)
Definition trunc_mode (min_amp : R) (p : cplx) : cplx :=
  let a := cabs p in
  if Rleb a min_amp then if Reqb a 0 then mkC min_amp 0 else cscale (min_amp / a) p else p.
(** the mask that is returned: that of the second test *)
Definition trunc_mask (min_amp : R) (p : cplx) : bool := let a := cabs p in Rleb a min_amp && Reqb a 0.
Fixpoint cdivs (a b : list cplx) : option (list cplx) :=
  match a, b with
  | [], [] => Some []
  | x :: a, y :: b => match cdiv x y, cdivs a b with Some z, Some l => Some (z :: l) | _, _ => None end
  | _, _ => None
  end.
Definition MIN_PSF_FRAC : R := 1 / 100000.
(** ngmix/prepsfmom.py:528-545 _deconvolve_im_psf_inplace *)
Definition deconvolve (kim kpsf : list cplx) (max_amp min_psf_frac : R) : option (list cplx * list cplx * list bool) :=
  let min_amp := min_psf_frac * max_amp in
  let kpsf' := map (trunc_mode min_amp) kpsf in
  match cdivs kim kpsf' with
  | Some k => Some (k, kpsf', map (trunc_mask min_amp) kpsf)
  | None => None
  end.

(** ** Kernels *)
(** the dict; the arrays are over the modes of k_msk *)
Record kernels := mkKern { k_msk : list (nat * nat); k_f : list R; k_r : list R; k_p : list R; k_c : list R; k_nrm : R; k_00 : R }.
(** ngmix/prepsfmom.py:606-611 and 759-764; (fv, fu) of a mode *)
Record wcs2 := mkW2 { a_vrow : R; a_vcol : R; a_urow : R; a_ucol : R }.
Definition Atinv (j : wcs2) : res wcs2 :=
  let det := a_vrow j * a_ucol j - a_vcol j * a_urow j in
  if Reqb det 0 then Raise LinAlgError else
  Ok (mkW2 (a_ucol j / det) (- a_urow j / det) (- a_vcol j / det) (a_vrow j / det)).
Definition fv_of (A : wcs2) (dim : nat) (kl : nat * nat) : R :=
  a_vrow A * (fftfreq dim (fst kl) * (2 * PI)) + a_vcol A * (fftfreq dim (snd kl) * (2 * PI)).
Definition fu_of (A : wcs2) (dim : nat) (kl : nat * nat) : R :=
  a_urow A * (fftfreq dim (fst kl) * (2 * PI)) + a_ucol A * (fftfreq dim (snd kl) * (2 * PI)).
Definition det_of (A : wcs2) : R := a_vrow A * a_ucol A - a_vcol A * a_urow A.
Definition fmag2_of A dim kl : R := fu_of A dim kl ^ 2 + fv_of A dim kl ^ 2.
(** ngmix/prepsfmom.py:548-554 _get_fwhm_smooth_profile *)
Definition smooth_profile (fwhm_smooth fmag2 : R) : res R :=
  let s := fwhm_to_sigma fwhm_smooth in
  let chi2_2 := s * s / 2 * fmag2 in
  if Rltb chi2_2 (FASTEXP_MAX_CHI2 / 2) && Rleb 0 chi2_2 then fexp (- chi2_2) else Ok 0.
Definition smooth_list (fwhm_smooth : R) (fmag2 : list R) : res (list R) :=
  if Rltb 0 fwhm_smooth then mapM (smooth_profile fwhm_smooth) fmag2 else Ok (map (fun _ => 1) fmag2).
(** numpy.allclose(nrm, 1.0, atol=1e-5, rtol=0) *)
Definition close_to_one (nrm : R) : bool := Rleb (Rabs (nrm - 1)) (1 / 100000).
(** ngmix/prepsfmom.py:594-707 _ksigma_kernels_impl *)
Definition ksigma_kernels (dim : nat) (kernel_size : R) (j : wcs2) (fwhm_smooth : R) : res kernels :=
  let* A := Atinv j in
  let sigma := fwhm_to_sigma kernel_size in
  if Reqb sigma 0 then Raise ZeroDivisionError else
  let kmax2 := 2 * 4 / sigma ^ 2 in
  let msk := filter (fun kl => Rltb (fmag2_of A dim kl) kmax2) (modes dim) in
  let karg kl := 1 - fmag2_of A dim kl / kmax2 in
  let max_real_val := 4 / (sigma ^ 2 * 10 * PI) in
  let knrm := Rabs (det_of A) / max_real_val in
  let fkf := map (fun kl => karg kl ^ 4 * knrm) msk in
  let nrm := rsum fkf / INR dim / INR dim in
  if negb (close_to_one nrm) then Raise FFTRangeError else
  let* s := smooth_list fwhm_smooth (map (fmag2_of A dim) msk) in
  let ms := combine msk s in
  let d1 kl := (- knrm * 8 / kmax2) * karg kl ^ 3 in
  let d2 kl := (knrm * 48 / kmax2 ^ 2) * karg kl ^ 2 in
  Ok (mkKern msk
    (map (fun x => let '(kl, s) := x in karg kl ^ 4 * knrm * s) ms)
    (map (fun x => let '(kl, s) := x in -2 * (d1 kl * s) - fmag2_of A dim kl * (d2 kl * s)) ms)
    (map (fun x => let '(kl, s) := x in - (fu_of A dim kl ^ 2 - fv_of A dim kl ^ 2) * (d2 kl * s)) ms)
    (map (fun x => let '(kl, s) := x in -2 * fu_of A dim kl * fv_of A dim kl * (d2 kl * s)) ms)
    nrm knrm).
(** ngmix/prepsfmom.py:747-842 _gauss_kernels_impl *)
Definition gauss_kernels (dim : nat) (kernel_size : R) (j : wcs2) (fwhm_smooth : R) : res kernels :=
  let* A := Atinv j in
  let sigma := fwhm_to_sigma kernel_size in
  let sigma2 := sigma * sigma in
  let exp_fac := sigma2 / 2 in
  let chi2_2 kl := exp_fac * fmag2_of A dim kl in
  let msk := filter (fun kl => Rltb (chi2_2 kl) (FASTEXP_MAX_CHI2 / 2) && Rleb 0 (chi2_2 kl)) (modes dim) in
  let* exp_val := mapM (fun kl => fexp (- chi2_2 kl)) msk in
  let knrm := Rabs (det_of A) * PI * 2 * sigma2 in
  let fkf := map (fun e => e * knrm) exp_val in
  let nrm := rsum fkf / INR dim / INR dim in
  if negb (close_to_one nrm) then Raise FFTRangeError else
  let* s := smooth_list fwhm_smooth (map (fmag2_of A dim) msk) in
  let fkf := map (fun x => fst x * snd x) (combine fkf s) in
  let fkfac := 2 * exp_fac in
  let fkfac2 := 4 * exp_fac ^ 2 in
  let mf := combine msk fkf in
  Ok (mkKern msk fkf
    (map (fun x => let '(kl, f) := x in (2 * fkfac - fkfac2 * fmag2_of A dim kl) * f) mf)
    (map (fun x => let '(kl, f) := x in fkfac2 * (fv_of A dim kl ^ 2 - fu_of A dim kl ^ 2) * f) mf)
    (map (fun x => let '(kl, f) := x in -2 * fkfac2 * fu_of A dim kl * fv_of A dim kl * f) mf)
    nrm knrm).

(** ** Moments *)
(** sum((kim * fk).real) *)
Definition sum_re (kim : list cplx) (fk : list R) : R := rsum (map (fun x => re (fst x) * snd x) (combine kim fk)).
(** sum((kerns[i] * conj(kerns[j])).real), kerns[i] = fk / kpsf *)
Definition psf_kern (fk : list R) (inv_psf : list cplx) : list cplx := map (fun x => cscale (fst x) (snd x)) (combine fk inv_psf).
Definition sum_conj (a b : list cplx) : R := rsum (map (fun x => re (cmul (fst x) (cconj (snd x)))) (combine a b)).
(** ngmix/prepsfmom.py:318-365 _measure_moments_fft_numba *)
Definition measure_numba (kim kpsf : list cplx) (dim : nat) (eff_pad : R) (K : kernels) (tot_var : R) : option (list xr * smat * R) :=
  let df := 1 / INR dim in
  let df2 := df * df in
  let df4 := df2 * df2 in
  let mf := sum_re kim (k_f K) * df2 in
  let mr := sum_re kim (k_r K) * df2 in
  let mp := sum_re kim (k_p K) * df2 in
  let mc := sum_re kim (k_c K) * df2 in
  let tot_var_df4 := tot_var * eff_pad ^ 2 * df4 in
  match cdivs (map (fun _ => mkC 1 0) kpsf) kpsf with
  | None => None
  | Some inv_psf =>
      let kern i := psf_kern (match i with 2%nat => k_p K | 3%nat => k_c K | 4%nat => k_r K | _ => k_f K end) inv_psf in
      let cov i j :=
        if Nat.leb 2 i && Nat.leb 2 j then sum_conj (kern (Nat.min i j)) (kern (Nat.max i j)) * tot_var_df4
        else if Nat.eqb i j then 1 else 0 in
      Some ([NaN; NaN; Fin mp; Fin mc; Fin mr; Fin mf], mkSmat 6 (fun i j => Fin (cov i j)), k_00 K)
  end.
(** ngmix/prepsfmom.py:283-315 _measure_moments_fft; drow = dcol = 0 skips the phases *)
Definition measure_fft (kim kpsf : arr2 cplx) (tot_var eff_pad : R) (K : kernels) (drow dcol : R) : option (res (list xr * smat * R)) :=
  let dim := nrow kim in
  match select dim (k_msk K) kim, select dim (k_msk K) kpsf with
  | Raise e, _ | _, Raise e => Some (Raise e)
  | Ok kl, Ok pl =>
      match deconvolve kl pl (cabs (at2 kpsf 0 0)) MIN_PSF_FRAC with
      | None => None
      | Some (kl, pl, _) =>
          let kl := if Reqb drow 0 && Reqb dcol 0 then kl
                    else map (fun x => cmul (fst x) (cen_phase drow dcol dim (snd x))) (combine kl (k_msk K)) in
          match measure_numba kl pl dim eff_pad K tot_var with None => None | Some r => Some (Ok r) end
      end
  end.

(** ** The fitter *)
(** an observation: image, weight, jacobian, and image and jacobian of the psf observation *)
Record ppobs := mkPP { pp_im : arr2 R; pp_wt : arr2 R; pp_jac : jac; pp_psf : option (arr2 R * jac) }.
Inductive kind := KSigma | PGauss.
Record fitter := mkFitter { ft_fwhm : R; ft_kind : kind; ft_pad : R; ft_ap : R; ft_smooth : R }.
(** ngmix/prepsfmom.py:845-867 _check_obs_and_get_psf_obs *)
Definition same_wcs (a b : jac) : bool :=
  let x := get_galsim_wcs a in let y := get_galsim_wcs b in
  Reqb (w_dudx x) (w_dudx y) && Reqb (w_dudy x) (w_dudy y) && Reqb (w_dvdx x) (w_dvdx y) && Reqb (w_dvdy x) (w_dvdy y).
Definition check_obs (o : ppobs) (no_psf : bool) : res (option (arr2 R * jac)) :=
  if negb (Nat.eqb (nrow (pp_im o)) (ncol (pp_im o))) then Raise ValueError else
  if no_psf then Ok None else
  match pp_psf o with
  | None => Raise RuntimeError
  | Some p => if negb (same_wcs (snd p) (pp_jac o)) then Raise RuntimeError else Ok (Some p)
  end.
Definition wcs_of (j : jac) : wcs2 := mkW2 (dvdrow j) (dvdcol j) (dudrow j) (dudcol j).
Definition make_kernels (f : fitter) (dim : nat) (j : wcs2) : res kernels :=
  match ft_kind f with
  | KSigma => ksigma_kernels dim (ft_fwhm f) j (ft_smooth f)
  | PGauss => gauss_kernels dim (ft_fwhm f) j (ft_smooth f)
  end.
(** ngmix/prepsfmom.py:111-118 *)
Definition target_of (f : fitter) (o : ppobs) (psf : option (arr2 R * jac)) : Z :=
  let n := match psf with
           | Some p => if Nat.ltb (nrow (fst p)) (nrow (pp_im o)) then nrow (pp_im o) else nrow (fst p)
           | None => nrow (pp_im o) end in
  trunc (INR n * ft_pad f).
(** ngmix/prepsfmom.py:186-187: total variance *)
Definition total_var (w : arr2 R) : R :=
  rsum (map (fun x => 1 / x) (filter (fun x => Rltb 0 x) (flat_map (fun r => map (at2 w r) (seq 0 (ncol w))) (seq 0 (nrow w))))).
(** ngmix/prepsfmom.py:109-211 _meas; return_kernels, which adds copies of the kernels, is left out *)
Definition meas (f : fitter) (o : ppobs) (psf : option (arr2 R * jac)) : option (res momres) :=
  let target := target_of f o psf in
  if Nat.eqb (nrow (pp_im o)) 0 then Some (Raise ZeroDivisionError) else
  let eff_pad := IZR target / INR (nrow (pp_im o)) in
  match pad_fft (pp_im o) (row0 (pp_jac o)) (col0 (pp_jac o)) target (ft_ap f) with
  | Raise e => Some (Raise e)
  | Ok (kim, im_row, im_col) =>
      match match psf with
            | Some (pim, pj) => pad_fft pim (row0 pj) (col0 pj) target 0
            | None => Ok (pixel_fft (nrow kim), 0, 0) end with
      | Raise e => Some (Raise e)
      | Ok (kpsf, psf_row, psf_col) =>
          match make_kernels f (Z.to_nat target) (wcs_of (pp_jac o)) with
          | Raise e => Some (Raise e)
          | Ok K =>
              match measure_fft kim kpsf (total_var (pp_wt o)) eff_pad K (im_row - psf_row) (im_col - psf_col) with
              | None => None
              | Some (Raise e) => Some (Raise e)
              | Some (Ok (mom, cov, norm)) => Some (make_mom_result mom cov (Some (Fin norm)))
              end
          end
      end
  end.
(** ngmix/prepsfmom.py:88-107 go *)
Definition go (f : fitter) (o : ppobs) (no_psf : bool) : option (res momres) :=
  match check_obs o no_psf with Raise e => Some (Raise e) | Ok psf => meas f o psf end.
