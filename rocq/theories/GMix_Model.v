(** Model of the numba part of gaussian mixtures, ngmix/gmix/gmix_nb.py, and of the
    numerical methods of ngmix/gmix/gmix.py that act on the component array. *)
From Verif Require Import Base Shape_Model Moments_Model.

(** the lazily computed fields drr, drc, dcc, norm, pnorm *)
Record norms := mkNorms { n_drr : R; n_drc : R; n_dcc : R; n_norm : R; n_pnorm : R }.

(** _gauss2d_dtype, ngmix/gmix/gmix.py:1163-1177.  [g_nrm = None] stands for the five
    lazily computed fields being NaN. *)
Record gauss := mkGauss {
  g_p : R; g_row : R; g_col : R; g_irr : R; g_irc : R; g_icc : R; g_det : R;
  g_norm_set : bool; g_nrm : option norms }.

Definition gmix := list gauss.

(** ngmix/gmix/gmix_nb.py:9 *)
Definition GMIX_LOW_DETVAL : R := / 10 ^ 200.

(** ngmix/gmix/gmix_nb.py:212-231 gauss2d_set *)
Definition gauss2d_set (p row col irr irc icc : R) : gauss :=
  mkGauss p row col irr irc icc (irr * icc - irc * irc) false None.

(** numpy.zeros(n, dtype=_gauss2d_dtype), ngmix/gmix/gmix.py:790 *)
Definition gauss_zero : gauss := mkGauss 0 0 0 0 0 0 0 false (Some (mkNorms 0 0 0 0 0)).
Definition gmix_zeros (n : nat) : gmix := repeat gauss_zero n.

(** ngmix/gmix/gmix_nb.py:181-209 gauss2d_set_norm *)
Definition gauss2d_set_norm (g : gauss) : res gauss :=
  if Rltb (g_det g) GMIX_LOW_DETVAL then Raise GMixRangeError else
  let T := g_irr g + g_icc g in
  if Rleb T GMIX_LOW_DETVAL then Raise GMixRangeError else
  let idet := 1 / g_det g in
  let norm := 1 / (2 * PI * sqrt (g_det g)) in
  Ok (mkGauss (g_p g) (g_row g) (g_col g) (g_irr g) (g_irc g) (g_icc g) (g_det g) true
        (Some (mkNorms (g_irr g * idet) (g_irc g * idet) (g_icc g * idet) norm (g_p g * norm)))).

(** ngmix/gmix/gmix_nb.py:167-178 gmix_set_norms: in place, so a failure leaves the
    components before the failing one updated *)
Fixpoint gmix_set_norms (gm : gmix) : gmix * res unit :=
  match gm with
  | [] => ([], Ok tt)
  | g :: rest =>
      match gauss2d_set_norm g with
      | Ok g' => let (rest', r) := gmix_set_norms rest in (g' :: rest', r)
      | Raise e => (g :: rest, Raise e)
      end
  end.

(** the test [gm["norm_set"][0] == 0] then gmix_set_norms, ngmix/gmix/gmix.py:369-376 and
    gmix_nb.py:841,883,914.  An empty array has no element 0: IndexError from
    python; the compiled functions do not check and read past the end. *)
Definition set_norms_if_needed (gm : gmix) : gmix * res unit :=
  match gm with
  | [] => ([], Raise IndexError)
  | g :: _ => if negb (g_norm_set g) then gmix_set_norms gm else (gm, Ok tt)
  end.

(** ngmix/gmix/gmix_nb.py:99-121 gmix_get_cen *)
Definition gmix_get_cen (gm : gmix) : res (R * R * R) :=
  let '(row, col, psum) :=
    fold_left (fun s g => let '(row, col, psum) := s in
        (row + g_p g * g_row g, col + g_p g * g_col g, psum + g_p g)) gm (0, 0, 0) in
  if Reqb psum 0 then Raise ZeroDivisionError else
  Ok (row / psum, col / psum, psum).

(** ngmix/gmix/gmix_nb.py:124-164 gmix_get_e1e2T *)
Definition gmix_get_e1e2T (gm : gmix) : res (R * R * R) :=
  let* (row, col, psum0) := gmix_get_cen gm in
  if Reqb psum0 0 then Raise GMixRangeError else
  let '(irr_sum, irc_sum, icc_sum, psum) :=
    fold_left (fun s g => let '(irr, irc, icc, psum) := s in
        let rowdiff := g_row g - row in
        let coldiff := g_col g - col in
        (irr + g_p g * (g_irr g + rowdiff * rowdiff),
         irc + g_p g * (g_irc g + rowdiff * coldiff),
         icc + g_p g * (g_icc g + coldiff * coldiff),
         psum + g_p g)) gm (0, 0, 0, 0) in
  let T_sum := irr_sum + icc_sum in
  if Reqb psum 0 then Raise ZeroDivisionError else
  let T := T_sum / psum in
  if Rleb T_sum 0 then Raise GMixRangeError else
  Ok ((icc_sum - irr_sum) / T_sum, 2 * irc_sum / T_sum, T).

(** ngmix/gmix/gmix_nb.py:643-669 g1g2_to_e1e2 (numba version) *)
Definition g1g2_to_e1e2_nb (g1 g2 : R) : res (R * R) :=
  let g := sqrt (g1 * g1 + g2 * g2) in
  if Rleb 1 g then Raise GMixRangeError else
  if Reqb g 0 then Ok (0, 0) else
  let eta := 2 * arctanh g in
  let e := tanh eta in
  let e := if Rleb 1 e then 99999999 / 100000000 else e in
  let fac := e / g in
  Ok (fac * g1, fac * g2).

(** ngmix/gmix/gmix_nb.py:234-243 *)
Definition pvals_exp : list R :=
  [ 61601229677880041 / 100000000000000000000;
    79461395724623237 / 10000000000000000000;
    53280454055540001 / 1000000000000000000;
    21797364640726541 / 100000000000000000;
    45496740582554868 / 100000000000000000;
    26521634184240478 / 100000000000000000 ].
(** ngmix/gmix/gmix_nb.py:245-254 *)
Definition fvals_exp : list R :=
  [ 2467115141477932 / 1000000000000000000;
    18147435573256168 / 1000000000000000000;
    7944063151366336 / 100000000000000000;
    27137669897479122 / 100000000000000000;
    79782256866993773 / 100000000000000000;
    21623306025075739 / 10000000000000000 ].
(** ngmix/gmix/gmix_nb.py:256-269 *)
Definition pvals_dev : list R :=
  [ 65288960012625658 / 1000000000000000000000;
    44199216814302695 / 100000000000000000000;
    20859587871659754 / 10000000000000000000;
    75913681418996841 / 10000000000000000000;
    2260266219257237 / 100000000000000000;
    56532254390212859 / 1000000000000000000;
    11939049233042602 / 100000000000000000;
    20969545753234975 / 100000000000000000;
    29254151133139222 / 100000000000000000;
    28905301416582552 / 100000000000000000 ].
(** ngmix/gmix/gmix_nb.py:271-284 *)
Definition fvals_dev : list R :=
  [ 29934935706271918 / 100000000000000000000000;
    34651596338231207 / 10000000000000000000000;
    24807910570562753 / 1000000000000000000000;
    14307404300535354 / 100000000000000000000;
    72753169298239500 / 100000000000000000000;
    34582464394427260 / 10000000000000000000;
    16086645440719100 / 1000000000000000000;
    77006776775654429 / 1000000000000000000;
    41012562102501476 / 100000000000000000;
    29812509778548648 / 10000000000000000 ].
(** ngmix/gmix/gmix_nb.py:286-288 *)
Definition pvals_turb : list R :=
  [ 596510042804182 / 1000000000000000;
    4034898268889178 / 10000000000000000;
    1303069003078001 / 10000000000000000000000 ].
(** ngmix/gmix/gmix_nb.py:290-292 *)
Definition fvals_turb : list R :=
  [ 5793612389470884 / 10000000000000000;
    1621860687127999 / 1000000000000000;
    7019347162356363 / 1000000000000000 ].
(** ngmix/gmix/gmix_nb.py:294-295 *)
Definition pvals_gauss : list R := [1].
Definition fvals_gauss : list R := [1].

(** array element: numba does not check bounds, an out of range read is a memory error *)
Definition getp (pars : list R) (i : nat) : res R :=
  match nth_error pars i with Some x => Ok x | None => Raise OtherError end.

(** ngmix/gmix/gmix_nb.py:298-331 gmix_fill_simple; n is gmix.size.  Every element is
    overwritten, so the old content does not matter; nothing is written when g >= 1. *)
Definition gmix_fill_simple (n : nat) (fvals pvals pars : list R) : res gmix :=
  let* row := getp pars 0 in
  let* col := getp pars 1 in
  let* g1 := getp pars 2 in
  let* g2 := getp pars 3 in
  let* T := getp pars 4 in
  let* flux := getp pars 5 in
  let* (e1, e2) := g1g2_to_e1e2_nb g1 g2 in
  mapM (fun i =>
    let* f := getp fvals i in
    let* p := getp pvals i in
    let T_i_2 := / 2 * T * f in
    let flux_i := flux * p in
    Ok (gauss2d_set flux_i row col (T_i_2 * (1 - e1)) (T_i_2 * e2) (T_i_2 * (1 + e1))))
    (seq 0 n).

(** ngmix/gmix/gmix_nb.py:334-363 *)
Definition gmix_fill_exp n pars := gmix_fill_simple n fvals_exp pvals_exp pars.
Definition gmix_fill_dev n pars := gmix_fill_simple n fvals_dev pvals_dev pars.
Definition gmix_fill_turb n pars := gmix_fill_simple n fvals_turb pvals_turb pars.
Definition gmix_fill_gauss n pars := gmix_fill_simple n fvals_gauss pvals_gauss pars.

(** ngmix/gmix/gmix_nb.py:366-396 gmix_fill_coellip *)
Definition gmix_fill_coellip (n : nat) (pars : list R) : res gmix :=
  let* row := getp pars 0 in
  let* col := getp pars 1 in
  let* g1 := getp pars 2 in
  let* g2 := getp pars 3 in
  let* (e1, e2) := g1g2_to_e1e2_nb g1 g2 in
  mapM (fun i =>
    let* T := getp pars (4 + i) in
    let Thalf := / 2 * T in
    let* flux := getp pars (4 + n + i) in
    Ok (gauss2d_set flux row col (Thalf * (1 - e1)) (Thalf * e2) (Thalf * (1 + e1))))
    (seq 0 n).

(** ngmix/gmix/gmix_nb.py:399-418 gmix_fill_full *)
Definition gmix_fill_full (n : nat) (pars : list R) : res gmix :=
  mapM (fun i =>
    let beg := (i * 6)%nat in
    let* p := getp pars (beg + 0) in
    let* row := getp pars (beg + 1) in
    let* col := getp pars (beg + 2) in
    let* irr := getp pars (beg + 3) in
    let* irc := getp pars (beg + 4) in
    let* icc := getp pars (beg + 5) in
    Ok (gauss2d_set p row col irr irc icc))
    (seq 0 n).

(** one of the 16 components of a composite model, ngmix/gmix/gmix_nb.py:439-457 (same
    text at 485-503 and 531-549) *)
Definition cm_gauss (fracdev TdByTe row col e1 e2 T flux : R) (i : nat) : res gauss :=
  let ifracdev := 1 - fracdev in
  let* (p, f) :=
    if Nat.ltb i 6 then
      let* p := getp pvals_exp i in
      let* f := getp fvals_exp i in
      Ok (p * ifracdev, f)
    else
      let* p := getp pvals_dev (i - 6) in
      let* f := getp fvals_dev (i - 6) in
      Ok (p * fracdev, f * TdByTe) in
  let T_i_2 := / 2 * T * f in
  let flux_i := flux * p in
  Ok (gauss2d_set flux_i row col (T_i_2 * (1 - e1)) (T_i_2 * e2) (T_i_2 * (1 + e1))).

(** ngmix/gmix/gmix_nb.py:552-584 get_cm_Tfactor *)
Definition get_cm_Tfactor (fracdev TdByTe : R) : res R :=
  let ifracdev := 1 - fracdev in
  let* s1 := foldM (fun s i =>
      let* p := getp pvals_exp i in
      let* f := getp fvals_exp i in
      Ok (s + (p * ifracdev) * f)) (seq 0 6) 0 in
  let* s2 := foldM (fun s i =>
      let* p := getp pvals_dev i in
      let* f := getp fvals_dev i in
      Ok (s + (p * fracdev) * (f * TdByTe))) (seq 0 10) s1 in
  if Reqb s2 0 then Raise ZeroDivisionError else Ok (1 / s2).

(** ngmix/gmix/gmix_nb.py:421-457 gmix_fill_cm *)
Definition gmix_fill_cm (fracdev TdByTe Tfactor : R) (pars : list R) : res gmix :=
  let* row := getp pars 0 in
  let* col := getp pars 1 in
  let* g1 := getp pars 2 in
  let* g2 := getp pars 3 in
  let* T0 := getp pars 4 in
  let T := T0 * Tfactor in
  let* flux := getp pars 5 in
  let* (e1, e2) := g1g2_to_e1e2_nb g1 g2 in
  mapM (cm_gauss fracdev TdByTe row col e1 e2 T flux) (seq 0 16).

(** ngmix/gmix/gmix_nb.py:460-503 gmix_fill_bd; 10**x is exp(x ln 10) *)
Definition gmix_fill_bd (pars : list R) : res gmix :=
  let* row := getp pars 0 in
  let* col := getp pars 1 in
  let* g1 := getp pars 2 in
  let* g2 := getp pars 3 in
  let* T0 := getp pars 4 in
  let* lTrat := getp pars 5 in
  let* fracdev := getp pars 6 in
  let* flux := getp pars 7 in
  let TdByTe := Rpower 10 lTrat in
  let* Tfactor := get_cm_Tfactor fracdev TdByTe in
  let T := T0 * Tfactor in
  let* (e1, e2) := g1g2_to_e1e2_nb g1 g2 in
  mapM (cm_gauss fracdev TdByTe row col e1 e2 T flux) (seq 0 16).

(** ngmix/gmix/gmix_nb.py:506-549 gmix_fill_bdf *)
Definition gmix_fill_bdf (pars : list R) : res gmix :=
  let TdByTe := 1 in
  let* row := getp pars 0 in
  let* col := getp pars 1 in
  let* g1 := getp pars 2 in
  let* g2 := getp pars 3 in
  let* T0 := getp pars 4 in
  let* fracdev := getp pars 5 in
  let* flux := getp pars 6 in
  let* Tfactor := get_cm_Tfactor fracdev TdByTe in
  let T := T0 * Tfactor in
  let* (e1, e2) := g1g2_to_e1e2_nb g1 g2 in
  mapM (cm_gauss fracdev TdByTe row col e1 e2 T flux) (seq 0 16).

(** ngmix/gmix/gmix_nb.py:600-640 gmix_convolve_fill and gmix.py:485-508 convolve: the
    output array has exactly len(self)*len(psf) elements, all overwritten *)
Definition gmix_convolve (gm psf : gmix) : res gmix :=
  let* (psf_rowcen, psf_colcen, psf_psum) := gmix_get_cen psf in
  let psf_ipsum := 1 / psf_psum in
  Ok (flat_map (fun og =>
        map (fun pg =>
          gauss2d_set (g_p og * g_p pg * psf_ipsum)
            (g_row og + (g_row pg - psf_rowcen)) (g_col og + (g_col pg - psf_colcen))
            (g_irr og + g_irr pg) (g_irc og + g_irc pg) (g_icc og + g_icc pg)) psf) gm).

(** ---- methods of GMix acting on the component array ---- *)

(** ngmix/gmix/gmix.py:266-274 get_flux / get_psum *)
Definition gm_get_flux (gm : gmix) : R := rsum (map g_p gm).

(** ngmix/gmix/gmix.py:152-165 get_cen.  numpy division by a zero flux gives inf or nan
    with a warning; None stands for that outcome here and below. *)
Definition np_div (a b : R) : option R := if Reqb b 0 then None else Some (a / b).
Definition gm_get_cen (gm : gmix) : option (R * R) :=
  let psum := rsum (map g_p gm) in
  let rowsum := rsum (map (fun g => g_row g * g_p g) gm) in
  let colsum := rsum (map (fun g => g_col g * g_p g) gm) in
  match np_div rowsum psum, np_div colsum psum with
  | Some row, Some col => Some (row, col)
  | _, _ => None
  end.

(** ngmix/gmix/gmix.py:167-179 set_cen *)
Definition shift_gauss (dr dc : R) (g : gauss) : gauss :=
  mkGauss (g_p g) (g_row g + dr) (g_col g + dc) (g_irr g) (g_irc g) (g_icc g) (g_det g)
          (g_norm_set g) (g_nrm g).
Definition gm_set_cen (gm : gmix) (row col : R) : option gmix :=
  match gm_get_cen gm with
  | None => None
  | Some (row0, col0) => Some (map (shift_gauss (row - row0) (col - col0)) gm)
  end.

(** ngmix/gmix/gmix.py:276-290 set_flux / set_psum *)
Definition scale_gauss (k : R) (g : gauss) : gauss :=
  mkGauss (g_p g * k) (g_row g) (g_col g) (g_irr g) (g_irc g) (g_icc g) (g_det g)
          false (g_nrm g).
Definition gm_set_flux (gm : gmix) (psum : R) : option gmix :=
  let psum0 := rsum (map g_p gm) in
  match np_div psum psum0 with
  | None => None
  | Some rat => Some (map (scale_gauss rat) gm)
  end.

(** ngmix/gmix/gmix.py:181-201 get_T *)
Definition gm_get_T (gm : gmix) : option R :=
  match gm_get_cen gm with
  | None => None
  | Some (row, col) =>
      let ipsum := 1 / rsum (map g_p gm) in
      let irr := rsum (map (fun g => (g_irr g + (g_row g - row) ^ 2) * g_p g) gm) * ipsum in
      let icc := rsum (map (fun g => (g_icc g + (g_col g - col) ^ 2) * g_p g) gm) * ipsum in
      Some (irr + icc)
  end.

(** ngmix/gmix/gmix.py:203-208 get_sigma; nan for negative T *)
Definition gm_get_sigma (gm : gmix) : option R :=
  match gm_get_T gm with
  | Some T => if Rltb T 0 then None else Some (sqrt (T / 2))
  | None => None
  end.

(** ngmix/gmix/gmix.py:210-233 get_e1e2T *)
Definition gm_get_e1e2T (gm : gmix) : option (R * R * R) :=
  match gm_get_cen gm with
  | None => None
  | Some (row, col) =>
      let ipsum := 1 / rsum (map g_p gm) in
      let irr := rsum (map (fun g => (g_irr g + (g_row g - row) ^ 2) * g_p g) gm) * ipsum in
      let irc := rsum (map (fun g => (g_irc g + (g_row g - row) * (g_col g - col)) * g_p g) gm) * ipsum in
      let icc := rsum (map (fun g => (g_icc g + (g_col g - col) ^ 2) * g_p g) gm) * ipsum in
      let T := irr + icc in
      match np_div (icc - irr) T, np_div (2 * irc) T with
      | Some e1, Some e2 => Some (e1, e2, T)
      | _, _ => None
      end
  end.

(** ngmix/gmix/gmix.py:235-241 get_g1g2T: outer None = not finite, inner Raise = |e| >= 1 *)
Definition gm_get_g1g2T (gm : gmix) : option (res (R * R * R)) :=
  match gm_get_e1e2T gm with
  | None => None
  | Some (e1, e2, T) => Some (let* (g1, g2) := e1e2_to_g1g2 e1 e2 in Ok (g1, g2, T))
  end.

(** ngmix/gmix/gmix.py:126-150 get_full_pars *)
Definition gm_get_full_pars (gm : gmix) : list R :=
  flat_map (fun g => [g_p g; g_row g; g_col g; g_irr g; g_irc g; g_icc g]) gm.

(** ngmix/gmix/gmix.py:96-118 GMix(pars=...) and the data part of GMix(ngauss=...) *)
Definition GMix_pars (pars : list R) : res gmix :=
  let npars := length pars in
  if negb (Nat.eqb (npars mod 6) 0) then Raise ValueError else
  gmix_fill_full (npars / 6) pars.

(** ngmix/gmix/gmix.py:430-443 __eq__: numpy compares the fields with broadcasting, so a
    one-component mixture is compared with every component of the other one; other length
    mismatches raise (numpy >= 1.25; older versions returned False with a warning) *)
Definition gauss_eq (a b : gauss) : bool :=
  Reqb (g_p a) (g_p b) && Reqb (g_row a) (g_row b) && Reqb (g_col a) (g_col b) &&
  Reqb (g_irr a) (g_irr b) && Reqb (g_irc a) (g_irc b) && Reqb (g_icc a) (g_icc b) &&
  Reqb (g_det a) (g_det b).
Fixpoint all_eq (a b : gmix) : bool :=
  match a, b with
  | x :: a', y :: b' => gauss_eq x y && all_eq a' b'
  | _, _ => true
  end.
Definition gmix_eq (a b : gmix) : res bool :=
  if Nat.eqb (length a) (length b) then Ok (all_eq a b) else
  match a, b with
  | [x], _ => Ok (forallb (fun y => gauss_eq x y) b)
  | _, [y] => Ok (forallb (fun x => gauss_eq x y) a)
  | _, _ => Raise ValueError
  end.

(** ngmix/gmix/gmix.py:463-483 the body of get_sheared, on the copied array *)
Definition shear_gauss (s1 s2 : R) (g : gauss) : res gauss :=
  let* (irr_s, irc_s, icc_s) := get_sheared_moments (g_irr g) (g_irc g) (g_icc g) s1 s2 in
  let det := irr_s * icc_s - irc_s * irc_s in
  Ok (mkGauss (g_p g) (g_row g) (g_col g) irr_s irc_s icc_s det false (g_nrm g)).
Definition gmix_shear (gm : gmix) (s1 s2 : R) : res gmix := mapM (shear_gauss s1 s2) gm.

(** the factor of make_round, ngmix/gmix/gmix.py:550-570; the largest eigenvalue that
    numpy returns for the symmetric 2x2 matrix is written in closed form *)
Definition eigmax (irr irc icc : R) : R :=
  (irr + icc) / 2 + sqrt (((irr - icc) / 2) ^ 2 + irc ^ 2).
Definition round_factor (gm : gmix) (preserve_size : bool) : option (res R) :=
  if preserve_size then
    match gm_get_e1e2T gm with
    | None => None
    | Some (e1, e2, T) =>
        let '(irr, irc, icc) := e2mom e1 e2 T in
        Some (Ok (eigmax irr irc icc / (T / 2)))
    end
  else
    match gm_get_g1g2T gm with
    | None => None
    | Some r => Some (let* (g1, g2, T) := r in Ok (get_round_factor g1 g2))
    end.
(** ngmix/gmix/gmix.py:572-584: det is not touched *)
Definition round_gauss (factor : R) (g : gauss) : gauss :=
  let Ti := g_irr g + g_icc g in
  mkGauss (g_p g) (g_row g) (g_col g) (/ 2 * Ti * factor) 0 (/ 2 * Ti * factor) (g_det g)
          false (g_nrm g).
Definition gmix_make_round (gm : gmix) (preserve_size : bool) : option (res gmix) :=
  match round_factor gm preserve_size with
  | None => None
  | Some r => Some (let* factor := r in Ok (map (round_gauss factor) gm))
  end.

(** ngmix/gmix/gmix.py:1180-1209 gmix_concat *)
Definition gmix_concat (gms : list gmix) : res gmix :=
  if Nat.eqb (length gms) 0 then Raise ValueError
  else GMix_pars (flat_map gm_get_full_pars gms).
