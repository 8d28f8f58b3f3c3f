(** Model of the EM fitters: ngmix/em/em_nb.py and ngmix/em/em.py. *)
From Verif Require Import Base Jacobian_Model Pixels_Model GMix_Model FastExp_Model Render_Model GMixObj_Model Flags_Model.
Local Open Scope R_scope.

(** The four compiled loops em_run, em_run_fixcen, em_run_fixcov and em_run_fluxonly are
    copies of one another; the copies drop the sums that are not used. *)
Inductive em_kind := Free | FixCen | FixCov | FluxOnly.
Definition tracks_cen (k : em_kind) : bool := match k with Free | FixCov => true | _ => false end.
Definition tracks_cov (k : em_kind) : bool := match k with Free | FixCen => true | _ => false end.

(** scratch fields gi, tvsum, tusum, tv2sum, tuvsum, tu2sum of the sums array and the
    fields accumulated over pixels, ngmix/em/em.py:459-531 *)
Record scr := mkScr { s_gi : R; s_tv : R; s_tu : R; s_tv2 : R; s_tuv : R; s_tu2 : R }.
Record sums := mkSums { a_pnew : R; a_v : R; a_u : R; a_v2 : R; a_uv : R; a_u2 : R }.
Definition scr0 : scr := mkScr 0 0 0 0 0 0.
Definition sums0 : sums := mkSums 0 0 0 0 0 0.

(** numpy.log: None stands for NaN and for -inf.  The latter comes from p = 0, where pnorm
    is 0 and so is every value it is multiplied with: 0 * -inf is NaN. *)
Definition log_nan (x : R) : option R := if Rltb 0 x then Some (ln x) else None.
(** ngmix/em/em_nb.py:659-675 set_logtau_logdet *)
Definition set_logtau_logdet (conv : gmix) : list (option R * option R) :=
  map (fun g => (log_nan (g_p g), log_nan (g_det g))) conv.

(** ngmix/em/em_nb.py:215-227 and its copies: chi2 and value of one gaussian in a pixel.
    NaN normalisations (None) give a NaN chi2 and the value 0. *)
Definition em_chi2 (g : gauss) (v u : R) : option R :=
  match g_nrm g with
  | None => None
  | Some n =>
      let vdiff := v - g_row g in
      let udiff := u - g_col g in
      Some (n_dcc n * (vdiff * vdiff) + n_drr n * (udiff * udiff) - 2 * n_drc n * (udiff * vdiff))
  end.
Definition em_val (g : gauss) (v u area : R) : res R :=
  match g_nrm g, em_chi2 g v u with
  | Some n, Some chi2 =>
      if Rltb chi2 25 && Rleb 0 chi2 then
        let* e := fexp (- (5/10) * chi2) in Ok (n_pnorm n * e * area)
      else Ok 0
  | _, _ => Ok 0
  end.
(** val*(logtau - 0.5*logdet - 0.5*chi2) *)
Definition log_term (val : R) (tau : option R * option R) (chi2 : option R) : option R :=
  match tau, chi2 with
  | (Some logtau, Some logdet), Some c => Some (val * (logtau - 5/10 * logdet - 5/10 * c))
  | _, _ => None
  end.

(** the loop over the gaussians of one object, ngmix/em/em_nb.py:208-239 *)
Definition scratch_gauss (k : em_kind) (p : pixel R) (st : scr * R * option R) (gt : gauss * (option R * option R))
  : res (scr * R * option R) :=
  let '(s, gsum, logL) := st in
  let (g, tau) := gt in
  let v := px_v p in
  let u := px_u p in
  let vdiff := v - g_row g in
  let udiff := u - g_col g in
  let* val := em_val g v u (px_area p) in
  let s1 := mkScr (s_gi s + val)
              (if tracks_cen k then s_tv s + v * val else s_tv s)
              (if tracks_cen k then s_tu s + u * val else s_tu s)
              (if tracks_cov k then s_tv2 s + vdiff * vdiff * val else s_tv2 s)
              (if tracks_cov k then s_tuv s + udiff * vdiff * val else s_tuv s)
              (if tracks_cov k then s_tu2 s + udiff * udiff * val else s_tu2 s) in
  Ok (s1, gsum + val, nan_add logL (log_term val tau (em_chi2 g v u))).
(** elements start = ii*ngauss_psf to end = (ii+1)*ngauss_psf of an array *)
Definition chunk {A} (n ii : nat) (l : list A) : list A := firstn n (skipn (ii * n) l).
(** ngmix/em/em_nb.py:161-246 do_scratch_sums, 473-553, 842-920 and 1110-1170 *)
Definition do_scratch_sums (k : em_kind) (p : pixel R) (conv : gmix) (ngauss_psf : nat)
    (tau : list (option R * option R)) : res (list scr * R * option R) :=
  if Nat.eqb ngauss_psf 0 then Raise ZeroDivisionError else
  let ngauss := (length conv / ngauss_psf)%nat in
  let* (l, gsum, logL) :=
    foldM (fun (st : list scr * R * option R) ii =>
        let '(l, gsum, logL) := st in
        let* (s, gsum, logL) := foldM (scratch_gauss k p) (chunk ngauss_psf ii (combine conv tau)) (scr0, gsum, logL) in
        Ok (l ++ [s], gsum, logL)) (seq 0 ngauss) ([], 0, Some 0) in
  Ok (l, gsum, if Reqb gsum 0 then Some 0 else match logL with Some x => Some (x * (1 / gsum)) | None => None end).

(** ngmix/em/em_nb.py:250-281 do_sums, 557-584, 924-951, 1174-1197 *)
Definition do_sums (l : list sums) (s : list scr) (val gtot : R) : list sums :=
  let factor := val / gtot in
  map (fun x : sums * scr => let (a, t) := x in
        mkSums (a_pnew a + s_gi t * factor) (a_v a + s_tv t * factor) (a_u a + s_tu t * factor)
               (a_v2 a + s_tv2 t * factor) (a_uv a + s_tuv t * factor) (a_u2 a + s_tu2 t * factor)) (combine l s).

(** ngmix/em/em_nb.py:1261-1294 gmix_get_moms *)
Definition gmix_get_moms (gm : gmix) : res (R * R * R * R * R * R) :=
  let* (row, col, psum) := gmix_get_cen gm in
  let '(irr, irc, icc) :=
    fold_left (fun s g => let '(irr, irc, icc) := s in
        let rowdiff := g_row g - row in
        let coldiff := g_col g - col in
        (irr + g_p g * (g_irr g + rowdiff ^ 2), irc + g_p g * (g_irc g + rowdiff * coldiff),
         icc + g_p g * (g_icc g + coldiff ^ 2))) gm (0, 0, 0) in
  if Reqb psum 0 then Raise ZeroDivisionError else
  Ok (row, col, irr / psum, irc / psum, icc / psum, psum).

(** the corrections of ngmix/em/em_nb.py:304, 333-341 and 607, 634-642 *)
Definition fix_cov (irr irc icc : R) : R * R * R :=
  let minval := / 10 ^ 4 in
  let '(irr, irc, icc) := if Rltb irr 0 || Rltb icc 0 then (minval, 0, minval) else (irr, irc, icc) in
  let det := irr * icc - irc ^ 2 in
  if Rltb det GMIX_LOW_DETVAL then let T := irr + icc in (T / 2, 0, T / 2) else (irr, irc, icc).
(** the new gaussian, ngmix/em/em_nb.py:311-351, 614-652, 979-997, 1225-1238 *)
Definition set_gauss (k : em_kind) (psf_cov : R * R * R) (g : gauss) (t : sums) : res gauss :=
  let p := a_pnew t in
  match k with
  | FluxOnly => Ok (gauss2d_set p (g_row g) (g_col g) (g_irr g) (g_irc g) (g_icc g))
  | _ =>
      if Reqb p 0 then Raise ZeroDivisionError else
      let pinv := 1 / p in
      let '(psf_irr, psf_irc, psf_icc) := psf_cov in
      let cov := fix_cov (a_v2 t * pinv - psf_irr) (a_uv t * pinv - psf_irc) (a_u2 t * pinv - psf_icc) in
      match k with
      | Free => let '(irr, irc, icc) := cov in Ok (gauss2d_set p (a_v t * pinv) (a_u t * pinv) irr irc icc)
      | FixCen => let '(irr, irc, icc) := cov in Ok (gauss2d_set p (g_row g) (g_col g) irr irc icc)
      | _ => Ok (gauss2d_set p (a_v t * pinv) (a_u t * pinv) (g_irr g) (g_irc g) (g_icc g))
      end
  end.
(** ngmix/em/em_nb.py:285-354 gmix_set_from_sums, 588-655, 955-1000, 1201-1241 *)
Definition gmix_set_from_sums (k : em_kind) (gm psf : gmix) (l : list sums) : res (gmix * gmix) :=
  let* psf_cov := match k with
                  | Free | FixCen => let* (_, _, irr, irc, icc, _) := gmix_get_moms psf in Ok (irr, irc, icc)
                  | _ => Ok (0, 0, 0)
                  end in
  let* gm' := mapM (fun x : gauss * sums => let (g, t) := x in set_gauss k psf_cov g t) (combine gm l) in
  let* conv := gmix_convolve gm' psf in
  let (conv', r) := gmix_set_norms conv in
  let* _ := r in
  Ok (gm', conv').

(** ngmix/em/em_nb.py:1298-1315 fill_zero_weight_pixels *)
Definition fill_zero_weight_pixels (conv : gmix) (pixels : list (pixel R)) (sky : R) : res (list (pixel R)) :=
  mapM (fun p =>
    if Rleb (px_ierr p) 0 then
      let* val := gmix_eval_pixel_fast conv (px_v p) (px_u p) (px_area p) in
      Ok (mkPix (px_u p) (px_v p) (px_area p) (sky + val) (px_ierr p))
    else Ok p) pixels.

(** _em_conf_dtype, ngmix/em/em.py:450-457 *)
Record em_conf := mkConf { c_tol : R; c_maxiter : nat; c_miniter : nat; c_sky : R; c_vary_sky : bool }.
(** variables of the loop; c_fdiff: None before the first assignment, Some None is NaN *)
Record em_state := mkSt {
  e_gm : gmix; e_conv : gmix; e_pix : list (pixel R); e_sky : R; e_last : option R; e_fdiff : option (option R) }.

(** loop over the pixels, ngmix/em/em_nb.py:83-98 and its copies *)
Definition em_pixel (k : em_kind) (conv : gmix) (ngauss_psf : nat) (tau : list (option R * option R)) (sky : R)
    (st : list sums * option R * R) (p : pixel R) : res (list sums * option R * R) :=
  let '(l, elogL, skysum) := st in
  let* (s, gsum, tlogL) := do_scratch_sums k p conv ngauss_psf tau in
  let gtot := gsum + sky in
  if Reqb gtot 0 then Raise GMixRangeError else
  Ok (do_sums l s (px_val p) gtot, nan_add elogL tlogL, skysum + sky * px_val p / gtot).

(** the convergence test, ngmix/em/em_nb.py:113-118 and 1095-1096.  Result: None if the
    test is not made, otherwise the fractional difference, which may be NaN. *)
Definition em_test (k : em_kind) (elogL last : option R) : res (option R) :=
  match k with
  | FluxOnly =>
      match elogL, last with
      | Some psum, Some p_last => if Reqb p_last 0 then Raise ZeroDivisionError else Ok (Some (Rabs (psum / p_last - 1)))
      | _, _ => Ok None
      end
  | _ =>
      match elogL with
      | Some L => if Reqb L 0 then Raise GMixRangeError else
                  Ok (match last with Some L0 => Some (Rabs ((L - L0) / L)) | None => None end)
      | None => Ok None
      end
  end.

(** one pass of the loop over i, ngmix/em/em_nb.py:72-120 and its copies; the second
    component says whether the loop ends here.  In em_run_fluxonly the total flux plays the
    role of the log likelihood in the test. *)
Definition em_iter (k : em_kind) (c : em_conf) (psf : gmix) (fill : bool) (i : nat) (st : em_state) : res (em_state * bool) :=
  let tau := set_logtau_logdet (e_conv st) in
  let* pix := if fill then fill_zero_weight_pixels (e_conv st) (e_pix st) (e_sky st) else Ok (e_pix st) in
  let* (l, elogL, skysum) :=
    foldM (em_pixel k (e_conv st) (length psf) tau (e_sky st)) pix (repeat sums0 (length (e_gm st)), Some 0, 0) in
  let* (gm, conv) := gmix_set_from_sums k (e_gm st) psf l in
  let* sky := if c_vary_sky c then
                if Nat.eqb (length pix) 0 then Raise ZeroDivisionError else Ok (skysum / INR (length pix))
              else Ok (e_sky st) in
  let elogL := match k with FluxOnly => Some (rsum (map g_p gm)) | _ => elogL end in
  let numiter := S i in
  let* (fdiff, stop) :=
    if Nat.leb (c_miniter c) numiter then
      let* d := em_test k elogL (e_last st) in
      Ok (Some d, match d with Some x => Rltb x (c_tol c) | None => false end)
    else Ok (e_fdiff st, false) in
  Ok (mkSt gm conv pix sky (if stop then e_last st else elogL) fdiff, stop).
Fixpoint em_loop (k : em_kind) (c : em_conf) (psf : gmix) (fill : bool) (n i : nat) (st : em_state) : res (em_state * nat) :=
  match n with
  | O => Ok (st, i)
  | S n =>
      let* (st', stop) := em_iter k c psf fill i st in
      if stop : bool then Ok (st', S i) else em_loop k c psf fill n (S i) st'
  end.

Record em_out := mkOut { o_gm : gmix; o_conv : gmix; o_pix : list (pixel R); o_numiter : nat; o_fdiff : option R; o_sky : R }.
(** gmix['norm_set'][:] = 0 *)
Definition norm_unset (g : gauss) : gauss :=
  mkGauss (g_p g) (g_row g) (g_col g) (g_irr g) (g_irc g) (g_icc g) (g_det g) false (g_nrm g).
(** ngmix/em/em_nb.py:16-127 em_run, 358-469 em_run_fixcen, 703-816 em_run_fixcov,
    1006-1106 em_run_fluxonly.  If numiter or frac_diff was never assigned, python raises
    UnboundLocalError at the return; in compiled code the value is not defined. *)
Definition em_run (k : em_kind) (c : em_conf) (pixels : list (pixel R)) (gm psf conv : gmix) (fill : bool) : res em_out :=
  let (conv', r) := gmix_set_norms conv in
  let* _ := r in
  let last := match k with FluxOnly => Some (rsum (map g_p gm)) | _ => Some (- (99999 * 10 ^ 8)) end in
  let* (st, numiter) := em_loop k c psf fill (c_maxiter c) 0 (mkSt gm conv' pixels (c_sky c) last None) in
  match numiter, e_fdiff st with
  | S _, Some d => Ok (mkOut (map norm_unset (e_gm st)) (e_conv st) (e_pix st) numiter d (e_sky st))
  | _, _ => Raise UnboundLocalError
  end.

(** ---- ngmix/em/em.py ---- *)

Definition arr_list (im : arr2 R) : list R :=
  flat_map (fun r => map (fun c => at2 im r c) (seq 0 (ncol im))) (seq 0 (nrow im)).
(** numpy min and max; ValueError for an empty array *)
Definition arr_min (im : arr2 R) : res R :=
  match arr_list im with [] => Raise ValueError | x :: l => Ok (fold_left Rmin l x) end.
Definition arr_max (im : arr2 R) : res R :=
  match arr_list im with [] => Raise ValueError | x :: l => Ok (fold_left Rmax l x) end.
(** ngmix/em/em.py:105-130 prep_image *)
Definition prep_image (im0 : arr2 R) : res (arr2 R * R) :=
  let* im_min := arr_min im0 in
  let* im_max := arr_max im0 in
  let desired_minval := / 1000 * (im_max - im_min) in
  let sky := desired_minval - im_min in
  Ok (mkArr (nrow im0) (ncol im0) (fun r c => at2 im0 r c + sky), sky).

(** Memory: the GMix objects, the pixel arrays and the images.  An observation, as far as
    EM uses it: image and pixel array (positions in memory), weight, jacobian and psf: None
    without psf, Some None if the psf has no mixture, otherwise the mixture object.  (The
    whole Observation class is in Obs_Model.) *)
Record emem := mkEm { em_gm : heap; em_px : list (list (pixel R)); em_im : list (arr2 R) }.
Record eobs := mkEo { eo_image : nat; eo_weight : arr2 R; eo_jac : jac; eo_px : nat; eo_psf : option (option nat) }.

(** ngmix/em/em.py:74-102 prep_obs: prep_image works on a copy of the image; the new
    observation gets the default weights, all 1, and the default ignore_zero_weight=True
    (ngmix/observation.py:84-86, 500-503).  None: no such image. *)
Definition ones (im : arr2 R) : arr2 R := mkArr (nrow im) (ncol im) (fun _ _ => 1).
Definition prep_obs (m : emem) (o : eobs) : option (res (emem * eobs * R)) :=
  match nth_error (em_im m) (eo_image o) with
  | None => None
  | Some im0 =>
      let ims := em_im m ++ [im0] in
      let i := length (em_im m) in
      Some (let* (im, sky) := prep_image im0 in
            let* px := make_pixels im (ones im) (eo_jac o) true in
            Ok (mkEm (em_gm m) (em_px m ++ [px]) (upd ims i im),
                mkEo i (ones im) (eo_jac o) (length (em_px m)) (eo_psf o), sky))
  end.

(** result dictionary and the mixtures of EMResult *)
Record em_res := mkRes { r_flags : Z; r_fit : option (nat * option R * R); r_gm : option (nat * nat) }.
Record fitter := mkFit { f_kind : em_kind; f_miniter : nat; f_maxiter : nat; f_tol : R; f_vary_sky : bool }.
Definition EM_RANGE_ERROR : Z := GMIX_RANGE_ERROR.
Definition EM_MAXITER : Z := MAXITER.

(** new objects are appended to the memory *)
Definition new_obj (m : emem) (r : res gmobj) : res (emem * nat) :=
  let* o := r in Ok (mkEm (alloc (em_gm m) o) (em_px m) (em_im m), length (h_objs (em_gm m))).
(** run a method of object i; None if the components become non-finite *)
Definition call_obj (m : emem) (i : nat) (x : method) : option (res emem) :=
  match step (em_gm m) (OCall i x) with
  | None => None
  | Some (h, r) => Some (let* _ := r in Ok (mkEm h (em_px m) (em_im m)))
  end.
(** arrays changed in place by compiled code *)
Definition set_data (m : emem) (i : nat) (d : gmix) : emem :=
  match read (em_gm m) i with Some o => mkEm (write (em_gm m) i (with_data o d)) (em_px m) (em_im m) | None => m end.
Definition set_px (m : emem) (i : nat) (p : list (pixel R)) : emem := mkEm (em_gm m) (upd (em_px m) i p) (em_im m).

(** the psf mixture, ngmix/em/em.py:263-269; obs.psf.gmix makes a copy *)
Definition get_psf (m : emem) (o : eobs) : option (res (emem * nat)) :=
  match eo_psf o with
  | Some (Some g) =>
      match read (em_gm m) g with
      | None => None
      | Some x =>
          match new_obj m (obj_copy x) with
          | Raise e => Some (Raise e)
          | Ok (m1, i) => match call_obj m1 i (MSetFlux 1) with
                          | None => None
                          | Some r => Some (let* m2 := r in Ok (m2, i))
                          end
          end
      end
  | _ => Some (new_obj m (new_model Mgauss [0; 0; 0; 0; 0; 1]))
  end.

(** ngmix/em/em.py:281-327: the fit itself, on the objects gm, psf, conv and the pixel
    array px.  After an exception the contents of gm, conv and px, which nobody else can
    see, are left as they were in the model. *)
Definition em_fit (f : fitter) (m : emem) (px : nat) (gm psf conv : nat) (sky : R) : option (emem * res em_res) :=
  match nth_error (em_px m) px, read (em_gm m) gm, read (em_gm m) psf, read (em_gm m) conv with
  | Some pixels, Some g, Some p, Some gc =>
      let fill := existsb (fun x => Rleb (px_ierr x) 0) pixels in
      let c := mkConf (f_tol f) (f_maxiter f) (f_miniter f) sky (f_vary_sky f) in
      match em_run (f_kind f) c pixels (o_data g) (o_data p) (o_data gc) fill with
      | Ok out =>
          let m1 := set_px (set_data (set_data m gm (o_gm out)) conv (o_conv out)) px (o_pix out) in
          match (let* (m2, i) := new_obj m1 (new_full (gm_get_full_pars (o_gm out))) in
                 let* (m3, j) := new_obj m2 (new_full (gm_get_full_pars (o_conv out))) in
                 Ok (m3, i, j)) with
          | Ok (m3, i, j) =>
              let flags := if Nat.leb (f_maxiter f) (o_numiter out) then EM_MAXITER else 0%Z in
              Some (m3, Ok (mkRes flags (Some (o_numiter out, o_fdiff out, o_sky out)) (Some (i, j))))
          | Raise e => Some (m1, Raise e) (* not reached *)
          end
      | Raise GMixRangeError | Raise ZeroDivisionError => Some (m, Ok (mkRes EM_RANGE_ERROR None None))
      | Raise e => Some (m, Raise e)
      end
  | _, _, _, _ => None
  end.

(** ngmix/em/em.py:238-327 EMFitter.go.  None: no such object, or a psf of zero flux, whose
    components become non-finite. *)
Definition em_go (f : fitter) (m : emem) (obs : eobs) (guess : nat) (sky : option R) : option (emem * res em_res) :=
  match (match sky with None => prep_obs m obs | Some s => Some (Ok (m, obs, s)) end) with
  | None => None
  | Some (Raise e) => Some (m, Raise e)
  | Some (Ok (m0, obs_sky, s)) =>
      match get_psf m0 obs_sky with
      | None => None
      | Some (Raise e) => Some (m0, Raise e)
      | Some (Ok (m1, psf)) =>
          match read (em_gm m1) guess, read (em_gm m1) psf with
          | Some g, Some p =>
              match new_obj m1 (obj_copy g) with
              | Raise e => Some (m1, Raise e)
              | Ok (m2, gm) =>
                  match read (em_gm m2) gm with
                  | None => None
                  | Some g2 =>
                      match new_obj m2 (obj_convolve g2 p) with
                      | Raise e => Some (m2, Raise e)
                      | Ok (m3, conv) =>
                          match nth_error (em_px m3) (eo_px obs_sky) with
                          | None => None
                          | Some pixels => (* obs_sky.pixels.copy() *)
                              em_fit f (mkEm (em_gm m3) (em_px m3 ++ [pixels]) (em_im m3)) (length (em_px m3)) gm psf conv s
                          end
                      end
                  end
              end
          | _, _ => None
          end
      end
  end.

(** ngmix/em/em.py:23-67 run_em: choice of the fitter; the defaults of miniter are 40, and
    20 for EMFitterFluxOnly (226-230 and 425-429) *)
Definition fitter_kind (fixcen fixcov fluxonly : bool) : em_kind :=
  if fixcen then FixCen else if fixcov then FixCov else if fluxonly then FluxOnly else Free.
Definition default_fitter (k : em_kind) : fitter :=
  mkFit k (match k with FluxOnly => 20 | _ => 40 end) 500 (/ 10 ^ 5) false.

(** ngmix/em/em.py:155-192 EMResult.has_gmix, get_gmix, get_convolved_gmix *)
Definition has_gmix (r : em_res) : bool := match r_gm r with Some _ => true | None => false end.
Definition get_gmix (m : emem) (r : em_res) (convolved : bool) : res gmobj :=
  match r_gm r with
  | None => Raise RuntimeError
  | Some (i, j) => match read (em_gm m) (if convolved then j else i) with Some o => obj_copy o | None => Raise OtherError end
  end.
