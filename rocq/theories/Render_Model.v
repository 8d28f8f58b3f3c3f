(** Model of the evaluation code of ngmix/gmix/gmix_nb.py and render_nb.py, and of the
    methods of ngmix/gmix/gmix.py that call it. *)
From Verif Require Import Base Jacobian_Model Pixels_Model GMix_Model FastExp_Model.

(** ngmix/gmix/gmix_nb.py:41-49 and 73-79 *)
Definition gauss_chi2 (n : norms) (vdiff udiff : R) : R :=
  n_dcc n * vdiff * vdiff + n_drr n * udiff * udiff - 2 * n_drc n * vdiff * udiff.

(** ngmix/gmix/gmix_nb.py:26-54 gauss2d_eval_pixel_fast.  NaN normalisations give a NaN
    chi2, for which both comparisons are false. *)
Definition gauss2d_eval_pixel_fast (g : gauss) (v u area : R) : res R :=
  match g_nrm g with
  | None => Ok 0
  | Some n =>
      let vdiff := v - g_row g in
      let udiff := u - g_col g in
      let chi2 := gauss_chi2 n vdiff udiff in
      if Rltb chi2 FASTEXP_MAX_CHI2 && Rleb 0 chi2 then
        let* e := fexp (- (5/10) * chi2) in
        Ok (n_pnorm n * e * area)
      else Ok 0
  end.
(** ngmix/gmix/gmix_nb.py:12-23 gmix_eval_pixel_fast *)
Definition gmix_eval_pixel_fast (gm : gmix) (v u area : R) : res R :=
  foldM (fun model_val g => let* x := gauss2d_eval_pixel_fast g v u area in Ok (model_val + x)) gm 0.

(** ngmix/gmix/gmix_nb.py:57-83 gauss2d_eval_pixel; None is NaN *)
Definition gauss2d_eval_pixel (g : gauss) (v u area : R) : option R :=
  match g_nrm g with
  | None => None
  | Some n =>
      let vdiff := v - g_row g in
      let udiff := u - g_col g in
      let chi2 := gauss_chi2 n vdiff udiff in
      Some (n_pnorm n * exp (- (5/10) * chi2) * area)
  end.
Definition nan_add (a b : option R) : option R :=
  match a, b with Some x, Some y => Some (x + y) | _, _ => None end.
(** ngmix/gmix/gmix_nb.py:86-96 gmix_eval_pixel *)
Definition gmix_eval_pixel (gm : gmix) (v u area : R) : option R :=
  fold_left (fun model_val g => nan_add model_val (gauss2d_eval_pixel g v u area)) gm (Some 0).

(** ngmix/gmix/render_nb.py:9-36 render; the image elements may be NaN (None).  The mixture
    is updated in place by the normalisation. *)
Definition render (gm : gmix) (coords : list coord) (image : list (option R)) (fast : bool)
  : gmix * res (list (option R)) :=
  let (gm', r) := set_norms_if_needed gm in
  (gm',
   let* _ := r in
   foldM (fun image icoord =>
      match nth_error coords icoord, nth_error image icoord with
      | Some c, Some old =>
          let* x := if fast then let* y := gmix_eval_pixel_fast gm' (cd_v c) (cd_u c) (cd_area c) in Ok (Some y)
                    else Ok (gmix_eval_pixel gm' (cd_v c) (cd_u c) (cd_area c)) in
          put image icoord (nan_add old x)
      | _, _ => Raise OtherError
      end) (seq 0 (length coords)) image).

(** ngmix/gmix/gmix.py:586-610 _fill_image: the centre of the default Jacobian *)
Definition default_jacobian (nr nc : nat) : res jac :=
  UnitJacobian_init (mkKw None None (Some ((INR nr - 1) / 2)) (Some ((INR nc - 1) / 2)) None None None None None None None None None).
(** ngmix/gmix/gmix.py:510-529 make_image for dims = (nr, nc): a zero image, rendered into,
    in row-major order *)
Definition make_image (gm : gmix) (nr nc : nat) (j : option jac) (fast : bool)
  : gmix * res (arr2 (option R)) :=
  match (match j with Some j => Ok j | None => default_jacobian nr nc end) with
  | Raise e => (gm, Raise e)
  | Ok j =>
      match make_coords nr nc j with
      | Raise e => (gm, Raise e)
      | Ok coords =>
          let (gm', r) := render gm coords (repeat (Some 0) (nr * nc)) fast in
          (gm', let* l := r in Ok (mkArr nr nc (fun row col => nth (row * nc + col) l None)))
      end
  end.

(** ngmix/gmix/gmix_nb.py:815-864 get_loglike *)
Definition loglike_body (gm : gmix) (s : R * R * R * nat) (p : pixel R) : res (R * R * R * nat) :=
  let '(loglike, s2n_numer, s2n_denom, npix) := s in
  let* model_val := gmix_eval_pixel_fast gm (px_v p) (px_u p) (px_area p) in
  let ivar := px_ierr p * px_ierr p in
  let val := px_val p in
  let diff := model_val - val in
  Ok (loglike + diff * diff * ivar, s2n_numer + val * model_val * ivar,
      s2n_denom + model_val * model_val * ivar, S npix).
Definition get_loglike (gm : gmix) (pixels : list (pixel R)) : gmix * res (R * R * R * nat) :=
  let (gm', r) := set_norms_if_needed gm in
  (gm',
   let* _ := r in
   let* (loglike, s2n_numer, s2n_denom, npix) := foldM (loglike_body gm') pixels (0, 0, 0, O) in
   Ok (loglike * - (5/10), s2n_numer, s2n_denom, npix)).

(** ngmix/gmix/gmix_nb.py:867-892 fill_fdiff *)
Definition fill_fdiff (gm : gmix) (pixels : list (pixel R)) (fdiff : list R) (start : nat)
  : gmix * res (list R) :=
  let (gm', r) := set_norms_if_needed gm in
  (gm',
   let* _ := r in
   let* (fdiff, _) := foldM (fun s p =>
      let '(fdiff, ipixel) := s in
      let* model_val := gmix_eval_pixel_fast gm' (px_v p) (px_u p) (px_area p) in
      let* fdiff' := put fdiff (start + ipixel) ((model_val - px_val p) * px_ierr p) in
      Ok (fdiff', S ipixel)) pixels (fdiff, O) in
   Ok fdiff).
(** ngmix/gmix/gmix.py:612-640 GMix.fill_fdiff: the length check uses the image size *)
Definition GMix_fill_fdiff (gm : gmix) (image_size : nat) (pixels : list (pixel R)) (fdiff : list R) (start : nat)
  : gmix * res (list R) :=
  let nuse := (Z.of_nat (length fdiff) - Z.of_nat start)%Z in
  if (nuse <? Z.of_nat image_size)%Z then (gm, Raise ValueError)
  else fill_fdiff gm pixels fdiff start.

(** ngmix/gmix/gmix_nb.py:895-928 get_model_s2n_sum *)
Definition get_model_s2n_sum (gm : gmix) (pixels : list (pixel R)) : gmix * res R :=
  let (gm', r) := set_norms_if_needed gm in
  (gm',
   let* _ := r in
   foldM (fun s p =>
      let* model_val := gmix_eval_pixel_fast gm' (px_v p) (px_u p) (px_area p) in
      let ivar := px_ierr p * px_ierr p in
      Ok (s + model_val * model_val * ivar)) pixels 0).
(** ngmix/gmix/gmix.py:734-752 get_model_s2n *)
Definition get_model_s2n (gm : gmix) (pixels : list (pixel R)) : gmix * res R :=
  let (gm', r) := get_model_s2n_sum gm pixels in (gm', rmap sqrt r).
