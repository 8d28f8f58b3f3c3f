(** Model of GalsimPSFFitModel, ngmix/fitting/galsim_results.py:493-636, and GalsimPSFFluxFitter,
    ngmix/fitting/galsim_fitters.py:113-150.

    galsim is a record of arbitrary functions.  What go() does is inherited from PSFFluxFitModel
    and is that of PSFFlux_Model. *)
From Verif Require Import Base XReal Jacobian_Model Pixels_Model PSFFlux_Model.
Local Open Scope R_scope.

(** the calls made to galsim; [O] is the type of its objects.  The interpolant and the drawing
    method, which are passed on unchanged, belong to the functions. *)
Record gpsf (O : Type) := mkGpsf {
  (** galsim.Image and galsim.InterpolatedImage: image, wcs, offset (x, y) *)
  gp_interp : arr2 xr -> wcs -> R * R -> res O;
  gp_withflux : R -> O -> res O;
  gp_convolve : O -> O -> res O;
  (** obj.drawImage: object, nx, ny, wcs, offset *)
  gp_draw : O -> nat -> nat -> wcs -> R * R -> res (arr2 xr) }.
Arguments gp_interp {O}. Arguments gp_withflux {O}. Arguments gp_convolve {O}. Arguments gp_draw {O}.

(** an observation, with the image and the jacobian of obs.psf *)
Record gobs := mkGobs { go_obs : pobs; go_psf : option (arr2 R * jac) }.
(** the argument of go(): an Observation, an ObsList, or anything else *)
Inductive ginput := InObs (o : gobs) | InList (l : list gobs) | InOther.

(** ngmix/fitting/galsim_results.py:544-549 and 597-600: from (ncol, nrow) and the centre *)
Definition centre_offset (ncol nrow : nat) (j : jac) : R * R :=
  (col0 j - (INR ncol - 1) / 2, row0 j - (INR nrow - 1) / 2).
(** ngmix/fitting/galsim_results.py:592-595: psf_im *= 1.0 / psf_im.sum() *)
Definition normalised_image (im : arr2 R) : arr2 xr :=
  let t := mkArr (nrow im) (ncol im) (fun r c => Fin (at2 im r c)) in
  scale_arr (xdiv (Fin 1) (arr_sum t)) t.

Section Galsim.
  Variable O : Type.
  Variable X : gpsf O.

  (** ngmix/fitting/galsim_results.py:585-614 _set_psf_models, one observation; obs.psf without a
      psf is an AttributeError *)
  Definition psf_model (o : gobs) : res O :=
    match go_psf o with
    | None => Raise AttributeError
    | Some (im, j) => gp_interp X (normalised_image im) (get_galsim_wcs j) (centre_offset (ncol im) (nrow im) j)
    end.
  (** ngmix/fitting/galsim_results.py:544-563 _do_draw *)
  Definition do_draw (obj : O) (ncol nrow : nat) (j : jac) : res (arr2 xr) :=
    match gp_draw X obj ncol nrow (get_galsim_wcs j) (centre_offset ncol nrow j) with
    | Raise RuntimeError => Raise GMixRangeError
    | r => r
    end.
  (** ngmix/fitting/galsim_results.py:616-639 _set_template_images, one observation *)
  Definition template_image (model : option O) (op : gobs * O) : res (arr2 xr) :=
    let (o, p) := op in
    let* obj := match model with Some m => gp_convolve X m p | None => Ok p end in
    do_draw obj (po_nc (go_obs o)) (po_nr (go_obs o)) (po_jac (go_obs o)).

  (** ngmix/fitting/galsim_results.py:510-529 __init__ and 565-583 _set_obs.  _get_model, lines 531-542,
      is that of a template of norm 1, but for the template not being divided by its sum. *)
  Definition galsim_pfit_init (model : option O) (inp : ginput) : res pfit :=
    let* model := match model with Some m => let* m := gp_withflux X 1 m in Ok (Some m) | None => Ok None end in
    let* obs := match inp with InObs o => Ok [o] | InList l => Ok l | InOther => Raise ValueError end in
    let* sizes := mapM (fun o => pixels_size (go_obs o)) obs in
    let* psfs := mapM psf_model obs in
    let* ts := mapM (template_image model) (combine obs psfs) in
    Ok (mkPfit (map go_obs obs) (map (fun t => STempl t (Fin 1)) ts) (fold_left Nat.add sizes 0%nat)).

  (** ngmix/fitting/galsim_fitters.py:140-148 GalsimPSFFluxFitter.go *)
  Definition galsim_psfflux_go (model : option O) (inp : ginput) : option (res pres) :=
    opt_bind (Some (galsim_pfit_init model inp)) (fun F => option_map snd (go F)).
End Galsim.
