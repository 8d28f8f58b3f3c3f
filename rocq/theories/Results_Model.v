(** Model of the images drawn from results: EMResult.make_image, ngmix/em/em.py:194-208, and
    AdmomResult.make_image, ngmix/admom/admom.py:255-280.  (That of a model fit is
    fit_make_image in Fit_Model.v.) *)
From Verif Require Import Base XReal Jacobian_Model Pixels_Model GMix_Model GMixObj_Model Render_Model EM_Model PSFFlux_Model Admom_Model.
Local Open Scope R_scope.

(** ngmix/em/em.py:194-208: [obs] is the observation given to go(), also when go() prepared
    another one (line 327).  None: no such image. *)
Definition em_make_image (m : emem) (r : em_res) (obs : eobs) : option (res (arr2 (option R))) :=
  match nth_error (em_im m) (eo_image obs) with
  | None => None
  | Some im => Some (let* gm := EM_Model.get_gmix m r true in
                     snd (make_image (o_data gm) (nrow im) (ncol im) (Some (eo_jac obs)) false))
  end.

(** ngmix/admom/admom.py:255-280; [image] is obs.image.  None: the mixture has no flux and
    its components become non-finite. *)
Definition am_make_image (d : am_dict) (j : jac) (image : arr2 R) : option (res (arr2 (option R))) :=
  if negb (Z.eqb (d_flags d) 0) then Some (Raise RuntimeError) else
  opt_bind (Some (am_get_gmix d)) (fun gm =>
  opt_bind (obj_set_flux gm (rsum (cells (nrow image) (ncol image) (at2 image)))) (fun gm =>
  Some (snd (make_image (o_data gm) (nrow image) (ncol image) (Some j) false)))).
