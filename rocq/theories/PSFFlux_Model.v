(** Model of PSFFluxFitModel, ngmix/fitting/results.py:537-774, and PSFFluxFitter,
    ngmix/fitting/fitters.py:101-138.

    Images and weights are finite; templates, which are attributes set by the user, may hold
    anything.  The outcome [None] is left out of the model: a mixture of total flux zero is
    rescaled to non-finite amplitudes.  A template must have the shape of the image: those with
    a single row or column, which numpy would stretch, count as errors. *)
From Verif Require Import Base XReal Jacobian_Model Pixels_Model GMix_Model GMixObj_Model Render_Model Flags_Model.
From Verif Require LM_Model.
Local Open Scope R_scope.

(** an observation: what is read of it.  [po_pix] is None with store_pixels=False, otherwise
    the argument ignore_zero_weight with which the pixels were made *)
Record pobs := mkPobs
  { po_nr : nat; po_nc : nat; po_im : nat -> nat -> R; po_wt : nat -> nat -> R; po_jac : jac; po_pix : option bool;
    po_gmix : option gmobj; po_template : option (arr2 xr);
    (** obs.psf: its mixture and its template *)
    po_psf : option (option gmobj * option (arr2 xr)) }.

(** all the elements of an array *)
Definition cells {A} (nr nc : nat) (f : nat -> nat -> A) : list A :=
  concat (map (fun r => map (f r) (seq 0 nc)) (seq 0 nr)).
(** numpy's sum *)
Definition np_sum (l : list xr) : xr := fold_left xadd l (Fin 0).
Definition n_positive (o : pobs) : nat := length (filter (Rltb 0) (cells (po_nr o) (po_nc o) (po_wt o))).
(** obs.pixels.size, ngmix/pixels/pixels.py:34-40 *)
Definition pixels_size (o : pobs) : res nat :=
  match po_pix o with
  | None => Raise AttributeError
  | Some true => Ok (n_positive o)
  | Some false => Ok (po_nr o * po_nc o)%nat
  end.

(** an entry of gmix_list or of template_list, with its norm *)
Inductive source := SGmix (gm : gmobj) (norm : R) | STempl (t : arr2 xr) (norm : xr).

Definition opt_bind {A B} (x : option (res A)) (f : A -> option (res B)) : option (res B) :=
  match x with None => None | Some (Raise e) => Some (Raise e) | Some (Ok a) => f a end.
Fixpoint opt_mapM {A B} (f : A -> option (res B)) (l : list A) : option (res (list B)) :=
  match l with
  | [] => Some (Ok [])
  | a :: l => opt_bind (f a) (fun b => opt_bind (opt_mapM f l) (fun bs => Some (Ok (b :: bs))))
  end.
(** gm.set_flux(f) *)
Definition obj_set_flux (gm : gmobj) (f : R) : option (res gmobj) :=
  match gm_set_flux (o_data gm) f with Some d => Some (Ok (with_data gm d)) | None => None end.

(** ngmix/fitting/results.py:704-723 _set_gmix_and_norms, for one observation; ngmix/observation.py:578-593,
    613-619 *)
Definition set_gmix (do_psf normalize_psf : bool) (o : pobs) : option (res source) :=
  let gm := if do_psf then match po_psf o with Some (Some g, _) => obj_copy g | _ => Raise RuntimeError end
            else match po_gmix o with Some g => obj_copy g | None => Raise RuntimeError end in
  opt_bind (Some gm) (fun gm =>
  opt_bind (if negb do_psf || normalize_psf then obj_set_flux gm 1 else Some (Ok gm)) (fun gm =>
  Some (Ok (SGmix gm (rsum (map g_p (o_data gm))))))).
(** ngmix/fitting/results.py:725-747 _set_templates_and_norms, for one observation *)
Definition scale_arr (k : xr) (t : arr2 xr) : arr2 xr := mkArr (nrow t) (ncol t) (fun r c => xmul (at2 t r c) k).
Definition arr_sum (t : arr2 xr) : xr := np_sum (cells (nrow t) (ncol t) (at2 t)).
Definition set_template (do_psf normalize_psf : bool) (o : pobs) : option (res source) :=
  let t := if do_psf then match po_psf o with Some (_, Some t) => Ok t | _ => Raise AttributeError end
           else match po_template o with Some t => Ok t | None => Raise AttributeError end in
  opt_bind (Some t) (fun t =>
  if negb do_psf || normalize_psf then Some (Ok (STempl (scale_arr (xdiv (Fin 1) (arr_sum t)) t) (Fin 1)))
  else Some (Ok (STempl t (arr_sum t)))).

(** the object *)
Record pfit := mkPfit { pf_obs : list pobs; pf_sources : list source; pf_totpix : nat }.
(** ngmix/fitting/results.py:675-702 _set_obs and 749-759; the first observation decides between mixtures and
    templates *)
Definition pfit_init (obs : list pobs) (do_psf normalize_psf : bool) : option (res pfit) :=
  match obs with
  | [] => Some (Raise IndexError)
  | o :: _ =>
      let tobs := if do_psf then match po_psf o with Some t => Ok t | None => Raise AttributeError end
                  else Ok (po_gmix o, po_template o) in
      opt_bind (Some tobs) (fun tobs =>
      let set := match tobs with
                 | (Some _, _) => Some set_gmix
                 | (None, Some _) => Some set_template
                 | (None, None) => None end in
      match set with
      | None => Some (Raise ValueError)
      | Some set =>
          opt_bind (opt_mapM (set do_psf normalize_psf) obs) (fun sources =>
          match mapM pixels_size obs with
          | Raise e => Some (Raise e)
          | Ok sizes => Some (Ok (mkPfit obs sources (fold_left Nat.add sizes 0%nat)))
          end)
      end)
  end.

(** ngmix/fitting/results.py:634-663 _get_model; the image, and the entry of the list with its norms filled in.
    A non-finite flux for a mixture is left out too: it needs a non-finite model image. *)
Definition of_option (v : option R) : xr := match v with Some x => Fin x | None => NaN end.
Definition get_model (o : pobs) (s : source) (flux : option xr) : option (source * res (arr2 xr)) :=
  match s with
  | STempl t norm =>
      Some (s, Ok (match flux with
                   | None => t
                   | Some f => scale_arr (xdiv (xmul norm f) (arr_sum t)) t
                   end))
  | SGmix gm norm =>
      match flux with
      | None => let (d, r) := make_image (o_data gm) (po_nr o) (po_nc o) (Some (po_jac o)) false in
                Some (SGmix (with_data gm d) norm,
                      let* im := r in Ok (mkArr (nrow im) (ncol im) (fun r c => of_option (at2 im r c))))
      | Some (Fin f) =>
          match obj_copy gm with
          | Raise e => Some (s, Raise e)
          | Ok gm =>
              match obj_set_flux gm (f * norm) with
              | None => None
              | Some (Raise e) => Some (s, Raise e)
              | Some (Ok gm) =>
                  Some (s, let* im := snd (make_image (o_data gm) (po_nr o) (po_nc o) (Some (po_jac o)) false) in
                           Ok (mkArr (nrow im) (ncol im) (fun r c => of_option (at2 im r c))))
              end
          end
      | Some _ => None
      end
  end.
(** sum over an image of a function of model, image and weight; operands could not be broadcast *)
Definition sum_image (f : xr -> xr -> xr -> xr) (o : pobs) (model : arr2 xr) : res xr :=
  if Nat.eqb (nrow model) (po_nr o) && Nat.eqb (ncol model) (po_nc o)
  then Ok (np_sum (cells (po_nr o) (po_nc o) (fun r c => f (at2 model r c) (Fin (po_im o r c)) (Fin (po_wt o r c)))))
  else Raise ValueError.

(** ngmix/fitting/results.py:580-592, the first pass *)
Fixpoint pass1 (obs : list pobs) (ss : list source) (xcorr msq : xr) : option (list source * res (xr * xr)) :=
  match obs, ss with
  | o :: obs, s :: ss =>
      match get_model o s None with
      | None => None
      | Some (s, r) =>
          match (let* model := r in
                 let* a := sum_image (fun m i w => xmul (xmul m i) w) o model in
                 let* b := sum_image (fun m i w => xmul (xmul m m) w) o model in Ok (a, b)) with
          | Raise e => Some (s :: ss, Raise e)
          | Ok (a, b) => match pass1 obs ss (xadd xcorr a) (xadd msq b) with
                         | None => None
                         | Some (ss, r) => Some (s :: ss, r)
                         end
          end
      end
  | _, _ => Some (ss, Ok (xcorr, msq))
  end.
(** ngmix/fitting/results.py:580-596, the second pass *)
Fixpoint pass2 (obs : list pobs) (ss : list source) (flux chi2 : xr) : option (res xr) :=
  match obs, ss with
  | o :: obs, s :: ss =>
      match get_model o s (Some flux) with
      | None => None
      | Some (_, r) =>
          match (let* model := r in
                 sum_image (fun m i w => let d := xsub m i in xmul (xmul d d) w) o model) with
          | Raise e => Some (Raise e)
          | Ok c => pass2 obs ss flux (xadd chi2 c)
          end
      end
  | _, _ => Some (Ok chi2)
  end.
(** ngmix/fitting/results.py:665-673 get_dof *)
Definition get_dof (F : pfit) : R :=
  let npix := fold_left Nat.add (map n_positive (pf_obs F)) 0%nat in
  let dof := INR npix - 1 in
  if Rleb dof 0 then / 1000000 else dof.

Record pres := mkPres { pr_flags : Z; pr_chi2per : xr; pr_dof : R; pr_flux : xr; pr_flux_err : xr }.
(** ngmix/fitting/results.py:561-632 go *)
Definition go (F : pfit) : option (pfit * res pres) :=
  match pass1 (pf_obs F) (pf_sources F) (Fin 0) (Fin 0) with
  | None => None
  | Some (ss, r) =>
      let F := mkPfit (pf_obs F) ss (pf_totpix F) in
      match r with
      | Raise e => Some (F, Raise e)
      | Ok (xcorr, msq) =>
          let zero := xeqb msq (Fin 0) in
          let second := if zero then Some (Ok (Fin LM_Model.PDEF, Fin 0))
                        else let flux := xdiv xcorr msq in
                             opt_bind (pass2 (pf_obs F) ss flux (Fin 0)) (fun chi2 => Some (Ok (flux, chi2))) in
          match second with
          | None => None
          | Some (Raise e) => Some (F, Raise e)
          | Some (Ok (flux, chi2)) =>
              let dof := get_dof F in
              let (flags, chi2per) := if Rltb 0 dof then (0%Z, xdiv chi2 (Fin dof)) else (ZERO_DOF, Fin 9999) in
              let (flags, flux_err) :=
                if zero || Nat.eqb (pf_totpix F) 1 then (Z.lor flags DIV_ZERO, Fin LM_Model.CDEF)
                else let arg := xdiv (xdiv chi2 msq) (Fin (INR (pf_totpix F) - 1)) in
                     if xleb (Fin 0) arg then (flags, xsqrt arg) else (Z.lor flags NONPOS_VAR, Fin LM_Model.CDEF) in
              Some (F, Ok (mkPres flags chi2per dof flux flux_err))
          end
      end
  end.
(** PSFFluxFitter.go *)
Definition psfflux_go (do_psf normalize_psf : bool) (obs : list pobs) : option (res pres) :=
  opt_bind (pfit_init obs do_psf normalize_psf) (fun F => option_map snd (go F)).
