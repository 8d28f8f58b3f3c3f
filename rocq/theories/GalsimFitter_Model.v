(** Model of ngmix/fitting/galsim_fitters.py:34-112: GalsimFitter.go, GalsimSpergelFitter and
    GalsimMoffatFitter, which put together the fits with galsim (Galsim_Model.v) and run_leastsq
    (LM_Model.v).

    The minimizer is handed the bound method calc_fdiff, which overwrites images kept in the
    metadata and the parameters kept in the object.  What it returns does not depend on them
    (C127_no_memory), so the function that is minimized is a function of the parameters; [hist]
    are the parameters it was evaluated at, which determine the state in which object and metadata
    are left.  Parameters that are not finite are outside of Galsim_Model.v: [odd] is what
    calc_fdiff does with them.  The string that names the model is turned into a [gmodel] by
    model_of_string. *)
From Coq Require String.
From Verif Require Import Base XReal Flags_Model Pixels_Model Joint_Model Fit_Model LM_Model PriorFit_Model Fitter_Model Galsim_Model.
Import String.StringSyntax.
Local Open Scope R_scope.
Local Open Scope string_scope.
Local Open Scope list_scope.

(** what go returns: the object, the entries of run_leastsq and those of set_fit_result *)
Record gfitout := mkGOut { go_fit : gfit; go_dict : ldict; go_res : option gres }.

Section GalsimFitter.
Context {G II : Type} (X : gext G II).
Variable lmdif : (vec -> resx vec) -> vec -> nat -> resx lmret.
Variable leastsq : (vec -> resx vec) -> vec -> nat -> resx lmtup.
Variable inv : omat -> option omat.
Variable eig : nat -> (nat -> nat -> R) -> option (list R).
Variable message : Z -> String.string.
Variable odd : vec -> resx vec.

(** fit_model.calc_fdiff *)
Definition gfdiff_func (h : heap) (F : gfit) (x : vec) : resx vec :=
  match all_some x with
  | None => odd x
  | Some pars => match snd (Galsim_Model.calc_fdiff X h F pars) with
                 | Ok fd => OkX (map of_xr fd)
                 | Raise e => RaiseX e false
                 end
  end.
(** metadata and object after the evaluations of the minimizer *)
Definition gafter (hist : list (list R)) (s : heap * gfit) : heap * gfit :=
  fold_left (fun s p => fst (Galsim_Model.calc_fdiff X (fst s) (snd s) p)) hist s.

(** ngmix/fitting/results.py:389-396 _set_bounds, 212-217 bounds *)
Definition g_bounds (prior : option jprior) : option (list bentry) :=
  match prior with Some p => jp_bounds p | None => None end.

(** ngmix/fitting/galsim_results.py:311-320 set_fit_result with the dict of run_leastsq.  None: a
    good fit whose parameters are not finite. *)
Definition finish_gfit (h : heap) (F : gfit) (d : ldict) : option (resx (heap * gfitout)) :=
  match kget d "flags", kget d "pars", kget d "pars_err", kget d "pars_cov" with
  | Some (LInt 0%Z), Some (LVec p), Some (LVec e), Some (LMat (Some c)) =>
      match all_some p, all_some e, finite_mat c with
      | Some p, Some e, Some c =>
          let '(h, F, r) := Galsim_Model.set_fit_result X h F p e c in
          Some (match r with Ok r => OkX (h, mkGOut F d (Some r)) | Raise ex => RaiseX ex false end)
      | _, _, _ => None
      end
  | Some (LInt 0%Z), _, _, _ => Some (RaiseX KeyError false) (* not reached: a good fit has all entries *)
  | _, _, _, _ => Some (OkX (h, mkGOut F d None))
  end.

(** ngmix/fitting/galsim_fitters.py:43-61 go, 63-66, 85-88, 109-112 _make_fit_model.  [maxfev] is
    the one of fit_pars. *)
Definition galsim_go (h : heap) (m : gmodel) (prior : option jprior) (maxfev : nat) (hist : list (list R))
    (input : ginput) (guess : list R) : option (resx (heap * gfitout)) :=
  match gfit_init X h m input guess prior with
  | (_, Raise e) => Some (RaiseX e false)
  | (h, Ok F) =>
      match bounds_arg (g_bounds prior) with
      | Raise e => Some (RaiseX e false)
      | Ok bounds =>
          match run_leastsq lmdif leastsq inv eig message (gfdiff_func h F) (map Some guess) (gf_n_prior F) true bounds maxfev with
          | RaiseX e b => Some (RaiseX e b)
          | OkX d => let (h, F) := gafter hist (h, F) in finish_gfit h F d
          end
      end
  end.
End GalsimFitter.
