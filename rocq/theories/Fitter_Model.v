(** Model of ngmix/fitting/fitters.py: Fitter.go and CoellipFitter.go, which put together
    FitModel (Fit_Model.v) and run_leastsq (LM_Model.v).

    The minimizer is handed the bound method calc_fdiff, which overwrites the mixtures kept in
    the object.  What it returns does not depend on them (C98_no_memory), so the function that
    is minimized is a function of the parameters; [hist] are the parameters it was evaluated
    at, which determine the state in which the object is left.  Parameters that are not finite
    are outside of Fit_Model.v: [odd] is what calc_fdiff does with them. *)
From Coq Require String.
From Verif Require Import Base XReal Flags_Model Pixels_Model GMix_Model Joint_Model Fit_Model LM_Model PriorFit_Model.
Import String.StringSyntax.
Local Open Scope R_scope.
Local Open Scope string_scope.
Local Open Scope list_scope.

Fixpoint all_some (v : vec) : option (list R) :=
  match v with
  | [] => Some []
  | Some x :: v => match all_some v with Some l => Some (x :: l) | None => None end
  | None :: _ => None
  end.
(** a finite matrix *)
Definition finite_mat (c : omat) : option (arr2 R) :=
  if forallb is_fin (all_cells c) then Some (mkArr (nrow c) (ncol c) (fun i j => oval (at2 c i j))) else None.

(** the unpacking [lower, upper = bound] (ngmix/fitting/leastsqbound.py:221, 253), done for
    all bounds before anything is evaluated: a list of one pair cannot be unpacked *)
Definition unpack_bound (b : bentry) : res bound :=
  match b with BPair lo hi => Ok (lo, hi) | BNested _ _ => Raise ValueError end.
Definition bounds_arg (b : option (list bentry)) : res (option (list bound)) :=
  match b with None => Ok None | Some l => rmap Some (mapM unpack_bound l) end.

(** what go returns: the object, the entries of run_leastsq and those of set_fit_result *)
Record fitout := mkOut { ou_fit : fit; ou_dict : ldict; ou_res : option fitres }.

Section Fitter.
Variable lmdif : (vec -> resx vec) -> vec -> nat -> resx lmret.
Variable leastsq : (vec -> resx vec) -> vec -> nat -> resx lmtup.
Variable inv : omat -> option omat.
Variable eig : nat -> (nat -> nat -> R) -> option (list R).
Variable message : Z -> String.string.
Variable odd : vec -> resx vec.

(** fit_model.calc_fdiff *)
Definition fdiff_func (F : fit) (x : vec) : resx vec :=
  match all_some x with
  | None => odd x
  | Some pars => match snd (calc_fdiff F pars) with
                 | Ok fd => OkX (map of_xr fd)
                 | Raise e => RaiseX e false
                 end
  end.
(** the object after the evaluations of the minimizer *)
Definition after (hist : list (list R)) (F : fit) : fit := fold_left (fun F p => fst (calc_fdiff F p)) hist F.

(** ngmix/fitting/results.py:45-72 set_fit_result with the dict of run_leastsq.  None: a good
    fit whose parameters are not finite. *)
Definition finish_fit (F : fit) (d : ldict) : option (resx fitout) :=
  match kget d "flags", kget d "pars", kget d "pars_err", kget d "pars_cov" with
  | Some (LInt 0%Z), Some (LVec p), Some (LVec e), Some (LMat (Some c)) =>
      match all_some p, all_some e, finite_mat c with
      | Some p, Some e, Some c =>
          let (F, r) := set_fit_result F p e c in
          Some (match r with Ok r => OkX (mkOut F d (Some r)) | Raise ex => RaiseX ex false end)
      | _, _, _ => None
      end
  | Some (LInt 0%Z), _, _, _ => Some (RaiseX KeyError false) (* not reached: a good fit has all entries *)
  | _, _, _, _ => Some (OkX (mkOut F d None))
  end.

(** ngmix/fitting/fitters.py:40-74 Fitter.go, 91-99 CoellipFitter.  [maxfev] is the one of
    fit_pars. *)
Definition fitter_go (m : fmodel) (prior : option jprior) (maxfev : nat) (hist : list (list R))
    (obs : list (list fobs)) (guess : list R) : option (resx fitout) :=
  match fit_init m obs guess prior with
  | Raise e => Some (RaiseX e false)
  | Ok F =>
      match bounds_arg (f_bounds F) with
      | Raise e => Some (RaiseX e false)
      | Ok bounds =>
          match run_leastsq lmdif leastsq inv eig message (fdiff_func F) (map Some guess) (f_n_prior F) false bounds maxfev with
          | RaiseX e b => Some (RaiseX e b)
          | OkX d => finish_fit (after hist F) d
          end
      end
  end.
End Fitter.
