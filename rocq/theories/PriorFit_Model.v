(** Model of the fits of the parameters of a prior to a curve: LogNormal.fit
    (ngmix/priors/priors.py:922-972), GPriorBase.fit and GPriorBA._get_guess
    (ngmix/priors/shape.py:313-367, 645-662).

    The points of the curve are pairs (x, y): the two arrays have the same size.  Floats of
    the minimizer are [option R] as in LM_Model.v. *)
From Coq Require String.
From Verif Require Import Base XReal Flags_Model Pixels_Model LM_Model Priors_Model PriorSample_Model.
Import String.StringSyntax.
Local Open Scope R_scope.
Local Open Scope string_scope.
Local Open Scope list_scope.

Definition of_xr (x : xr) : option R := match x with Fin r => Some r | _ => None end.
(** res[key] *)
Fixpoint kget (d : ldict) (k : String.string) : option lval :=
  match d with
  | [] => None
  | (k', v) :: d => if String.eqb k' k then Some v else kget d k
  end.
(** x.mean() and x.std(): nan for an empty array *)
Definition amean (x : list R) : option R := odiv (Some (rsum x)) (Some (INR (length x))).
Definition astd (x : list R) : option R :=
  match amean x with
  | None => None
  | Some m => obind (amean (map (fun v => (v - m) ^ 2) x)) osqrt
  end.

(** ngmix/priors/priors.py:922-939 LogNormal._calc_fdiff.  Parameters that are not finite
    give values that are not finite, or the array of -inf of line 936. *)
Definition ln_fdiff (data : list (R * R)) (pars : vec) : resx vec :=
  match pars with
  | Some a :: Some b :: Some c :: _ =>
      match (let* ln := lognormal_init a b None in
             lognormal_prob_array ln (map (fun d => Fin (fst d)) data)) with
      | Ok p => OkX (map (fun t => of_xr (xsub (xmul (fst t) (Fin c)) (Fin (snd (snd t))))) (combine p data))
      | Raise GMixRangeError => OkX (repeat None (length data))
      | Raise ValueError => OkX (repeat None (length data))
      | Raise e => RaiseX e false
      end
  | _ :: _ :: _ :: _ => OkX (repeat None (length data))
  | _ => RaiseX IndexError false
  end.

(** scipy's leastsq as what it does: it asks for the residuals at one point after the other
    and stops with a result or an exception *)
Inductive solver := Ask (x : vec) (k : vec -> solver) | Stop (r : resx lmtup).

Section Fit.
Variable W : Type.
Variable G : rng W.
Variable lmdif : (vec -> resx vec) -> vec -> nat -> resx lmret.
Variable inv : omat -> option omat.
Variable eig : nat -> (nat -> nat -> R) -> option (list R).
Variable message : Z -> String.string.

Section LogNormalFit.
Variable leastsq : (vec -> resx vec) -> vec -> nat -> resx lmtup.
(** ngmix/priors/priors.py:959-972 LogNormal.fit, with [k] more attempts allowed *)
Fixpoint ln_fit_loop (data : list (R * R)) (k : nat) (w : W) : W * resx ldict :=
  let (w, u) := uniform G w (1/10) (1/10) 3 in
  match map (fun r => 1 + r) u with
  | [f1; f2; f3] =>
      let x := map fst data in
      let y := map snd data in
      let guess := [omul (amean x) (Some f1); omul (astd x) (Some f2); omul (amean y) (Some f3)] in
      match run_leastsq lmdif leastsq inv eig message (ln_fdiff data) guess 0 false None 0 with
      | RaiseX e b => (w, RaiseX e b)
      | OkX d =>
          match kget d "flags" with
          | Some (LInt flags) =>
              if Z.eqb flags 0 then (w, OkX d) else
              match k with O => (w, OkX d) | S k => ln_fit_loop data k w end
          | _ => (w, RaiseX KeyError false)
          end
      end
  | _ => (w, RaiseX ValueError false)
  end.
Definition ln_fit (data : list (R * R)) (w : W) : W * resx ldict := ln_fit_loop data 3 w.
End LogNormalFit.

(** the attributes of a GPriorBA that its fit changes: [A, sigma] and the fit_* ones *)
Record bstate := mkBS
  { bs_pars : vec; bs_fit : option vec; bs_cov : option omat; bs_perr : option vec }.

Section BAFit.
Variable leastsq : vec -> nat -> solver.
(** the curve when A or sigma is not finite *)
Variable odd_curve : vec -> list R -> vec.

(** ngmix/priors/shape.py:627-643 through 149-158; sigma = 0 makes sig2inv infinite *)
Definition ba_curve (pars : vec) (xs : list R) : vec :=
  match pars with
  | Some A :: Some sigma :: _ =>
      if Reqb sigma 0 then
        map (fun g => if Rltb 0 (1 - g * g) then (if Reqb g 0 then None else Some 0) else Some 0) xs
      else map of_xr (ba_prob_array1d (mkBA A sigma (1 / sigma ^ 2)) (map Fin xs))
  | _ => odd_curve pars xs
  end.
(** ngmix/priors/shape.py:359-364 _calc_fdiff: what it returns.  It also sets the
    parameters of the prior to [pars] (see exec). *)
Definition ba_fdiff (data : list (R * R)) (pars : vec) : resx vec :=
  match pars with
  | _ :: _ :: _ =>
      OkX (zip_with (fun p d => omul (oadd p (Some (- snd d))) (odiv (Some 1) (Some (sqrt (snd d)))))
             (ba_curve pars (map fst data)) data)
  | _ => RaiseX IndexError false
  end.
(** run the solver; [cur] are the parameters the prior has *)
Fixpoint exec (data : list (R * R)) (s : solver) (cur : vec) : vec * resx lmtup :=
  match s with
  | Stop r => (cur, r)
  | Ask x k =>
      match ba_fdiff data x with
      | OkX y => exec data (k y) x
      | RaiseX e b => (x, RaiseX e b)
      end
  end.
(** run_leastsq asks once more, at the solution, if it has a covariance
    (ngmix/fitting/leastsqbound.py:75-96) *)
Definition asks_again (r : resx lmtup) : option vec :=
  match r with
  | OkX t => if negb (tp_ier t =? 0)%Z && negb (4 <? tp_ier t)%Z
             then match tp_cov t with Some _ => Some (tp_x t) | None => None end
             else None
  | RaiseX _ _ => None
  end.
Definition ba_run (data : list (R * R)) (guess cur : vec) : vec * resx ldict :=
  let (cur, r) := exec data (leastsq guess 4000) cur in
  let cur := match asks_again r with Some x => x | None => cur end in
  (cur, run_leastsq lmdif (fun _ _ _ => r) inv eig message (ba_fdiff data) guess 0 false None 4000).

(** ngmix/priors/shape.py:645-662 _get_guess *)
Definition ba_guess (data : list (R * R)) (num : R) (w : W) : W * res vec :=
  match data with
  | d0 :: d1 :: _ =>
      let Aguess := 13/10 * num * (fst d1 - fst d0) in
      let (w, u) := uniform G w (-1) 1 1 in
      let (w, v) := uniform G w (-1) 1 1 in
      match u, v with
      | [u], [v] => (w, Ok [Some (Aguess * (1 + 2/10 * u)); Some (16/100 * (1 + 2/10 * v))])
      | _, _ => (w, Raise ValueError)
      end
  | _ => (w, Raise IndexError)
  end.

(** ngmix/priors/shape.py:313-357 GPriorBase.fit of a GPriorBA.  It returns nothing: the
    flags are printed. *)
Definition ba_fit (data : list (R * R)) (guess : option vec) (s : bstate) (w : W) : W * bstate * resx unit :=
  let data := filter (fun d => Rltb 0 (snd d)) data in
  let (w, g) := match guess with
                | Some g => (w, Ok g)
                | None => ba_guess data (rsum (map snd data)) w
                end in
  match g with
  | Raise e => (w, s, RaiseX e false)
  | Ok g =>
      let (cur, r) := ba_run data g (bs_pars s) in
      let s := mkBS cur (bs_fit s) (bs_cov s) (bs_perr s) in
      match r with
      | RaiseX e b => (w, s, RaiseX e b)
      | OkX d =>
          match kget d "pars" with
          | Some (LVec p) =>
              let s := mkBS cur (Some p) (bs_cov s) (bs_perr s) in
              match kget d "pars_cov" with
              | Some (LMat c) =>
                  let s := mkBS cur (Some p) c (bs_perr s) in
                  match kget d "pars_err" with
                  | Some (LVec e) => (w, mkBS cur (Some p) c (Some e), OkX tt)
                  | _ => (w, s, RaiseX KeyError false)
                  end
              | _ => (w, s, RaiseX KeyError false)
              end
          | _ => (w, s, RaiseX KeyError false)
          end
      end
  end.
End BAFit.
End Fit.
Arguments ln_fit_loop {W} G lmdif inv eig message leastsq data k w.
Arguments ln_fit {W} G lmdif inv eig message leastsq data w.
Arguments ba_guess {W} G data num w.
Arguments ba_fit {W} G lmdif inv eig message leastsq odd_curve data guess s w.
