(** Model of the evaluation of priors: ngmix/priors/priors.py, ngmix/priors/multivariate.py
    and ngmix/priors/shape.py.

    Arguments are numpy floats ([xr]: they can be nan or infinite); the parameters of the
    priors are finite python floats.  A python division by a parameter that is zero raises
    ZeroDivisionError; a division of a numpy float gives inf or nan.  math.erf is a
    parameter of the model.  Arrays are one-dimensional.  Sampling is in
    PriorSample_Model.v, the fits of the parameters of a prior (LogNormal.fit,
    GPriorBase.fit) in PriorFit_Model.v. *)
From Verif Require Import Base XReal.
Local Open Scope R_scope.

(** numpy.log, numpy.exp *)
Definition xlog (a : xr) : xr :=
  match a with
  | Fin x => if Rltb 0 x then Fin (ln x) else if Reqb x 0 then NInf else NaN
  | PInf => PInf
  | _ => NaN
  end.
Definition xexp (a : xr) : xr :=
  match a with Fin x => Fin (exp x) | PInf => PInf | NInf => Fin 0 | NaN => NaN end.
(** numpy.sinh *)
Definition xsinh (a : xr) : xr := match a with Fin x => Fin (sinh x) | b => b end.
(** x.clip(min=0.0, max=None); also [if x < 0.0: x = 0.0] *)
Definition xclip0 (a : xr) : xr := if xltb a (Fin 0) then Fin 0 else a.
(** x ** 2 *)
Definition xsq (a : xr) : xr := xmul a a.

(** what an array evaluator returns: a number or an array *)
Inductive aval := AScalar (x : xr) | AArray (l : list xr).

(** ngmix/defaults.py:11 LOWVAL *)
Definition LOWVAL : xr := NInf.

(** python 1.0 / x *)
Definition py_inv (x : R) : res R := if Reqb x 0 then Raise ZeroDivisionError else Ok (1 / x).

(** * One-dimensional priors *)

(** ** ngmix/priors/priors.py:49-187 FlatPrior *)
Record flat := mkFlat { fl_min : R; fl_max : R }.
Definition flat_out (p : flat) (v : xr) : bool := xltb v (Fin (fl_min p)) || xltb (Fin (fl_max p)) v.
(** ngmix/priors/priors.py:68-83 *)
Definition flat_prob_scalar (p : flat) (v : xr) : res xr :=
  if flat_out p v then Raise GMixRangeError else Ok (Fin 1).
(** ngmix/priors/priors.py:85-100 *)
Definition flat_lnprob_scalar (p : flat) (v : xr) : res xr :=
  if flat_out p v then Raise GMixRangeError else Ok (Fin 0).
(** ngmix/priors/priors.py:102-120 *)
Definition flat_prob_array (p : flat) (vs : list xr) : res aval :=
  if existsb (flat_out p) vs then Raise GMixRangeError
  else Ok (AArray (map (fun v => xadd (xmul v (Fin 0)) (Fin 1)) vs)).
(** ngmix/priors/priors.py:122-140 *)
Definition flat_lnprob_array (p : flat) (vs : list xr) : res aval :=
  if existsb (flat_out p) vs then Raise GMixRangeError else Ok (AScalar (Fin 0)).
(** ngmix/priors/priors.py:142-157 *)
Definition flat_fdiff (p : flat) (v : xr) : res xr :=
  if flat_out p v then Raise GMixRangeError else Ok (Fin 0).

(** ** ngmix/priors/priors.py:190-388 TwoSidedErf *)
Record tserf := mkErf { te_min : R; te_wmin : R; te_max : R; te_wmax : R }.
Section Erf.
Variable erf : R -> R.
(** math.erf *)
Definition xerf (a : xr) : xr :=
  match a with Fin x => Fin (erf x) | PInf => Fin 1 | NInf => Fin (-1) | NaN => NaN end.
(** ngmix/priors/priors.py:219-233 *)
Definition erf_prob_scalar (p : tserf) (v : xr) : xr :=
  xadd (xmul (Fin (1/2)) (xerf (xdiv (xsub (Fin (te_max p)) v) (Fin (te_wmax p)))))
       (xmul (Fin (1/2)) (xerf (xdiv (xsub v (Fin (te_min p))) (Fin (te_wmin p))))).
(** ngmix/priors/priors.py:235-251 *)
Definition erf_lnprob_scalar (p : tserf) (v : xr) : xr :=
  let q := erf_prob_scalar p v in if xleb q (Fin 0) then LOWVAL else xlog q.
(** ngmix/priors/priors.py:253-269 *)
Definition erf_prob_array (p : tserf) (vs : list xr) : list xr := map (erf_prob_scalar p) vs.
(** ngmix/priors/priors.py:271-287 *)
Definition erf_lnprob_array (p : tserf) (vs : list xr) : list xr :=
  map (fun q => if xltb (Fin 0) q then xlog q else xadd (Fin 0) LOWVAL) (erf_prob_array p vs).
(** ngmix/priors/priors.py:320-337 _get_fdiff_scalar *)
Definition erf_fdiff (p : tserf) (v : xr) : xr :=
  let q := xmul (Fin (-2)) (erf_lnprob_scalar p v) in xsqrt (xclip0 q).
(** ngmix/priors/priors.py:303-318 *)
Definition erf_fdiff_array (p : tserf) (vs : list xr) : list xr := map (erf_fdiff p) vs.
End Erf.

(** ** ngmix/priors/priors.py:391-505 Normal *)
Record normal := mkNormal
  { no_mean : R; no_sigma : R; no_sinv : R; no_s2inv : R; no_bounds : option (R * R) }.
(** ngmix/priors/priors.py:415-422 *)
Definition normal_init (mean sigma : R) (bounds : option (R * R)) : res normal :=
  let* sinv := py_inv sigma in
  let* s2inv := py_inv (sigma ^ 2) in
  Ok (mkNormal mean sigma sinv s2inv bounds).
(** ngmix/priors/priors.py:424-437, also the array version *)
Definition normal_lnprob (p : normal) (v : xr) : xr :=
  let diff := xsub (Fin (no_mean p)) v in
  xmul (xmul (xmul (Fin (-1/2)) diff) diff) (Fin (no_s2inv p)).
Definition normal_lnprob_array (p : normal) (vs : list xr) : list xr := map (normal_lnprob p) vs.
(** ngmix/priors/priors.py:439-454 (array) and 456-471 (scalar) *)
Definition normal_prob (p : normal) (v : xr) : xr :=
  let diff := xsub (Fin (no_mean p)) v in
  let lnp := xmul (xmul (xmul (Fin (-1/2)) diff) diff) (Fin (no_s2inv p)) in xexp lnp.
Definition normal_prob_array (p : normal) (vs : list xr) : list xr := map (normal_prob p) vs.
(** ngmix/priors/priors.py:473-482 *)
Definition normal_fdiff (p : normal) (v : xr) : xr :=
  xmul (xsub v (Fin (no_mean p))) (Fin (no_sinv p)).

(** ** ngmix/priors/priors.py:508-569 LMBounds: no log probability *)
Record lmbounds := mkLmb { lb_min : R; lb_max : R; lb_mean : R; lb_sigma : R }.
(** ngmix/priors/priors.py:532-538 *)
Definition lmbounds_init (minval maxval : R) : lmbounds :=
  mkLmb minval maxval ((minval + maxval) / 2) ((maxval - minval) * (28 / 100)).
(** ngmix/priors/priors.py:540-549 *)
Definition lmbounds_fdiff (p : lmbounds) (v : xr) : xr := xmul (Fin 0) v.

(** ** ngmix/priors/priors.py:674-972 LogNormal *)
Record lognormal := mkLogn
  { lg_shift : option R; lg_mean : R; lg_sigma : R; lg_logmean : R; lg_logvar : R;
    lg_logsigma : R; lg_logivar : xr; lg_mode : R; lg_logmode : R; lg_lnprob_max : xr }.
(** ngmix/priors/priors.py:720-749; the logarithms are of positive numbers and logvar is not negative; the
    division by logvar is numpy's *)
Definition lognormal_init (mean sigma : R) (shift : option R) : res lognormal :=
  if Rleb mean 0 then Raise ValueError else
  let logmean := ln mean - 1/2 * ln (1 + sigma ^ 2 / mean ^ 2) in
  let logvar := ln (1 + sigma ^ 2 / mean ^ 2) in
  let logsigma := sqrt logvar in
  let logivar := xdiv (Fin 1) (Fin logvar) in
  let log_mode := logmean - logvar in
  let mode := exp log_mode in
  let chi2 := xmul logivar (Fin ((log_mode - logmean) ^ 2)) in
  let lnprob_max := xsub (xmul (Fin (-1/2)) chi2) (Fin log_mode) in
  Ok (mkLogn shift mean sigma logmean logvar logsigma logivar mode log_mode lnprob_max).
Definition apply_shift (shift : option R) (v : xr) : xr :=
  match shift with Some s => xsub v (Fin s) | None => v end.
(** ngmix/priors/priors.py:766-770, also 791-795 *)
Definition lognormal_value (p : lognormal) (v : xr) : xr :=
  let logval := xlog v in
  let chi2 := xmul (lg_logivar p) (xsq (xsub logval (Fin (lg_logmean p)))) in
  xsub (xsub (xmul (Fin (-1/2)) chi2) logval) (lg_lnprob_max p).
(** ngmix/priors/priors.py:751-772 *)
Definition lognormal_lnprob_scalar (p : lognormal) (v : xr) : res xr :=
  let v := apply_shift (lg_shift p) v in
  if xleb v (Fin 0) then Raise GMixRangeError else Ok (lognormal_value p v).
(** ngmix/priors/priors.py:774-797 *)
Definition lognormal_lnprob_array (p : lognormal) (vs : list xr) : res (list xr) :=
  let vs := map (apply_shift (lg_shift p)) vs in
  if existsb (fun v => xleb v (Fin 0)) vs then Raise GMixRangeError
  else Ok (map (lognormal_value p) vs).
(** ngmix/priors/priors.py:799-810 *)
Definition lognormal_prob_scalar (p : lognormal) (v : xr) : res xr :=
  let* lnp := lognormal_lnprob_scalar p v in Ok (xexp lnp).
(** ngmix/priors/priors.py:812-823 *)
Definition lognormal_prob_array (p : lognormal) (vs : list xr) : res (list xr) :=
  let* lnp := lognormal_lnprob_array p vs in Ok (map xexp lnp).
(** ngmix/priors/priors.py:825-839 *)
Definition lognormal_fdiff (p : lognormal) (v : xr) : res xr :=
  let* lnp := lognormal_lnprob_scalar p v in
  let chi2 := xmul (Fin (-2)) lnp in Ok (xsqrt (xclip0 chi2)).

(** ** ngmix/priors/priors.py:975-1043 Sinh: no log probability *)
Record sinhp := mkSinh { sh_mean : R; sh_scale : R }.
(** ngmix/priors/priors.py:1003-1012 *)
Definition sinh_fdiff (p : sinhp) (v : xr) : xr :=
  xsinh (xdiv (xsub v (Fin (sh_mean p))) (Fin (sh_scale p))).

(** ** ngmix/priors/priors.py:1046-1169 TruncatedGaussian *)
Record trunc := mkTrunc { tg_mean : R; tg_sigma : R; tg_ivar : R; tg_sinv : R; tg_min : R; tg_max : R }.
(** ngmix/priors/priors.py:1074-1081 *)
Definition trunc_init (mean sigma minval maxval : R) : res trunc :=
  let* ivar := py_inv (sigma ^ 2) in
  let* sinv := py_inv sigma in
  Ok (mkTrunc mean sigma ivar sinv minval maxval).
Definition trunc_out (p : trunc) (v : xr) : bool := xltb v (Fin (tg_min p)) || xltb (Fin (tg_max p)) v.
Definition trunc_value (p : trunc) (v : xr) : xr :=
  let diff := xsub v (Fin (tg_mean p)) in
  xmul (xmul (xmul (Fin (-1/2)) diff) diff) (Fin (tg_ivar p)).
(** ngmix/priors/priors.py:1083-1095 *)
Definition trunc_lnprob_scalar (p : trunc) (v : xr) : res xr :=
  if trunc_out p v then Raise GMixRangeError else Ok (trunc_value p v).
(** ngmix/priors/priors.py:1097-1113 *)
Definition trunc_lnprob_array (p : trunc) (vs : list xr) : list xr :=
  map (fun v => if xltb (Fin (tg_min p)) v && xltb v (Fin (tg_max p)) then trunc_value p v else NInf) vs.
(** ngmix/priors/priors.py:1115-1126 *)
Definition trunc_fdiff (p : trunc) (v : xr) : res xr :=
  if trunc_out p v then Raise GMixRangeError
  else Ok (xmul (xsub v (Fin (tg_mean p))) (Fin (tg_sinv p))).

(** * Two-dimensional priors *)

(** ** ngmix/priors/multivariate.py:8-110 CenPrior *)
Record cenprior := mkCen
  { ce_cen1 : R; ce_cen2 : R; ce_sigma1 : R; ce_sigma2 : R;
    ce_sinv1 : R; ce_sinv2 : R; ce_s2inv1 : R; ce_s2inv2 : R }.
(** ngmix/priors/multivariate.py:36-46 *)
Definition cen_init (cen1 cen2 sigma1 sigma2 : R) : res cenprior :=
  let* sinv1 := py_inv sigma1 in
  let* sinv2 := py_inv sigma2 in
  let* s2inv1 := py_inv (sigma1 ^ 2) in
  let* s2inv2 := py_inv (sigma2 ^ 2) in
  Ok (mkCen cen1 cen2 sigma1 sigma2 sinv1 sinv2 s2inv1 s2inv2).
(** ngmix/priors/multivariate.py:48-54 *)
Definition cen_fdiff (p : cenprior) (x1 x2 : xr) : xr * xr :=
  (xmul (xsub x1 (Fin (ce_cen1 p))) (Fin (ce_sinv1 p)),
   xmul (xsub x2 (Fin (ce_cen2 p))) (Fin (ce_sinv2 p))).
(** ngmix/priors/multivariate.py:56-62 *)
Definition cen_lnprob_scalar (p : cenprior) (x1 x2 : xr) : xr :=
  let d1 := xsub (Fin (ce_cen1 p)) x1 in
  let d2 := xsub (Fin (ce_cen2 p)) x2 in
  xsub (xmul (xmul (xmul (Fin (-1/2)) d1) d1) (Fin (ce_s2inv1 p)))
       (xmul (xmul (xmul (Fin (1/2)) d2) d2) (Fin (ce_s2inv2 p))).
(** ngmix/priors/multivariate.py:64-71 *)
Definition cen_lnprob_scalar_sep (p : cenprior) (x1 x2 : xr) : xr * xr :=
  let d1 := xsub (Fin (ce_cen1 p)) x1 in
  let d2 := xsub (Fin (ce_cen2 p)) x2 in
  (xmul (xmul (xmul (Fin (-1/2)) d1) d1) (Fin (ce_s2inv1 p)),
   xmul (xmul (xmul (Fin (-1/2)) d2) d2) (Fin (ce_s2inv2 p))).
(** ngmix/priors/multivariate.py:73-82 *)
Definition cen_prob_scalar (p : cenprior) (x1 x2 : xr) : xr :=
  let d1 := xsub (Fin (ce_cen1 p)) x1 in
  let d2 := xsub (Fin (ce_cen2 p)) x2 in
  let lnp := xsub (xmul (xmul (xmul (Fin (-1/2)) d1) d1) (Fin (ce_s2inv1 p)))
                  (xmul (xmul (xmul (Fin (1/2)) d2) d2) (Fin (ce_s2inv2 p))) in
  xexp lnp.
(** ngmix/priors/multivariate.py:85: the same expression on arrays (of equal sizes) *)
Definition cen_lnprob_array (p : cenprior) (xs : list (xr * xr)) : list xr :=
  map (fun x => cen_lnprob_scalar p (fst x) (snd x)) xs.
(** ngmix/priors/multivariate.py:84: math.exp accepts only an array of one element and returns a number *)
Definition cen_prob_array (p : cenprior) (xs : list (xr * xr)) : res aval :=
  match xs with
  | [x] => Ok (AScalar (cen_prob_scalar p (fst x) (snd x)))
  | _ => Raise TypeError
  end.

(** ** ngmix/priors/shape.py:446-662 GPriorBA *)
Record gba := mkBA { ba_A : R; ba_sigma : R; ba_sig2inv : R }.
(** ngmix/priors/shape.py:465-469, 494-518 (sig4 and sig4inv, which nothing uses, only for the division) *)
Definition gba_init (sigma A : R) : res gba :=
  let* sig2inv := py_inv (sigma ^ 2) in
  let* _ := py_inv (sigma ^ 4) in
  Ok (mkBA A sigma sig2inv).
Definition gsq_of (g1 g2 : xr) : xr := xadd (xmul g1 g1) (xmul g2 g2).
Definition ba_value (p : gba) (gsq omgsq : xr) : xr :=
  xsub (xmul (Fin 2) (xlog omgsq)) (xmul (xmul (Fin (1/2)) gsq) (Fin (ba_sig2inv p))).
(** ngmix/priors/shape.py:555-564 *)
Definition ba_lnprob_scalar2d (p : gba) (g1 g2 : xr) : res xr :=
  let gsq := gsq_of g1 g2 in
  let omgsq := xsub (Fin 1) gsq in
  if xleb omgsq (Fin 0) then Raise GMixRangeError else Ok (ba_value p gsq omgsq).
(** ngmix/priors/shape.py:598-606 through 113-123 *)
Definition ba_lnprob_array2d (p : gba) (gs : list (xr * xr)) : list xr :=
  map (fun g => let gsq := gsq_of (fst g) (snd g) in
                let omgsq := xsub (Fin 1) gsq in
                if xltb (Fin 0) omgsq then ba_value p gsq omgsq else xadd (Fin 0) LOWVAL) gs.
(** ngmix/priors/shape.py:566-581 *)
Definition ba_prob_scalar2d (p : gba) (g1 g2 : xr) : xr :=
  let gsq := gsq_of g1 g2 in
  let omgsq := xsub (Fin 1) gsq in
  let q := if xltb (Fin 0) omgsq then
             xmul (xmul omgsq omgsq) (xexp (xmul (xmul (Fin (-1/2)) gsq) (Fin (ba_sig2inv p))))
           else Fin 0 in
  xmul (Fin (ba_A p)) q.
(** ngmix/priors/shape.py:583-596 through 131-141 *)
Definition ba_prob_array2d (p : gba) (gs : list (xr * xr)) : list xr :=
  map (fun g => let gsq := gsq_of (fst g) (snd g) in
                let omgsq := xsub (Fin 1) gsq in
                if xltb (Fin 0) omgsq then
                  xmul (xmul (Fin (ba_A p)) (xmul omgsq omgsq))
                       (xexp (xmul (xmul (Fin (-1/2)) gsq) (Fin (ba_sig2inv p))))
                else Fin 0) gs.
(** ngmix/priors/shape.py:608-625 *)
Definition ba_prob_scalar1d (p : gba) (g : xr) : xr :=
  let gsq := xmul g g in
  let omgsq := xsub (Fin 1) gsq in
  let q := if xltb (Fin 0) omgsq then
             xmul (xmul (xmul omgsq omgsq) (xexp (xmul (xmul (Fin (-1/2)) gsq) (Fin (ba_sig2inv p)))))
                  (xmul (Fin (2 * PI)) g)
           else Fin 0 in
  xmul (Fin (ba_A p)) q.
(** ngmix/priors/shape.py:627-643 through 149-158 *)
Definition ba_prob_array1d (p : gba) (gs : list xr) : list xr :=
  map (fun g => let gsq := xmul g g in
                let omgsq := xsub (Fin 1) gsq in
                if xltb (Fin 0) omgsq then
                  xmul (xmul (xmul omgsq omgsq) (xexp (xmul (xmul (Fin (-1/2)) gsq) (Fin (ba_sig2inv p)))))
                       (xmul (xmul (xmul (Fin (ba_A p)) (Fin 2)) (Fin PI)) g)
                else Fin 0) gs.
(** ngmix/priors/shape.py:529-541 *)
Definition ba_fdiff_scalar (p : gba) (g1 g2 : xr) : res xr :=
  let* lnp := ba_lnprob_scalar2d p g1 g2 in
  let chi2 := xmul (Fin (-2)) lnp in Ok (xsqrt (xclip0 chi2)).
(** ngmix/priors/shape.py:543-553 *)
Definition ba_fdiff_array (p : gba) (gs : list (xr * xr)) : list xr :=
  map (fun lnp => xsqrt (xclip0 (xmul (Fin (-2)) lnp))) (ba_lnprob_array2d p gs).

(** ** ngmix/priors/shape.py:665-803 ZDisk2D *)
Record zdisk := mkDisk { zd_radius : R; zd_radius_sq : R }.
(** ngmix/priors/shape.py:681-685 *)
Definition zdisk_init (radius : R) : zdisk := mkDisk radius (radius ^ 2).
(** ngmix/priors/shape.py:687-693 *)
Definition zdisk_lnprob_scalar1d (p : zdisk) (r : xr) : res xr :=
  if xgeb r (Fin (zd_radius p)) then Raise GMixRangeError else Ok (Fin 0).
(** ngmix/priors/shape.py:695-702 *)
Definition zdisk_prob_scalar1d (p : zdisk) (r : xr) : xr :=
  if xgeb r (Fin (zd_radius p)) then Fin 0 else Fin 1.
(** ngmix/priors/shape.py:704-712 *)
Definition zdisk_lnprob_scalar2d (p : zdisk) (x y : xr) : res xr :=
  if xgeb (xadd (xsq x) (xsq y)) (Fin (zd_radius_sq p)) then Raise GMixRangeError else Ok (Fin 0).
(** ngmix/priors/shape.py:714-723 *)
Definition zdisk_prob_scalar2d (p : zdisk) (x y : xr) : xr :=
  if xgeb (xadd (xsq x) (xsq y)) (Fin (zd_radius_sq p)) then Fin 0 else Fin 1.
(** ngmix/priors/shape.py:725-738 *)
Definition zdisk_prob_array2d (p : zdisk) (xs : list (xr * xr)) : list xr :=
  map (fun x => if xltb (xadd (xsq (fst x)) (xsq (snd x))) (Fin (zd_radius_sq p)) then Fin 1 else Fin 0) xs.

(** * Priors as objects: the methods the joint priors call.  A method the class does not
    have raises AttributeError; the methods of GPriorBase that a class should override
    raise RuntimeError (ngmix/priors/shape.py:89-147). *)
Record p1obj := mkP1
  { p1_lnprob : xr -> res xr; p1_lnprob_array : list xr -> res aval; p1_fdiff : xr -> res xr;
    (** has_bounds() and bounds, ngmix/priors/priors.py:36-46 *)
    p1_bounds : option (R * R) }.
Definition no_attr1 (A : Type) : xr -> res A := fun _ => Raise AttributeError.
Definition no_attrs (A : Type) : list xr -> res A := fun _ => Raise AttributeError.
Definition flat_obj (p : flat) : p1obj :=
  mkP1 (flat_lnprob_scalar p) (flat_lnprob_array p) (flat_fdiff p) None.
Definition erf_obj (erf : R -> R) (p : tserf) : p1obj :=
  mkP1 (fun v => Ok (erf_lnprob_scalar erf p v)) (fun vs => Ok (AArray (erf_lnprob_array erf p vs)))
       (fun v => Ok (erf_fdiff erf p v)) None.
Definition normal_obj (p : normal) : p1obj :=
  mkP1 (fun v => Ok (normal_lnprob p v)) (fun vs => Ok (AArray (normal_lnprob_array p vs)))
       (fun v => Ok (normal_fdiff p v)) (no_bounds p).
Definition lmbounds_obj (p : lmbounds) : p1obj :=
  mkP1 (no_attr1 xr) (no_attrs aval) (fun v => Ok (lmbounds_fdiff p v)) (Some (lb_min p, lb_max p)).
Definition lognormal_obj (p : lognormal) : p1obj :=
  mkP1 (lognormal_lnprob_scalar p) (fun vs => rmap AArray (lognormal_lnprob_array p vs))
       (lognormal_fdiff p) None.
Definition sinh_obj (p : sinhp) : p1obj :=
  mkP1 (no_attr1 xr) (no_attrs aval) (fun v => Ok (sinh_fdiff p v)) None.
Definition trunc_obj (p : trunc) : p1obj :=
  mkP1 (trunc_lnprob_scalar p) (fun vs => Ok (AArray (trunc_lnprob_array p vs))) (trunc_fdiff p) None.
(** Bounded1D has only bounds and sample *)
Definition bounded_obj (lo hi : R) : p1obj :=
  mkP1 (no_attr1 xr) (no_attrs aval) (no_attr1 xr) (Some (lo, hi)).

Record p2obj := mkP2
  { p2_lnprob : xr -> xr -> res xr; p2_lnprob_array : list (xr * xr) -> res aval; p2_fdiff : xr -> xr -> res xr }.
Definition gba_obj (p : gba) : p2obj :=
  mkP2 (ba_lnprob_scalar2d p) (fun gs => Ok (AArray (ba_lnprob_array2d p gs))) (ba_fdiff_scalar p).
Definition zdisk_obj (p : zdisk) : p2obj :=
  mkP2 (zdisk_lnprob_scalar2d p) (fun _ => Raise AttributeError) (fun _ _ => Raise AttributeError).
(** ngmix/priors/shape.py:370-443 GPriorGauss overrides only the samplers *)
Definition ggauss_obj : p2obj :=
  mkP2 (fun _ _ => Raise RuntimeError) (fun _ => Raise RuntimeError) (fun _ _ => Raise AttributeError).
