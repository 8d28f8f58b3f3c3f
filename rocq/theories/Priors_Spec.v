(** What a prior should do, stated without the formulas of the model. *)
From Verif Require Import Base XReal Priors_Model.
Local Open Scope R_scope.

(** ** Densities, up to a factor *)
Definition gauss_pdf (mean sigma x : R) : R := exp (- ((x - mean) / sigma) ^ 2 / 2).
(** log-normal density with mean [lm] and variance [lv] of the logarithm *)
Definition logn_pdf (lm lv x : R) : R := exp (- (ln x - lm) ^ 2 / (2 * lv)) / x.
(** Bernstein & Armstrong 2014, equation for the shape prior *)
Definition ba_pdf (sigma g : R) : R := (1 - g ^ 2) ^ 2 * exp (- g ^ 2 / (2 * sigma ^ 2)).

(** a log probability that is at most zero wherever it is defined, and zero at the mode *)
Definition peaks_at_zero (lnp : xr -> res xr) (mode : R) : Prop :=
  (forall v r, v <> NaN -> lnp v = Ok r -> xleb r (Fin 0) = true) /\ lnp (Fin mode) = Ok (Fin 0).
Definition peaks_at_zero2 (lnp : xr -> xr -> res xr) (m1 m2 : R) : Prop :=
  (forall v1 v2 r, v1 <> NaN -> v2 <> NaN -> lnp v1 v2 = Ok r -> xleb r (Fin 0) = true)
  /\ lnp (Fin m1) (Fin m2) = Ok (Fin 0).

(** the residual and the log probability: residual^2 = -2 log p, and both raise the same *)
Definition same_term (l f : res xr) : Prop :=
  match l, f with
  | Ok l, Ok f => xmul f f = xmul (Fin (-2)) l
  | Raise e, Raise e' => e = e'
  | _, _ => False
  end.
Definition encodes (p : p1obj) : Prop := forall v, same_term (p1_lnprob p v) (p1_fdiff p v).
Definition encodes2 (p : p2obj) : Prop := forall v1 v2, same_term (p2_lnprob p v1 v2) (p2_fdiff p v1 v2).
(** a log probability never above zero (it may be nan) *)
Definition never_positive (lnp : xr -> res xr) : Prop :=
  forall v r, lnp v = Ok r -> xltb (Fin 0) r = false.
Definition never_positive2 (lnp : xr -> xr -> res xr) : Prop :=
  forall v1 v2 r, lnp v1 v2 = Ok r -> xltb (Fin 0) r = false.

(** what an array evaluator should return: the scalar results element by element, or the
    exception of the first element that raises *)
Definition agrees (scalar : xr -> res xr) (array : list xr -> res aval) : Prop :=
  forall vs, array vs = rmap AArray (mapM scalar vs).
Definition agrees_on (ok : xr -> Prop) (scalar : xr -> res xr) (array : list xr -> res aval) : Prop :=
  forall vs, Forall ok vs -> array vs = rmap AArray (mapM scalar vs).
Definition agrees2_on (ok : xr * xr -> Prop) (scalar : xr -> xr -> res xr) (array : list (xr * xr) -> res aval) : Prop :=
  forall vs, Forall ok vs -> array vs = rmap AArray (mapM (fun v => scalar (fst v) (snd v)) vs).
Definition finite (v : xr) : Prop := exists x, v = Fin x.
Definition finite2 (v : xr * xr) : Prop := finite (fst v) /\ finite (snd v).

(** what is known of the error function *)
Definition erf_like (erf : R -> R) : Prop := forall x, -1 <= erf x <= 1.

(** ** Objects made by the constructors of the priors that have both methods *)
Definition made_1d (erf : R -> R) (p : p1obj) : Prop :=
  (exists a b, p = flat_obj (mkFlat a b)) \/
  (exists a wa b wb, p = erf_obj erf (mkErf a wa b wb)) \/
  (exists m s b q, normal_init m s b = Ok q /\ p = normal_obj q) \/
  (exists m s sh q, s <> 0 /\ lognormal_init m s sh = Ok q /\ p = lognormal_obj q) \/
  (exists m s a b q, trunc_init m s a b = Ok q /\ p = trunc_obj q).
(** where the support of a shifted log normal begins *)
Definition shift_of (sh : option R) : R := match sh with Some s => s | None => 0 end.
