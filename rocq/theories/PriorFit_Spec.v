(** What a fit of the parameters of a prior should do. *)
From Coq Require String.
From Verif Require Import Base XReal Flags_Model Pixels_Model LM_Model LM_Spec Priors_Model Priors_Spec PriorSample_Model PriorFit_Model.
Import String.StringSyntax.
Local Open Scope R_scope.
Local Open Scope string_scope.
Local Open Scope list_scope.

(** numpy: uniform(low, high) is low + (high - low) * u, so low when both are the same *)
Definition flat_uniform {W} (G : rng W) : Prop :=
  forall w a n, snd (uniform G w a a n) = repeat a n.

(** the curve of a lognormal with mean m and variance s^2, scaled to a peak of one *)
Definition logn_curve (m s x : R) : R :=
  let lv := ln (1 + s ^ 2 / m ^ 2) in
  let lm := ln m - lv / 2 in
  logn_pdf lm lv x / logn_pdf lm lv (exp (lm - lv)).

(** the density of |g| of Bernstein & Armstrong, nothing outside of the unit disc *)
Definition ba_density (A sigma g : R) : R :=
  if Rltb (g ^ 2) 1 then A * ((1 - g ^ 2) ^ 2 * exp (- (g ^ 2 / (2 * sigma ^ 2)))) * (2 * PI * g) else 0.

(** the points lie on the curve of the prior *)
Definition on_curve (p : lognormal) (data : list (R * R)) : Prop :=
  Forall (fun d => lognormal_prob_scalar p (Fin (fst d)) = Ok (Fin (snd d))) data.

(** flags of a result *)
Definition succeeded (r : resx ldict) : Prop :=
  exists d, r = OkX d /\ dget d "flags" = Some (LInt 0).

(** the errors reported for a fit that failed *)
Definition placeholder (n : nat) : vec := repeat (Some CDEF) n.

(** mean and standard deviation of a list *)
Definition mean_of (x : list R) : R := rsum x / INR (length x).
Definition std_of (x : list R) : R := sqrt (mean_of (map (fun v => (v - mean_of x) ^ 2) x)).
(** numpy: as many draws as asked for, all between low and high *)
Definition uniform_between {W} (G : rng W) : Prop :=
  forall w a b n, length (snd (uniform G w a b n)) = n /\ (a <= b -> Forall (fun u => a <= u <= b) (snd (uniform G w a b n))).
