(** More of C03 and C07: what a rotation of a shape and the measures of size mean. *)
From Verif Require Import Base Shape_Model Shape_Spec Shape_Proofs Moments_Model Moments_Spec Moments_Proofs
  Meaning_Spec Meaning_Proofs.
Local Open Scope R_scope.

(** C03: the shape of an object turned, with its light, by the angle t from the row axis
    towards the column axis is the rotated shape; the size is the same *)
Theorem C03_direction : forall irr irc icc g1 g2 T t irr' irc' icc',
  mom2g irr irc icc = Ok (g1, g2, T) ->
  cov irr' irc' icc' = conj2 (cos t) (sin t) (- sin t) (cos t) (cov irr irc icc) ->
  mom2g irr' irc' icc' = Ok (fst (rotate_shape g1 g2 t), snd (rotate_shape g1 g2 t), T).
Proof. exact turned. Qed.
Print Assumptions C03_direction.
Example C03_direction_hypotheses_hold : exists g1 g2 T, mom2g 3 (1/2) 5 = Ok (g1, g2, T).
Proof.
  destruct (mom2g_defined 3 (1/2) 5) as (g1 & g2 & T & H & _).
  - unfold posdef, det2, cov; cbn; lra.
  - exists g1, g2, T. exact H.
Qed.

(** C07: the fwhm of a gaussian of width s is twice the radius at which the profile has half
    its central value, and r50 the radius within which half of its light is *)
Theorem C07_fwhm_is_full_width : forall s, s <> 0 ->
  Rabs (profile s (sigma_to_fwhm s / 2) - 1 / 2 * profile s 0) <= / 10 ^ 9.
Proof. exact half_at_fwhm. Qed.
Print Assumptions C07_fwhm_is_full_width.
Theorem C07_r50_holds_half_the_light : forall s F, 0 < s -> enclosed s F ->
  Rabs (F (sigma_to_r50 s) - 1 / 2) <= / 10 ^ 9.
Proof. exact half_in_r50. Qed.
Print Assumptions C07_r50_holds_half_the_light.
Example C07_r50_hypotheses_hold : forall s, 0 < s -> enclosed s (fun r => 1 - profile s r).
Proof. intros s H. apply enclosed_exists. lra. Qed.
