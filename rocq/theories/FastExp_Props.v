(** C22 *)
From Verif Require Import Base FastExp_Model FastExp_Proofs.

Example C22_hypotheses_hold : 0 <= 49/10 < 25 /\ -125/10 < -37/10 <= 0.
Proof. lra. Qed.

(** every chi-square in [0,25) leads to an entry inside the table, holding exp of the
    integer the argument was rounded to *)
Theorem C22_index_in_table : forall chi2, 0 <= chi2 < 25 ->
  exists k, (trunc (- 5/10 * chi2 - 5/10) - EXP_I0)%Z = k /\ (3 <= k <= 15)%Z /\
    (0 <= k < Z.of_nat (length EXP_LOOKUP))%Z /\ nth_error EXP_LOOKUP (Z.to_nat k) = Some (exp (IZR (k - 15))).
Proof. exact index_range. Qed.
Print Assumptions C22_index_in_table.

Theorem C22_relative_error : forall x, -125/10 < x <= 0 ->
  exists y, fexp x = Ok y /\ Rabs (y - exp x) < 4 / 100000 * exp x.
Proof. exact fexp_spec. Qed.
Print Assumptions C22_relative_error.

(** the cheaper versions *)
Theorem C22_relative_error_exp4 : forall x, -125/10 < x <= 0 ->
  exists y, exp4 x = Ok y /\ Rabs (y - exp x) < 5 / 10000 * exp x.
Proof. exact exp4_spec. Qed.
Print Assumptions C22_relative_error_exp4.
Theorem C22_relative_error_exp3 : forall x, -125/10 < x <= 0 ->
  exists y, exp3 x = Ok y /\ Rabs (y - exp x) < 5 / 1000 * exp x.
Proof. exact exp3_spec. Qed.
Print Assumptions C22_relative_error_exp3.
(** which is not the 0.0002 of the documentation: the series stops after the fourth order *)
Theorem C22_exp4_documented_refuted : ~ (forall x, -125/10 < x <= 0 ->
  exists y, exp4 x = Ok y /\ Rabs (y - exp x) <= 3 / 10000 * exp x).
Proof. exact exp4_cex. Qed.
Print Assumptions C22_exp4_documented_refuted.
