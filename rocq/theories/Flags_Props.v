(** Property C59: flag strings. *)
From Coq Require Import String.
From Verif Require Import Base Flags_Model Flags_Spec Flags_Proofs.
Open Scope Z_scope.

Theorem C59_lists_set_bits_partial : forall v m, 0 <= v < 2 ^ 31 ->
  exists ps names s, get_flags_str v m = Ok s /\ set_bits v ps /\ Forall2 (describes m) ps names /\ joined names s.
Proof. exact flags_str_spec. Qed.
Print Assumptions C59_lists_set_bits_partial.
Example C59_hypotheses_hold : 0 <= NONPOS_FLUX + ZERO_DOF + 2 ^ 20 < 2 ^ 31 /\
  get_flags_str (NONPOS_FLUX + 2 ^ 20) NAME_MAP = Ok "flux <= 0|bit 2**20"%string.
Proof. split; [cbn; lia|reflexivity]. Qed.
(** different flag values have different strings *)
Theorem C59_strings_distinguish : forall v w, 0 <= v < 2 ^ 31 -> 0 <= w < 2 ^ 31 ->
  get_flags_str v NAME_MAP = get_flags_str w NAME_MAP -> v = w.
Proof. exact flags_str_injective. Qed.
Print Assumptions C59_strings_distinguish.
Theorem C59_negative_rejected : forall v m, v < 0 -> get_flags_str v m = Raise ValueError.
Proof. exact flags_str_neg. Qed.
Print Assumptions C59_negative_rejected.
(** the value is accepted as uint32 but bit 31 is never described *)
Theorem C59_bit_31_refuted : forall m, get_flags_str (2 ^ 31) m = Ok EmptyString.
Proof. exact bit31. Qed.
Print Assumptions C59_bit_31_refuted.
(** the flags are the single bits 0 to 15: no two of them can be confused *)
Theorem C59_distinct_flags :
  map Z.log2 [NO_ATTEMPT; CEN_SHIFT; NONPOS_FLUX; NONPOS_SIZE; LOW_DET; MAXITER; NONPOS_VAR; GMIX_RANGE_ERROR; NONPOS_SHAPE_VAR;
    LM_SINGULAR_MATRIX; LM_NEG_COV_EIG; LM_NEG_COV_DIAG; LM_FUNC_NOTFINITE; EIG_NOTFINITE; DIV_ZERO; ZERO_DOF] = map Z.of_nat (seq 0 16) /\
  Forall (fun f => f = 2 ^ Z.log2 f) [NO_ATTEMPT; CEN_SHIFT; NONPOS_FLUX; NONPOS_SIZE; LOW_DET; MAXITER; NONPOS_VAR; GMIX_RANGE_ERROR; NONPOS_SHAPE_VAR;
    LM_SINGULAR_MATRIX; LM_NEG_COV_EIG; LM_NEG_COV_DIAG; LM_FUNC_NOTFINITE; EIG_NOTFINITE; DIV_ZERO; ZERO_DOF].
Proof. split; [reflexivity|]. repeat constructor. Qed.
Print Assumptions C59_distinct_flags.
