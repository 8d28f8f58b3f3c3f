(** Model of ngmix/flags.py. *)
From Coq Require Import String DecimalString.
From Verif Require Import Base.
Open Scope string_scope.
Open Scope list_scope.
Open Scope Z_scope.

(** ngmix/flags.py:3-27 *)
Definition NO_ATTEMPT := 2 ^ 0.
Definition CEN_SHIFT := 2 ^ 1.
Definition NONPOS_FLUX := 2 ^ 2.
Definition NONPOS_SIZE := 2 ^ 3.
Definition LOW_DET := 2 ^ 4.
Definition MAXITER := 2 ^ 5.
Definition NONPOS_VAR := 2 ^ 6.
Definition GMIX_RANGE_ERROR := 2 ^ 7.
Definition NONPOS_SHAPE_VAR := 2 ^ 8.
Definition LM_SINGULAR_MATRIX := 2 ^ 9.
Definition LM_NEG_COV_EIG := 2 ^ 10.
Definition LM_NEG_COV_DIAG := 2 ^ 11.
Definition LM_FUNC_NOTFINITE := 2 ^ 12.
Definition EIG_NOTFINITE := 2 ^ 13.
Definition DIV_ZERO := 2 ^ 14.
Definition ZERO_DOF := 2 ^ 15.

(** ngmix/flags.py:29-57; a dict is an association list *)
Definition NAME_MAP : list (Z * string) :=
  [ (NO_ATTEMPT, "no attempt");
    (CEN_SHIFT, "center shifted too far");
    (NONPOS_FLUX, "flux <= 0");
    (NONPOS_SIZE, "T <= 0");
    (LOW_DET, "determinant near zero");
    (MAXITER, "max iterations reached");
    (NONPOS_VAR, "non-positive (definite) variance");
    (NONPOS_SHAPE_VAR, "non-positive shape variance");
    (GMIX_RANGE_ERROR, "GMixRangeError raised");
    (LM_SINGULAR_MATRIX, "singular matrix in LM");
    (LM_NEG_COV_EIG, "negative covariance eigenvalue in LM");
    (LM_NEG_COV_DIAG, "negative covariance diagional value in LM");
    (LM_FUNC_NOTFINITE, "function not finite in LM");
    (EIG_NOTFINITE, "eigenvalues of covariance cannot be found in LM");
    (DIV_ZERO, "divide by zero");
    (ZERO_DOF, "degrees of freedom for it is zero (no chi^2/dof possible)") ].

Fixpoint lookup (m : list (Z * string)) (k : Z) : option string :=
  match m with
  | [] => None
  | (k', v) :: m => if Z.eqb k k' then Some v else lookup m k
  end.

(** "%d" % n *)
Definition dec (n : nat) : string := NilEmpty.string_of_uint (Nat.to_uint n).

(** ngmix/flags.py:60-98 get_flags_str.  Python integers that do not fit in uint32 are
    refused by numpy (OverflowError). *)
Definition get_flags_str (val : Z) (name_map : list (Z * string)) : res string :=
  if val <? 0 then Raise ValueError else
  if 2 ^ 32 <=? val then Raise OtherError else
  let nstrs := fold_left (fun nstrs pow =>
      let fval := 2 ^ Z.of_nat pow in
      if negb (Z.land val fval =? 0) then
        match lookup name_map fval with
        | Some s => nstrs ++ [s]
        | None => nstrs ++ [String.append "bit 2**" (dec pow)]
        end
      else nstrs) (seq 0 31) [] in
  Ok (String.concat "|" nstrs).
