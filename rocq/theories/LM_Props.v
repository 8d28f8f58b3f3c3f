(** Properties C56-C58 and C93 (bounded least squares), and the part of C59 about the
    flags of the solver. *)
From Coq Require String.
From Verif Require Import Base Flags_Model Pixels_Model LM_Model LM_Spec LM_Proofs LMCex_Proofs.
Import String.StringSyntax.
Local Open Scope R_scope.
Local Open Scope string_scope.
Local Open Scope list_scope.

(** ** C56 *)
Theorem C56_map_inside : forall b v, consistent b ->
  exists y, i2e_lam b (Some v) = Some y /\ within b y.
Proof. exact i2e_inside. Qed.
Print Assumptions C56_map_inside.

Theorem C56_map_inverted : forall b x, open_bound b -> within b x ->
  exists v, e2i_lam b (Some x) = Some v /\ i2e_lam b (Some v) = Some x.
Proof. exact start_back. Qed.
Print Assumptions C56_map_inverted.

(** the parameters returned satisfy the bounds *)
Theorem C56_fit_inside : forall lmdif leastsq inv message func x0 bounds maxfev tup,
  keeps_length lmdif -> Forall consistent bounds ->
  leastsqbound lmdif leastsq inv message func x0 (Some bounds) maxfev = OkX tup ->
  inside bounds (tp_x tup).
Proof. exact fit_inside. Qed.
Print Assumptions C56_fit_inside.

(** what the function does outside of the bounds has no influence on the fit *)
Theorem C56_evaluated_inside : forall lmdif leastsq inv message func func' x0 bounds maxfev,
  black_box lmdif -> Forall consistent bounds -> func x0 = func' x0 ->
  (forall x, inside bounds x -> func x = func' x) ->
  leastsqbound lmdif leastsq inv message func x0 (Some bounds) maxfev =
  leastsqbound lmdif leastsq inv message func' x0 (Some bounds) maxfev.
Proof. exact fit_evaluations. Qed.
Print Assumptions C56_evaluated_inside.

(** a solver that does not move returns the guess *)
Theorem C56_starts_at_guess : forall lmdif leastsq inv message func xs bounds maxfev tup,
  (forall f i k r, lmdif f i k = OkX r -> rt_x r = i) ->
  Forall open_bound bounds -> Forall2 within bounds xs ->
  leastsqbound lmdif leastsq inv message func (map Some xs) (Some bounds) maxfev = OkX tup ->
  tp_x tup = map Some xs.
Proof. exact fit_starts_at_guess. Qed.
Print Assumptions C56_starts_at_guess.
Example C56_hypotheses_hold : keeps_length ex_lmdif /\ black_box ex_lmdif /\
  Forall consistent ex_bounds /\ Forall open_bound ex_bounds /\ Forall2 within ex_bounds [1] /\
  exists c, leastsqbound ex_lmdif ex_leastsq ex_inv ex_msg ex_func [Some 1] (Some ex_bounds) 0 =
    OkX (mkTup [Some 1] (Some c) 3 "message" 1).
Proof.
  split; [exact ex_keeps|]. split; [exact ex_black_box|]. split; [exact ex_consistent|].
  split; [exact ex_open|]. split; [exact ex_within|].
  destruct (ex_fit 0) as (c & H & _). exists c. exact H.
Qed.

(** limits of the maps: a guess outside of the bounds is never the start, one far below
    a lower bound is moved to the mirror image, and equal bounds give a start that is
    not a number *)
Theorem C56_outside_start : forall b x v, ~ within b x -> consistent b ->
  e2i_lam b (Some x) = Some v -> exists y, i2e_lam b (Some v) = Some y /\ y <> x.
Proof. exact outside_start. Qed.
Print Assumptions C56_outside_start.
Theorem C56_mirrored_start : forall lower x, x <= lower - 2 ->
  exists v, e2i_lam (Some lower, None) (Some x) = Some v /\
            i2e_lam (Some lower, None) (Some v) = Some (2 * lower - 2 - x).
Proof. exact far_below. Qed.
Print Assumptions C56_mirrored_start.
Theorem C56_equal_bounds : forall a x, e2i_lam (Some a, Some a) (Some x) = None.
Proof. exact equal_bounds. Qed.
Print Assumptions C56_equal_bounds.

(** ** C57 *)
Theorem C57_gradient : forall b x,
  exists g f, grad_one (Some x) b = Some g /\ (forall v, i2e_lam b (Some v) = Some (f v)) /\
    derivable_pt_lim f x g.
Proof. exact grad_correct. Qed.
Print Assumptions C57_gradient.

(** ** C58 *)
Theorem C58_zero_flags_truthful :
  forall lmdif leastsq inv eig message func guess np ks bounds maxfev d,
  known_status leastsq -> eig_complete eig ->
  run_leastsq lmdif leastsq inv eig message func guess np ks bounds maxfev = OkX d ->
  dget d "flags" = Some (LInt 0) ->
  exists tup cov0 fdiff n P,
    leastsqbound lmdif leastsq inv message func guess bounds maxfev = OkX tup /\
    (1 <= tp_ier tup <= 4)%Z /\
    tp_cov tup = Some cov0 /\ func (tp_x tup) = OkX fdiff /\
    degrees ks (length fdiff) np (length guess) <> 0%Z /\
    nrow cov0 = n /\ ncol cov0 = n /\
    ((0 < n)%nat -> exists residuals C0,
       skipn np fdiff = map Some residuals /\
       (forall i j, (i < n)%nat -> (j < n)%nat -> at2 cov0 i j = Some (C0 i j) /\
          P i j = C0 i j * (chi2 residuals / IZR (degrees ks (length fdiff) np (length guess))))) /\
    (forall i, (i < n)%nat -> 0 <= P i i) /\
    (forall lam, eigenvalue n P lam -> 0 <= lam) /\
    dget d "pars" = Some (LVec (tp_x tup)) /\
    dget d "pars_cov0" = Some (LMat (Some cov0)) /\
    (exists pcov, dget d "pars_cov" = Some (LMat (Some pcov)) /\ nrow pcov = n /\ ncol pcov = n /\
       forall i j, (i < n)%nat -> (j < n)%nat -> at2 pcov i j = Some (P i j)) /\
    dget d "pars_err" = Some (LVec (map (fun i => Some (sqrt (P i i))) (seq 0 n))).
Proof. exact zero_flags. Qed.
Print Assumptions C58_zero_flags_truthful.

(** and a good fit is reported as such *)
Theorem C58_success_reported :
  forall lmdif leastsq inv eig message func guess np ks bounds maxfev tup cov0 n C0 fdiff residuals,
  leastsqbound lmdif leastsq inv message func guess bounds maxfev = OkX tup ->
  (1 <= tp_ier tup <= 4)%Z ->
  tp_cov tup = Some cov0 -> nrow cov0 = n -> ncol cov0 = n ->
  (forall i j, (i < n)%nat -> (j < n)%nat -> at2 cov0 i j = Some (C0 i j)) ->
  func (tp_x tup) = OkX fdiff -> skipn np fdiff = map Some residuals ->
  degrees ks (length fdiff) np (length guess) <> 0%Z ->
  let s := chi2 residuals / IZR (degrees ks (length fdiff) np (length guess)) in
  (forall i, (i < n)%nat -> 0 <= C0 i i * s) ->
  (forall M, (forall i j, (i < n)%nat -> (j < n)%nat -> M i j = C0 i j * s) ->
     exists l, eig n M = Some l /\ Forall (fun x => 0 <= x) l) ->
  exists d, run_leastsq lmdif leastsq inv eig message func guess np ks bounds maxfev = OkX d /\
    dget d "flags" = Some (LInt 0) /\ dget d "pars" = Some (LVec (tp_x tup)).
Proof. exact success_reported. Qed.
Print Assumptions C58_success_reported.
Example C58_hypotheses_hold : known_status ex_leastsq /\ eig_complete ex_eig /\
  exists d, run_leastsq ex_lmdif ex_leastsq ex_inv ex_eig ex_msg ex_func [Some 1] 0
    false (Some ex_bounds) 0 = OkX d /\ dget d "flags" = Some (LInt 0) /\
    dget d "pars" = Some (LVec [Some 1]).
Proof. split; [exact ex_known|]. split; [exact ex_eig_complete|exact (ex_run 0)]. Qed.

(** keys: six are always there; the two others except when the function was not finite
    or divided by zero *)
Theorem C58_keys_partial :
  forall lmdif leastsq inv eig message func guess np ks bounds maxfev d,
  run_leastsq lmdif leastsq inv eig message func guess np ks bounds maxfev = OkX d ->
  (forall k, In k ["flags"; "nfev"; "errmsg"; "pars"; "pars_cov0"; "pars_cov"] -> dget d k <> None) /\
  ((forall k, In k result_keys -> dget d k <> None) \/
   (dget d "flags" = Some (LInt LM_FUNC_NOTFINITE) \/ dget d "flags" = Some (LInt DIV_ZERO)) /\
   dget d "pars_err" = None /\ dget d "ier" = None).
Proof. exact keys_present. Qed.
Print Assumptions C58_keys_partial.
Theorem C58_keys_refuted :
  exists lmdif leastsq inv eig message func guess np ks bounds maxfev d,
  run_leastsq lmdif leastsq inv eig message func guess np ks bounds maxfev = OkX d /\
  In "pars_err" result_keys /\ In "ier" result_keys /\
  dget d "pars_err" = None /\ dget d "ier" = None.
Proof.
  destruct ex_missing_keys as (d & H). exists ex_lmdif, ex_leastsq, ex_inv, ex_eig, ex_msg.
  exists ex_zero_div, [Some 1], 0%nat, false, None, 0%nat, d. exact H.
Qed.
Print Assumptions C58_keys_refuted.

(** failures: errors are always the defaults; the parameters and their covariance are
    when the solver did not converge or an exception was caught *)
Theorem C58_failure_defaults_partial :
  forall lmdif leastsq inv eig message func guess np ks bounds maxfev d flags,
  run_leastsq lmdif leastsq inv eig message func guess np ks bounds maxfev = OkX d ->
  dget d "flags" = Some (LInt flags) -> flags <> 0%Z ->
  (forall e, dget d "pars_err" = Some e -> e = LVec (repeat (Some CDEF) (length guess))) /\
  ((forall tup, leastsqbound lmdif leastsq inv message func guess bounds maxfev = OkX tup ->
      (4 < tp_ier tup)%Z) ->
     dget d "pars" = Some (LVec (repeat (Some PDEF) (length guess))) /\
     exists C, dget d "pars_cov" = Some (LMat (Some C)) /\ nrow C = length guess /\
       ncol C = length guess /\ forall i j, at2 C i j = Some CDEF).
Proof. exact failed_defaults. Qed.
Print Assumptions C58_failure_defaults_partial.
Theorem C58_failure_defaults_refuted :
  exists lmdif leastsq inv eig message func guess np ks bounds maxfev d flags,
  run_leastsq lmdif leastsq inv eig message func guess np ks bounds maxfev = OkX d /\
  dget d "flags" = Some (LInt flags) /\ flags <> 0%Z /\
  dget d "pars" <> Some (LVec (repeat (Some PDEF) (length guess))).
Proof.
  destruct ex_singular as (d & H & Hf & Hp). exists ex_lmdif, ex_leastsq, ex_inv, ex_eig, ex_msg.
  exists ex_func, [Some 1], 0%nat, false, None, 0%nat, d, LM_SINGULAR_MATRIX.
  split; [exact H|]. split; [exact Hf|]. split; [discriminate|]. rewrite Hp.
  cbn. unfold PDEF. intros [= H1]. lra.
Qed.
Print Assumptions C58_failure_defaults_refuted.

(** exceptions of the function that get through *)
Theorem C58_exceptions :
  forall lmdif leastsq inv eig message func guess np ks bounds maxfev e nf,
  run_leastsq lmdif leastsq inv eig message func guess np ks bounds maxfev = RaiseX e nf ->
  e <> ZeroDivisionError /\ (e = ValueError -> nf = false) /\
  run_try lmdif leastsq inv eig message func guess np ks bounds maxfev = RaiseX e nf.
Proof. exact run_exceptions. Qed.
Print Assumptions C58_exceptions.

(** ** C59: status 5 to 8 of the solver use the bits of four other flags, so
    get_flags_str describes them wrongly *)
Theorem C59_lm_status_refuted :
  forall lmdif leastsq inv eig message func guess np ks bounds maxfev tup,
  leastsqbound lmdif leastsq inv message func guess bounds maxfev = OkX tup ->
  (5 <= tp_ier tup <= 8)%Z ->
  exists d flags str,
    run_leastsq lmdif leastsq inv eig message func guess np ks bounds maxfev = OkX d /\
    dget d "flags" = Some (LInt flags) /\ get_flags_str flags NAME_MAP = Ok str /\
    (tp_ier tup = 5%Z -> flags = NO_ATTEMPT /\ str = "no attempt") /\
    (tp_ier tup = 6%Z -> flags = CEN_SHIFT /\ str = "center shifted too far") /\
    (tp_ier tup = 7%Z -> flags = NONPOS_FLUX /\ str = "flux <= 0") /\
    (tp_ier tup = 8%Z -> flags = NONPOS_SIZE /\ str = "T <= 0").
Proof.
  intros until tup. intros H Hi.
  destruct (lm_status_flags lmdif leastsq inv eig message func guess np ks bounds maxfev tup H)
    as (d & Hd & Hf); [lia|].
  exists d, (2 ^ (tp_ier tup - 5))%Z.
  assert (E : (tp_ier tup = 5 \/ tp_ier tup = 6 \/ tp_ier tup = 7 \/ tp_ier tup = 8)%Z) by lia.
  destruct E as [E|[E|[E|E]]]; rewrite E in *; eexists;
    (split; [exact Hd|]); (split; [exact Hf|]); (split; [vm_compute; reflexivity|]);
    (do 3 (split; [intros Hc; first [discriminate Hc|split; reflexivity]|]));
    intros Hc; first [discriminate Hc|split; reflexivity].
Qed.
Print Assumptions C59_lm_status_refuted.
Example C59_lm_status_hypotheses_hold :
  leastsqbound ex_lmdif (ex_status 5) ex_inv ex_msg ex_func [Some 1] None 0
    = OkX (mkTup [Some 1] None 3 "message" 5).
Proof. exact (ex_status_tup 5). Qed.

(** ** C93 *)
Theorem C93_external_covariance :
  forall lmdif leastsq inv message func x0 bounds maxfev tup C,
  inv_correct inv -> inv_extensional inv ->
  (forall f i k r, lmdif f i k = OkX r -> minpack_output (length i) r) ->
  leastsqbound lmdif leastsq inv message func x0 (Some bounds) maxfev = OkX tup ->
  tp_cov tup = Some C ->
  let n := length x0 in
  exists f i k ret, lmdif f i k = OkX ret /\ (1 <= rt_info ret <= 4)%Z /\
  forall (xs : list R) (fj : nat -> nat -> R) (d : nat -> R),
  rt_x ret = map Some xs ->
  (forall j i, (j < n)%nat -> (i < n)%nat -> rt_fjac ret j i = Some (fj j i)) ->
  (forall k, (k < n)%nat -> d k <> 0 /\
     exists h, (forall v, i2e_lam (nth k bounds (None, None)) (Some v) = Some (h v)) /\
       derivable_pt_lim h (nth k xs 0) (d k)) ->
  exists I : nat -> nat -> R,
    (forall i j, (i < n)%nat -> (j < n)%nat -> at2 C i j = Some (d i * I i j * d j)) /\
    (forall i k, (i < n)%nat -> (k < n)%nat ->
      rsum (map (fun j => I i j * gauss_newton n fj (rt_ipvt ret) j k) (seq 0 n)) =
      if Nat.eqb i k then 1 else 0).
Proof. exact external_cov. Qed.
Print Assumptions C93_external_covariance.
Example C93_hypotheses_hold : inv_correct ex_inv /\ inv_extensional ex_inv /\
  (forall f i k r, ex_lmdif f i k = OkX r -> minpack_output (length i) r) /\
  exists c, leastsqbound ex_lmdif ex_leastsq ex_inv ex_msg ex_func [Some 1] (Some ex_bounds) 0 =
    OkX (mkTup [Some 1] (Some c) 3 "message" 1).
Proof.
  split; [exact ex_inv_correct|]. split; [exact ex_inv_extensional|]. split; [exact ex_minpack|].
  destruct (ex_fit 0) as (c & H & _). exists c. exact H.
Qed.
