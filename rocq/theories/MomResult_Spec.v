(** Error propagation and the documented outcomes of a moments measurement. *)
From Verif Require Import Base XReal Flags_Model MomResult_Model.
Local Open Scope R_scope.

(** first order variance of a/b: gradient (1/b, -a/b^2) applied to the covariance
    [[va, c], [c, vb]] *)
Definition ratio_var (a b va vb c : R) : R :=
  let da := 1 / b in
  let db := - a / (b * b) in
  da * (va * da + c * db) + db * (c * da + vb * db).

Definition positive (x : xr) : Prop := match x with Fin r => 0 < r | PInf => True | _ => False end.
Definition noinf (x : xr) : Prop := match x with PInf | NInf => False | _ => True end.
Definition finite (x : xr) : Prop := exists r, x = Fin r.

(** shapes that make_mom_result accepts *)
Definition shapes_ok (sums : list xr) (cov : smat) : Prop :=
  (length sums = 6%nat \/ length sums = 17%nat) /\ (sm_n cov = 6%nat \/ sm_n cov = 17%nat) /\
  (length sums <= sm_n cov)%nat.
Definition diag_positive (cov : smat) : Prop := forall i, (i < sm_n cov)%nat -> positive (sm_at cov i i).

(** all six moments and all covariances finite *)
Definition all_finite (sums : list xr) (cov : smat) : Prop :=
  (forall i, (i < length sums)%nat -> finite (nth i sums NaN)) /\
  (forall i j, (i < sm_n cov)%nat -> (j < sm_n cov)%nat -> finite (sm_at cov i j)).
(** value of a finite element *)
Definition val (x : xr) : R := match x with Fin r => r | _ => 0 end.

(** which quality flags a measurement must carry, in the order the docs list them *)
Inductive total_flag (sums : list xr) (cov : smat) (r : momres) : Z -> Prop :=
| TfVar : ~ diag_positive cov -> total_flag sums cov r NONPOS_VAR
| TfFlux : diag_positive cov -> ~ positive (nth 5 sums NaN) -> total_flag sums cov r NONPOS_FLUX
| TfSize : diag_positive cov -> positive (nth 5 sums NaN) -> ~ positive (xdiv (nth 4 sums NaN) (nth 5 sums NaN)) ->
    total_flag sums cov r NONPOS_SIZE
| TfShape : diag_positive cov -> positive (nth 5 sums NaN) -> positive (xdiv (nth 4 sums NaN) (nth 5 sums NaN)) ->
    m_e_err r = (NaN, NaN) -> total_flag sums cov r NONPOS_SHAPE_VAR
| TfOk : diag_positive cov -> positive (nth 5 sums NaN) -> positive (xdiv (nth 4 sums NaN) (nth 5 sums NaN)) ->
    finite (fst (m_e_err r)) -> finite (snd (m_e_err r)) -> total_flag sums cov r 0.
Inductive T_flag (sums : list xr) (cov : smat) : Z -> Prop :=
| ZfVar : ~ (positive (sm_at cov 5 5) /\ positive (sm_at cov 4 4)) -> T_flag sums cov NONPOS_VAR
| ZfFlux : positive (sm_at cov 5 5) -> positive (sm_at cov 4 4) -> ~ positive (nth 5 sums NaN) -> T_flag sums cov NONPOS_FLUX
| ZfOk : positive (sm_at cov 5 5) -> positive (sm_at cov 4 4) -> positive (nth 5 sums NaN) -> T_flag sums cov 0.
Inductive flux_flag (cov : smat) : Z -> Prop :=
| FfVar : ~ positive (sm_at cov 5 5) -> flux_flag cov NONPOS_VAR
| FfOk : positive (sm_at cov 5 5) -> flux_flag cov 0.

(** value reported under a moment's name *)
Definition named_value (sums : list xr) (ind : nat) : xr :=
  if Nat.eqb ind 5 then nth 5 sums NaN
  else if xgtb (nth 5 sums NaN) (Fin 0) then xdiv (nth ind sums NaN) (nth 5 sums NaN) else NaN.

(** positive definite (T, flux) block, as any covariance matrix of the two has *)
Definition TF_block_ok (cov : smat) : Prop :=
  exists a b c, sm_at cov 4 4 = Fin a /\ sm_at cov 5 5 = Fin b /\ sm_at cov 4 5 = Fin c /\ sm_at cov 5 4 = Fin c /\
    0 < a /\ 0 < b /\ c * c < a * b.
(** the six sums; centroids are finite or not a number *)
Definition six_sums (sums : list xr) : Prop :=
  exists v u m1 m2 mT mF, sums = [v; u; Fin m1; Fin m2; Fin mT; Fin mF] /\ noinf v /\ noinf u.
Definition finite_cov (cov : smat) : Prop := sm_n cov = 6%nat /\ forall i j, (i < 6)%nat -> (j < 6)%nat -> finite (sm_at cov i j).

(** sample inputs *)
Definition eye6 : smat := mkSmat 6 (fun i j => if Nat.eqb i j then Fin 1 else Fin 0).
Definition eye6_nan : smat := mkSmat 6 (fun i j => if Nat.eqb i j then Fin 1 else if Nat.eqb i 4 && Nat.eqb j 5 then NaN else Fin 0).
