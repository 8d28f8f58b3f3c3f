(** Adaptive moments of the same sky in coordinates that are turned by [t] and shifted by ([a], [b]). *)
From Verif Require Import Base XReal Pixels_Model Jacobian_Model GMix_Model WSums_Model Admom_Model Motion_Spec.
Local Open Scope R_scope.

(** a multiple of 90 degrees *)
Definition quarter (t : R) : Prop := cos t * sin t = 0.
(** the seven sums: positions are moved, the second moments have spin 2, the others are the same *)
Definition moved_sum (t a b : R) (i : nat) (F : nat -> R) : R :=
  match i with
  | 0%nat => cos t * F 0%nat - sin t * F 1%nat + a * F 5%nat
  | 1%nat => sin t * F 0%nat + cos t * F 1%nat + b * F 5%nat
  | 2%nat => turned_1 t (F 2%nat) (F 3%nat)
  | 3%nat => turned_2 t (F 2%nat) (F 3%nat)
  | _ => F i
  end.
Definition sums_moved (t a b : R) (s s' : wsums) : Prop :=
  ws_npix s' = ws_npix s /\ ws_wsum s' = ws_wsum s /\ (forall i, (i < 7)%nat -> ws_sums s' i = moved_sum t a b i (ws_sums s)) /\
  (forall i k, (i < 7)%nat -> (k < 7)%nat -> ws_cov s' i k = moved_sum t a b i (fun m => moved_sum t a b k (fun n => ws_cov s m n))).
(** pars: the centre, the moments, and the flux; all zero or not a number if there is no measurement *)
Definition measured (t a b : R) (p p' : list xr) : Prop := exists row col M1 M2 T x,
  p = [Fin row; Fin col; Fin M1; Fin M2; Fin T; x] /\
  p' = [Fin (moved_v t a row col); Fin (moved_u t b row col); Fin (turned_1 t M1 M2); Fin (turned_2 t M1 M2); Fin T; x].
Definition pars_follow (t a b : R) (p p' : list xr) : Prop :=
  (p' = p /\ (p = repeat NaN 6 \/ p = repeat (Fin 0) 6)) \/ measured t a b p p'.
Definition shape_follows (t : R) (x y x' y' : xr) : Prop :=
  (x = NaN /\ y = NaN /\ x' = NaN /\ y' = NaN) \/
  exists e1 e2, x = Fin e1 /\ y = Fin e2 /\ x' = Fin (turned_1 t e1 e2) /\ y' = Fin (turned_2 t e1 e2).
Definition adaptive_moved (t a b : R) (d d' : am_dict) : Prop :=
  d_flags d' = d_flags d /\ d_numiter d' = d_numiter d /\ d_flux_flags d' = d_flux_flags d /\ d_T_flags d' = d_T_flags d /\ d_rho4_flags d' = d_rho4_flags d /\
  d_flux d' = d_flux d /\ d_flux_mean d' = d_flux_mean d /\ d_flux_err d' = d_flux_err d /\ d_s2n d' = d_s2n d /\ d_T d' = d_T d /\ d_T_err d' = d_T_err d /\
  d_rho4 d' = d_rho4 d /\ d_rho4_err d' = d_rho4_err d /\ d_e1err d' = d_e1err d /\ d_e2err d' = d_e2err d /\
  shape_follows t (d_e1 d) (d_e2 d) (d_e1 d') (d_e2 d') /\ sums_moved t a b (d_ws d) (d_ws d') /\ pars_follow t a b (d_pars d) (d_pars d').
(** the weight after [n] iterations, if the loop has not stopped before *)
Fixpoint after (c : am_conf) (row col : R) (px : list (pixel R)) (n : nat) (s : am_state) : option gmix :=
  match n with
  | O => Some (as_wt s)
  | S n => match am_iter c row col px s with (s', Ok false) => after c row col px n s' | _ => None end
  end.
Definition weight_after (c : am_conf) (px : list (pixel R)) (n : nat) (w : gmix) : option gmix :=
  match w with [] => None | g :: _ => after c (g_row g) (g_col g) px n (mkAs w am_rec0 None) end.
