(** The same sky in other coordinates: all lengths times [a] (of any sign), and the second axis mirrored
    when [f] is -1. *)
From Coq Require Import String.
From Verif Require Import Base XReal Flags_Model Pixels_Model Jacobian_Model GMix_Model WSums_Model MomResult_Model GaussMom_Model Admom_Model Units_Spec.
Local Open Scope R_scope.

Definition jac_coords (a f : R) (j j' : jac) : Prop :=
  row0 j' = row0 j /\ col0 j' = col0 j /\ dvdrow j' = a * dvdrow j /\ dvdcol j' = a * dvdcol j /\
  dudrow j' = f * a * dudrow j /\ dudcol j' = f * a * dudcol j /\ jdet j' = f * a ^ 2 * jdet j /\ jscale j' = Rabs a * jscale j.
Definition pix_coords (a f : R) (px px' : list (pixel R)) : Prop :=
  Forall2 (fun p p' => px_v p' = a * px_v p /\ px_u p' = f * a * px_u p /\ px_area p' = a ^ 2 * px_area p /\
                       px_val p' = px_val p /\ px_ierr p' = px_ierr p) px px'.
(** moment functions are homogeneous: the factor of each *)
Definition degree (i : nat) : nat := nth i [1; 1; 2; 2; 2; 0; 3; 3; 3; 3; 4; 4; 4; 4; 4; 6; 8]%nat 0%nat.
(** those that change sign with the second axis: u, 2uv, u r^2, ... *)
Definition odd_u (i : nat) : bool := existsb (Nat.eqb i) [1; 3; 6; 8; 12; 14]%nat.
Definition factor (a f : R) (i : nat) : R := (if odd_u i then f else 1) * a ^ degree i.

(** pars: two centroid sums, e1, e2, T and the flux *)
Definition coords_pars (c a f : R) (p p' : option (list xr)) : Prop :=
  match p, p' with
  | Some [v; u; e1; e2; T; F], Some p' => p' = [times (a ^ 2 * a) v; times (a ^ 2 * (f * a)) u; e1; times f e2; times (a ^ 2) T; times c F]
  | None, None => True
  | _, _ => False
  end.
(** a moments result in the new coordinates.  The sums are weighted with the area of the pixel in the units of the
    coordinates; [c] is what is left of that in the sums and in the flux.  It is never taken out of the centroid
    entries of pars and of the flux in the list of named moments. *)
Definition coords_moments (c a f : R) (r r' : momres) : Prop :=
  m_flags r' = m_flags r /\ m_flux_flags r' = m_flux_flags r /\ m_T_flags r' = m_T_flags r /\
  m_T r' = times (a ^ 2) (m_T r) /\ m_T_err r' = times (a ^ 2) (m_T_err r) /\ m_s2n r' = m_s2n r /\
  m_e1 r' = m_e1 r /\ m_e2 r' = times f (m_e2 r) /\ m_e_err r' = m_e_err r /\
  m_flux r' = times c (m_flux r) /\ m_flux_err r' = times c (m_flux_err r) /\
  List.length (m_sums r') = List.length (m_sums r) /\ m_sums_norm r' = times c (m_sums_norm r) /\ sm_n (m_cov r') = sm_n (m_cov r) /\
  (forall i, nth i (m_sums r') NaN = times (c * factor a f i) (nth i (m_sums r) NaN)) /\
  (forall i j, (i < sm_n (m_cov r))%nat -> (j < sm_n (m_cov r))%nat ->
     sm_at (m_cov r') i j = times ((c * factor a f i) * (c * factor a f j)) (sm_at (m_cov r) i j)) /\
  (forall i, nth i (m_sums_err r') NaN = times (c * Rabs (factor a f i)) (nth i (m_sums_err r) NaN)) /\
  coords_pars c a f (m_pars r) (m_pars r') /\
  Forall2 (fun x x' => exists i, In (fst x, i) MOMENTS_NAME_MAP /\ fst x' = fst x /\
     let l := if Nat.eqb i 5 then a ^ 2 else factor a f i in
     snd x' = (times l (fst (snd x)), times (Rabs l) (snd (snd x)))) (m_named r) (m_named r').
Definition coords_gaussmom (c a f : R) (q q' : gres) : Prop :=
  q_npix q' = q_npix q /\ q_wsum q' = times c (q_wsum q) /\ coords_moments c a f (q_mom q) (q_mom q').

(** mixtures *)
Definition gauss_coords (a f : R) (g g' : gauss) : Prop :=
  g_p g' = g_p g /\ g_row g' = a * g_row g /\ g_col g' = f * a * g_col g /\
  g_irr g' = a ^ 2 * g_irr g /\ g_irc g' = f * a ^ 2 * g_irc g /\ g_icc g' = a ^ 2 * g_icc g /\ g_det g' = a ^ 4 * g_det g.
(** sums of adaptive moments: v, u, u^2-v^2, 2uv, u^2+v^2, 1 and the square of the distance in units of the weight *)
Definition am_factor (a f : R) (i : nat) : R := nth i [a; f * a; a ^ 2; f * a ^ 2; a ^ 2; 1; 1] 0.
Definition coords_sums (a f : R) (s s' : wsums) : Prop :=
  ws_npix s' = ws_npix s /\ ws_wsum s' = ws_wsum s /\
  (forall i, (i < 7)%nat -> ws_sums s' i = am_factor a f i * ws_sums s i) /\
  (forall i j, (i < 7)%nat -> (j < 7)%nat -> ws_cov s' i j = am_factor a f i * am_factor a f j * ws_cov s i j).
Definition coords_adaptive (a f : R) (d d' : am_dict) : Prop :=
  d_flags d' = d_flags d /\ d_numiter d' = d_numiter d /\
  d_flux_flags d' = d_flux_flags d /\ d_T_flags d' = d_T_flags d /\ d_rho4_flags d' = d_rho4_flags d /\
  d_flux d' = d_flux d /\ d_flux_err d' = d_flux_err d /\ d_flux_mean d' = d_flux_mean d /\ d_s2n d' = d_s2n d /\
  d_T d' = times (a ^ 2) (d_T d) /\ d_T_err d' = times (a ^ 2) (d_T_err d) /\ d_rho4 d' = d_rho4 d /\ d_rho4_err d' = d_rho4_err d /\
  d_e1 d' = d_e1 d /\ d_e2 d' = times f (d_e2 d) /\ d_e1err d' = d_e1err d /\ d_e2err d' = d_e2err d /\
  coords_sums a f (d_ws d) (d_ws d') /\
  List.length (d_pars d') = List.length (d_pars d) /\ (forall i, nth i (d_pars d') NaN = times (am_factor a f i) (nth i (d_pars d) NaN)).
(** the settings: shiftmax is a length *)
Definition coords_conf (a : R) (c : am_conf) : am_conf := mkAc (ac_maxiter c) (Rabs a * ac_shiftmax c) (ac_etol c) (ac_Ttol c) (ac_cenonly c).
(** a determinant is below the fixed limit of 1e-200 *)
Definition too_small (d : am_dict) : Prop := Z.land (d_flags d) (Z.lor LOW_DET GMIX_RANGE_ERROR) <> 0%Z.
(** all iterations were used *)
Definition exhausted (d : am_dict) : Prop := Z.land (d_flags d) MAXITER <> 0%Z.
