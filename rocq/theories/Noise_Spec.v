(** The same image with another level of noise: every error is [k] times as large, that is, the
    weight map is divided by [k] squared. *)
From Coq Require Import String.
From Verif Require Import Base XReal Pixels_Model Jacobian_Model WSums_Model MomResult_Model GaussMom_Model Admom_Model PrePSF_Model GMix_Model GMixObj_Model EM_Model Fit_Model Units_Spec.
Local Open Scope R_scope.

(** the same pixels with errors times [k] *)
Definition noisier (k : R) (px px' : list (pixel R)) : Prop :=
  Forall2 (fun p p' => px_v p' = px_v p /\ px_u p' = px_u p /\ px_area p' = px_area p /\
                       px_val p' = px_val p /\ px_ierr p' = px_ierr p / k) px px'.

(** a moments result with errors times [k]: flags and values are as before, and the signal to noise
    is divided by [k]; [low] as in Units_Spec.v *)
Definition errors_times (low : nat) (k : R) (r r' : momres) : Prop :=
  m_flags r' = m_flags r /\ m_flux_flags r' = m_flux_flags r /\ m_T_flags r' = m_T_flags r /\
  m_flux r' = m_flux r /\ m_T r' = m_T r /\ m_e1 r' = m_e1 r /\ m_e2 r' = m_e2 r /\
  m_sums r' = m_sums r /\ m_sums_norm r' = m_sums_norm r /\ m_pars r' = m_pars r /\
  m_flux_err r' = times k (m_flux_err r) /\ m_T_err r' = times k (m_T_err r) /\
  m_s2n r' = times (/ k) (m_s2n r) /\
  m_e_err r' = (times k (fst (m_e_err r)), times k (snd (m_e_err r))) /\
  sm_n (m_cov r') = sm_n (m_cov r) /\
  (forall i j, (low <= i < sm_n (m_cov r))%nat -> (low <= j < sm_n (m_cov r))%nat ->
     sm_at (m_cov r') i j = times (k ^ 2) (sm_at (m_cov r) i j)) /\
  (forall i, (low <= i)%nat -> nth i (m_sums_err r') NaN = times k (nth i (m_sums_err r) NaN)) /\
  m_named r' = map (fun ne => (fst ne, (fst (snd ne), times k (snd (snd ne))))) (m_named r).

Definition gaussmom_errors_times (k : R) (q q' : gres) : Prop :=
  q_npix q' = q_npix q /\ q_wsum q' = q_wsum q /\ errors_times 0 k (q_mom q) (q_mom q').

(** the same sums, and [k] squared times the covariance *)
Definition cov_times (n : nat) (k : R) (s s' : wsums) : Prop :=
  ws_npix s' = ws_npix s /\ ws_wsum s' = ws_wsum s /\
  (forall i, (i < n)%nat -> ws_sums s' i = ws_sums s i) /\
  (forall i j, (i < n)%nat -> (j < n)%nat -> ws_cov s' i j = k ^ 2 * ws_cov s i j).
(** adaptive moments with errors times [k] *)
Definition adaptive_errors_times (k : R) (d d' : am_dict) : Prop :=
  d_flags d' = d_flags d /\ d_numiter d' = d_numiter d /\
  d_flux_flags d' = d_flux_flags d /\ d_T_flags d' = d_T_flags d /\ d_rho4_flags d' = d_rho4_flags d /\
  d_flux d' = d_flux d /\ d_flux_mean d' = d_flux_mean d /\ d_T d' = d_T d /\ d_rho4 d' = d_rho4 d /\
  d_e1 d' = d_e1 d /\ d_e2 d' = d_e2 d /\ d_pars d' = d_pars d /\
  d_s2n d' = times (/ k) (d_s2n d) /\ d_flux_err d' = times k (d_flux_err d) /\ d_T_err d' = times k (d_T_err d) /\
  d_rho4_err d' = times k (d_rho4_err d) /\ d_e1err d' = times k (d_e1err d) /\ d_e2err d' = times k (d_e2err d) /\
  cov_times 7 k (d_ws d) (d_ws d').

(** an observation for pre-psf moments with the weights divided by [k] squared *)
Definition ppobs_noisier (k : R) (o o' : ppobs) : Prop :=
  pp_im o' = pp_im o /\ image_times (/ k ^ 2) (pp_wt o) (pp_wt o') /\ pp_jac o' = pp_jac o /\ pp_psf o' = pp_psf o.

(** ** fits *)
(** an observation for a fit with other errors *)
Definition fobs_noisier (k : R) (o o' : fobs) : Prop :=
  match fo_pixels o, fo_pixels o' with Some l, Some l' => noisier k l l' | None, None => True | _, _ => False end /\
  fo_psf o' = fo_psf o.
(** log likelihood, and the sums for the signal to noise *)
Definition loglike_noisier (k : R) (x x' : R * R * R * nat) : Prop :=
  let '(l, n, d, c) := x in let '(l', n', d', c') := x' in l' = l / k ^ 2 /\ n' = n / k ^ 2 /\ d' = d / k ^ 2 /\ c' = c.
(** the log probability: the likelihood changes and the log prior [lp] does not; or the parameters
    are not allowed in both cases *)
Definition lnprob_noisier (k : R) (lp : res xr) (l l' : lnres) : Prop :=
  l_npix l' = l_npix l /\ l_numer l' = l_numer l / k ^ 2 /\
  ((l' = l /\ l_lnprob l = NInf /\ l_numer l = 0) \/
   (l_denom l' = l_denom l / k ^ 2 /\ exists p L, lp = Ok p /\ l_lnprob l = xadd (Fin L) p /\ l_lnprob l' = xadd (Fin (L / k ^ 2)) p)).
(** the residuals: the first [n], of the prior, as before, and the others divided by [k] *)
Definition residuals_noisier (n : nat) (k : R) (fd fd' : list xr) : Prop :=
  length fd' = length fd /\
  (forall i, (i < n)%nat -> nth_error fd' i = nth_error fd i) /\
  (forall i, (n <= i)%nat -> nth_error fd' i = option_map (times (/ k)) (nth_error fd i)).
(** the result, for the same parameters and covariance *)
Definition result_noisier (k : R) (r r' : fitres) : Prop :=
  r_s2n r' = r_s2n r / k /\ r_dof r' = r_dof r /\ r_g r' = r_g r /\ r_g_cov r' = r_g_cov r /\ r_g_err r' = r_g_err r /\
  r_T r' = r_T r /\ r_T_err r' = r_T_err r /\ r_flux r' = r_flux r.

(** EM does not use the errors, only their signs *)
Definition em_same_mixture (k : R) (o o' : em_out) : Prop :=
  EM_Model.o_gm o' = EM_Model.o_gm o /\ o_conv o' = o_conv o /\ noisier k (o_pix o) (o_pix o') /\ o_numiter o' = o_numiter o /\ o_fdiff o' = o_fdiff o /\ o_sky o' = o_sky o.
