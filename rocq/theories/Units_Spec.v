(** The same data in other units of brightness. *)
From Coq Require Import String.
From Verif Require Import Base XReal Pixels_Model Jacobian_Model WSums_Model MomResult_Model GMixObj_Model GaussMom_Model Admom_Model PrePSF_Model.
Local Open Scope R_scope.

Definition times (k : R) (x : xr) : xr := xmul (Fin k) x.
(** both raise the same exception, or both return, related results *)
Definition same_outcome {A B} (P : A -> B -> Prop) (r : res A) (r' : res B) : Prop :=
  match r, r' with Ok a, Ok b => P a b | Raise e, Raise e' => e = e' | _, _ => False end.

(** the same, for functions that also change objects *)
Definition same_run {A B} (P : A -> B -> Prop) (x : option (heap * res A)) (x' : option (heap * res B)) : Prop :=
  match x, x' with Some (h, r), Some (h', r') => h' = h /\ same_outcome P r r' | None, None => True | _, _ => False end.

(** pixel values times [k], errors times [k], in the same places *)
Definition other_units (k : R) (px px' : list (pixel R)) : Prop :=
  Forall2 (fun p p' => px_v p' = px_v p /\ px_u p' = px_u p /\ px_area p' = px_area p /\
                       px_val p' = k * px_val p /\ px_ierr p' = px_ierr p / k) px px'.

(** pars: two centroid sums, e1, e2, T and the flux *)
Definition pars_in_units (k : R) (p : list xr) : list xr :=
  match p with [v; u; e1; e2; T; F] => [times k v; times k u; e1; e2; T; times k F] | _ => p end.
(** a moments result in the new units: sizes, shapes, flags and signal to noise are as before, and
    the fluxes and sums, with their errors, are times [k].  [low] is the first moment with a variance:
    the pre-psf moments have no centroids, and store NaN with a variance of 1 for the first two. *)
Definition same_moments (low : nat) (k : R) (r r' : momres) : Prop :=
  m_flags r' = m_flags r /\ m_flux_flags r' = m_flux_flags r /\ m_T_flags r' = m_T_flags r /\
  m_T r' = m_T r /\ m_T_err r' = m_T_err r /\ m_s2n r' = m_s2n r /\
  m_e1 r' = m_e1 r /\ m_e2 r' = m_e2 r /\ m_e_err r' = m_e_err r /\
  m_flux r' = times k (m_flux r) /\ m_flux_err r' = times k (m_flux_err r) /\
  m_sums r' = map (times k) (m_sums r) /\ m_sums_norm r' = m_sums_norm r /\ sm_n (m_cov r') = sm_n (m_cov r) /\
  (forall i j, (low <= i < sm_n (m_cov r))%nat -> (low <= j < sm_n (m_cov r))%nat ->
     sm_at (m_cov r') i j = times (k ^ 2) (sm_at (m_cov r) i j)) /\
  (forall i, (low <= i)%nat -> nth i (m_sums_err r') NaN = times k (nth i (m_sums_err r) NaN)) /\
  m_pars r' = option_map (pars_in_units k) (m_pars r) /\
  m_named r' = map (fun ne => if String.eqb (fst ne) "MF" || String.eqb (fst ne) "M00"
                              then (fst ne, (times k (fst (snd ne)), times k (snd (snd ne)))) else ne) (m_named r).

Definition same_gaussmom (k : R) (q q' : gres) : Prop :=
  q_npix q' = q_npix q /\ q_wsum q' = q_wsum q /\ same_moments 0 k (q_mom q) (q_mom q').

(** the first [n] sums times [k], with their covariance *)
Definition same_sums (n : nat) (k : R) (s s' : wsums) : Prop :=
  ws_npix s' = ws_npix s /\ ws_wsum s' = ws_wsum s /\
  (forall i, (i < n)%nat -> ws_sums s' i = k * ws_sums s i) /\
  (forall i j, (i < n)%nat -> (j < n)%nat -> ws_cov s' i j = k ^ 2 * ws_cov s i j).
(** adaptive moments in the new units; pars[5] holds the mean flux only when the flags are zero *)
Definition same_adaptive (k : R) (d d' : am_dict) : Prop :=
  d_flags d' = d_flags d /\ d_numiter d' = d_numiter d /\
  d_flux_flags d' = d_flux_flags d /\ d_T_flags d' = d_T_flags d /\ d_rho4_flags d' = d_rho4_flags d /\
  d_s2n d' = d_s2n d /\ d_T d' = d_T d /\ d_T_err d' = d_T_err d /\ d_rho4 d' = d_rho4 d /\ d_rho4_err d' = d_rho4_err d /\
  d_e1 d' = d_e1 d /\ d_e2 d' = d_e2 d /\ d_e1err d' = d_e1err d /\ d_e2err d' = d_e2err d /\
  d_flux d' = times k (d_flux d) /\ d_flux_err d' = times k (d_flux_err d) /\ d_flux_mean d' = times k (d_flux_mean d) /\
  same_sums 7 k (d_ws d) (d_ws d') /\
  firstn 5 (d_pars d') = firstn 5 (d_pars d) /\ List.length (d_pars d') = List.length (d_pars d) /\
  (d_flags d = 0%Z -> nth 5 (d_pars d') NaN = times k (nth 5 (d_pars d) NaN)).

(** an image times [k]; an observation in the new units: the image times [k] and the weights divided
    by [k] squared.  The psf image is as it was. *)
Definition image_times (k : R) (a a' : arr2 R) : Prop :=
  nrow a' = nrow a /\ ncol a' = ncol a /\ forall r c, (r < nrow a)%nat -> (c < ncol a)%nat -> at2 a' r c = k * at2 a r c.
Definition ppobs_other_units (k : R) (o o' : ppobs) : Prop :=
  image_times k (pp_im o) (pp_im o') /\ image_times (/ k ^ 2) (pp_wt o) (pp_wt o') /\ pp_jac o' = pp_jac o /\ pp_psf o' = pp_psf o.
