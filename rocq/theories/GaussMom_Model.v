(** Model of ngmix/gaussmom.py, and of get_weighted_moments_stats, ngmix/gmix/gmix.py:1262-1278. *)
From Verif Require Import Base XReal Moments_Model Jacobian_Model Pixels_Model GMix_Model WSums_Model Flags_Model MomResult_Model.
Local Open Scope R_scope.

(** what go() is called with: an observation, with its pixels and jacobian, or one of the lists
    of observations, which have no attribute [pixels] *)
Inductive ginput := GObs (pixels : list (pixel R)) (j : jac) | GObsList | GMultiBandObsList.

(** ngmix/gaussmom.py:75-96 _set_mompars.  The flux of the new mixture is 1, so that set_flux
    does not divide by zero. *)
Definition set_mompars (fwhm : R) : res gmix :=
  let T := fwhm_to_T fwhm in
  let* weight := gmix_fill_gauss 1 [0; 0; 0; 0; T; 1] in
  let (weight, r) := gmix_set_norms weight in
  let* _ := r in
  match weight with
  | [] => Raise IndexError
  | g :: _ =>
      match g_nrm g with
      | None => Raise OtherError
      | Some n => match gm_set_flux weight (1 / n_norm n) with Some w => Ok w | None => Raise OtherError end
      end
  end.

(** the result: the entries of the moments result, with npix and wsum of the array of sums.
    pars is [None] where the array keeps its zeros. *)
Record gres := mkGres { q_npix : nat; q_wsum : xr; q_mom : momres }.

(** ngmix/gmix/gmix.py:1262-1278 get_weighted_moments_stats *)
Definition get_weighted_moments_stats (higher : bool) (s : wsums) : res gres :=
  let n := if higher then 17%nat else 6%nat in
  let* m := make_mom_result (map (fun i => Fin (ws_sums s i)) (seq 0 n)) (mkSmat n (fun i j => Fin (ws_cov s i j))) (Some (Fin (ws_wsum s))) in
  Ok (mkGres (ws_npix s) (Fin (ws_wsum s)) m).

(** pars[5] *= fac *)
Definition scale_par5 (fac : xr) (p : list xr) : list xr := map (fun ix => if Nat.eqb (fst ix) 5 then xmul (snd ix) fac else snd ix) (combine (seq 0 (length p)) p).
(** ngmix/gaussmom.py:62-72: taking out the pixel area *)
Definition scale_result (fac : xr) (q : gres) : gres :=
  let r := q_mom q in
  mkGres (q_npix q) (xmul (q_wsum q) fac)
    (mkMom (m_flags r) (xmul (m_flux r) fac) (map (fun x => xmul x fac) (m_sums r))
       (mkSmat (sm_n (m_cov r)) (fun i j => xmul (sm_at (m_cov r) i j) (xmul fac fac)))
       (xmul (m_sums_norm r) fac) (m_flux_flags r) (m_T_flags r) (xmul (m_flux_err r) fac) (m_T r) (m_T_err r) (m_s2n r)
       (m_e1 r) (m_e2 r) (m_e_err r) (map (fun x => xmul x fac) (m_sums_err r))
       (match m_pars r with Some p => Some (scale_par5 fac p) | None => None end) (m_named r)).

(** ngmix/gaussmom.py:28-73 go and _measure_moments; [weight] is changed in place by
    set_norms_if_needed, which does not change its values (C20) *)
Definition measure_moments (weight : gmix) (higher : bool) (obs : ginput) : res gres :=
  match obs with
  | GObsList | GMultiBandObsList =>
      let (_, r) := set_norms_if_needed weight in
      let* _ := r in
      Raise AttributeError
  | GObs pixels j =>
      let* s := snd (get_weighted_sums weight pixels None higher None) in
      let* q := get_weighted_moments_stats higher s in
      if negb (Z.eqb (m_flags (q_mom q)) 0) then Ok q else
      Ok (scale_result (xdiv (Fin 1) (Fin (get_area j))) q)
  end.

(** GaussMom(fwhm, with_higher_order).go(obs), ngmix/gaussmom.py:23-47 *)
Definition gaussmom (fwhm : R) (higher : bool) (obs : ginput) : res gres :=
  let* weight := set_mompars fwhm in
  measure_moments weight higher obs.
