(** Model of the caches of ngmix/prepsfmom.py: arrays are objects in a heap, the lru caches hold
    references to them, deconvolution works in place, and callers may write into the arrays that
    return_kernels hands out.

    The mask of a kernel dict is kept as a value: it is read only and never handed out.  Keys are
    compared as python compares tuples of floats; an image without rows becomes a one dimensional
    array in the cached version, which is left out (None). *)
From Verif Require Import Base XReal Moments_Model Jacobian_Model Pixels_Model MomResult_Model PrePSF_Model.
Local Open Scope R_scope.

(** ** Heap *)
Inductive obj := OGrid (a : arr2 cplx) | OVec (l : list cplx) | OReal (l : list R).
Definition heap := list obj.
Definition loc := nat.
Definition alloc (h : heap) (x : obj) : heap * loc := (h ++ [x], length h).
Fixpoint write (h : heap) (l : loc) (x : obj) : heap :=
  match h, l with [], _ => [] | _ :: h, O => x :: h | y :: h, S l => y :: write h l x end.
Definition grid_at (h : heap) (l : loc) : option (arr2 cplx) := match nth_error h l with Some (OGrid a) => Some a | _ => None end.
Definition vec_at (h : heap) (l : loc) : option (list cplx) := match nth_error h l with Some (OVec a) => Some a | _ => None end.
Definition real_at (h : heap) (l : loc) : option (list R) := match nth_error h l with Some (OReal a) => Some a | _ => None end.

(** ** functools.lru_cache(maxsize=128): entries, the most recently used first *)
Definition MAXSIZE : nat := 128.
Section Lru.
  Context {K V : Type}.
  Variable eqb : K -> K -> bool.
  Fixpoint lru_find (k : K) (c : list (K * V)) : option (V * list (K * V)) :=
    match c with
    | [] => None
    | (k', v) :: c => if eqb k k' then Some (v, c) else match lru_find k c with Some (v', c') => Some (v', (k', v) :: c') | None => None end
    end.
  (** a hit moves the entry to the front *)
  Definition lru_get (k : K) (c : list (K * V)) : option (V * list (K * V)) :=
    match lru_find k c with Some (v, c) => Some (v, (k, v) :: c) | None => None end.
  (** after a miss; the oldest entry is dropped *)
  Definition lru_put (k : K) (v : V) (c : list (K * V)) : list (K * V) := firstn MAXSIZE ((k, v) :: c).
End Lru.

(** ** State of the module *)
Definition fkey := (arr2 R * R * R * Z * R)%type.
Definition kkey := (nat * R * wcs2 * R)%type.
Record kdict := mkKd { kd_msk : list (nat * nat); kd_f : loc; kd_r : loc; kd_p : loc; kd_c : loc; kd_nrm : R; kd_00 : R }.
Record st := mkSt {
  s_heap : heap;
  s_use_fft : bool; s_use_kern : bool;             (* USE_FFT_CACHE, USE_KERNEL_CACHE *)
  s_fft : list (fkey * (loc * R * R)); s_pix : list (nat * loc);
  s_ks : list (kkey * kdict); s_ga : list (kkey * kdict);
  s_given : list loc }.                            (* arrays that callers hold *)
Definition set_heap s h := mkSt h (s_use_fft s) (s_use_kern s) (s_fft s) (s_pix s) (s_ks s) (s_ga s) (s_given s).
Definition set_fft s c := mkSt (s_heap s) (s_use_fft s) (s_use_kern s) c (s_pix s) (s_ks s) (s_ga s) (s_given s).
Definition set_pix s c := mkSt (s_heap s) (s_use_fft s) (s_use_kern s) (s_fft s) c (s_ks s) (s_ga s) (s_given s).
Definition set_ks s c := mkSt (s_heap s) (s_use_fft s) (s_use_kern s) (s_fft s) (s_pix s) c (s_ga s) (s_given s).
Definition set_ga s c := mkSt (s_heap s) (s_use_fft s) (s_use_kern s) (s_fft s) (s_pix s) (s_ks s) c (s_given s).
(** module import, ngmix/prepsfmom.py:16-17 *)
Definition init : st := mkSt [] false false [] [] [] [] [].
(** ngmix/prepsfmom.py:20-40 *)
Definition turn_on_fft s := mkSt (s_heap s) true (s_use_kern s) (s_fft s) (s_pix s) (s_ks s) (s_ga s) (s_given s).
Definition turn_off_fft s := mkSt (s_heap s) false (s_use_kern s) [] (s_pix s) (s_ks s) (s_ga s) (s_given s).
Definition turn_on_kern s := mkSt (s_heap s) (s_use_fft s) true (s_fft s) (s_pix s) (s_ks s) (s_ga s) (s_given s).
Definition turn_off_kern s := mkSt (s_heap s) (s_use_fft s) false (s_fft s) (s_pix s) [] [] (s_given s).

(** ** Keys *)
(** equality of tuple(tuple(ii) for ii in im) *)
Definition im_eqb (a b : arr2 R) : bool :=
  Nat.eqb (nrow a) (nrow b) && (Nat.eqb (ncol a) (ncol b) &&
  forallb (fun r => forallb (fun c => Reqb (at2 a r c) (at2 b r c)) (seq 0 (ncol a))) (seq 0 (nrow a))).
Definition fkey_eqb (x y : fkey) : bool :=
  let '(i, r, c, t, a) := x in let '(i', r', c', t', a') := y in
  im_eqb i i' && (Reqb r r' && (Reqb c c' && (Z.eqb t t' && Reqb a a'))).
Definition w2_eqb (a b : wcs2) : bool :=
  Reqb (a_vrow a) (a_vrow b) && (Reqb (a_vcol a) (a_vcol b) && (Reqb (a_urow a) (a_urow b) && Reqb (a_ucol a) (a_ucol b))).
Definition kkey_eqb (x y : kkey) : bool :=
  let '(d, s, w, f) := x in let '(d', s', w', f') := y in
  Nat.eqb d d' && (Reqb s s' && (w2_eqb w w' && Reqb f f')).

(** ** The functions *)
Definition run_fft (s : st) (im : arr2 R) (cr cc : R) (t : Z) (ap : R) : res (loc * R * R) * st :=
  match pad_fft im cr cc t ap with
  | Raise e => (Raise e, s)
  | Ok (k, r, c) => let '(h, l) := alloc (s_heap s) (OGrid k) in (Ok (l, r, c), set_heap s h)
  end.
(** ngmix/prepsfmom.py:499-519 _zero_pad_and_compute_fft_maybe_cached and _cached_impl *)
Definition maybe_fft (s : st) (im : arr2 R) (cr cc : R) (t : Z) (ap : R) : option (res (loc * R * R) * st) :=
  if s_use_fft s then
    if Nat.eqb (nrow im) 0 then None else
    match lru_get fkey_eqb (im, cr, cc, t, ap) (s_fft s) with
    | Some (v, c) => Some (Ok v, set_fft s c)
    | None => match run_fft s im cr cc t ap with
              | (Ok v, s) => Some (Ok v, set_fft s (lru_put (im, cr, cc, t, ap) v (s_fft s)))
              | (Raise e, s) => Some (Raise e, s)
              end
    end
  else Some (run_fft s im cr cc t ap).
(** ngmix/prepsfmom.py:488-496 _pixel_fft, always cached *)
Definition pixel (s : st) (dim : nat) : loc * st :=
  match lru_get Nat.eqb dim (s_pix s) with
  | Some (l, c) => (l, set_pix s c)
  | None => let '(h, l) := alloc (s_heap s) (OGrid (pixel_fft dim)) in (l, set_pix (set_heap s h) (lru_put dim l (s_pix s)))
  end.
(** the dict built by the _impl functions *)
Definition new_kernels (s : st) (r : res kernels) : res kdict * st :=
  match r with
  | Raise e => (Raise e, s)
  | Ok K =>
      let '(h, f) := alloc (s_heap s) (OReal (k_f K)) in
      let '(h, r) := alloc h (OReal (k_r K)) in
      let '(h, p) := alloc h (OReal (k_p K)) in
      let '(h, c) := alloc h (OReal (k_c K)) in
      (Ok (mkKd (k_msk K) f r p c (k_nrm K) (k_00 K)), set_heap s h)
  end.
(** ngmix/prepsfmom.py:557-591 _ksigma_kernels, _ksigma_kernels_cached; 710-744 _gauss_kernels, _gauss_kernels_cached *)
Definition get_kernels (s : st) (f : fitter) (dim : nat) (j : wcs2) : res kdict * st :=
  let key := (dim, ft_fwhm f, j, ft_smooth f) in
  if s_use_kern s then
    match ft_kind f with
    | KSigma =>
        match lru_get kkey_eqb key (s_ks s) with
        | Some (v, c) => (Ok v, set_ks s c)
        | None => match new_kernels s (ksigma_kernels dim (ft_fwhm f) j (ft_smooth f)) with
                  | (Ok v, s) => (Ok v, set_ks s (lru_put key v (s_ks s)))
                  | (Raise e, s) => (Raise e, s) end
        end
    | PGauss =>
        match lru_get kkey_eqb key (s_ga s) with
        | Some (v, c) => (Ok v, set_ga s c)
        | None => match new_kernels s (gauss_kernels dim (ft_fwhm f) j (ft_smooth f)) with
                  | (Ok v, s) => (Ok v, set_ga s (lru_put key v (s_ga s)))
                  | (Raise e, s) => (Raise e, s) end
        end
    end
  else new_kernels s (make_kernels f dim j).
(** ngmix/prepsfmom.py:528-545 _deconvolve_im_psf_inplace: kpsf_im, then kim, are overwritten *)
Definition deconvolve_inplace (h : heap) (kim kpsf : loc) (max_amp : R) : option heap :=
  match vec_at h kim, vec_at h kpsf with
  | Some k, Some p =>
      let h := write h kpsf (OVec (map (trunc_mode (MIN_PSF_FRAC * max_amp)) p)) in
      match vec_at h kim, vec_at h kpsf with
      | Some k, Some p => match cdivs k p with Some k => Some (write h kim (OVec k)) | None => None end
      | _, _ => None
      end
  | _, _ => None
  end.
(** kim *= cen_phase *)
Definition phase_inplace (h : heap) (kim : loc) (msk : list (nat * nat)) (drow dcol : R) (dim : nat) : option heap :=
  match vec_at h kim with
  | Some k => Some (write h kim (OVec (map (fun x => cmul (fst x) (cen_phase drow dcol dim (snd x))) (combine k msk))))
  | None => None
  end.
(** the kernels as the numba function sees them *)
Definition kernels_at (h : heap) (d : kdict) : option kernels :=
  match real_at h (kd_f d), real_at h (kd_r d), real_at h (kd_p d), real_at h (kd_c d) with
  | Some f, Some r, Some p, Some c => Some (mkKern (kd_msk d) f r p c (kd_nrm d) (kd_00 d))
  | _, _, _, _ => None
  end.
(** ngmix/prepsfmom.py:283-315 _measure_moments_fft: indexing with the mask makes new arrays *)
Definition measure_h (h : heap) (kim kpsf : loc) (tot_var eff_pad : R) (d : kdict) (drow dcol : R) : option (res (list xr * smat * R)) * heap :=
  match grid_at h kim, grid_at h kpsf with
  | Some gk, Some gp =>
      let dim := nrow gk in
      match select dim (kd_msk d) gk, select dim (kd_msk d) gp with
      | Raise e, _ | _, Raise e => (Some (Raise e), h)
      | Ok kl, Ok pl =>
          let '(h, kl) := alloc h (OVec kl) in
          let '(h, pl) := alloc h (OVec pl) in
          match deconvolve_inplace h kl pl (cabs (at2 gp 0 0)) with
          | None => (None, h)
          | Some h =>
              match (if Reqb drow 0 && Reqb dcol 0 then Some h else phase_inplace h kl (kd_msk d) drow dcol dim) with
              | None => (None, h)
              | Some h =>
                  match vec_at h kl, vec_at h pl, kernels_at h d with
                  | Some k, Some p, Some K =>
                      match measure_numba k p dim eff_pad K tot_var with None => (None, h) | Some r => (Some (Ok r), h) end
                  | _, _, _ => (None, h)
                  end
              end
          end
      end
  | _, _ => (None, h)
  end.
(** full_kernels[k] = zeros; full_kernels[k][msk] = kernels[k] *)
Definition scatter (dim : nat) (msk : list (nat * nat)) (v : list R) : arr2 cplx :=
  mkArr dim dim (fun r c => match find (fun x => Nat.eqb (fst (fst x)) r && Nat.eqb (snd (fst x)) c) (combine msk v) with Some x => mkC (snd x) 0 | None => mkC 0 0 end).
(** ngmix/prepsfmom.py:198-209 return_kernels; the scalar fk00 fills its array *)
Definition full_kernels (dim : nat) (K : kernels) : list (arr2 cplx) :=
  [scatter dim (k_msk K) (k_f K); scatter dim (k_msk K) (k_r K); scatter dim (k_msk K) (k_p K); scatter dim (k_msk K) (k_c K); scatter dim (k_msk K) (map (fun _ => k_00 K) (k_msk K))].
Definition give (s : st) (gs : list (arr2 cplx)) : st :=
  mkSt (s_heap s ++ map OGrid gs) (s_use_fft s) (s_use_kern s) (s_fft s) (s_pix s) (s_ks s) (s_ga s) (s_given s ++ seq (length (s_heap s)) (length gs)).
(** what a call returns: the result, and the arrays and norm of res["kernels"] *)
Definition answer := (momres * option (list (arr2 cplx) * R))%type.
(** ngmix/prepsfmom.py:109-211 _meas *)
Definition meas_h (s : st) (f : fitter) (o : ppobs) (psf : option (arr2 R * jac)) (rk : bool) : option (res answer) * st :=
  let target := target_of f o psf in
  if Nat.eqb (nrow (pp_im o)) 0 then (Some (Raise ZeroDivisionError), s) else
  let eff_pad := IZR target / INR (nrow (pp_im o)) in
  match maybe_fft s (pp_im o) (row0 (pp_jac o)) (col0 (pp_jac o)) target (ft_ap f) with
  | None => (None, s)
  | Some (Raise e, s) => (Some (Raise e), s)
  | Some (Ok (kim, im_row, im_col), s) =>
      match grid_at (s_heap s) kim with
      | None => (None, s)
      | Some gk =>
          let fft_dim := nrow gk in
          match match psf with
                | Some (pim, pj) => maybe_fft s pim (row0 pj) (col0 pj) target 0
                | None => let '(l, s) := pixel s fft_dim in Some (Ok (l, 0, 0), s) end with
          | None => (None, s)
          | Some (Raise e, s) => (Some (Raise e), s)
          | Some (Ok (kpsf, psf_row, psf_col), s) =>
              match get_kernels s f (Z.to_nat target) (wcs_of (pp_jac o)) with
              | (Raise e, s) => (Some (Raise e), s)
              | (Ok d, s) =>
                  let '(r, h) := measure_h (s_heap s) kim kpsf (total_var (pp_wt o)) eff_pad d (im_row - psf_row) (im_col - psf_col) in
                  let s := set_heap s h in
                  match r with
                  | None => (None, s)
                  | Some (Raise e) => (Some (Raise e), s)
                  | Some (Ok (mom, cov, norm)) =>
                      match make_mom_result mom cov (Some (Fin norm)) with
                      | Raise e => (Some (Raise e), s)
                      | Ok res =>
                          if rk then
                            match kernels_at (s_heap s) d with
                            | None => (None, s)
                            | Some K => let gs := full_kernels fft_dim K in (Some (Ok (res, Some (gs, k_nrm K))), give s gs)
                            end
                          else (Some (Ok (res, None)), s)
                      end
                  end
              end
          end
      end
  end.
(** ngmix/prepsfmom.py:88-107 go *)
Definition go_h (s : st) (f : fitter) (o : ppobs) (no_psf rk : bool) : option (res answer) * st :=
  match check_obs o no_psf with Raise e => (Some (Raise e), s) | Ok psf => meas_h s f o psf rk end.

(** ** Histories *)
Inductive op :=
| TurnOnFft | TurnOffFft | TurnOnKern | TurnOffKern
| Write (l : loc) (x : obj)                         (* a caller writes into an array it was given *)
| Go (f : fitter) (o : ppobs) (no_psf rk : bool).
Definition step (s : st) (p : op) : list (option (res answer)) * st :=
  match p with
  | TurnOnFft => ([], turn_on_fft s) | TurnOffFft => ([], turn_off_fft s)
  | TurnOnKern => ([], turn_on_kern s) | TurnOffKern => ([], turn_off_kern s)
  | Write l x => ([], if existsb (Nat.eqb l) (s_given s) then set_heap s (write (s_heap s) l x) else s)
  | Go f o np rk => let '(r, s) := go_h s f o np rk in ([r], s)
  end.
Fixpoint run (s : st) (ps : list op) : list (option (res answer)) * st :=
  match ps with
  | [] => ([], s)
  | p :: ps => let '(a, s) := step s p in let '(b, s) := run s ps in (a ++ b, s)
  end.
