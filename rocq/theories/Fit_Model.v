(** Model of ngmix/fitting/results.py: FitModel, CoellipFitModel and the functions they use.

    Of an observation a fit reads its pixels, its psf mixture, the shape of the image and the
    Jacobian; the observation is not changed during the fit.  Parameters are finite numbers;
    priors may return infinities.  The mixtures that the object keeps and overwrites at every
    evaluation are part of the state, so exceptions that leave them half filled are visible.
    PSFFluxFitModel is in PSFFlux_Model.v. *)
From Verif Require Import Base XReal Jacobian_Model Pixels_Model GMix_Model GMixObj_Model Render_Model
  Priors_Model Joint_Model.
Local Open Scope R_scope.

(** the models of FitModel, and CoellipFitModel with its number of gaussians *)
Inductive fmodel := FName (m : mname) | FCoellip (ngauss : nat).

(** an observation; [fo_pixels] is None with store_pixels=False, [fo_psf] is None without a
    psf and Some None for a psf without a mixture *)
Record fobs := mkFobs
  { fo_pixels : option (list (pixel R)); fo_psf : option (option gmobj); fo_nr : nat; fo_nc : nat; fo_jac : jac }.
(** ngmix/observation.py:586-593 has_psf_gmix *)
Definition has_psf_gmix (o : fobs) : bool := match fo_psf o with Some (Some _) => true | _ => false end.
(** obs.psf.gmix, ngmix/observation.py:284-288, 297-304, 613-619 *)
Definition psf_gmix (o : fobs) : res gmobj :=
  match fo_psf o with
  | None => Raise AttributeError
  | Some None => Raise RuntimeError
  | Some (Some g) => obj_copy g
  end.
(** obs.pixels.size *)
Definition obs_pixels (o : fobs) : res (list (pixel R)) :=
  match fo_pixels o with Some l => Ok l | None => Raise AttributeError end.

(** the methods of a joint prior; [jp_bounds] is None also when there is no such attribute *)
Record jprior := mkJP
  { jp_lnprob : list xr -> res xr; jp_fill : list xr -> list xr -> res (list xr * nat);
    jp_bounds : option (list bentry);
    (** whether get_lnprob_scalar returns a numpy scalar, which can be divided by zero *)
    jp_numpy : bool }.

(** ngmix/fitting/results.py:777-811 get_band_pars.  A slice that is too short cannot be
    assigned (ValueError) unless it has one element, which is broadcast. *)
Definition slice_and_one (num k band : nat) (pars : list R) : res (list R) :=
  if negb (Nat.eqb (length pars) 1) && Nat.ltb (length pars) k then Raise ValueError else
  match nth_error pars (k + band) with
  | None => Raise IndexError
  | Some f => Ok (firstn k pars ++ [f] ++ repeat 0 (num - k - 1))
  end.
Definition get_band_pars (model : mname) (pars : list R) (band : nat) : res (list R) :=
  let num := model_npars model in
  match model with
  | Mbd => slice_and_one num 7 band pars
  | Mbdf => slice_and_one num 6 band pars
  | _ => slice_and_one num 5 band pars
  end.
(** ngmix/fitting/results.py:125-140 and 530-534 *)
Definition band_pars_of (m : fmodel) (pars : list R) (band : nat) : res (list R) :=
  match m with FName m => get_band_pars m pars band | FCoellip _ => Ok pars end.

(** ngmix/fitting/results.py:814-840 get_lm_n_prior_pars *)
Definition get_lm_n_prior_pars (model : mname) (nband : nat) : res nat :=
  match model with
  | Mbd => Ok (1 + 1 + 1 + 1 + 1 + 1 + nband)%nat
  | Mbdf => Ok (1 + 1 + 1 + 1 + 1 + nband)%nat
  | Mexp | Mdev | Mgauss | Mturb => Ok (1 + 1 + 1 + 1 + 1 + nband)%nat
  | Mbdc => Raise ValueError
  end.

(** the object *)
Record fit := mkFit
  { f_model : fmodel; f_obs : list (list fobs); f_prior : option jprior;
    f_totpix : nat; f_npars : nat; f_n_prior : nat; f_size : nat;
    f_pixels : list (list (pixel R)); f_bounds : option (list bentry); f_dopsf : bool;
    (** _gmix_all0 and _gmix_all, paired *)
    f_gms : list (list (gmobj * gmobj)) }.
Definition with_gms (F : fit) (g : list (list (gmobj * gmobj))) : fit :=
  mkFit (f_model F) (f_obs F) (f_prior F) (f_totpix F) (f_npars F) (f_n_prior F) (f_size F)
        (f_pixels F) (f_bounds F) (f_dopsf F) g.

(** ngmix/fitting/results.py:257-259; ngmix/gmix/gmix.py:37-60 make_gmix_model *)
Definition make_model (m : fmodel) (pars : list R) : res gmobj :=
  match m with FName m => new_model m pars | FCoellip _ => new_coellip pars end.
(** ngmix/fitting/results.py:284-292 *)
Definition init_one (m : fmodel) (dopsf : bool) (bp : list R) (o : fobs) : res (gmobj * gmobj) :=
  let* gm0 := make_model m bp in
  let* gm := if dopsf then let* psf := psf_gmix o in obj_convolve gm0 psf else obj_copy gm0 in
  Ok (gm0, gm).
(** ngmix/fitting/results.py:261-298 _init_gmix_all; obs[0][0] raises IndexError when there is none *)
Definition init_gmix_all (m : fmodel) (obs : list (list fobs)) (pars : list R)
  : res (bool * list (list (gmobj * gmobj))) :=
  let* first := match obs with (o :: _) :: _ => Ok o | _ => Raise IndexError end in
  let dopsf := has_psf_gmix first in
  let* gms := mapM (fun p => let* bp := band_pars_of m pars (snd p) in mapM (init_one m dopsf bp) (fst p))
                   (combine obs (seq 0 (length obs))) in
  Ok (dopsf, gms).
(** ngmix/fitting/results.py:359-376 _setup_fit *)
Definition setup_fit (m : fmodel) (obs : list (list fobs)) (npars : nat) (guess : list R)
  : res (bool * list (list (gmobj * gmobj))) :=
  if negb (Nat.eqb (length guess) npars) then Raise AssertionError else
  match init_gmix_all m obs guess with
  | Raise ZeroDivisionError => Raise GMixRangeError
  | r => r
  end.
(** ngmix/fitting/results.py:28-43 __init__, 235-255, 378-400, 488-525 *)
Definition fit_init (m : fmodel) (obs : list (list fobs)) (guess : list R) (prior : option jprior) : res fit :=
  let nband := length obs in
  let* pixels := mapM obs_pixels (concat obs) in
  let totpix := fold_left (fun n p => (n + length p)%nat) pixels 0%nat in
  let npars := match m with
               | FName m => (model_npars m + nband - 1)%nat
               | FCoellip n => (4 + 2 * n)%nat end in
  let* n_prior :=
    match m with
    | FName m => match prior with None => Ok 0%nat | Some _ => get_lm_n_prior_pars m nband end
    | FCoellip n => if negb (Nat.eqb nband 1) then Raise AssertionError
                    else Ok (match prior with None => 0%nat | Some _ => (1 + 1 + 1 + n + n)%nat end)
    end in
  let bounds := match prior with None => None | Some p => jp_bounds p end in
  let* (dopsf, gms) := setup_fit m obs npars guess in
  Ok (mkFit m obs prior totpix npars n_prior (totpix + n_prior)%nat pixels bounds dopsf gms).

(** ngmix/gmix/gmix.py:396-412 _fill without the check of the number of parameters:
    self._pars[:] = pars broadcasts one element and refuses other lengths *)
Definition fill_obj (gm : gmobj) (pars : list R) : gmobj * res unit :=
  if Nat.eqb (length pars) (o_npars gm) then obj__fill gm pars
  else match pars with
       | [x] => obj__fill gm (repeat x (o_npars gm))
       | _ => (gm, Raise ValueError)
       end.
(** ngmix/fitting/results.py:319-331 (with a psf) and 341-347 (without), for one observation; the two mixtures
    are updated in place, the second one through gmix_convolve_fill *)
Definition fill_one (dopsf : bool) (bp : list R) (o : fobs) (g : gmobj * gmobj) : (gmobj * gmobj) * res unit :=
  let (gm0, gm) := g in
  if dopsf then
    match psf_gmix o with
    | Raise e => (g, Raise e)
    | Ok psf =>
        let (gm0, r) := fill_obj gm0 bp in
        match r with
        | Raise e => ((gm0, gm), Raise e)
        | Ok _ => match gmix_convolve (o_data gm0) (o_data psf) with
                  | Ok d => ((gm0, with_data gm d), Ok tt)
                  | Raise e => ((gm0, gm), Raise e)
                  end
        end
    end
  else let (gm, r) := fill_obj gm bp in ((gm0, gm), r).
Fixpoint fill_list (dopsf : bool) (bp : list R) (os : list fobs) (gs : list (gmobj * gmobj))
  : list (gmobj * gmobj) * res unit :=
  match os, gs with
  | [], _ => (gs, Ok tt)
  | _ :: _, [] => (gs, Raise IndexError)
  | o :: os, g :: gs =>
      let (g, r) := fill_one dopsf bp o g in
      match r with
      | Raise e => (g :: gs, Raise e)
      | Ok _ => let (gs, r) := fill_list dopsf bp os gs in (g :: gs, r)
      end
  end.
(** ngmix/fitting/results.py:306-347 _fill_gmix_all: band by band *)
Fixpoint fill_bands (m : fmodel) (dopsf : bool) (pars : list R) (band : nat)
    (obs : list (list fobs)) (gms : list (list (gmobj * gmobj))) : list (list (gmobj * gmobj)) * res unit :=
  match obs, gms with
  | [], _ => (gms, Ok tt)
  | _ :: _, [] => (gms, Raise IndexError)
  | os :: obs, gs :: gms =>
      match band_pars_of m pars band with
      | Raise e => (gs :: gms, Raise e)
      | Ok bp =>
          let (gs, r) := fill_list dopsf bp os gs in
          match r with
          | Raise e => (gs :: gms, Raise e)
          | Ok _ => let (gms, r) := fill_bands m dopsf pars (S band) obs gms in (gs :: gms, r)
          end
      end
  end.
Definition fill_gmix_all (F : fit) (pars : list R) : fit * res unit :=
  let (gms, r) := fill_bands (f_model F) (f_dopsf F) pars 0 (f_obs F) (f_gms F) in (with_gms F gms, r).

(** ngmix/fitting/results.py:349-357 _get_priors *)
Definition get_priors (F : fit) (pars : list R) : res xr :=
  match f_prior F with None => Ok (Fin 0) | Some p => jp_lnprob p (map Fin pars) end.

(** what calc_lnprob(more=True) returns *)
Record lnres := mkLn { l_lnprob : xr; l_numer : R; l_denom : R; l_npix : nat }.
(** ngmix/defaults.py:12 *)
Definition BIGVAL : R := 9999 * 10 ^ 47.
Definition ln_low : lnres := mkLn LOWVAL 0 BIGVAL 0.

(** the sums of lines 185-197, for the observations of one band; get_loglike sets the norms
    of the mixture in place *)
Fixpoint like_list (os : list fobs) (gs : list (gmobj * gmobj)) (s : R * R * R * nat)
  : list (gmobj * gmobj) * res (R * R * R * nat) :=
  match os, gs with
  | o :: os, (gm0, gm) :: gs' =>
      match obs_pixels o with
      | Raise e => (gs, Raise e)
      | Ok pixels =>
          let (d, r) := get_loglike (o_data gm) pixels in
          let g := (gm0, with_data gm d) in
          match r with
          | Raise e => (g :: gs', Raise e)
          | Ok (ll, n, dn, k) =>
              let '(sl, sn, sd, sk) := s in
              let (gs', r) := like_list os gs' (sl + ll, sn + n, sd + dn, (sk + k)%nat) in (g :: gs', r)
          end
      end
  | _, _ => (gs, Ok s)
  end.
Fixpoint like_bands (obs : list (list fobs)) (gms : list (list (gmobj * gmobj))) (s : R * R * R * nat)
  : list (list (gmobj * gmobj)) * res (R * R * R * nat) :=
  match obs, gms with
  | [], _ => (gms, Ok s)
  | _ :: _, [] => (gms, Raise IndexError)
  | os :: obs, gs :: gms =>
      let (gs, r) := like_list os gs s in
      match r with
      | Raise e => (gs :: gms, Raise e)
      | Ok s => let (gms, r) := like_bands obs gms s in (gs :: gms, r)
      end
  end.
(** except GMixRangeError *)
Definition or_range {A} (r : res A) (low : A) : res A :=
  match r with Raise GMixRangeError => Ok low | _ => r end.
(** ngmix/fitting/results.py:142-210 calc_lnprob *)
Definition calc_lnprob (F : fit) (pars : list R) : fit * res lnres :=
  match get_priors F pars with
  | Raise e => (F, or_range (Raise e) ln_low)
  | Ok lp =>
      let (F, r) := fill_gmix_all F pars in
      match r with
      | Raise e => (F, or_range (Raise e) ln_low)
      | Ok _ =>
          let (gms, r) := like_bands (f_obs F) (f_gms F) (0, 0, 0, 0%nat) in
          (with_gms F gms,
           or_range (let* (l, n, d, k) := r in Ok (mkLn (xadd (Fin l) lp) n d k)) ln_low)
      end
  end.

(** ngmix/gmix/gmix_nb.py:867-892 fill_fdiff, as in Render_Model.fill_fdiff but on an array
    that can hold infinities *)
Definition fill_fdiff_x (gm : gmix) (pixels : list (pixel R)) (fdiff : list xr) (start : nat)
  : gmix * res (list xr) :=
  let (gm', r) := set_norms_if_needed gm in
  (gm',
   let* _ := r in
   let* (fdiff, _) := foldM (fun (s : list xr * nat) p =>
      let '(fdiff, ipixel) := s in
      let* model_val := gmix_eval_pixel_fast gm' (px_v p) (px_u p) (px_area p) in
      let* fdiff' := put fdiff (start + ipixel) (Fin ((model_val - px_val p) * px_ierr p)) in
      Ok (fdiff', S ipixel)) pixels (fdiff, O) in
   Ok fdiff).
(** ngmix/fitting/results.py:455-460: the mixtures of _gmix_data_list are those of _gmix_all, in order *)
Fixpoint fdiff_loop (pixels : list (list (pixel R))) (gs : list (gmobj * gmobj)) (fdiff : list xr) (start : nat)
  : list (gmobj * gmobj) * res (list xr) :=
  match pixels, gs with
  | px :: pixels, (gm0, gm) :: gs' =>
      let (d, r) := fill_fdiff_x (o_data gm) px fdiff start in
      let g := (gm0, with_data gm d) in
      match r with
      | Raise e => (g :: gs', Raise e)
      | Ok fdiff => let (gs', r) := fdiff_loop pixels gs' fdiff (start + length px) in (g :: gs', r)
      end
  | _, _ => (gs, Ok fdiff)
  end.
(** cut a flat list back into bands *)
Fixpoint regroup {A B} (shape : list (list A)) (l : list B) : list (list B) :=
  match shape with
  | [] => []
  | s :: shape => firstn (length s) l :: regroup shape (skipn (length s) l)
  end.
(** ngmix/fitting/results.py:468-485 _fill_priors *)
Definition fill_priors (F : fit) (pars : list R) (fdiff : list xr) : res (list xr * nat) :=
  match f_prior F with None => Ok (fdiff, 0%nat) | Some p => jp_fill p (map Fin pars) fdiff end.
(** ngmix/fitting/results.py:439-466 calc_fdiff *)
Definition calc_fdiff (F : fit) (pars : list R) : fit * res (list xr) :=
  let low := repeat LOWVAL (f_size F) in
  let (F, r) := fill_gmix_all F pars in
  match r with
  | Raise e => (F, or_range (Raise e) low)
  | Ok _ =>
      match fill_priors F pars (repeat (Fin 0) (f_size F)) with
      | Raise e => (F, or_range (Raise e) low)
      | Ok (fdiff, start) =>
          let (gs, r) := fdiff_loop (f_pixels F) (concat (f_gms F)) fdiff start in
          (with_gms F (regroup (f_gms F) gs), or_range r low)
      end
  end.

(** ** Mixtures and images at the fitted parameters *)
(** self.obs[band][obsnum] *)
Definition obs_at (F : fit) (band obsnum : nat) : res fobs :=
  match nth_error (f_obs F) band with
  | None => Raise IndexError
  | Some l => match nth_error l obsnum with None => Raise IndexError | Some o => Ok o end
  end.
(** ngmix/fitting/results.py:74-85 get_gmix *)
Definition get_gmix (F : fit) (pars : list R) (band : nat) : res gmobj :=
  let* bp := band_pars_of (f_model F) pars band in make_model (f_model F) bp.
(** ngmix/fitting/results.py:87-107 get_convolved_gmix *)
Definition get_convolved_gmix (F : fit) (pars : list R) (band obsnum : nat) : res gmobj :=
  let* gm := get_gmix F pars band in
  let* o := obs_at F band obsnum in
  if has_psf_gmix o then let* psf := psf_gmix o in obj_convolve gm psf else Ok gm.
(** ngmix/fitting/results.py:109-123 make_image; fast_exp is off by default (gmix.py:510) *)
Definition fit_make_image (F : fit) (pars : list R) (band obsnum : nat) : res (arr2 (option R)) :=
  let* gm := get_convolved_gmix F pars band obsnum in
  let* o := obs_at F band obsnum in
  snd (make_image (o_data gm) (fo_nr o) (fo_nc o) (Some (fo_jac o)) false).

(** ** The result: lines 45-72 set_fit_result for flags == 0, 402-413, 843-881.
    [err] and [cov] are pars_err and pars_cov of run_leastsq; an index outside of them raises
    IndexError.  numpy's square root of a negative number is nan. *)
Inductive fluxval := FluxOne (flux : R) (err : xr) | FluxMany (flux : list R) (cov : arr2 R) (err : list xr) | FluxNone.
Record fitres := mkFr
  { r_ln : lnres; r_s2n : R; r_chi2per : xr; r_dof : Z;
    r_g : list R; r_g_cov : arr2 R; r_g_err : list R; r_T : R; r_T_err : xr; r_flux : fluxval }.
Definition ritem {A} (l : list A) (i : nat) : res A :=
  match nth_error l i with Some x => Ok x | None => Raise IndexError end.
Definition citem (c : arr2 R) (i j : nat) : res R :=
  if Nat.ltb i (nrow c) && Nat.ltb j (ncol c) then Ok (at2 c i j) else Raise IndexError.
(** c[a:b, a:b]: slices stop at the end *)
Definition block (c : arr2 R) (a b : nat) : arr2 R :=
  mkArr (Nat.min b (nrow c) - a) (Nat.min b (ncol c) - a) (fun i j => at2 c (a + i) (a + j)).
(** ngmix/fitting/results.py:843-881 _set_flux *)
Definition flux_start (m : mname) : nat := match m with Mbd => 7 | Mbdf => 6 | _ => 5 end%nat.
Definition set_flux_result (m : fmodel) (nband : nat) (pars : list R) (cov : arr2 R) : res fluxval :=
  match m with
  | FCoellip _ => Ok FluxNone
  | FName m =>
      let start := flux_start m in
      if Nat.eqb nband 1 then
        let* f := ritem pars start in
        let* v := citem cov start start in
        Ok (FluxOne f (xsqrt (Fin v)))
      else
        let c := block cov start (nrow cov) in
        Ok (FluxMany (skipn start pars) c
              (map (fun i => xsqrt (Fin (at2 c i i))) (seq 0 (Nat.min (nrow c) (ncol c)))))
  end.
Definition set_fit_result (F : fit) (pars err : list R) (cov : arr2 R) : fit * res fitres :=
  let (F, r) := calc_lnprob F pars in
  (F,
   let* l := r in
   let s2n := if Rltb 0 (l_denom l) then l_numer l / sqrt (l_denom l) else 0 in
   let chi2 := xdiv (l_lnprob l) (Fin (-1/2)) in
   let dof := (Z.of_nat (l_npix l) - Z.of_nat (f_npars F))%Z in
   let* chi2per := if Z.eqb dof 0 then (if match f_prior F with None => false | Some p => jp_numpy p end
                                            then Ok (xdiv chi2 (Fin 0)) else Raise ZeroDivisionError)
                   else Ok (xdiv chi2 (Fin (IZR dof))) in
   let g := firstn 2 (skipn 2 pars) in
   let* T := ritem pars 4 in
   let* vT := citem cov 4 4 in
   let* flux := set_flux_result (f_model F) (length (f_obs F)) pars cov in
   Ok (mkFr l s2n chi2per dof g (block cov 2 4) (firstn 2 (skipn 2 err)) T (xsqrt (Fin vT)) flux)).
