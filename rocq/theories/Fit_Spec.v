(** What a user expects of a model fit. *)
From Verif Require Import Base XReal Jacobian_Model Pixels_Model GMix_Model GMix_Spec GMixObj_Model
  Render_Model Render_Spec Priors_Model Joint_Model Joint_Spec Fit_Model.
Local Open Scope R_scope.

(** a fit object after any number of evaluations, whatever they returned or raised *)
Inductive evolved (F0 : fit) : fit -> Prop :=
| ev_new : evolved F0 F0
| ev_lnprob F pars : evolved F0 F -> evolved F0 (fst (calc_lnprob F pars))
| ev_fdiff F pars : evolved F0 F -> evolved F0 (fst (calc_fdiff F pars)).
Definition fit_of (m : fmodel) (obs : list (list fobs)) (prior : option jprior) (F : fit) : Prop :=
  exists guess F0, fit_init m obs guess prior = Ok F0 /\ evolved F0 F.

(** either every observation has a psf mixture or none has *)
Definition uniform_psf (obs : list (list fobs)) : Prop :=
  (forall o, In o (concat obs) -> has_psf_gmix o = true) \/ (forall o, In o (concat obs) -> has_psf_gmix o = false).

(** number of parameters: those of one band, and one flux for each further band *)
Definition n_pars (m : fmodel) (obs : list (list fobs)) : nat :=
  match m with
  | FName m => model_npars m - 1 + length obs
  | FCoellip n => 4 + 2 * n
  end.

(** (band, number) of every observation, in order *)
Definition positions_from {A} (b : nat) (l : list (list A)) : list (nat * nat) :=
  concat (map (fun p => map (fun i => (snd p, i)) (seq 0 (length (fst p)))) (combine l (seq b (length l)))).
Definition positions {A} (l : list (list A)) : list (nat * nat) := positions_from 0 l.
(** the convolved mixtures at these parameters, one for each observation *)
Definition mixtures (F : fit) (pars : list R) : res (list gmobj) :=
  mapM (fun p => get_convolved_gmix F pars (fst p) (snd p)) (positions (f_obs F)).
(** parameters for which every observation has a mixture that can be evaluated *)
Definition in_range (F : fit) (pars : list R) (ms : list gmobj) : Prop :=
  mixtures F pars = Ok ms /\ Forall (fun g => Forall evaluable (o_data g)) ms.
Definition out_of_range (F : fit) (pars : list R) : Prop :=
  mixtures F pars = Raise GMixRangeError \/
  exists ms, mixtures F pars = Ok ms /\ ~ Forall (fun g => Forall evaluable (o_data g)) ms.

(** the values of the model in the pixels of one observation, to the accuracy of the fast
    exponential *)
Definition model_of (g : gmobj) (model : pixel R -> R) : Prop :=
  forall p, Rabs (model p - pixel_model (o_data g) p) <= 4/100000 * peak (o_data g) * Rabs (px_area p).
(** residuals in units of the error *)
Definition resid (model : pixel R -> R) (p : pixel R) : R := (model p - px_val p) * px_ierr p.
(** all observations one after the other *)
Definition all_resid (models : list (pixel R -> R)) (pixels : list (list (pixel R))) : list R :=
  concat (map (fun mp => map (resid (fst mp)) (snd mp)) (combine models pixels)).
Definition sum_over (f : (pixel R -> R) -> pixel R -> R) (models : list (pixel R -> R)) (pixels : list (list (pixel R))) : R :=
  rsum (concat (map (fun mp => map (f (fst mp)) (snd mp)) (combine models pixels))).
Definition pixels_of (obs : list (list fobs)) : list (list (pixel R)) :=
  map (fun o => match fo_pixels o with Some l => l | None => [] end) (concat obs).

(** a prior whose residuals, k of them, encode its log probability *)
Definition consistent_prior (p : jprior) (k : nat) : Prop :=
  forall pars fdiff, (k <= length fdiff)%nat ->
    match jp_lnprob p pars, jp_fill p pars fdiff with
    | Ok L, Ok (out, n) => n = k /\ length out = length fdiff /\ skipn k out = skipn k fdiff /\
                           xsum (map xsq (firstn k out)) = xmul (Fin (-2)) L
    | Raise e, Raise e' => e = e'
    | _, _ => False
    end.
(** number of terms of the library's joint prior for a model: centre, shape, size, the
    others, and one for each flux *)
Definition prior_terms (m : fmodel) (nband : nat) : nat :=
  match m with
  | FName Mbd => 2 + 1 + 3 + nband
  | FName Mbdf => 2 + 1 + 2 + nband
  | FName _ => 2 + 1 + 1 + nband
  | FCoellip n => 2 + 1 + 2 * n
  end.
(** the mixture of band [b] seen through the psf of observation [o] *)
Definition own_mixture (F : fit) (pars : list R) (b : nat) (o : fobs) (g : gmobj) : Prop :=
  exists gm, get_gmix F pars b = Ok gm /\
    match fo_psf o with
    | Some (Some p) => exists psf, obj_copy p = Ok psf /\ obj_convolve gm psf = Ok g
    | _ => g = gm
    end.
(** band of every observation, in order *)
Definition bands_from {A} (b : nat) (l : list (list A)) : list (nat * A) :=
  concat (map (fun p => map (fun o => (snd p, o)) (fst p)) (combine l (seq b (length l)))).
Definition with_bands {A} (l : list (list A)) : list (nat * A) := bands_from 0 l.
(** the same observations without psfs *)
Definition no_psf (o : fobs) : fobs := mkFobs (fo_pixels o) None (fo_nr o) (fo_nc o) (fo_jac o).
(** log probability of the prior: 0 without one *)
Definition prior_value (prior : option jprior) (pars : list R) : res xr :=
  match prior with None => Ok (Fin 0) | Some p => jp_lnprob p (map Fin pars) end.
(** no prior, or one with k consistent residuals *)
Definition prior_ok (prior : option jprior) (k : nat) : Prop :=
  match prior with None => k = 0%nat | Some p => consistent_prior p k end.
(** prior residuals that encode the log probability *)
Definition encode (pr : list xr) (L : xr) : Prop := xsum (map xsq pr) = xmul (Fin (-2)) L.

(** ** C60 *)
(** number of parameters that do not depend on the band: all but the flux *)
Definition n_shared (m : mname) : nat := model_npars m - 1.

(** ** The joint priors of the library, as used by a fit *)
Definition of_simple (P : simplesep) (bounds : option (list bentry)) : jprior := mkJP (simple_lnprob P) (simple_fill_fdiff P) bounds false.
Definition of_bd (P : bdsep) (bounds : option (list bentry)) : jprior := mkJP (bd_lnprob P) (bd_fill_fdiff P) bounds false.
Definition of_bdf (P : bdfsep) (bounds : option (list bentry)) : jprior := mkJP (bdf_lnprob P) (bdf_fill_fdiff P) bounds false.
Definition of_coellip (P : coellip) (bounds : option (list bentry)) : jprior := mkJP (coellip_lnprob P) (coellip_fill_fdiff P) bounds false.

(** ** C99: the result *)
(** the flux of band b according to the result *)
Definition result_flux (f : fluxval) (b : nat) : option R :=
  match f with
  | FluxOne x _ => if Nat.eqb b 0 then Some x else None
  | FluxMany l _ _ => nth_error l b
  | FluxNone => None
  end.
Definition result_flux_err (f : fluxval) (b : nat) : option xr :=
  match f with
  | FluxOne _ e => if Nat.eqb b 0 then Some e else None
  | FluxMany _ _ l => nth_error l b
  | FluxNone => None
  end.
