(** What fits with galsim should do. *)
From Verif Require Import Base XReal Jacobian_Model Pixels_Model Priors_Model Joint_Model Fit_Model Fit_Spec Galsim_Model.
From Coq Require Import String.
Local Open Scope R_scope.

(** one of the parameters *)
Definition par (pars : list R) (i : nat) : R := nth i pars 0.
Definition is_simple (m : gmodel) : Prop := m = GExp \/ m = GDev \/ m = GGauss.
(** parameters that all bands share: centre, shape, half light radius, and the index if there is one *)
Definition shared (m : gmodel) : nat := match m with GExp | GDev | GGauss => 5 | GSpergel | GMoffat => 6 end.
(** the flux of a band comes after them *)
Definition flux_par (m : gmodel) (pars : list R) (band : nat) : R := par pars (shared m + band).
Definition index_par (m : gmodel) (pars : list R) : option R :=
  match m with GExp | GDev | GGauss => None | GSpergel | GMoffat => Some (par pars 5) end.

(** complex product with the psf *)
Definition psf_product (ko : kobs) (d : drawn) : drawn :=
  match ko_psf ko with
  | None => d
  | Some p => ((fun r c => fst d r c * k_re (kp_image p) r c - snd d r c * k_im (kp_image p) r c),
               (fun r c => fst d r c * k_im (kp_image p) r c + snd d r c * k_re (kp_image p) r c))
  end.

Section Spec.
Context {G II : Type} (X : gext G II).

(** the profile of a band *)
Definition profile (m : gmodel) (pars : list R) (b : nat) (g : G) : Prop :=
  (is_simple m -> 1 / 10000 <= par pars 4) /\
  exists g0 g1, gx_round X m (par pars 4) (index_par m pars) (flux_par m pars b) = GOk g0 /\
    gx_shear X g0 (par pars 2) (par pars 3) = GOk g1 /\ gx_shift X g1 (par pars 0) (par pars 1) = GOk g.
(** its image for an observation, seen through the psf of that observation *)
Definition seen (draw : G -> nat -> nat -> R -> gout drawn) (m : gmodel) (pars : list R) (b : nat) (ko : kobs) (d : drawn) : Prop :=
  exists g d0, profile m pars b g /\
    draw g (k_nr (ko_image ko)) (k_nc (ko_image ko)) (k_scale (ko_image ko)) = GOk d0 /\ d = psf_product ko d0.
Definition own_model : gmodel -> list R -> nat -> kobs -> drawn -> Prop := seen (gx_draw X).
(** the same without shear *)
Definition rounded (pars : list R) : list R := (firstn 2 pars ++ [0; 0] ++ skipn 4 pars)%list.
Definition round_model (m : gmodel) (pars : list R) : nat -> kobs -> drawn -> Prop := seen (gx_drawk X) m (rounded pars).
(** galsim has no such profile, or cannot draw it *)
Definition is_runtime (e : gexn) : Prop := e = GRuntime \/ e = GBoth.
Definition refused (m : gmodel) (pars : list R) (b : nat) (ko : kobs) : Prop :=
  is_simple m /\ par pars 4 < 1 / 10000 \/
  (is_simple m -> 1 / 10000 <= par pars 4) /\
  ((exists e, gx_round X m (par pars 4) (index_par m pars) (flux_par m pars b) = GErr e /\ is_runtime e) \/
   (exists g0 e, gx_round X m (par pars 4) (index_par m pars) (flux_par m pars b) = GOk g0 /\
      gx_shear X g0 (par pars 2) (par pars 3) = GErr e /\ (is_runtime e \/ e = GValue)) \/
   (exists g0 g1 e, gx_round X m (par pars 4) (index_par m pars) (flux_par m pars b) = GOk g0 /\
      gx_shear X g0 (par pars 2) (par pars 3) = GOk g1 /\ gx_shift X g1 (par pars 0) (par pars 1) = GErr e /\ is_runtime e) \/
   (exists g e, profile m pars b g /\
      gx_draw X g (k_nr (ko_image ko)) (k_nc (ko_image ko)) (k_scale (ko_image ko)) = GErr e /\ is_runtime e)).

(** real and imaginary residuals of one observation in units of the error; no weight, no residual *)
Definition inv_err (w : R) : R := if Rltb 0 w then sqrt w else 0.
Definition residuals (ko : kobs) (d : drawn) : list R :=
  let K := ko_image ko in
  (ravel (k_nr K) (k_nc K) (fun r c => (fst d r c - k_re K r c) * inv_err (at2 (ko_weight ko) r c)) ++
   ravel (k_nr K) (k_nc K) (fun r c => (snd d r c - k_im K r c) * inv_err (at2 (ko_weight ko) r c)))%list.
(** chi squared of one observation *)
Definition chi2_of (ko : kobs) (d : drawn) : R :=
  let K := ko_image ko in
  rsum (ravel (k_nr K) (k_nc K) (fun r c =>
    Rmax 0 (at2 (ko_weight ko) r c) * ((fst d r c - k_re K r c) ^ 2 + (snd d r c - k_im K r c) ^ 2))).

(** power in an image, weighted *)
Definition power (ko : kobs) (d : drawn) : R :=
  let K := ko_image ko in
  rsum (ravel (k_nr K) (k_nc K) (fun r c => at2 (ko_weight ko) r c * (fst d r c ^ 2 + snd d r c ^ 2))).

(** observations in Fourier space as the constructor leaves them *)
Definition valid_kobs (ko : kobs) : Prop :=
  exists k w p a, new_kobs k w p a = Ok ko /\ match p with None => True | Some p => exists pk pw pm, new_kpsf pk pw pm = Ok p end.
Definition valid_input (i : ginput) : Prop :=
  match i with InReal _ => True | InK obs => Forall valid_kobs (List.concat obs) end.
(** the observations of a fit have metadata of their own *)
Definition own_metadata (F : gfit) : Prop := NoDup (map ko_meta (List.concat (gf_obs F))).

(** entries used by a fit *)
Definition fit_keys : list string := ["ierr"; "kmodel"; "scratch"]%string.
Definition kobs_keys : list string := ["realspace_gsimage"; "scale"]%string.

(** what may happen between evaluations: evaluations of this fit and of others of the same
    observations, new fits of them, and any use of the metadata that leaves the entries of the fit alone *)
Inductive history (h0 : heap) (F0 : gfit) (input : ginput) : heap -> gfit -> Prop :=
| hi_new : history h0 F0 input h0 F0
| hi_fdiff h F pars h' F' r : history h0 F0 input h F -> calc_fdiff X h F pars = (h', F', r) -> history h0 F0 input h' F'
| hi_s2n h F pars h' F' r : history h0 F0 input h F -> calc_s2n_r X h F pars = (h', F', r) -> history h0 F0 input h' F'
| hi_band h F pars b F' r : history h0 F0 input h F -> get_band_pars F pars b = (F', r) -> history h0 F0 input h F'
| hi_user h F a k v : history h0 F0 input h F -> ~ In k fit_keys -> history h0 F0 input (hput h a k v) F
| hi_init h F m guess prior h' r : history h0 F0 input h F -> gfit_init X h m input guess prior = (h', r) -> history h0 F0 input h' F
| hi_other_fdiff h F F2 pars h' F' r : history h0 F0 input h F -> gf_obs F2 = gf_obs F -> calc_fdiff X h F2 pars = (h', F', r) -> history h0 F0 input h' F
| hi_other_s2n h F F2 pars h' F' r : history h0 F0 input h F -> gf_obs F2 = gf_obs F -> calc_s2n_r X h F2 pars = (h', F', r) -> history h0 F0 input h' F.
End Spec.

(** a prior that fills n entries at the front *)
Definition prior_fills (prior : option jprior) (n : nat) : Prop :=
  match prior with
  | None => n = 0%nat
  | Some p => forall pars fd out k, jp_fill p pars fd = Ok (out, k) -> (n <= List.length fd)%nat ->
                k = n /\ List.length out = List.length fd /\ skipn n out = skipn n fd
  end.
(** its residuals *)
Definition prior_residuals (prior : option jprior) (pars : list R) (n size : nat) (pr : list xr) : Prop :=
  match prior with
  | None => pr = []
  | Some p => exists out, jp_fill p (map Fin pars) (repeat (Fin 0) size) = Ok (out, n) /\ pr = firstn n out
  end.

(** ** C113 *)
(** only entries ks of the dictionaries as_ differ *)
Definition changes (h h' : heap) (as_ : list nat) (ks : list string) : Prop :=
  (forall a, ~ In a as_ -> h' a = h a) /\ (forall a k, ~ In k ks -> gget (h' a) k = gget (h a) k).
Definition input_metas (i : ginput) : list nat :=
  match i with InReal obs => map ro_meta (List.concat obs) | InK obs => map ko_meta (List.concat obs) end.

(** ** C114 *)
Definition flux_right (m : gmodel) (nband : nat) (pars : list R) (cov : arr2 R) (f : fluxval) : Prop :=
  forall b, (b < nband)%nat ->
    result_flux f b = Some (flux_par m pars b) /\ result_flux_err f b = Some (xsqrt (Fin (at2 cov (shared m + b) (shared m + b)))).

(** ** C116 *)
(** every value is the same *)
Definition uniform (w : arr2 R) (dim : nat) (v : R) : Prop :=
  nrow w = dim /\ ncol w = dim /\ forall r c, (r < dim)%nat -> (c < dim)%nat -> at2 w r c = v.
(** largest value of an array that is not empty *)
Definition is_max (w : arr2 R) (v : R) : Prop :=
  (exists r c, (r < nrow w)%nat /\ (c < ncol w)%nat /\ at2 w r c = v) /\
  forall r c, (r < nrow w)%nat -> (c < ncol w)%nat -> at2 w r c <= v.
Definition scaled_to_one (a : arr2 R) (b : arr2 xr) : Prop :=
  nrow b = nrow a /\ ncol b = ncol a /\
  forall r c, at2 b r c = xdiv (Fin (at2 a r c)) (Fin (rsum (ravel (nrow a) (ncol a) (at2 a)))).

Section Spec2.
Context {G II : Type} (X : gext G II).
(** interpolated images of an observation: of the image, and of the psf scaled to a sum of one *)
Definition interpolated (o : robs) (ii : II) (pii : option II) : Prop :=
  gx_ii X (of_reals (ro_image o)) (get_galsim_wcs (ro_jac o)) = GOk ii /\
  match ro_psf o, pii with
  | None, None => True
  | Some p, Some q => exists im, scaled_to_one (rp_image p) im /\ gx_ii X im (get_galsim_wcs (rp_jac p)) = GOk q
  | _, _ => False
  end.
(** size and scale that an observation asks for: the size is that of the psf if there is one *)
Definition asks (o : robs) (dim : nat) (dk : R) : Prop :=
  exists ii pii n, interpolated o ii pii /\ gx_good X (match pii with Some q => q | None => ii end) = GOk n /\ dim = S n /\ gx_stepk X ii = GOk dk.
(** its image in Fourier space, on a grid *)
Definition transform_of (dim : nat) (dk : R) (o : robs) (ko : kobs) : Prop :=
  exists ii pii k mx, interpolated o ii pii /\ gx_iidraw X ii dim dk = GOk k /\ ko_image ko = mkKim dim dim dk (fst k) (snd k) /\
    is_max (ro_weight o) mx /\ uniform (ko_weight ko) dim (mx / 2 / INR (dim * dim)) /\ ko_meta ko = ro_meta o /\
    match ro_psf o, pii, ko_psf ko with
    | None, None, None => True
    | Some p, Some q, Some kp =>
        exists pk pmx, gx_iidraw X q dim dk = GOk pk /\ kp_image kp = mkKim dim dim dk (fst pk) (snd pk) /\
          is_max (rp_weight p) pmx /\ uniform (kp_weight kp) dim (pmx / 2 / INR (dim * dim))
    | _, _, _ => False
    end.
End Spec2.

(** ** C117 *)
(** the same observation with other centres *)
Definition move_jac (dr dc : R) (j : jac) : jac :=
  mkJac (row0 j + dr) (col0 j + dc) (dvdrow j) (dvdcol j) (dudrow j) (dudcol j) (jdet j) (jscale j).
Definition move_centres (shift : robs -> R * R * (R * R)) (o : robs) : robs :=
  let '(a, b, (c, d)) := shift o in
  mkRo (ro_image o) (ro_weight o) (move_jac a b (ro_jac o)) (ro_meta o)
    (option_map (fun p => mkRp (rp_image p) (rp_weight p) (move_jac c d (rp_jac p)) (rp_meta p)) (ro_psf o)).

(** ** C119: template images that galsim has drawn *)
From Verif Require PSFFlux_Model.
Definition drawn_as (o : PSFFlux_Model.pobs) (a : arr2 xr) (t : nat -> nat -> R) : Prop :=
  nrow a = PSFFlux_Model.po_nr o /\ ncol a = PSFFlux_Model.po_nc o /\
  forall r c, (r < PSFFlux_Model.po_nr o)%nat -> (c < PSFFlux_Model.po_nc o)%nat -> at2 a r c = Fin (t r c).
Definition light (o : PSFFlux_Model.pobs) (t : nat -> nat -> R) : R := rsum (PSFFlux_Model.cells (PSFFlux_Model.po_nr o) (PSFFlux_Model.po_nc o) t).
(** drawn images, observation by observation *)
Inductive drawn_all : list PSFFlux_Model.pobs -> list (arr2 xr) -> list (nat -> nat -> R) -> Prop :=
| da_nil : drawn_all [] [] []
| da_cons o a t obs l ts : drawn_as o a t -> drawn_all obs l ts -> drawn_all (o :: obs) (a :: l) (t :: ts).
(** all the light of the templates is in the images *)
Inductive all_light : list PSFFlux_Model.pobs -> list (nat -> nat -> R) -> Prop :=
| al_nil : all_light [] []
| al_cons o t obs ts : light o t = 1 -> all_light obs ts -> all_light (o :: obs) (t :: ts).

(** the templates scaled to a sum of one *)
Definition unit_template (o : PSFFlux_Model.pobs) (t : nat -> nat -> R) : nat -> nat -> R := fun r c => t r c / light o t.
Definition unit_templates (obs : list PSFFlux_Model.pobs) (ts : list (nat -> nat -> R)) : list (nat -> nat -> R) := map (fun p => unit_template (fst p) (snd p)) (combine obs ts).

(** the joint priors of the library that have an index, as used by a fit *)
Definition of_spergel (P : spergelsep) (bounds : option (list bentry)) : jprior := mkJP (spergel_lnprob P) (spergel_fill_fdiff P) bounds false.
