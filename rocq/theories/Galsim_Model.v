(** Model of the fits with galsim: ngmix/fitting/galsim_results.py, and of the observations in
    Fourier space, ngmix/observation.py:1148-1604.

    galsim is external: [gext] gives its profiles and images, and its errors.  Images and parameters
    are finite.  The dictionaries of metadata live on a heap, since observations share them; the
    images that a fit keeps in them are values of their entries.  Interpolants are left out
    (interp is always the default). *)
From Verif Require Import Base XReal Jacobian_Model Pixels_Model Priors_Model Joint_Model GMix_Model GMixObj_Model.
From Verif Require Import Fit_Model.
From Verif Require PSFFlux_Model.
From Coq Require Import String.
Local Open Scope R_scope.

Inductive gmodel := GExp | GDev | GGauss | GSpergel | GMoffat.
(** galsim_results.py:166-176 _set_model_class: the models of GalsimFitModel itself *)
Definition model_of_string (s : string) : res gmodel :=
  if String.eqb s "exp" then Ok GExp else if String.eqb s "dev" then Ok GDev
  else if String.eqb s "gauss" then Ok GGauss else Raise NotImplementedError.

(** an image in Fourier space *)
Record kimage := mkKim { k_nr : nat; k_nc : nat; k_scale : R; k_re : nat -> nat -> R; k_im : nat -> nat -> R }.
Definition same_dims (a b : kimage) : bool := Nat.eqb (k_nr a) (k_nr b) && Nat.eqb (k_nc a) (k_nc b).
(** array.ravel() *)
Definition ravel (nr nc : nat) (f : nat -> nat -> R) : list R := List.concat (map (fun r => map (f r) (seq 0 nc)) (seq 0 nr)).

(** ** Metadata *)
Inductive gval := GUser (z : Z) | GNum (x : R) | GReal (a : arr2 R) | GKim (k : kimage) | GOpaque.
Definition gdict := list (string * gval).
Fixpoint gget (d : gdict) (k : string) : option gval :=
  match d with [] => None | (k', v) :: d => if String.eqb k' k then Some v else gget d k end.
Fixpoint gset (d : gdict) (k : string) (v : gval) : gdict :=
  match d with
  | [] => [(k, v)]
  | (k', v') :: d => if String.eqb k' k then (k', v) :: d else (k', v') :: gset d k v
  end.
Definition heap := nat -> gdict.
Definition hput (h : heap) (a : nat) (k : string) (v : gval) : heap := fun b => if Nat.eqb b a then gset (h b) k v else h b.
Definition meta_kim (h : heap) (a : nat) (k : string) : res kimage :=
  match gget (h a) k with Some (GKim x) => Ok x | Some _ => Raise AttributeError | None => Raise KeyError end.
Definition meta_real (h : heap) (a : nat) (k : string) : res (arr2 R) :=
  match gget (h a) k with Some (GReal x) => Ok x | Some _ => Raise AttributeError | None => Raise KeyError end.

(** ** galsim *)
(** galsim's errors are RuntimeError, most of them ValueError too *)
Inductive gexn := GRuntime | GValue | GBoth | GElse (e : exn).
Definition propagate (e : gexn) : exn :=
  match e with GRuntime | GBoth => RuntimeError | GValue => ValueError | GElse e => e end.
Inductive gout (A : Type) := GOk (a : A) | GErr (e : gexn).
Arguments GOk {A}. Arguments GErr {A}.
(** not caught *)
Definition plain {A} (r : gout A) : res A := match r with GOk a => Ok a | GErr e => Raise (propagate e) end.
(** except RuntimeError / except ValueError: raise GMixRangeError *)
Definition caught_runtime {A} (r : gout A) : res A :=
  match r with GErr (GRuntime | GBoth) => Raise GMixRangeError | _ => plain r end.
Definition caught_value {A} (r : gout A) : res A :=
  match r with GErr (GValue | GBoth) => Raise GMixRangeError | _ => plain r end.
(** what is drawn: values of the real and imaginary parts *)
Definition drawn : Type := (nat -> nat -> R) * (nat -> nat -> R).
Record gext (G II : Type) := mkGx
  { gx_round : gmodel -> R -> option R -> R -> gout G;      (* half light radius, index, flux *)
    gx_shear : G -> R -> R -> gout G;
    gx_shift : G -> R -> R -> gout G;
    gx_draw : G -> nat -> nat -> R -> gout drawn;           (* _drawKImage: shape and scale of the image *)
    gx_drawk : G -> nat -> nat -> R -> gout drawn;          (* drawKImage(image=...) *)
    gx_ii : arr2 xr -> wcs -> gout II;                      (* InterpolatedImage(Image(im, wcs=wcs)) *)
    gx_good : II -> gout nat;                               (* getGoodImageSize(nyquist_scale) *)
    gx_stepk : II -> gout R;
    gx_iidraw : II -> nat -> R -> gout drawn }.             (* drawKImage(nx=dim, ny=dim, scale=dk) *)
Arguments gx_round {G II}. Arguments gx_shear {G II}. Arguments gx_shift {G II}. Arguments gx_draw {G II}. Arguments gx_drawk {G II}.
Arguments gx_ii {G II}. Arguments gx_good {G II}. Arguments gx_stepk {G II}. Arguments gx_iidraw {G II}.

(** ** Observations *)
(** of a real space observation: image, weight, jacobian, address of the metadata *)
Record rpsf := mkRp { rp_image : arr2 R; rp_weight : arr2 R; rp_jac : jac; rp_meta : nat }.
Record robs := mkRo { ro_image : arr2 R; ro_weight : arr2 R; ro_jac : jac; ro_meta : nat; ro_psf : option rpsf }.
(** a KObservation; the metadata of the psf are a new dictionary *)
Record kpsf := mkKp { kp_image : kimage; kp_weight : arr2 R; kp_meta : gdict }.
Record kobs := mkKo { ko_image : kimage; ko_weight : arr2 R; ko_psf : option kpsf; ko_meta : nat }.

Definition weight_fits (w : arr2 R) (k : kimage) : bool := Nat.eqb (nrow w) (k_nr k) && Nat.eqb (ncol w) (k_nc k).
(** numpy.allclose of numbers *)
Definition allclose (a b : R) : bool := Rleb (Rabs (a - b)) (/ 100000000 + / 100000 * Rabs b).
(** observation.py:1164-1245 the constructor *)
Definition new_kpsf (k : kimage) (w : arr2 R) (meta : gdict) : res kpsf :=
  if weight_fits w k then Ok (mkKp k w meta) else Raise ValueError.
Definition new_kobs (k : kimage) (w : arr2 R) (psf : option kpsf) (meta : nat) : res kobs :=
  if negb (weight_fits w k) then Raise ValueError else
  match psf with
  | None => Ok (mkKo k w None meta)
  | Some p => if negb (same_dims (kp_image p) k) then Raise ValueError
              else if negb (allclose (k_scale (kp_image p)) (k_scale k)) then Raise AssertionError
              else Ok (mkKo k w (Some p) meta)
  end.

(** weight.max() *)
Definition arr_max (a : arr2 R) : res R :=
  match ravel (nrow a) (ncol a) (at2 a) with [] => Raise ValueError | x :: l => Ok (fold_left Rmax l x) end.
Definition arr_total (a : arr2 R) : R := rsum (ravel (nrow a) (ncol a) (at2 a)).
Definition of_reals (a : arr2 R) : arr2 xr := mkArr (nrow a) (ncol a) (fun r c => Fin (at2 a r c)).
(** obs.psf.image/obs.psf.image.sum() *)
Definition normalise (a : arr2 R) : arr2 xr := mkArr (nrow a) (ncol a) (fun r c => xdiv (Fin (at2 a r c)) (Fin (arr_total a))).

Section Galsim.
Context {G II : Type} (X : gext G II).

Record iidict := mkIi { i_ii : II; i_psf : option (II * rpsf); i_obs : robs; i_dim : nat; i_dk : R }.
(** observation.py:1404-1475, one observation *)
Definition make_ii (o : robs) : res iidict :=
  let* ii := plain (gx_ii X (of_reals (ro_image o)) (get_galsim_wcs (ro_jac o))) in
  match ro_psf o with
  | Some p =>
      let* pii := plain (gx_ii X (normalise (rp_image p)) (get_galsim_wcs (rp_jac p))) in
      let* d := plain (gx_good X pii) in
      let* dk := plain (gx_stepk X ii) in
      Ok (mkIi ii (Some (pii, p)) o (1 + d) dk)
  | None =>
      let* d := plain (gx_good X ii) in
      let* dk := plain (gx_stepk X ii) in
      Ok (mkIi ii None o (1 + d) dk)
  end.
(** dimarr.argmax(): the first of the largest *)
Fixpoint largest (best : nat * R) (l : list (nat * R)) : nat * R :=
  match l with [] => best | x :: l => largest (if Nat.ltb (fst best) (fst x) then x else best) l end.
(** observation.py:1361-1488 make_iilist *)
Definition make_iilist (obs : list (list robs)) : res (list (list iidict) * nat * R) :=
  let* l := mapM (mapM make_ii) obs in
  match map (fun i => (i_dim i, i_dk i)) (List.concat l) with
  | [] => Raise ValueError
  | x :: rest => let (dim, dk) := largest x rest in Ok (l, dim, dk)
  end.
(** weight.array[:, :] = 0.5*max; weight *= 1.0/size *)
Definition flat_weight (dim : nat) (mx : R) : arr2 R := mkArr dim dim (fun _ _ => 1/2 * mx * (1 / INR (dim * dim))).
(** observation.py:1520-1567, one observation; the metadata of the observation are changed in
    place and become those of the result *)
Definition make_one (dim : nat) (dk : R) (h : heap) (i : iidict) : heap * res kobs :=
  match (let* k := plain (gx_iidraw X (i_ii i) dim dk) in
         let* mx := arr_max (ro_weight (i_obs i)) in
         let* psf := match i_psf i with
                     | None => Ok None
                     | Some (pii, p) =>
                         let* pk := plain (gx_iidraw X pii dim dk) in
                         let* pmx := arr_max (rp_weight p) in
                         let* q := new_kpsf (mkKim dim dim dk (fst pk) (snd pk)) (flat_weight dim pmx) (gset (h (rp_meta p)) "ii" GOpaque) in
                         Ok (Some q)
                     end in
         Ok (k, mx, psf)) with
  | Raise e => (h, Raise e)
  | Ok (k, mx, psf) =>
      let a := ro_meta (i_obs i) in
      let h := hput h a "realspace_gsimage" (GReal (ro_image (i_obs i))) in
      let h := hput h a "scale" (GNum (get_scale (ro_jac (i_obs i)))) in
      (h, new_kobs (mkKim dim dim dk (fst k) (snd k)) (flat_weight dim mx) psf a)
  end.
Fixpoint make_list (dim : nat) (dk : R) (h : heap) (l : list iidict) : heap * res (list kobs) :=
  match l with
  | [] => (h, Ok [])
  | i :: l =>
      let (h, r) := make_one dim dk h i in
      match r with
      | Raise e => (h, Raise e)
      | Ok k => let (h, r) := make_list dim dk h l in (h, let* ks := r in Ok (k :: ks))
      end
  end.
Fixpoint make_bands (dim : nat) (dk : R) (h : heap) (l : list (list iidict)) : heap * res (list (list kobs)) :=
  match l with
  | [] => (h, Ok [])
  | i :: l =>
      let (h, r) := make_list dim dk h i in
      match r with
      | Raise e => (h, Raise e)
      | Ok k => let (h, r) := make_bands dim dk h l in (h, let* ks := r in Ok (k :: ks))
      end
  end.
(** observation.py:1491-1571 make_kobs *)
Definition make_kobs (h : heap) (obs : list (list robs)) : heap * res (list (list kobs)) :=
  match make_iilist obs with
  | Raise e => (h, Raise e)
  | Ok (l, dim, dk) => make_bands dim dk h l
  end.

(** ** The fit *)
Record gfit := mkGf
  { gf_model : gmodel; gf_prior : option jprior; gf_obs : list (list kobs);
    gf_n_prior : nat; gf_totpix : nat; gf_size : nat; gf_npars : nat;
    gf_buf : list R (* _band_pars *) }.
Definition with_buf (F : gfit) (b : list R) : gfit :=
  mkGf (gf_model F) (gf_prior F) (gf_obs F) (gf_n_prior F) (gf_totpix F) (gf_size F) (gf_npars F) b.
(** real space observations, or Fourier space ones *)
Inductive ginput := InReal (obs : list (list robs)) | InK (obs : list (list kobs)).

(** ngmix/fitting/galsim_results.py:642-662 get_galsim_npars *)
Definition get_galsim_npars (m : gmodel) (nband : nat) : nat :=
  match m with GExp | GDev | GGauss => 5 + nband | GSpergel | GMoffat => 6 + nband end.
(** ngmix/fitting/galsim_results.py:224-229, 419-424, 485-490 _set_n_prior_pars *)
Definition n_prior_of (m : gmodel) (prior : option jprior) (nband : nat) : nat :=
  match prior with
  | None => 0
  | Some _ => match m with GExp | GDev | GGauss => 1 + 1 + 1 + 1 + nband | GSpergel | GMoffat => 1 + 1 + 1 + 1 + 1 + nband end
  end.
(** ngmix/fitting/galsim_results.py:178-189, 406-417, 469-480 get_band_pars: the array is self._band_pars, filled in place *)
Definition n_before (m : gmodel) : nat := match m with GExp | GDev | GGauss => 5 | GSpergel | GMoffat => 6 end.
Definition fill_band (k : nat) (buf pars : list R) (band : nat) : list R * res unit :=
  if negb (Nat.eqb (List.length pars) 1) && Nat.ltb (List.length pars) k then (buf, Raise ValueError) else
  let head := match pars with [x] => repeat x k | _ => firstn k pars end in
  let buf := (head ++ skipn k buf)%list in
  match nth_error pars (k + band) with
  | None => (buf, Raise IndexError)
  | Some f => ((firstn k buf ++ f :: skipn (S k) buf)%list, Ok tt)
  end.
(** the array that is returned is the buffer *)
Inductive aref := RefBandPars.
Definition deref (F : gfit) (a : aref) : list R := match a with RefBandPars => gf_buf F end.
Definition get_band_pars (F : gfit) (pars : list R) (band : nat) : gfit * res aref :=
  let (b, r) := fill_band (n_before (gf_model F)) (gf_buf F) pars band in
  (with_buf F b, let* _ := r in Ok RefBandPars).

(** ngmix/fitting/galsim_results.py:145-164, 388-404, 451-467 make_round_model *)
Definition make_round_model (m : gmodel) (pars : list R) : res G :=
  let* r50 := ritem pars 4 in
  match m with
  | GExp | GDev | GGauss =>
      let* flux := ritem pars 5 in
      if Rltb r50 (1 / 10000) then Raise GMixRangeError else caught_runtime (gx_round X m r50 None flux)
  | GSpergel | GMoffat =>
      let* nu := ritem pars 5 in
      let* flux := ritem pars 6 in
      caught_runtime (gx_round X m r50 (Some nu) flux)
  end.
(** ngmix/fitting/galsim_results.py:125-143 make_model *)
Definition make_model (m : gmodel) (pars : list R) : res G :=
  let* g := make_round_model m pars in
  let* c1 := ritem pars 0 in
  let* c2 := ritem pars 1 in
  let* g1 := ritem pars 2 in
  let* g2 := ritem pars 3 in
  let* g := caught_value (gx_shear X g g1 g2) in
  plain (gx_shift X g c1 c2).

(** ngmix/fitting/galsim_results.py:236-264 _init_model_images and _create_models_in_kobs, one observation *)
Definition ierr_of (w : arr2 R) : arr2 R := mkArr (nrow w) (ncol w) (fun r c => if Rltb 0 (at2 w r c) then sqrt (at2 w r c) else 0).
Definition init_one (h : heap) (ko : kobs) : heap :=
  let h := hput h (ko_meta ko) "ierr" (GReal (ierr_of (ko_weight ko))) in
  let h := hput h (ko_meta ko) "kmodel" (GKim (ko_image ko)) in
  hput h (ko_meta ko) "scratch" (GKim (ko_image ko)).
Definition init_images (h : heap) (obs : list (list kobs)) : heap := fold_left init_one (List.concat obs) h.

(** ngmix/fitting/galsim_results.py:266-285 _check_guess *)
Fixpoint check_bands (m : gmodel) (buf guess : list R) (bands : list nat) : list R * res unit :=
  match bands with
  | [] => (buf, Ok tt)
  | b :: bands =>
      let (buf, r) := fill_band (n_before m) buf guess b in
      match (let* _ := r in make_model m buf) with
      | Raise e => (buf, Raise e)
      | Ok _ => check_bands m buf guess bands
      end
  end.
Definition check_guess (F : gfit) (guess : list R) : gfit * res unit :=
  if negb (Nat.eqb (List.length guess) (gf_npars F)) then (F, Raise ValueError) else
  let (b, r) := check_bands (gf_model F) (gf_buf F) guess (seq 0 (List.length (gf_obs F))) in (with_buf F b, r).

(** ngmix/fitting/galsim_results.py:31-45 __init__, 191-219, 231-234, 296-309 *)
Definition totpix_of (obs : list (list kobs)) : nat := list_sum (map (fun k => k_nr (ko_image k) * k_nc (ko_image k))%nat (List.concat obs)).
Definition fit_new (m : gmodel) (prior : option jprior) (obs : list (list kobs)) : gfit :=
  let nband := List.length obs in
  let np := n_prior_of m prior nband in
  let npars := get_galsim_npars m nband in
  mkGf m prior obs np (totpix_of obs) (np + 2 * totpix_of obs) npars (repeat 0 (npars - nband + 1)).
Definition gfit_init (h : heap) (m : gmodel) (input : ginput) (guess : list R) (prior : option jprior) : heap * res gfit :=
  let (h, r) := match input with InReal obs => make_kobs h obs | InK obs => (h, Ok obs) end in
  match r with
  | Raise e => (h, Raise e)
  | Ok obs =>
      let F := fit_new m prior obs in
      let h := init_images h obs in
      let (F, r) := check_guess F guess in
      (h, let* _ := r in Ok F)
  end.

(** ** Evaluation *)
(** gal._drawKImage(kmodel), or gal.drawKImage(image=kmodel) *)
Definition draw_on (draw : G -> nat -> nat -> R -> gout drawn) (g : G) (k : kimage) : gout kimage :=
  match draw g (k_nr k) (k_nc k) (k_scale k) with
  | GOk d => GOk (mkKim (k_nr k) (k_nc k) (k_scale k) (fst d) (snd d))
  | GErr e => GErr e
  end.
(** kmodel *= psf.kimage; images of other sizes are refused by galsim, with GalSimError *)
Definition kmul (a b : kimage) : gout kimage :=
  if same_dims a b
  then GOk (mkKim (k_nr a) (k_nc a) (k_scale a)
              (fun r c => k_re a r c * k_re b r c - k_im a r c * k_im b r c)
              (fun r c => k_re a r c * k_im b r c + k_im a r c * k_re b r c))
  else GErr GBoth.
(** with a psf *)
Definition through_psf (ko : kobs) (k : kimage) : gout kimage :=
  match ko_psf ko with None => GOk k | Some p => kmul k (kp_image p) end.
(** the try of lines 105-123: RuntimeError becomes GMixRangeError *)
Definition as_range {A} (r : res A) : res A := match r with Raise RuntimeError => Raise GMixRangeError | _ => r end.

(** ngmix/fitting/galsim_results.py:112-121, one observation; the image drawn is stored before the psf is multiplied *)
Definition fill_model (m : gmodel) (bp : list R) (h : heap) (ko : kobs) : heap * res unit :=
  match (let* g := make_model m bp in
         let* k := meta_kim h (ko_meta ko) "kmodel" in
         plain (draw_on (gx_draw X) g k)) with
  | Raise e => (h, Raise e)
  | Ok k =>
      let h := hput h (ko_meta ko) "kmodel" (GKim k) in
      match plain (through_psf ko k) with
      | Raise e => (h, Raise e)
      | Ok k => (hput h (ko_meta ko) "kmodel" (GKim k), Ok tt)
      end
  end.
Fixpoint fill_list (m : gmodel) (bp : list R) (h : heap) (l : list kobs) : heap * res unit :=
  match l with
  | [] => (h, Ok tt)
  | ko :: l => let (h, r) := fill_model m bp h ko in
               match r with Raise e => (h, Raise e) | Ok _ => fill_list m bp h l end
  end.
Fixpoint fill_bands (m : gmodel) (pars buf : list R) (band : nat) (h : heap) (obs : list (list kobs)) : heap * list R * res unit :=
  match obs with
  | [] => (h, buf, Ok tt)
  | l :: obs =>
      let (buf, r) := fill_band (n_before m) buf pars band in
      match r with
      | Raise e => (h, buf, Raise e)
      | Ok _ => let (h, r) := fill_list m buf h l in
                match r with Raise e => (h, buf, Raise e) | Ok _ => fill_bands m pars buf (S band) h obs end
      end
  end.
(** ngmix/fitting/galsim_results.py:99-123 _fill_models *)
Definition fill_models (h : heap) (F : gfit) (pars : list R) : heap * gfit * res unit :=
  let '(h, b, r) := fill_bands (gf_model F) pars (gf_buf F) 0 h (gf_obs F) in (h, with_buf F b, as_range r).

(** fdiff[start:start + size] = values *)
Definition assign_slice (fd : list xr) (start : nat) (vals : list R) : res (list xr) :=
  if Nat.leb (start + List.length vals) (List.length fd)
  then Ok (firstn start fd ++ map Fin vals ++ skipn (start + List.length vals) fd)%list
  else match vals, Nat.leb (List.length fd) start with
       | [_], true => Ok fd
       | _, _ => Raise ValueError
       end.
(** ngmix/fitting/galsim_results.py:69-92, one observation *)
Definition diff_one (h : heap) (fd : list xr) (start : nat) (ko : kobs) : heap * res (list xr * nat) :=
  let a := ko_meta ko in
  match (let* kmodel := meta_kim h a "kmodel" in
         let* ierr := meta_real h a "ierr" in
         let* scratch := meta_kim h a "scratch" in
         Ok (kmodel, ierr, scratch)) with
  | Raise e => (h, Raise e)
  | Ok (kmodel, ierr, scratch) =>
      if negb (same_dims kmodel scratch) then (h, Raise ValueError) else
      let s1 := mkKim (k_nr scratch) (k_nc scratch) (k_scale scratch) (k_re kmodel) (k_im kmodel) in
      if negb (same_dims s1 (ko_image ko)) then (hput h a "scratch" (GKim s1), Raise RuntimeError) else
      let s2 := mkKim (k_nr s1) (k_nc s1) (k_scale s1)
                  (fun r c => k_re s1 r c - k_re (ko_image ko) r c) (fun r c => k_im s1 r c - k_im (ko_image ko) r c) in
      if negb (weight_fits ierr s2) then (hput h a "scratch" (GKim s2), Raise ValueError) else
      let s3 := mkKim (k_nr s2) (k_nc s2) (k_scale s2)
                  (fun r c => k_re s2 r c * at2 ierr r c) (fun r c => k_im s2 r c * at2 ierr r c) in
      (hput h a "scratch" (GKim s3),
       let imsize := (k_nr s3 * k_nc s3)%nat in
       let* fd := assign_slice fd start (ravel (k_nr s3) (k_nc s3) (k_re s3)) in
       let* fd := assign_slice fd (start + imsize) (ravel (k_nr s3) (k_nc s3) (k_im s3)) in
       Ok (fd, (start + imsize + imsize)%nat))
  end.
Fixpoint diff_list (h : heap) (fd : list xr) (start : nat) (l : list kobs) : heap * res (list xr * nat) :=
  match l with
  | [] => (h, Ok (fd, start))
  | ko :: l => let (h, r) := diff_one h fd start ko in
               match r with Raise e => (h, Raise e) | Ok (fd, start) => diff_list h fd start l end
  end.
(** ngmix/fitting/galsim_results.py:47-97 calc_fdiff *)
Definition g_fill_priors (F : gfit) (pars : list R) (fd : list xr) : res (list xr * nat) :=
  match gf_prior F with None => Ok (fd, 0%nat) | Some p => jp_fill p (map Fin pars) fd end.
Definition calc_fdiff (h : heap) (F : gfit) (pars : list R) : heap * gfit * res (list xr) :=
  let low := repeat LOWVAL (gf_size F) in
  let '(h, F, r) := fill_models h F pars in
  match r with
  | Raise e => (h, F, or_range (Raise e) low)
  | Ok _ =>
      match g_fill_priors F pars (repeat (Fin 0) (gf_size F)) with
      | Raise e => (h, F, or_range (Raise e) low)
      | Ok (fd, start) =>
          let (h, r) := diff_list h fd start (List.concat (gf_obs F)) in
          (h, F, or_range (rmap fst r) low)
      end
  end.

(** ngmix/fitting/galsim_results.py:322-361 calc_s2n_r, one observation *)
Definition s2n_one (m : gmodel) (bp : list R) (h : heap) (ko : kobs) (s : R) : heap * res R :=
  let round := (firstn 2 bp ++ [0; 0] ++ skipn 4 bp)%list in
  match (let* g := make_model m round in
         let* k := meta_kim h (ko_meta ko) "kmodel" in
         plain (draw_on (gx_drawk X) g k)) with
  | Raise e => (h, Raise e)
  | Ok k =>
      let h := hput h (ko_meta ko) "kmodel" (GKim k) in
      match plain (through_psf ko k) with
      | Raise e => (h, Raise e)
      | Ok k =>
          if negb (weight_fits (ko_weight ko) k) then (hput h (ko_meta ko) "kmodel" (GKim k), Raise ValueError) else
          let sq := mkKim (k_nr k) (k_nc k) (k_scale k)
                      (fun r c => k_re k r c * k_re k r c * at2 (ko_weight ko) r c)
                      (fun r c => k_im k r c * k_im k r c * at2 (ko_weight ko) r c) in
          (hput h (ko_meta ko) "kmodel" (GKim sq),
           Ok (s + rsum (ravel (k_nr k) (k_nc k) (k_re sq)) + rsum (ravel (k_nr k) (k_nc k) (k_im sq))))
      end
  end.
Fixpoint s2n_list (m : gmodel) (bp : list R) (h : heap) (l : list kobs) (s : R) : heap * res R :=
  match l with
  | [] => (h, Ok s)
  | ko :: l => let (h, r) := s2n_one m bp h ko s in
               match r with Raise e => (h, Raise e) | Ok s => s2n_list m bp h l s end
  end.
Fixpoint s2n_bands (m : gmodel) (pars buf : list R) (band : nat) (h : heap) (obs : list (list kobs)) (s : R) : heap * list R * res R :=
  match obs with
  | [] => (h, buf, Ok s)
  | l :: obs =>
      let (buf, r) := fill_band (n_before m) buf pars band in
      match r with
      | Raise e => (h, buf, Raise e)
      | Ok _ => let (h, r) := s2n_list m buf h l s in
                match r with Raise e => (h, buf, Raise e) | Ok s => s2n_bands m pars buf (S band) h obs s end
      end
  end.
Definition calc_s2n_r (h : heap) (F : gfit) (pars : list R) : heap * gfit * res R :=
  let '(h, b, r) := s2n_bands (gf_model F) pars (gf_buf F) 0 h (gf_obs F) 0 in
  (h, with_buf F b, let* s := r in Ok (if Rltb 0 s then sqrt s else 0)).

(** ** The result: lines 311-320 set_fit_result for flags == 0; _set_g and _set_flux are those of
    FitModel (results.py:402-409, 843-873), the latter with index 5 for every model that is not bd or bdf *)
Record gres := mkGr { gr_s2n_r : R; gr_g : list R; gr_g_cov : arr2 R; gr_g_err : list R; gr_flux : fluxval }.
Definition g_set_flux (nband : nat) (pars : list R) (cov : arr2 R) : res fluxval :=
  let start := 5%nat in
  if Nat.eqb nband 1 then
    let* f := ritem pars start in
    let* v := citem cov start start in
    Ok (FluxOne f (xsqrt (Fin v)))
  else
    let c := block cov start (nrow cov) in
    Ok (FluxMany (skipn start pars) c (map (fun i => xsqrt (Fin (at2 c i i))) (seq 0 (Nat.min (nrow c) (ncol c))))).
Definition set_fit_result (h : heap) (F : gfit) (pars err : list R) (cov : arr2 R) : heap * gfit * res gres :=
  let '(h, F, r) := calc_s2n_r h F pars in
  (h, F,
   let* s2n := r in
   let* flux := g_set_flux (List.length (gf_obs F)) pars cov in
   Ok (mkGr s2n (firstn 2 (skipn 2 pars)) (block cov 2 4) (firstn 2 (skipn 2 err)) flux)).
End Galsim.

(** ** GalsimPSFFitModel, lines 493-639: the template images are drawn by galsim.  go and get_dof are
    those of PSFFluxFitModel; _get_model (531-542) rescales by flux/sum, that is, with norm 1. *)
Definition galsim_psf_go (obs : list PSFFlux_Model.pobs) (templates : list (arr2 xr)) : option (res PSFFlux_Model.pres) :=
  match mapM PSFFlux_Model.pixels_size obs with
  | Raise e => Some (Raise e)
  | Ok sizes =>
      option_map snd (PSFFlux_Model.go (PSFFlux_Model.mkPfit obs (map (fun t => PSFFlux_Model.STempl t (Fin 1)) templates)
                                          (fold_left Nat.add sizes 0%nat)))
  end.
