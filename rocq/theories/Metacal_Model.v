(** ngmix/metacal/metacal.py, convenience.py, bootstrap.py and defaults.py.

    Galsim is not modelled: its surface brightness profiles are an arbitrary type with
    arbitrary pure operations, some of which may raise.  Observations are values
    (ObsVal_Model) with the attributes metacal adds.  The galsim cache (metacal.py:24-59) is
    off by default; it is in GalsimCache_Model.v. *)
From Verif Require Import Base Shape_Model Moments_Model Jacobian_Model Pixels_Model GMix_Model Obs_Model ObsVal_Model SimObs_Model.
From Verif Require GMixObj_Model.
From Coq Require String.
Import String.StringSyntax.
Local Open Scope R_scope.
Local Open Scope string_scope.
Local Open Scope list_scope.
Local Notation string := String.string.

(** ---- dictionaries with string keys, in order of insertion ---- *)
Definition sdict (A : Type) := list (string * A).
Fixpoint sget {A} (d : sdict A) (k : string) : option A :=
  match d with [] => None | (k', v) :: d => if String.eqb k k' then Some v else sget d k end.
Fixpoint sset {A} (d : sdict A) (k : string) (v : A) : sdict A :=
  match d with
  | [] => [(k, v)]
  | (k', v') :: d => if String.eqb k k' then (k', v) :: d else (k', v') :: sset d k v
  end.
Definition keys {A} (d : sdict A) : list string := map fst d.
(** x in list, for strings *)
Definition is_in (x : string) (l : list string) : bool := existsb (String.eqb x) l.
(** 'psf' in type: substring *)
Definition contains (sub s : string) : bool := match String.index 0 sub s with Some _ => true | None => false end.

(** ngmix/metacal/defaults.py:8-20 *)
Definition METACAL_TYPES : list string :=
  ["noshear"; "1p"; "1m"; "2p"; "2m"; "1p_psf"; "1m_psf"; "2p_psf"; "2m_psf"].
Definition METACAL_MINIMAL_TYPES : list string := ["noshear"; "1p"; "1m"; "2p"; "2m"].

(** ---- galsim ---- *)
Record galsim := mkGs {
  prof : Type;
  (** InterpolatedImage(Image(im, wcs), 'lanczos15') *)
  gs_interp : arr2 R -> wcs -> res prof;
  (** wcs.toWorld(Pixel(scale=1)) *)
  gs_pixel : wcs -> res prof;
  gs_deconvolve : prof -> prof;
  gs_convolve : prof -> prof -> prof;
  gs_dilate : R -> prof -> prof;
  gs_shear : R -> R -> prof -> res prof;
  (** drawImage(method='no_pixel') with rows, columns and wcs *)
  gs_draw : nat -> nat -> wcs -> prof -> res (arr2 R);
  (** Gaussian(sigma, flux); None is nan *)
  gs_gaussian : option R -> R -> res prof;
  gs_flux : prof -> R;
  gs_stepk : prof -> R;
  (** drawKImage(scale).real.array, a square *)
  gs_kimage : R -> prof -> res (nat * (nat -> nat -> R)) }.

(** ---- dilations ---- *)

(** ngmix/metacal/metacal.py:833-834 *)
Definition shear_dilation (sh : shape) : R := 1 + 2 * sqrt (sh_g1 sh ^ 2 + sh_g2 sh ^ 2).
(** ngmix/metacal/metacal.py:793-816 _get_ellip_dilation; None is nan.  The largest eigenvalue
    that numpy returns for the symmetric matrix is written in closed form. *)
Definition get_ellip_dilation (e1 e2 T : R) : option R :=
  let '(irr, irc, icc) := e2mom e1 e2 T in
  if Reqb (T / 2) 0 then None else
  let d := eigmax irr irc icc / (T / 2) in
  if Rltb d 0 then None else
  let d := 1 + 2 * (sqrt d - 1) in
  Some (if Rltb (11 / 10) d then 11 / 10 else d).
(** ngmix/metacal/metacal.py:728-730: sigma of the kernel of MetacalFitGaussPSF; None is nan *)
Definition fit_sigma (e1 e2 T : R) : option R :=
  match get_ellip_dilation e1 e2 T with
  | None => None
  | Some d => if Rltb (T * d / 2) 0 then None else Some (sqrt (T * d / 2))
  end.

Section Metacal.
Variable G : galsim.
(** str of a python float *)
Variable fstr : R -> string.

(** ngmix/metacal/metacal.py:819-835 _do_dilate *)
Definition do_dilate (p : prof G) (sh : shape) : prof G := gs_dilate G (shear_dilation sh) p.

(** ngmix/metacal/metacal.py:846-873 _get_gauss_target_psf *)
Definition small_kval : R := 1 / 100.
Definition smaller_kval : R := 3 / 1000.
Definition kgrid (n : nat) : list (nat * nat) := flat_map (fun r => map (pair r) (seq 0 n)) (seq 0 n).
Definition ksq (dk : R) (n r c : nat) : R := ((INR c - INR n / 2) ^ 2 + (INR r - INR n / 2) ^ 2) * dk ^ 2.
(** numpy.min *)
Definition np_min (l : list R) : res R :=
  match l with [] => Raise ValueError | x :: l => Ok (fold_left Rmin l x) end.
Definition ksq_max (p : prof G) : res R :=
  let dk := gs_stepk G p / 4 in
  let* (n, k) := gs_kimage G dk p in
  np_min (map (fun rc => ksq dk n (fst rc) (snd rc))
              (filter (fun rc => Rltb (k (fst rc) (snd rc)) (small_kval * gs_flux G p)) (kgrid n))).
(** a ksq_max of zero gives sigma=inf, which is not modelled *)
Definition gauss_target_psf (p : prof G) (flux : R) : res (prof G) :=
  let* m := ksq_max p in
  if Reqb m 0 then Raise OtherError
  else gs_gaussian G (Some (sqrt (- (2) * ln smaller_kval / m))) flux.

(** ---- the objects ---- *)

(** the four classes and what they keep for the target psf *)
Inductive kind :=
| KDilate
| KGauss
| KFit (kernel : prof G)       (* gauss_psf *)
| KAnalytic (kernel : prof G). (* psf_obj *)

(** psf_noise_image and psf_weight of MetacalGaussPSF *)
Record psfnoise := mkPn { pn_noise : option (arr2 R); pn_weight : arr2 R; pn_flux : R }.

Record mc := mkMc {
  mc_kind : kind; mc_obs : obsval; mc_psf : obsval; (* obs and obs.psf *)
  mc_pixel : prof G;
  mc_gal : prof G;       (* image_int_nopsf *)
  mc_psf_int : prof G; mc_psf_nopix : prof G;
  mc_noise : psfnoise (* not used by KDilate *) }.

(** an entry of _psf_cache: a profile, or the pair of psf image and profile *)
Inductive centry := CObj (p : prof G) | CPair (im : arr2 R) (p : prof G).
Definition cache := sdict centry.

(** the new observations; image_orig and weight_orig; galsim_obj of the psf *)
Record mout := mkMo { mo_val : obsval; mo_orig : option (arr2 R * arr2 R); mo_psf_obj : option (prof G) }.

(** ngmix/metacal/metacal.py:314-318 _get_psf_key *)
Definition psf_key (doshear : bool) (sh : shape) : string :=
  String.append (if doshear then "True" else "False")
    (String.append "-" (String.append (fstr (sh_g1 sh)) (String.append "-" (fstr (sh_g2 sh))))).

(** ngmix/metacal/metacal.py:290-312 _get_dilated_psf of MetacalDilatePSF *)
Definition dilated_psf_dilate (m : mc) (sh : shape) (doshear : bool) (c : cache) : cache * res (prof G) :=
  let key := psf_key doshear sh in
  let c := match sget c key with None => sset c key (CObj (do_dilate (mc_psf_nopix m) sh)) | Some _ => c end in
  match sget c key with
  | Some (CObj p) =>
      (c, let* p := if doshear then gs_shear G (sh_g1 sh) (sh_g2 sh) p else Ok p in
          Ok (gs_convolve G p (mc_pixel m)))
  | _ => (c, Raise TypeError) (* not reached from get_target_psf *)
  end.
(** _get_dilated_psf of all classes: also ngmix/metacal/metacal.py:570-585, 647-658, 781-790 *)
Definition dilated_psf (m : mc) (sh : shape) (doshear : bool) (c : cache) : cache * res (prof G) :=
  match mc_kind m with
  | KDilate => dilated_psf_dilate m sh doshear c
  | KGauss =>
      (c, if doshear then Raise AssertionError
          else let* p := gauss_target_psf (mc_psf_int m) (pn_flux (mc_noise m)) in Ok (do_dilate p sh))
  | KFit p | KAnalytic p => (c, if doshear then Raise AssertionError else Ok (do_dilate p sh))
  end.

(** RuntimeErrors of drawImage, ngmix/metacal/metacal.py:281-283 and 350-352 *)
Definition range_error {A} (r : res A) : res A :=
  match r with Raise RuntimeError => Raise GMixRangeError | _ => r end.

(** ngmix/metacal/metacal.py:244-288 get_target_psf *)
Definition get_target_psf (m : mc) (sh : shape) (doshear : bool) (c : cache) : cache * res (arr2 R * prof G) :=
  let key := psf_key doshear sh in
  let (c', made) :=
    match sget c key with
    | Some _ => (c, Ok tt)
    | None =>
        match dilated_psf m sh doshear c with
        | (c', Raise e) => (c', Raise e)
        | (c', Ok p) =>
            let pim := v_image (mc_psf m) in
            match range_error (gs_draw G (nrow pim) (ncol pim) (get_galsim_wcs (v_jac (mc_psf m))) p) with
            | Raise e => (c', Raise e)
            | Ok im => (sset c' key (CPair im p), Ok tt)
            end
        end
    end in
  (c', let* _ := made in
       match sget c' key with
       | Some (CPair im p) => Ok (im, p)
       | Some (CObj _) => Raise TypeError (* a GSObject cannot be unpacked *)
       | None => Raise KeyError
       end).

(** ngmix/metacal/metacal.py:320-384 get_target_image, _get_target_gal_obj,
    get_sheared_image_nopsf *)
Definition get_target_image (m : mc) (psf : prof G) (shear : option shape) : res (arr2 R) :=
  let* gal := match shear with
              | Some sh => gs_shear G (sh_g1 sh) (sh_g2 sh) (mc_gal m)
              | None => Ok (mc_gal m)
              end in
  let im := v_image (mc_obs m) in
  range_error (gs_draw G (nrow im) (ncol im) (get_galsim_wcs (v_jac (mc_obs m))) (gs_convolve G gal psf)).

(** image, weight and jacobian changed within "with obs.writeable()" *)
Definition v_write (v : obsval) (im w : arr2 R) (j : jac) : res obsval :=
  let '(OV _ _ _ opts g d st ig p) := v in
  let* _ := v_pixels im w j st ig in
  Ok (OV im w j opts g d st ig p).
Definition add2 (a b : arr2 R) : arr2 R := mkArr (nrow a) (ncol a) (fun r c => at2 a r c + at2 b r c).
Definition same_shape {A B} (a : arr2 A) (b : arr2 B) : bool := shape_eqb (nrow a, ncol a) (nrow b, ncol b).

(** ngmix/metacal/metacal.py:455-459 and 587-604 _make_psf_obs.  Broadcasting of images of
    other dimensions is not modelled. *)
Definition make_psf_obs (m : mc) (psf_im : arr2 R) : res obsval :=
  match mc_kind m with
  | KDilate => let* new := v_copy (mc_psf m) in v_set_image new psf_im
  | _ =>
      let* im := match pn_noise (mc_noise m) with
                 | None => Ok psf_im
                 | Some n => if same_shape psf_im n then Ok (add2 psf_im n) else Raise ValueError
                 end in
      let* new := v_copy (mc_psf m) in
      if negb (same_shape im (v_image new)) then Raise ValueError else
      v_write new im (pn_weight (mc_noise m))
        (set_col0 (set_row0 (v_jac new) ((INR (nrow im) - 1) / 2)) ((INR (ncol im) - 1) / 2))
  end.
(** ngmix/metacal/metacal.py:461-479 _make_obs *)
Definition make_obs (m : mc) (im psf_im : arr2 R) : res obsval :=
  let* new := v_copy (mc_obs m) in
  let* new := v_set_image new im in
  let* p := make_psf_obs m psf_im in
  Ok (v_set_psf new p).

(** ngmix/metacal/metacal.py:193-227 get_obs_galshear *)
Definition get_obs_galshear (m : mc) (sh : shape) (c : cache) : cache * res mout :=
  let (c', r) := get_target_psf m sh false c in
  (c', let* (pim, p) := r in
       let* im := get_target_image m p (Some sh) in
       let* o := make_obs m im pim in
       Ok (mkMo o None (Some p))).
(** the same with get_unsheared=True *)
Definition get_obs_galshear_both (m : mc) (sh : shape) (c : cache) : cache * res (mout * mout) :=
  let (c', r) := get_target_psf m sh false c in
  (c', let* (pim, p) := r in
       let* im := get_target_image m p (Some sh) in
       let* o := make_obs m im pim in
       let* uim := get_target_image m p None in
       let* u := make_obs m uim pim in
       Ok (mkMo o None (Some p), mkMo u None (Some p))).
(** ngmix/metacal/metacal.py:229-242 get_obs_psfshear *)
Definition get_obs_psfshear (m : mc) (sh : shape) (c : cache) : cache * res mout :=
  let (c', r) := get_target_psf m sh true c in
  (c', let* (pim, p) := r in
       let* im := get_target_image m p None in
       let* o := make_obs m im pim in
       Ok (mkMo o None None)).

(** ngmix/metacal/metacal.py:152-165: shdict *)
Definition shear_dict (step : R) : res (sdict shape) :=
  let* s1m := Shape_init (- step) 0 in
  let* s1p := Shape_init step 0 in
  let* s2m := Shape_init 0 (- step) in
  let* s2p := Shape_init 0 step in
  let d := [("1m", s1m); ("1p", s1p); ("2m", s2m); ("2p", s2p)] in
  foldM (fun d k => match sget d k with
                    | None => Raise KeyError
                    | Some s => let* s := Shape_copy s in Ok (sset d (String.append k "_psf") s)
                    end) (keys d) d.

(** ngmix/metacal/metacal.py:169-189 *)
Fixpoint get_types (m : mc) (shd : sdict shape) (types : list string) (c : cache) (od : sdict mout)
  : cache * res (sdict mout) :=
  match types with
  | [] => (c, Ok od)
  | t :: types =>
      if String.eqb t "noshear" then get_types m shd types c od else
      match sget shd t with
      | None => (c, Raise KeyError)
      | Some sh =>
          if contains "psf" t then
            match get_obs_psfshear m sh c with
            | (c', Raise e) => (c', Raise e)
            | (c', Ok o) => get_types m shd types c' (sset od t o)
            end
          else if String.eqb t "1p" then
            match get_obs_galshear_both m sh c with
            | (c', Raise e) => (c', Raise e)
            | (c', Ok (o, u)) => get_types m shd types c' (sset (sset od "noshear" u) t o)
            end
          else
            match get_obs_galshear m sh c with
            | (c', Raise e) => (c', Raise e)
            | (c', Ok o) => get_types m shd types c' (sset od t o)
            end
      end
  end.

(** the argument types; the list is the caller's object *)
Inductive targ := TNone | TList (l : list string) | TTuple (l : list string).
(** the new state of the caller's object *)
Definition caller (t : targ) (l : list string) : targ := match t with TList _ => TList l | _ => t end.

(** ngmix/metacal/metacal.py:111-191 and 523-552 get_all *)
Definition allowed_types (m : mc) : list string :=
  match mc_kind m with KDilate => METACAL_TYPES | _ => METACAL_MINIMAL_TYPES end.
Definition get_all (m : mc) (step : R) (types : targ) (c : cache) : targ * (cache * res (sdict mout)) :=
  let l := match types with TNone => allowed_types m | TList l | TTuple l => l end in
  if negb (forallb (fun t => is_in t (allowed_types m)) l) then (types, (c, Raise AssertionError)) else
  let add := is_in "noshear" l && negb (is_in "1p" l) in
  match types, add with
  | TTuple _, true => (types, (c, Raise AttributeError))
  | _, _ =>
      let l := if add then l ++ ["1p"] else l in
      (caller types l,
       match shear_dict step with
       | Raise e => (c, Raise e)
       | Ok shd => get_types m shd l c []
       end)
  end.

(** ---- making the objects ---- *)
Variable W : Type.
Variable normal : W -> nat -> nat -> W * arr2 R.

(** ngmix/metacal/metacal.py:99-109 and 386-447 __init__ of MetacalDilatePSF *)
Record mcdata := mkMd { md_psf : obsval; md_pixel : prof G; md_gal : prof G; md_psf_int : prof G; md_psf_nopix : prof G }.
Definition set_data (v : obsval) : res mcdata :=
  match v_psf v with
  | None => Raise ValueError
  | Some p =>
      let* pixel := gs_pixel G (get_galsim_wcs (v_jac v)) in
      let* image_int := gs_interp G (v_image v) (get_galsim_wcs (v_jac v)) in
      let* psf_int := gs_interp G (v_image p) (get_galsim_wcs (v_jac p)) in
      Ok (mkMd p pixel (gs_convolve G image_int (gs_deconvolve G psf_int)) psf_int
               (gs_convolve G psf_int (gs_deconvolve G pixel)))
  end.
(** ngmix/metacal/metacal.py:554-568 _setup_psf_noise.  A psf image with maximum zero gives
    infinite weights and is not modelled. *)
Definition np_sum (im : arr2 R) : R := fold_left Rplus (elements im) 0.
Definition np_max (l : list R) : res R :=
  match l with [] => Raise ValueError | x :: l => Ok (fold_left Rmax l x) end.
Definition setup_psf_noise (pim : arr2 R) (rng : option W) : option W * res psfnoise :=
  match np_max (elements pim) with
  | Raise e => (rng, Raise e)
  | Ok mx =>
      let sigma := mx / 50000 in
      let (rng', noise) :=
        match rng with
        | None => (None, Ok None)
        | Some w => if Rltb sigma 0 then (Some w, Raise ValueError) else
                    let (w', z) := normal w (nrow pim) (ncol pim) in
                    (Some w', Ok (Some (mkArr (nrow z) (ncol z) (fun r c => sigma * at2 z r c))))
        end in
      (rng', let* noise := noise in
             if Reqb sigma 0 then Raise OtherError else
             Ok (mkPn noise (mkArr (nrow pim) (ncol pim) (fun r c => at2 pim r c * 0 + 1 / sigma ^ 2)) (np_sum pim)))
  end.

(** results of the fits of the psf in MetacalFitGaussPSF: AdmomFitter (flags, e, T, mixture)
    and Fitter(model='gauss') (flags, mixture), both through run_psf_fitter; pf_dict stands for
    the object stored as meta['result'].  run_psf_fitter would fit the psf of what it is given: a
    psf observation is taken to have no psf of its own *)
Record pfit := mkPf { pf_flags : Z; pf_e1 : R; pf_e2 : R; pf_T : R; pf_gmix : res gmobj; pf_dict : string }.
Variable admom : W -> obsval -> W * res pfit.
Variable maxlike : W -> obsval -> W * res pfit.

(** ngmix/runners.py:216-220: what run_psf_fitter stores in the psf observation *)
Definition v_store (p : obsval) (f : pfit) : obsval * res unit :=
  let '(OV im w j opts g d st ig q) := p in
  let d := dict_set d "result" (pf_dict f) in
  if Z.eqb (pf_flags f) 0 then
    match (let* gm := pf_gmix f in gm_copy gm) with
    | Raise e => (OV im w j opts (match pf_gmix f with Ok _ => None | _ => g end) d st ig q, Raise e)
    | Ok gm => (OV im w j opts (Some gm) d st ig q, Ok tt)
    end
  else (OV im w j opts g d st ig q, Ok tt).
(** GMix.get_e1e2T, ngmix/gmix/gmix.py:158-177; its failure is reported as BootPSFFailure *)
Definition gm_e1e2T (g : gmobj) : res (R * R * R) :=
  match gm_get_e1e2T (GMixObj_Model.o_data g) with
  | Some r => Ok r
  | None => Raise OtherError (* not finite, not modelled *)
  end.
(** ngmix/metacal/metacal.py:660-735 _do_psf_fit: also the psf observation of the input, which
    has the result and the mixture afterwards *)
Definition do_psf_fit (p : obsval) (flux : R) (w : W) : W * obsval * res (prof G) :=
  match admom w p with
  | (w', Raise e) => (w', p, Raise e)
  | (w', Ok f) =>
      match v_store p f with
      | (p', Raise e) => (w', p', Raise e)
      | (p', Ok _) =>
          if Z.eqb (pf_flags f) 0 then (w', p', gs_gaussian G (fit_sigma (pf_e1 f) (pf_e2 f) (pf_T f)) flux) else
          match maxlike w' p' with
          | (w'', Raise e) => (w'', p', Raise e)
          | (w'', Ok f2) =>
              let gm := if Z.eqb (pf_flags f2) 0 then pf_gmix f2
                        else match v_gmix p' with
                             | Some g => if Nat.eqb (length (GMixObj_Model.o_data g)) 1 then gm_copy g else Raise BootPSFFailure
                             | None => Raise BootPSFFailure
                             end in
              (w'', p', let* gm := gm in
                        let* (e1, e2, T) := match gm_e1e2T gm with Raise GMixRangeError => Raise BootPSFFailure | r => r end in
                        gs_gaussian G (fit_sigma e1 e2 T) flux)
          end
      end
  end.

(** the argument psf of get_all_metacal *)
Inductive psfarg := PGauss | PFitGauss | PDilate | PProf (p : prof G) | PInvalid.

(** ngmix/metacal/convenience.py:110-121: the metacal object, the input observation as it is
    afterwards, and the generator *)
Definition no_noise : psfnoise := mkPn None (mkArr 0 0 (fun _ _ => 0)) 0.
Definition make_metacal (v : obsval) (psf : psfarg) (rng : option W) : option W * obsval * res mc :=
  match set_data v with
  | Raise e => (rng, v, Raise e)
  | Ok d =>
      let mk k v p n := mkMc k v p (md_pixel d) (md_gal d) (md_psf_int d) (md_psf_nopix d) n in
      match psf with
      | PDilate => (rng, v, Ok (mk KDilate v (md_psf d) no_noise))
      | _ =>
          match setup_psf_noise (v_image (md_psf d)) rng with
          | (rng', Raise e) => (rng', v, Raise e)
          | (rng', Ok n) =>
              match psf with
              | PGauss => (rng', v, Ok (mk KGauss v (md_psf d) n))
              | PProf p => (rng', v, Ok (mk (KAnalytic p) v (md_psf d) n))
              | PFitGauss =>
                  match rng' with
                  | None => (None, v, Raise ValueError)
                  | Some w =>
                      let '(w', p', r) := do_psf_fit (md_psf d) (pn_flux n) w in
                      let v' := v_set_psf v p' in
                      (Some w', v', let* k := r in Ok (mk (KFit k) v' p' n))
                  end
              | _ => (rng', v, Raise AssertionError)
              end
          end
      end
  end.

(** ---- ngmix/metacal/convenience.py ---- *)

(** Observation, ObsList and MultiBandObsList, by kind of element *)
Inductive cont (A : Type) := MObs (o : A) | MList (l : list A) | MMb (l : list (list A)) | MOther.
Arguments MObs {A}. Arguments MList {A}. Arguments MMb {A}. Arguments MOther {A}.

Definition gstate : Type := targ * option W.
(** ngmix/metacal/convenience.py:110-123 for an Observation; also what becomes of it *)
Definition metacal_one (psf : psfarg) (step : R) (v : obsval) (s : gstate) : gstate * (obsval * res (sdict mout)) :=
  let (types, rng) := s in
  match make_metacal v psf rng with
  | (rng', v', Raise e) => ((types, rng'), (v', Raise e))
  | (rng', v', Ok m) => let '(types', (_, r)) := get_all m step types [] in ((types', rng'), (v', r))
  end.

(** new_dict[key].append(d[key]) for all keys of a dictionary of lists; ks are the keys the
    loop goes over *)
Definition push_key {A} (nd : sdict (list A)) (k : string) (x : option A) : res (sdict (list A)) :=
  match sget nd k, x with
  | Some l, Some x => Ok (sset nd k (l ++ [x]))
  | _, _ => Raise KeyError
  end.
Definition push_all {A} (nd : sdict (list A)) (ks : list string) (d : sdict A) : res (sdict (list A)) :=
  foldM (fun nd k => push_key nd k (sget d k)) ks nd.
Definition init_dict {A} (ks : list string) : sdict (list A) := fold_left (fun d k => sset d k []) ks [].

(** ngmix/metacal/convenience.py:161-173 _make_metacal_obs_list_dict; None when there is no
    observation *)
Fixpoint metacal_list (psf : psfarg) (step : R) (l : list obsval) (od : option (sdict (list mout))) (s : gstate)
  : gstate * (list obsval * res (option (sdict (list mout)))) :=
  match l with
  | [] => (s, ([], Ok od))
  | v :: l =>
      let '(s', (v', r)) := metacal_one psf step v s in
      match (let* td := r in
             let od := match od with None => init_dict (keys td) | Some od => od end in
             push_all od (keys od) td) with
      | Raise e => (s', (v' :: l, Raise e))
      | Ok od => let '(s'', (l', r')) := metacal_list psf step l (Some od) s' in (s'', (v' :: l', r'))
      end
  end.
(** ngmix/metacal/convenience.py:144-158 _make_metacal_mb_obs_list_dict *)
Fixpoint metacal_mb (psf : psfarg) (step : R) (l : list (list obsval)) (od : option (sdict (list (list mout)))) (s : gstate)
  : gstate * (list (list obsval) * res (option (sdict (list (list mout))))) :=
  match l with
  | [] => (s, ([], Ok od))
  | b :: l =>
      let '(s', (b', r)) := metacal_list psf step b None s in
      match (let* td := r in
             match td, od with
             | None, None => Raise AttributeError     (* None.keys() *)
             | None, Some _ => Raise TypeError        (* iteration over None *)
             | Some td, None => push_all (init_dict (keys td)) (keys td) td
             | Some td, Some od => push_all od (keys td) td
             end) with
      | Raise e => (s', (b' :: l, Raise e))
      | Ok od => let '(s'', (l', r')) := metacal_mb psf step l (Some od) s' in (s'', (b' :: l', r'))
      end
  end.
(** the dictionary that is returned; None is python's None *)
Definition wrap {A B} (f : A -> B) (r : res (option (sdict A))) : res (option (sdict B)) :=
  rmap (option_map (map (fun kv => (fst kv, f (snd kv))))) r.
(** ngmix/metacal/convenience.py:98-141 _get_all_metacal *)
Definition get_all_metacal_ (psf : psfarg) (step : R) (obs : cont obsval) (s : gstate)
  : gstate * (cont obsval * res (option (sdict (cont mout)))) :=
  match obs with
  | MObs v => let '(s', (v', r)) := metacal_one psf step v s in (s', (MObs v', wrap MObs (rmap Some r)))
  | MMb l => let '(s', (l', r)) := metacal_mb psf step l None s in (s', (MMb l', wrap MMb r))
  | MList l => let '(s', (l', r)) := metacal_list psf step l None s in (s', (MList l', wrap MList r))
  | MOther => (s, (MOther, Raise ValueError))
  end.

(** numpy.rot90 for k=1 and k=3 *)
Definition rot90 {A} (k : nat) (a : arr2 A) : arr2 A :=
  match k with
  | 1%nat => mkArr (ncol a) (nrow a) (fun r c => at2 a c (ncol a - 1 - r))
  | 3%nat => mkArr (ncol a) (nrow a) (fun r c => at2 a (nrow a - 1 - c) r)
  | _ => a (* not used *)
  end.
(** apply to every observation of a container, in order, until one fails *)
Definition map_cont {A B} (f : A -> res B) (o : cont A) : res (cont B) :=
  match o with
  | MObs v => rmap MObs (f v)
  | MList l => rmap MList (mapM f l)
  | MMb l => rmap MMb (mapM (mapM f) l)
  | MOther => Ok MOther
  end.
(** ngmix/metacal/convenience.py:258-270 _rotate_obs_image_square *)
Definition rotate_val (k : nat) (v : obsval) : res obsval := v_set_image v (rot90 k (v_image v)).
Definition rotate_out (k : nat) (o : mout) : res mout :=
  let* v := rotate_val k (mo_val o) in Ok (mkMo v (mo_orig o) (mo_psf_obj o)).

(** ngmix/metacal/convenience.py:283-294: the new weight of a pixel.  Variances that add up to
    zero give inf, which is not modelled. *)
Definition add_weight (w nw : R) : option R :=
  if negb (Reqb w 0) && negb (Reqb nw 0) then np_div 1 (1 / w + 1 / nw) else Some w.
(** ngmix/metacal/convenience.py:273-294 _doadd_single_obs; broadcasting is not modelled.  The
    assignment to obs.image updates the pixels before the weights are changed. *)
Definition doadd (o n : mout) : res mout :=
  let v := mo_val o in let nv := mo_val n in
  if negb (same_shape (v_image v) (v_image nv) && same_shape (v_weight v) (v_weight nv)) then Raise ValueError else
  let im := add2 (v_image v) (v_image nv) in
  let* v1 := v_write v im (v_weight v) (v_jac v) in
  let* w := finite_image (mkArr (nrow (v_weight v)) (ncol (v_weight v))
                            (fun r c => add_weight (at2 (v_weight v) r c) (at2 (v_weight nv) r c))) in
  let* v2 := v_write v1 im w (v_jac v) in
  Ok (mkMo v2 (Some (v_image v, v_weight v)) (mo_psf_obj o)).
(** the loops of ngmix/metacal/convenience.py:232-253 *)
Fixpoint zipM {A B C} (f : A -> B -> res C) (l : list A) (n : list B) : res (list C) :=
  match l, n with
  | [], _ => Ok []
  | _ :: _, [] => Raise IndexError
  | x :: l, y :: n => let* z := f x y in let* t := zipM f l n in Ok (z :: t)
  end.
Definition doadd_cont (o n : cont mout) : res (cont mout) :=
  match o, n with
  | MObs o, MObs n => rmap MObs (doadd o n)
  | MList l, MList n => rmap MList (zipM doadd l n)
  | MMb l, MMb n => rmap MMb (zipM (zipM doadd) l n)
  | _, _ => Raise OtherError (* not reached *)
  end.
(** ngmix/metacal/convenience.py:224-253 *)
Fixpoint fix_types (d : sdict (cont mout)) (nd : sdict (cont mout)) : res (sdict (cont mout)) :=
  match d with
  | [] => Ok []
  | (k, o) :: d =>
      match sget nd k with
      | None => Raise KeyError
      | Some n =>
          let* n := map_cont (rotate_out 3) n in
          let* o := doadd_cont o n in
          let* rest := fix_types d nd in
          Ok ((k, o) :: rest)
      end
  end.

(** ngmix/metacal/convenience.py:297-315 _replace_image_with_noise *)
Definition replace_image (v : obsval) : res obsval :=
  match v_opt v SNoise with
  | None => Raise AttributeError
  | Some (C2 n) => v_set_image v n
  | Some _ => Raise AssertionError (* not reached *)
  end.
(** copy.deepcopy fails first if one of the copies fails *)
Definition replace_with_noise (obs : cont obsval) : res (cont obsval) :=
  match obs with
  | MOther => Raise OtherError (* not an observation: TypeError or AttributeError *)
  | _ => let* c := map_cont v_copy obs in map_cont replace_image c
  end.
Definition sim_args (obs : cont simin) : oarg :=
  match obs with MObs o => OObs o | MList l => OList l | MMb l => OMb l | MOther => OOther end.
Definition sim_vals (r : oout) : cont obsval :=
  match r with SObs o => MObs (so_val o) | SList l => MList (map so_val l) | SMb l => MMb (map (map so_val) l) end.
Definition vals (obs : cont simin) : cont obsval :=
  match obs with MObs o => MObs (si_val o) | MList l => MList (map si_val l) | MMb l => MMb (map (map si_val) l) | MOther => MOther end.
(** simulate_obs(gmix=None, obs=obs, rng=rng) *)
Definition sim_default : simpars := mkSp true true None true true.

(** ngmix/metacal/convenience.py:190-255 _get_all_metacal_fixnoise.  Also the generator, the
    caller's list and the input observations as they are afterwards. *)
Definition noise_observations (use_noise_image : bool) (obs : cont simin) (rng : option W) : option W * res (cont obsval) :=
  if use_noise_image then (rng, replace_with_noise (vals obs))
  else let (rng', r) := simulate_obs W normal (GOne GINone) (sim_args obs) sim_default rng in (rng', rmap sim_vals r).
Definition fixnoise (psf : psfarg) (step : R) (use_noise_image : bool) (obs : cont simin) (s : gstate)
  : gstate * (cont obsval * res (sdict (cont mout))) :=
  let (types, rng) := s in
  let (rng1, n) := noise_observations use_noise_image obs rng in
  match (let* n := n in map_cont (rotate_val 1) n) with
  | Raise e => ((types, rng1), (vals obs, Raise e))
  | Ok nobs =>
      match get_all_metacal_ psf step (vals obs) (types, rng1) with
      | (s2, (obs', Raise e)) => (s2, (obs', Raise e))
      | (s2, (obs', Ok d)) =>
          let '(s3, (_, nr)) := get_all_metacal_ psf step nobs s2 in
          (s3, (obs', let* nd := nr in
                      match d, nd with
                      | None, _ => Raise TypeError       (* iteration over None *)
                      | Some [], _ => Ok []
                      | Some _, None => Raise TypeError
                      | Some d, Some nd => fix_types d nd
                      end))
      end
  end.
(** ngmix/metacal/convenience.py:16-95 get_all_metacal *)
Definition get_all_metacal (psf : psfarg) (step : R) (fix_noise use_noise_image : bool) (obs : cont simin) (s : gstate)
  : gstate * (cont obsval * res (option (sdict (cont mout)))) :=
  if fix_noise then let '(s', (o, r)) := fixnoise psf step use_noise_image obs s in (s', (o, rmap Some r))
  else get_all_metacal_ psf step (vals obs) s.

(** ---- ngmix/metacal/bootstrap.py:63-119 metacal_bootstrap ---- *)
(** bootstrap: the measurement, with a state of its own; it may change the observations it is
    given (psf mixtures and results) *)
Variables (B rslt : Type).
Variable bootstrap : B -> cont mout -> B * cont mout * res rslt.
Fixpoint boot_types (d : sdict (cont mout)) (b : B) : B * res (sdict rslt * sdict (cont mout)) :=
  match d with
  | [] => (b, Ok ([], []))
  | (k, o) :: d =>
      match bootstrap b o with
      | (b', _, Raise e) => (b', Raise e)
      | (b', o', Ok r) =>
          let (b'', t) := boot_types d b' in
          (b'', let* (rd, od) := t in Ok ((k, r) :: rd, (k, o') :: od))
      end
  end.
Definition metacal_bootstrap (psf : psfarg) (step : R) (fix_noise use_noise_image : bool) (obs : cont simin) (s : gstate) (b : B)
  : gstate * B * (cont obsval * res (sdict rslt * sdict (cont mout))) :=
  match get_all_metacal psf step fix_noise use_noise_image obs s with
  | (s', (o, Raise e)) => (s', b, (o, Raise e))
  | (s', (o, Ok None)) => (s', b, (o, Raise AttributeError))
  | (s', (o, Ok (Some d))) => let (b', r) := boot_types d b in (s', b', (o, r))
  end.
End Metacal.
