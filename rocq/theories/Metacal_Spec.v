(** What a user expects of metacal. *)
From Verif Require Import Base Shape_Model Jacobian_Model Pixels_Model Obs_Model ObsVal_Model SimObs_Model SimObs_Spec Metacal_Model.
From Coq Require String Ascii.
Import String.StringSyntax.
Local Open Scope R_scope.
Local Open Scope string_scope.
Local Open Scope list_scope.
Local Notation string := String.string.

(** ---- types ---- *)

(** the shear of each type, and whether it is the psf that is sheared *)
Definition shear_table (step : R) : list (string * (bool * R * R)) :=
  [("noshear", (false, 0, 0)); ("1p", (false, step, 0)); ("1m", (false, - step, 0)); ("2p", (false, 0, step)); ("2m", (false, 0, - step));
   ("1p_psf", (true, step, 0)); ("1m_psf", (true, - step, 0)); ("2p_psf", (true, 0, step)); ("2m_psf", (true, 0, - step))].
(** what a caller who asks for types l gets *)
Definition returned (l : list string) (k : string) : Prop :=
  In k l \/ ((k = "noshear" \/ k = "1p") /\ (In "noshear" l \/ In "1p" l)).
(** noshear and 1p are requested together or not at all *)
Definition paired (l : list string) : Prop := In "noshear" l <-> In "1p" l.
(** the types requested by an argument *)
Definition requested (all : list string) (t : targ) : list string := match t with TNone => all | TList l | TTuple l => l end.

(** ---- the keys of the cache ---- *)

(** the printed form of a float: '-' only in front or after 'e', and it does not end in 'e' *)
Definition float_like (s : string) : Prop :=
  s <> "" /\ (forall a b, s = String.append a (String.append "-" b) -> a = "" \/ exists a', a = String.append a' "e") /\
  (forall a, s <> String.append a "e").
(** the printed forms of the numbers in l are those of floats and different *)
Definition prints (fstr : R -> string) (l : list R) : Prop :=
  (forall x, In x l -> float_like (fstr x)) /\ (forall x y, In x l -> In y l -> fstr x = fstr y -> x = y).
(** the numbers a shape consists of are in l *)
Definition made_of (l : list R) (sh : shape) : Prop := In (sh_g1 sh) l /\ In (sh_g2 sh) l.

Section Images.
Variable G : galsim.
Notation mc := (mc G). Notation mout := (mout G).

(** galsim's RuntimeErrors become GMixRangeErrors *)
Definition drawn (nr nc : nat) (w : wcs) (p : prof G) : res (arr2 R) :=
  match gs_draw G nr nc w p with Raise RuntimeError => Raise GMixRangeError | r => r end.

(** the kernel with which the deconvolved image is convolved: the psf without pixel dilated,
    perhaps sheared, with the pixel; or a round kernel dilated *)
Definition kernel (m : mc) (psf_shear : bool) (g1 g2 : R) : res (prof G) :=
  let d := 1 + 2 * sqrt (g1 ^ 2 + g2 ^ 2) in
  match mc_kind G m, psf_shear with
  | KDilate _, false => Ok (gs_convolve G (gs_dilate G d (mc_psf_nopix G m)) (mc_pixel G m))
  | KDilate _, true => let* p := gs_shear G g1 g2 (gs_dilate G d (mc_psf_nopix G m)) in Ok (gs_convolve G p (mc_pixel G m))
  | KGauss _, false => let* p := gauss_target_psf G (mc_psf_int G m) (pn_flux (mc_noise G m)) in Ok (gs_dilate G d p)
  | KFit _ p, false | KAnalytic _ p, false => Ok (gs_dilate G d p)
  | _, true => Raise AssertionError
  end.
(** the psf image, and the kernel *)
Definition target_psf (m : mc) (psf_shear : bool) (g1 g2 : R) : res (arr2 R * prof G) :=
  let* p := kernel m psf_shear g1 g2 in
  let pim := v_image (mc_psf G m) in
  let* im := drawn (nrow pim) (ncol pim) (get_galsim_wcs (v_jac (mc_psf G m))) p in
  Ok (im, p).
(** the image: deconvolved, sheared and convolved with the kernel *)
Definition target_image (m : mc) (shear : option (R * R)) (p : prof G) : res (arr2 R) :=
  let* gal := match shear with Some (g1, g2) => gs_shear G g1 g2 (mc_gal G m) | None => Ok (mc_gal G m) end in
  let im := v_image (mc_obs G m) in
  drawn (nrow im) (ncol im) (get_galsim_wcs (v_jac (mc_obs G m))) (gs_convolve G gal p).

(** b is a with image im and psf p *)
Definition new_image (a : obsval) (im : arr2 R) (p : option obsval) : obsval :=
  let '(OV _ w j opts g d st ig _) := a in OV im w j opts g d st ig p.
(** b is a with image, weight and jacobian replaced *)
Definition new_data (a : obsval) (im w : arr2 R) (j : jac) : obsval :=
  let '(OV _ _ _ opts g d st ig p) := a in OV im w j opts g d st ig p.
(** the new psf observation: the old one with the new image; for a round kernel also noise,
    constant weights and the centre in the middle *)
Definition psf_value_of (m : mc) (pim : arr2 R) : obsval :=
  match mc_kind G m with
  | KDilate _ => new_image (mc_psf G m) pim (v_psf (mc_psf G m))
  | _ => new_data (mc_psf G m)
           (match pn_noise (mc_noise G m) with None => pim | Some n => mkArr (nrow pim) (ncol pim) (fun r c => at2 pim r c + at2 n r c) end)
           (pn_weight (mc_noise G m))
           (mkJac ((INR (nrow pim) - 1) / 2) ((INR (ncol pim) - 1) / 2) (dvdrow (v_jac (mc_psf G m))) (dvdcol (v_jac (mc_psf G m)))
                  (dudrow (v_jac (mc_psf G m))) (dudcol (v_jac (mc_psf G m))) (jdet (v_jac (mc_psf G m))) (jscale (v_jac (mc_psf G m))))
  end.

(** o is the observation for type k.  noshear has the kernel of 1p. *)
Definition observation_for (m : mc) (step : R) (k : string) (o : mout) : Prop :=
  exists psf_shear g1 g2 pim p im,
    In (k, (psf_shear, g1, g2)) (shear_table step) /\
    target_psf m psf_shear (if String.eqb k "noshear" then step else g1) g2 = Ok (pim, p) /\
    target_image m (if psf_shear || String.eqb k "noshear" then None else Some (g1, g2)) p = Ok im /\
    mo_val G o = new_image (mc_obs G m) im (Some (psf_value_of m pim)) /\
    mo_orig G o = None /\ mo_psf_obj G o = (if psf_shear then None else Some p).

(** the call of get_target_psf, once and after a history of calls *)
Definition request : Type := bool * shape.
Definition history (fstr : R -> string) (m : mc) (l : list request) (c : cache G) : cache G :=
  fold_left (fun c r => fst (get_target_psf G fstr m (snd r) (fst r) c)) l c.
End Images.

(** ---- containers ---- *)
Inductive cont_rel {A B} (P : A -> B -> Prop) : cont A -> cont B -> Prop :=
| CRObs a b : P a b -> cont_rel P (MObs _ a) (MObs _ b)
| CRList l l' : Forall2 P l l' -> cont_rel P (MList _ l) (MList _ l')
| CRMb l l' : Forall2 (Forall2 P) l l' -> cont_rel P (MMb _ l) (MMb _ l').

(** all observations of a container are consistent *)
Definition sound_input (obs : cont simin) : Prop :=
  match obs with
  | MObs _ o => sound (si_val o)
  | MList _ l => Forall (fun o => sound (si_val o)) l
  | MMb _ l => Forall (Forall (fun o => sound (si_val o))) l
  | MOther _ => True
  end.
(** a container without observations *)
Definition no_observations {A} (obs : cont A) : Prop := obs = MList _ [] \/ obs = MMb _ [].

(** ---- noise ---- *)
(** b is the square a rotated by 90 degrees counterclockwise, as displayed with the first row
    on top *)
Definition rotated {A} (a b : arr2 A) : Prop :=
  nrow b = ncol a /\ ncol b = nrow a /\
  forall r c, inside a r c -> at2 b (ncol a - 1 - c) r = at2 a r c.
(** the same pixels *)
Definition same_pixels {A} (a b : arr2 A) : Prop := same_dims a b /\ forall r c, inside a r c -> at2 a r c = at2 b r c.
(** everything but the image *)
Definition other_image (a b : obsval) : Prop := exists im, b = new_image a im (v_psf a).

(** o and n are the observations made from the data and from the rotated noise, n' is n
    rotated back, f the final observation *)
Definition noise_added {G} (o n f : mout G) : Prop :=
  exists back, rotated back (v_image (mo_val G n)) /\
    mo_orig G f = Some (v_image (mo_val G o), v_weight (mo_val G o)) /\ mo_psf_obj G f = mo_psf_obj G o /\
    exists im w, mo_val G f = new_data (mo_val G o) im w (v_jac (mo_val G o)) /\
      same_dims im (v_image (mo_val G o)) /\ same_dims w (v_weight (mo_val G o)) /\
      (forall r c, inside im r c -> at2 im r c = at2 (v_image (mo_val G o)) r c + at2 back r c) /\
      (forall r c, inside w r c ->
         let a := at2 (v_weight (mo_val G o)) r c in let b := at2 (v_weight (mo_val G n)) r c in
         (a <> 0 -> b <> 0 -> / a + / b <> 0 /\ at2 w r c = / (/ a + / b)) /\
         (a = 0 \/ b = 0 -> at2 w r c = a)).

(** ---- the metacal object made for an observation ---- *)
Section Made.
Variable G : galsim.
Variable W : Type.
Variable normal : W -> nat -> nat -> W * arr2 R.
(** the types a kind of psf allows *)
Definition all_types (psf : psfarg G) : list string := 
  ["noshear"; "1p"; "1m"; "2p"; "2m"] ++ match psf with PDilate _ => ["1p_psf"; "1m_psf"; "2p_psf"; "2m_psf"] | _ => [] end.
(** noise of 1/50000 of the maximum of the psf image, and its weights *)
Definition psf_noise_for (pim : arr2 R) (n : psfnoise) : Prop :=
  exists mx, In mx (elements pim) /\ (forall x, In x (elements pim) -> x <= mx) /\ mx <> 0 /\
    pn_flux n = rsum (elements pim) /\ same_dims (pn_weight n) pim /\ (forall r c, at2 (pn_weight n) r c = (50000 / mx) ^ 2) /\
    (forall noise, pn_noise n = Some noise -> 0 < mx /\
       exists s s' z, normal s (nrow pim) (ncol pim) = (s', z) /\ same_dims noise z /\ forall r c, at2 noise r c = mx / 50000 * at2 z r c).
(** the psf observation with another mixture and other metadata *)
Definition new_fit (p : obsval) (g : option gmobj) (d : dict) : obsval :=
  let '(OV im w j opts _ _ st ig q) := p in OV im w j opts g d st ig q.
(** all that may happen to an input observation *)
Definition touched (psf : psfarg G) (v v' : obsval) : Prop :=
  v' = v \/ (psf = PFitGauss G /\ exists p g d, v_psf v = Some p /\ v' = new_image v (v_image v) (Some (new_fit p g d))).
Definition metacal_setup (psf : psfarg G) (v : obsval) (m : mc G) : Prop :=
  exists p image_int,
    v_psf v = Some p /\
    gs_pixel G (get_galsim_wcs (v_jac v)) = Ok (mc_pixel G m) /\
    gs_interp G (v_image v) (get_galsim_wcs (v_jac v)) = Ok image_int /\
    gs_interp G (v_image p) (get_galsim_wcs (v_jac p)) = Ok (mc_psf_int G m) /\
    mc_gal G m = gs_convolve G image_int (gs_deconvolve G (mc_psf_int G m)) /\
    mc_psf_nopix G m = gs_convolve G (mc_psf_int G m) (gs_deconvolve G (mc_pixel G m)) /\
    mc_obs G m = new_image v (v_image v) (Some (mc_psf G m)) /\
    match psf, mc_kind G m with
    | PDilate _, KDilate _ => mc_psf G m = p
    | PGauss _, KGauss _ => mc_psf G m = p /\ psf_noise_for (v_image p) (mc_noise G m)
    | PProf _ q, KAnalytic _ q' => q' = q /\ mc_psf G m = p /\ psf_noise_for (v_image p) (mc_noise G m)
    | PFitGauss _, KFit _ q =>
        psf_noise_for (v_image p) (mc_noise G m) /\ (exists g d, mc_psf G m = new_fit p g d) /\
        exists e1 e2 T, gs_gaussian G (fit_sigma e1 e2 T) (rsum (elements (v_image p))) = Ok q
    | _, _ => False
    end.
(** o is the observation of type k made from v *)
Definition made_from (psf : psfarg G) (step : R) (k : string) (v : obsval) (o : mout G) : Prop :=
  exists m, metacal_setup psf v m /\ observation_for G m step k o.

(** n is the observation with noise instead of the image: simulated from the weights, or the
    noise attribute *)
Definition noise_image_of (use_noise_image : bool) (o : simin) (n : obsval) : Prop :=
  let v := si_val o in
  same_dims (v_image n) (v_image v) /\ same_dims (v_weight n) (v_weight v) /\ (forall r c, at2 (v_weight n) r c = at2 (v_weight v) r c) /\ v_jac n = v_jac v /\ v_psf n = v_psf v /\
  if use_noise_image then v_opt v SNoise = Some (C2 (v_image n)) else
  exists s s' z law, let weight := match si_raw o with Some raw => raw | None => v_weight v end in
    normal s (nrow weight) (ncol weight) = (s', z) /\ noise_law weight true None z law /\
    forall r c, inside (v_image n) r c -> at2 (v_image n) r c = at2 law r c.
(** the final observation: made from the data, plus what is made from the rotated noise,
    rotated back *)
Definition with_noise (psf : psfarg G) (step : R) (use_noise_image : bool) (k : string) (v : simin) (f : mout G) : Prop :=
  exists noise rot o n, noise_image_of use_noise_image v noise /\
    rotated (v_image noise) (v_image rot) /\ rot = new_image noise (v_image rot) (v_psf noise) /\
    made_from psf step k (si_val v) o /\ made_from psf step k rot n /\ noise_added o n f.
End Made.
