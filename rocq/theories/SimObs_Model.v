(** ngmix/simobs.py.  The random generator is a state and a function for an array of standard
    normal deviates of given dimensions.  Observations are values (ObsVal_Model). *)
From Verif Require Import Base Jacobian_Model Pixels_Model Render_Model Obs_Model ObsVal_Model.
From Verif Require GMixObj_Model.
Local Open Scope R_scope.

(** an observation with the attribute weight_raw some users set *)
Record simin := mkSi { si_val : obsval; si_raw : option (arr2 R) }.
(** the new observation and its attribute noise_image *)
Record simout := mkSo { so_val : obsval; so_noise : option (arr2 R) }.

(** elements of an array in row-major order *)
Definition elements {A} (a : arr2 A) : list A := flat_map (fun r => map (at2 a r) (seq 0 (ncol a))) (seq 0 (nrow a)).

(** numpy.median *)
Fixpoint insert_sorted (x : R) (l : list R) : list R :=
  match l with [] => [x] | y :: l' => if Rleb x y then x :: l else y :: insert_sorted x l' end.
Definition np_sort (l : list R) : list R := fold_right insert_sorted [] l.
Definition median (l : list R) : res R :=
  let s := np_sort l in
  let n := length l in
  if Nat.odd n then match nth_error s (n / 2) with Some m => Ok m | None => Raise OtherError (* not reached *) end
  else match nth_error s (n / 2 - 1), nth_error s (n / 2) with
       | Some a, Some b => Ok ((a + b) / 2)
       | _, _ => Raise OtherError (* median of nothing is nan; not reached *)
       end.

(** ngmix/simobs.py:246 *)
Definition BIGNOISE : R := 10 ^ 15.
(** ngmix/simobs.py:262-281: the array err *)
Definition err_image (weight : arr2 R) (add_all : bool) (noise_factor : option R) : res (arr2 R) :=
  let pos := filter (Rltb 0) (elements weight) in
  if Nat.ltb 0 (length pos) then
    let* fill :=
      if add_all && negb (Nat.eqb (length pos) (nrow weight * ncol weight))
      then median (map (fun w => sqrt (1 / w)) pos) else Ok 0 in
    let err r c := if Rltb 0 (at2 weight r c) then sqrt (1 / at2 weight r c) else fill in
    Ok (mkArr (nrow weight) (ncol weight)
          (fun r c => match noise_factor with None => err r c | Some f => err r c * f end))
  else Ok (mkArr (nrow weight) (ncol weight) (fun _ _ => BIGNOISE)).

(** the image made from a mixture; pixels that are NaN are not modelled *)
Definition finite_image (im : arr2 (option R)) : res (arr2 R) :=
  if forallb (fun x => match x with Some _ => true | None => false end) (elements im)
  then Ok (mkArr (nrow im) (ncol im) (fun r c => match at2 im r c with Some x => x | None => 0 end))
  else Raise OtherError.

(** ngmix/simobs.py:287-301 _get_psf_gmix; obs.gmix returns a copy, ngmix/observation.py:613-619 *)
Definition get_psf_gmix (v : obsval) : res gmobj :=
  match v_psf v with
  | None => Raise RuntimeError
  | Some p => match v_gmix p with None => Raise RuntimeError | Some g => gm_copy g end
  end.
(** ngmix/simobs.py:207-220 _get_simulated_image.  Rendering may fill in the normalisations of
    the mixture itself, which are not visible to the user and left out. *)
Definition get_simulated_image (gm : option gmobj) (v : obsval) (convolve_psf : bool) : res (arr2 R) :=
  let nr := nrow (v_image v) in let nc := ncol (v_image v) in
  match gm with
  | None => Ok (mkArr nr nc (fun _ _ => 0))
  | Some g =>
      let* g := if convolve_psf then let* pg := get_psf_gmix v in GMixObj_Model.obj_convolve g pg else Ok g in
      let* im := snd (make_image (GMixObj_Model.o_data g) nr nc (Some (v_jac v)) false) in
      finite_image im
  end.

Section Sim.
Variable W : Type.
Variable normal : W -> nat -> nat -> W * arr2 R.

(** ngmix/simobs.py:249-284 get_noise_image *)
Definition get_noise_image (weight : arr2 R) (add_all : bool) (noise_factor : option R) (rng : option W)
  : option W * res (arr2 R) :=
  match rng with
  | None => (None, Raise ValueError)
  | Some w =>
      let (w', z) := normal w (nrow weight) (ncol weight) in
      (Some w', let* err := err_image weight add_all noise_factor in
                Ok (mkArr (nrow weight) (ncol weight) (fun r c => at2 z r c * at2 err r c)))
  end.

Record simpars := mkSp { sp_add_noise : bool; sp_add_all : bool; sp_factor : option R; sp_use_raw : bool; sp_convolve : bool }.

(** ngmix/simobs.py:223-243 _get_noisy_image.  A weight_raw of other dimensions would be
    broadcast; this is not modelled. *)
Definition get_noisy_image (o : simin) (sim : arr2 R) (sp : simpars) (rng : option W) : option W * res (arr2 R * arr2 R) :=
  let weight := match si_raw o with
                | Some raw => if sp_use_raw sp then raw else v_weight (si_val o)
                | None => v_weight (si_val o) end in
  let (rng', n) := get_noise_image weight (sp_add_all sp) (sp_factor sp) rng in
  (rng', let* n := n in
         if shape_eqb (nrow n, ncol n) (nrow sim, ncol sim)
         then Ok (mkArr (nrow sim) (ncol sim) (fun r c => at2 sim r c + at2 n r c), n)
         else Raise OtherError).

(** ngmix/simobs.py:165-204 _simulate_obs *)
Definition simulate_one (gm : option gmobj) (o : simin) (sp : simpars) (rng : option W) : option W * res simout :=
  let v := si_val o in
  match get_simulated_image gm v (sp_convolve sp) with
  | Raise e => (rng, Raise e)
  | Ok sim =>
      let (rng', noisy) :=
        if sp_add_noise sp then let (rng', r) := get_noisy_image o sim sp rng in (rng', rmap (fun x => (fst x, Some (snd x))) r)
        else (rng, Ok (sim, None)) in
      (rng', let* (im, noise) := noisy in
             let* psf := match v_psf v with None => Ok None | Some p => rmap Some (v_copy p) end in
             let* weight :=
               match sp_factor sp with
               | None => Ok (v_weight v)
               | Some f => if Reqb (f ^ 2) 0 then Raise ZeroDivisionError
                           else Ok (mkArr (nrow (v_weight v)) (ncol (v_weight v)) (fun r c => at2 (v_weight v) r c * (1 / f ^ 2)))
               end in
             let* new := v_new im weight (v_jac v) psf in
             Ok (mkSo new noise))
  end.

(** arguments: the mixture(s) and the observation(s) *)
Inductive gitem := GI (g : gmobj) | GINone | GIOther.
Inductive garg := GOne (x : gitem) | GList (l : list gitem).
Inductive oarg := OObs (o : simin) | OList (l : list simin) | OMb (l : list (list simin)) | OOther.
Inductive oout := SObs (o : simout) | SList (l : list simout) | SMb (l : list (list simout)).

(** the call of simulate_obs for an observation, ngmix/simobs.py:60-88 *)
Definition simulate_item (x : gitem) (o : simin) (sp : simpars) (rng : option W) : option W * res simout :=
  match x with
  | GI g => simulate_one (Some g) o sp rng
  | GINone => simulate_one None o sp rng
  | GIOther => (rng, Raise ValueError)
  end.
(** ngmix/simobs.py:140-162 _simulate_obslist *)
Fixpoint simulate_list (x : gitem) (l : list simin) (sp : simpars) (rng : option W) : option W * res (list simout) :=
  match l with
  | [] => (rng, Ok [])
  | o :: l =>
      match simulate_item x o sp rng with
      | (rng', Raise e) => (rng', Raise e)
      | (rng', Ok s) => let (rng'', r) := simulate_list x l sp rng' in (rng'', rmap (cons s) r)
      end
  end.
(** the loop over bands, ngmix/simobs.py:117-137; gms gives the mixture of each band *)
Fixpoint simulate_bands (gms : list gitem) (l : list (list simin)) (sp : simpars) (rng : option W) {struct l} : option W * res (list (list simout)) :=
  match l, gms with
  | [], _ => (rng, Ok [])
  | b :: l, x :: gms =>
      match simulate_list x b sp rng with
      | (rng', Raise e) => (rng', Raise e)
      | (rng', Ok s) => let (rng'', r) := simulate_bands gms l sp rng' in (rng'', rmap (cons s) r)
      end
  | _ :: _, [] => (rng, Raise IndexError)
  end.
(** ngmix/simobs.py:91-137 _simulate_mbobs *)
Definition simulate_mb (gm : garg) (l : list (list simin)) (sp : simpars) (rng : option W) : option W * res (list (list simout)) :=
  match gm with
  | GOne GINone => simulate_bands (repeat GINone (length l)) l sp rng
  | GOne _ => (rng, Raise ValueError)
  | GList [] => (rng, Raise IndexError)
  | GList (GI g :: gms) =>
      if Nat.eqb (length (GI g :: gms)) (length l) then simulate_bands (GI g :: gms) l sp rng else (rng, Raise ValueError)
  | GList _ => (rng, Raise ValueError)
  end.
(** ngmix/simobs.py:12-88 simulate_obs *)
Definition simulate_obs (gm : garg) (obs : oarg) (sp : simpars) (rng : option W) : option W * res oout :=
  match obs with
  | OMb l => let (rng', r) := simulate_mb gm l sp rng in (rng', rmap SMb r)
  | _ =>
      match gm with
      | GList _ | GOne GIOther => (rng, Raise ValueError)
      | GOne x =>
          match obs with
          | OList l => let (rng', r) := simulate_list x l sp rng in (rng', rmap SList r)
          | OObs o => let (rng', r) := simulate_item x o sp rng in (rng', rmap SObs r)
          | _ => (rng, Raise ValueError)
          end
      end
  end.
End Sim.

(** ---- the same call on the memory of Obs_Model ---- *)

(** ngmix/simobs.py:175-204: the objects _simulate_obs makes for observation i, given the
    simulated image and the new weights.  Views made by obs.image etc. are dropped. *)
Definition build_obs (i : nat) (im w : arr2 R) (j : jac) : M nat :=
  do o <- get_obs i ;;
  do a <- new_arr (C2 im) true ;;
  do p <- match ob_psf o with
          | None => ret PNone
          | Some k => do k' <- step (CopyObs k) ;; ret (PObs k')
          end ;;
  do wa <- new_arr (C2 w) true ;;
  new_obs a false (AArr wa false) ANone ANone ANone (JJac j) GNone p DNone ANone true true.
