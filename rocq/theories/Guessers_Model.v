(** Model of ngmix/guessers.py.

    The random generators are operations on one world [W]: [uniform G] for the generator of the
    guesser (or prior.cen_prior.rng), and [jp_sample] for the joint prior, which may share it.
    Sizes, fluxes and parameters given by the user are finite.  Arrays of guesses are [arr2 R].
    A [while True] loop takes the number of passes allowed, [fuel]; None means that they were used
    up.  numpy's stretching of arrays of length one on assignment is left out: lengths that differ
    are errors.  print_pars, which only logs, is left out. *)
From Verif Require Import Base XReal Shape_Model Moments_Model Jacobian_Model Pixels_Model Priors_Model PriorSample_Model Joint_Model GMix_Model GMixObj_Model.
From Verif Require PSFFlux_Model.
Local Open Scope R_scope.

(** a joint prior: get_lnprob_scalar, and sample(nrand) as nrand rows *)
Record jprior (W : Type) := mkJp { jp_lnprob : list R -> res xr; jp_sample : W -> nat -> W * res (arr2 R) }.
Arguments jp_lnprob {W} _ _.
Arguments jp_sample {W} _ _ _.

(** a separable prior of joint_prior.py as it is used here: its get_lnprob_scalar, and sample *)
Definition sep_jp {W} (lnprob : list xr -> res xr) (cen g : sampler2 W) (mid Fs : list (sampler1 W)) : jprior W :=
  mkJp W (fun pars => lnprob (map Fin pars)) (fun w n => let (w, m) := sep_sample cen g mid Fs w n in (w, Ok m)).

(** the returned array: one row if nrand is 1 (or None for ParsGuesser), otherwise all of them *)
Inductive gout := G1 (row : list R) | G2 (rows : arr2 R).

(** guess[j, :] as a list *)
Definition row_of (g : arr2 R) (j : nat) : list R := map (at2 g j) (seq 0 (ncol g)).

Section Guess.
Variable W : Type.
Variable G : rng W.
Variable fuel : nat.

(** ** Programs that draw, raise or do not end *)
Definition M (A : Type) : Type := W -> option (W * res A).
Definition ret {A} (a : A) : M A := fun w => Some (w, Ok a).
Definition raise {A} (e : exn) : M A := fun w => Some (w, Raise e).
Definition bindM {A B} (m : M A) (f : A -> M B) : M B :=
  fun w => match m w with None => None | Some (w, Raise e) => Some (w, Raise e) | Some (w, Ok a) => f a w end.
Definition of_res {A} (r : res A) : M A := fun w => Some (w, r).
End Guess.
Arguments ret {W A} _ _.
Arguments raise {W A} _ _.
Arguments bindM {W A B} _ _ _.
Arguments of_res {W A} _ _.
Notation "'do' x <- m ; k" := (bindM m (fun x => k)) (at level 61, x name, m at next level, right associativity).

Section Guess2.
Variable W : Type.
Variable G : rng W.
Variable fuel : nat.
Local Notation M := (M W).

Definition uni (low high : R) (n : nat) : M (list R) := fun w => let (w, l) := uniform G w low high n in Some (w, Ok l).
(** ngmix/priors/random.py:17-33 srandu *)
Definition srandu (n : nat) : M (list R) := uni (-1) 1 n.
(** without size: a number *)
Definition uni1 (low high : R) : M R := do l <- uni low high 1; match l with [x] => ret x | _ => raise ValueError end.
Definition srandu1 : M R := uni1 (-1) 1.
(** prior.sample(), one row: samples[0, :] *)
Definition sample1 (P : jprior W) : M (list R) :=
  fun w => let (w, r) := jp_sample P w 1 in Some (w, let* m := r in if Nat.ltb 0 (nrow m) then Ok (row_of m 0) else Raise IndexError).
Definition sampleN (P : jprior W) (n : nat) : M (arr2 R) := fun w => let (w, r) := jp_sample P w n in Some (w, r).
(** guess[:, j] = vals *)
Definition setcol (g : arr2 R) (j : nat) (vals : list R) : M (arr2 R) :=
  if Nat.ltb j (ncol g) then
    if Nat.eqb (length vals) (nrow g) then ret (mkArr (nrow g) (ncol g) (fun r c => if Nat.eqb c j then nth r vals 0 else at2 g r c))
    else raise ValueError
  else raise IndexError.
(** guess[j, :] = row *)
Definition setrow (g : arr2 R) (j : nat) (row : list R) : M (arr2 R) :=
  if Nat.eqb (length row) (ncol g) then ret (mkArr (nrow g) (ncol g) (fun r c => if Nat.eqb r j then nth c row 0 else at2 g r c))
  else raise ValueError.
(** if nrand == 1: guess = guess[0, :] *)
Definition finish_guess (nrand : nat) (g : arr2 R) : gout := if Nat.eqb nrand 1 then G1 (row_of g 0) else G2 g.

(** ** Repair of guesses *)
(** lnp <= LOWVAL, or GMixRangeError *)
Definition dosample (P : jprior W) (row : list R) : res bool :=
  match jp_lnprob P row with
  | Ok lnp => Ok (xleb lnp LOWVAL)
  | Raise GMixRangeError => Ok true
  | Raise e => Raise e
  end.
(** ngmix/guessers.py:1273-1299 _fix_guess, the loop over itry *)
Fixpoint fix_row (ntry : nat) (P : jprior W) (row : list R) : M (list R) :=
  match ntry with
  | O => ret row
  | S n =>
      do bad <- of_res (dosample P row);
      if bad then
        do s <- sample1 P;
        if Nat.eqb (length s) (length row) then fix_row n P s else raise ValueError
      else ret row
  end.
(** ngmix/guessers.py:1242-1270 _fix_guess_TFlux, the loop over itry in the given list *)
Fixpoint fix_row_TFlux (ntry : nat) (tries : list nat) (P : jprior W) (row : list R) : M (list R) :=
  match tries with
  | [] => ret row
  | itry :: tries =>
      do bad <- of_res (dosample P row);
      if bad then
        if Nat.ltb itry ntry then
          do tguess <- sample1 P;
          if Nat.eqb (length (skipn 4 tguess)) (length (skipn 4 row))
          then fix_row_TFlux ntry tries P (firstn 4 row ++ skipn 4 tguess) else raise ValueError
        else
          do s <- sample1 P;
          if Nat.eqb (length s) (length row) then fix_row_TFlux ntry tries P s else raise ValueError
      else ret row
  end.
(** the loop over j *)
Fixpoint fix_rows (fix1 : list R -> M (list R)) (js : list nat) (g : arr2 R) : M (arr2 R) :=
  match js with
  | [] => ret g
  | j :: js => do row <- fix1 (row_of g j); do g <- setrow g j row; fix_rows fix1 js g
  end.
Definition fix_guess (P : jprior W) (g : arr2 R) : M (arr2 R) := fix_rows (fix_row 4 P) (seq 0 (nrow g)) g.
Definition fix_guess_TFlux (P : jprior W) (g : arr2 R) : M (arr2 R) := fix_rows (fix_row_TFlux 4 (seq 0 4) P) (seq 0 (nrow g)) g.
(** if self.prior is not None *)
Definition maybe_fix (P : option (jprior W)) (g : arr2 R) : M (arr2 R) := match P with Some P => fix_guess P g | None => ret g end.

(** ** Columns *)
(** flux * rng.uniform(low=0.9, high=1.1, size=nrand) *)
Definition around_u (c : R) (nrand : nat) : M (list R) := do r <- uni (9/10) (11/10) nrand; ret (map (fun r => c * r) r).
(** r = rng.uniform(low=-0.1, high=0.1, size=nrand); c * (1.0 + r) *)
Definition around_1u (c : R) (nrand : nat) : M (list R) := do r <- uni (-1/10) (1/10) nrand; ret (map (fun r => c * (1 + r)) r).
(** c * (1.0 + width * srandu(nrand)) *)
Definition around_s (width : R) (c : R) (nrand : nat) : M (list R) := do r <- srandu nrand; ret (map (fun r => c * (1 + width * r)) r).
(** c + width * srandu(nrand) *)
Definition offset_s (width : R) (c : R) (nrand : nat) : M (list R) := do r <- srandu nrand; ret (map (fun r => c + width * r) r).
(** for band in range(nband): guess[:, start + band] = draw(fluxes[band]) *)
Fixpoint set_bands (draw : R -> nat -> M (list R)) (fluxes : list R) (start nrand : nat) (g : arr2 R) : M (arr2 R) :=
  match fluxes with
  | [] => ret g
  | f :: fluxes => do v <- draw f nrand; do g <- setcol g start v; set_bands draw fluxes (S start) nrand g
  end.

(** ** Guessers for galaxies *)
(** ngmix/guessers.py:32-75 and 120-159: the bodies of TFluxGuesser.__call__ and
    TPSFFluxGuesser.__call__ *)
Definition tflux_guess (T : R) (fluxes : list R) (prior : option (jprior W)) (nrand : nat) : M gout :=
  let g := zeros2 nrand (5 + length fluxes) in
  do r <- uni (-1/100) (1/100) nrand; do g <- setcol g 0 r;
  do r <- uni (-1/100) (1/100) nrand; do g <- setcol g 1 r;
  do r <- uni (-2/100) (2/100) nrand; do g <- setcol g 2 r;
  do r <- uni (-2/100) (2/100) nrand; do g <- setcol g 3 r;
  do r <- around_u T nrand; do g <- setcol g 4 r;
  do g <- set_bands around_u fluxes 5 nrand g;
  do g <- maybe_fix prior g;
  ret (finish_guess nrand g).
(** ngmix/guessers.py:183-218 TPSFFluxAndPriorGuesser.__call__ after the psf fluxes *)
Definition tpsfflux_prior_guess (T : R) (fluxes : list R) (P : jprior W) (nrand : nat) : M gout :=
  do g <- sampleN P nrand;
  do r <- around_1u T nrand; do g <- setcol g 4 r;
  do g <- set_bands around_u fluxes 5 nrand g;
  do g <- fix_guess_TFlux P g;
  ret (finish_guess nrand g).
(** ngmix/guessers.py:289-322 TFluxAndPriorGuesser.__call__ *)
Definition tflux_prior_guess (T : R) (fluxes : list R) (P : jprior W) (nrand : nat) : M gout :=
  do g <- sampleN P nrand;
  do r <- around_1u T nrand; do g <- setcol g 4 r;
  do g <- set_bands around_1u fluxes 5 nrand g;
  do g <- fix_guess_TFlux P g;
  ret (finish_guess nrand g).
(** ngmix/guessers.py:344-378 BDFPSFFluxGuesser.__call__ after the psf fluxes, and 401-435
    BDFGuesser.__call__ *)
Definition bdf_guess (T : R) (fluxes : list R) (P : jprior W) (nrand : nat) : M gout :=
  do g <- sampleN P nrand;
  do r <- around_1u T nrand; do g <- setcol g 4 r;
  do r <- uni (4/10) (6/10) nrand; do g <- setcol g 5 r;
  do g <- set_bands around_1u fluxes 6 nrand g;
  do g <- fix_guess P g;
  ret (finish_guess nrand g).
(** ngmix/guessers.py:457-497 BDGuesser.__call__ *)
Definition bd_guess (T : R) (fluxes : list R) (P : jprior W) (nrand : nat) : M gout :=
  do g <- sampleN P nrand;
  do r <- around_1u T nrand; do g <- setcol g 4 r;
  do r <- uni (4/10) (6/10) nrand; do g <- setcol g 5 r;
  do g <- set_bands around_1u fluxes 7 nrand g;
  do g <- fix_guess P g;
  ret (finish_guess nrand g).

(** ngmix/guessers.py:579-612 get_shape_guess; the while loop of one row *)
Fixpoint shape_loop (n : nat) (s : shape) (w1 w2 : R) : M (R * R) :=
  match n with
  | O => fun _ => None
  | S n =>
      do r <- srandu1;
      do r2 <- srandu1;
      match Shape_get_sheared s (ByScalars (w1 * r) (Some (w2 * r2))) with
      | Ok s' => ret (sh_g1 s', sh_g2 s')
      | Raise GMixRangeError => shape_loop n s w1 w2
      | Raise e => raise e
      end
  end.
Fixpoint repeatM {A} (n : nat) (m : M A) : M (list A) :=
  match n with O => ret [] | S n => do a <- m; do l <- repeatM n m; ret (a :: l) end.
Definition get_shape_guess (g1 g2 : R) (nrand : nat) (width : list R) (max : R) : M (list (R * R)) :=
  let g := sqrt (g1 ^ 2 + g2 ^ 2) in
  let (g1, g2) := if Rltb max g then let fac := max / g in (g1 * fac, g2 * fac) else (g1, g2) in
  do s <- of_res (Shape_init g1 g2);
  match width with
  | w1 :: w2 :: _ => repeatM nrand (shape_loop fuel s w1 w2)
  | _ => if Nat.eqb nrand 0 then ret [] else raise IndexError
  end.
(** ngmix/guessers.py:515-577 ParsGuesser; [nrand] None for one row *)
Definition default_widths (pars : list R) : list R :=
  map (fun i => if Nat.ltb i 2 then 2 / 100 else 1 / 10) (seq 0 (length pars)).
Definition item (l : list R) (i : nat) : res R := match nth_error l i with Some x => Ok x | None => Raise IndexError end.
Fixpoint set_pars_cols (l : list (R * nat)) (widths : list R) (nrand : nat) (g : arr2 R) : M (arr2 R) :=
  match l with
  | [] => ret g
  | (p, i) :: l => do wi <- of_res (item widths i); do v <- around_s wi p nrand; do g <- setcol g i v; set_pars_cols l widths nrand g
  end.
Definition pars_guess (pars : list R) (widths : option (list R)) (prior : option (jprior W)) (nrand : option nat) : M gout :=
  let widths := match widths with Some w => w | None => default_widths pars end in
  let n := match nrand with Some n => n | None => 1%nat end in
  let g := zeros2 n (length pars) in
  do p0 <- of_res (item pars 0); do w0 <- of_res (item widths 0); do v <- offset_s w0 p0 n; do g <- setcol g 0 v;
  do p1 <- of_res (item pars 1); do w1 <- of_res (item widths 1); do v <- offset_s w1 p1 n; do g <- setcol g 1 v;
  do p2 <- of_res (item pars 2); do p3 <- of_res (item pars 3);
  do s <- get_shape_guess p2 p3 n (firstn 2 (skipn 2 widths)) (8/10);
  do g <- setcol g 2 (map fst s); do g <- setcol g 3 (map snd s);
  do g <- set_pars_cols (skipn 4 (combine pars (seq 0 (length pars)))) widths n g;
  do g <- maybe_fix prior g;
  ret (match nrand with None => G1 (row_of g 0) | Some _ => G2 g end).

(** ngmix/guessers.py:615-681 R50FluxGuesser, and 704-781 R50NuFluxGuesser *)
Definition r50_init (r50 : R) : res R := if Rltb r50 0 then Raise GMixRangeError else Ok r50.
Definition r50flux_guess (r50 : R) (fluxes : list R) (prior : option (jprior W)) (nrand : nat) : M gout :=
  let g := zeros2 nrand (5 + length fluxes) in
  do r <- offset_s (1/100) 0 nrand; do g <- setcol g 0 r;
  do r <- offset_s (1/100) 0 nrand; do g <- setcol g 1 r;
  do r <- offset_s (2/100) 0 nrand; do g <- setcol g 2 r;
  do r <- offset_s (2/100) 0 nrand; do g <- setcol g 3 r;
  do r <- around_s (1/10) r50 nrand; do g <- setcol g 4 r;
  do g <- set_bands (around_s (1/10)) fluxes 5 nrand g;
  do g <- maybe_fix prior g;
  ret (finish_guess nrand g).
Definition NUMIN : R := -99/100.
Definition NUMAX : R := 7/2.
Definition nu_init (nu : R) : R := if Rltb nu NUMIN then NUMIN else if Rltb NUMAX nu then NUMAX else nu.
Fixpoint nu_loop (n : nat) (nu : R) : M R :=
  match n with
  | O => fun _ => None
  | S n =>
      do r <- srandu1;
      let nuguess := nu * (1 + 1/10 * r) in
      if Rltb NUMIN nuguess && Rltb nuguess NUMAX then ret nuguess else nu_loop n nu
  end.
Definition r50nu_guess (r50 nu : R) (fluxes : list R) (prior : option (jprior W)) (nrand : nat) : M gout :=
  let g := zeros2 nrand (6 + length fluxes) in
  do r <- offset_s (1/100) 0 nrand; do g <- setcol g 0 r;
  do r <- offset_s (1/100) 0 nrand; do g <- setcol g 1 r;
  do r <- offset_s (2/100) 0 nrand; do g <- setcol g 2 r;
  do r <- offset_s (2/100) 0 nrand; do g <- setcol g 3 r;
  do r <- around_s (1/10) r50 nrand; do g <- setcol g 4 r;
  do r <- repeatM nrand (nu_loop fuel nu); do g <- setcol g 5 r;
  do g <- set_bands (around_s (1/10)) fluxes 6 nrand g;
  do g <- maybe_fix prior g;
  ret (finish_guess nrand g).

(** ** PSF fluxes *)
(** ngmix/guessers.py:221-274 _get_psf_fluxes; [fits] are the outcomes of PSFFluxFitter().go for
    the bands, read one after the other *)
Definition good_fit (r : PSFFlux_Model.pres) : bool :=
  Z.eqb (PSFFlux_Model.pr_flags r) 0 && match PSFFlux_Model.pr_flux r with Fin _ => true | _ => false end.
Definition flux_val (r : PSFFlux_Model.pres) : R := match PSFFlux_Model.pr_flux r with Fin f => f | _ => 0 end.
(** flux[wbad] = mean * fac *)
Fixpoint fill_bad (rs : list PSFFlux_Model.pres) (mean : R) (fac : list R) : list R :=
  match rs with
  | [] => []
  | r :: rs =>
      if good_fit r then flux_val r :: fill_bad rs mean fac
      else match fac with
           | f :: fac => mean * f :: fill_bad rs mean fac
           | [] => mean :: fill_bad rs mean fac
           end
  end.
Definition psf_fluxes (fits : list (res PSFFlux_Model.pres)) : M (list R) :=
  do rs <- of_res (mapM (fun r => r) fits);
  let good := filter good_fit rs in
  if Nat.eqb (length good) (length rs) then ret (map flux_val rs) else
  if Nat.eqb (length good) 0 then raise PSFFluxFailure else
  let nbad := (length rs - length good)%nat in
  do r <- uni (-1/10) (1/10) nbad;
  if Nat.eqb (length r) nbad
  then ret (fill_bad rs (rsum (map flux_val good) / INR (length good)) (map (fun r => 1 + r) r))
  else raise ValueError.

(** ** The cache of TPSFFluxGuesser *)
(** _id_last and _psf_fluxes, ngmix/guessers.py:97-104 *)
Record cache := mkCache { c_id : option nat; c_fluxes : option (list R) }.
Definition cache0 : cache := mkCache None None.
(** ngmix/guessers.py:106-112 _get_psf_fluxes; [oid] is id(obs) and [fits] what the fitter finds
    in obs at the time of the call.  The identifier is stored before the fluxes are measured. *)
Definition get_psf_fluxes (c : cache) (oid : nat) (fits : list (res PSFFlux_Model.pres)) (w : W)
  : option (W * cache * res (option (list R))) :=
  if match c_id c with Some i => Nat.eqb oid i | None => false end
  then Some (w, c, Ok (c_fluxes c))
  else match psf_fluxes fits w with
       | None => None
       | Some (w, Raise e) => Some (w, mkCache (Some oid) (c_fluxes c), Raise e)
       | Some (w, Ok f) => Some (w, mkCache (Some oid) (Some f), Ok (Some f))
       end.
(** TPSFFluxGuesser.__call__ and its subclasses: [body] with the fluxes; fluxes.size of None is an
    AttributeError *)
Definition psf_call (body : list R -> M gout) (c : cache) (oid : nat) (fits : list (res PSFFlux_Model.pres)) (w : W)
  : option (W * cache * res gout) :=
  match get_psf_fluxes c oid fits w with
  | None => None
  | Some (w, c, Raise e) => Some (w, c, Raise e)
  | Some (w, c, Ok None) => Some (w, c, Raise AttributeError)
  | Some (w, c, Ok (Some f)) =>
      match body f w with None => None | Some (w, r) => Some (w, c, r) end
  end.

(** ** Guessers for point spread functions *)
(** moments.py result of get_weighted_moments: flags, T and flux *)
Record mom := mkMom { mo_flags : Z; mo_T : R; mo_flux : R }.
(** ngmix/guessers.py:851-862 _get_T_flux_default *)
Definition T_flux_default (scale imsum : R) : R * R := let fwhm := scale * (7/2) in (fwhm_to_T fwhm, imsum).
(** the weight function's T, lines 870-876 *)
Definition Tweight (scale : R) : R := fwhm_to_T (scale * (7/2)).
(** ngmix/guessers.py:864-903 _get_T_flux_from_moms.  T is a numpy number: None when 1/Tmeas equals
    1/Tweight and T is infinite.  With flags 0, T is positive (C26). *)
Definition T_flux_from_moms (scale imsum : R) (m : mom) : option (R * R) :=
  if negb (Z.eqb (mo_flags m) 0) then Some (T_flux_default scale imsum) else
  let area := scale ^ 2 in
  if Rltb (T_to_fwhm (mo_T m)) scale then Some (T_flux_default scale imsum) else
  let d := 1 / mo_T m - 1 / Tweight scale in
  if Reqb d 0 then None else
  let T := 1 / d in
  let flux := mo_flux m * PI * (Tweight scale + T) / area in
  Some (if Rltb T 0 then (mo_T m, mo_flux m) else (T, flux)).

(** the tables, lines 1031-1055, 1227-1240 *)
Definition em2_p : list R := [596510042804182/1000000000000000; 4034898268889178/10000000000000000].
Definition em2_f : list R := [5793612389470884/10000000000000000; 1621860687127999/1000000000000000].
Definition em3_p : list R := em2_p ++ [1303069003078001/10000000000000000000000].
Definition em3_f : list R := em2_f ++ [7019347162356363/1000000000000000].
Definition em4_p : list R := em3_p ++ [1/100000000].
Definition em4_f : list R := em3_f ++ [16].
Definition em5_p : list R := [59453032/100000000; 35671819/100000000; 3567182/100000000; 1189061/100000000; 118906/100000000].
Definition em5_f : list R := [5/10; 1; 3; 10; 20].
Definition moffat2_p : list R := [5/10; 5/10].
Definition moffat2_f : list R := [48955064/100000000; 150658978/100000000].
Definition moffat3_p : list R := [27559669/100000000; 55817131/100000000; 166232/1000000].
Definition moffat3_f : list R := [36123609/100000000; 8426139/10000000; 258747785/100000000].
Definition moffat4_p : list R := [44534/100000; 366951/1000000; 10506/100000; 826497/10000000].
Definition moffat4_f : list R := [541019/1000000; 119701/100000; 282176/1000000; 351086/100000].
Definition moffat5_p : list R := [57874897/100000000; 32273483/100000000; 3327272/100000000; 341253/10000000; 3111819/100000000].
Definition moffat5_f : list R := [27831284/100000000; 9959897/10000000; 586989779/100000000; 563590429/100000000; 417285878/100000000].

(** six parameters of one component, lines 936-952 and 959-1028.  [vary] is false for two gaussians *)
Definition em_comp (flux sigma2 p f : R) (vary : bool) : M (list R) :=
  do a <- (if vary then do r <- uni1 (-1/10) (1/10); ret (flux * p * (1 + r)) else ret (p * flux));
  do r <- uni1 (-1/10) (1/10);
  do c <- uni1 (-1/10) (1/10);
  do x <- uni1 (-1/10) (1/10);
  do xy <- (if vary then uni1 (-1/100) (1/100) else ret 0);
  do y <- uni1 (-1/10) (1/10);
  ret [a; r; c; f * sigma2 * (1 + x); xy; f * sigma2 * (1 + y)].
Fixpoint em_comps (flux sigma2 : R) (vary : bool) (pf : list (R * R)) : M (list R) :=
  match pf with
  | [] => ret []
  | (p, f) :: pf => do a <- em_comp flux sigma2 p f vary; do l <- em_comps flux sigma2 vary pf; ret (a ++ l)
  end.
(** _em_pguess[i] for i in the given list *)
Definition entries (p f : list R) (idx : list nat) : list (R * R) := map (fun i => (nth i p 0, nth i f 0)) idx.
(** ngmix/guessers.py:905-1028 _get_guess_1gauss .. _get_guess_5gauss; with four and five gaussians
    the components after the third use entry 2 of the tables *)
Definition em_pars (ngauss : nat) (flux T : R) : M (list R) :=
  let sigma2 := T / 2 in
  match ngauss with
  | 1%nat =>
      do a <- (do r <- uni1 (9/10) (11/10); ret (flux * r));
      do r <- uni1 (-1/10) (1/10);
      do c <- uni1 (-1/10) (1/10);
      do x <- uni1 (-1/10) (1/10);
      do xy <- uni1 (- (2/10) * sigma2) (2/10 * sigma2);
      do y <- uni1 (-1/10) (1/10);
      ret [a; r; c; sigma2 * (1 + x); xy; sigma2 * (1 + y)]
  | 2%nat => em_comps flux sigma2 false (entries em2_p em2_f [0; 1]%nat)
  | 3%nat => em_comps flux sigma2 true (entries em3_p em3_f [0; 1; 2]%nat)
  | 4%nat => em_comps flux sigma2 true (entries em4_p em4_f [0; 1; 2; 2]%nat)
  | 5%nat => em_comps flux sigma2 true (entries em5_p em5_f [0; 1; 2; 2; 2]%nat)
  | _ => raise ValueError
  end.
(** GMix(pars=pars) *)
Definition gmixpsf_guess (ngauss : nat) (flux T : R) : M gmobj := do pars <- em_pars ngauss flux T; of_res (new_full pars).

(** ngmix/guessers.py:1098-1110 SimplePSFGuesser._get_guess *)
Definition psf_head : M (list R) :=
  do c <- uni (-1/100) (1/100) 2;
  do g <- uni (-5/100) (5/100) 2;
  match c, g with
  | [c0; c1], [g0; g1] => ret [0 + c0; 0 + c1; 0 + g0; 0 + g1]
  | _, _ => raise ValueError
  end.
Definition simplepsf_guess (flux T : R) : M (list R) :=
  do h <- psf_head;
  do t <- uni1 (9/10) (11/10);
  do f <- uni1 (9/10) (11/10);
  ret (h ++ [T * t; flux * f]).
(** ngmix/guessers.py:1154-1224 CoellipPSFGuesser *)
Fixpoint scaled_entries (c : R) (l : list R) : M (list R) :=
  match l with [] => ret [] | x :: l => do r <- uni1 (99/100) (101/100); do k <- scaled_entries c l; ret (c * x * r :: k) end.
Definition coellip_table (ngauss : nat) : option (list R * list R) :=
  match ngauss with
  | 2%nat => Some (moffat2_p, moffat2_f)
  | 3%nat => Some (moffat3_p, moffat3_f)
  | 4%nat => Some (moffat4_p, moffat4_f)
  | 5%nat => Some (moffat5_p, moffat5_f)
  | _ => None
  end.
Definition coellippsf_guess (ngauss : nat) (flux T : R) : M (list R) :=
  match ngauss with
  | 1%nat => simplepsf_guess flux T
  | _ => match coellip_table ngauss with
         | None => raise ValueError
         | Some (p, f) => do h <- psf_head; do t <- scaled_entries T f; do a <- scaled_entries flux p; ret (h ++ t ++ a)
         end
  end.
End Guess2.
