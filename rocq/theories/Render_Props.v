(** Properties C23, C24. *)
From Verif Require Import Base Moments_Spec Jacobian_Model Jacobian_Spec Pixels_Model GMix_Model GMix_Spec GMix_Proofs Render_Model Render_Spec Render_Proofs.

Example C23_hypotheses_hold : good_gmix [gauss2d_set 1 0 0 4 1 3; gauss2d_set (-2) 1 1 1 0 1].
Proof. exact ex_good. Qed.

(** [maha] in the definition of the surface brightness is d^T M^{-1} d *)
Theorem C23_mahalanobis_meaning : forall m dv du, 0 < det2 m ->
  exists a b, xx m * a + xy m * b = du /\ xy m * a + yy m * b = dv /\ maha m dv du = a * du + b * dv.
Proof. exact maha_meaning. Qed.
Print Assumptions C23_mahalanobis_meaning.

(** every pixel of the image holds brightness times pixel area (exact exponential) *)
Theorem C23_make_image : forall gm nr nc j, good_gmix gm ->
  exists gm' im, make_image gm nr nc (Some j) false = (gm', Ok im) /\ same_gmix gm gm' /\ good_gmix gm' /\
    nrow im = nr /\ ncol im = nc /\
    forall r c v u, (r < nr)%nat -> (c < nc)%nat -> maps_to j (INR r) (INR c) v u ->
      at2 im r c = Some (brightness gm v u * jscale j ^ 2).
Proof. exact make_image_exact. Qed.
Print Assumptions C23_make_image.

(** with the fast exponential, to 4e-5 of the central brightness *)
Theorem C23_make_image_fast : forall gm nr nc j, good_gmix gm ->
  exists gm' im, make_image gm nr nc (Some j) true = (gm', Ok im) /\ same_gmix gm gm' /\
    nrow im = nr /\ ncol im = nc /\
    forall r c v u, (r < nr)%nat -> (c < nc)%nat -> maps_to j (INR r) (INR c) v u ->
      exists y, at2 im r c = Some y /\
        Rabs (y - brightness gm v u * jscale j ^ 2) <= 4/100000 * peak gm * jscale j ^ 2.
Proof. exact make_image_fast. Qed.
Print Assumptions C23_make_image_fast.

(** without a Jacobian, pixels are unit squares about the image centre *)
Theorem C23_default_jacobian : forall gm nr nc fast,
  exists j, make_image gm nr nc None fast = make_image gm nr nc (Some j) fast /\ jscale j = 1 /\
    forall r c, maps_to j (INR r) (INR c) (INR r - (INR nr - 1)/2) (INR c - (INR nc - 1)/2).
Proof. exact make_image_default. Qed.
Print Assumptions C23_default_jacobian.

(** additive over components *)
Theorem C23_additive : forall a b ab nr nc j,
  good_gmix a -> good_gmix b -> good_gmix ab -> same_gmix ab (a ++ b) ->
  exists ia ib iab, snd (make_image a nr nc (Some j) false) = Ok ia /\ snd (make_image b nr nc (Some j) false) = Ok ib /\
    snd (make_image ab nr nc (Some j) false) = Ok iab /\
    forall r c, (r < nr)%nat -> (c < nc)%nat -> exists x y, at2 ia r c = Some x /\ at2 ib r c = Some y /\ at2 iab r c = Some (x + y).
Proof. exact image_additive. Qed.
Print Assumptions C23_additive.

(** proportional to the flux *)
Theorem C23_linear_in_flux : forall gm gm2 F nr nc j,
  good_gmix gm -> flux_of gm <> 0 -> gm_set_flux gm F = Some gm2 ->
  exists i i2, snd (make_image gm nr nc (Some j) false) = Ok i /\ snd (make_image gm2 nr nc (Some j) false) = Ok i2 /\
    forall r c, (r < nr)%nat -> (c < nc)%nat -> exists x, at2 i r c = Some x /\ at2 i2 r c = Some (F / flux_of gm * x).
Proof. exact image_flux. Qed.
Print Assumptions C23_linear_in_flux.

(** a component too small to evaluate is reported *)
Theorem C23_range_error : forall gm nr nc j fast, gm <> [] -> Forall coherent gm -> ~ Forall evaluable gm ->
  (forall g rest, gm = g :: rest -> g_norm_set g = false) ->
  snd (make_image gm nr nc (Some j) fast) = Raise GMixRangeError.
Proof. exact make_image_raises. Qed.
Print Assumptions C23_range_error.

Example C24_hypotheses_hold : good_gmix [gauss2d_set 1 0 0 4 1 3; gauss2d_set (-2) 1 1 1 0 1] /\
  (1 + length [mkPix 0 1 1 2 3; mkPix 1 1 1 2 0] <= length [7;7;7;7])%nat.
Proof. split; [exact ex_good|cbn; lia]. Qed.

(** residuals, log likelihood and S/N sums all come from the same model values; the residuals
    are written to their slice and nowhere else *)
Theorem C24_consistent : forall gm pixels fdiff start,
  good_gmix gm -> (start + length pixels <= length fdiff)%nat ->
  exists gm' model,
    same_gmix gm gm' /\
    (forall p, Rabs (model p - pixel_model gm p) <= 4/100000 * peak gm * Rabs (px_area p)) /\
    let resid p := (model p - px_val p) * px_ierr p in
    fill_fdiff gm pixels fdiff start = (gm', Ok (firstn start fdiff ++ map resid pixels ++ skipn (start + length pixels) fdiff)) /\
    get_loglike gm pixels =
      (gm', Ok (- rsum (map (fun p => resid p ^ 2) pixels) / 2,
                rsum (map (fun p => px_val p * model p * px_ierr p ^ 2) pixels),
                rsum (map (fun p => model p ^ 2 * px_ierr p ^ 2) pixels),
                length pixels)) /\
    get_model_s2n_sum gm pixels = (gm', Ok (rsum (map (fun p => model p ^ 2 * px_ierr p ^ 2) pixels))) /\
    get_model_s2n gm pixels = (gm', Ok (sqrt (rsum (map (fun p => model p ^ 2 * px_ierr p ^ 2) pixels)))).
Proof. exact likelihood_good. Qed.
Print Assumptions C24_consistent.

(** whatever the mixture, all four raise together *)
Theorem C24_raise_together : forall gm pixels fdiff start e gm',
  set_norms_if_needed gm = (gm', Raise e) ->
  fill_fdiff gm pixels fdiff start = (gm', Raise e) /\ get_loglike gm pixels = (gm', Raise e) /\
  get_model_s2n_sum gm pixels = (gm', Raise e) /\ get_model_s2n gm pixels = (gm', Raise e).
Proof. exact likelihood_raises. Qed.
Print Assumptions C24_raise_together.
Theorem C24_range_error : forall gm pixels, gm <> [] -> Forall coherent gm -> ~ Forall evaluable gm ->
  (forall g rest, gm = g :: rest -> g_norm_set g = false) ->
  snd (get_loglike gm pixels) = Raise GMixRangeError.
Proof. exact bad_gmix_raises. Qed.
Print Assumptions C24_range_error.

(** additive over pixel lists *)
Theorem C24_additive : forall gm gm' a b la na da ca lb nb db cb,
  get_loglike gm a = (gm', Ok (la, na, da, ca)) -> get_loglike gm b = (gm', Ok (lb, nb, db, cb)) ->
  get_loglike gm (a ++ b) = (gm', Ok (la + lb, na + nb, da + db, (ca + cb)%nat)).
Proof. exact loglike_app. Qed.
Print Assumptions C24_additive.

(** dropping the pixels of zero weight changes nothing but the pixel count *)
Theorem C24_zero_weight : forall gm gm' pixels l n d c,
  get_loglike gm pixels = (gm', Ok (l, n, d, c)) ->
  exists c', get_loglike gm (filter (fun p => negb (Reqb (px_ierr p) 0)) pixels) = (gm', Ok (l, n, d, c')).
Proof. exact loglike_zero_weight. Qed.
Print Assumptions C24_zero_weight.

(** the length check of GMix.fill_fdiff: too short an array is refused, and a long enough one
    meets the hypothesis of C24_consistent *)
Theorem C24_fdiff_length : forall gm image_size pixels fdiff start,
  ((length fdiff < start + image_size)%nat -> GMix_fill_fdiff gm image_size pixels fdiff start = (gm, Raise ValueError)) /\
  ((start + image_size <= length fdiff)%nat -> (length pixels <= image_size)%nat ->
   GMix_fill_fdiff gm image_size pixels fdiff start = fill_fdiff gm pixels fdiff start /\ (start + length pixels <= length fdiff)%nat).
Proof. exact (fun gm n p f s => conj (fdiff_too_short gm n p f s) (fdiff_long_enough gm n p f s)). Qed.
Print Assumptions C24_fdiff_length.
