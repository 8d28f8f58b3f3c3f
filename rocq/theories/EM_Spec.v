(** The EM algorithm for a gaussian mixture seen through a psf, in terms of sums over pixels. *)
From Verif Require Import Base Moments_Spec Pixels_Model GMix_Model GMix_Spec Render_Spec FastExp_Model GMixObj_Model EM_Model.
Local Open Scope R_scope.

(** gaussian g convolved with the centred gaussian q of the psf *)
Definition seen (psf : gmix) (g q : gauss) : gauss :=
  gauss2d_set (g_p g * g_p q / flux_of psf) (g_row g + (g_row q - row_of psf)) (g_col g + (g_col q - col_of psf))
    (g_irr g + g_irr q) (g_irc g + g_irc q) (g_icc g + g_icc q).
(** the approximate exponential, whose accuracy is the subject of C22 *)
Definition fast_exp (x : R) : R := match fexp x with Ok y => y | Raise _ => 0 end.
Definition dist2 (g : gauss) (p : pixel R) : R := maha (gcov g) (px_v p - g_row g) (px_u p - g_col g).
(** flux of a gaussian in a pixel, cut off at 5 sigma *)
Definition in_pixel (g : gauss) (p : pixel R) : R :=
  if Rlt_dec (dist2 g p) 25
  then g_p g / (2 * PI * sqrt (det2 (gcov g))) * fast_exp (- (5/10) * dist2 g p) * px_area p else 0.
(** all gaussians seen through the psf *)
Definition views (psf gm : gmix) : gmix := flat_map (fun g => map (seen psf g) psf) gm.
Definition model (psf gm : gmix) (p : pixel R) : R := rsum (map (fun h => in_pixel h p) (views psf gm)).

(** state of the algorithm *)
Record em := mkEM { m_gm : gmix; m_pix : list (pixel R); m_sky : R }.

Section Step.
Variables (k : em_kind) (psf : gmix) (vary_sky : bool).

Definition total (s : em) (p : pixel R) : R := model psf (m_gm s) p + m_sky s.
(** masked pixels take the value of the current model *)
Definition filled (s : em) : list (pixel R) :=
  map (fun p => if Rle_dec (px_ierr p) 0 then mkPix (px_u p) (px_v p) (px_area p) (m_sky s + model psf (m_gm s) p) (px_ierr p) else p) (m_pix s).
(** flux of pixel p attributed to the convolved gaussian h *)
Definition share (s : em) (h : gauss) (p : pixel R) : R := in_pixel h p / total s p * px_val p.
(** sum of x over pixels, weighted with the flux attributed to component g *)
Definition attributed (s : em) (g : gauss) (x : gauss -> pixel R -> R) : R :=
  rsum (map (fun p => rsum (map (fun q => x (seen psf g q) p * share s (seen psf g q) p) psf)) (filled s)).
Definition att_flux (s : em) (g : gauss) : R := attributed s g (fun _ _ => 1).
Definition att_mean (s : em) (g : gauss) (x : gauss -> pixel R -> R) : R := attributed s g x / att_flux s g.
(** flux attributed to the sky *)
Definition sky_flux (s : em) : R := rsum (map (fun p => m_sky s / total s p * px_val p) (filled s)).

(** second moments less those of the psf; sizes are kept positive *)
Definition positive_cov (irr irc icc : R) (m : R * R * R) : Prop :=
  let '(a, b, c) := if Rlt_dec irr 0 then (/ 10 ^ 4, 0, / 10 ^ 4) else if Rlt_dec icc 0 then (/ 10 ^ 4, 0, / 10 ^ 4) else (irr, irc, icc) in
  if Rlt_dec (a * c - b * b) (/ 10 ^ 200) then m = ((a + c) / 2, 0, (a + c) / 2) else m = (a, b, c).
Definition new_cen (s : em) (g g' : gauss) : Prop :=
  if tracks_cen k then
    att_flux s g <> 0 /\ g_row g' = att_mean s g (fun _ p => px_v p) /\ g_col g' = att_mean s g (fun _ p => px_u p)
  else g_row g' = g_row g /\ g_col g' = g_col g.
Definition new_cov (s : em) (g g' : gauss) : Prop :=
  if tracks_cov k then
    att_flux s g <> 0 /\
    positive_cov (att_mean s g (fun h p => (px_v p - g_row h) * (px_v p - g_row h)) - yy (cov_of psf))
                 (att_mean s g (fun h p => (px_v p - g_row h) * (px_u p - g_col h)) - xy (cov_of psf))
                 (att_mean s g (fun h p => (px_u p - g_col h) * (px_u p - g_col h)) - xx (cov_of psf))
                 (g_irr g', g_irc g', g_icc g')
  else g_irr g' = g_irr g /\ g_irc g' = g_irc g /\ g_icc g' = g_icc g.
(** one iteration *)
Definition em_step (s s' : em) : Prop :=
  (forall p, In p (filled s) -> total s p <> 0) /\
  Forall2 (fun g g' => g_p g' = att_flux s g /\ new_cen s g g' /\ new_cov s g g') (m_gm s) (m_gm s') /\
  m_pix s' = filled s /\
  (if vary_sky then m_pix s <> [] /\ m_sky s' = sky_flux s / INR (length (m_pix s)) else m_sky s' = m_sky s).

(** sum of numbers that may be undefined *)
Fixpoint osum (l : list (option R)) : option R :=
  match l with
  | [] => Some 0
  | x :: l => match x, osum l with Some a, Some b => Some (a + b) | _, _ => None end
  end.
(** the log likelihood; undefined (NaN) with a negative or zero flux *)
Definition log_dens (h : gauss) (p : pixel R) : option R :=
  if Rlt_dec 0 (g_p h) then Some (in_pixel h p * (ln (g_p h) - 5/10 * ln (det2 (gcov h)) - 5/10 * dist2 h p)) else None.
Definition log_like (s : em) : option R :=
  osum (map (fun p => if Req_EM_T (model psf (m_gm s) p) 0 then Some 0
                      else match osum (map (fun h => log_dens h p) (views psf (m_gm s))) with
                           | Some x => Some (x / model psf (m_gm s) p) | None => None end) (filled s)).

(** the quantity watched for convergence in iteration i (from 1), given the states s_0, s_1, ...:
    log likelihood before the iteration, or total flux after it *)
Definition watched (h : list em) (i : nat) : option R :=
  match k with
  | FluxOnly => match nth_error h i with Some s => Some (flux_of (m_gm s)) | None => None end
  | _ => match i with
         | O => Some (- (99999 * 10 ^ 8))
         | S i => match nth_error h i with Some s => log_like s | None => None end
         end
  end.
(** what the change is divided by *)
Definition denominator (h : list em) (i : nat) : option R :=
  match k with FluxOnly => watched h (i - 1) | _ => watched h i end.
(** fractional change in iteration i; None is NaN *)
Definition change (h : list em) (i : nat) : option R :=
  match watched h i, watched h (i - 1), denominator h i with
  | Some x, Some y, Some d => if Req_EM_T d 0 then None else Some (Rabs ((x - y) / d))
  | _, _, _ => None
  end.
Definition converged (tol : R) (miniter : nat) (h : list em) (i : nat) : Prop :=
  (miniter <= i)%nat /\ exists d, change h i = Some d /\ d < tol.

(** a run: states s_0 ... s_n, each obtained from the one before; every gaussian is big
    enough to be evaluated *)
Definition is_run (s0 : em) (h : list em) : Prop :=
  nth_error h 0 = Some s0 /\
  (forall i s s', nth_error h i = Some s -> nth_error h (S i) = Some s' -> em_step s s') /\
  (forall s, In s h -> Forall evaluable (views psf (m_gm s))).
(** the run cannot be continued: no next state, or the change is not defined in it *)
Definition stuck (miniter : nat) (h : list em) : Prop :=
  forall s s', nth_error h (length h - 1) = Some s -> em_step s s' -> Forall evaluable (views psf (m_gm s')) ->
  (miniter <= length h)%nat /\ denominator (h ++ [s']) (length h) = Some 0.
End Step.

(** everything readable in a is readable in b, with the same contents *)
Definition same_old (m m' : emem) : Prop :=
  (forall i o, read (em_gm m) i = Some o -> read (em_gm m') i = Some o) /\
  (forall i p, nth_error (em_px m) i = Some p -> nth_error (em_px m') i = Some p) /\
  (forall i a, nth_error (em_im m) i = Some a -> nth_error (em_im m') i = Some a).

(** pixels that differ in the values of masked pixels only *)
Definition same_unmasked (a b : pixel R) : Prop :=
  px_u a = px_u b /\ px_v a = px_v b /\ px_area a = px_area b /\ px_ierr a = px_ierr b /\
  (0 < px_ierr a -> px_val a = px_val b).

(** elements of an image *)
Definition in_image {A} (im : arr2 A) (r c : nat) : Prop := (r < nrow im)%nat /\ (c < ncol im)%nat.

(** ---- what a call of go() is given ---- *)
(** the data: the pixels and the sky; without sky, the prepared image with all weights 1 *)
Definition data_given (m : emem) (obs : eobs) (sky : option R) (px : list (pixel R)) (s : R) : Prop :=
  match sky with
  | Some x => x = s /\ nth_error (em_px m) (eo_px obs) = Some px
  | None => exists im0 im, nth_error (em_im m) (eo_image obs) = Some im0 /\ prep_image im0 = Ok (im, s) /\
              make_pixels im (mkArr (nrow im) (ncol im) (fun _ _ => 1)) (eo_jac obs) true = Ok px
  end.
Definition guess_given (m : emem) (guess : nat) (G : gmix) : Prop :=
  exists g c, read (em_gm m) guess = Some g /\ obj_copy g = Ok c /\ o_data c = G.
(** the psf, scaled to unit flux; a point without psf *)
Definition psf_given (m : emem) (obs : eobs) (P : gmix) : Prop :=
  match eo_psf obs with
  | Some (Some i) => exists x c, read (em_gm m) i = Some x /\ obj_copy x = Ok c /\ gm_set_flux (o_data c) 1 = Some P
  | _ => P = [gauss2d_set 1 0 0 0 0 0]
  end.
(** flux, centre and covariance of a component *)
Definition pars_of (g : gauss) := (g_p g, g_row g, g_col g, g_irr g, g_irc g, g_icc g).
Definition same_pars (a b : gmix) : Prop := Forall2 (fun x y => pars_of x = pars_of y) a b.

(** a call on existing objects *)
Definition valid_call (m : emem) (obs : eobs) (guess : nat) : Prop :=
  (exists l, run empty_heap l = Some (em_gm m)) /\ (exists g, read (em_gm m) guess = Some g) /\
  (exists px, nth_error (em_px m) (eo_px obs) = Some px).
(** a run of the algorithm on the data, guess and psf of the call *)
Definition ran (f : fitter) (m : emem) (obs : eobs) (guess : nat) (sky : option R)
    (px : list (pixel R)) (s : R) (G P : gmix) (h : list em) : Prop :=
  data_given m obs sky px s /\ guess_given m guess G /\ psf_given m obs P /\
  is_run (f_kind f) P (f_vary_sky f) (mkEM G px s) h.
(** the arguments cannot be used: no image, a copy fails, or no pixels *)
Definition bad_call (m : emem) (obs : eobs) (guess : nat) (sky : option R) (e : exn) : Prop :=
  (sky = None /\ exists im0, nth_error (em_im m) (eo_image obs) = Some im0 /\
      (prep_image im0 = Raise e \/
       exists im s, prep_image im0 = Ok (im, s) /\ make_pixels im (mkArr (nrow im) (ncol im) (fun _ _ => 1)) (eo_jac obs) true = Raise e)) \/
  (exists i x, eo_psf obs = Some (Some i) /\ read (em_gm m) i = Some x /\ obj_copy x = Raise e) \/
  (exists x, read (em_gm m) guess = Some x /\ obj_copy x = Raise e).

(** symmetric positive semidefinite *)
Definition psd (g : gauss) : Prop := forall x y : R, 0 <= g_irr g * x * x + 2 * g_irc g * x * y + g_icc g * y * y.

Definition same_cen (g g' : gauss) : Prop := g_row g' = g_row g /\ g_col g' = g_col g.
Definition same_cov (g g' : gauss) : Prop := g_irr g' = g_irr g /\ g_irc g' = g_irc g /\ g_icc g' = g_icc g.
(** two calls return the same result and the same mixtures *)
Definition agree (x y : option (emem * res em_res)) : Prop :=
  match x, y with
  | Some (m1, r1), Some (m2, r2) => r1 = r2 /\ em_gm m1 = em_gm m2
  | None, None => True
  | _, _ => False
  end.
(** every pixel has positive weight *)
Definition unmasked (px : list (pixel R)) : Prop := Forall (fun p => 0 < px_ierr p) px.

(** ---- likelihood ---- *)
(** the mixture in a pixel with the exact exponential and without cut off *)
Definition full_model (psf gm : gmix) (p : pixel R) : R := pixel_model (views psf gm) p.
(** log probability, but for a constant, of counts that are Poisson deviates with the means m p *)
Definition poisson (px : list (pixel R)) (m : pixel R -> R) (total_mean : R) : R := rsum (map (fun p => px_val p * ln (m p)) px) - total_mean.
(** mean of the sum of all counts: the flux and the sky *)
Definition all_counts (s : em) : R := flux_of (m_gm s) + INR (length (m_pix s)) * m_sky s.
(** of the exact model, and of the model as the code draws it *)
Definition likelihood (psf : gmix) (s : em) : R := poisson (m_pix s) (fun p => full_model psf (m_gm s) p + m_sky s) (all_counts s).
Definition drawn_likelihood (psf : gmix) (s : em) : R := poisson (m_pix s) (total psf s) (all_counts s).
(** part of the exact model that is beyond the cut off of its gaussian *)
Definition cut_light (psf gm : gmix) (p : pixel R) : R :=
  rsum (map (fun h => if Rlt_dec (dist2 h p) 25 then 0 else component h (px_v p) (px_u p) * px_area p) (views psf gm)).
(** data and guess that make sense as counts *)
Definition counts_given (px : list (pixel R)) (s : R) (G P : gmix) : Prop :=
  Forall (fun p => 0 < px_area p /\ 0 <= px_val p /\ 0 < px_ierr p) px /\ 0 <= s /\
  Forall (fun g => 0 <= g_p g) G /\ P <> [] /\ Forall (fun q => 0 < g_p q) P.
(** no covariance needs to be corrected in the iteration that starts from s *)
Definition no_correction (k : em_kind) (psf : gmix) (s : em) : Prop :=
  tracks_cov k = true -> forall g, In g (m_gm s) ->
    let irr := att_mean psf s g (fun h p => (px_v p - g_row h) * (px_v p - g_row h)) - yy (cov_of psf) in
    let irc := att_mean psf s g (fun h p => (px_v p - g_row h) * (px_u p - g_col h)) - xy (cov_of psf) in
    let icc := att_mean psf s g (fun h p => (px_u p - g_col h) * (px_u p - g_col h)) - xx (cov_of psf) in
    0 <= irr /\ 0 <= icc /\ / 10 ^ 200 <= irr * icc - irc * irc.
