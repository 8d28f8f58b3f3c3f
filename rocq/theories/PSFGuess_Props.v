(** C131: guesses for point spread functions, made from an observation *)
From Verif Require Import Base XReal Moments_Model Jacobian_Model Pixels_Model PriorSample_Model PriorSample_Spec GMix_Model GMixObj_Model Guessers_Model Guessers_Spec GuessersCex_Proofs PriorsCex_Proofs
  PSFGuess_Model PSFGuess_Spec PSFGuess_Proofs.
Local Open Scope R_scope.

(** the constructors take one to five gaussians *)
Theorem C131_constructors : forall n,
  (forall m, psf_guesser_init n = Ok m <-> (1 <= n <= 5)%Z /\ Z.of_nat m = n) /\
  (~ (1 <= n <= 5)%Z -> psf_guesser_init n = Raise ValueError /\ coellip_guesser_init n = Raise ValueError) /\
  (forall m k, coellip_guesser_init n = Ok (m, k) <-> (1 <= n <= 5)%Z /\ Z.of_nat m = n /\ k = (4 + 2 * n)%Z).
Proof.
  intros n. split; [intros m; rewrite init_ok; split; intros [A B]; (split; [exact A|lia])|]. split.
  - intros H. unfold coellip_guesser_init. rewrite (init_bad n H). split; reflexivity.
  - intros m k. unfold coellip_guesser_init. destruct (psf_guesser_init n) as [x|e] eqn:E; cbn [bind].
    + apply init_ok in E. destruct E as [A ->]. split; [intros [= <- <-]; split; [exact A|split; [lia|reflexivity]]|intros (_ & B & ->); f_equal; f_equal; lia].
    + split; [discriminate|]. intros (A & B & _). assert (X : psf_guesser_init n = Ok m) by (apply init_ok; split; [exact A|lia]). congruence.
Qed.
Print Assumptions C131_constructors.

(** without guess_from_moms: a fwhm of 3.5 pixels and the sum of the image *)
Theorem C131_default : forall o, 0 <= jscale (gb_jac o) ->
  exists T, get_T_flux false o = Some (Ok (T, image_sum (gb_image o))) /\ T_to_fwhm T = 7/2 * jscale (gb_jac o).
Proof. exact default_size. Qed.
Print Assumptions C131_default.

(** with it: the gaussian whose weighted size and flux are those of the image *)
Theorem C131_from_moments : forall o px, readable o px -> let T := Tweight (jscale (gb_jac o)) in has_moments T px ->
  let Tm := psum T px 4 / psum T px 5 in jscale (gb_jac o) <= T_to_fwhm Tm -> Tm < T ->
  exists T0 F, get_T_flux true o = Some (Ok (T0, F)) /\ 0 < T0 /\ / T0 + / T = / Tm /\ F * (T / (T0 + T)) = psum T px 5.
Proof. exact from_moments. Qed.
Print Assumptions C131_from_moments.
Example C131_hypotheses_hold : exists px, readable in_obs px /\ has_moments (Tweight 1) px /\ psum (Tweight 1) px 4 / psum (Tweight 1) px 5 = 5/4 /\ 1 <= T_to_fwhm (5/4) /\ 5/4 < Tweight 1.
Proof. exact in_example. Qed.
(** always a positive size, or an infinite one if the measured size is that of the weight *)
Theorem C131_outcomes : forall o px, readable o px -> let T := Tweight (jscale (gb_jac o)) in
  (exists T0 F, get_T_flux true o = Some (Ok (T0, F)) /\ 0 < T0) \/ (get_T_flux true o = None /\ has_moments T px /\ psum T px 4 / psum T px 5 = T).
Proof. exact outcomes. Qed.
Print Assumptions C131_outcomes.
(** the error of an observation without pixels is not hidden *)
Theorem C131_no_pixels : forall o e, / 10 ^ 40 <= jscale (gb_jac o) -> gb_pixels o = Raise e -> get_T_flux true o = Some (Raise e) /\
  forall W (G : rng W) n w, gmixpsf_call W G n true o w = Some (w, Raise e) /\ simplepsf_call W G true o w = Some (w, Raise e) /\ coellippsf_call W G n true o w = Some (w, Raise e).
Proof.
  intros o e HJ E. assert (X := no_pixels o e HJ E). split; [exact X|]. intros W G n w. unfold gmixpsf_call, simplepsf_call, coellippsf_call, with_T_flux. rewrite X. repeat split.
Qed.
Print Assumptions C131_no_pixels.

(** moments that are not good are not used *)
Theorem C131_flagged : forall o px, readable o px -> ~ has_moments (Tweight (jscale (gb_jac o))) px -> get_T_flux true o = get_T_flux false o.
Proof. exact ignored. Qed.
Print Assumptions C131_flagged.
(** among them those of round images: flux, size and all the variances are positive, and still the moments are ignored *)
Theorem C131_round_refuted : exists o px, readable o px /\ measured (Tweight (jscale (gb_jac o))) px /\ get_T_flux true o = get_T_flux false o.
Proof. exists round_obs, round_px. destruct round_ignored as (A & B & C). split; [exact B|]. split; [exact A|exact C]. Qed.
Print Assumptions C131_round_refuted.
(** images larger than the weight: the flux is that of the sums with the normalised weight, which is less than
    a thirteenth of the flux seen through the weight *)
Theorem C131_large_flux_refuted :
  (forall o px, readable o px -> let T := Tweight (jscale (gb_jac o)) in has_moments T px ->
     let Tm := psum T px 4 / psum T px 5 in T < Tm -> exists F, get_T_flux true o = Some (Ok (Tm, F)) /\ 0 < F /\ 13 * F < psum T px 5) /\
  (exists o px T F, readable o px /\ get_T_flux true o = Some (Ok (T, F)) /\ 13 * F < image_sum (gb_image o)).
Proof.
  split; [exact fallback|]. destruct off_wrong as (F & E & _ & L). exists off_obs, off_px, 13, F. split; [exact off_readable|]. split; [exact E|exact L].
Qed.
Print Assumptions C131_large_flux_refuted.

(** a guess does not depend on the units of the image, except that fluxes are in these units *)
Theorem C131_units_mixture : forall W (G : rng W) k c o o' px n b w w' g, good_rng G -> (1 <= n <= 5)%nat -> readable o px -> 0 < k -> c <> 0 -> rescaled k c o o' ->
  gmixpsf_call W G n b o w = Some (w', Ok g) ->
  exists g', gmixpsf_call W G n b o' w = Some (w', Ok g') /\ gm_get_full_pars (o_data g') = scale_fluxes k (gm_get_full_pars (o_data g)).
Proof. exact @gmix_call_scaled. Qed.
Print Assumptions C131_units_mixture.
Theorem C131_units_shapes : forall W (G : rng W) k c o o' px b, readable o px -> 0 < k -> c <> 0 -> rescaled k c o o' ->
  (forall w w' l, simplepsf_call W G b o w = Some (w', Ok l) -> simplepsf_call W G b o' w = Some (w', Ok (firstn 5 l ++ map (Rmult k) (skipn 5 l)))) /\
  (forall n w w' l, coellippsf_call W G n b o w = Some (w', Ok l) -> coellippsf_call W G n b o' w = Some (w', Ok (firstn (4 + n) l ++ map (Rmult k) (skipn (4 + n) l)))).
Proof. exact @shape_call_scaled. Qed.
Print Assumptions C131_units_shapes.
Example C131_units_hypotheses_hold : good_rng the_rng /\ readable off_obs off_px /\ rescaled 2 (1/2) off_obs off_obs2.
Proof. split; [exact the_rng_good|]. split; [exact off_readable|exact off_rescaled]. Qed.

(** the guess is drawn around this size and flux *)
Theorem C131_calls : forall W (G : rng W) b o T F, good_rng G -> get_T_flux b o = Some (Ok (T, F)) ->
  (0 < T -> total W (gmixpsf_call W G 1 b o) (fun g => o_kind g = KFull /\ one_gauss F (T / 2) (gm_get_full_pars (o_data g)))) /\
  total W (gmixpsf_call W G 2 b o) (fun g => o_kind g = KFull /\ psf_mixture F (T / 2) 0 (combine em2_p em2_f) (gm_get_full_pars (o_data g))) /\
  total W (gmixpsf_call W G 3 b o) (fun g => o_kind g = KFull /\ psf_mixture F (T / 2) (1/100) (combine em3_p em3_f) (gm_get_full_pars (o_data g))) /\
  total W (simplepsf_call W G b o) (coellip_row (1/10) [T] [F]) /\
  (forall n p f, coellip_table n = Some (p, f) -> total W (coellippsf_call W G n b o) (coellip_row (1/100) (map (fun x => T * x) f) (map (fun x => F * x) p))).
Proof. exact @calls_total. Qed.
Print Assumptions C131_calls.
