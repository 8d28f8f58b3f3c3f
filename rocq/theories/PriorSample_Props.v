(** C67 and C96: random samples from the priors. *)
From Verif Require Import Base XReal Priors_Model Priors_Spec Priors_Proofs PriorSample_Model PriorSample_Spec PriorSample_Proofs
  Joint_Model Joint_Spec Joint_Proofs PriorsCex_Proofs.
Local Open Scope R_scope.

(** ** C67 *)
(** the samplers that reject do rejection sampling, for every number of passes *)
Theorem C67_rejection : forall W (G : rng W), good_rng G ->
  (forall p, samples_by (fun w n => rnormal G w (tg_mean p) (tg_sigma p) n)
     (fun x => tg_min p < x < tg_max p) (fun x => x) (trunc_sample G p)) /\
  (forall erf p, samples_by
     (two_draws (fun w n => uniform G w (te_min p - 5 * te_wmin p) (te_max p + 5 * te_wmax p) n) (fun w n => uniform G w 0 1 n))
     (fun c => xltb (Fin (snd c)) (erf_prob_scalar erf p (Fin (fst c))) = true) fst (erf_sample G erf p)) /\
  (forall prob gmax maxval, samples_by
     (two_draws (scaled (gmax - 1 / 10000) (fun w n => uniform G w 0 1 n))
                (scaled (maxval * (11 / 10)) (fun w n => uniform G w 0 1 n)))
     (fun c => xltb (Fin (snd c)) (prob (Fin (fst c))) = true) fst (g1d_sample G (map prob) gmax maxval)) /\
  (forall gmax sigma, samples_by
     (two_draws (fun w n => rnormal G w 0 sigma n) (fun w n => rnormal G w 0 sigma n))
     (fun g => sqrt (fst g ^ 2 + snd g ^ 2) < gmax - 1 / 10000) (fun g => g) (ggauss_sample G gmax sigma)) /\
  (forall p, samples_by
     (three_draws (fun w n => uniform G w (-1) 1 n) (fun w n => uniform G w (-1) 1 n) (fun w n => uniform G w 0 1 n))
     (fun c => xltb (xmul (ba_prob_scalar2d p (Fin 0) (Fin 0)) (Fin (snd c)))
                    (ba_prob_scalar2d p (Fin (fst (fst c))) (Fin (snd (fst c)))) = true) fst (ba_brute_sample G p)).
Proof.
  intros W G HG. split; [exact (trunc_samples W G HG)|]. split; [exact (erf_samples W G HG)|].
  split; [exact (g1d_samples W G HG)|]. split; [exact (ggauss_samples W G HG)|exact (ba_brute_samples W G HG)].
Qed.
Print Assumptions C67_rejection.
Theorem C67_bounded : forall W pdf lo hi, (forall w n, exists l, snd (pdf w n) = Ok l /\ length l = n) ->
  samples_by (fun w n => (fst (pdf w n), match snd (pdf w n) with Ok l => l | Raise _ => [] end))
    (fun x => lo < x < hi) (fun x => x) (bounded_sample (W:=W) pdf lo hi) /\
  all_values (fun x => lo < x < hi) (bounded_sample (W:=W) pdf lo hi).
Proof. intros W pdf lo hi H. split; [exact (bounded_samples W pdf lo hi H)|exact (bounded_values W pdf lo hi H)]. Qed.
Print Assumptions C67_bounded.
Theorem C67_support : forall W (G : rng W), good_rng G ->
  (forall m s a b p, trunc_init m s a b = Ok p ->
     all_values (fun x => a < x < b /\ exists l, trunc_lnprob_scalar p (Fin x) = Ok l) (trunc_sample G p)) /\
  (forall erf p, te_min p - 5 * te_wmin p < te_max p + 5 * te_wmax p ->
     all_values (fun x => te_min p - 5 * te_wmin p <= x < te_max p + 5 * te_wmax p /\
                          xltb (Fin 0) (erf_prob_scalar erf p (Fin x)) = true) (erf_sample G erf p)) /\
  (forall prob gmax maxval, 1 / 10000 < gmax -> gmax <= 1 ->
     all_values (fun g => 0 <= g < 1) (g1d_sample G (map prob) gmax maxval)) /\
  (forall gmax sigma, gmax <= 1 -> all_values (fun g => fst g ^ 2 + snd g ^ 2 < 1) (ggauss_sample G gmax sigma)) /\
  (forall s A p, gba_init s A = Ok p -> 0 <= A ->
     all_values (fun g => fst g ^ 2 + snd g ^ 2 < 1) (ba_brute_sample G p)).
Proof.
  intros W G HG. split; [intros m s a b p; exact (trunc_sample_ok G m s a b p HG)|]. split; [exact (erf_values W G HG)|].
  split; [exact (g1d_values W G HG)|]. split; [exact (ggauss_values W G HG)|exact (ba_brute_values W G HG)].
Qed.
Print Assumptions C67_support.
Theorem C67_shapes_2d : forall W (G : rng W) s A p gmax maxval fuel w n w' g1 g2, good_rng G -> gba_init s A = Ok p ->
  1 / 10000 < gmax -> gmax <= 1 -> g2d_sample G (ba_prob_array1d p) gmax maxval fuel w n = Some (w', Ok (g1, g2)) ->
  length g1 = n /\ length g2 = n /\
  forall i, (i < n)%nat -> nth i g1 0 ^ 2 + nth i g2 0 ^ 2 < 1 /\
    exists l, ba_lnprob_scalar2d p (Fin (nth i g1 0)) (Fin (nth i g2 0)) = Ok l.
Proof. intros W G s A p gmax maxval fuel w n w' g1 g2. exact (g2d_lnprob G s A p gmax maxval fuel w n w' g1 g2). Qed.
Print Assumptions C67_shapes_2d.
(** moduli from sample1d, angles uniform in [0, 2 pi) *)
Theorem C67_shapes_2d_rotated : forall W (G : rng W), good_rng G -> forall prob gmax maxval, 1 / 10000 < gmax -> gmax <= 1 ->
  forall fuel w n w' g1 g2, g2d_sample G (map prob) gmax maxval fuel w n = Some (w', Ok (g1, g2)) ->
    length g1 = n /\ length g2 = n /\
    exists gs ths, (exists w1, g1d_sample G (map prob) gmax maxval fuel w n = Some (w1, Ok gs)) /\
      (forall i, (i < n)%nat -> nth i g1 0 = nth i gs 0 * cos (2 * nth i ths 0) /\ nth i g2 0 = nth i gs 0 * sin (2 * nth i ths 0) /\
         0 <= nth i ths 0 < 2 * PI /\ nth i g1 0 ^ 2 + nth i g2 0 ^ 2 = nth i gs 0 ^ 2 /\ nth i g1 0 ^ 2 + nth i g2 0 ^ 2 < 1).
Proof. exact g2d_values. Qed.
Print Assumptions C67_shapes_2d_rotated.
Theorem C67_direct : forall W (G : rng W), good_rng G ->
  (forall p, fl_min p < fl_max p -> all_direct (fun x => fl_min p <= x < fl_max p) (flat_sample G p)) /\
  (forall p, lb_min p < lb_max p -> all_direct (fun x => lb_min p <= x < lb_max p) (lmbounds_sample G p)) /\
  (forall p, 0 < sh_scale p ->
     all_direct (fun x => sh_mean p - sh_scale p <= x < sh_mean p + sh_scale p) (sinh_sample G p)) /\
  (forall p, all_direct (fun x => shift_of (lg_shift p) < x) (lognormal_sample G p)) /\
  (forall r, r <> 0 -> all_direct (fun x => 0 <= x < Rabs r) (zdisk_sample1d G (zdisk_init r))) /\
  (forall r, r <> 0 -> forall w n,
     let out := snd (zdisk_sample2d G (zdisk_init r) w n) in
     length (fst out) = n /\ length (snd out) = n /\
     Forall (fun x => fst x ^ 2 + snd x ^ 2 < r ^ 2) (combine (fst out) (snd out))).
Proof.
  intros W G HG. split; [exact (flat_values W G HG)|]. split; [exact (lmbounds_values W G HG)|].
  split; [exact (sinh_values W G HG)|]. split; [exact (lognormal_values W G HG)|].
  split; [exact (zdisk1d_values W G HG)|exact (zdisk2d_values W G HG)].
Qed.
Print Assumptions C67_direct.
(** and through the right distribution *)
Theorem C67_direct_distribution : forall W (G : rng W), good_rng G ->
  (forall p, fl_min p < fl_max p ->
     transformed (fun x => (x - fl_min p) / (fl_max p - fl_min p)) (fun w n => uniform G w 0 1 n) (flat_sample G p)) /\
  (forall p, transformed (fun x => x) (fun w n => uniform G w (lb_min p) (lb_max p) n) (lmbounds_sample G p)) /\
  (forall p, transformed (fun x => x) (fun w n => uniform G w (sh_mean p - sh_scale p) (sh_mean p + sh_scale p) n) (sinh_sample G p)) /\
  (forall m s b p, normal_init m s b = Ok p -> transformed (fun x => x) (fun w n => rnormal G w m s n) (normal_sample G p)) /\
  (forall m s sh p, s <> 0 -> lognormal_init m s sh = Ok p ->
     transformed (fun x => (ln (x - shift_of sh) - lg_logmean p) / sqrt (lg_logvar p)) (fun w n => rnormal G w 0 1 n) (lognormal_sample G p)) /\
  (forall r, r <> 0 -> transformed (fun x => x ^ 2 / r ^ 2) (fun w n => uniform G w 0 1 n) (zdisk_sample1d G (zdisk_init r))).
Proof.
  intros W G HG. assert (I : forall l : list R, Forall2 (fun x u => x = u) l l) by (induction l; constructor; auto).
  split; [exact (flat_transformed W G)|]. split; [intros p w n; split; [reflexivity|apply I]|].
  split; [intros p w n; split; [reflexivity|apply I]|].
  split; [|split; [exact (lognormal_transformed W G)|exact (zdisk_transformed W G HG)]].
  intros m s b p H w n. unfold normal_init in H. obind H a Ea. obind H c Ec. injection H as <-. split; [reflexivity|apply I].
Qed.
Print Assumptions C67_direct_distribution.
Theorem C67_centre_and_disk : forall W (G : rng W), good_rng G ->
  (forall a b s t p, cen_init a b s t = Ok p -> forall w n w1 xs w2 ys,
     rnormal G w a s n = (w1, xs) -> rnormal G w1 b t n = (w2, ys) -> cen_sample G p w n = (w2, (xs, ys))) /\
  (forall r w n w1 rs w2 us,
     zdisk_sample1d G (zdisk_init r) w n = (w1, rs) -> uniform G w1 0 1 n = (w2, us) ->
     zdisk_sample2d G (zdisk_init r) w n =
       (w2, (map (fun i => nth i rs 0 * cos (2 * PI * nth i us 0)) (seq 0 n),
             map (fun i => nth i rs 0 * sin (2 * PI * nth i us 0)) (seq 0 n)))).
Proof.
  intros W G HG. split; [|exact (zdisk2d_angles W G HG)].
  intros a b s t p H w n w1 xs w2 ys H1 H2. unfold cen_init in H. obind H q1 K1. obind H q2 K2. obind H q3 K3. obind H q4 K4. injection H as <-.
  unfold cen_sample. cbn [ce_cen1 ce_cen2 ce_sigma1 ce_sigma2]. rewrite H1, H2. reflexivity.
Qed.
Print Assumptions C67_centre_and_disk.
Theorem C67_lognormal_brute : forall W (G : rng W), good_rng G -> forall m s sh p maxval, s <> 0 -> lognormal_init m s sh = Ok p ->
  forall fuel w n w' r, brute_sample G p maxval fuel w n = Some (w', r) ->
    r = Raise GMixRangeError \/ exists vals, r = Ok vals /\ length vals = n /\ Forall (fun x => shift_of sh < x) vals.
Proof. exact brute_values. Qed.
Print Assumptions C67_lognormal_brute.
Theorem C67_lognormal_brute_rejection : forall W (G : rng W), good_rng G -> forall m s sh p maxval, lognormal_init m s sh = Ok p ->
  forall fuel w n w' vals, brute_sample G p maxval fuel w n = Some (w', Ok vals) -> length vals = n /\
    rejection (two_draws (fun w n => let (w, u) := uniform G w 0 1 n in
                            (w, map (fun u => match maxval with Some v => v | None => m + 10 * s end * u + shift_of sh) u)) (fun w n => uniform G w 0 1 n))
      (fun c => exists q, lognormal_prob_scalar p (Fin (fst c)) = Ok q /\ xltb (Fin (snd c)) q = true) fst w n vals w'.
Proof. exact brute_rejection. Qed.
Print Assumptions C67_lognormal_brute_rejection.
(** with empty limits the sampler does not end *)
Theorem C67_empty_support : forall W (G : rng W), good_rng G -> forall p, tg_max p <= tg_min p ->
  forall fuel w n, (0 < n)%nat -> trunc_sample G p fuel w n = None.
Proof. exact trunc_empty. Qed.
Print Assumptions C67_empty_support.
Example C67_hypotheses_hold : good_rng the_rng /\ trunc_init 0 1 (1 / 2) 2 = Ok the_trunc /\
  trunc_sample the_rng the_trunc 5 0%nat 2%nat = Some (2%nat, Ok [1; 1]).
Proof. split; [exact the_rng_good|]. split; [exact the_trunc_made|exact the_trunc_run]. Qed.

(** ** C96 *)
Theorem C96_first_call : forall min p gmax g0 s m, finds_min min ->
  envelope min (mkGS p gmax None) g0 = Ok (s, m) ->
  gs_prior s = p /\ forall g y, ba_prob_scalar1d p (Fin g) = Fin y -> y <= m.
Proof. exact envelope_fresh. Qed.
Print Assumptions C96_first_call.
(** set_pars keeps the bound of the old parameters, which can be below the new density *)
Theorem C96_after_set_pars_refuted : forall min sig A p gmax g0 s m, finds_min min -> 0 < A ->
  gba_init sig A = Ok p -> envelope min (mkGS p gmax None) g0 = Ok (s, m) -> 0 < m ->
  exists s', set_pars s (2 * A) sig = Ok s' /\ envelope min s' g0 = Ok (s', m) /\
    exists g y, ba_prob_scalar1d (gs_prior s') (Fin g) = Fin y /\ m * (11 / 10) < y.
Proof. exact envelope_too_low. Qed.
Print Assumptions C96_after_set_pars_refuted.
Example C96_hypotheses_hold : exists min s m, finds_min min /\ gba_init 1 1 = Ok the_ba /\
  envelope min (mkGS the_ba 1 None) 0 = Ok (s, m) /\ 0 < m.
Proof. destruct the_minimizer as (min & H & s & m & He & Hm). exists min, s, m. split; [exact H|]. split; [exact the_ba_made|]. split; assumption. Qed.
