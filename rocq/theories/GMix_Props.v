(** Properties C14, C15, C16, C18, C21, C80. *)
From Verif Require Import Base Shape_Model Shape_Spec Moments_Model Moments_Spec GMix_Model GMix_Spec GMix_Proofs.

(** C14 *)
Example C14_hypotheses_hold : in_disk (1/10, -2/10) /\ cm_sum (1/4) (Rpower 10 1) <> 0 /\ cm_sum (1/4) 1 <> 0 /\ length [1;2] = length [3;4].
Proof.
  split; [unfold in_disk, cmod2; cbn [fst snd]; lra|].
  assert (0 < Rpower 10 1) by apply exp_pos.
  split; [apply Rgt_not_eq, cm_sum_pos; lra|]. split; [apply Rgt_not_eq, cm_sum_pos; lra|reflexivity].
Qed.

(** what the getters report is the flux, centre, size and shape of the mixture *)
Theorem C14_getters : forall gm, flux_of gm <> 0 ->
  gm_get_flux gm = flux_of gm /\ gm_get_cen gm = Some (row_of gm, col_of gm) /\
  gm_get_T gm = Some (trace2 (cov_of gm)) /\
  (0 <= trace2 (cov_of gm) -> gm_get_sigma gm = Some (sqrt (trace2 (cov_of gm) / 2))) /\
  (trace2 (cov_of gm) <> 0 -> exists e1 e2 T, gm_get_e1e2T gm = Some (e1, e2, T) /\ has_shape (cov_of gm) e1 e2 T).
Proof. exact getters_spec. Qed.
Print Assumptions C14_getters.

Theorem C14_get_g : forall gm, flux_of gm <> 0 -> posdef (cov_of gm) ->
  exists g1 g2, gm_get_g1g2T gm = Some (Ok (g1, g2, trace2 (cov_of gm))) /\
    in_disk (g1,g2) /\ exists e, e_of_g (g1,g2) e /\ has_shape (cov_of gm) (fst e) (snd e) (trace2 (cov_of gm)).
Proof. exact g1g2T_get. Qed.
Print Assumptions C14_get_g.

(** the compiled helpers used by fitting code agree; they raise on zero flux and
    non-positive size *)
Theorem C14_compiled_getters : forall gm,
  gmix_get_cen gm = (if Reqb (flux_of gm) 0 then Raise ZeroDivisionError
                     else Ok (row_of gm, col_of gm, flux_of gm)) /\
  (flux_of gm = 0 -> gmix_get_e1e2T gm = Raise ZeroDivisionError) /\
  (flux_of gm <> 0 -> flux_of gm * trace2 (cov_of gm) <= 0 -> gmix_get_e1e2T gm = Raise GMixRangeError) /\
  (0 < flux_of gm * trace2 (cov_of gm) ->
     exists e1 e2 T, gmix_get_e1e2T gm = Ok (e1, e2, T) /\ has_shape (cov_of gm) e1 e2 T).
Proof. exact (fun gm => conj (cen_nb gm) (e1e2T_nb gm)). Qed.
Print Assumptions C14_compiled_getters.

Theorem C14_gauss : simple_claim (gmix_fill_gauss 1) pvals_gauss fvals_gauss.
Proof. exact (fill_simple_spec pvals_gauss fvals_gauss eq_refl). Qed.
Print Assumptions C14_gauss.
Theorem C14_exp : simple_claim (gmix_fill_exp 6) pvals_exp fvals_exp.
Proof. exact (fill_simple_spec pvals_exp fvals_exp eq_refl). Qed.
Print Assumptions C14_exp.
Theorem C14_dev : simple_claim (gmix_fill_dev 10) pvals_dev fvals_dev.
Proof. exact (fill_simple_spec pvals_dev fvals_dev eq_refl). Qed.
Print Assumptions C14_dev.
Theorem C14_turb : simple_claim (gmix_fill_turb 3) pvals_turb fvals_turb.
Proof. exact (fill_simple_spec pvals_turb fvals_turb eq_refl). Qed.
Print Assumptions C14_turb.

(** the tables are normalised to 1e-15 in flux and size *)
Theorem C14_tables_normalised :
  Rabs (rsum pvals_exp - 1) < / 10 ^ 15 /\ Rabs (dot pvals_exp fvals_exp - 1) < / 10 ^ 15 /\
  Rabs (rsum pvals_dev - 1) < / 10 ^ 15 /\ Rabs (dot pvals_dev fvals_dev - 1) < / 10 ^ 15 /\
  Rabs (rsum pvals_turb - 1) < / 10 ^ 15 /\ Rabs (dot pvals_turb fvals_turb - 1) < / 10 ^ 15 /\
  rsum pvals_gauss = 1 /\ dot pvals_gauss fvals_gauss = 1.
Proof. exact tables_normalised. Qed.
Print Assumptions C14_tables_normalised.

Theorem C14_coellip : forall row col g1 g2 Ts Fs,
  length Ts = length Fs -> in_disk (g1,g2) ->
  exists gm e1 e2, gmix_fill_coellip (length Ts) ([row;col;g1;g2] ++ Ts ++ Fs) = Ok gm /\
    e_of_g (g1,g2) (e1,e2) /\ coelliptical gm row col e1 e2 (combine Fs Ts) /\ length gm = length Ts /\
    flux_of gm = rsum Fs /\
    (rsum Fs <> 0 -> row_of gm = row /\ col_of gm = col /\ has_shape (cov_of gm) e1 e2 (dot Fs Ts / rsum Fs)).
Proof. exact fill_coellip_spec. Qed.
Print Assumptions C14_coellip.

Theorem C14_bd : forall row col g1 g2 T lTrat fracdev flux,
  in_disk (g1,g2) -> cm_sum fracdev (Rpower 10 lTrat) <> 0 ->
  composite_claim (gmix_fill_bd [row;col;g1;g2;T;lTrat;fracdev;flux]) row col g1 g2 T fracdev (Rpower 10 lTrat) flux.
Proof. exact fill_bd_spec. Qed.
Print Assumptions C14_bd.
Theorem C14_bdf : forall row col g1 g2 T fracdev flux,
  in_disk (g1,g2) -> cm_sum fracdev 1 <> 0 ->
  composite_claim (gmix_fill_bdf [row;col;g1;g2;T;fracdev;flux]) row col g1 g2 T fracdev 1 flux.
Proof. exact fill_bdf_spec. Qed.
Print Assumptions C14_bdf.
Theorem C14_cm : forall row col g1 g2 T fracdev TdByTe Tfactor flux,
  in_disk (g1,g2) -> get_cm_Tfactor fracdev TdByTe = Ok Tfactor ->
  composite_claim (gmix_fill_cm fracdev TdByTe Tfactor [row;col;g1;g2;T;flux]) row col g1 g2 T fracdev TdByTe flux.
Proof. exact fill_cm_spec. Qed.
Print Assumptions C14_cm.
Theorem C14_composite_normalisation : forall fracdev TdByTe, 0 <= fracdev <= 1 -> 0 < TdByTe ->
  0 < cm_sum fracdev TdByTe /\ Rabs (cm_psum fracdev - 1) < / 10 ^ 15 /\
  get_cm_Tfactor fracdev TdByTe = Ok (1 / cm_sum fracdev TdByTe).
Proof. exact composite_norm. Qed.
Print Assumptions C14_composite_normalisation.

(** shapes outside the unit disk are rejected by every model *)
Theorem C14_bad_shape_rejected : forall row col g1 g2 T flux fracdev TdByTe Tf lTrat n Ts,
  ~ in_disk (g1,g2) ->
  gmix_fill_gauss 1 [row;col;g1;g2;T;flux] = Raise GMixRangeError /\
  gmix_fill_exp 6 [row;col;g1;g2;T;flux] = Raise GMixRangeError /\
  gmix_fill_dev 10 [row;col;g1;g2;T;flux] = Raise GMixRangeError /\
  gmix_fill_turb 3 [row;col;g1;g2;T;flux] = Raise GMixRangeError /\
  gmix_fill_coellip n ([row;col;g1;g2] ++ Ts) = Raise GMixRangeError /\
  gmix_fill_cm fracdev TdByTe Tf [row;col;g1;g2;T;flux] = Raise GMixRangeError /\
  is_ok (gmix_fill_bd [row;col;g1;g2;T;lTrat;fracdev;flux]) = false /\
  is_ok (gmix_fill_bdf [row;col;g1;g2;T;fracdev;flux]) = false.
Proof. exact bad_shape. Qed.
Print Assumptions C14_bad_shape_rejected.

(** C15 *)
Example C15_hypotheses_hold : flux_of [gauss2d_set 1 0 0 1 0 1; gauss2d_set 2 1 0 1 0 1] <> 0.
Proof. unfold flux_of; cbn. lra. Qed.
Theorem C15_convolve : forall gm psf,
  flux_of psf <> 0 ->
  exists conv, gmix_convolve gm psf = Ok conv /\
    length conv = (length gm * length psf)%nat /\
    (forall i j, (i < length gm)%nat -> (j < length psf)%nat ->
       exists a b g, nth_error gm i = Some a /\ nth_error psf j = Some b /\
         nth_error conv (i * length psf + j) = Some g /\
         g_p g = g_p a * (g_p b / flux_of psf) /\
         g_row g = g_row a + (g_row b - row_of psf) /\ g_col g = g_col a + (g_col b - col_of psf) /\
         gcov g = add2 (gcov a) (gcov b) /\ coherent g /\ g_norm_set g = false) /\
    flux_of conv = flux_of gm /\
    (flux_of gm <> 0 -> row_of conv = row_of gm /\ col_of conv = col_of gm /\
       cov_of conv = add2 (cov_of gm) (cov_of psf)).
Proof. exact conv_spec. Qed.
Print Assumptions C15_convolve.
Theorem C15_zero_flux_psf : forall gm psf, flux_of psf = 0 -> gmix_convolve gm psf = Raise ZeroDivisionError.
Proof. exact conv_zero_psf. Qed.
Print Assumptions C15_zero_flux_psf.

(** C16 *)
Example C16_hypotheses_hold :
  flux_of [gauss2d_set 1 0 0 1 0 1; gauss2d_set 2 1 0 1 0 1] <> 0 /\
  (forall f, In (SetFlux f) [SetFlux 3; SetCen 1 2; SetFlux (-1)] -> f <> 0).
Proof.
  split; [unfold flux_of; cbn; lra|]. intros f [E|[E|[E|[]]]]; try discriminate; injection E as <-; lra.
Qed.
Theorem C16_set_cen : forall gm row col, flux_of gm <> 0 ->
  exists gm', gm_set_cen gm row col = Some gm' /\
    row_of gm' = row /\ col_of gm' = col /\ flux_of gm' = flux_of gm /\ cov_of gm' = cov_of gm /\
    Forall2 (fun g g' => g_p g' = g_p g /\ g_row g' - g_row g = row - row_of gm /\
               g_col g' - g_col g = col - col_of gm /\ setters_keep g g' /\
               g_norm_set g' = g_norm_set g /\ g_nrm g' = g_nrm g) gm gm'.
Proof. exact set_cen_spec. Qed.
Print Assumptions C16_set_cen.
Theorem C16_set_flux : forall gm F, flux_of gm <> 0 ->
  exists gm', gm_set_flux gm F = Some gm' /\ flux_of gm' = F /\
    (F <> 0 -> row_of gm' = row_of gm /\ col_of gm' = col_of gm /\ cov_of gm' = cov_of gm) /\
    Forall2 (fun g g' => g_p g' * flux_of gm = g_p g * F /\ g_row g' = g_row g /\ g_col g' = g_col g /\
               setters_keep g g' /\ g_norm_set g' = false) gm gm'.
Proof. exact set_flux_spec. Qed.
Print Assumptions C16_set_flux.
(** with zero flux the division gives non-finite numbers *)
Theorem C16_zero_flux : forall gm F row col, flux_of gm = 0 ->
  gm_set_flux gm F = None /\ gm_set_cen gm row col = None.
Proof. exact (fun gm F r c H => conj (set_flux_none gm F H) (set_cen_none gm r c H)). Qed.
Print Assumptions C16_zero_flux.
(** any sequence of setter calls: the getters report the last values set *)
Theorem C16_setter_histories : forall l gm,
  flux_of gm <> 0 -> (forall f, In (SetFlux f) l -> f <> 0) ->
  exists gm', fold_left run_setter l (Some gm) = Some gm' /\
    flux_of gm' = expect_flux (flux_of gm) l /\
    (row_of gm', col_of gm') = expect_cen (row_of gm, col_of gm) l /\
    cov_of gm' = cov_of gm /\ length gm' = length gm /\ Forall2 setters_keep gm gm'.
Proof. exact setters_history. Qed.
Print Assumptions C16_setter_histories.

(** C18 *)
Example C18_hypotheses_hold :
  Forall (fun g => posdef (gcov g)) [gauss2d_set 1 0 0 2 (1/2) 1; gauss2d_set 2 1 0 1 0 1] /\ in_disk (1/10, 2/10).
Proof.
  split; [repeat constructor; unfold posdef, det2, gcov, cov; cbn; lra|].
  unfold in_disk, cmod2; cbn [fst snd]; lra.
Qed.
Theorem C18_shear : forall gm s1 s2,
  Forall (fun g => posdef (gcov g)) gm -> in_disk (s1,s2) ->
  exists gm', gmix_shear gm s1 s2 = Ok gm' /\
    Forall2 (fun g g' => g_p g' = g_p g /\ g_row g' = g_row g /\ g_col g' = g_col g /\
               gcov g' = sheared s1 s2 (gcov g) /\ coherent g' /\ g_norm_set g' = false) gm gm'.
Proof. exact shear_spec. Qed.
Print Assumptions C18_shear.

(** C21 *)
Example C21_hypotheses_hold : (length [1;2;3;4;5;6] mod 6 = 0)%nat /\ Forall coherent [gauss2d_set 1 0 0 2 (1/2) 1].
Proof. split; [reflexivity|]. repeat constructor. unfold coherent, det2, gcov, cov; cbn. ring. Qed.
Theorem C21_pars_roundtrip : forall pars, (length pars mod 6 = 0)%nat ->
  exists gm, GMix_pars pars = Ok gm /\ gm_get_full_pars gm = pars /\ (6 * length gm = length pars)%nat /\
    Forall (fun g => coherent g /\ g_norm_set g = false) gm.
Proof. exact full_pars_roundtrip. Qed.
Print Assumptions C21_pars_roundtrip.
Theorem C21_bad_length_rejected : forall pars, (length pars mod 6 <> 0)%nat -> GMix_pars pars = Raise ValueError.
Proof. exact full_pars_reject. Qed.
Print Assumptions C21_bad_length_rejected.
Theorem C21_gmix_roundtrip : forall gm, Forall coherent gm ->
  exists gm', GMix_pars (gm_get_full_pars gm) = Ok gm' /\ same_gmix gm gm' /\ gmix_eq gm gm' = Ok true.
Proof. exact gmix_roundtrip. Qed.
Print Assumptions C21_gmix_roundtrip.
Theorem C21_full_pars_layout : forall gm i g, nth_error gm i = Some g ->
  length (gm_get_full_pars gm) = (6 * length gm)%nat /\
  nth_error (gm_get_full_pars gm) (i * 6 + 0) = Some (g_p g) /\
  nth_error (gm_get_full_pars gm) (i * 6 + 1) = Some (g_row g) /\
  nth_error (gm_get_full_pars gm) (i * 6 + 2) = Some (g_col g) /\
  nth_error (gm_get_full_pars gm) (i * 6 + 3) = Some (g_irr g) /\
  nth_error (gm_get_full_pars gm) (i * 6 + 4) = Some (g_irc g) /\
  nth_error (gm_get_full_pars gm) (i * 6 + 5) = Some (g_icc g).
Proof. exact full_layout. Qed.
Print Assumptions C21_full_pars_layout.
Theorem C21_concat : forall gms,
  (gms = [] -> gmix_concat gms = Raise ValueError) /\
  (gms <> [] -> Forall (Forall coherent) gms ->
   exists gm, gmix_concat gms = Ok gm /\ same_gmix (concat gms) gm).
Proof. exact (fun gms => conj (concat_empty gms) (concat_spec gms)). Qed.
Print Assumptions C21_concat.

(** C80: equality of mixtures *)
Theorem C80_same_size_partial : forall a b, length a = length b ->
  exists r, gmix_eq a b = Ok r /\ (r = true <-> same_gmix a b).
Proof. exact gmix_eq_same_length. Qed.
Print Assumptions C80_same_size_partial.
(** a one-component mixture is "equal" to any number of copies of its component *)
Theorem C80_broadcast_refuted : forall g n, gmix_eq [g] (repeat g n) = Ok true.
Proof. exact gmix_eq_broadcast. Qed.
Print Assumptions C80_broadcast_refuted.
Theorem C80_unequal_sizes_refuted : exists a b, length a <> length b /\ gmix_eq a b = Raise ValueError.
Proof. exact gmix_eq_raises. Qed.
Print Assumptions C80_unequal_sizes_refuted.
