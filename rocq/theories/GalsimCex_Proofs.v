(** Fits with galsim: examples and counterexamples. *)
From Verif Require Import Base XReal Jacobian_Model Pixels_Model Priors_Model Joint_Model GMixObj_Model Flags_Model PSFFlux_Model PSFFlux_Spec PSFFlux_Proofs Fit_Model Fit_Spec.
From Verif Require Import Galsim_Model Galsim_Spec Galsim_Proofs Galsim2_Proofs Galsim3_Proofs Galsim4_Proofs Galsim5_Proofs Galsim6_Proofs.
From Verif Require LM_Model.
From Coq Require Import String.
Local Open Scope R_scope.

(** a galsim whose images are constant *)
Definition toy : gext R R :=
  mkGx R R (fun _ _ _ f => GOk f) (fun g _ _ => GOk g) (fun g _ _ => GOk g)
    (fun g _ _ _ => GOk ((fun _ _ => g), (fun _ _ => 0))) (fun g _ _ _ => GOk ((fun _ _ => g), (fun _ _ => 0)))
    (fun im _ => match at2 im 0 0 with Fin x => GOk x | _ => GErr GValue end) (fun _ => GOk 0%nat) (fun _ => GOk 1)
    (fun x _ _ => GOk ((fun _ _ => x), (fun _ _ => 0))).
Definition one_pix (x : R) : arr2 R := mkArr 1 1 (fun _ _ => x).
Definition toy_jac : jac := mkJac 0 0 1 0 0 1 1 1.
Definition toy_obs (x : R) (a : nat) : robs := mkRo (one_pix x) (one_pix 2) toy_jac a None.
Definition toy_k (x : R) (a : nat) : kobs := mkKo (mkKim 1 1 1 (fun _ _ => x) (fun _ _ => 0)) (flat_weight 1 2) None a.
Definition no_meta : heap := fun _ => [].

Lemma toy_model p0 p1 p2 p3 f : make_model toy GExp [p0; p1; p2; p3; 1; f] = Ok f.
Proof. unfold make_model, make_round_model. cbn [ritem nth_error bind]. rewrite Rltb_f by lra. reflexivity. Qed.
Lemma toy_kobs h a b : exists h', make_kobs toy h [[toy_obs 1 a]; [toy_obs 2 b]] = (h', Ok [[toy_k 1 a]; [toy_k 2 b]]).
Proof. eexists. reflexivity. Qed.
Definition toy_guess : list R := [0; 0; 0; 0; 1; 1; 2].
Definition toy_fit (a b : nat) : gfit := with_buf (fit_new GExp None [[toy_k 1 a]; [toy_k 2 b]]) [0; 0; 0; 0; 1; 2].
Lemma toy_init h a b : exists h', gfit_init toy h GExp (InReal [[toy_obs 1 a]; [toy_obs 2 b]]) toy_guess None = (h', Ok (toy_fit a b)) /\
  exists h1, h' = init_images h1 [[toy_k 1 a]; [toy_k 2 b]].
Proof.
  unfold gfit_init. destruct (toy_kobs h a b) as (h1 & ->). unfold check_guess. cbn [fit_new gf_npars get_galsim_npars List.length toy_guess Nat.eqb negb gf_model gf_obs gf_buf seq check_bands].
  change (fill_band (n_before GExp) (repeat 0 (5 + 2 - 2 + 1)) toy_guess 0) with ([0; 0; 0; 0; 1; 1], Ok tt : res unit). cbn [bind]. rewrite toy_model.
  change (fill_band (n_before GExp) [0; 0; 0; 0; 1; 1] toy_guess 1) with ([0; 0; 0; 0; 1; 2], Ok tt : res unit). cbn [bind]. rewrite toy_model.
  eexists. split; [reflexivity|]. eauto.
Qed.
Lemma toy_own a b : Forall2 (fun t d => own_model toy GExp toy_guess (fst t) (snd t) d) (with_bands (gf_obs (toy_fit a b)))
  [((fun _ _ => 1), (fun _ _ => 0)); ((fun _ _ => 2), (fun _ _ => 0))].
Proof.
  change (with_bands (gf_obs (toy_fit a b))) with [(0%nat, toy_k 1 a); (1%nat, toy_k 2 b)].
  constructor; [|constructor; [|constructor]].
  - exists 1, ((fun _ _ => 1), (fun _ _ => 0)). split; [|split; reflexivity]. split; [intros _; unfold par; cbn; lra|]. exists 1, 1. repeat split.
  - exists 2, ((fun _ _ => 2), (fun _ _ => 0)). split; [|split; reflexivity]. split; [intros _; unfold par; cbn; lra|]. exists 2, 2. repeat split.
Qed.
(** the residuals should all be zero *)
Lemma toy_zero a b : List.concat (map (fun t => residuals (fst t) (snd t)) (combine (List.concat (gf_obs (toy_fit a b)))
    [((fun _ _ : nat => 1), (fun _ _ : nat => 0)); ((fun _ _ => 2), (fun _ _ => 0))])) = [0; 0; 0; 0].
Proof. cbn. repeat f_equal; ring. Qed.

(** both bands hold their images in one dictionary: the model of the first is that of the second *)
Lemma toy_shared h1 : exists x rest, snd (calc_fdiff toy (init_images h1 [[toy_k 1 0]; [toy_k 2 0]]) (toy_fit 0 0) toy_guess) = Ok (Fin x :: rest) /\ x <> 0.
Proof.
  unfold calc_fdiff, fill_models. cbn [toy_fit with_buf fit_new gf_model gf_buf gf_obs gf_prior gf_size]. cbn [fill_bands].
  change (fill_band (n_before GExp) [0; 0; 0; 0; 1; 2] toy_guess 0) with ([0; 0; 0; 0; 1; 1], Ok tt : res unit). cbn [fill_list]. unfold fill_model at 1. rewrite toy_model. cbn [bind].
  set (h2 := init_images h1 [[toy_k 1 0]; [toy_k 2 0]]).
  assert (K2 : meta_kim h2 0 "kmodel" = Ok (mkKim 1 1 1 (fun _ _ => 2) (fun _ _ => 0))) by (unfold h2, init_images, meta_kim; cbn [List.concat app fold_left]; unfold init_one; rewrite !gget_hput; reflexivity).
  change (ko_meta (toy_k 1 0)) with 0%nat. rewrite K2. cbn [bind draw_on gx_draw toy plain through_psf toy_k ko_psf ko_meta fst snd k_nr k_nc k_scale].
  change (fill_band (n_before GExp) [0; 0; 0; 0; 1; 1] toy_guess 1) with ([0; 0; 0; 0; 1; 2], Ok tt : res unit). unfold fill_model. rewrite toy_model. cbn [bind].
  set (k1 := mkKim 1 1 1 (fun _ _ => 1) (fun _ _ => 0)). set (h3 := hput (hput h2 0 "kmodel" (GKim k1)) 0 "kmodel" (GKim k1)).
  assert (K3 : meta_kim h3 0 "kmodel" = Ok k1) by (unfold h3, meta_kim; rewrite !gget_hput; reflexivity).
  cbn [ko_meta toy_k]. rewrite K3. unfold k1. cbn [bind draw_on gx_draw toy plain through_psf toy_k ko_psf ko_meta fst snd k_nr k_nc k_scale as_range].
  set (k2 := mkKim 1 1 1 (fun _ _ => 2) (fun _ _ => 0)). set (h4 := hput (hput h3 0 "kmodel" (GKim k2)) 0 "kmodel" (GKim k2)).
  change (g_fill_priors (with_buf (toy_fit 0 0) [0; 0; 0; 0; 1; 2]) toy_guess (repeat (Fin 0) (gf_size (toy_fit 0 0)))) with (Ok ([Fin 0; Fin 0; Fin 0; Fin 0], 0%nat)).
  change (List.concat (gf_obs (with_buf (toy_fit 0 0) [0; 0; 0; 0; 1; 2]))) with [toy_k 1 0; toy_k 2 0]. cbn [or_range]. cbv beta iota.
  assert (A1 : meta_kim h4 0 "kmodel" = Ok k2) by (unfold h4, meta_kim; rewrite !gget_hput; reflexivity).
  assert (A2 : meta_real h4 0 "ierr" = Ok (ierr_of (flat_weight 1 2))) by (unfold h4, h3, h2, init_images, meta_real; cbn [List.concat app fold_left]; unfold init_one; rewrite !gget_hput; reflexivity).
  assert (A3 : meta_kim h4 0 "scratch" = Ok k2) by (unfold h4, h3, h2, init_images, meta_kim; cbn [List.concat app fold_left]; unfold init_one; rewrite !gget_hput; reflexivity).
  cbn [diff_list]. unfold diff_one at 1. cbn [ko_meta toy_k]. rewrite A1, A2, A3. cbn [bind same_dims k_nr k_nc k2 Nat.eqb andb negb weight_fits ierr_of flat_weight nrow ncol at2 k_re k_im k_scale ko_image toy_k].
  cbn [ravel seq map List.concat app assign_slice List.length Nat.leb Nat.add Nat.mul firstn skipn bind].
  set (h5 := hput h4 0 "scratch" _).
  assert (B1 : meta_kim h5 0 "kmodel" = Ok k2) by (unfold h5, h4, meta_kim; rewrite !gget_hput; reflexivity).
  assert (B2 : meta_real h5 0 "ierr" = Ok (ierr_of (flat_weight 1 2))) by (unfold h5, h4, h3, h2, init_images, meta_real; cbn [List.concat app fold_left]; unfold init_one; rewrite !gget_hput; reflexivity).
  assert (B3 : exists f g, meta_kim h5 0 "scratch" = Ok (mkKim 1 1 1 f g)) by (unfold h5, meta_kim; rewrite !gget_hput; eexists; eexists; reflexivity).
  destruct B3 as (f & g & B3). unfold diff_one. cbn [ko_meta toy_k]. rewrite B1, B2, B3. cbn [bind same_dims k_nr k_nc k2 Nat.eqb andb negb weight_fits ierr_of flat_weight nrow ncol at2 k_re k_im k_scale ko_image toy_k].
  cbn [ravel seq map List.concat app assign_slice List.length Nat.leb Nat.add Nat.mul firstn skipn bind rmap fst snd or_range].
  eexists. eexists. split; [reflexivity|].
  assert (P : 0 < 1 / 2 * 2 * (1 / INR 1)) by (cbn [INR]; lra).
  rewrite (Rltb_t _ _ P). pose proof (sqrt_lt_R0 _ P). lra.
Qed.

(** the same in Fourier space, with a psf and a prior *)
From Verif Require Import FitCex_Proofs Galsim_Model.
Definition toy_kp : kpsf := mkKp (mkKim 2 3 1 (fun _ _ => 1/2) (fun _ _ => 1/3)) (mkArr 2 3 (fun _ _ => 1)) [].
Definition toy_w : arr2 R := mkArr 2 3 (fun r _ => match r with O => 0 | _ => 4 end).
Definition toy_kim : kimage := mkKim 2 3 1 (fun r c => INR c) (fun r c => INR r).
Definition toy_ko : kobs := mkKo toy_kim toy_w (Some toy_kp) 5.
Lemma toy_valid : valid_kobs toy_ko.
Proof.
  exists toy_kim, toy_w, (Some toy_kp), 5%nat. split.
  - unfold new_kobs. cbn [weight_fits toy_w toy_kim k_nr k_nc nrow ncol Nat.eqb andb negb same_dims kp_image toy_kp k_scale].
    unfold allclose. replace (1 - 1) with 0 by ring. rewrite Rabs_R0, Rleb_t; [reflexivity|]. rewrite Rabs_R1. lra.
  - exists (kp_image toy_kp), (kp_weight toy_kp), []. reflexivity.
Qed.
Lemma sprior_fills n : (5 <= n)%nat -> exists out, jp_fill sprior (map Fin gpars) (repeat (Fin 0) n) = Ok (out, 5%nat).
Proof.
  intros Hn. pose proof (sprior_consistent (map Fin gpars) (repeat (Fin 0) n)) as C. rewrite repeat_length in C. specialize (C Hn).
  rewrite sprior_value in C. destruct (jp_fill sprior (map Fin gpars) (repeat (Fin 0) n)) as [[out k]|e]; [|contradiction]. destruct C as (-> & _). eauto.
Qed.
Lemma consistent_fills p n : consistent_prior p n -> prior_fills (Some p) n.
Proof.
  intros C pars fd out k E L. specialize (C pars fd L). rewrite E in C. destruct (jp_lnprob p pars); [|contradiction]. tauto.
Qed.
Definition toy_kfit : Galsim_Model.gfit := with_buf (fit_new GExp (Some sprior) [[toy_ko]]) gpars.
Lemma toy_kinit h : gfit_init toy h GExp (InK [[toy_ko]]) gpars (Some sprior) = (init_images h [[toy_ko]], Ok toy_kfit).
Proof.
  unfold gfit_init, check_guess. cbn [fit_new gf_npars get_galsim_npars List.length gpars Nat.eqb negb gf_model gf_obs gf_buf seq check_bands].
  change (fill_band (n_before GExp) (repeat 0 (5 + 1 - 1 + 1)) gpars 0) with (gpars, Ok tt : res unit). cbn [bind].
  change gpars with [0;0;0;0;4;1] at 1. unfold make_model, make_round_model. cbn [ritem nth_error bind]. rewrite Rltb_f by lra. reflexivity.
Qed.
Lemma toy_kown : Forall2 (fun t d => own_model toy GExp gpars (fst t) (snd t) d) (with_bands (gf_obs toy_kfit))
  [((fun _ _ => 1 * (1/2) - 0 * (1/3)), (fun _ _ => 1 * (1/3) + 0 * (1/2)))].
Proof.
  constructor; [|constructor]. exists 1, ((fun _ _ => 1), (fun _ _ => 0)). split; [|split; reflexivity].
  split; [intros _; unfold par; cbn; lra|]. exists 1, 1. repeat split.
Qed.

(** a Spergel model *)
Definition sp_pars : list R := [0; 0; 0; 0; 1; 1/2; 3].
Definition sp_fit : gfit := with_buf (fit_new GSpergel None [[toy_k 1 0]]) sp_pars.
Lemma sp_init h : gfit_init toy h GSpergel (InK [[toy_k 1 0]]) sp_pars None = (init_images h [[toy_k 1 0]], Ok sp_fit).
Proof. reflexivity. Qed.
Lemma toy_k_valid x a : valid_kobs (toy_k x a).
Proof. exists (mkKim 1 1 1 (fun _ _ => x) (fun _ _ => 0)), (flat_weight 1 2), None, a. split; [reflexivity|exact I]. Qed.
Lemma sp_own : NoDup (map ko_meta (List.concat (gf_obs sp_fit))).
Proof. repeat constructor. intros []. Qed.
Lemma sp_round : Forall2 (fun t d => round_model toy GSpergel sp_pars (fst t) (snd t) d) (with_bands (gf_obs sp_fit)) [((fun _ _ => 3), (fun _ _ => 0))].
Proof.
  constructor; [|constructor]. exists 3, ((fun _ _ => 3), (fun _ _ => 0)). split; [|split; reflexivity].
  split; [intros [H|[H|H]]; discriminate|]. exists 3, 3. repeat split.
Qed.
Definition unit_cov (n : nat) : arr2 R := mkArr n n (fun i j => if Nat.eqb i j then INR (S i) else 0).
Lemma sp_result h : exists h' F' r, Galsim_Model.set_fit_result toy (init_images h [[toy_k 1 0]]) sp_fit sp_pars (repeat 1 7) (unit_cov 7) = (h', F', Ok r) /\
  result_flux (gr_flux r) 0 = Some (1/2).
Proof.
  pose proof (s2n_ok toy h _ GSpergel (InK [[toy_k 1 0]]) sp_pars None sp_fit (init_images h [[toy_k 1 0]]) sp_fit sp_pars [((fun _ _ => 3), (fun _ _ => 0))] (sp_init h)) as H.
  cbn [valid_input List.concat app] in H. specialize (H ltac:(repeat constructor; apply toy_k_valid) sp_own (hi_new _ _ _ _) eq_refl sp_round).
  unfold Galsim_Model.set_fit_result. destruct (calc_s2n_r toy (init_images h [[toy_k 1 0]]) sp_fit sp_pars) as [[h1 F1] r1] eqn:E. cbn [snd] in H. subst r1. cbn [bind].
  assert (L : List.length (gf_obs F1) = 1%nat).
  { unfold calc_s2n_r in E. destruct (s2n_bands _ _ _ _ _ _ _ _) as [[h2 b] r2]. injection E as _ <- _. reflexivity. }
  rewrite L. cbn [g_set_flux Nat.eqb]. change (ritem sp_pars 5) with (Ok (1/2)). change (citem (unit_cov 7) 5 5) with (Ok (INR 6)). cbn [bind]. eexists; eexists; eexists. split; reflexivity.
Qed.

(** a template whose image holds half of its light *)
Definition half_t : nat -> nat -> R := fun _ _ => 1/4.
Definition half_arr : arr2 xr := mkArr 1 2 (fun _ _ => Fin (1/4)).
Definition half_obs : pobs := mkPobs 1 2 (fun _ _ => 1) (fun _ _ => 1) toy_jac (Some true) None None None.
Lemma half_drawn : drawn_all [half_obs] [half_arr] [half_t].
Proof. constructor; [|constructor]. repeat split. Qed.
Lemma half_weights : weights_ok [half_obs]. Proof. constructor; [|constructor]. intros; cbn; lra. Qed.
Lemma half_stored : stored [half_obs]. Proof. constructor; [discriminate|constructor]. Qed.
Lemma half_light : light half_obs half_t = 1/2. Proof. unfold light, half_t. cbn. lra. Qed.
Lemma half_tw : template_weight [half_obs] [half_t] = 1/8.
Proof. unfold template_weight, over. cbn. unfold half_t. lra. Qed.
Lemma half_chi2 f : chi2_at [half_obs] [half_t] f = 2 * (f / 4 - 1) ^ 2.
Proof. unfold chi2_at, over. cbn. unfold half_t. lra. Qed.
Lemma half_unit f : chi2_at [half_obs] (unit_templates [half_obs] [half_t]) f = 2 * (f / 2 - 1) ^ 2.
Proof. unfold chi2_at, over, unit_templates, unit_template. cbn [combine map fst snd half_obs po_nr po_nc po_im po_wt]. rewrite half_light. cbn. unfold half_t. field. Qed.
Lemma half_kept : n_kept [half_obs] = 2%nat /\ n_weighted [half_obs] = 2%nat.
Proof.
  unfold n_kept, n_weighted. cbn [map list_sum fold_right kept_pixels half_obs po_pix]. unfold n_positive. cbn.
  rewrite Rltb_t by lra. cbn. auto.
Qed.
Lemma half_go : exists r, galsim_psf_go [half_obs] [half_arr] = Some (Ok r) /\ pr_flux r = Fin 4 /\ pr_flags r = 0%Z /\
  pr_chi2per r = Fin 2 /\ pr_flux_err r = Fin 4.
Proof.
  destruct (gal_go _ _ _ half_drawn half_weights half_stored) as (r & E & _ & Ed & H). exists r. split; [exact E|].
  rewrite half_tw in H. destruct (H ltac:(lra)) as (f & Ef & Hm & H2).
  assert (F4 : f = 4).
  { destruct (Req_dec f 4) as [|N]; [assumption|]. specialize (Hm 4 ltac:(congruence)). rewrite !half_chi2 in Hm. replace (4 / 4 - 1) with 0 in Hm by field.
    pose proof (pow2_ge_0 (f / 4 - 1)). lra. }
  subst f. destruct half_kept as (K1 & K2). rewrite K1, K2 in *. cbn in Ed.
  destruct H2 as (C & _ & D); [constructor; [|constructor]; cbn [fst snd]; rewrite half_light; lra|].
  destruct (D ltac:(discriminate)) as (Fl & e & Ee & Pe & Qe). rewrite half_unit in C, Qe. rewrite Ed in C. cbn [INR] in Qe.
  split; [exact Ef|]. split; [exact Fl|]. split; [rewrite C; f_equal; field|]. rewrite Ee. f_equal. nra.
Qed.

(** the array of parameters of a band *)
Lemma toy_band_shared : exists F1 F2 a b, Galsim_Model.get_band_pars (toy_fit 0 1) toy_guess 0 = (F1, Ok a) /\ Galsim_Model.get_band_pars F1 toy_guess 1 = (F2, Ok b) /\
  deref F1 a = [0; 0; 0; 0; 1; 1] /\ deref F2 a = [0; 0; 0; 0; 1; 2].
Proof. eexists. eexists. eexists. eexists. split; [reflexivity|]. split; [reflexivity|]. split; reflexivity. Qed.
