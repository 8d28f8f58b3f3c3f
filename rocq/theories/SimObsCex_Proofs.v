(** Examples for SimObs_Props. *)
From Verif Require Import Base Moments_Spec Jacobian_Model Pixels_Model GMix_Model GMix_Spec Render_Spec Render_Proofs Obs_Model ObsVal_Model ObsCex_Proofs SimObs_Model SimObs_Spec SimObs_Proofs.
From Verif Require GMixObj_Model.
From Coq Require String.
Local Open Scope R_scope.

Definition ex_gm (d : gmix) : gmobj := GMixObj_Model.with_data (GMixObj_Model.new_full_ngauss (length d)) d.
Definition ex_gal : gmobj := ex_gm [gauss2d_set 1 0 0 4 1 3].
Definition ex_pgm : gmobj := ex_gm [gauss2d_set 2 0 0 1 0 1].
Definition ex_psf : obsval := OV (im1 1) (im1 1) jac1 (fun _ => None) (Some ex_pgm) [] true true None.
(** two pixels, the second is masked *)
Definition ex_im : arr2 R := mkArr 1 2 (fun _ _ => 7).
Definition ex_w : arr2 R := mkArr 1 2 (fun _ c => if Nat.eqb c 0 then 4 else 0).
Definition ex_mask : slot -> option content := fun s => match s with SBmask => Some (C2 ex_w) | _ => None end.
Definition ex_obs : obsval := OV ex_im ex_w jac1 ex_mask None [(String.EmptyString, String.EmptyString)] true true (Some ex_psf).
Definition ex_si : simin := mkSi ex_obs None.
Definition ex_normal (n : nat) (nr nc : nat) : nat * arr2 R := (S n, mkArr nr nc (fun r c => INR (n + r + c))).
Definition ex_sp : simpars := mkSp true true (Some 3) true true.

Lemma ex_sound : sound ex_obs.
Proof.
  constructor; [split; reflexivity|reflexivity|discriminate|]. intros q [= <-].
  constructor; [split; reflexivity|reflexivity|intros x [= <-]; reflexivity|discriminate].
Qed.
Lemma ex_w_some : some_weight ex_w.
Proof. exists 0%nat, 0%nat. split; [split; cbn; lia|cbn; lra]. Qed.
Definition ex_conv : gmix := [gauss2d_set (1 * 2 * (1 / (0 + 2))) (0 + (0 - (0 + 2 * 0) / (0 + 2))) (0 + (0 - (0 + 2 * 0) / (0 + 2))) (4 + 1) (1 + 0) (3 + 1)].
Lemma ex_seen : seen (Some ex_gal) ex_obs true (Some ex_conv).
Proof.
  exists ex_psf, ex_pgm, ex_conv. split; [reflexivity|]. split; [reflexivity|]. split; [|reflexivity].
  unfold gmix_convolve, gmix_get_cen. cbn [ex_pgm ex_gal ex_gm GMixObj_Model.with_data GMixObj_Model.o_data fold_left gauss2d_set g_p g_row g_col].
  rewrite Reqb_f by lra. reflexivity.
Qed.
Lemma ex_conv_good : good_gmix ex_conv.
Proof.
  split; [discriminate|]. pose proof low_pos.
  assert (/ 10^200 < 1). { replace 1 with (/ 1) by apply Rinv_1. apply Rinv_lt_contravar; [rewrite Rmult_1_l; apply pow_lt; lra|]. apply Rlt_pow_R1; [lra|lia]. }
  split; [apply Forall_cons; [|apply Forall_nil]; unfold coherent, gcov, cov, det2, gauss2d_set; cbn; ring|].
  split; [apply Forall_cons; [|apply Forall_nil]; unfold evaluable, gcov, cov, det2, trace2, gauss2d_set; cbn [g_irr g_irc g_icc xx xy yy]; lra|].
  intros g rest E. injection E as <- _. discriminate.
Qed.
Lemma ex_psf_copy : is_ok (v_copy ex_psf) = true.
Proof.
  cbn [v_copy ex_psf]. change (gm_copy ex_pgm) with (Ok ex_pgm). cbn [rmap bind]. change (Jacobian_copy jac1) with (Ok jac1). cbn [bind v_pixels].
  rewrite mp1 by lra. reflexivity.
Qed.
Lemma ex_runs : exists rng' out, simulate_one nat ex_normal (Some ex_gal) ex_si ex_sp (Some 1%nat) = (rng', Ok out).
Proof.
  apply (simulate_succeeds nat ex_normal (Some ex_gal) ex_si ex_sp (Some ex_conv) 1%nat ex_sound ex_seen).
  - intros x [= <-]. exact ex_conv_good.
  - split; reflexivity.
  - exact ex_w_some.
  - cbn. intros [= H]. lra.
  - intros p [= <-]. exact ex_psf_copy.
Qed.
(** with another weight_raw *)
Definition ex_si_raw : simin := mkSi ex_obs (Some (mkArr 1 2 (fun _ _ => 1))).
Lemma ex_runs_raw : exists rng' out, simulate_one nat ex_normal None ex_si_raw (mkSp true true None true true) (Some 1%nat) = (rng', Ok out).
Proof.
  apply (simulate_succeeds nat ex_normal None ex_si_raw _ None 1%nat ex_sound eq_refl).
  - discriminate.
  - split; reflexivity.
  - exact ex_w_some.
  - discriminate.
  - intros p [= <-]. exact ex_psf_copy.
Qed.
Theorem raw_cex : exists o sp rng' out, sp_add_noise sp = true /\
  simulate_one nat ex_normal None o sp (Some 1%nat) = (rng', Ok out) /\ sound (si_val o) /\
  forall sigma, at2 (v_image (so_val out)) 0 0 = at2 (snd (ex_normal 1 1 2)) 0 0 * sigma ->
    0 < at2 (v_weight (so_val out)) 0 0 /\ sigma ^ 2 * at2 (v_weight (so_val out)) 0 0 = 4.
Proof.
  destruct ex_runs_raw as (rng' & out & E). exists ex_si_raw, (mkSp true true None true true), rng', out.
  split; [reflexivity|]. split; [exact E|]. split; [exact ex_sound|]. intros sigma H.
  destruct (observation_spec nat ex_normal None ex_si_raw _ None 1%nat _ _ _ _ ex_sound eq_refl ltac:(discriminate) E eq_refl) as ([D1 D2] & _ & _ & _ & _ & Wv & A & _).
  destruct (A eq_refl) as (_ & n & _ & [_ L] & I). rewrite I in H by (split; [rewrite D1|rewrite D2]; cbn; lia).
  rewrite Wv. cbn [factor sp_factor ex_si_raw si_val ex_obs v_weight ex_w at2 Nat.eqb].
  assert (S : some_weight (noise_weight ex_si_raw (mkSp true true None true true))).
  { exists 0%nat, 0%nat. split; [split; cbn; lia|cbn; lra]. }
  destruct (L S 0%nat 0%nat ltac:(split; cbn; lia)) as [L1 _]. destruct L1 as (s & E1 & E2 & _); [cbn; lra|].
  rewrite E1 in H. cbn in H, E2. split; [lra|]. assert (sigma = s) by lra. subst. 
  assert (s * s = 1) by lra. nra.
Qed.
Theorem attributes_lost : exists gm o sp rng rng' out,
  simulate_one nat ex_normal gm o sp rng = (rng', Ok out) /\ sound (si_val o) /\
  v_opt (si_val o) SBmask <> None /\ v_meta (si_val o) <> [] /\
  v_opt (so_val out) SBmask = None /\ v_meta (so_val out) = [] /\ ~ same_but_image (si_val o) (so_val out).
Proof.
  destruct ex_runs as (rng' & out & E). exists (Some ex_gal), ex_si, ex_sp, (Some 1%nat), rng', out.
  destruct (simulate_shape nat ex_normal _ ex_si _ _ _ _ ex_sound E) as (im & w & n & V & _).
  split; [exact E|]. split; [exact ex_sound|]. split; [discriminate|]. split; [discriminate|]. rewrite V. split; [reflexivity|]. split; [reflexivity|].
  intros (_ & H & _). specialize (H SBmask). discriminate.
Qed.
Theorem lost_always (W : Type) normal gm o sp rng rng' out : sound (si_val o) ->
  simulate_one W normal gm o sp rng = (rng', Ok out) ->
  (forall s, v_opt (so_val out) s = None) /\ v_gmix (so_val out) = None /\ v_meta (so_val out) = [].
Proof.
  intros So E. destruct (simulate_shape W normal _ _ _ _ _ _ So E) as (im & w & n & V & _). rewrite V. repeat split; reflexivity.
Qed.
Lemma no_weight_ex : ~ some_weight (mkArr 1 1 (fun _ _ => 0)).
Proof. intros (r & c & _ & P). cbn in P. lra. Qed.

(** an observation in memory *)
Definition si1 : simin := mkSi (OV (im1 1) (im1 1) jac1 (fun _ => None) None [] true true None) None.
Lemma reads1 : Obs_Spec.reads s1 0 (si_val si1).
Proof. eapply Obs_Spec.ReadsNoPsf with (o := o1); try reflexivity. intros []; reflexivity. Qed.
Lemma ex_built : exists rng' out m' k,
  Obs_Spec.reads (exec empty_mem p1) 0 (si_val si1) /\
  simulate_one nat ex_normal None si1 (mkSp false true None true true) (Some 1%nat) = (rng', Ok out) /\
  build_obs 0 (v_image (so_val out)) (v_weight (so_val out)) (v_jac (si_val si1)) (exec empty_mem p1) = (m', Ok k).
Proof.
  rewrite run1. do 2 eexists. eexists. exists 1%nat. split; [exact reads1|].
  unfold simulate_one. cbn [get_simulated_image si1 si_val v_image nrow ncol im1 sp_convolve sp_add_noise v_psf sp_factor v_weight v_jac bind]. unfold v_new.
  change (Jacobian_copy jac1) with (Ok jac1). cbn [shape_eqb nrow ncol im1 fst snd Nat.eqb andb negb bind v_pixels].
  change (mkArr 1 1 (fun _ _ : nat => 0)) with (im1 0). change (mkArr 1 1 (fun _ _ : nat => 1)) with (im1 1). rewrite mp1 by lra. cbn [rmap bind]. split; [reflexivity|].
  cbn [so_val v_image v_weight]. unfold build_obs.
  unfold new_obs, ascontig, shape2, contents, weight_value, jac_value, pixels_value, meta_value, opt_value, gmix_value, psf_value, push_obs, view_check, ascontig, shape2, contents.
  unfold assert, bindM, get_obs, get_arr, get_buf, ret, new_arr, new_meta, lift, fail. compute_mem. cbn [s1 o1 im1 nth_error m_arrs m_bufs m_metas m_obs app length ob_psf a_buf b_data shape_eqb nrow ncol fst snd Nat.eqb andb negb orb].
  change (Jacobian_copy jac1) with (Ok jac1). cbn [nth_error m_arrs m_bufs m_metas m_obs app length a_buf b_data negb orb].
  mkpix (im1 0) (im1 1) jac1 true. rewrite mp1 by lra. reflexivity.
Qed.
