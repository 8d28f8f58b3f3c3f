(** Observations with one or two pixels. *)
From Verif Require Import Base Shape_Model Moments_Spec Jacobian_Model Pixels_Model GMix_Model GMix_Spec FastExp_Model
  Render_Model Render_Spec GMixObj_Model GMixObj_Spec Flags_Model
  EM_Model EM_Spec EM_Proofs EMIter_Proofs EMLoop_Proofs EMGo_Proofs EMResult_Proofs EMCex_Proofs EMPrep_Proofs.
Local Open Scope R_scope.

Definition J1 : jac := mkJac 0 0 1 0 0 1 1 1.
Definition img (x : R) : arr2 R := mkArr 1 2 (fun _ c => match c with O => 1 | _ => x end).
Definition wgt : arr2 R := mkArr 1 2 (fun _ c => match c with O => 1 | _ => 0 end).
Ltac ev := cbv [make_pixels make_pixels_gen fill_pixels fill_body count_gt0 zeros_pixels foldM seq fold_left nrow ncol at2 img wgt J1 get_vu
  jacobian_get_area jscale row0 col0 dvdrow dvdcol dudrow dudcol Nat.mul Nat.add repeat put length Nat.ltb Nat.leb Nat.eqb upd bind andb INR].
Lemma l01 : Rltb 0 1 = true. Proof. unfold Rltb. destruct (Rlt_dec 0 1); [reflexivity|lra]. Qed.
Lemma l00 : Rltb 0 0 = false. Proof. unfold Rltb. destruct (Rlt_dec 0 0); [lra|reflexivity]. Qed.
Lemma l10 : Rltb 1 0 = false. Proof. unfold Rltb. destruct (Rlt_dec 1 0); [lra|reflexivity]. Qed.
Lemma e10 : Rleb 1 0 = false. Proof. unfold Rleb. destruct (Rle_dec 1 0); [lra|reflexivity]. Qed.
Lemma e00 : Rleb 0 0 = true. Proof. unfold Rleb. destruct (Rle_dec 0 0); [reflexivity|lra]. Qed.
Lemma img_pixels x : make_pixels (img x) wgt J1 true = Ok [pix0].
Proof.
  ev. rewrite l01, l00. ev. rewrite e10, l10, e00. ev. rewrite sqrt_1. unfold pix0. do 2 f_equal. f_equal; ring.
Qed.
Lemma ones_pixels f : exists a b, make_pixels (mkArr 1 2 f) (mkArr 1 2 (fun _ _ => 1)) J1 true = Ok [mkPix 0 0 1 a 1; mkPix 1 0 1 b 1].
Proof.
  exists (f 0%nat 0%nat), (f 0%nat 1%nat). ev. rewrite l01. ev. rewrite e10, l10. ev. rewrite sqrt_1. f_equal. f_equal; [f_equal; ring|f_equal; f_equal; ring].
Qed.
Lemma img_prep x : 1 <= x -> exists f, prep_image (img x) = Ok (mkArr 1 2 f, (x - 1) / 1000 - 1).
Proof.
  intros H. destruct (prep_spec (img x)) as (im & s & r0 & c0 & r1 & c1 & E & N1 & N2 & AT & I0 & I1 & B & MN); [cbn; lia|cbn; lia|].
  destruct im as [a b f]. cbn [nrow ncol img] in N1, N2. subst a b. exists f. rewrite E. f_equal. f_equal.
  assert (V : forall c, (c < 2)%nat -> at2 (img x) 0 c = 1 \/ at2 (img x) 0 c = x) by (intros [|[|c]] Hc; cbn; auto; lia).
  pose proof (B 0%nat 0%nat ltac:(split; cbn; lia)) as Ba. pose proof (B 0%nat 1%nat ltac:(split; cbn; lia)) as Bb.
  rewrite !AT in MN. destruct I0 as [I0 J0]. destruct I1 as [I2 J2]. cbn [nrow ncol img] in *. assert (r0 = 0%nat) by lia. assert (r1 = 0%nat) by lia. subst r0 r1.
  pose proof (V _ J0) as V0. pose proof (V _ J2) as V1. change (at2 (img x) 0 0) with 1 in *. change (at2 (img x) 0 1) with x in *.
  assert (at2 (img x) 0 c0 = 1) by (destruct V0; lra). assert (at2 (img x) 0 c1 = x) by (destruct V1; lra). lra.
Qed.
Definition mem (h : heap) (x : R) : emem := mkEm h [[pix0]] [img x].
Definition ob : eobs := mkEo 0 wgt J1 0 None.
Lemma mem_valid row h x : is_guess row h -> valid_call (mem h x) ob 0.
Proof. intros G. destruct (guess_is row h [[pix0]] [img x] G) as (_ & g & Hg & _). split; [apply G|]. split; [eauto|]. cbn. eauto. Qed.

(** a fit of the right guess converges in the first iteration *)
Definition fit1 (maxiter : nat) : fitter := mkFit FluxOnly 1 maxiter (/ 10) false.
Lemma near_run h x maxiter : is_guess 0 h -> (1 <= maxiter)%nat ->
  exists m' r, em_go (fit1 maxiter) (mem h x) ob 0 (Some 0) = Some (m', Ok r) /\
    exists hh t a, ran (fit1 maxiter) (mem h x) ob 0 (Some 0) [pix0] 0 [round 1 0] P0 hh /\ length hh = 2%nat /\ nth_error hh 1 = Some t /\
      r_flags r = (if Nat.leb maxiter 1 then EM_MAXITER else 0%Z) /\ r_fit r = Some (1%nat, Some 0, m_sky t) /\
      converged FluxOnly P0 (/ 10) 1 hh 1 /\ get_gmix m' r false = Ok a.
Proof.
  intros G MX. destruct (guess_is 0 h [[pix0]] [img x] G) as (Gg & GF).
  assert (F1 : flux_of [round 1 0] = 1) by (unfold flux_of; cbn [map]; rewrite rsum_cons, rsum_nil; cbn; ring).
  assert (EV : Forall evaluable (views P0 [round 1 0])) by (rewrite views_point; constructor; [rewrite fresh_round; apply round_evaluable|constructor]).
  assert (Z : Rabs ((flux_of [round 1 0] - flux_of [round 1 0]) / flux_of [round 1 0]) = 0).
  { rewrite F1. replace ((1 - 1) / 1) with 0 by field. apply Rabs_R0. }
  destruct (one_step (fit1 maxiter) (mem h x) ob 0 (Some 0) [pix0] 0 [round 1 0] P0 (mkEM [round 1 0] [pix0] 0))
    as (m' & r & E & hh & t & a & R & L & T & FL & FT & CH & GA); cbn [fit1 f_kind f_miniter f_maxiter f_tol f_vary_sky m_gm]; auto.
  - apply (mem_valid 0); exact G.
  - cbn. eauto.
  - split; reflexivity.
  - reflexivity.
  - lra.
  - exact near_step.
  - left. rewrite Z. lra.
  - exists m', r. split; [exact E|]. exists hh, t, a. cbn [m_gm] in *. rewrite Z in *. split; [exact R|]. split; [exact L|]. split; [exact T|].
    split; [exact FL|]. split; [exact FT|]. split; [|exact GA]. split; [lia|]. exists 0. split; [exact CH|lra].
Qed.
(** without sky the masked pixel is used *)
Lemma far_run h x : is_guess 1000 h -> 1 <= x <= 3 ->
  exists m' r, em_go (fit1 1) (mem h x) ob 0 None = Some (m', Ok r) /\ exists d, r_fit r = Some (1%nat, d, (x - 1) / 1000 - 1).
Proof.
  intros G HX. destruct (guess_is 1000 h [[pix0]] [img x] G) as (Gg & GF).
  assert (F1 : flux_of [round 1 1000] = 1) by (unfold flux_of; cbn [map]; rewrite rsum_cons, rsum_nil; cbn; ring).
  assert (EV : forall p, Forall evaluable (views P0 [round p 1000])).
  { intros p. rewrite views_point. constructor; [rewrite fresh_round; apply round_evaluable|constructor]. }
  destruct (img_prep x) as (f & PI); [lra|]. destruct (ones_pixels f) as (p1 & p2 & MP).
  destruct (one_step (fit1 1) (mem h x) ob 0 None [mkPix 0 0 1 p1 1; mkPix 1 0 1 p2 1] ((x - 1) / 1000 - 1) [round 1 1000] P0
     (mkEM [round 0 1000] [mkPix 0 0 1 p1 1; mkPix 1 0 1 p2 1] ((x - 1) / 1000 - 1)))
    as (m' & r & E & hh & t & a & R & L & T & FL & FT & CH & GA); cbn [fit1 f_kind f_miniter f_maxiter f_tol f_vary_sky m_gm]; auto.
  - apply (mem_valid 1000); exact G.
  - cbn. eauto.
  - exists (img x), (mkArr 1 2 f). split; [reflexivity|]. split; [exact PI|]. exact MP.
  - reflexivity.
  - lra.
  - apply far_step; [lra|]. repeat constructor; cbn [px_v px_ierr]; try lra; unfold Rabs; destruct (Rcase_abs (0 - 1000)); lra.
  - exists m', r. split; [exact E|]. rewrite FT. destruct R as (_ & _ & _ & RR). apply run_sky with (i := 1%nat) (s := t) in RR; [|exact T].
    cbn [m_sky] in RR. rewrite RR. eauto.
Qed.
Lemma near_example maxiter : (1 <= maxiter)%nat -> exists m obs guess m' r a px s G P h,
  valid_call m obs guess /\ nth_error (em_im m) (eo_image obs) = Some (img 0) /\ make_pixels (img 0) (eo_weight obs) (eo_jac obs) true = Ok px /\
  ran (fit1 maxiter) m obs guess (Some s) px s G P h /\ converged FluxOnly P (/ 10) 1 h 1 /\
  em_go (fit1 maxiter) m obs guess (Some s) = Some (m', Ok r) /\ (exists d y, r_fit r = Some (1%nat, d, y)) /\
  r_flags r = (if Nat.leb maxiter 1 then EM_MAXITER else 0%Z) /\ get_gmix m' r false = Ok a.
Proof.
  intros MX. destruct (guess_exists 0) as (h & G). destruct (near_run h 0 maxiter G MX) as (m' & r & E & hh & t & a & R & L & T & FL & FT & CV & GA).
  exists (mem h 0), ob, 0%nat, m', r, a, [pix0], 0, [round 1 0], P0, hh. split; [apply (mem_valid 0); exact G|]. split; [reflexivity|]. split; [apply img_pixels|].
  split; [exact R|]. split; [exact CV|]. split; [exact E|]. split; [eauto|]. split; [exact FL|exact GA].
Qed.
Lemma masked_example : exists f h obs im1 im2 px m1 m2 r1 r2,
  valid_call (mkEm h [px] [im1]) obs 0 /\ eo_px obs = 0%nat /\ eo_image obs = 0%nat /\
  make_pixels im1 (eo_weight obs) (eo_jac obs) true = Ok px /\ make_pixels im2 (eo_weight obs) (eo_jac obs) true = Ok px /\
  nrow im1 = nrow im2 /\ ncol im1 = ncol im2 /\
  (forall r c, in_image im1 r c -> 0 < at2 (eo_weight obs) r c -> at2 im1 r c = at2 im2 r c) /\
  em_go f (mkEm h [px] [im1]) obs 0 None = Some (m1, Ok r1) /\ em_go f (mkEm h [px] [im2]) obs 0 None = Some (m2, Ok r2) /\
  r_fit r1 <> r_fit r2.
Proof.
  destruct (guess_exists 1000) as (h & G). destruct (far_run h 1 G) as (m1 & r1 & E1 & d1 & F1); [lra|]. destruct (far_run h 3 G) as (m2 & r2 & E2 & d2 & F2); [lra|].
  exists (fit1 1), h, ob, (img 1), (img 3), [pix0], m1, m2, r1, r2. split; [apply (mem_valid 1000); exact G|].
  split; [reflexivity|]. split; [reflexivity|]. split; [apply img_pixels|]. split; [apply img_pixels|]. split; [reflexivity|]. split; [reflexivity|].
  split. { intros r [|c] _ W; [reflexivity|]. cbn in W. lra. }
  split; [exact E1|]. split; [exact E2|]. rewrite F1, F2. intros K. injection K as _ K. lra.
Qed.
(** the covariance fit of four pixels *)
Lemma four_example : exists m obs guess m' r a, valid_call m obs guess /\ em_go (mkFit Free 1 1 (/ 10) false) m obs guess (Some 0) = Some (m', Ok r) /\
  get_gmix m' r false = Ok a.
Proof.
  destruct (guess_exists 0) as (h & G). set (m := mkEm h [four] [img 1]). set (o := mkEo 0 (img 1) J1 0 None).
  destruct (guess_is 0 h [four] [img 1] G) as (Gg & GF). pose proof GF as (g & Hg & _).
  assert (EV : forall p, Forall evaluable (views P0 [round p 0])).
  { intros p. rewrite views_point. constructor; [rewrite fresh_round; apply round_evaluable|constructor]. }
  assert (V : valid_call m o 0) by (split; [apply G|]; split; [eauto|cbn; eauto]).
  destruct (one_iter (mkFit Free 1 1 (/ 10) false) m o 0 (Some 0) four 0 [round 1 0] P0 (mkEM [round 4 0] four 0)) as (m' & r & E & C);
    cbn [f_kind f_miniter f_maxiter f_vary_sky m_gm]; auto.
  - cbn. eauto.
  - split; reflexivity.
  - reflexivity.
  - unfold denominator, watched. cbn [nth_error]. fold st0. rewrite four_like. intros K. injection K. lra.
  - apply four_step. reflexivity.
  - destruct C as (px' & s' & G' & P & hh & n & t & d & a' & b & R & L & T & ER & GA & _). exists m, o, 0%nat, m', r, a'. auto.
Qed.
(** maxiter = 0 *)
Lemma zero_example : exists m obs guess m', valid_call m obs guess /\ ~ (exists e, bad_call m obs guess (Some 0) e) /\
  em_go (mkFit Free 1 0 (/ 10) false) m obs guess (Some 0) = Some (m', Raise UnboundLocalError).
Proof.
  destruct (guess_exists 0) as (h & G). destruct (guess_is 0 h [[pix0]] [img 0] G) as (Gg & g & Hg & Kg).
  pose proof (mem_valid 0 h 0 G) as V. assert (NB : ~ (exists e, bad_call (mem h 0) ob 0 (Some 0) e)).
  { intros (e & [(K & _)|[(i & x & K & _)|(x & Rx & K)]]); [discriminate|discriminate|]. cbn [em_gm mem] in Rx. cbn [em_gm] in Hg.
    assert (x = g) by congruence. subst x. unfold obj_copy in K. rewrite Kg in K. discriminate. }
  destruct (go_total (mkFit Free 1 0 (/ 10) false) (mem h 0) ob 0 (Some 0) eq_refl V) as (m' & r & E); [cbn; eauto|].
  exists (mem h 0), ob, 0%nat, m'. split; [exact V|]. split; [exact NB|]. rewrite E. f_equal. f_equal.
  destruct (go_result _ _ _ _ _ _ _ V E) as (_ & C). destruct r as [r|e].
  - exfalso. destruct C as [C|(-> & px & s & G1 & P & D1 & D2 & D3 & C)].
    + destruct C as (px' & s' & G' & P & hh & n & t & d & a' & b & R & L & T & ER & GA & SA & GB & SB & NN & _). cbn in NN. lia.
    + rewrite (psf_unique _ _ _ _ D3 (eq_refl : psf_given (mem h 0) ob P0)) in *. rewrite (guess_unique _ _ _ _ D2 Gg) in *.
      destruct C as [C|(hh & (_ & _ & _ & RR) & L & _)].
      * apply C. rewrite views_point. constructor; [rewrite fresh_round; apply round_evaluable|constructor].
      * destruct RR as (H0 & _). cbn in L. destruct hh; [discriminate|cbn in L; lia].
  - f_equal. destruct C as [C|(-> & _)]; [exfalso; apply NB; eauto|reflexivity].
Qed.
