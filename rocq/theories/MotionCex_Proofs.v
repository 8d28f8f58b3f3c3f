(** Jacobians, pixels and a concrete fit in coordinates that are turned and shifted. *)
From Coq Require Import Nsatz.
From Verif Require Import Base XReal Shape_Model Jacobian_Model Jacobian_Spec Jacobian_Proofs Pixels_Model Pixels_Spec Pixels_Proofs GMix_Model GMix_Spec GMixObj_Model GMixObj_Proofs
  Render_Model Render_Spec Render_Proofs Priors_Model Joint_Model
  Fit_Model Fit_Spec Fit_Proofs Fit2_Proofs Fit3_Proofs FitCex_Proofs Units_Spec FitUnitsCex_Proofs Motion_Spec Motion_Proofs Motion2_Proofs.
Local Open Scope R_scope.

Lemma jac_turned t r0 c0 vr vc ur uc :
  jac_moved t 0 0 (finish_init r0 c0 vr vc ur uc)
    (finish_init r0 c0 (cos t * vr - sin t * ur) (cos t * vc - sin t * uc) (sin t * vr + cos t * ur) (sin t * vc + cos t * uc)).
Proof.
  split.
  - unfold maps_to, finish_init, moved_v, moved_u. cbn [row0 col0 dvdrow dvdcol dudrow dudcol]. intros row col v u v' u' [-> ->] [-> ->]. split; ring.
  - unfold finish_init. cbn [jscale]. f_equal. f_equal. f_equal. pose proof (sin2_cos2 t) as C. unfold Rsqr in C. nsatz.
Qed.
Lemma jac_shifted r0 c0 r1 c1 vr vc ur uc :
  jac_moved 0 (vr * (r0 - r1) + vc * (c0 - c1)) (ur * (r0 - r1) + uc * (c0 - c1)) (finish_init r0 c0 vr vc ur uc) (finish_init r1 c1 vr vc ur uc).
Proof.
  split; [|reflexivity]. unfold maps_to, finish_init, moved_v, moved_u. cbn [row0 col0 dvdrow dvdcol dudrow dudcol]. rewrite cos_0, sin_0.
  intros row col v u v' u' [-> ->] [-> ->]. split; ring.
Qed.
Lemma pixels_turned t a b image weight j j' ig : nrow weight = nrow image -> ncol weight = ncol image -> jac_moved t a b j j' ->
  same_outcome (pix_moved t a b) (make_pixels image weight j ig) (make_pixels image weight j' ig).
Proof.
  intros Hr Hc [J1 J2]. unfold make_pixels.
  rewrite !(make_pixels_gen_eq R (Rltb 0) (fun w => Rleb w 0) (fun w => Rltb w 0) 0 sqrt image weight _ ig (fun rc _ => gt_not_le _) Hr Hc).
  destruct (_ && _)%bool; [reflexivity|]. cbn [same_outcome]. unfold pix_moved. induction (filter _ _) as [|[r c] l IH]; [constructor|]. cbn [map]. constructor; [|exact IH].
  unfold entry. cbn [fst snd px_v px_u px_area px_val px_ierr].
  destruct (J1 (INR r) (INR c) (fst (get_vu j (INR r) (INR c))) (snd (get_vu j (INR r) (INR c))) (fst (get_vu j' (INR r) (INR c))) (snd (get_vu j' (INR r) (INR c)))) as [E1 E2].
  1,2: apply get_vu_maps, surjective_pairing.
  split; [exact E1|]. split; [exact E2|]. split; [exact J2|]. split; reflexivity.
Qed.
Lemma turned_rotate t g1 g2 : (turned_1 t g1 g2, turned_2 t g1 g2) = rotate_shape g1 g2 t.
Proof. unfold turned_1, turned_2, rotate_shape. cbv zeta. f_equal; ring. Qed.

(** ** priors *)
Lemma item_rest p p' i x y z : pars_moved x y z p p' -> (4 <= i)%nat -> item (map Fin p') i = item (map Fin p) i.
Proof. intros (v & u & g1 & g2 & rest & -> & ->) H. destruct i as [|[|[|[|i]]]]; try lia. reflexivity. Qed.
Section P.
Variables t a b : R.
Notation PM := (pars_moved t a b).
Lemma on1_rest f p p' i : PM p p' -> (4 <= i)%nat -> on1 f (map Fin p') i = on1 f (map Fin p) i.
Proof. intros H L. unfold on1. rewrite (item_rest p p' i t a b H L). reflexivity. Qed.
Lemma enum_rest p p' k (l : list p1obj) : PM p p' -> (4 <= k)%nat ->
  enum_from (fun F i => on1 (p1_lnprob F) (map Fin p') i) k l = enum_from (fun F i => on1 (p1_lnprob F) (map Fin p) i) k l.
Proof. intros H L. unfold enum_from. apply map_ext. intros [F i]. apply on1_rest; [exact H|]. cbn [fst snd]. lia. Qed.
Lemma cen_term c c' p p' : cen_prior_moved t a b c c' -> PM p p' ->
  on2 (fun x y => Ok (cen_lnprob_scalar c' x y)) (map Fin p') 0 1 = on2 (fun x y => Ok (cen_lnprob_scalar c x y)) (map Fin p) 0 1.
Proof.
  intros (C1 & C2 & C3 & C4 & C5) (v & u & g1 & g2 & rest & -> & ->). unfold on2. cbn [map item nth_error bind]. unfold item. cbn [nth_error bind].
  f_equal. unfold cen_lnprob_scalar. unfold xsub; cbn [xmul xneg xadd]. f_equal. rewrite C1, C2, C3, C4, C5. unfold moved_v, moved_u.
  assert (Q : forall s x y, -1 / 2 * x * x * s + - (1 / 2 * y * y * s) = - (s / 2) * (x * x + y * y)) by (intros; field). rewrite !Q. f_equal.
  pose proof (sin2_cos2 t) as C. unfold Rsqr in C. nsatz.
Qed.
Lemma g_term g p p' : isotropic t g -> PM p p' -> on2 (p2_lnprob g) (map Fin p') 2 3 = on2 (p2_lnprob g) (map Fin p) 2 3.
Proof. intros H (v & u & g1 & g2 & rest & -> & ->). unfold on2, item. cbn [map nth_error bind]. apply H. Qed.
Lemma simple_moved cen cen' g T F bnd bnd' b0 b1 : cen_prior_moved t a b cen cen' -> isotropic t g ->
  prior_moved t a b (Some (of_simple (mkSS cen g T F bnd) b0)) (Some (of_simple (mkSS cen' g T F bnd') b1)).
Proof.
  intros C G. split; [reflexivity|]. intros p p' H. cbn [of_simple jp_lnprob]. unfold simple_lnprob. cbn [ss_cen ss_g ss_T ss_F].
  rewrite (cen_term cen cen' p p' C H), (g_term g p p' G H), (on1_rest _ p p' 4 H), (enum_rest p p' 5 F H) by lia. reflexivity.
Qed.
Lemma bd_moved cen cen' g T Tr fd F bnd bnd' b0 b1 : cen_prior_moved t a b cen cen' -> isotropic t g ->
  prior_moved t a b (Some (of_bd (mkBD cen g T Tr fd F bnd) b0)) (Some (of_bd (mkBD cen' g T Tr fd F bnd') b1)).
Proof.
  intros C G. split; [reflexivity|]. intros p p' H. cbn [of_bd jp_lnprob]. unfold bd_lnprob. cbn [bd_cen bd_g bd_T bd_logTratio bd_fracdev bd_F].
  rewrite (cen_term cen cen' p p' C H), (g_term g p p' G H), !(on1_rest _ p p' _ H), (enum_rest p p' 7 F H) by lia. reflexivity.
Qed.
Lemma bdf_moved cen cen' g T fd F bnd bnd' b0 b1 : cen_prior_moved t a b cen cen' -> isotropic t g ->
  prior_moved t a b (Some (of_bdf (mkBDF cen g T fd F bnd) b0)) (Some (of_bdf (mkBDF cen' g T fd F bnd') b1)).
Proof.
  intros C G. split; [reflexivity|]. intros p p' H. cbn [of_bdf jp_lnprob]. unfold bdf_lnprob. cbn [bf_cen bf_g bf_T bf_fracdev bf_F].
  rewrite (cen_term cen cen' p p' C H), (g_term g p p' G H), !(on1_rest _ p p' _ H), (enum_rest p p' 6 F H) by lia. reflexivity.
Qed.
Lemma ba_isotropic q : isotropic t (gba_obj q).
Proof.
  intros g1 g2. cbn [gba_obj p2_lnprob]. unfold ba_lnprob_scalar2d, gsq_of, turned_1, turned_2. cbn [xmul xadd].
  replace ((cos (2 * t) * g1 + sin (2 * t) * g2) * (cos (2 * t) * g1 + sin (2 * t) * g2) + (- sin (2 * t) * g1 + cos (2 * t) * g2) * (- sin (2 * t) * g1 + cos (2 * t) * g2))
    with (g1 * g1 + g2 * g2); [reflexivity|]. pose proof (sin2_cos2 (2 * t)) as C. unfold Rsqr in C. nsatz.
Qed.
Lemma cen_moved_made c1 c2 s c : cen_init c1 c2 s s = Ok c ->
  exists c', cen_init (moved_v t a c1 c2) (moved_u t b c1 c2) s s = Ok c' /\ cen_prior_moved t a b c c'.
Proof.
  unfold cen_init. destruct (py_inv s) as [x|]; [|discriminate]. cbn [bind]. destruct (py_inv (s ^ 2)) as [y|]; [|discriminate]. cbn [bind]. intros E. injection E as <-.
  eexists. split; [reflexivity|]. unfold cen_prior_moved. cbn. repeat split.
Qed.
End P.

(** a psf and a pixel turned by 90 degrees and shifted; the parameters are those of an elongated galaxy *)
Definition quarter : R := PI / 2.
Definition turned_obs (kp : R) : fobs :=
  mkFobs (Some [mkPix 7 5 1 0 1]) (Some (Some (round_obj 4 (kp * 1)))) 1 1 (mkJac (-7) 5 0 (-1) 1 0 1 1).
Definition long_pars : list R := [1; 2; 1 / 2; 0; 4; 3].
Definition long_turned : list R := [3; 8; - (1 / 2); 0; 4; 3].
Lemma quarter_1 x y : turned_1 quarter x y = - x.
Proof. unfold turned_1, quarter. replace (2 * (PI / 2)) with PI by field. rewrite cos_PI, sin_PI. ring. Qed.
Lemma quarter_2 x y : turned_2 quarter x y = - y.
Proof. unfold turned_2, quarter. replace (2 * (PI / 2)) with PI by field. rewrite cos_PI, sin_PI. ring. Qed.
Lemma quarter_v a v u : moved_v quarter a v u = - u + a.
Proof. unfold moved_v, quarter. rewrite cos_PI2, sin_PI2. ring. Qed.
Lemma quarter_u b v u : moved_u quarter b v u = v + b.
Proof. unfold moved_u, quarter. rewrite cos_PI2, sin_PI2. ring. Qed.
Lemma long_moved : pars_moved quarter 5 7 long_pars long_turned.
Proof. exists 1, 2, (1 / 2), 0, [4; 3]. rewrite quarter_1, quarter_2, quarter_v, quarter_u. split; [reflexivity|]. unfold long_turned. repeat f_equal; lra. Qed.
Lemma round_moved k T fl : mix_moved k quarter 0 0 (round_obj T fl) (round_obj T (k * fl)).
Proof.
  split; [reflexivity|]. constructor; [|constructor]. unfold gauss_moved. rewrite quarter_1, quarter_2, quarter_v, quarter_u.
  cbn [round_obj o_data gauss2d_set g_p g_row g_col g_irr g_irc g_icc g_det]. repeat split; lra.
Qed.
Lemma turned_obs_moved kp : kp <> 0 -> obs_moved quarter 5 7 with_psf (turned_obs kp).
Proof.
  intros KP. unfold obs_moved, with_psf, turned_obs. cbn [fo_pixels fo_nr fo_nc fo_jac]. split.
  { constructor; [|constructor]. cbn [px_v px_u px_area px_val px_ierr]. rewrite quarter_v, quarter_u. repeat split; lra. }
  split; [reflexivity|]. split; [reflexivity|]. split.
  { split; [|reflexivity]. unfold maps_to, gjac. cbn [row0 col0 dvdrow dvdcol dudrow dudcol]. intros row col v u v' u' [-> ->] [-> ->]. rewrite quarter_v, quarter_u. split; ring. }
  split; [reflexivity|]. exists kp, 0, 0. split; [exact KP|].
  unfold psf_gmix. cbn [fo_psf]. rewrite copy_gobj. unfold obj_copy. cbn [round_obj o_kind o_pars]. rewrite round_made, gobj_round. apply round_moved.
Qed.
Lemma moved_hold : exists F F', fit_of (FName Mgauss) [[with_psf]] None F /\ fit_of (FName Mgauss) [[turned_obs 5]] None F' /\
  Forall2 (Forall2 (obs_moved quarter 5 7)) [[with_psf]] [[turned_obs 5]] /\ prior_moved quarter 5 7 None None /\ residuals_moved quarter 5 7 None None /\
  pars_moved quarter 5 7 long_pars long_turned /\ length long_pars = n_pars (FName Mgauss) [[with_psf]].
Proof.
  destruct init_with_psf as (G & HG).
  assert (HO : Forall2 (Forall2 (obs_moved quarter 5 7)) [[with_psf]] [[turned_obs 5]]) by (constructor; [constructor; [apply turned_obs_moved; lra|constructor]|constructor]).
  assert (PM : pars_moved quarter 5 7 gpars [5; 7; 0; 0; 4; 1]).
  { exists 0, 0, 0, 0, [4; 1]. rewrite quarter_1, quarter_2, quarter_v, quarter_u. split; [reflexivity|]. repeat f_equal; lra. }
  pose proof (init_moved quarter 5 7 (FName Mgauss) [[with_psf]] [[turned_obs 5]] None None gpars _ HO I PM) as S. rewrite HG in S.
  destruct (fit_init (FName Mgauss) [[turned_obs 5]] _ None) as [F'|] eqn:E; [|contradiction].
  exists G, F'. split; [exists gpars, G; split; [exact HG|constructor]|]. split; [exists [5; 7; 0; 0; 4; 1], F'; split; [exact E|constructor]|].
  split; [exact HO|]. split; [exact I|]. split; [exact I|]. split; [exact long_moved|reflexivity].
Qed.
