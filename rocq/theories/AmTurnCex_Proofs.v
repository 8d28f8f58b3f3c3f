(** One pixel, six units from the centre of the guess: the limits on the shift of the centre are along the axes. *)
From Verif Require Import Base XReal Moments_Model Moments_Spec Jacobian_Model Jacobian_Spec Pixels_Model GMix_Model GMix_Spec Render_Model Render_Spec GMixObj_Model Flags_Model WSums_Model EM_Model EM_Spec EM_Proofs Admom_Model Admom_Spec Admom_Proofs Admom2_Proofs Admom3_Proofs Admom4_Proofs
  Units_Spec Motion_Spec MotionCex_Proofs CoordsAm_Proofs AmTurn_Spec AmTurn_Proofs AmTurn2_Proofs.
Local Open Scope R_scope.

Definition confP : am_conf := mkAc 200 5 (1/100000) (1/1000) false.
Definition g4 : gauss := gauss2d_set 1 0 0 4 0 4.
Definition jacP : jac := mkJac 0 0 1 0 0 1 1 1.
Definition onep (v u : R) : list (pixel R) := [mkPix u v 1 1 1].
Section One.
Variables v u : R.
Hypothesis R36 : v * v + u * u = 36.
Lemma ev4 r l : evaluable (gauss2d_set 1 r l 4 0 4).
Proof. pose proof low_small. unfold low in *. unfold evaluable, gauss2d_set, gcov, cov, det2, trace2. cbn. lra. Qed.
Lemma w4 r l : (v - r) * (v - r) + (u - l) * (u - l) < 100 -> 0 < am_weight [gauss2d_set 1 r l 4 0 4] (mkPix u v 1 1 1).
Proof.
  intros L. unfold am_weight. cbn [map]. rewrite rsum_cons, rsum_nil, Rplus_0_r. apply in_pixel_pos; [apply ev4|cbn; lra|cbn; lra|].
  unfold dist2, maha, gauss2d_set, gcov, cov, det2. cbn [px_v px_u g_row g_col g_irr g_irc g_icc xx xy yy].
  apply Rmult_lt_reg_r with (4 * 4 - 0 * 0); [lra|]. unfold Rdiv. rewrite Rmult_assoc, Rinv_l by lra. nra.
Qed.
Lemma mean1 g f : 0 < am_weight [g] (mkPix u v 1 1 1) -> 0 < wflux [g] (onep v u) /\ wmean [g] (onep v u) f = f (mkPix u v 1 1 1).
Proof.
  intros H. unfold wmean, wflux, wtd, onep. cbn [map]. rewrite !rsum_cons, !rsum_nil. cbn [px_val]. split; [lra|]. field. lra.
Qed.
Lemma cen1 : 0 < wflux [g4] (onep v u) /\ centred (onep v u) [g4] = [gauss2d_set 1 v u 4 0 4].
Proof.
  assert (W : 0 < am_weight [g4] (mkPix u v 1 1 1)) by (apply w4; nra). unfold centred. rewrite !(proj2 (mean1 g4 _ W)). split; [apply (mean1 g4 (fun _ => 0) W)|]. reflexivity.
Qed.
Lemma good1 : good_input confP (mkAo (onep v u) jacP) [g4].
Proof.
  split; [split; [discriminate|constructor; [unfold coherent, g4, gauss2d_set, gcov, cov, det2; cbn; ring|constructor]]|].
  split; [constructor; [cbn; lra|constructor]|]. split; [|split; [|split; [cbn; lia|unfold get_area; cbn; lra]]].
  - unfold usable_pixels, onep. cbn [ao_pix]. constructor; [cbn; lra|constructor].
  - unfold real_pixels, onep. cbn [ao_pix]. constructor; [cbn; lra|constructor].
Qed.
Lemma far1 : 5 < Rabs v -> ends confP (onep v u) [g4] CEN_SHIFT 1.
Proof.
  intros A. destruct cen1 as [F C]. pose proof low_small. eapply (e_shift confP (onep v u) [g4] 0 None [g4]); [cbn; lia|constructor|unfold g4, gauss2d_set, gcov, cov, det2; cbn; lra|constructor; [apply ev4|constructor]|exact F|].
  rewrite C. unfold in_range. cbn. intros [H1 _]. rewrite Rminus_0_r in H1. lra.
Qed.
Lemma near1 : Rabs v <= 5 -> Rabs u <= 5 -> ends confP (onep v u) [g4] NONPOS_SIZE 1.
Proof.
  intros A B. destruct cen1 as [F C]. pose proof low_small. assert (W : 0 < am_weight [gauss2d_set 1 v u 4 0 4] (mkPix u v 1 1 1)) by (apply w4; lra).
  eapply (e_size confP (onep v u) [g4] 0 None [g4]); [cbn; lia|constructor|unfold g4, gauss2d_set, gcov, cov, det2; cbn; lra|constructor; [apply ev4|constructor]|exact F| | |]; rewrite C.
  - unfold in_range. cbn. rewrite !Rminus_0_r. auto.
  - apply (mean1 _ (fun _ => 0) W).
  - unfold mom2, trace2. cbn [xx yy]. rewrite !(proj2 (mean1 _ _ W)). unfold dv, du. cbn. lra.
Qed.
Lemma flagged1 f : f <> 0%Z -> ends confP (onep v u) [g4] f 1 -> exists d, snd (am_run confP (mkAo (onep v u) jacP) [g4]) = Ok d /\ d_flux_flags d = f /\ d_numiter d = 1%nat.
Proof.
  intros F E. destruct (outcome confP (mkAo (onep v u) jacP) [g4] f 1 good1 E) as (_ & d & D1 & D2 & D3 & _). exists d. split; [exact D1|]. split; [|exact D2]. apply (D3 F).
Qed.
End One.
Lemma run_jac k px j j' w : get_area j' = get_area j -> am_run k (mkAo px j') w = am_run k (mkAo px j) w.
Proof. intros H. unfold am_run. cbn [ao_pix ao_jac]. rewrite H. reflexivity. Qed.
Lemma depends_on_angle : exists px' j' d d', pix_moved (PI / 4) 0 0 (onep 6 0) px' /\ jac_moved (PI / 4) 0 0 jacP j' /\ Forall2 (gauss_moved 1 (PI / 4) 0 0) [g4] [g4] /\
  snd (am_run confP (mkAo (onep 6 0) jacP) [g4]) = Ok d /\ snd (am_run confP (mkAo px' j') [g4]) = Ok d' /\ d_flux_flags d = CEN_SHIFT /\ d_flux_flags d' = NONPOS_SIZE.
Proof.
  assert (S2 : 0 < sqrt 2) by (apply sqrt_lt_R0; lra). assert (SS : sqrt 2 * sqrt 2 = 2) by (apply sqrt_sqrt; lra).
  set (q := 1 / sqrt 2). assert (Q1 : 0 < q) by (apply Rdiv_lt_0_compat; lra). assert (Q2 : q * q = / 2) by (unfold q; transitivity (/ (sqrt 2 * sqrt 2)); [field; lra|rewrite SS; reflexivity]).
  assert (CC : cos (PI / 4) = q) by apply cos_PI4. assert (CS : sin (PI / 4) = q) by apply sin_PI4.
  assert (AB : Rabs (6 * q) <= 5) by (rewrite Rabs_right by lra; nra).
  assert (JP : jacP = finish_init 0 0 1 0 0 1).
  { unfold jacP, finish_init. replace (1 * 1 - 0 * 0) with 1 by ring. rewrite Rabs_R1, sqrt_1. reflexivity. }
  pose proof (jac_turned (PI / 4) 0 0 1 0 0 1) as J. rewrite <- JP in J. set (j' := finish_init _ _ _ _ _ _) in J.
  destruct (flagged1 6 0 CEN_SHIFT ltac:(discriminate) (far1 6 0 ltac:(lra) ltac:(rewrite Rabs_right by lra; lra))) as (d & D1 & D2 & _).
  assert (R36 : (6 * q) * (6 * q) + (6 * q) * (6 * q) = 36) by nra.
  destruct (flagged1 (6 * q) (6 * q) NONPOS_SIZE ltac:(discriminate) (near1 _ _ R36 AB AB)) as (d' & D1' & D2' & _).
  exists (onep (6 * q) (6 * q)), j', d, d'. split.
  { unfold pix_moved, onep. constructor; [|constructor]. cbn [px_v px_u px_area px_val px_ierr]. unfold moved_v, moved_u. rewrite CC, CS. repeat split; ring. }
  split; [exact J|]. split.
  { constructor; [|constructor]. unfold gauss_moved, g4, gauss2d_set, moved_v, moved_u, turned_1, turned_2. cbn [g_p g_row g_col g_irr g_irc g_icc g_det]. repeat split; ring. }
  split; [exact D1|]. split; [|auto]. rewrite (run_jac confP _ jacP j' [g4]); [exact D1'|]. apply J.
Qed.
(** a good result turned by 90 degrees and shifted *)
Lemma quarter_90 : quarter (PI / 2).
Proof. unfold quarter. rewrite cos_PI2. ring. Qed.
Definition turned_pixel (p : pixel R) : pixel R := mkPix (px_v p - 3) (- px_u p + 2) (px_area p) (px_val p) (px_ierr p).
Lemma moved_sample : let j' := mkJac 4 4 0 (-1) 1 0 1 1 in
  pix_moved (PI / 2) 2 (-3) pxW (map turned_pixel pxW) /\ jac_moved (PI / 2) 2 (-3) jac1 j' /\ Forall2 (gauss_moved 1 (PI / 2) 2 (-3)) [gW] [gauss2d_set 1 2 (-3) 8 (-2) 2] /\
  exists d, snd (am_run confP (mkAo pxW jac1) [gW]) = Ok d /\ d_flags d = 0%Z /\ d_numiter d = 2%nat /\ d_T d = Fin 10.
Proof.
  assert (C2 : cos (2 * (PI / 2)) = -1) by (replace (2 * (PI / 2)) with PI by field; apply cos_PI).
  assert (S2 : sin (2 * (PI / 2)) = 0) by (replace (2 * (PI / 2)) with PI by field; apply sin_PI).
  intros j'. split.
  { unfold pix_moved. induction pxW as [|p l IH]; cbn [map]; constructor; [|exact IH]. unfold turned_pixel, moved_v, moved_u; cbn [px_v px_u px_area px_val px_ierr]. rewrite cos_PI2, sin_PI2. repeat split; ring. }
  split.
  { split; [|reflexivity]. unfold maps_to, j', jac1, moved_v, moved_u. cbn [row0 col0 dvdrow dvdcol dudrow dudcol]. rewrite cos_PI2, sin_PI2. intros row col v u v' u' [-> ->] [-> ->]. split; ring. }
  split.
  { constructor; [|constructor]. unfold gauss_moved, gW, gauss2d_set, moved_v, moved_u, turned_1, turned_2. cbn [g_p g_row g_col g_irr g_irc g_icc g_det]. rewrite C2, S2, cos_PI2, sin_PI2. repeat split; ring. }
  destruct (sample_ok false) as (_ & d & A & B & C & D). exists d. auto.
Qed.
Lemma result_numiter r ar n d : get_result r ar n = Ok d -> d_numiter d = ar_numiter r.
Proof.
  unfold get_result. cbv zeta. destruct (if (ar_flags r =? 0)%Z then _ else (NaN, NaN, NaN, Z.lor 0 (ar_flags r))) as [[[? ?] ?] ?].
  intros H. do 3 (match type of H with bind ?p _ = _ => let y := fresh "y" in destruct p as [y|]; cbn [bind] in H; [repeat (destruct y as [y ?])|discriminate H] end). injection H as <-. reflexivity.
Qed.
Lemma iter_numiter k row col px x : ar_numiter (as_rec (fst (am_iter k row col px x))) = ar_numiter (as_rec x).
Proof.
  unfold am_iter, stop_with. destruct (as_wt x) as [|g0 w0]; [reflexivity|]. destruct (Rltb _ _); [reflexivity|]. destruct (gmix_set_norms _) as [[|g1 rest] [[]|e]]; try reflexivity.
  destruct (foldM _ px _); [|reflexivity]. destruct (Rleb _ _); [reflexivity|]. destruct (_ || _)%bool; [reflexivity|]. destruct (foldM _ px _); [|reflexivity]. destruct (Rleb _ _); [reflexivity|].
  destruct (Rleb _ _); [reflexivity|]. match goal with |- context [if ?q then _ else _] => destruct q end; [reflexivity|]. destruct (ac_cenonly k); [reflexivity|]. destruct (deweight_moments _ _ _ _); reflexivity.
Qed.
Lemma goes_on k px j g w d : snd (am_run k (mkAo px j) (g :: w)) = Ok d -> (2 <= d_numiter d)%nat -> exists v, weight_after k px 1 (g :: w) = Some v.
Proof.
  rewrite run_tail. cbn [weight_after after]. destruct (ac_maxiter k) as [|m] eqn:EM.
  { cbn. discriminate. }
  cbn [am_loop]. destruct (am_iter k (g_row g) (g_col g) px (mkAs (g :: w) am_rec0 None)) as [s [[|]|e]] eqn:EI; cbn [tail snd fst]; unfold tail; cbn [fst snd]; [| |].
  - intros H L. exfalso. destruct (norm0 (as_wt s)); cbn [bind snd] in H; [|discriminate H]. apply result_numiter in H. cbn [ar_numiter] in H. lia.
  - intros _ _. eauto.
  - intros H L. exfalso. pose proof (iter_numiter k (g_row g) (g_col g) px (mkAs (g :: w) am_rec0 None)) as N. rewrite EI in N. cbn in N.
    destruct e; try discriminate H. cbn [snd] in H. destruct (norm0 (as_wt s)); cbn [bind] in H; [|discriminate H]. apply result_numiter in H. cbn [ar_numiter] in H. lia.
Qed.
Lemma sample_goes_on : exists v v', weight_after confP pxW 1 [gW] = Some v /\ weight_after confP (map turned_pixel pxW) 1 [gauss2d_set 1 2 (-3) 8 (-2) 2] = Some v'.
Proof.
  destruct moved_sample as (P & J & W & d & D & _ & N & _). destruct (goes_on _ _ _ _ _ _ D ltac:(lia)) as [v E]. exists v.
  pose proof (run_moved _ _ _ _ _ P quarter_90 _ _ J confP _ _ W) as [_ H]. rewrite D in H. destruct (snd (am_run confP (mkAo (map turned_pixel pxW) _) _)) as [d'|] eqn:D'; cbn [same_outcome] in H; [|contradiction].
  destruct (goes_on _ _ _ _ _ _ D') as [v' E']; [destruct H as (_ & -> & _); lia|]. exists v'. auto.
Qed.
