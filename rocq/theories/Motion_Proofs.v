From Coq Require Import Nsatz.
From Verif Require Import Base XReal Pixels_Model Jacobian_Model Jacobian_Spec GMix_Model GMixObj_Model Render_Model FastExp_Model Fit_Model Units_Spec Units_Proofs FitUnits_Proofs Motion_Spec.
Local Open Scope R_scope.

Section M.
Variables t a b : R.
Notation c := (cos t).
Notation s := (sin t).
Lemma cs1 : c * c + s * s = 1.
Proof. pose proof (sin2_cos2 t) as H. unfold Rsqr in H. lra. Qed.
Lemma cos_2 : cos (2 * t) = c * c - s * s. Proof. apply cos_2a. Qed.
Lemma sin_2 : sin (2 * t) = 2 * s * c. Proof. rewrite sin_2a. ring. Qed.
Lemma cs2 : cos (2 * t) * cos (2 * t) + sin (2 * t) * sin (2 * t) = 1.
Proof. pose proof (sin2_cos2 (2 * t)) as H. unfold Rsqr in H. lra. Qed.

(** ** mixtures *)
Lemma sum_turned x y : turned_1 t x y * turned_1 t x y + turned_2 t x y * turned_2 t x y = x * x + y * y.
Proof. unfold turned_1, turned_2. pose proof cs2. nsatz. Qed.
Lemma g_to_e_turned g1 g2 : same_outcome (fun e e' => e' = (turned_1 t (fst e) (snd e), turned_2 t (fst e) (snd e)))
  (g1g2_to_e1e2_nb g1 g2) (g1g2_to_e1e2_nb (turned_1 t g1 g2) (turned_2 t g1 g2)).
Proof.
  unfold g1g2_to_e1e2_nb. rewrite sum_turned. cbv zeta. destruct (Rleb 1 _); [reflexivity|]. destruct (Reqb _ 0); cbn [same_outcome fst snd]; f_equal; unfold turned_1, turned_2; ring.
Qed.
Lemma turned_det x y X Y T T' : T' = T -> X = turned_1 t x y -> Y = turned_2 t x y -> T' * T' - X * X - Y * Y = T * T - x * x - y * y.
Proof. intros -> -> ->. pose proof (sum_turned x y). lra. Qed.
Lemma set_moved q g p row col irr irc icc p' row' col' irr' irc' icc' : g = gauss2d_set p' row' col' irr' irc' icc' ->
  p' = q * p -> row' = moved_v t a row col -> col' = moved_u t b row col -> irr' + icc' = irr + icc ->
  icc' - irr' = turned_1 t (icc - irr) (2 * irc) -> 2 * irc' = turned_2 t (icc - irr) (2 * irc) ->
  gauss_moved q t a b (gauss2d_set p row col irr irc icc) g.
Proof.
  intros -> E1 E2 E3 E4 E5 E6. unfold gauss_moved, gauss2d_set. cbn [g_p g_row g_col g_irr g_irc g_icc g_det]. repeat (split; [assumption|]).
  pose proof (turned_det _ _ _ _ _ _ E4 E5 E6). lra.
Qed.
Lemma shape_moved q p row col e1 e2 T : gauss_moved q t a b (gauss2d_set p row col (T * (1 - e1)) (T * e2) (T * (1 + e1)))
  (gauss2d_set (q * p) (moved_v t a row col) (moved_u t b row col) (T * (1 - turned_1 t e1 e2)) (T * turned_2 t e1 e2) (T * (1 + turned_1 t e1 e2))).
Proof. eapply set_moved; [reflexivity|reflexivity|reflexivity|reflexivity|ring|unfold turned_1; ring|unfold turned_2; ring]. Qed.
Notation GM := (gauss_moved 1 t a b).
Lemma shape_moved' p row col e1 e2 T : GM (gauss2d_set p row col (T * (1 - e1)) (T * e2) (T * (1 + e1)))
  (gauss2d_set p (moved_v t a row col) (moved_u t b row col) (T * (1 - turned_1 t e1 e2)) (T * turned_2 t e1 e2) (T * (1 + turned_1 t e1 e2))).
Proof. rewrite <- (Rmult_1_l p) at 2. apply shape_moved. Qed.
Lemma cm_moved fd td row col e1 e2 T flux i : same_outcome GM (cm_gauss fd td row col e1 e2 T flux i) (cm_gauss fd td (moved_v t a row col) (moved_u t b row col) (turned_1 t e1 e2) (turned_2 t e1 e2) T flux i).
Proof. unfold cm_gauss. eapply same_bind; [apply same_refl|]. intros [p f] ? <-. apply shape_moved'. Qed.
Lemma fill_moved kd ng p p' : pars_moved t a b p p' -> (match kd with KModel _ | KCoellip => True | _ => False end) -> same_outcome (Forall2 GM) (fill_func kd ng p) (fill_func kd ng p').
Proof.
  intros (v & u & g1 & g2 & rest & -> & ->) KD. pose proof (g_to_e_turned g1 g2) as E.
  assert (SIMPLE : forall n fv pv, same_outcome (Forall2 GM) (gmix_fill_simple n fv pv (v :: u :: g1 :: g2 :: rest)) (gmix_fill_simple n fv pv (moved_v t a v u :: moved_u t b v u :: turned_1 t g1 g2 :: turned_2 t g1 g2 :: rest))).
  { intros n fv pv. unfold gmix_fill_simple. unfold getp at 1 2 3 4 9 10 11 12. cbn [nth_error bind].
    eapply same_bind; [apply same_refl|]. intros T ? <-. eapply same_bind; [apply same_refl|]. intros F ? <-. eapply same_bind; [exact E|]. intros [e1 e2] ? ->. cbn [fst snd].
    apply mapM_same. intros i _. eapply same_bind; [apply same_refl|]. intros f ? <-. eapply same_bind; [apply same_refl|]. intros q ? <-. apply shape_moved'. }
  destruct kd as [|n| |]; cbn [fill_func]; [contradiction| |contradiction|].
  - destruct n; try (apply SIMPLE).
    + unfold gmix_fill_bd. unfold getp at 1 2 3 4 9 10 11 12. cbn [nth_error bind].
      do 4 (eapply same_bind; [apply same_refl|]; intros ? ? <-). eapply same_bind; [apply same_refl|]. intros Tf ? <-. eapply same_bind; [exact E|]. intros [e1 e2] ? ->. cbn [fst snd].
      apply mapM_same. intros i _. apply cm_moved.
    + unfold gmix_fill_bdf. unfold getp at 1 2 3 4 8 9 10 11. cbn [nth_error bind].
      do 3 (eapply same_bind; [apply same_refl|]; intros ? ? <-). eapply same_bind; [apply same_refl|]. intros Tf ? <-. eapply same_bind; [exact E|]. intros [e1 e2] ? ->. cbn [fst snd].
      apply mapM_same. intros i _. apply cm_moved.
    + reflexivity.
  - unfold gmix_fill_coellip. unfold getp at 1 2 3 4 7 8 9 10. cbn [nth_error bind]. eapply same_bind; [exact E|]. intros [e1 e2] ? ->. cbn [fst snd].
    apply mapM_same. intros i _. eapply same_bind; [apply same_refl|]. intros T ? <-. eapply same_bind; [apply same_refl|]. intros F ? <-. apply shape_moved'.
Qed.

(** ** the psf *)
Lemma cen_moved q a' b' w w' : q <> 0 -> Forall2 (gauss_moved q t a' b') w w' ->
  same_outcome (fun x x' => let '(row, col, p) := x in x' = (moved_v t a' row col, moved_u t b' row col, q * p) /\ p <> 0) (gmix_get_cen w) (gmix_get_cen w').
Proof.
  intros Q H. unfold gmix_get_cen.
  assert (G : forall s0 s1, (let '(row, col, p) := s0 in s1 = (q * (c * row - s * col + a' * p), q * (s * row + c * col + b' * p), q * p)) ->
    let '(row, col, p) := fold_left (fun s g => let '(row, col, psum) := s in (row + g_p g * g_row g, col + g_p g * g_col g, psum + g_p g)) w s0 in
    fold_left (fun s g => let '(row, col, psum) := s in (row + g_p g * g_row g, col + g_p g * g_col g, psum + g_p g)) w' s1 = (q * (c * row - s * col + a' * p), q * (s * row + c * col + b' * p), q * p)).
  { induction H as [|g g' w w' G H IH]; intros [[r l] p] s1 E; cbn [fold_left]; [exact E|]. apply IH. rewrite E. destruct G as (G1 & G2 & G3 & _). rewrite G1, G2, G3. unfold moved_v, moved_u. apply f_equal2; [apply f_equal2|]; ring. }
  specialize (G (0, 0, 0) (0, 0, 0)). destruct (fold_left _ w _) as [[r l] p]. rewrite G by (apply f_equal2; [apply f_equal2|]; ring).
  destruct (Reqb_spec p 0) as [P|P]. { rewrite Reqb_t by (rewrite P; ring). reflexivity. }
  rewrite Reqb_f by (apply Rmult_integral_contrapositive; auto). cbn [same_outcome]. split; [|exact P]. unfold moved_v, moved_u. apply f_equal2; [apply f_equal2|]; field; auto.
Qed.
Lemma convolve_moved q a' b' w w' r r' : q <> 0 -> Forall2 GM w w' -> Forall2 (gauss_moved q t a' b') r r' -> same_outcome (Forall2 GM) (gmix_convolve w r) (gmix_convolve w' r').
Proof.
  intros Q W S. unfold gmix_convolve. eapply same_bind; [apply (cen_moved q a' b' r r' Q S)|]. intros [[row col] p] ? [-> P]. cbv zeta. cbn [same_outcome].
  eapply flat_map_units; [exact W|]. intros g g' (G1 & G2 & G3 & G4 & G5 & G6 & _). eapply map_units; [exact S|]. intros h h' (H1 & H2 & H3 & H4 & H5 & H6 & _).
  eapply set_moved; [reflexivity|..].
  - rewrite G1, H1. field; auto.
  - rewrite G2, H2. unfold moved_v. ring.
  - rewrite G3, H3. unfold moved_u. ring.
  - lra.
  - replace (g_icc g' + g_icc h' - (g_irr g' + g_irr h')) with (g_icc g' - g_irr g' + (g_icc h' - g_irr h')) by ring. rewrite G5, H5. unfold turned_1. ring.
  - rewrite Rmult_plus_distr_l, G6, H6. unfold turned_2. ring.
Qed.

(** ** values in pixels *)
Definition nrm_moved (g g' : gauss) : Prop := match g_nrm g, g_nrm g' with
  | Some n, Some n' => n_drr n' + n_dcc n' = n_drr n + n_dcc n /\ n_dcc n' - n_drr n' = turned_1 t (n_dcc n - n_drr n) (2 * n_drc n) /\
      2 * n_drc n' = turned_2 t (n_dcc n - n_drr n) (2 * n_drc n) /\ n_norm n' = n_norm n /\ n_pnorm n' = n_pnorm n
  | _, _ => False end.
Definition mready (g g' : gauss) : Prop := GM g g' /\ nrm_moved g g'.
Lemma set_norm_moved g g' : GM g g' -> same_outcome mready (gauss2d_set_norm g) (gauss2d_set_norm g').
Proof.
  intros G. pose proof G as (E1 & E2 & E3 & E4 & E5 & E6 & E7). unfold gauss2d_set_norm. rewrite E7, E4.
  destruct (Rltb _ _); [reflexivity|]. cbv zeta. destruct (Rleb _ _); [reflexivity|]. cbn [same_outcome]. split; [unfold gauss_moved; cbn; auto 10|].
  unfold nrm_moved. cbn [g_nrm n_drr n_dcc n_drc n_norm n_pnorm]. generalize (1 / g_det g) as i. intros i. split; [rewrite <- !Rmult_plus_distr_r, E4; reflexivity|].
  split; [rewrite <- !Rmult_minus_distr_r, E5; unfold turned_1; ring|]. split; [rewrite <- Rmult_assoc, E6; unfold turned_2; ring|]. split; [reflexivity|]. rewrite E1. ring.
Qed.
Lemma set_norms_moved w w' : Forall2 GM w w' -> same_outcome eq (snd (gmix_set_norms w)) (snd (gmix_set_norms w')) /\
  (snd (gmix_set_norms w) = Ok tt -> Forall2 mready (fst (gmix_set_norms w)) (fst (gmix_set_norms w'))).
Proof.
  induction 1 as [|g g' w w' G _ IH]; cbn [gmix_set_norms]; [split; [reflexivity|constructor]|].
  pose proof (set_norm_moved g g' G) as S. destruct (gauss2d_set_norm g), (gauss2d_set_norm g'); cbn [same_outcome] in S; try contradiction.
  - destruct (gmix_set_norms w), (gmix_set_norms w'). cbn [fst snd] in *. destruct IH as [I1 I2]. split; [exact I1|]. intros E. constructor; auto.
  - subst. split; [reflexivity|discriminate].
Qed.
Lemma chi2_moved n n' dv du dv' du' : n_drr n' + n_dcc n' = n_drr n + n_dcc n -> n_dcc n' - n_drr n' = turned_1 t (n_dcc n - n_drr n) (2 * n_drc n) ->
  2 * n_drc n' = turned_2 t (n_dcc n - n_drr n) (2 * n_drc n) -> dv' = c * dv - s * du -> du' = s * dv + c * du ->
  gauss_chi2 n' dv' du' = gauss_chi2 n dv du.
Proof.
  intros N1 N2 N3 V U. unfold gauss_chi2. pose proof cs1 as H1. unfold turned_1, turned_2 in *. rewrite cos_2, sin_2 in *.
  assert (X : dv' * dv' + du' * du' = dv * dv + du * du) by (subst; nsatz).
  assert (Y : (n_dcc n' - n_drr n') * (dv' * dv' - du' * du') - 2 * (2 * n_drc n') * (dv' * du') = (n_dcc n - n_drr n) * (dv * dv - du * du) - 2 * (2 * n_drc n) * (dv * du)).
  { rewrite N2, N3. subst. nsatz. }
  replace (n_dcc n' * dv' * dv' + n_drr n' * du' * du' - 2 * n_drc n' * dv' * du') with
    (/ 2 * ((n_drr n' + n_dcc n') * (dv' * dv' + du' * du') + ((n_dcc n' - n_drr n') * (dv' * dv' - du' * du') - 2 * (2 * n_drc n') * (dv' * du')))) by field.
  rewrite N1, X, Y. field.
Qed.
Lemma offset_moved v u r l : moved_v t a v u - moved_v t a r l = c * (v - r) - s * (u - l) /\ moved_u t b v u - moved_u t b r l = s * (v - r) + c * (u - l).
Proof. unfold moved_v, moved_u. split; ring. Qed.
Lemma eval_moved w w' v u ar : Forall2 mready w w' -> gmix_eval_pixel_fast w' (moved_v t a v u) (moved_u t b v u) ar = gmix_eval_pixel_fast w v u ar.
Proof.
  intros H. unfold gmix_eval_pixel_fast. generalize 0. induction H as [|g g' w w' R _ IH]; intros x; cbn [foldM]; [reflexivity|].
  assert (E : gauss2d_eval_pixel_fast g' (moved_v t a v u) (moved_u t b v u) ar = gauss2d_eval_pixel_fast g v u ar).
  { destruct R as ((_ & E2 & E3 & _) & N). unfold gauss2d_eval_pixel_fast, nrm_moved in *. destruct (g_nrm g) as [n|], (g_nrm g') as [n'|]; try contradiction.
    destruct N as (N1 & N2 & N3 & N4 & N5). cbv zeta. rewrite E2, E3. destruct (offset_moved v u (g_row g) (g_col g)) as [O1 O2]. rewrite (chi2_moved n n' _ _ _ _ N1 N2 N3 O1 O2), N5. reflexivity. }
  rewrite E. destruct (gauss2d_eval_pixel_fast g v u ar); cbn [bind]; [apply IH|reflexivity].
Qed.
Lemma eval_moved_full w w' v u ar : Forall2 mready w w' -> gmix_eval_pixel w' (moved_v t a v u) (moved_u t b v u) ar = gmix_eval_pixel w v u ar.
Proof.
  intros H. unfold gmix_eval_pixel. generalize (Some 0). induction H as [|g g' w w' R _ IH]; intros x; cbn [fold_left]; [reflexivity|]. rewrite IH. f_equal.
  destruct R as ((_ & E2 & E3 & _) & N). unfold gauss2d_eval_pixel, nrm_moved in *. destruct (g_nrm g) as [n|], (g_nrm g') as [n'|]; try contradiction.
  destruct N as (N1 & N2 & N3 & N4 & N5). cbv zeta. rewrite E2, E3. destruct (offset_moved v u (g_row g) (g_col g)) as [O1 O2]. rewrite (chi2_moved n n' _ _ _ _ N1 N2 N3 O1 O2), N5. reflexivity.
Qed.
End M.
