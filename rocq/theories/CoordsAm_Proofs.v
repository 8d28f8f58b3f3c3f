From Verif Require Import Base XReal Pixels_Model Jacobian_Model Moments_Model GMix_Model Render_Model WSums_Model WSums_Proofs Flags_Model MomResult_Model GMixObj_Model Admom_Model
  Units_Spec Units_Proofs Coords_Spec Coords_Proofs CoordsGM_Proofs.
Local Open Scope R_scope.

Lemma low_pos : 0 < GMIX_LOW_DETVAL. Proof. unfold GMIX_LOW_DETVAL. apply Rinv_0_lt_compat, pow_lt. lra. Qed.

Section Am.
Variables a f : R.
Hypothesis A : a <> 0.
Hypothesis FF : f * f = 1.
Variables px px' : list (pixel R).
Hypothesis P : pix_coords a f px px'.
Notation A2 := (a2 a A).

Lemma am_factor0 i : (i < 7)%nat -> am_factor a f i <> 0.
Proof.
  intros H. assert (F0 := f0 f FF). assert (X := A2). assert (a ^ 2 <> 0) by lra. assert (f * a <> 0) by (apply Rmult_integral_contrapositive; auto).
  assert (f * a ^ 2 <> 0) by (apply Rmult_integral_contrapositive; auto).
  unfold am_factor. do 7 (destruct i as [|i]; [cbn [nth]; assumption || lra|]). lia.
Qed.

Definition nrm_coords (g g' : gauss) : Prop := match g_nrm g, g_nrm g' with
  | Some n, Some n' => n_drr n' = n_drr n / a ^ 2 /\ n_drc n' = f * n_drc n / a ^ 2 /\ n_dcc n' = n_dcc n / a ^ 2 /\ n_norm n' = n_norm n / a ^ 2 /\ n_pnorm n' = n_pnorm n / a ^ 2
  | _, _ => False end.
Definition ready (g g' : gauss) : Prop := gauss_coords a f g g' /\ nrm_coords g g' /\ GMIX_LOW_DETVAL < g_irr g + g_icc g /\ GMIX_LOW_DETVAL < g_irr g' + g_icc g'.

Lemma set_norm_coords g g' : gauss_coords a f g g' ->
  gauss2d_set_norm g = Raise GMixRangeError \/ gauss2d_set_norm g' = Raise GMixRangeError \/
  exists h h', gauss2d_set_norm g = Ok h /\ gauss2d_set_norm g' = Ok h' /\ ready h h'.
Proof.
  intros G. pose proof G as (E1 & E2 & E3 & E4 & E5 & E6 & E7). unfold gauss2d_set_norm.
  destruct (Rltb_spec (g_det g) GMIX_LOW_DETVAL) as [|D]; [left; reflexivity|]. cbv zeta. destruct (Rleb_spec (g_irr g + g_icc g) GMIX_LOW_DETVAL) as [|T]; [left; reflexivity|]. right.
  destruct (Rltb_spec (g_det g') GMIX_LOW_DETVAL) as [|D']; [left; reflexivity|]. destruct (Rleb_spec (g_irr g' + g_icc g') GMIX_LOW_DETVAL) as [|T']; [left; reflexivity|]. right.
  do 2 eexists. split; [reflexivity|]. split; [reflexivity|]. split; [unfold gauss_coords; cbn; auto 10|]. cbn. split; [|lra].
  unfold nrm_coords. cbn. pose proof low_pos as L. assert (DP : 0 < g_det g) by lra. pose proof A2 as A2'.
  assert (SQ : sqrt (g_det g') = a ^ 2 * sqrt (g_det g)).
  { rewrite E7. replace (a ^ 4) with (a ^ 2 * a ^ 2) by ring. rewrite sqrt_mult by nra. rewrite sqrt_square by lra. reflexivity. }
  assert (SP := sqrt_lt_R0 _ DP). assert (PP := PI_RGT_0).
  rewrite SQ, E7, E4, E5, E6, E1. repeat split; field; repeat split; try lra; try exact A.
Qed.
Lemma set_norms_coords w w' : Forall2 (gauss_coords a f) w w' ->
  snd (gmix_set_norms w) = Raise GMixRangeError \/ snd (gmix_set_norms w') = Raise GMixRangeError \/
  exists v v', gmix_set_norms w = (v, Ok tt) /\ gmix_set_norms w' = (v', Ok tt) /\ Forall2 ready v v'.
Proof.
  induction 1 as [|g g' w w' G _ IH]; cbn [gmix_set_norms]. { right; right. exists [], []. auto. }
  destruct (set_norm_coords g g' G) as [E|[E|(h & h' & E & E' & R)]].
  - left. rewrite E. reflexivity.
  - right; left. rewrite E. reflexivity.
  - rewrite E, E'. destruct IH as [I|[I|(v & v' & I & I' & V)]].
    + left. destruct (gmix_set_norms w). exact I.
    + right; left. destruct (gmix_set_norms w'). exact I.
    + right; right. rewrite I, I'. exists (h :: v), (h' :: v'). split; [reflexivity|]. split; [reflexivity|]. constructor; assumption.
Qed.
Lemma set_norms_cons g w : exists h v, fst (gmix_set_norms (g :: w)) = h :: v.
Proof. cbn [gmix_set_norms]. destruct (gauss2d_set_norm g) as [h|]; [|cbn; eauto]. destruct (gmix_set_norms w). cbn. eauto. Qed.

Lemma chi2_coords g g' n n' v u v' u' : g_row g' = a * g_row g -> g_col g' = f * a * g_col g -> n_drr n' = n_drr n / a ^ 2 -> n_drc n' = f * n_drc n / a ^ 2 -> n_dcc n' = n_dcc n / a ^ 2 ->
  v' = a * v -> u' = f * a * u -> gauss_chi2 n' (v' - g_row g') (u' - g_col g') = gauss_chi2 n (v - g_row g) (u - g_col g).
Proof.
  intros E2 E3 N1 N2 N3 V U. unfold gauss_chi2. rewrite E2, E3, N1, N2, N3, V, U.
  transitivity (n_dcc n * (v - g_row g) * (v - g_row g) + (f * f) * (n_drr n * (u - g_col g) * (u - g_col g)) - 2 * ((f * f) * n_drc n) * (v - g_row g) * (u - g_col g)); [field; exact A|rewrite FF; ring].
Qed.
Lemma eval_coords w w' v u v' u' ar ar' : Forall2 ready w w' -> v' = a * v -> u' = f * a * u -> ar' = a ^ 2 * ar -> gmix_eval_pixel_fast w' v' u' ar' = gmix_eval_pixel_fast w v u ar.
Proof.
  intros H V U AR. unfold gmix_eval_pixel_fast. generalize 0. induction H as [|g g' w w' R _ IH]; intros x; cbn [foldM]; [reflexivity|].
  assert (E : gauss2d_eval_pixel_fast g' v' u' ar' = gauss2d_eval_pixel_fast g v u ar).
  { destruct R as ((E1 & E2 & E3 & _) & N & _). unfold gauss2d_eval_pixel_fast, nrm_coords in *. destruct (g_nrm g) as [n|], (g_nrm g') as [n'|]; try contradiction.
    destruct N as (N1 & N2 & N3 & N4 & N5). cbv zeta. rewrite (chi2_coords g g' n n' v u v' u' E2 E3 N1 N2 N3 V U).
    destruct (_ && _)%bool; [|reflexivity]. destruct (FastExp_Model.fexp _); cbn [bind]; [|reflexivity]. f_equal. rewrite N5, AR. field. exact A. }
  rewrite E. destruct (gauss2d_eval_pixel_fast g v u ar); cbn [bind]; [apply IH|reflexivity].
Qed.

Lemma zero_coords : coords_sums a f wsums_zero wsums_zero.
Proof. repeat split; intros; cbn; ring. Qed.
Lemma censums_coords w w' s s' : Forall2 ready w w' -> coords_sums a f s s' ->
  same_outcome (coords_sums a f) (foldM (censums_body w) px s) (foldM (censums_body w') px' s').
Proof.
  intros W. apply same_foldM with (1 := P). clear s s'. intros s s' p p' (B1 & B2 & C & D) (V & U & AR & X & _).
  unfold censums_body. rewrite (eval_coords w w' (px_v p) (px_u p) _ _ (px_area p) _ W V U AR), X.
  destruct (gmix_eval_pixel_fast _ _ _ _) as [y|e]; cbn [bind]; [|reflexivity]. cbn [same_outcome].
  unfold coords_sums; cbn [ws_npix ws_wsum ws_sums ws_cov]. rewrite B1, B2. split; [reflexivity|]. split; [reflexivity|]. split; [|exact D].
  intros i Hi. unfold fset. do 7 (destruct i as [|i]; [cbn [Nat.eqb]; rewrite C by lia; unfold am_factor; cbn [nth]; rewrite ?V, ?U; ring|]). lia.
Qed.
Lemma F7_coords v u vm um chi i : (i < 7)%nat -> F7 (a * v) (f * a * u) (a * vm) (f * a * um) chi i = am_factor a f i * F7 v u vm um chi i.
Proof.
  intros Hi. assert (E1 : f * a * um * (f * a * um) = a ^ 2 * (um * um)) by (transitivity ((f * f) * (a ^ 2 * (um * um))); [ring|rewrite FF; ring]).
  unfold F7. rewrite E1. unfold fset. do 7 (destruct i as [|i]; [cbn [Nat.eqb]; unfold am_factor; cbn [nth]; ring|]). lia.
Qed.
Lemma momsums_coords w w' g g' s s' : Forall2 ready w w' -> ready g g' -> coords_sums a f s s' ->
  same_outcome (coords_sums a f) (foldM (momsums_body w g) px s) (foldM (momsums_body w' g') px' s').
Proof.
  intros W G. apply same_foldM with (1 := P). clear s s'. intros s s' p p' (B1 & B2 & C & D) (V & U & AR & X & I).
  unfold momsums_body. rewrite (eval_coords w w' (px_v p) (px_u p) _ _ (px_area p) _ W V U AR), X, I.
  destruct (gmix_eval_pixel_fast _ _ _ _) as [y|e]; cbn [bind]; [|reflexivity].
  destruct (Reqb _ 0); [reflexivity|]. destruct G as ((E1 & E2 & E3 & _) & N & _). unfold nrm_coords in N. destruct (g_nrm g) as [n|], (g_nrm g') as [n'|]; try contradiction.
  destruct N as (N1 & N2 & N3 & N4 & N5). cbn [same_outcome]. cbv zeta.
  pose proof (chi2_coords g g' n n' _ _ _ _ E2 E3 N1 N2 N3 V U) as CH. unfold gauss_chi2 in CH. rewrite CH.
  rewrite V, U, E2, E3. replace (a * px_v p - a * g_row g) with (a * (px_v p - g_row g)) by ring. replace (f * a * px_u p - f * a * g_col g) with (f * a * (px_u p - g_col g)) by ring.
  set (F := F7 (px_v p) (px_u p) _ _ _). set (F' := F7 (a * px_v p) _ _ _ _).
  assert (HF : forall i, (i < 7)%nat -> F' i = am_factor a f i * F i) by (intros; apply F7_coords; assumption). clearbody F F'.
  match goal with |- coords_sums a f (accumulate 7 _ ?x ?y ?z ?t s) _ =>
    destruct (accumulate_spec 7 F x y z t s) as (K1 & K2 & K3 & K4); destruct (accumulate_spec 7 F' x y z t s') as (L1 & L2 & L3 & L4);
    generalize dependent (accumulate 7 F x y z t s); generalize dependent (accumulate 7 F' x y z t s') end.
  intros r' L1 L2 L3 L4 r K1 K2 K3 K4.
  unfold coords_sums. rewrite K1, K2, L1, L2, B1, B2. split; [reflexivity|]. split; [reflexivity|]. split.
  - intros i Hi. rewrite K3, L3, C, HF by exact Hi. ring.
  - intros i k Hi Hk. rewrite K4, L4, D, !HF by assumption. ring.
Qed.

Lemma deweight_coords g g' Irr Irc Icc : gauss_coords a f g g' ->
  deweight_moments g Irr Irc Icc = None \/ deweight_moments g' (a ^ 2 * Irr) (f * a ^ 2 * Irc) (a ^ 2 * Icc) = None \/
  exists h h', deweight_moments g Irr Irc Icc = Some h /\ deweight_moments g' (a ^ 2 * Irr) (f * a ^ 2 * Irc) (a ^ 2 * Icc) = Some h' /\ gauss_coords a f h h'.
Proof.
  intros (E1 & E2 & E3 & E4 & E5 & E6 & E7). unfold deweight_moments. cbv zeta. rewrite E4, E5, E6.
  pose proof low_pos as L. pose proof A2 as A2'.
  assert (DT : forall x y z, a ^ 2 * x * (a ^ 2 * y) - f * a ^ 2 * z * (f * a ^ 2 * z) = a ^ 4 * (x * y - z * z)).
  { intros. transitivity (a ^ 4 * (x * y) - (f * f) * (a ^ 4 * (z * z))); [ring|rewrite FF; ring]. }
  rewrite !DT. set (dm := Irr * Icc - Irc * Irc). set (dw := g_irr g * g_icc g - g_irc g * g_irc g).
  destruct (Rleb_spec dm GMIX_LOW_DETVAL) as [|Pm]; [left; reflexivity|]. destruct (Rleb_spec dw GMIX_LOW_DETVAL) as [|Pw]; [left; reflexivity|].
  set (Nrr := Icc * (1 / dm) - g_icc g * (1 / dw)). set (Ncc := Irr * (1 / dm) - g_irr g * (1 / dw)). set (Nrc := - Irc * (1 / dm) + g_irc g * (1 / dw)).
  destruct (Rleb_spec (Nrr * Ncc - Nrc * Nrc) GMIX_LOW_DETVAL) as [|Pn]; [left; reflexivity|]. right.
  destruct (Rleb (a ^ 4 * dm) _); [left; reflexivity|]. destruct (Rleb (a ^ 4 * dw) _); [left; reflexivity|].
  assert (M1 : a ^ 2 * Icc * (1 / (a ^ 4 * dm)) - a ^ 2 * g_icc g * (1 / (a ^ 4 * dw)) = / a ^ 2 * Nrr) by (unfold Nrr; field; repeat split; lra || exact A).
  assert (M2 : a ^ 2 * Irr * (1 / (a ^ 4 * dm)) - a ^ 2 * g_irr g * (1 / (a ^ 4 * dw)) = / a ^ 2 * Ncc) by (unfold Ncc; field; repeat split; lra || exact A).
  assert (M3 : - (f * a ^ 2 * Irc) * (1 / (a ^ 4 * dm)) + f * a ^ 2 * g_irc g * (1 / (a ^ 4 * dw)) = f * / a ^ 2 * Nrc) by (unfold Nrc; field; repeat split; lra || exact A).
  rewrite M1, M2, M3. set (dn := Nrr * Ncc - Nrc * Nrc) in *.
  assert (DN : / a ^ 2 * Nrr * (/ a ^ 2 * Ncc) - f * / a ^ 2 * Nrc * (f * / a ^ 2 * Nrc) = dn / a ^ 4).
  { transitivity ((Nrr * Ncc - (f * f) * (Nrc * Nrc)) / a ^ 4); [field; exact A|rewrite FF; unfold dn; f_equal; ring]. }
  rewrite DN. destruct (Rleb (dn / a ^ 4) _); [left; reflexivity|]. right.
  do 2 eexists. split; [reflexivity|]. split; [reflexivity|]. unfold gauss_coords; cbn. rewrite E1, E2, E3. assert (dn <> 0) by lra.
  repeat (split; [reflexivity|]). split; [field; auto|]. split; [field; auto|]. split; [field; auto|].
  transitivity (a ^ 4 * (Ncc * (1 / dn) * (Nrr * (1 / dn)) - (f * f) * (- Nrc * (1 / dn) * (- Nrc * (1 / dn))))); [field; auto|rewrite FF; ring].
Qed.

Definition rec_coords (r r' : am_rec) : Prop :=
  ar_flags r' = ar_flags r /\ ar_numiter r' = ar_numiter r /\ ar_rho4 r' = ar_rho4 r /\ coords_sums a f (ar_ws r) (ar_ws r') /\
  List.length (ar_pars r') = List.length (ar_pars r) /\ (forall i, nth i (ar_pars r') NaN = times (am_factor a f i) (nth i (ar_pars r) NaN)).
Definition old_coords (o o' : option (R * R * R)) : Prop := match o, o' with
  | Some (e1, e2, T), Some (e1', e2', T') => e1' = e1 /\ e2' = f * e2 /\ T' = a ^ 2 * T /\ T <> 0 | None, None => True | _, _ => False end.
Definition state_coords (s s' : am_state) : Prop :=
  Forall2 (gauss_coords a f) (as_wt s) (as_wt s') /\ old_coords (as_old s) (as_old s') /\ rec_coords (as_rec s) (as_rec s').
(** what a converged record needs *)
Definition good_end (s s' : am_state) : Prop :=
  match as_wt s, as_wt s' with g :: _, g' :: _ => nrm_coords g g' | _, _ => False end /\
  xltb (Fin GMIX_LOW_DETVAL) (nth 4 (ar_pars (as_rec s)) NaN) = true /\ xltb (Fin GMIX_LOW_DETVAL) (nth 4 (ar_pars (as_rec s')) NaN) = true /\
  (exists x2 x3, nth 2 (ar_pars (as_rec s)) NaN = Fin x2 /\ nth 3 (ar_pars (as_rec s)) NaN = Fin x3).
Definition small (x : am_state) (stopped : bool) (e : option exn) : Prop :=
  as_wt x <> [] /\ (e = Some GMixRangeError \/ stopped = true /\ e = None /\ ar_flags (as_rec x) = LOW_DET).
Definition step_small (x : am_state * res bool) : Prop := match x with (s, Ok b) => small s b None | (s, Raise e) => small s true (Some e) end.
Definition step_coords (x x' : am_state * res bool) : Prop :=
  state_coords (fst x) (fst x') /\ snd x' = snd x /\ (snd x = Ok true -> ar_flags (as_rec (fst x)) <> 0%Z \/ good_end (fst x) (fst x')).

Lemma stop_coords w w' r r' old old' fl : fl <> 0%Z -> Forall2 (gauss_coords a f) w w' -> old_coords old old' -> rec_coords r r' -> step_coords (stop_with w r old fl) (stop_with w' r' old' fl).
Proof.
  intros Z W O (R1 & R2 & R3 & R4 & R5 & R6). unfold step_coords, state_coords, rec_coords, stop_with; cbn. auto 20.
Qed.
Lemma with_ws_coords r r' w w' : rec_coords r r' -> coords_sums a f w w' -> rec_coords (with_ws r w) (with_ws r' w').
Proof.
  intros (R1 & R2 & R3 & R4 & R5 & R6) H. unfold rec_coords, with_ws; cbn -[nth]. repeat (split; [assumption || reflexivity|]).
  intros i. change [NaN; NaN; NaN; NaN; NaN; NaN] with (repeat NaN 6). assert (E : nth i (repeat NaN 6) NaN = NaN) by (do 7 (destruct i as [|i]; [reflexivity|]); destruct i; reflexivity).
  rewrite E. reflexivity.
Qed.
Lemma ready_forget w w' : Forall2 ready w w' -> Forall2 (gauss_coords a f) w w'.
Proof. induction 1 as [|g g' w w' [H _] _ IH]; constructor; assumption. Qed.

Lemma iter_coords c row col s s' : state_coords s s' ->
  let x := am_iter c row col px s in let x' := am_iter (coords_conf a c) (a * row) (f * a * col) px' s' in
  step_small x \/ step_small x' \/ step_coords x x'.
Proof.
  intros HS. pose proof HS as (W & O & R). cbv zeta. unfold am_iter. cbn [coords_conf ac_shiftmax ac_etol ac_Ttol ac_cenonly].
  pose proof A2 as A2'. pose proof (Rabs_pos_lt a A) as AP.
  destruct (as_wt s) as [|g0 w0], (as_wt s') as [|g0' w0']; try (inversion W; fail).
  { right; right. split; [exact HS|]. split; [reflexivity|discriminate]. }
  destruct (Rltb (g_det g0) GMIX_LOW_DETVAL). { left. cbn. unfold small; cbn. split; [discriminate|]. right; auto. }
  destruct (Rltb (g_det g0') GMIX_LOW_DETVAL). { right; left. cbn. unfold small; cbn. split; [discriminate|]. right; auto. }
  destruct (set_norms_coords _ _ W) as [E|[E|(v & v' & E & E' & V)]].
  { left. destruct (set_norms_cons g0 w0) as (h & v & EC). destruct (gmix_set_norms (g0 :: w0)) as [? ?]. cbn [fst snd] in E, EC. subst. cbn. unfold small; cbn. split; [discriminate|left; reflexivity]. }
  { right; left. destruct (set_norms_cons g0' w0') as (h & v & EC). destruct (gmix_set_norms (g0' :: w0')) as [? ?]. cbn [fst snd] in E, EC. subst. cbn. unfold small; cbn. split; [discriminate|left; reflexivity]. }
  rewrite E, E'. destruct V as [|g1 g1' rest rest' G1 VR].
  { right; right. split; [exact HS|]. split; [reflexivity|discriminate]. }
  pose proof (ready_forget _ _ VR) as FR. assert (V : Forall2 ready (g1 :: rest) (g1' :: rest')) by (constructor; assumption).
  pose proof (ready_forget _ _ V) as VF.
  pose proof (censums_coords _ _ _ _ V zero_coords) as HC.
  destruct (foldM (censums_body (g1 :: rest)) px wsums_zero) as [w|e], (foldM (censums_body (g1' :: rest')) px' wsums_zero) as [w'|e']; cbn [same_outcome] in HC; try contradiction.
  2:{ right; right. subst e'. split; [split; [exact VF|split; [exact O|exact R]]|]. split; [reflexivity|discriminate]. }
  pose proof (with_ws_coords _ _ _ _ R HC) as R1. pose proof HC as (_ & _ & C & _).
  assert (C5 : ws_sums w' 5 = ws_sums w 5) by (rewrite C by lia; unfold am_factor; cbn [nth]; ring). rewrite C5.
  destruct (Rleb_spec (ws_sums w 5) 0) as [|P5]. { right; right. apply stop_coords; solve [discriminate|assumption]. }
  assert (C0 : ws_sums w' 0 / ws_sums w 5 = a * (ws_sums w 0 / ws_sums w 5)) by (rewrite C by lia; unfold am_factor; cbn [nth]; field; lra).
  assert (C1 : ws_sums w' 1 / ws_sums w 5 = f * a * (ws_sums w 1 / ws_sums w 5)) by (rewrite C by lia; unfold am_factor; cbn [nth]; field; lra).
  rewrite C0, C1. set (r0 := ws_sums w 0 / ws_sums w 5). set (c0 := ws_sums w 1 / ws_sums w 5).
  assert (G2 : ready (set_cen0 g1 r0 c0) (set_cen0 g1' (a * r0) (f * a * c0))).
  { destruct G1 as ((E1 & E2 & E3 & E4 & E5 & E6 & E7) & N & L1 & L2). split; [unfold gauss_coords; cbn; auto 10|]. unfold nrm_coords in *; cbn. auto. }
  set (g2 := set_cen0 g1 r0 c0) in *. set (g2' := set_cen0 g1' (a * r0) (f * a * c0)) in *.
  assert (GR : g_row g2' = a * g_row g2 /\ g_col g2' = f * a * g_col g2) by (split; reflexivity). destruct GR as [GR GC].
  assert (V2 : Forall2 ready (g2 :: rest) (g2' :: rest')) by (constructor; assumption). pose proof (ready_forget _ _ V2) as VF2.
  assert (SH : (Rltb (Rabs a * ac_shiftmax c) (Rabs (g_row g2' - a * row)) || Rltb (Rabs a * ac_shiftmax c) (Rabs (g_col g2' - f * a * col)) =
               Rltb (ac_shiftmax c) (Rabs (g_row g2 - row)) || Rltb (ac_shiftmax c) (Rabs (g_col g2 - col)))%bool).
  { rewrite GR, GC. replace (a * g_row g2 - a * row) with (a * (g_row g2 - row)) by ring. replace (f * a * g_col g2 - f * a * col) with (f * (a * (g_col g2 - col))) by ring.
    rewrite !Rabs_mult, (fabs f FF), Rmult_1_l.
    assert (SC : forall x y, Rltb (Rabs a * x) (Rabs a * y) = Rltb x y) by (intros x y; destruct (Rltb_spec x y); [apply Rltb_t|apply Rltb_f]; nra).
    rewrite !SC. reflexivity. }
  rewrite SH. clear SH.
  destruct (_ || _)%bool. { right; right. apply stop_coords; solve [discriminate|assumption]. }
  pose proof (momsums_coords _ _ _ _ _ _ V2 G2 zero_coords) as HM.
  destruct (foldM (momsums_body (g2 :: rest) g2) px wsums_zero) as [v|e], (foldM (momsums_body (g2' :: rest') g2') px' wsums_zero) as [v'|e']; cbn [same_outcome] in HM; try contradiction.
  2:{ right; right. subst e'. split; [split; [exact VF2|split; [exact O|exact R1]]|]. split; [reflexivity|discriminate]. }
  pose proof (with_ws_coords _ _ _ _ R1 HM) as R2. pose proof HM as (_ & _ & M & _).
  assert (M5 : ws_sums v' 5 = ws_sums v 5) by (rewrite M by lia; unfold am_factor; cbn [nth]; ring). rewrite M5.
  destruct (Rleb_spec (ws_sums v 5) 0) as [|Q5]. { right; right. apply stop_coords; solve [discriminate|assumption]. }
  assert (M2 : ws_sums v' 2 * (1 / ws_sums v 5) = a ^ 2 * (ws_sums v 2 * (1 / ws_sums v 5))) by (rewrite M by lia; unfold am_factor; cbn [nth]; ring).
  assert (M3 : ws_sums v' 3 * (1 / ws_sums v 5) = f * a ^ 2 * (ws_sums v 3 * (1 / ws_sums v 5))) by (rewrite M by lia; unfold am_factor; cbn [nth]; ring).
  assert (M4 : ws_sums v' 4 * (1 / ws_sums v 5) = a ^ 2 * (ws_sums v 4 * (1 / ws_sums v 5))) by (rewrite M by lia; unfold am_factor; cbn [nth]; ring).
  assert (M6 : ws_sums v' 6 / ws_sums v 5 = ws_sums v 6 / ws_sums v 5) by (rewrite M by lia; unfold am_factor; cbn [nth]; f_equal; ring).
  rewrite M2, M3, M4, M6. set (m1 := ws_sums v 2 * (1 / ws_sums v 5)). set (m2 := ws_sums v 3 * (1 / ws_sums v 5)). set (T := ws_sums v 4 * (1 / ws_sums v 5)).
  rewrite (Rleb0_scale (a ^ 2) A2'). destruct (Rleb_spec T 0) as [|PT]. { right; right. apply stop_coords; solve [discriminate|assumption]. }
  assert (EE1 : (5 / 10 * (a ^ 2 * T + a ^ 2 * m1) - 5 / 10 * (a ^ 2 * T - a ^ 2 * m1)) / (a ^ 2 * T) = (5 / 10 * (T + m1) - 5 / 10 * (T - m1)) / T) by (field; split; [lra|exact A]).
  assert (EE2 : 2 * (5 / 10 * (f * a ^ 2 * m2)) / (a ^ 2 * T) = f * (2 * (5 / 10 * m2) / T)) by (field; split; [lra|exact A]).
  rewrite EE1, EE2. set (e1 := (5 / 10 * (T + m1) - _) / T). set (e2 := 2 * (5 / 10 * m2) / T).
  assert (CV : (match as_old s' with None => false | Some (e1old, e2old, Told) =>
       Rltb (Rabs (e1 - e1old)) (ac_etol c) && Rltb (Rabs (f * e2 - e2old)) (ac_etol c) && Rltb (Rabs (a ^ 2 * T / Told - 1)) (ac_Ttol c) end =
     match as_old s with None => false | Some (e1old, e2old, Told) =>
       Rltb (Rabs (e1 - e1old)) (ac_etol c) && Rltb (Rabs (e2 - e2old)) (ac_etol c) && Rltb (Rabs (T / Told - 1)) (ac_Ttol c) end)%bool).
  { destruct (as_old s) as [[[o1 o2] o3]|], (as_old s') as [[[p1 p2] p3]|]; try contradiction; [|reflexivity].
    destruct O as (-> & -> & -> & N3). replace (f * e2 - f * o2) with (f * (e2 - o2)) by ring. rewrite Rabs_mult, (fabs f FF), Rmult_1_l.
    replace (a ^ 2 * T / (a ^ 2 * o3)) with (T / o3) by (field; auto). reflexivity. }
  rewrite CV. clear CV.
  assert (ON : old_coords (Some (e1, e2, T)) (Some (e1, f * e2, a ^ 2 * T))) by (cbn; repeat split; lra).
  match goal with |- context [if ?b then _ else _] => destruct b end.
  { right; right. destruct R2 as (X1 & X2 & _ & _ & _ & _). pose proof G2 as ((E1 & _ & _ & E4 & E5 & E6 & _) & N & L1 & L2).
    split; [split; [exact VF2|split; [exact O|]]|].
    { unfold rec_coords; cbn [fst as_rec ar_flags ar_numiter ar_rho4 ar_ws ar_pars]. cbn in X1, X2. split; [exact X1|]. split; [exact X2|]. split; [reflexivity|]. split; [exact HM|]. split; [reflexivity|].
      intros i. rewrite GR, GC, E4, E5, E6. cbn [map]. unfold am_factor.
      do 6 (destruct i as [|i]; [cbn [nth]; rewrite times_fin; f_equal; ring|]). destruct i as [|i]; [reflexivity|]. destruct i; reflexivity. }
    split; [reflexivity|]. intros _. right. unfold good_end. cbn [fst as_wt as_rec ar_pars map nth xltb].
    split; [exact N|]. rewrite !Rltb_t by (rewrite Rplus_comm; assumption). split; [reflexivity|]. split; [reflexivity|]. eauto. }
  destruct (ac_cenonly c). { right; right. split; [split; [exact VF2|split; [exact ON|exact R2]]|]. split; [reflexivity|discriminate]. }
  destruct (deweight_coords g2 g2' (5 / 10 * (T - m1)) (5 / 10 * m2) (5 / 10 * (T + m1)) (proj1 G2)) as [X|X].
  { left. rewrite X. cbn. unfold small; cbn. split; [discriminate|right; auto]. }
  replace (5 / 10 * (a ^ 2 * T - a ^ 2 * m1)) with (a ^ 2 * (5 / 10 * (T - m1))) by ring.
  replace (5 / 10 * (f * a ^ 2 * m2)) with (f * a ^ 2 * (5 / 10 * m2)) by ring.
  replace (5 / 10 * (a ^ 2 * T + a ^ 2 * m1)) with (a ^ 2 * (5 / 10 * (T + m1))) by ring.
  destruct X as [X|(h & h' & X & X' & HH)].
  { right; left. rewrite X. cbn. unfold small; cbn. split; [discriminate|right; auto]. }
  right; right. rewrite X, X'. split; [split; [constructor; assumption|split; [exact ON|exact R2]]|]. split; [reflexivity|discriminate].
Qed.

Definition run_small (y : am_state * res nat) : Prop := match y with (s, Ok _) => small s true None | (s, Raise e) => small s true (Some e) end.
Definition before (y y' : am_state * res nat) : Prop := forall n1 n2, snd y = Ok n1 -> snd y' = Ok n2 -> (n1 <= n2)%nat.
Lemma loop_count c row col p n : forall i s k, snd (am_loop c row col p n i s) = Ok k -> (i <= k)%nat /\ ((0 < n)%nat -> (i < k)%nat).
Proof.
  induction n as [|n IH]; intros i s k; cbn [am_loop]. { intros E. injection E as <-. lia. }
  destruct (am_iter c row col p s) as [s1 [[|]|e]]; cbn [snd]; [| |discriminate]. { intros E. injection E as <-. lia. }
  intros E. apply IH in E. lia.
Qed.
Lemma step_small_true s b : step_small (s, Ok b) -> b = true.
Proof. cbn. intros (_ & [H|(H & _)]); [discriminate|exact H]. Qed.
Lemma loop_coords c row col n : forall i s s', state_coords s s' ->
  let y := am_loop c row col px n i s in let y' := am_loop (coords_conf a c) (a * row) (f * a * col) px' n i s' in
  (run_small y /\ before y y') \/ (run_small y' /\ before y' y) \/
  (state_coords (fst y) (fst y') /\ snd y' = snd y /\
   forall k, snd y = Ok k -> k = (i + n)%nat \/ ar_flags (as_rec (fst y)) <> 0%Z \/ good_end (fst y) (fst y')).
Proof.
  induction n as [|n IH]; intros i s s' H; cbv zeta.
  { cbn [am_loop]. right; right. split; [exact H|]. split; [reflexivity|]. cbn. intros k E. injection E as <-. left; lia. }
  pose proof (iter_coords c row col s s' H) as HI. cbv zeta in HI.
  pose proof (loop_count c row col px (S n) i s) as C1. pose proof (loop_count (coords_conf a c) (a * row) (f * a * col) px' (S n) i s') as C2.
  cbn [am_loop] in C1, C2 |- *.
  destruct (am_iter c row col px s) as [s1 r1], (am_iter (coords_conf a c) (a * row) (f * a * col) px' s') as [s2 r2].
  destruct HI as [S1|[S1|(D1 & D2 & D3)]].
  - left. destruct r1 as [b|e].
    + rewrite (step_small_true _ _ S1) in S1 |- *. split; [exact S1|]. intros n1 n2 E1 E2. cbn in E1. injection E1 as <-. apply C2 in E2. lia.
    + split; [exact S1|]. intros n1 n2 E1. discriminate E1.
  - right; left. destruct r2 as [b|e].
    + rewrite (step_small_true _ _ S1) in S1 |- *. split; [exact S1|]. intros n1 n2 E1 E2. cbn in E1. injection E1 as <-. apply C1 in E2. lia.
    + split; [exact S1|]. intros n1 n2 E1. discriminate E1.
  - cbn [fst snd] in D1, D2, D3. subst r2. destruct r1 as [[|]|e].
    + right; right. split; [exact D1|]. split; [reflexivity|]. intros k _. right. apply D3. reflexivity.
    + specialize (IH (S i) s1 s2 D1). cbv zeta in IH. replace (i + S n)%nat with (S i + n)%nat by lia. exact IH.
    + right; right. split; [exact D1|]. split; [reflexivity|]. cbn. discriminate.
Qed.

Lemma flagged_result r ar nn : ar_flags r <> 0%Z -> exists d, get_result r ar nn = Ok d /\ (d_flags d = ar_flags r \/ d_flags d = Z.lor (ar_flags r) NONPOS_VAR).
Proof.
  intros Z. unfold get_result. cbv zeta. rewrite (proj2 (Z.eqb_neq _ _) Z). cbn [bind]. set (fl := if forallb _ _ then _ else _).
  assert (F0 : (fl =? 0)%Z = false). { apply Z.eqb_neq. unfold fl. destruct (forallb _ _); [exact Z|]. intros E. apply Z.lor_eq_0_iff in E. tauto. }
  rewrite F0. cbn [bind]. eexists. split; [reflexivity|]. cbn [d_flags]. unfold fl. destruct (forallb _ _); auto.
Qed.
Lemma set5_nth_coords (l l' : list xr) x i : List.length l' = List.length l -> (forall i, nth i l' NaN = times (am_factor a f i) (nth i l NaN)) ->
  nth i (set5 l' x) NaN = times (am_factor a f i) (nth i (set5 l x) NaN) \/ i = 5%nat.
Proof.
  intros L H. destruct (Nat.eq_dec i 5) as [|N]; [right; assumption|left]. specialize (H i).
  destruct l as [|a0 [|a1 [|a2 [|a3 [|a4 [|a5 l]]]]]], l' as [|b0 [|b1 [|b2 [|b3 [|b4 [|b5 l']]]]]]; cbn [List.length] in L; try discriminate L; cbn [set5]; try exact H.
  do 6 (destruct i as [|i]; [exact H || lia|]). exact H.
Qed.
Lemma set5_len (l : list xr) x : List.length (set5 l x) = List.length l.
Proof. destruct l as [|a0 [|a1 [|a2 [|a3 [|a4 [|a5 l]]]]]]; reflexivity. Qed.
Lemma set5_5 (l : list xr) x : nth 5 (set5 l x) NaN = x \/ nth 5 (set5 l x) NaN = NaN.
Proof. destruct l as [|a0 [|a1 [|a2 [|a3 [|a4 [|a5 l]]]]]]; cbn; auto. Qed.
Lemma times_1 x : times 1 x = x.
Proof. rewrite times_cases by lra. destruct x; try reflexivity. f_equal. ring. Qed.

Lemma result_am_coords r r' ar norm norm' : rec_coords r r' ->
  (ar_flags r = 0%Z -> (exists n, norm = Fin n /\ norm' = Fin (n / a ^ 2)) /\
    xltb (Fin GMIX_LOW_DETVAL) (nth 4 (ar_pars r) NaN) = true /\ xltb (Fin GMIX_LOW_DETVAL) (nth 4 (ar_pars r') NaN) = true /\
    exists x2 x3, nth 2 (ar_pars r) NaN = Fin x2 /\ nth 3 (ar_pars r) NaN = Fin x3) ->
  same_outcome (coords_adaptive a f) (get_result r ar norm) (get_result r' (a ^ 2 * ar) norm').
Proof.
  intros (R1 & R2 & R3 & HS & RL & RP) HG. pose proof HS as (WN & W & S & V). pose proof A2 as A2'.
  unfold get_result. cbv zeta. rewrite R1, R2, R3, W.
  set (s := ws_sums (ar_ws r)) in *. set (cv := ws_cov (ar_ws r)) in *.
  assert (S5 : ws_sums (ar_ws r') 5 = s 5%nat) by (rewrite S by lia; unfold am_factor; cbn [nth]; ring).
  assert (V5 : ws_cov (ar_ws r') 5 5 = cv 5%nat 5%nat) by (rewrite V by lia; unfold am_factor; cbn [nth]; ring).
  assert (VG : forall i, (i < 7)%nat -> xgtb (Fin (ws_cov (ar_ws r') i i)) (Fin 0) = xgtb (Fin (cv i i)) (Fin 0)).
  { intros i Hi. rewrite V by assumption. apply Rltb0_scale, Rsqr_pos_lt, am_factor0, Hi. }
  assert (EV : forallb (fun i => xgtb (Fin (ws_cov (ar_ws r') i i)) (Fin 0)) (seq 2 5) = forallb (fun i => xgtb (Fin (cv i i)) (Fin 0)) (seq 2 5)).
  { cbn [seq forallb]. rewrite !VG by lia. reflexivity. }
  rewrite EV. clear EV. rewrite !VG by lia. rewrite V5.
  assert (RE : forall i k, (i < 7)%nat -> (k < 7)%nat ->
    get_ratio_error (Fin (ws_sums (ar_ws r') i)) (Fin (ws_sums (ar_ws r') k)) (Fin (ws_cov (ar_ws r') i i)) (Fin (ws_cov (ar_ws r') k k)) (Fin (ws_cov (ar_ws r') i k)) =
    rmap (times (Rabs (am_factor a f i / am_factor a f k))) (get_ratio_error (Fin (s i)) (Fin (s k)) (Fin (cv i i)) (Fin (cv k k)) (Fin (cv i k)))).
  { intros i k Hi Hk. rewrite !S, !V by assumption. apply ratio_coords; apply am_factor0; assumption. }
  pose proof (RE 4 5 ltac:(lia) ltac:(lia))%nat as Q45. pose proof (RE 6 5 ltac:(lia) ltac:(lia))%nat as Q65. pose proof (RE 2 4 ltac:(lia) ltac:(lia))%nat as Q24. pose proof (RE 3 4 ltac:(lia) ltac:(lia))%nat as Q34. clear RE.
  rewrite V5 in Q45, Q65. rewrite Q45, Q65, Q24, Q34. rewrite S5.
  assert (K45 : Rabs (am_factor a f 4 / am_factor a f 5) = a ^ 2) by (unfold am_factor; cbn [nth]; replace (a ^ 2 / 1) with (a ^ 2) by field; apply Rabs_right; lra).
  assert (K65 : Rabs (am_factor a f 6 / am_factor a f 5) = 1) by (unfold am_factor; cbn [nth]; replace (1 / 1) with 1 by field; apply Rabs_R1).
  assert (K24 : Rabs (am_factor a f 2 / am_factor a f 4) = 1) by (unfold am_factor; cbn [nth]; replace (a ^ 2 / a ^ 2) with 1 by (field; exact A); apply Rabs_R1).
  assert (K34 : Rabs (am_factor a f 3 / am_factor a f 4) = 1) by (unfold am_factor; cbn [nth]; replace (f * a ^ 2 / a ^ 2) with f by (field; exact A); apply (fabs f FF)).
  rewrite K45, K65, K24, K34. clear Q45 Q65 Q24 Q34 K45 K65 K24 K34.
  assert (RM : forall X, rmap (times 1) X = X) by (intros [y|e]; cbn [rmap bind]; [rewrite times_1|]; reflexivity). rewrite !RM. clear RM.
  assert (S6 : xdiv (Fin (ws_sums (ar_ws r') 6)) (Fin (s 5%nat)) = xdiv (Fin (s 6%nat)) (Fin (s 5%nat))).
  { rewrite S by lia. unfold am_factor; cbn [nth]. fold s. rewrite Rmult_1_l. reflexivity. }
  rewrite S6. clear S6.
  destruct (Z.eqb_spec (ar_flags r) 0) as [Z0|Z0].
  2:{ cbn [bind]. set (fl := if forallb _ _ then _ else _). assert (F0 : (fl =? 0)%Z = false).
      { apply Z.eqb_neq. unfold fl. destruct (forallb _ _); [exact Z0|]. intros E. apply Z.lor_eq_0_iff in E. tauto. }
      rewrite F0. cbn [bind same_outcome]. unfold coords_adaptive; cbn [d_flags d_numiter d_ws d_pars d_flux_flags d_T_flags d_rho4_flags d_flux d_flux_mean d_flux_err d_s2n d_T d_T_err d_rho4 d_rho4_err d_e1 d_e2 d_e1err d_e2err].
      repeat (split; [reflexivity|]). split; [exact HS|]. split; [exact RL|exact RP]. }
  destruct (HG Z0) as ((n & -> & ->) & T1 & T1' & x2 & x3 & X2 & X3). clear HG.
  assert (FN : xmul (xmul (Fin (a ^ 2 * ar)) (Fin (n / a ^ 2))) (Fin (ws_wsum (ar_ws r))) = xmul (xmul (Fin ar) (Fin n)) (Fin (ws_wsum (ar_ws r)))).
  { cbn [xmul]. f_equal. field. exact A. }
  rewrite FN. clear FN.
  set (mean := xdiv (Fin (s 5%nat)) (Fin (ws_wsum (ar_ws r)))). set (fn := xmul _ _).
  rewrite !(set5_small (ar_pars r)), !(set5_small (ar_pars r')) by lia. unfold xnth in *.
  rewrite T1, T1'. assert (P4 := RP 4%nat). assert (P2 := RP 2%nat). assert (P3 := RP 3%nat). unfold am_factor in P2, P3, P4. cbn [nth] in P2, P3, P4.
  set (T := nth 4 (ar_pars r) NaN) in *. rewrite P4, P2, P3.
  assert (T0 : exists t, T = Fin t /\ t <> 0 \/ T = PInf). 
  { unfold xltb in T1. destruct T as [t| | |]; try discriminate; [|exists 0; right; reflexivity]. exists t. left. split; [reflexivity|]. destruct (Rltb_spec GMIX_LOW_DETVAL t); [|discriminate]. pose proof low_pos. lra. }
  assert (TG : xgtb (times (a ^ 2) T) (Fin 0) = xgtb T (Fin 0)) by (apply xgtb_times; exact A2'). rewrite TG. clear TG.
  assert (E1 : xdiv (times (a ^ 2) (nth 2 (ar_pars r) NaN)) (times (a ^ 2) T) = xdiv (nth 2 (ar_pars r) NaN) T) by (apply xdiv_times; exact A2').
  assert (E2 : xdiv (times (f * a ^ 2) (nth 3 (ar_pars r) NaN)) (times (a ^ 2) T) = times f (xdiv (nth 3 (ar_pars r) NaN) T)).
  { rewrite X3, times_fin. destruct T0 as (t & [[E N]|E]); rewrite E.
    - rewrite times_fin. unfold xdiv. rewrite (Reqb_f _ _ N), (Reqb_f (a ^ 2 * t)) by (apply Rmult_integral_contrapositive; lra). rewrite times_fin. f_equal. field. split; [exact N|exact A].
    - rewrite times_cases by exact A2'. cbn [xdiv]. rewrite times_fin. f_equal. ring. }
  rewrite E1, E2. clear E1 E2.
  assert (FIN : forall fl ff tf rf s2n Te Te' r4 r4e e1 e2 e2' e1e e2e fx fxe, Te' = times (a ^ 2) Te -> e2' = times f e2 ->
    same_outcome (coords_adaptive a f)
      (Ok (mkAd fl (ar_numiter r) (ar_ws r) (set5 (ar_pars r) mean) ff tf rf fx mean fxe s2n T Te r4 r4e e1 e2 e1e e2e))
      (Ok (mkAd fl (ar_numiter r) (ar_ws r') (set5 (ar_pars r') mean) ff tf rf fx mean fxe s2n (times (a ^ 2) T) Te' r4 r4e e1 e2' e1e e2e))).
  { intros * -> ->. cbn [same_outcome]. unfold coords_adaptive; cbn [d_flags d_numiter d_ws d_pars d_flux_flags d_T_flags d_rho4_flags d_flux d_flux_mean d_flux_err d_s2n d_T d_T_err d_rho4 d_rho4_err d_e1 d_e2 d_e1err d_e2err].
    repeat (split; [reflexivity|]). split; [exact HS|]. rewrite !set5_len. split; [exact RL|].
    intros i. destruct (set5_nth_coords (ar_pars r) (ar_pars r') mean i RL RP) as [H| ->]; [exact H|]. unfold am_factor; cbn [nth]. rewrite times_1.
    clear -RL. destruct (ar_pars r) as [|a0 [|a1 [|a2 [|a3 [|a4 [|a5 l]]]]]], (ar_pars r') as [|b0 [|b1 [|b2 [|b3 [|b4 [|b5 l']]]]]]; cbn [List.length] in RL; try discriminate RL; reflexivity. }
  assert (GEN : forall (p : xr * xr * xr * Z) (q q1 : res (xr * Z)) (q' : res (xr * xr * Z)) (m m1 : res (xr * xr * xr * xr * Z)),
    same_outcome (fun x x' => x' = (times (a ^ 2) (fst x), snd x)) q q1 ->
    same_outcome (fun x x' => x' = (let '(e1, e2, e1e, e2e, fl) := x in (e1, times f e2, e1e, e2e, fl))) m m1 ->
    same_outcome (coords_adaptive a f)
      (let '(fx, fxe, s2n, ff) := p in
       let* (Te, tf) := q in let* (r4, r4e, rf) := q' in let* (e1, e2, e1e, e2e, fl) := m in
       Ok (mkAd fl (ar_numiter r) (ar_ws r) (set5 (ar_pars r) mean) ff tf rf fx mean fxe s2n T Te r4 r4e e1 e2 e1e e2e))
      (let '(fx, fxe, s2n, ff) := p in
       let* (Te, tf) := q1 in let* (r4, r4e, rf) := q' in let* (e1, e2, e1e, e2e, fl) := m1 in
       Ok (mkAd fl (ar_numiter r) (ar_ws r') (set5 (ar_pars r') mean) ff tf rf fx mean fxe s2n (times (a ^ 2) T) Te r4 r4e e1 e2 e1e e2e))).
  { intros [[[fx fxe] s2n] ff] q q1 q' m m1 Q M. destruct q as [[Te tf]|], q1 as [[Te1 tf1]|]; cbn [same_outcome] in Q; try contradiction; cbn [bind]; [|exact Q].
    cbn [fst snd] in Q. injection Q as -> ->. destruct q' as [[[r4 r4e] rf]|]; cbn [bind]; [|reflexivity].
    destruct m as [[[[[e1 e2] e1e] e2e] fl]|], m1 as [[[[[f1 f2] f1e] f2e] fl1]|]; cbn [same_outcome] in M; try contradiction; cbn [bind]; [|exact M].
    injection M as -> -> -> -> ->. apply FIN; reflexivity. }
  apply GEN.
  - destruct (_ && _)%bool; [|reflexivity]. destruct (xgtb (Fin (s 5%nat)) (Fin 0)); [|reflexivity].
    destruct (get_ratio_error _ _ _ _ _) as [y|e]; cbn [rmap bind same_outcome fst snd]; [|reflexivity]. rewrite xmul_times_r by exact A2'. reflexivity.
  - destruct (forallb _ _); rewrite Z0; cbn [Z.eqb Z.lor NONPOS_VAR].
    + destruct (xgtb (Fin (s 5%nat)) (Fin 0)); [|reflexivity]. destruct (xgtb T (Fin 0)); [|reflexivity].
      destruct (get_ratio_error (Fin (s 2%nat)) _ _ _ _) as [y2|e]; cbn [bind]; [|reflexivity]. destruct (get_ratio_error (Fin (s 3%nat)) _ _ _ _) as [y3|e]; cbn [bind]; [|reflexivity].
      destruct (_ || _)%bool; reflexivity.
    + reflexivity.
Qed.

Variables j j' : jac.
Hypothesis J : jac_coords a f j j'.

(* what am_run does with the outcome of the loop *)
Definition tail (c : am_conf) (ar : R) (y : am_state * res nat) : gmix * res am_dict :=
  let '(wt', r, e) := match snd y with
                      | Raise e => (as_wt (fst y), as_rec (fst y), Raise e)
                      | Ok O => (as_wt (fst y), as_rec (fst y), Raise UnboundLocalError)
                      | Ok (S i) => let r := as_rec (fst y) in (as_wt (fst y), mkAr (if Nat.eqb (S i) (ac_maxiter c) then MAXITER else ar_flags r) (S i) (ar_ws r) (ar_pars r) (ar_rho4 r), Ok tt)
                      end in
  match (match e with
         | Ok _ => Ok r
         | Raise GMixRangeError => Ok (mkAr GMIX_RANGE_ERROR (ar_numiter r) (ar_ws r) (ar_pars r) (ar_rho4 r))
         | Raise e => Raise e
         end) with
  | Raise e => (wt', Raise e)
  | Ok r => (wt', let* n := norm0 wt' in get_result r ar n)
  end.
Lemma run_tail c p jj g w : am_run c (mkAo p jj) (g :: w) = tail c (get_area jj) (am_loop c (g_row g) (g_col g) p (ac_maxiter c) 0 (mkAs (g :: w) am_rec0 None)).
Proof. unfold am_run, admom, tail. cbn [ao_pix ao_jac]. destruct (am_loop _ _ _ _ _ _ _) as [s [[|k]|e]]; reflexivity. Qed.
Lemma loop_top c row col p n : forall i s k, snd (am_loop c row col p n i s) = Ok k -> (k <= i + n)%nat.
Proof.
  induction n as [|n IH]; intros i s k; cbn [am_loop]. { intros E. injection E as <-. lia. }
  destruct (am_iter c row col p s) as [s1 [[|]|e]]; cbn [snd]; [| |discriminate]. { intros E. injection E as <-. lia. }
  intros E. apply IH in E. lia.
Qed.
Lemma norm0_some w : w <> [] -> exists n, norm0 w = Ok n.
Proof. destruct w; [congruence|]. intros _. cbn. eauto. Qed.
Lemma tail_small c ar y : run_small y -> (forall k, snd y = Ok k -> (0 < k)%nat) ->
  exists d, snd (tail c ar y) = Ok d /\ (too_small d \/ exhausted d /\ snd y = Ok (ac_maxiter c)).
Proof.
  destruct y as [s [k|e]]; cbn [run_small]; intros (N & SM) K; destruct (norm0_some _ N) as [n En]; unfold tail; cbn [fst snd].
  - destruct SM as [SM|(_ & _ & SM)]; [discriminate|]. destruct k as [|i]; [specialize (K 0%nat eq_refl); lia|]. cbn [snd]. rewrite En. cbn [bind].
    destruct (Nat.eqb_spec (S i) (ac_maxiter c)) as [EM|EM].
    + edestruct flagged_result as (d & E & F); [|exists d; split; [exact E|]]; [discriminate|]. right. split; [|congruence]. unfold exhausted. cbn [ar_flags] in F. destruct F as [-> | ->]; discriminate.
    + edestruct flagged_result as (d & E & F); [|exists d; split; [exact E|]]; [cbn [ar_flags]; rewrite SM; discriminate|]. left. unfold too_small. cbn [ar_flags] in F. rewrite SM in F. destruct F as [-> | ->]; discriminate.
  - destruct SM as [SM|(_ & SM & _)]; [|discriminate]. injection SM as ->. cbn [snd]. rewrite En. cbn [bind].
    edestruct flagged_result as (d & E & F); [|exists d; split; [exact E|]]; [discriminate|]. left. unfold too_small. cbn [ar_flags] in F. destruct F as [-> | ->]; discriminate.
Qed.
Lemma tail_late c ar y d : (forall k, snd y = Ok k -> k = ac_maxiter c) -> snd (tail c ar y) = Ok d -> d_flags d <> 0%Z.
Proof.
  destruct y as [s [k|e]]; unfold tail; cbn [fst snd]; intros H.
  - specialize (H k eq_refl). subst k. destruct (ac_maxiter c) as [|i]; [discriminate|]. rewrite Nat.eqb_refl. cbn [snd]. destruct (norm0 _) as [n|]; cbn [bind]; [|discriminate].
    edestruct flagged_result as (d' & E & F); [|rewrite E; intros E'; injection E' as <-]; [discriminate|]. cbn [ar_flags] in F. destruct F as [-> | ->]; discriminate.
  - clear H. destruct e; cbn [snd]; try discriminate. destruct (norm0 _) as [n|]; cbn [bind]; [|discriminate].
    edestruct flagged_result as (d' & E & F); [|rewrite E; intros E'; injection E' as <-]; [discriminate|]. cbn [ar_flags] in F. destruct F as [-> | ->]; discriminate.
Qed.
Lemma norm0_coords w w' : Forall2 (gauss_coords a f) w w' -> same_outcome (fun _ _ => True) (norm0 w) (norm0 w').
Proof. intros H. destruct H; cbn; auto. Qed.
Lemma flagged_norm r ar n n' : ar_flags r <> 0%Z -> get_result r ar n = get_result r ar n'.
Proof. intros Z. unfold get_result. cbv zeta. rewrite (proj2 (Z.eqb_neq _ _) Z). reflexivity. Qed.
Lemma tail_coords c y y' : state_coords (fst y) (fst y') -> snd y' = snd y -> 
  (forall k, snd y = Ok k -> k = ac_maxiter c \/ ar_flags (as_rec (fst y)) <> 0%Z \/ good_end (fst y) (fst y')) ->
  let x := tail c (get_area j) y in let x' := tail (coords_conf a c) (get_area j') y' in
  Forall2 (gauss_coords a f) (fst x) (fst x') /\ same_outcome (coords_adaptive a f) (snd x) (snd x').
Proof.
  destruct y as [s r], y' as [s' r']. cbn [fst snd]. intros (W & O & R) -> G. cbv zeta. unfold tail. cbn [fst snd]. rewrite (area_coords a f j j' J).
  pose proof (norm0_coords _ _ W) as N. change (ac_maxiter (coords_conf a c)) with (ac_maxiter c). pose proof R as (R1 & R2 & R3 & R4 & R5 & R6).
  destruct r as [[|k]|e].
  - cbn. split; [exact W|reflexivity].
  - cbn [fst snd]. split; [exact W|]. specialize (G _ eq_refl).
    destruct (norm0 (as_wt s)) as [n|] eqn:En, (norm0 (as_wt s')) as [n'|] eqn:En'; cbn [same_outcome] in N; try contradiction; cbn [bind]; [|exact N].
    apply result_am_coords; [unfold rec_coords; cbn; rewrite R1; auto 10|]. cbn [ar_flags ar_pars]. intros Z.
    destruct (Nat.eqb_spec (S k) (ac_maxiter c)) as [EM|EM]; [discriminate|]. destruct G as [G|[G|(G1 & G2 & G3 & G4)]]; [congruence|congruence|].
    split; [|tauto]. destruct (as_wt s) as [|g w], (as_wt s') as [|g' w']; try contradiction. cbn in En, En'. injection En as <-. injection En' as <-. unfold nrm_coords in G1. destruct (g_nrm g) as [n|], (g_nrm g') as [n'|]; try contradiction. destruct G1 as (_ & _ & _ & G1 & _). exists (n_norm n). split; [reflexivity|f_equal; exact G1].
  - destruct e; cbn [fst snd]; split; try exact W; try reflexivity.
    destruct (norm0 (as_wt s)) as [n|] eqn:En, (norm0 (as_wt s')) as [n'|] eqn:En'; cbn [same_outcome] in N; try contradiction; cbn [bind]; [|exact N].
    apply result_am_coords; [unfold rec_coords; cbn; auto 10|]. cbn. discriminate.
Qed.

Theorem am_run_coords c w w' : Forall2 (gauss_coords a f) w w' ->
  let x := am_run c (mkAo px j) w in let x' := am_run (coords_conf a c) (mkAo px' j') w' in
  (Forall2 (gauss_coords a f) (fst x) (fst x') /\ same_outcome (coords_adaptive a f) (snd x) (snd x')) \/
  (exists d, snd x = Ok d /\ (too_small d \/ exhausted d /\ forall d', snd x' = Ok d' -> d_flags d' <> 0%Z)) \/
  (exists d', snd x' = Ok d' /\ (too_small d' \/ exhausted d' /\ forall d, snd x = Ok d -> d_flags d <> 0%Z)).
Proof.
  intros W. cbv zeta. destruct w as [|g w], w' as [|g' w']; try (inversion W; fail). { left. split; [constructor|reflexivity]. }
  rewrite !run_tail. pose proof W as W0. assert (EG : gauss_coords a f g g') by (inversion W; assumption). destruct EG as (_ & E2 & E3 & _). rewrite E2, E3. clear E2 E3.
  change (ac_maxiter (coords_conf a c)) with (ac_maxiter c).
  assert (H0 : state_coords (mkAs (g :: w) am_rec0 None) (mkAs (g' :: w') am_rec0 None)).
  { split; [exact W0|]. split; [exact I|]. unfold rec_coords, am_rec0; cbn [as_rec ar_flags ar_numiter ar_rho4 ar_ws ar_pars]. repeat (split; [first [reflexivity|exact zero_coords]|]).
    intros i. do 6 (destruct i as [|i]; [cbn [repeat nth]; rewrite times_fin; f_equal; ring|]). destruct i; cbn [repeat nth]; rewrite times_nan; reflexivity. }
  pose proof (loop_coords c (g_row g) (g_col g) (ac_maxiter c) 0 _ _ H0) as HL. cbv zeta in HL.
  pose proof (loop_count c (g_row g) (g_col g) px (ac_maxiter c) 0 (mkAs (g :: w) am_rec0 None)) as C1.
  pose proof (loop_count (coords_conf a c) (a * g_row g) (f * a * g_col g) px' (ac_maxiter c) 0 (mkAs (g' :: w') am_rec0 None)) as C2.
  pose proof (loop_top c (g_row g) (g_col g) px (ac_maxiter c) 0 (mkAs (g :: w) am_rec0 None)) as T1.
  pose proof (loop_top (coords_conf a c) (a * g_row g) (f * a * g_col g) px' (ac_maxiter c) 0 (mkAs (g' :: w') am_rec0 None)) as T2.
  destruct (Nat.eq_dec (ac_maxiter c) 0) as [M0|M0]. { left. rewrite M0. cbn. split; [exact W0|reflexivity]. }
  set (y := am_loop c _ _ _ _ _ _) in *. set (y' := am_loop (coords_conf a c) _ _ _ _ _ _) in *. clearbody y y'.
  destruct HL as [[SM BF]|[[SM BF]|(D1 & D2 & D3)]].
  - right; left. destruct (tail_small c (get_area j) y SM) as (d & E & D). { intros k E. apply C1 in E. lia. }
    exists d. split; [exact E|]. destruct D as [D|[D D']]; [left; exact D|right]. split; [exact D|]. intros d'. apply tail_late. intros k K. pose proof (BF _ _ D' K). apply T2 in K. cbn. lia.
  - right; right. destruct (tail_small (coords_conf a c) (get_area j') y' SM) as (d & E & D). { intros k E. apply C2 in E. lia. }
    exists d. split; [exact E|]. destruct D as [D|[D D']]; [left; exact D|right]. split; [exact D|]. intros d'. apply tail_late. intros k K. change (ac_maxiter (coords_conf a c)) with (ac_maxiter c) in D'. pose proof (BF _ _ D' K). apply T1 in K. lia.
  - left. apply tail_coords; [exact D1|exact D2|]. intros k K. specialize (D3 k K). cbn in D3. exact D3.
Qed.
End Am.
Theorem admom_coords a f px px' j j' c w w' : a <> 0 -> f * f = 1 -> pix_coords a f px px' -> jac_coords a f j j' -> Forall2 (gauss_coords a f) w w' ->
  let x := am_run c (mkAo px j) w in let x' := am_run (coords_conf a c) (mkAo px' j') w' in
  ((Forall2 (gauss_coords a f) (fst x) (fst x') /\ same_outcome (coords_adaptive a f) (snd x) (snd x')) \/
   (exists d, snd x = Ok d /\ (too_small d \/ exhausted d)) \/ (exists d', snd x' = Ok d' /\ (too_small d' \/ exhausted d'))) /\
  (forall d, snd x = Ok d -> d_flags d = 0%Z -> exists d', snd x' = Ok d' /\
     (Forall2 (gauss_coords a f) (fst x) (fst x') /\ coords_adaptive a f d d' \/ too_small d')) /\
  (forall d', snd x' = Ok d' -> d_flags d' = 0%Z -> exists d, snd x = Ok d /\
     (Forall2 (gauss_coords a f) (fst x) (fst x') /\ coords_adaptive a f d d' \/ too_small d)).
Proof.
  intros A FF P J W. cbv zeta. pose proof (am_run_coords a f A FF px px' P j j' J c w w' W) as H. cbv zeta in H.
  set (x := am_run c _ w) in *. set (x' := am_run (coords_conf a c) _ w') in *. clearbody x x'.
  assert (NS : forall d, d_flags d = 0%Z -> ~ too_small d) by (unfold too_small; intros d -> N; apply N; reflexivity).
  assert (NX : forall d, d_flags d = 0%Z -> ~ exhausted d) by (unfold exhausted; intros d -> N; apply N; reflexivity).
  destruct H as [[H1 H2]|[(d1 & H1 & H2)|(d1 & H1 & H2)]].
  - split; [left; auto|]. split.
    + intros d E Z. rewrite E in H2. destruct (snd x') as [d'|]; cbn [same_outcome] in H2; [|contradiction]. exists d'. auto.
    + intros d' E Z. rewrite E in H2. destruct (snd x) as [d|]; cbn [same_outcome] in H2; [|contradiction]. exists d. auto.
  - split; [right; left; exists d1; tauto|]. split.
    + intros d E Z. rewrite H1 in E. injection E as <-. exfalso. destruct H2 as [H2|[H2 _]]; [apply (NS _ Z H2)|apply (NX _ Z H2)].
    + intros d' E Z. exists d1. split; [exact H1|]. destruct H2 as [H2|[_ H2]]; [right; exact H2|]. exfalso. apply (H2 d' E Z).
  - split; [right; right; exists d1; tauto|]. split.
    + intros d E Z. exists d1. split; [exact H1|]. destruct H2 as [H2|[_ H2]]; [right; exact H2|]. exfalso. apply (H2 d E Z).
    + intros d' E Z. rewrite H1 in E. injection E as <-. exfalso. destruct H2 as [H2|[H2 _]]; [apply (NS _ Z H2)|apply (NX _ Z H2)].
Qed.
