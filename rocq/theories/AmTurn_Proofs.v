From Coq Require Import Nsatz.
From Verif Require Import Base XReal Pixels_Model Jacobian_Model Jacobian_Spec Shape_Model Moments_Model GMix_Model Render_Model Render_Spec WSums_Model WSums_Proofs Flags_Model MomResult_Model GMixObj_Model GMixObj_Proofs Admom_Model
  Units_Spec Units_Proofs Coords_Proofs CoordsAm_Proofs FitUnits_Proofs Motion_Spec Motion_Proofs AmTurn_Spec.
Local Open Scope R_scope.

Section T.
Variables t a b : R.
Notation c := (cos t).
Notation s := (sin t).
Notation GM := (gauss_moved 1 t a b).
Notation READY := (mready t a b).
Notation SM := (sums_moved t a b).
Notation L := (moved_sum t a b).

Lemma L_add i F G x : L i (fun n => F n + x * G n) = L i F + x * L i G.
Proof. do 4 (destruct i as [|i]; [cbn; unfold turned_1, turned_2; ring|]). reflexivity. Qed.
Lemma L_ext i F G : (i < 7)%nat -> (forall n, (n < 7)%nat -> F n = G n) -> L i F = L i G.
Proof. intros Hi H. do 4 (destruct i as [|i]; [cbn; rewrite ?(H 0%nat), ?(H 1%nat), ?(H 2%nat), ?(H 3%nat), ?(H 5%nat) by lia; reflexivity|]). cbn. apply H. exact Hi. Qed.
Lemma zero_moved : SM wsums_zero wsums_zero.
Proof.
  split; [reflexivity|]. split; [reflexivity|]. split.
  - intros i Hi. do 4 (destruct i as [|i]; [cbn; unfold turned_1, turned_2; ring|]). reflexivity.
  - intros i k Hi Hk. do 4 (destruct i as [|i]; [do 4 (destruct k as [|k]; [cbn; unfold turned_1, turned_2; ring|]); cbn; unfold turned_1, turned_2; ring|]).
    do 4 (destruct k as [|k]; [cbn; unfold turned_1, turned_2; ring|]). reflexivity.
Qed.
Variables px px' : list (pixel R).
Hypothesis P : pix_moved t a b px px'.

Lemma censums_moved w w' x x' : Forall2 READY w w' -> SM x x' -> same_outcome SM (foldM (censums_body w) px x) (foldM (censums_body w') px' x').
Proof.
  intros W. apply same_foldM with (1 := P). clear x x'. intros x x' p p' (B1 & B2 & C & D) (V & U & AR & X & _).
  unfold censums_body. rewrite V, U, AR, X. rewrite (eval_moved t a b w w' _ _ _ W).
  destruct (gmix_eval_pixel_fast _ _ _ _) as [y|e]; cbn [bind]; [|reflexivity]. cbn [same_outcome].
  unfold sums_moved; cbn [ws_npix ws_wsum ws_sums ws_cov]. rewrite B1, B2. split; [reflexivity|]. split; [reflexivity|]. split; [|exact D].
  intros i Hi. unfold fset. do 7 (destruct i as [|i]; [cbn [Nat.eqb moved_sum]; rewrite C by lia; cbn [moved_sum]; unfold moved_v, moved_u; ring|]). lia.
Qed.
Lemma F7_moved v u dv du dv' du' chi i : dv' = c * dv - s * du -> du' = s * dv + c * du -> (i < 7)%nat ->
  F7 (moved_v t a v u) (moved_u t b v u) dv' du' chi i = L i (F7 v u dv du chi).
Proof.
  intros -> -> Hi. pose proof (cs1 t) as H1. pose proof (cos_2 t) as H2. pose proof (sin_2 t) as H3.
  unfold F7, fset, moved_v, moved_u. do 7 (destruct i as [|i]; [cbn [Nat.eqb moved_sum]; unfold turned_1, turned_2; rewrite ?H2, ?H3; first [ring|nsatz]|]). lia.
Qed.
Lemma momsums_moved w w' g g' x x' : Forall2 READY w w' -> READY g g' -> SM x x' -> same_outcome SM (foldM (momsums_body w g) px x) (foldM (momsums_body w' g') px' x').
Proof.
  intros W G. apply same_foldM with (1 := P). clear x x'. intros x x' p p' (B1 & B2 & C & D) (V & U & AR & X & I).
  unfold momsums_body. rewrite V, U, AR, X, I. rewrite (eval_moved t a b w w' _ _ _ W).
  destruct (gmix_eval_pixel_fast _ _ _ _) as [y|e]; cbn [bind]; [|reflexivity].
  destruct (Reqb _ 0); [reflexivity|]. destruct G as ((E1 & E2 & E3 & _) & N). unfold nrm_moved in N. destruct (g_nrm g) as [n|], (g_nrm g') as [n'|]; try contradiction.
  destruct N as (N1 & N2 & N3 & N4 & N5). cbn [same_outcome]. cbv zeta. rewrite E2, E3.
  destruct (offset_moved t a b (px_v p) (px_u p) (g_row g) (g_col g)) as [O1 O2].
  pose proof (chi2_moved t n n' _ _ _ _ N1 N2 N3 O1 O2) as CH. unfold gauss_chi2 in CH. rewrite CH.
  pose proof (fun chi i => F7_moved (px_v p) (px_u p) _ _ _ _ chi i O1 O2) as HF.
  match goal with |- SM (accumulate 7 (F7 _ _ _ _ ?q) _ _ _ _ _) _ => specialize (HF q) end.
  match goal with |- SM (accumulate 7 ?F ?x1 ?y1 ?z ?q x) (accumulate 7 ?F' _ _ _ _ x') =>
    destruct (accumulate_spec 7 F x1 y1 z q x) as (K1 & K2 & K3 & K4); destruct (accumulate_spec 7 F' x1 y1 z q x') as (L1 & L2 & L3 & L4);
    generalize dependent (accumulate 7 F x1 y1 z q x); generalize dependent (accumulate 7 F' x1 y1 z q x'); set (F0 := F) in *; set (F1 := F') in *; clearbody F0 F1 end.
  intros r' L1 L2 L3 L4 r K1 K2 K3 K4.
  unfold sums_moved. rewrite K1, K2, L1, L2, B1, B2. split; [reflexivity|]. split; [reflexivity|]. split.
  - intros i Hi. rewrite L3, C, HF by exact Hi. rewrite <- L_add. apply L_ext; [exact Hi|]. intros n0 Hn. rewrite K3 by exact Hn. reflexivity.
  - intros i k Hi Hk. rewrite L4, D, !HF by assumption.
    match goal with |- _ + ?q * _ * _ = _ => set (vv := q) in * end.
    transitivity (L i (fun m => L k (fun n0 => ws_cov x m n0) + (vv * L k F0) * F0 m)); [rewrite L_add; ring|].
    apply L_ext; [exact Hi|]. intros m Hm. transitivity (L k (fun n0 => ws_cov x m n0 + (vv * F0 m) * F0 n0)); [rewrite (L_add k (ws_cov x m) F0 (vv * F0 m)); change (fun n0 : nat => ws_cov x m n0) with (ws_cov x m); ring|].
    apply L_ext; [exact Hk|]. intros n0 Hn. rewrite K4 by assumption. reflexivity.
Qed.

Lemma det_turned rr rc cc rr' rc' cc' : rr' + cc' = rr + cc -> cc' - rr' = turned_1 t (cc - rr) (2 * rc) -> 2 * rc' = turned_2 t (cc - rr) (2 * rc) ->
  rr' * cc' - rc' * rc' = rr * cc - rc * rc.
Proof. intros A B C. pose proof (turned_det t _ _ _ _ _ _ A B C). nra. Qed.
Lemma deweight_moved g g' Irr Irc Icc Irr' Irc' Icc' : GM g g' ->
  Irr' + Icc' = Irr + Icc -> Icc' - Irr' = turned_1 t (Icc - Irr) (2 * Irc) -> 2 * Irc' = turned_2 t (Icc - Irr) (2 * Irc) ->
  match deweight_moments g Irr Irc Icc, deweight_moments g' Irr' Irc' Icc' with Some h, Some h' => GM h h' | None, None => True | _, _ => False end.
Proof.
  intros (E1 & E2 & E3 & E4 & E5 & E6 & E7) I1 I2 I3. unfold deweight_moments. cbv zeta.
  rewrite (det_turned _ _ _ _ _ _ I1 I2 I3), (det_turned _ _ _ _ _ _ E4 E5 E6).
  destruct (Rleb _ _); [exact I|]. destruct (Rleb (g_irr g * _ - _) _); [exact I|].
  set (dm := 1 / (Irr * Icc - Irc * Irc)). set (dw := 1 / (g_irr g * g_icc g - g_irc g * g_irc g)). clearbody dm dw.
  assert (N1 : (Icc' * dm - g_icc g' * dw) + (Irr' * dm - g_irr g' * dw) = (Icc * dm - g_icc g * dw) + (Irr * dm - g_irr g * dw)).
  { transitivity ((Irr' + Icc') * dm - (g_irr g' + g_icc g') * dw); [ring|]. rewrite I1, E4. ring. }
  assert (N2 : (Irr' * dm - g_irr g' * dw) - (Icc' * dm - g_icc g' * dw) = turned_1 t ((Irr * dm - g_irr g * dw) - (Icc * dm - g_icc g * dw)) (2 * (- Irc * dm + g_irc g * dw))).
  { transitivity (- (Icc' - Irr') * dm + (g_icc g' - g_irr g') * dw); [ring|]. rewrite I2, E5. unfold turned_1. ring. }
  assert (N3 : 2 * (- Irc' * dm + g_irc g' * dw) = turned_2 t ((Irr * dm - g_irr g * dw) - (Icc * dm - g_icc g * dw)) (2 * (- Irc * dm + g_irc g * dw))).
  { transitivity (- (2 * Irc') * dm + (2 * g_irc g') * dw); [ring|]. rewrite I3, E6. unfold turned_2. ring. }
  rewrite (det_turned _ _ _ _ _ _ N1 N2 N3).
  revert N1 N2 N3. generalize (Icc' * dm - g_icc g' * dw) (Irr' * dm - g_irr g' * dw) (- Irc' * dm + g_irc g' * dw) (Icc * dm - g_icc g * dw) (Irr * dm - g_irr g * dw) (- Irc * dm + g_irc g * dw).
  intros r' k' x' r k x N1 N2 N3. destruct (Rleb _ _); [exact I|]. generalize (1 / (r * k - x * x)). intros q.
  assert (M1 : k' * q + r' * q = k * q + r * q) by (transitivity ((r' + k') * q); [ring|rewrite N1; ring]).
  assert (M2 : r' * q - k' * q = turned_1 t (r * q - k * q) (2 * (- x * q))) by (transitivity (- (k' - r') * q); [ring|rewrite N2; unfold turned_1; ring]).
  assert (M3 : 2 * (- x' * q) = turned_2 t (r * q - k * q) (2 * (- x * q))) by (transitivity (- (2 * x') * q); [ring|rewrite N3; unfold turned_2; ring]).
  unfold gauss_moved; cbn [g_p g_row g_col g_irr g_irc g_icc g_det]. split; [exact E1|]. split; [exact E2|]. split; [exact E3|]. split; [exact M1|]. split; [exact M2|]. split; [exact M3|].
  apply det_turned; assumption.
Qed.

(** ** one iteration *)
Definition rec_moved (r r' : am_rec) : Prop :=
  ar_flags r' = ar_flags r /\ ar_numiter r' = ar_numiter r /\ ar_rho4 r' = ar_rho4 r /\ SM (ar_ws r) (ar_ws r') /\ pars_follow t a b (ar_pars r) (ar_pars r').
Definition old_moved (o o' : option (R * R * R)) : Prop := match o, o' with
  | Some (e1, e2, T), Some (e1', e2', T') => e1' = turned_1 t e1 e2 /\ e2' = turned_2 t e1 e2 /\ T' = T | None, None => True | _, _ => False end.
Definition state_moved (x x' : am_state) : Prop := Forall2 GM (as_wt x) (as_wt x') /\ old_moved (as_old x) (as_old x') /\ rec_moved (as_rec x) (as_rec x').
Definition good (x x' : am_state) : Prop :=
  match as_wt x, as_wt x' with g :: _, g' :: _ => nrm_moved t g g' | _, _ => False end /\ measured t a b (ar_pars (as_rec x)) (ar_pars (as_rec x')).
Definition step_moved (x x' : am_state * res bool) : Prop :=
  state_moved (fst x) (fst x') /\ snd x' = snd x /\ (snd x = Ok true -> ar_flags (as_rec (fst x)) <> 0%Z \/ good (fst x) (fst x')).
Lemma stop_moved w w' r r' old old' fl : fl <> 0%Z -> Forall2 GM w w' -> old_moved old old' -> rec_moved r r' -> step_moved (stop_with w r old fl) (stop_with w' r' old' fl).
Proof. intros Z W O (R1 & R2 & R3 & R4 & R5). unfold step_moved, state_moved, rec_moved, stop_with; cbn. auto 20. Qed.
Lemma with_ws_moved r r' w w' : rec_moved r r' -> SM w w' -> rec_moved (with_ws r w) (with_ws r' w').
Proof.
  intros (R1 & R2 & R3 & R4 & R5) H. unfold rec_moved, with_ws; cbn -[repeat]. repeat (split; [assumption || reflexivity|]). left. auto.
Qed.
Lemma ready_GM w w' : Forall2 READY w w' -> Forall2 GM w w'.
Proof. induction 1 as [|g g' w w' [H _] _ IH]; constructor; assumption. Qed.
Lemma set_norms_state w w' : Forall2 GM w w' -> Forall2 GM (fst (gmix_set_norms w)) (fst (gmix_set_norms w')).
Proof.
  induction 1 as [|g g' w w' G W IH]; cbn [gmix_set_norms]; [constructor|].
  pose proof (set_norm_moved t a b g g' G) as S. destruct (gauss2d_set_norm g), (gauss2d_set_norm g'); cbn [same_outcome] in S; try contradiction.
  - destruct (gmix_set_norms w), (gmix_set_norms w'). cbn [fst snd] in *. constructor; [apply S|exact IH].
  - cbn [fst]. constructor; assumption.
Qed.
Lemma quarter_cases : quarter t -> (c = 0 /\ s * s = 1) \/ (s = 0 /\ c * c = 1).
Proof. unfold quarter. intros Q. pose proof (cs1 t) as H. destruct (Rmult_integral _ _ Q) as [E|E]; [left|right]; rewrite E in *; split; lra. Qed.
Lemma abs_sq1 f x : f * f = 1 -> Rabs (f * x) = Rabs x.
Proof. intros F. rewrite Rabs_mult, (fabs f F). ring. Qed.
Lemma quarter_shift m dv du : quarter t -> (Rltb m (Rabs (c * dv - s * du)) || Rltb m (Rabs (s * dv + c * du)))%bool = (Rltb m (Rabs dv) || Rltb m (Rabs du))%bool.
Proof.
  intros Q. destruct (quarter_cases Q) as [[E F]|[E F]]; rewrite E.
  - replace (0 * dv - s * du) with (s * (- du)) by ring. replace (s * dv + 0 * du) with (s * dv) by ring. rewrite !(abs_sq1 _ _ F), Rabs_Ropp. apply Bool.orb_comm.
  - replace (c * dv - 0 * du) with (c * dv) by ring. replace (0 * dv + c * du) with (c * du) by ring. rewrite !(abs_sq1 _ _ F). reflexivity.
Qed.
Lemma quarter_2 : quarter t -> sin (2 * t) = 0 /\ cos (2 * t) * cos (2 * t) = 1.
Proof.
  intros Q. rewrite sin_2, cos_2. unfold quarter in Q. split; [nra|]. destruct (quarter_cases Q) as [[E F]|[E F]]; rewrite E; nra.
Qed.
Lemma quarter_turn x y : quarter t -> turned_1 t x y = cos (2 * t) * x /\ turned_2 t x y = cos (2 * t) * y.
Proof. intros Q. destruct (quarter_2 Q) as [E _]. unfold turned_1, turned_2. rewrite E. split; ring. Qed.

Lemma iter_moved k row col x x' : state_moved x x' ->
  let y := am_iter k row col px x in let y' := am_iter k (moved_v t a row col) (moved_u t b row col) px' x' in
  step_moved y y' \/ (~ quarter t /\ (snd y = Ok true \/ snd y' = Ok true)).
Proof.
  intros HS. pose proof HS as (W & O & R). cbv zeta. unfold am_iter.
  destruct (as_wt x) as [|g0 w0], (as_wt x') as [|g0' w0']; try (inversion W; fail).
  { left. split; [exact HS|]. split; [reflexivity|discriminate]. }
  assert (D : g_det g0' = g_det g0) by (inversion W as [|? ? ? ? G]; apply G). rewrite D.
  destruct (Rltb (g_det g0) GMIX_LOW_DETVAL). { left. apply stop_moved; solve [discriminate|assumption]. }
  pose proof (set_norms_moved t a b _ _ W) as [S1 S2]. pose proof (set_norms_state _ _ W) as ST.
  destruct (gmix_set_norms (g0 :: w0)) as [v [[]|e]], (gmix_set_norms (g0' :: w0')) as [v' [[]|e']]; cbn [fst snd same_outcome] in *; try contradiction.
  2:{ left. subst e'. destruct v, v'; (split; [split; [exact ST|split; [exact O|exact R]]|]; split; [reflexivity|discriminate]). }
  specialize (S2 eq_refl). destruct S2 as [|g1 g1' rest rest' G1 VR].
  { left. split; [exact HS|]. split; [reflexivity|discriminate]. }
  clear ST S1. pose proof (ready_GM _ _ VR) as FR. assert (V : Forall2 READY (g1 :: rest) (g1' :: rest')) by (constructor; assumption).
  pose proof (ready_GM _ _ V) as VF.
  pose proof (censums_moved _ _ _ _ V zero_moved) as HC.
  destruct (foldM (censums_body (g1 :: rest)) px wsums_zero) as [w|e], (foldM (censums_body (g1' :: rest')) px' wsums_zero) as [w'|e']; cbn [same_outcome] in HC; try contradiction.
  2:{ left. subst e'. split; [split; [exact VF|split; [exact O|exact R]]|]. split; [reflexivity|discriminate]. }
  pose proof (with_ws_moved _ _ _ _ R HC) as R1. pose proof HC as (_ & _ & C & _).
  assert (C5 : ws_sums w' 5 = ws_sums w 5) by (rewrite C by lia; reflexivity). rewrite C5.
  destruct (Rleb_spec (ws_sums w 5) 0) as [|P5]. { left. apply stop_moved; solve [discriminate|assumption]. }
  assert (C0 : ws_sums w' 0 / ws_sums w 5 = moved_v t a (ws_sums w 0 / ws_sums w 5) (ws_sums w 1 / ws_sums w 5)) by (rewrite C by lia; cbn [moved_sum]; unfold moved_v; field; lra).
  assert (C1 : ws_sums w' 1 / ws_sums w 5 = moved_u t b (ws_sums w 0 / ws_sums w 5) (ws_sums w 1 / ws_sums w 5)) by (rewrite C by lia; cbn [moved_sum]; unfold moved_u; field; lra).
  rewrite C0, C1. set (r0 := ws_sums w 0 / ws_sums w 5) in *. set (c0 := ws_sums w 1 / ws_sums w 5) in *.
  assert (G2 : READY (set_cen0 g1 r0 c0) (set_cen0 g1' (moved_v t a r0 c0) (moved_u t b r0 c0))).
  { destruct G1 as ((E1 & E2 & E3 & E4 & E5 & E6 & E7) & N). split; [unfold gauss_moved; cbn; auto 10|]. unfold nrm_moved in *; cbn. auto. }
  set (g2 := set_cen0 g1 r0 c0) in *. set (g2' := set_cen0 g1' (moved_v t a r0 c0) (moved_u t b r0 c0)) in *.
  assert (GR : g_row g2' = moved_v t a r0 c0) by reflexivity. assert (GC : g_col g2' = moved_u t b r0 c0) by reflexivity.
  assert (GR0 : g_row g2 = r0) by reflexivity. assert (GC0 : g_col g2 = c0) by reflexivity.
  assert (V2 : Forall2 READY (g2 :: rest) (g2' :: rest')) by (constructor; assumption). pose proof (ready_GM _ _ V2) as VF2.
  assert (SH : quarter t -> (Rltb (ac_shiftmax k) (Rabs (g_row g2' - moved_v t a row col)) || Rltb (ac_shiftmax k) (Rabs (g_col g2' - moved_u t b row col)) =
               Rltb (ac_shiftmax k) (Rabs (g_row g2 - row)) || Rltb (ac_shiftmax k) (Rabs (g_col g2 - col)))%bool).
  { intros Q. rewrite GR, GC, GR0, GC0. destruct (offset_moved t a b r0 c0 row col) as [-> ->]. apply quarter_shift. exact Q. }
  match type of SH with _ -> ?p = ?q => destruct p eqn:B1, q eqn:B2 end.
  { left. apply stop_moved; solve [discriminate|assumption]. }
  { right. split; [intros Q; discriminate (SH Q)|right; reflexivity]. }
  { right. split; [intros Q; discriminate (SH Q)|left; reflexivity]. }
  clear SH B1 B2.
  pose proof (momsums_moved _ _ _ _ _ _ V2 G2 zero_moved) as HM.
  destruct (foldM (momsums_body (g2 :: rest) g2) px wsums_zero) as [v|e], (foldM (momsums_body (g2' :: rest') g2') px' wsums_zero) as [v'|e']; cbn [same_outcome] in HM; try contradiction.
  2:{ left. subst e'. split; [split; [exact VF2|split; [exact O|exact R1]]|]. split; [reflexivity|discriminate]. }
  pose proof (with_ws_moved _ _ _ _ R1 HM) as R2. pose proof HM as (_ & _ & M & _).
  assert (M5 : ws_sums v' 5 = ws_sums v 5) by (rewrite M by lia; reflexivity). rewrite M5.
  destruct (Rleb_spec (ws_sums v 5) 0) as [|Q5]. { left. apply stop_moved; solve [discriminate|assumption]. }
  set (m1 := ws_sums v 2 * (1 / ws_sums v 5)). set (m2 := ws_sums v 3 * (1 / ws_sums v 5)).
  assert (M2 : ws_sums v' 2 * (1 / ws_sums v 5) = turned_1 t m1 m2) by (rewrite M by lia; cbn [moved_sum]; unfold turned_1, m1, m2; ring).
  assert (M3 : ws_sums v' 3 * (1 / ws_sums v 5) = turned_2 t m1 m2) by (rewrite M by lia; cbn [moved_sum]; unfold turned_2, m1, m2; ring).
  assert (M4 : ws_sums v' 4 = ws_sums v 4) by (rewrite M by lia; reflexivity).
  assert (M6 : ws_sums v' 6 = ws_sums v 6) by (rewrite M by lia; reflexivity).
  rewrite M2, M3, M4, M6. set (T := ws_sums v 4 * (1 / ws_sums v 5)). clearbody m1 m2.
  destruct (Rleb_spec T 0) as [|PT]. { left. apply stop_moved; solve [discriminate|assumption]. }
  assert (HALF : forall y, 5 / 10 * (T + y) - 5 / 10 * (T - y) = y) by (intros; field). assert (TW : forall y, 2 * (5 / 10 * y) = y) by (intros; field).
  rewrite !HALF, !TW. set (e1 := m1 / T) in *. set (e2 := m2 / T) in *.
  assert (EE1 : turned_1 t m1 m2 / T = turned_1 t e1 e2) by (unfold turned_1, e1, e2; field; lra).
  assert (EE2 : turned_2 t m1 m2 / T = turned_2 t e1 e2) by (unfold turned_2, e1, e2; field; lra).
  rewrite EE1, EE2.
  assert (CV : quarter t -> (match as_old x' with None => false | Some (e1old, e2old, Told) =>
       Rltb (Rabs (turned_1 t e1 e2 - e1old)) (ac_etol k) && Rltb (Rabs (turned_2 t e1 e2 - e2old)) (ac_etol k) && Rltb (Rabs (T / Told - 1)) (ac_Ttol k) end =
     match as_old x with None => false | Some (e1old, e2old, Told) =>
       Rltb (Rabs (e1 - e1old)) (ac_etol k) && Rltb (Rabs (e2 - e2old)) (ac_etol k) && Rltb (Rabs (T / Told - 1)) (ac_Ttol k) end)%bool).
  { intros Q. destruct (as_old x) as [[[o1 o2] o3]|], (as_old x') as [[[p1 p2] p3]|]; try contradiction; [|reflexivity].
    destruct O as (-> & -> & ->). destruct (quarter_turn e1 e2 Q) as [-> ->], (quarter_turn o1 o2 Q) as [-> ->]. rewrite <- !Rmult_minus_distr_l.
    rewrite !abs_sq1 by (apply quarter_2; exact Q). reflexivity. }
  assert (ON : old_moved (Some (e1, e2, T)) (Some (turned_1 t e1 e2, turned_2 t e1 e2, T))) by (cbn; auto).
  match type of CV with _ -> ?p = ?q => destruct p eqn:B1, q eqn:B2 end.
  { left. clear CV. destruct R2 as (X1 & X2 & _ & _ & _). pose proof G2 as ((E1 & _ & _ & E4 & E5 & E6 & _) & N).
    assert (MS : measured t a b (map Fin [g_row g2; g_col g2; g_icc g2 - g_irr g2; 2 * g_irc g2; g_icc g2 + g_irr g2; 1]) (map Fin [g_row g2'; g_col g2'; g_icc g2' - g_irr g2'; 2 * g_irc g2'; g_icc g2' + g_irr g2'; 1])).
    { unfold measured. exists r0, c0, (g_icc g2 - g_irr g2), (2 * g_irc g2), (g_icc g2 + g_irr g2), (Fin 1). split; [reflexivity|]. cbn [map]. rewrite E5, E6, (Rplus_comm (g_icc g2')), E4, (Rplus_comm (g_irr g2)). reflexivity. }
    split; [split; [exact VF2|split; [exact O|]]|].
    { unfold rec_moved; cbn [fst as_rec ar_flags ar_numiter ar_rho4 ar_ws ar_pars]. cbn in X1, X2. split; [exact X1|]. split; [exact X2|]. split; [reflexivity|]. split; [exact HM|]. right. exact MS. }
    split; [reflexivity|]. intros _. right. split; [exact N|exact MS]. }
  { right. split; [intros Q; discriminate (CV Q)|right; reflexivity]. }
  { right. split; [intros Q; discriminate (CV Q)|left; reflexivity]. }
  clear CV. left.
  destruct (ac_cenonly k). { split; [split; [exact VF2|split; [exact ON|exact R2]]|]. split; [reflexivity|discriminate]. }
  assert (DW := deweight_moved g2 g2' (5 / 10 * (T - m1)) (5 / 10 * m2) (5 / 10 * (T + m1)) (5 / 10 * (T - turned_1 t m1 m2)) (5 / 10 * turned_2 t m1 m2) (5 / 10 * (T + turned_1 t m1 m2)) (proj1 G2)
    ltac:(field) ltac:(rewrite !HALF, TW; reflexivity) ltac:(rewrite !HALF, !TW; reflexivity)).
  destruct (deweight_moments g2 _ _ _) as [h|], (deweight_moments g2' _ _ _) as [h'|]; try contradiction.
  - split; [split; [constructor; assumption|split; [exact ON|exact R2]]|]. split; [reflexivity|discriminate].
  - apply stop_moved; solve [discriminate|assumption].
Qed.
End T.
