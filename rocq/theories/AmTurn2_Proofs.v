From Verif Require Import Base XReal Pixels_Model Jacobian_Model Jacobian_Spec Shape_Model Moments_Model GMix_Model Render_Model Render_Spec WSums_Model WSums_Proofs Flags_Model MomResult_Model GMixObj_Model GMixObj_Proofs Admom_Model
  Units_Spec Units_Proofs Coords_Proofs CoordsAm_Proofs FitUnits_Proofs Fit_Model Motion_Spec Motion_Proofs Motion2_Proofs AmTurn_Spec AmTurn_Proofs.
Local Open Scope R_scope.

Section T.
Variables t a b : R.
Notation GM := (gauss_moved 1 t a b).
Notation SM := (sums_moved t a b).
Variables px px' : list (pixel R).
Hypothesis P : pix_moved t a b px px'.
Notation state_moved := (state_moved t a b).
Notation rec_moved := (rec_moved t a b).

(** ** at any angle, while the loop goes on *)
Lemma after_moved k row col n : forall x x' w w', state_moved x x' -> after k row col px n x = Some w -> after k (moved_v t a row col) (moved_u t b row col) px' n x' = Some w' -> Forall2 GM w w'.
Proof.
  induction n as [|n IH]; intros x x' w w' S; cbn [after].
  { intros [= <-] [= <-]. apply S. }
  pose proof (iter_moved t a b px px' P k row col x x' S) as H. cbv zeta in H.
  destruct (am_iter k row col px x) as [y [[|]|e]]; try discriminate. destruct (am_iter k _ _ px' x') as [y' [[|]|e']]; try discriminate.
  cbn [snd] in H. destruct H as [(H & _)|(_ & [H|H])]; try discriminate H. apply IH. exact H.
Qed.
Lemma start_moved w w' : Forall2 GM w w' -> state_moved (mkAs w am_rec0 None) (mkAs w' am_rec0 None).
Proof.
  intros W. split; [exact W|]. split; [exact I|]. unfold AmTurn_Proofs.rec_moved, am_rec0. cbn [as_rec ar_flags ar_numiter ar_rho4 ar_ws ar_pars].
  repeat (split; [reflexivity|]). split; [apply zero_moved|]. left. auto.
Qed.
Lemma weight_after_moved k n w w' v v' : Forall2 GM w w' -> weight_after k px n w = Some v -> weight_after k px' n w' = Some v' -> Forall2 GM v v'.
Proof.
  intros W. pose proof (start_moved w w' W) as S. unfold weight_after. destruct W as [|g g' w w' G W]; [discriminate|].
  pose proof G as (_ & E2 & E3 & _). rewrite E2, E3. apply after_moved. exact S.
Qed.

(** ** quarter turns *)
Hypothesis Q : quarter t.
Lemma loop_moved k row col n : forall i x x', state_moved x x' ->
  let y := am_loop k row col px n i x in let y' := am_loop k (moved_v t a row col) (moved_u t b row col) px' n i x' in
  state_moved (fst y) (fst y') /\ snd y' = snd y /\
   forall m, snd y = Ok m -> m = (i + n)%nat \/ ar_flags (as_rec (fst y)) <> 0%Z \/ good t a b (fst y) (fst y').
Proof.
  induction n as [|n IH]; intros i x x' H; cbv zeta.
  { cbn [am_loop]. split; [exact H|]. split; [reflexivity|]. cbn. intros m E. injection E as <-. left; lia. }
  pose proof (iter_moved t a b px px' P k row col x x' H) as HI. cbv zeta in HI. cbn [am_loop].
  destruct (am_iter k row col px x) as [s1 r1], (am_iter k _ _ px' x') as [s2 r2].
  destruct HI as [(D1 & D2 & D3)|[N _]]; [|contradiction]. cbn [fst snd] in D1, D2, D3. subst r2. destruct r1 as [[|]|e].
  - split; [exact D1|]. split; [reflexivity|]. intros m _. right. apply D3. reflexivity.
  - specialize (IH (S i) s1 s2 D1). cbv zeta in IH. replace (i + S n)%nat with (S i + n)%nat by lia. exact IH.
  - split; [exact D1|]. split; [reflexivity|]. cbn. discriminate.
Qed.
Notation f := (cos (2 * t)).
Lemma result_moved r r' ar norm norm' : rec_moved r r' ->
  (ar_flags r = 0%Z -> norm' = norm /\ measured t a b (ar_pars r) (ar_pars r')) ->
  same_outcome (adaptive_moved t a b) (get_result r ar norm) (get_result r' ar norm').
Proof.
  intros (R1 & R2 & R3 & HS & RP) HG. pose proof HS as (WN & W & S & V).
  destruct (quarter_2 t Q) as [_ FF]. assert (F0 : f <> 0) by (intros E; rewrite E in FF; lra).
  assert (L2 : forall F, moved_sum t a b 2 F = f * F 2%nat) by (intros; apply quarter_turn; exact Q).
  assert (L3 : forall F, moved_sum t a b 3 F = f * F 3%nat) by (intros; apply quarter_turn; exact Q).
  unfold get_result. cbv zeta. rewrite R1, R2, R3, W.
  set (s := ws_sums (ar_ws r)) in *. set (cv := ws_cov (ar_ws r)) in *.
  assert (S2 : ws_sums (ar_ws r') 2 = f * s 2%nat) by (rewrite S by lia; apply L2).
  assert (S3 : ws_sums (ar_ws r') 3 = f * s 3%nat) by (rewrite S by lia; apply L3).
  assert (S4 : ws_sums (ar_ws r') 4 = s 4%nat) by (rewrite S by lia; reflexivity).
  assert (S5 : ws_sums (ar_ws r') 5 = s 5%nat) by (rewrite S by lia; reflexivity).
  assert (S6 : ws_sums (ar_ws r') 6 = s 6%nat) by (rewrite S by lia; reflexivity).
  assert (V22 : ws_cov (ar_ws r') 2 2 = f * f * cv 2%nat 2%nat) by (rewrite V by lia; rewrite !L2; ring).
  assert (V33 : ws_cov (ar_ws r') 3 3 = f * f * cv 3%nat 3%nat) by (rewrite V by lia; rewrite !L3; ring).
  assert (V24 : ws_cov (ar_ws r') 2 4 = f * 1 * cv 2%nat 4%nat) by (rewrite V by lia; rewrite !L2; cbn [moved_sum]; ring).
  assert (V34 : ws_cov (ar_ws r') 3 4 = f * 1 * cv 3%nat 4%nat) by (rewrite V by lia; rewrite !L3; cbn [moved_sum]; ring).
  assert (V44 : ws_cov (ar_ws r') 4 4 = cv 4%nat 4%nat) by (rewrite V by lia; reflexivity).
  assert (V55 : ws_cov (ar_ws r') 5 5 = cv 5%nat 5%nat) by (rewrite V by lia; reflexivity).
  assert (V66 : ws_cov (ar_ws r') 6 6 = cv 6%nat 6%nat) by (rewrite V by lia; reflexivity).
  assert (V45 : ws_cov (ar_ws r') 4 5 = cv 4%nat 5%nat) by (rewrite V by lia; reflexivity).
  assert (V65 : ws_cov (ar_ws r') 6 5 = cv 6%nat 5%nat) by (rewrite V by lia; reflexivity).
  assert (KF : Rabs (f / 1) = 1) by (replace (f / 1) with f by field; apply (fabs f FF)).
  assert (RM : forall X, rmap (times 1) X = X) by (intros [y|e]; cbn [rmap bind]; [rewrite times_1|]; reflexivity).
  assert (Q24 : get_ratio_error (Fin (ws_sums (ar_ws r') 2)) (Fin (s 4%nat)) (Fin (ws_cov (ar_ws r') 2 2)) (Fin (cv 4%nat 4%nat)) (Fin (ws_cov (ar_ws r') 2 4)) = get_ratio_error (Fin (s 2%nat)) (Fin (s 4%nat)) (Fin (cv 2%nat 2%nat)) (Fin (cv 4%nat 4%nat)) (Fin (cv 2%nat 4%nat))).
  { rewrite S2, V22, V24. pose proof (ratio_coords f 1 (s 2%nat) (s 4%nat) (cv 2%nat 2%nat) (cv 4%nat 4%nat) (cv 2%nat 4%nat) F0 R1_neq_R0) as X.
    rewrite KF, RM in X. rewrite !Rmult_1_l in X. exact X. }
  assert (Q34 : get_ratio_error (Fin (ws_sums (ar_ws r') 3)) (Fin (s 4%nat)) (Fin (ws_cov (ar_ws r') 3 3)) (Fin (cv 4%nat 4%nat)) (Fin (ws_cov (ar_ws r') 3 4)) = get_ratio_error (Fin (s 3%nat)) (Fin (s 4%nat)) (Fin (cv 3%nat 3%nat)) (Fin (cv 4%nat 4%nat)) (Fin (cv 3%nat 4%nat))).
  { rewrite S3, V33, V34. pose proof (ratio_coords f 1 (s 3%nat) (s 4%nat) (cv 3%nat 3%nat) (cv 4%nat 4%nat) (cv 3%nat 4%nat) F0 R1_neq_R0) as X.
    rewrite KF, RM in X. rewrite !Rmult_1_l in X. exact X. }
  assert (EV : forallb (fun i => xgtb (Fin (ws_cov (ar_ws r') i i)) (Fin 0)) (seq 2 5) = forallb (fun i => xgtb (Fin (cv i i)) (Fin 0)) (seq 2 5)).
  { cbn [seq forallb]. rewrite V22, V33, FF, !Rmult_1_l, V44, V55, V66. reflexivity. }
  rewrite EV. rewrite ?S4, ?S5, ?S6, ?V44, ?V55, ?V66, ?V45, ?V65, Q24, Q34. clear EV Q24 Q34 V22 V33 V24 V34 S2 S3 RM KF.
  destruct (Z.eqb_spec (ar_flags r) 0) as [Z0|Z0].
  2:{ cbn [bind]. set (fl := if forallb _ _ then _ else _). assert (X0 : (fl =? 0)%Z = false).
      { apply Z.eqb_neq. unfold fl. destruct (forallb _ _); [exact Z0|]. intros E. apply Z.lor_eq_0_iff in E. tauto. }
      rewrite X0. cbn [bind same_outcome]. unfold adaptive_moved; cbn [d_flags d_numiter d_ws d_pars d_flux_flags d_T_flags d_rho4_flags d_flux d_flux_mean d_flux_err d_s2n d_T d_T_err d_rho4 d_rho4_err d_e1 d_e2 d_e1err d_e2err].
      repeat (split; [reflexivity|]). split; [left; auto|]. split; [exact HS|exact RP]. }
  destruct (HG Z0) as (-> & row & col & M1 & M2 & T & x & EP & EP'). clear HG RP. rewrite EP, EP'. unfold xnth. cbn [set5 List.nth].
  set (mean := xdiv (Fin (s 5%nat)) (Fin (ws_wsum (ar_ws r)))). set (fn := xmul _ _).
  assert (FIN : forall nn fl ff tf rf s2n Te r4 r4e e1 e2 e1' e2' e1e e2e fx fxe, shape_follows t e1 e2 e1' e2' ->
    adaptive_moved t a b (mkAd fl nn (ar_ws r) [Fin row; Fin col; Fin M1; Fin M2; Fin T; mean] ff tf rf fx mean fxe s2n (Fin T) Te r4 r4e e1 e2 e1e e2e)
      (mkAd fl nn (ar_ws r') [Fin (moved_v t a row col); Fin (moved_u t b row col); Fin (turned_1 t M1 M2); Fin (turned_2 t M1 M2); Fin T; mean] ff tf rf fx mean fxe s2n (Fin T) Te r4 r4e e1' e2' e1e e2e)).
  { intros * SF. unfold adaptive_moved; cbn [d_flags d_numiter d_ws d_pars d_flux_flags d_T_flags d_rho4_flags d_flux d_flux_mean d_flux_err d_s2n d_T d_T_err d_rho4 d_rho4_err d_e1 d_e2 d_e1err d_e2err].
    repeat (split; [reflexivity|]). split; [exact SF|]. split; [exact HS|]. right. unfold measured. exists row, col, M1, M2, T, mean. auto. }
  match goal with |- context [let '(_, _) := ?p in _] => set (pp := p); clearbody pp; destruct pp as [[[fx fxe] s2n] ff] end.
  match goal with |- context [bind ?p _] => set (pp := p); clearbody pp; destruct pp as [[Te tf]|e]; cbn [bind]; [|reflexivity] end.
  match goal with |- context [bind ?p _] => set (pp := p); clearbody pp; destruct pp as [[[r4 r4e] rf]|e]; cbn [bind]; [|reflexivity] end.
  assert (NAN : shape_follows t NaN NaN NaN NaN) by (left; auto).
  match goal with |- context [if (?z =? 0)%Z then _ else _] => destruct (z =? 0)%Z end; [|cbn [bind same_outcome]; apply FIN, NAN].
  destruct (xgtb (Fin (s 5%nat)) (Fin 0)); [|cbn [bind same_outcome]; apply FIN, NAN].
  destruct (xgtb (Fin T) (Fin 0)) eqn:TG; [|cbn [bind same_outcome]; apply FIN, NAN].
  assert (T0 : T <> 0) by (unfold xgtb, xltb in TG; destruct (Rltb_spec 0 T); [lra|discriminate]).
  destruct (get_ratio_error (Fin (s 2%nat)) _ _ _ _) as [y2|e]; cbn [bind]; [|reflexivity]. destruct (get_ratio_error (Fin (s 3%nat)) _ _ _ _) as [y3|e]; cbn [bind]; [|reflexivity].
  assert (SF : shape_follows t (xdiv (Fin M1) (Fin T)) (xdiv (Fin M2) (Fin T)) (xdiv (Fin (turned_1 t M1 M2)) (Fin T)) (xdiv (Fin (turned_2 t M1 M2)) (Fin T))).
  { right. exists (M1 / T), (M2 / T). unfold xdiv. rewrite (Reqb_f _ _ T0). repeat split; f_equal; unfold turned_1, turned_2; field; exact T0. }
  destruct (_ || _)%bool; cbn [bind same_outcome]; apply FIN, SF.
Qed.

Variables j j' : jac.
Hypothesis J : jac_moved t a b j j'.
Lemma run_moved k w w' : Forall2 GM w w' -> let x := am_run k (mkAo px j) w in let x' := am_run k (mkAo px' j') w' in
  Forall2 GM (fst x) (fst x') /\ same_outcome (adaptive_moved t a b) (snd x) (snd x').
Proof.
  intros W. cbv zeta. pose proof (start_moved w w' W) as HS. destruct W as [|g g' w w' G W].
  { cbn. split; [constructor|reflexivity]. }
  rewrite !run_tail. pose proof G as (_ & E2 & E3 & _). rewrite E2, E3.
  assert (AR : get_area j' = get_area j) by (apply J). rewrite AR.
  pose proof (loop_moved k (g_row g) (g_col g) (ac_maxiter k) 0 _ _ HS) as H. cbv zeta in H.
  pose proof (loop_top k (g_row g) (g_col g) px (ac_maxiter k) 0 (mkAs (g :: w) am_rec0 None)) as LT.
  destruct (am_loop k (g_row g) (g_col g) px _ 0 _) as [y ry], (am_loop k _ _ px' _ 0 _) as [y' ry']. cbn [fst snd] in H, LT.
  destruct H as (H1 & -> & H3). pose proof H1 as (WM & _ & RM). unfold tail. cbn [fst snd].
  assert (NN : forall n, norm0 (as_wt y) = Ok n -> exists n', norm0 (as_wt y') = Ok n').
  { destruct WM; cbn; [discriminate|eauto]. }
  assert (N0 : norm0 (as_wt y) = Raise IndexError -> norm0 (as_wt y') = Raise IndexError).
  { destruct WM; cbn; [auto|discriminate]. }
  assert (RES : forall r r', rec_moved r r' -> (ar_flags r = 0%Z -> good t a b y y' /\ ar_pars r = ar_pars (as_rec y) /\ ar_pars r' = ar_pars (as_rec y')) ->
    same_outcome (adaptive_moved t a b) (let* n := norm0 (as_wt y) in get_result r (get_area j) n) (let* n := norm0 (as_wt y') in get_result r' (get_area j) n)).
  { intros r r' RR GG. destruct (norm0 (as_wt y)) as [n|e] eqn:EN; cbn [bind].
    - destruct (NN n eq_refl) as [n' EN']. rewrite EN'. cbn [bind]. apply result_moved; [exact RR|]. intros Z. destruct (GG Z) as ((G1 & G2) & -> & ->). split; [|exact G2].
      destruct (as_wt y) as [|h ?], (as_wt y') as [|h' ?]; try contradiction. cbn in EN, EN'. injection EN as <-. injection EN' as <-. unfold nrm_moved in G1.
      destruct (g_nrm h), (g_nrm h'); try contradiction. f_equal. apply G1.
    - assert (e = IndexError) as -> by (destruct (as_wt y); cbn in EN; congruence). rewrite (N0 eq_refl). reflexivity. }
  destruct RM as (R1 & R2 & R3 & R4 & R5).
  destruct ry as [[|i]|e].
  - cbn [fst snd]. split; [exact WM|reflexivity].
  - cbn [fst snd]. split; [exact WM|]. rewrite R1. apply RES.
    + unfold AmTurn_Proofs.rec_moved; cbn [ar_flags ar_numiter ar_rho4 ar_ws ar_pars]. auto.
    + cbn [ar_flags ar_pars]. intros Z. split; [|auto]. specialize (H3 (S i) eq_refl). specialize (LT (S i) eq_refl).
      destruct (Nat.eqb_spec (S i) (ac_maxiter k)); [discriminate Z|]. destruct H3 as [H3|[H3|H3]]; [lia|contradiction|exact H3].
  - destruct e; cbn [fst snd]; (split; [exact WM|]); try reflexivity. apply RES; [|discriminate].
    unfold AmTurn_Proofs.rec_moved; cbn [ar_flags ar_numiter ar_rho4 ar_ws ar_pars]. auto.
Qed.
End T.

(** ** the mixture of the result *)
Lemma e_to_g_turned t e1 e2 : same_outcome (fun g g' => g' = (turned_1 t (fst g) (snd g), turned_2 t (fst g) (snd g)))
  (e1e2_to_g1g2 e1 e2) (e1e2_to_g1g2 (turned_1 t e1 e2) (turned_2 t e1 e2)).
Proof.
  unfold e1e2_to_g1g2. rewrite sum_turned. destruct (Rleb 1 _); [reflexivity|]. destruct (Reqb _ 0); cbn [same_outcome fst snd]; [unfold turned_1, turned_2; f_equal; ring|].
  match goal with |- context [?q * e1] => generalize q end. intros q. unfold turned_1, turned_2. f_equal; ring.
Qed.
Lemma gmix_moved t a b d d' : adaptive_moved t a b d d' -> same_outcome (fun g g' => Forall2 (gauss_moved 1 t a b) (o_data g) (o_data g')) (am_get_gmix d) (am_get_gmix d').
Proof.
  intros (F & _ & _ & _ & _ & _ & _ & _ & _ & _ & _ & _ & _ & _ & _ & _ & _ & PF). unfold am_get_gmix. rewrite F. destruct (negb _); [reflexivity|].
  destruct PF as [(E & [Z|Z])|(row & col & M1 & M2 & T & x & E & E')].
  - rewrite E, Z. reflexivity.
  - rewrite E, Z. cbn. rewrite Reqb_t by reflexivity. reflexivity.
  - rewrite E, E'. destruct (Reqb T 0) eqn:TZ; [reflexivity|]. assert (T0 : T <> 0) by (destruct (Reqb_spec T 0); [discriminate|assumption]).
    replace (turned_1 t M1 M2 / T) with (turned_1 t (M1 / T) (M2 / T)) by (unfold turned_1; field; exact T0).
    replace (turned_2 t M1 M2 / T) with (turned_2 t (M1 / T) (M2 / T)) by (unfold turned_2; field; exact T0).
    eapply same_bind; [apply e_to_g_turned|]. intros [g1 g2] ? ->. cbn [fst snd].
    pose proof (model_moved t a b (FName Mgauss) [row; col; g1; g2; T; 1] [moved_v t a row col; moved_u t b row col; turned_1 t g1 g2; turned_2 t g1 g2; T; 1]
      ltac:(exists row, col, g1, g2, [T; 1]; auto) I) as H.
    cbn [make_model] in H. destruct (new_model _ [row; _; _; _; _; _]), (new_model _ _); cbn [same_outcome] in *; try contradiction; [apply H|exact H].
Qed.
Lemma go_moved t a b px px' j j' k h h' i g g' : pix_moved t a b px px' -> quarter t -> jac_moved t a b j j' -> wf h -> wf h' -> read h i = Some g -> read h' i = Some g' -> mix_moved 1 t a b g g' ->
  exists h1 r h1' r' g1 g1', am_go k h (mkAo px j) (GObj i) = Some (h1, r) /\ am_go k h' (mkAo px' j') (GObj i) = Some (h1', r') /\
    same_outcome (adaptive_moved t a b) r r' /\ read h1 i = Some g1 /\ read h1' i = Some g1' /\ mix_moved 1 t a b g1 g1'.
Proof.
  intros P Q J W W' E E' [N D]. cbn [am_go]. rewrite E, E'. pose proof (run_moved t a b px px' P Q j j' J k _ _ D) as H. cbv zeta in H.
  destruct (am_run k (mkAo px j) (o_data g)) as [w r], (am_run k (mkAo px' j') (o_data g')) as [w' r']. cbn [fst snd] in H. destruct H as [H1 H2].
  do 6 eexists. split; [reflexivity|]. split; [reflexivity|]. split; [exact H2|]. split; [exact (read_write_same h i (with_data g w) g W E eq_refl eq_refl eq_refl)|]. split; [exact (read_write_same h' i (with_data g' w') g' W' E' eq_refl eq_refl eq_refl)|].
  split; [exact N|exact H1].
Qed.
