From Verif Require Import Base XReal Pixels_Model Jacobian_Model GMix_Model GMixObj_Model Render_Model FastExp_Model Fit_Model Units_Spec Units_Proofs Coords_Spec Coords_Proofs CoordsGM_Proofs CoordsAm_Proofs FitUnits_Spec.
Local Open Scope R_scope.

Section U.
Variables k a f : R.
Hypothesis K : k <> 0.
Hypothesis A : a <> 0.
Hypothesis FF : f * f = 1.
Notation GU := (gauss_units k a f).

(** ** mixtures *)
Lemma sum_flip x y : x * x + f * y * (f * y) = x * x + y * y.
Proof. clear K A. replace (f * y * (f * y)) with (f * f * (y * y)) by ring. rewrite FF. ring. Qed.
Lemma g_to_e_flip g1 g2 : same_outcome (fun e e' => e' = (fst e, f * snd e)) (g1g2_to_e1e2_nb g1 g2) (g1g2_to_e1e2_nb g1 (f * g2)).
Proof.
  clear K A. unfold g1g2_to_e1e2_nb. rewrite sum_flip. cbv zeta. destruct (Rleb 1 _); [reflexivity|]. destruct (Reqb _ 0); cbn [same_outcome fst snd]; f_equal; ring.
Qed.
Lemma set_units q p row col irr irc icc : gauss_units q a f (gauss2d_set p row col irr irc icc) (gauss2d_set (q * p) (a * row) (f * a * col) (a ^ 2 * irr) (f * a ^ 2 * irc) (a ^ 2 * icc)).
Proof.
  clear K A. unfold gauss_units, gauss2d_set. cbn [g_p g_row g_col g_irr g_irc g_icc g_det]. repeat (split; [reflexivity|]).
  replace (a ^ 2 * irr * (a ^ 2 * icc) - f * a ^ 2 * irc * (f * a ^ 2 * irc)) with (a ^ 4 * (irr * icc) - (f * f) * (a ^ 4 * (irc * irc))) by ring. rewrite FF. ring.
Qed.
Lemma set_units' q g p row col irr irc icc p' row' col' irr' irc' icc' : g = gauss2d_set p' row' col' irr' irc' icc' ->
  p' = q * p -> row' = a * row -> col' = f * a * col -> irr' = a ^ 2 * irr -> irc' = f * a ^ 2 * irc -> icc' = a ^ 2 * icc ->
  gauss_units q a f (gauss2d_set p row col irr irc icc) g.
Proof. intros -> -> -> -> -> -> ->. apply set_units. Qed.
Lemma getp_units m p p' i : pars_units k a f m p p' -> same_outcome (fun x x' => x' = par_factor k a f m i * x) (getp p i) (getp p' i).
Proof.
  intros [L H]. unfold getp. specialize (H i). destruct (nth_error p i) as [x|] eqn:E.
  - assert (LT : (i < length p')%nat) by (rewrite L; apply nth_error_Some; congruence). destruct (nth_error p' i) as [x'|] eqn:E'; [|apply nth_error_None in E'; lia].
    cbn. rewrite (nth_error_nth _ _ _ E), (nth_error_nth _ _ _ E') in H. exact H.
  - apply nth_error_None in E. rewrite <- L in E. apply nth_error_None in E. rewrite E. reflexivity.
Qed.
Lemma mapM_same {X Y} (P : Y -> Y -> Prop) (F F' : X -> res Y) l : (forall i, In i l -> same_outcome P (F i) (F' i)) -> same_outcome (Forall2 P) (mapM F l) (mapM F' l).
Proof.
  induction l as [|x l IH]; intros H; cbn [mapM]; [constructor|]. apply same_bind with (P := P); [apply H; left; reflexivity|]. intros y y' Y0.
  apply same_bind with (P := Forall2 P); [apply IH; intros i I; apply H; right; exact I|]. intros z z' Z0. constructor; assumption.
Qed.
Lemma mapM_same2 {X X' Y Y'} (E : X -> X' -> Prop) (P : Y -> Y' -> Prop) (F : X -> res Y) (F' : X' -> res Y') l l' : Forall2 E l l' ->
  (forall x x', E x x' -> same_outcome P (F x) (F' x')) -> same_outcome (Forall2 P) (mapM F l) (mapM F' l').
Proof.
  intros H HF. induction H as [|x x' l l' X0 H IH]; cbn [mapM]; [constructor|]. apply same_bind with (P := P); [apply HF; exact X0|]. intros y y' Y0.
  apply same_bind with (P := Forall2 P); [exact IH|]. intros z z' Z0. constructor; assumption.
Qed.
Lemma same_refl {X} (r : res X) : same_outcome eq r r.
Proof. destruct r; reflexivity. Qed.

Ltac par i := eapply same_bind; [match goal with H : pars_units _ _ _ _ _ _ |- _ => apply (getp_units _ _ _ i H) end|intros ? ? ->; cbn [par_factor Nat.eqb Nat.ltb Nat.leb Nat.add]].
Ltac ell := eapply same_bind; [first [rewrite Rmult_1_l|idtac]; apply g_to_e_flip|intros [? ?] ? ->; cbn [fst snd]].
Lemma cm_units fd td row col e1 e2 T flux i : same_outcome GU (cm_gauss fd td row col e1 e2 T flux i) (cm_gauss fd td (a * row) (f * a * col) e1 (f * e2) (a ^ 2 * T) (k * flux) i).
Proof.
  unfold cm_gauss. eapply same_bind; [apply same_refl|]. intros [p s] ? <-. cbn [same_outcome]. eapply set_units'; [reflexivity|..]; ring.
Qed.
Lemma fill_units m ng p p' : pars_units k a f m p p' -> (match m with FName n => ng = model_ngauss n | FCoellip n => ng = n end) ->
  same_outcome (Forall2 GU) (fill_func (match m with FName n => KModel n | FCoellip _ => KCoellip end) ng p) (fill_func (match m with FName n => KModel n | FCoellip _ => KCoellip end) ng p').
Proof.
  intros H NG. assert (SIMPLE : forall n fv pv, (n = Mgauss \/ n = Mturb \/ n = Mexp \/ n = Mdev) -> pars_units k a f (FName n) p p' -> same_outcome (Forall2 GU) (gmix_fill_simple ng fv pv p) (gmix_fill_simple ng fv pv p')).
  { clear H. intros n fv pv N H. unfold gmix_fill_simple. par 0%nat. par 1%nat. par 2%nat. par 3%nat. par 4%nat.
    eapply same_bind; [match goal with H : pars_units _ _ _ _ _ _ |- _ => apply (getp_units _ _ _ 5 H) end|]. intros F F' EF. assert (EF' : F' = k * F) by (rewrite EF; destruct N as [->|[->|[->| ->]]]; reflexivity). subst F'. clear EF.
    ell. apply mapM_same. intros i _. eapply same_bind; [apply same_refl|]. intros s ? <-. eapply same_bind; [apply same_refl|]. intros q ? <-. cbn [same_outcome]. eapply set_units'; [reflexivity|..]; ring. }
  destruct m as [n|n]; cbn [fill_func].
  - destruct n; try (apply (SIMPLE _ _ _ ltac:(eauto) H)).
    + unfold gmix_fill_bd. par 0%nat. par 1%nat. par 2%nat. par 3%nat. par 4%nat. par 5%nat. par 6%nat. par 7%nat. rewrite !Rmult_1_l.
      eapply same_bind; [apply same_refl|]. intros Tf ? <-. ell. apply mapM_same. intros i _. rewrite (Rmult_assoc (a ^ 2)). apply cm_units.
    + unfold gmix_fill_bdf. par 0%nat. par 1%nat. par 2%nat. par 3%nat. par 4%nat. par 5%nat. par 6%nat. rewrite !Rmult_1_l.
      eapply same_bind; [apply same_refl|]. intros Tf ? <-. ell. apply mapM_same. intros i _. rewrite (Rmult_assoc (a ^ 2)). apply cm_units.
    + reflexivity.
  - subst ng. unfold gmix_fill_coellip. par 0%nat. par 1%nat. par 2%nat. par 3%nat. ell. apply mapM_same. intros i I. apply in_seq in I.
    eapply same_bind; [match goal with H : pars_units _ _ _ _ _ _ |- _ => apply (getp_units _ _ _ (4 + i) H) end|]. intros T ? ->. eapply same_bind; [match goal with H : pars_units _ _ _ _ _ _ |- _ => apply (getp_units _ _ _ (4 + n + i) H) end|]. intros F ? ->. cbn [same_outcome].
    assert (E1 : par_factor k a f (FCoellip n) (4 + i) = a ^ 2). { unfold par_factor. cbn [Nat.add]. destruct (Nat.ltb_spec (S (S (S (S i)))) (S (S (S (S n))))); [reflexivity|lia]. }
    assert (E2 : par_factor k a f (FCoellip n) (4 + n + i) = k). { unfold par_factor. cbn [Nat.add]. destruct (Nat.ltb_spec (S (S (S (S (n + i))))) (S (S (S (S n))))); [lia|reflexivity]. }
    rewrite E1, E2. eapply set_units'; [reflexivity|..]; ring.
Qed.

(** ** the psf *)
Lemma cen_units q w w' : q <> 0 -> Forall2 (gauss_units q a f) w w' ->
  same_outcome (fun c c' => let '(row, col, p) := c in c' = (a * row, f * a * col, q * p) /\ p <> 0) (gmix_get_cen w) (gmix_get_cen w').
Proof.
  clear K A FF. intros Q H. unfold gmix_get_cen.
  assert (G : forall s s', (let '(row, col, p) := s in s' = (q * a * row, q * (f * a) * col, q * p)) ->
    let '(row, col, p) := fold_left (fun s g => let '(row, col, psum) := s in (row + g_p g * g_row g, col + g_p g * g_col g, psum + g_p g)) w s in
    fold_left (fun s g => let '(row, col, psum) := s in (row + g_p g * g_row g, col + g_p g * g_col g, psum + g_p g)) w' s' = (q * a * row, q * (f * a) * col, q * p)).
  { induction H as [|g g' w w' G H IH]; intros [[r c] p] s' E; cbn [fold_left]; [exact E|]. apply IH. rewrite E. destruct G as (G1 & G2 & G3 & _). rewrite G1, G2, G3. apply f_equal2; [apply f_equal2|]; ring. }
  specialize (G (0, 0, 0) (0, 0, 0)). destruct (fold_left _ w _) as [[r c] p]. rewrite G by (apply f_equal2; [apply f_equal2|]; ring).
  destruct (Reqb_spec p 0) as [P|P]. { rewrite Reqb_t by (rewrite P; ring). reflexivity. }
  rewrite Reqb_f by (apply Rmult_integral_contrapositive; auto). cbn [same_outcome]. split; [|exact P]. apply f_equal2; [apply f_equal2|]; field; auto.
Qed.
Lemma flat_map_units {X X' Y Y'} (E : X -> X' -> Prop) (P : Y -> Y' -> Prop) F F' l l' : Forall2 E l l' -> (forall x x', E x x' -> Forall2 P (F x) (F' x')) -> Forall2 P (flat_map F l) (flat_map F' l').
Proof. intros H HF. induction H; cbn [flat_map]; [constructor|]. apply Forall2_app; auto. Qed.
Lemma map_units {X X' Y Y'} (E : X -> X' -> Prop) (P : Y -> Y' -> Prop) F F' l l' : Forall2 E l l' -> (forall x x', E x x' -> P (F x) (F' x')) -> Forall2 P (map F l) (map F' l').
Proof. intros H HF. induction H; cbn [map]; constructor; auto. Qed.
Lemma convolve_units q w w' s s' : q <> 0 -> Forall2 GU w w' -> Forall2 (gauss_units q a f) s s' -> same_outcome (Forall2 GU) (gmix_convolve w s) (gmix_convolve w' s').
Proof.
  intros Q W S. unfold gmix_convolve. eapply same_bind; [apply (cen_units q s s' Q S)|]. intros [[row col] p] ? [-> P]. cbv zeta. cbn [same_outcome].
  eapply flat_map_units; [exact W|]. intros g g' (G1 & G2 & G3 & G4 & G5 & G6 & _). eapply map_units; [exact S|]. intros h h' (H1 & H2 & H3 & H4 & H5 & H6 & _).
  rewrite G1, G2, G3, G4, G5, G6, H1, H2, H3, H4, H5, H6. eapply set_units'; [reflexivity|..]; field; auto.
Qed.

(** ** values in pixels *)
Definition nrm_units (g g' : gauss) : Prop := match g_nrm g, g_nrm g' with
  | Some n, Some n' => n_drr n' = n_drr n / a ^ 2 /\ n_drc n' = f * n_drc n / a ^ 2 /\ n_dcc n' = n_dcc n / a ^ 2 /\ n_pnorm n' = k * n_pnorm n / a ^ 2
  | _, _ => False end.
Definition uready (g g' : gauss) : Prop := GU g g' /\ nrm_units g g'.
Lemma set_norm_units g g' : GU g g' ->
  gauss2d_set_norm g = Raise GMixRangeError \/ gauss2d_set_norm g' = Raise GMixRangeError \/ exists h h', gauss2d_set_norm g = Ok h /\ gauss2d_set_norm g' = Ok h' /\ uready h h'.
Proof.
  intros G. pose proof G as (E1 & E2 & E3 & E4 & E5 & E6 & E7). unfold gauss2d_set_norm.
  destruct (Rltb_spec (g_det g) GMIX_LOW_DETVAL) as [|D]; [left; reflexivity|]. cbv zeta. destruct (Rleb_spec (g_irr g + g_icc g) GMIX_LOW_DETVAL) as [|T]; [left; reflexivity|]. right.
  destruct (Rltb_spec (g_det g') GMIX_LOW_DETVAL) as [|D']; [left; reflexivity|]. destruct (Rleb_spec (g_irr g' + g_icc g') GMIX_LOW_DETVAL) as [|T']; [left; reflexivity|]. right.
  do 2 eexists. split; [reflexivity|]. split; [reflexivity|]. split; [unfold gauss_units; cbn; auto 10|].
  unfold nrm_units. cbn. pose proof low_pos as L. assert (DP : 0 < g_det g) by lra. pose proof (a2 a A) as A2'.
  assert (SQ : sqrt (g_det g') = a ^ 2 * sqrt (g_det g)).
  { rewrite E7. replace (a ^ 4) with (a ^ 2 * a ^ 2) by ring. rewrite sqrt_mult by nra. rewrite sqrt_square by lra. reflexivity. }
  assert (SP := sqrt_lt_R0 _ DP). assert (PP := PI_RGT_0).
  rewrite SQ, E7, E4, E5, E6, E1. repeat split; field; repeat split; try lra; try exact A.
Qed.
Lemma set_norms_units w w' : Forall2 GU w w' ->
  snd (gmix_set_norms w) = Raise GMixRangeError \/ snd (gmix_set_norms w') = Raise GMixRangeError \/
  exists v v', gmix_set_norms w = (v, Ok tt) /\ gmix_set_norms w' = (v', Ok tt) /\ Forall2 uready v v'.
Proof.
  induction 1 as [|g g' w w' G _ IH]; cbn [gmix_set_norms]. { right; right. exists [], []. auto. }
  destruct (set_norm_units g g' G) as [E|[E|(h & h' & E & E' & R)]].
  - left. rewrite E. reflexivity.
  - right; left. rewrite E. reflexivity.
  - rewrite E, E'. destruct IH as [I|[I|(v & v' & I & I' & V)]].
    + left. destruct (gmix_set_norms w). exact I.
    + right; left. destruct (gmix_set_norms w'). exact I.
    + right; right. rewrite I, I'. exists (h :: v), (h' :: v'). split; [reflexivity|]. split; [reflexivity|]. constructor; assumption.
Qed.
Lemma eval_units w w' v u v' u' ar ar' : Forall2 uready w w' -> v' = a * v -> u' = f * a * u -> ar' = a ^ 2 * ar ->
  same_outcome (fun x x' => x' = k * x) (gmix_eval_pixel_fast w v u ar) (gmix_eval_pixel_fast w' v' u' ar').
Proof.
  intros H V U AR. unfold gmix_eval_pixel_fast. eapply same_foldM; [exact H| |ring]. intros s s' g g' -> R.
  eapply same_bind with (P := fun x x' => x' = k * x); [|intros x ? ->; cbn [same_outcome]; ring].
  destruct R as ((_ & E2 & E3 & _) & N). unfold gauss2d_eval_pixel_fast, nrm_units in *. destruct (g_nrm g) as [n|], (g_nrm g') as [n'|]; try contradiction.
  destruct N as (N1 & N2 & N3 & N4). cbv zeta. rewrite (chi2_coords a f A FF g g' n n' v u v' u' E2 E3 N1 N2 N3 V U).
  destruct (_ && _)%bool; [|cbn; ring]. eapply same_bind; [apply same_refl|]. intros e ? <-. cbn [same_outcome]. rewrite N4, AR. field. exact A.
Qed.
Lemma eval_units_full w w' v u v' u' ar ar' : Forall2 uready w w' -> v' = a * v -> u' = f * a * u -> ar' = a ^ 2 * ar ->
  gmix_eval_pixel w' v' u' ar' = option_map (Rmult k) (gmix_eval_pixel w v u ar).
Proof.
  intros H V U AR. unfold gmix_eval_pixel. assert (E0 : Some 0 = option_map (Rmult k) (Some 0)) by (cbn; f_equal; ring). rewrite E0 at 1. generalize (Some 0) as s. clear E0.
  induction H as [|g g' w w' R _ IH]; intros s; cbn [fold_left]; [reflexivity|]. rewrite <- IH. f_equal.
  destruct R as ((_ & E2 & E3 & _) & N). unfold gauss2d_eval_pixel, nrm_units in *. destruct (g_nrm g) as [n|], (g_nrm g') as [n'|]; try contradiction.
  destruct N as (N1 & N2 & N3 & N4). cbv zeta. rewrite (chi2_coords a f A FF g g' n n' v u v' u' E2 E3 N1 N2 N3 V U). rewrite N4, AR.
  destruct s as [s|]; cbn; [|reflexivity]. f_equal. field. exact A.
Qed.
End U.
