From Verif Require Import Base XReal Pixels_Model Jacobian_Model Jacobian_Spec GMix_Model GMix_Spec GMixObj_Model GMixObj_Proofs Render_Model Render_Spec Render_Proofs Pixels_Proofs
  FastExp_Model Fit_Model Fit_Spec Fit_Proofs Fit2_Proofs Fit3_Proofs Units_Spec Units_Proofs Coords_Spec Coords_Proofs CoordsGM_Proofs CoordsAm_Proofs FitUnits_Spec FitUnits_Proofs.
Local Open Scope R_scope.

(** ** the same unless a range error *)
Lemma near_bind {A A' B B'} (P : A -> A' -> Prop) (Q : B -> B' -> Prop) r r' f f' :
  same_or_range P r r' -> (forall a a', P a a' -> same_or_range Q (f a) (f' a')) -> same_or_range Q (bind r f) (bind r' f').
Proof.
  intros [->|[->|H]] K; [left; reflexivity|right; left; reflexivity|]. destruct r, r'; cbn in *; try contradiction; [apply K, H|]. right; right. exact H.
Qed.
Lemma near_same {A A'} (P : A -> A' -> Prop) r r' : same_outcome P r r' -> same_or_range P r r'.
Proof. intros H. right; right. exact H. Qed.
Lemma near_foldM {A A' S S'} (E : A -> A' -> Prop) (P : S -> S' -> Prop) (f : S -> A -> res S) (f' : S' -> A' -> res S') l l' :
  Forall2 E l l' -> (forall s s' a a', P s s' -> E a a' -> same_or_range P (f s a) (f' s' a')) ->
  forall s s', P s s' -> same_or_range P (foldM f l s) (foldM f' l' s').
Proof.
  induction 1 as [|a a' l l' H _ IH]; intros K s s' H0; cbn [foldM]; [right; right; exact H0|].
  apply near_bind with (P := P); [apply K; assumption|]. intros; apply IH; assumption.
Qed.
Lemma near_or_range {A} (r r' : res A) low : same_or_range eq r r' -> same_unless low (or_range r low) (or_range r' low).
Proof.
  intros [->|[->|H]]; [right; left; reflexivity|right; right; reflexivity|]. left. destruct r, r'; cbn in H; try contradiction; subst; reflexivity.
Qed.
Lemma same_and {A A'} (P : A -> A' -> Prop) (Q : A -> Prop) (Q' : A' -> Prop) r r' : same_outcome P r r' -> (forall x, r = Ok x -> Q x) -> (forall x, r' = Ok x -> Q' x) ->
  same_outcome (fun x x' => P x x' /\ Q x /\ Q' x') r r'.
Proof. destruct r, r'; cbn; auto. Qed.

Section U.
Variables k a f : R.
Hypothesis K : k <> 0.
Hypothesis A : a <> 0.
Hypothesis FF : f * f = 1.
Notation GU := (gauss_units k a f).
Notation OU := (obs_units k a f).
Notation PU := (pars_units k a f).
Definition WU (w w' : gmix) : Prop := Forall2 GU w w' /\ Forall raw w /\ Forall raw w'.

(** ** one observation *)
Lemma norms_units w w' : WU w w' ->
  snd (set_norms_if_needed w) = Raise GMixRangeError \/ snd (set_norms_if_needed w') = Raise GMixRangeError \/
  (w = [] /\ w' = []) \/
  exists v v', set_norms_if_needed w = (v, Ok tt) /\ set_norms_if_needed w' = (v', Ok tt) /\ Forall2 (uready k a f) v v'.
Proof.
  intros (W & R & R'). destruct W as [|g g' w w' G W]; [right; right; left; auto|].
  unfold set_norms_if_needed. apply Forall_cons_iff in R, R'. destruct R as [[_ ->] _], R' as [[_ ->] _]. cbn [negb].
  destruct (set_norms_units k a f A (g :: w) (g' :: w') ltac:(constructor; assumption)) as [E|[E|E]]; auto.
Qed.
Definition no_range (w : gmix) : Prop := snd (set_norms_if_needed w) <> Raise GMixRangeError.
Lemma norms_exact w w' : WU w w' -> no_range w -> no_range w' -> (w = [] /\ w' = []) \/
  exists v v', set_norms_if_needed w = (v, Ok tt) /\ set_norms_if_needed w' = (v', Ok tt) /\ Forall2 (uready k a f) v v'.
Proof. intros W N N'. destruct (norms_units w w' W) as [E|[E|E]]; [contradiction|contradiction|exact E]. Qed.
Lemma loglike_exact w w' px px' : WU w w' -> no_range w -> no_range w' -> pix_units k a f px px' -> same_outcome eq (snd (get_loglike w px)) (snd (get_loglike w' px')).
Proof.
  intros W N N' P. unfold get_loglike. destruct (norms_exact w w' W N N') as [[-> ->]|(v & v' & E & E' & V)]; [reflexivity|].
  rewrite E, E'. cbn [snd bind]. eapply same_bind with (P := eq); [|intros [[[? ?] ?] ?] ? <-; reflexivity].
  eapply same_foldM; [exact P| |reflexivity]. intros s ? p p' <- (P1 & P2 & P3 & P4 & P5). destruct s as [[[l n] d] c]. unfold loglike_body.
  eapply same_bind; [apply (eval_units k a f A FF v v' _ _ _ _ _ _ V P1 P2 P3)|]. intros x ? ->. cbv zeta. rewrite P4, P5. cbn [same_outcome].
  f_equal. f_equal; [f_equal|]; field; exact K.
Qed.
Lemma fdiff_exact w w' px px' fd start : WU w w' -> no_range w -> no_range w' -> pix_units k a f px px' ->
  same_outcome eq (snd (fill_fdiff_x w px fd start)) (snd (fill_fdiff_x w' px' fd start)).
Proof.
  intros W N N' P. unfold fill_fdiff_x. destruct (norms_exact w w' W N N') as [[-> ->]|(v & v' & E & E' & V)]; [reflexivity|].
  rewrite E, E'. cbn [snd bind]. eapply same_bind with (P := eq); [|intros [? ?] ? <-; reflexivity].
  eapply same_foldM; [exact P| |reflexivity]. intros s ? p p' <- (P1 & P2 & P3 & P4 & P5). destruct s as [l c].
  eapply same_bind; [apply (eval_units k a f A FF v v' _ _ _ _ _ _ V P1 P2 P3)|]. intros x ? ->. rewrite P4, P5.
  replace ((k * x - k * px_val p) * (px_ierr p / k)) with ((x - px_val p) * px_ierr p) by (field; exact K).
  destruct (put l _ _); reflexivity.
Qed.
Lemma range_dec w : no_range w \/ snd (set_norms_if_needed w) = Raise GMixRangeError.
Proof. unfold no_range. destruct (snd (set_norms_if_needed w)) as [|[]]; ((left; discriminate) || (right; reflexivity)). Qed.
Lemma loglike_units w w' px px' : WU w w' -> pix_units k a f px px' -> same_or_range eq (snd (get_loglike w px)) (snd (get_loglike w' px')).
Proof.
  intros W P. destruct (range_dec w) as [N|E]; [destruct (range_dec w') as [N'|E]|].
  - right; right. apply loglike_exact; assumption.
  - right; left. unfold get_loglike. destruct (set_norms_if_needed w'). cbn [snd] in *. rewrite E. reflexivity.
  - left. unfold get_loglike. destruct (set_norms_if_needed w). cbn [snd] in *. rewrite E. reflexivity.
Qed.
Lemma fdiff_units w w' px px' fd start : WU w w' -> pix_units k a f px px' -> same_or_range eq (snd (fill_fdiff_x w px fd start)) (snd (fill_fdiff_x w' px' fd start)).
Proof.
  intros W P. destruct (range_dec w) as [N|E]; [destruct (range_dec w') as [N'|E]|].
  - right; right. apply fdiff_exact; assumption.
  - right; left. unfold fill_fdiff_x. destruct (set_norms_if_needed w'). cbn [snd] in *. rewrite E. reflexivity.
  - left. unfold fill_fdiff_x. destruct (set_norms_if_needed w). cbn [snd] in *. rewrite E. reflexivity.
Qed.
Lemma good_no_range w : Forall raw w -> Forall evaluable w -> no_range w.
Proof.
  clear. intros R E. destruct w as [|g w]; [unfold no_range; discriminate|].
  destruct (norms_if_needed (g :: w)) as (v & V & _); [|unfold no_range; rewrite V; discriminate].
  split; [discriminate|]. split; [eapply Forall_impl; [|exact R]; intros ? [C _]; exact C|]. split; [exact E|].
  intros g0 rest [= <- <-] Hn. apply Forall_cons_iff in R. destruct R as [[_ N] _]. congruence.
Qed.

(** ** parameters of a band and mixtures *)
Lemma nth_firstn' {X} n (d : X) : forall l i, nth i (firstn n l) d = if Nat.ltb i n then nth i l d else d.
Proof. clear. induction n as [|n IH]; intros [|x l] [|i]; cbn [firstn nth]; try reflexivity.
  - destruct (Nat.ltb _ _); reflexivity.
  - rewrite IH. reflexivity.
Qed.
Lemma slice_units m num p p' b : PU (FName m) p p' ->
  same_outcome (PU (FName m)) (slice_and_one num (flux_start m) b p) (slice_and_one num (flux_start m) b p').
Proof.
  intros [L H]. unfold slice_and_one. rewrite L. destruct (negb _ && _)%bool; [reflexivity|].
  assert (FK : forall i, (flux_start m <= i)%nat -> par_factor k a f (FName m) i = k).
  { clear. intros i Hi. unfold par_factor, flux_start in *. destruct i as [|[|[|[|[|i]]]]]; try (destruct m; lia). destruct m; cbn [Nat.eqb]; rewrite (proj2 (Nat.ltb_ge _ _)) by lia; reflexivity. }
  specialize (H (flux_start m + b)%nat) as Hb. rewrite FK in Hb by lia.
  destruct (nth_error p (flux_start m + b)) as [x|] eqn:E.
  - assert (LT : (flux_start m + b < length p)%nat) by (apply nth_error_Some; congruence).
    destruct (nth_error p' (flux_start m + b)) as [x'|] eqn:E'; [|apply nth_error_None in E'; lia].
    rewrite (nth_error_nth _ _ 0 E), (nth_error_nth _ _ 0 E') in Hb. subst x'. cbn [same_outcome].
    assert (L1 : length (firstn (flux_start m) p) = flux_start m) by (rewrite firstn_length; lia).
    assert (L2 : length (firstn (flux_start m) p') = flux_start m) by (rewrite firstn_length; lia).
    split; [rewrite !app_length, L1, L2; reflexivity|]. intros i. destruct (Nat.ltb_spec i (flux_start m)) as [Hi|Hi].
    + rewrite !app_nth1 by lia. rewrite !nth_firstn'. apply Nat.ltb_lt in Hi. rewrite Hi. apply H.
    + rewrite (app_nth2 (firstn (flux_start m) p)), (app_nth2 (firstn (flux_start m) p')) by lia. rewrite L1, L2, FK by exact Hi. destruct (i - flux_start m)%nat as [|j]; cbn [app nth]; [reflexivity|].
      assert (Z : forall n j, nth j (repeat 0 n) 0 = 0) by (clear; induction n; intros [|j]; cbn; auto). rewrite !Z. ring.
  - apply nth_error_None in E. destruct (nth_error p' (flux_start m + b)) eqn:E'; [|reflexivity]. assert (flux_start m + b < length p')%nat by (apply nth_error_Some; congruence). lia.
Qed.
Lemma band_pars_units m p p' b : PU m p p' -> same_outcome (PU m) (band_pars_of m p b) (band_pars_of m p' b).
Proof.
  intros H. destruct m as [m|n]; cbn [band_pars_of]; [|exact H]. unfold get_band_pars. destruct m; apply (slice_units _ _ _ _ _ H).
Qed.
Lemma pure_fill_units m bp bp' : PU m bp bp' -> length bp = mnp m -> same_outcome WU (pure_fill m bp) (pure_fill m bp').
Proof.
  intros H L. unfold pure_fill. rewrite (proj1 H), L, Nat.eqb_refl. apply same_and.
  - pose proof (fill_units k a f FF m (mng m) bp bp' H) as U. destruct m; apply U; reflexivity.
  - intros x E. eapply fill_raw; exact E.
  - intros x E. eapply fill_raw; exact E.
Qed.
Lemma one_units m dopsf bp bp' o o' : PU m bp bp' -> length bp = mnp m -> OU o o' -> same_outcome WU (one_mix m dopsf bp o) (one_mix m dopsf bp' o').
Proof.
  intros H L (_ & _ & _ & _ & _ & kp & KP & OP). unfold one_mix. destruct dopsf; [|apply pure_fill_units; assumption].
  eapply same_bind; [exact OP|]. intros psf psf' [_ S]. eapply same_bind; [apply (pure_fill_units m bp bp' H L)|]. intros w w' (W & _ & _).
  apply same_and; [apply (convolve_units k a f FF kp); assumption| |]; intros x E; eapply convolve_raw; exact E.
Qed.
Lemma bands_units m dopsf p p' tot : PU m p p' -> length p = n_pars m tot -> forall obs obs', Forall2 (Forall2 OU) obs obs' -> forall b, (b + length obs <= length tot)%nat ->
  same_outcome (Forall2 (Forall2 WU)) (bands_mix m dopsf p b obs) (bands_mix m dopsf p' b obs').
Proof.
  intros H L. induction 1 as [|os os' obs obs' HO _ IH]; intros b Hb; cbn [bands_mix]; [constructor|]. cbn [length] in Hb.
  pose proof (band_pars_units m p p' b H) as B. destruct (band_pars_ok m tot p b L ltac:(lia)) as (bp & E & Lb). rewrite E in *. destruct (band_pars_of m p' b) as [bp'|]; cbn [same_outcome] in B; [|contradiction].
  cbn [bind]. eapply same_bind; [eapply mapM_same2; [exact HO|]; intros o o' Ho; apply (one_units m dopsf bp bp' o o' B Lb Ho)|]. intros l l' HL.
  eapply same_bind; [apply IH; lia|]. intros r r' HR. constructor; assumption.
Qed.
End U.
