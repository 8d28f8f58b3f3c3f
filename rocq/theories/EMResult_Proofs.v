(** What the results of go() satisfy. *)
From Verif Require Import Base Shape_Model Moments_Spec Jacobian_Model Pixels_Model GMix_Model GMix_Spec
  Render_Model Render_Spec Render_Proofs GaussAp_Proofs GMixObj_Model GMixObj_Spec GMixObj_Proofs Flags_Model GMix_Proofs
  EM_Model EM_Spec EM_Proofs EMIter_Proofs EMLoop_Proofs EMGo_Proofs.
Local Open Scope R_scope.

(** ** one iteration *)
Lemma rsum_swap {A B} (f : A -> B -> R) a b : rsum (map (fun x => rsum (map (fun y => f x y) b)) a) = rsum (map (fun y => rsum (map (fun x => f x y) a)) b).
Proof.
  induction a as [|x a IH]; cbn [map].
  - rewrite rsum_nil. symmetry. apply rsum_zero.
  - rewrite rsum_cons, IH. rewrite <- rsum_map_plus. apply rsum_map_ext. intros y _. rewrite rsum_cons. reflexivity.
Qed.
Lemma flux_step k P vs s s' : em_step k P vs s s' ->
  flux_of (m_gm s') + sky_flux P s = rsum (map px_val (m_pix s')).
Proof.
  intros (T & F & PX & _). rewrite PX.
  assert (E : flux_of (m_gm s') = rsum (map (att_flux P s) (m_gm s))).
  { unfold flux_of. clear T PX. induction F as [|g g' l l' (H & _) F IH]; [reflexivity|]. cbn [map]. rewrite !rsum_cons, H. f_equal. exact IH. }
  rewrite E. unfold att_flux, attributed. rewrite rsum_swap. unfold sky_flux. rewrite <- rsum_map_plus. apply rsum_map_ext. intros p Hp.
  pose proof (T p Hp) as Z.
  transitivity (model P (m_gm s) p / total P s p * px_val p + m_sky s / total P s p * px_val p).
  - f_equal. unfold model, views. rewrite rsum_flat_map. unfold Rdiv. rewrite <- !rsum_map_scale_r. apply rsum_map_ext. intros g _.
    rewrite map_map, <- !rsum_map_scale_r. apply rsum_map_ext. intros q _. unfold share. field. exact Z.
  - replace (m_sky s) with (total P s p - model P (m_gm s) p) by (unfold total; ring). field. exact Z.
Qed.
Lemma sky_step k P s s' : em_step k P true s s' -> INR (length (m_pix s)) * m_sky s' = sky_flux P s.
Proof.
  intros (_ & _ & _ & N & ->). field. apply not_0_INR. destruct (m_pix s); [congruence|cbn; lia].
Qed.
Lemma filled_unmasked P s : Forall (fun p => 0 < px_ierr p) (m_pix s) -> filled P s = m_pix s.
Proof.
  intros H. unfold filled. rewrite <- (map_id (m_pix s)) at 2. apply map_ext_in. intros p Hp.
  rewrite Forall_forall in H. specialize (H p Hp). destruct (Rle_dec (px_ierr p) 0); [lra|reflexivity].
Qed.
Lemma filled_len P s : length (filled P s) = length (m_pix s).
Proof. unfold filled. apply map_length. Qed.

(** ** along a run *)
Lemma run_induct k P vs s0 h (Q : em -> Prop) : is_run k P vs s0 h -> Q s0 -> (forall s s', Q s -> em_step k P vs s s' -> Q s') ->
  forall i s, nth_error h i = Some s -> Q s.
Proof.
  intros (H0 & HS & _) Q0 QS. induction i as [|i IH]; intros s E.
  - rewrite H0 in E. injection E as <-. exact Q0.
  - destruct (nth_error h i) as [t|] eqn:T.
    + eapply QS; [apply IH; reflexivity|]. eapply HS; eassumption.
    + exfalso. apply nth_error_None in T. assert (S i < length h)%nat by (apply nth_error_Some; congruence). lia.
Qed.
Lemma run_prev k P vs s0 h n s : is_run k P vs s0 h -> nth_error h (S n) = Some s -> exists t, nth_error h n = Some t /\ em_step k P vs t s.
Proof.
  intros (_ & HS & _) E. destruct (nth_error h n) as [t|] eqn:T.
  - exists t. split; [reflexivity|]. eapply HS; eassumption.
  - exfalso. apply nth_error_None in T. assert (S n < length h)%nat by (apply nth_error_Some; congruence). lia.
Qed.
Lemma run_unmasked k P vs s0 h : is_run k P vs s0 h -> Forall (fun p => 0 < px_ierr p) (m_pix s0) ->
  forall i s, nth_error h i = Some s -> m_pix s = m_pix s0.
Proof.
  intros H U. apply (run_induct k P vs s0 h (fun s => m_pix s = m_pix s0) H eq_refl).
  intros s s' E (_ & _ & PX & _). rewrite PX, filled_unmasked; [exact E|]. rewrite E. exact U.
Qed.
Lemma run_sky k P s0 h : is_run k P false s0 h -> forall i s, nth_error h i = Some s -> m_sky s = m_sky s0.
Proof.
  intros H. apply (run_induct k P false s0 h (fun s => m_sky s = m_sky s0) H eq_refl).
  intros s s' E (_ & _ & _ & Y). rewrite Y. exact E.
Qed.
Lemma Forall2_trans' {A} (Q : A -> A -> Prop) a b c : (forall x y z, Q x y -> Q y z -> Q x z) -> Forall2 Q a b -> Forall2 Q b c -> Forall2 Q a c.
Proof. intros T H. revert c. induction H; intros c K; inversion K; subst; constructor; eauto. Qed.
Lemma Forall2_refl' {A} (Q : A -> A -> Prop) a : (forall x, Q x x) -> Forall2 Q a a.
Proof. intros H. induction a; constructor; auto. Qed.
Lemma Forall2_weaken {A} (Q Q' : A -> A -> Prop) a b : (forall x y, Q x y -> Q' x y) -> Forall2 Q a b -> Forall2 Q' a b.
Proof. intros H. induction 1; constructor; auto. Qed.
Lemma run_frame k P vs s0 h (Q : gauss -> gauss -> Prop) : is_run k P vs s0 h ->
  (forall x, Q x x) -> (forall x y z, Q x y -> Q y z -> Q x z) ->
  (forall s g g', new_cen k P s g g' -> new_cov k P s g g' -> Q g g') ->
  forall i s, nth_error h i = Some s -> Forall2 Q (m_gm s0) (m_gm s).
Proof.
  intros H R T ST. apply (run_induct k P vs s0 h (fun s => Forall2 Q (m_gm s0) (m_gm s)) H).
  - apply Forall2_refl'. exact R.
  - intros s s' E (_ & F & _). eapply Forall2_trans'; [exact T|exact E|]. eapply Forall2_weaken; [|exact F].
    cbv beta. intros g g' (_ & A & B). eapply ST; eassumption.
Qed.
Lemma step_psd k P vs s s' : tracks_cov k = true -> em_step k P vs s s' -> Forall psd (m_gm s').
Proof.
  intros TC (_ & F & _). induction F as [|g g' l l' (_ & _ & C) _ IH]; constructor; [|exact IH].
  unfold new_cov in C. rewrite TC in C. destruct C as (_ & C). revert C. unfold positive_cov.
  generalize (att_mean P s g (fun h p => (px_v p - g_row h) * (px_v p - g_row h)) - yy (cov_of P))
             (att_mean P s g (fun h p => (px_v p - g_row h) * (px_u p - g_col h)) - xy (cov_of P))
             (att_mean P s g (fun h p => (px_u p - g_col h) * (px_u p - g_col h)) - xx (cov_of P)). intros a b c.
  assert (M : 0 < / 10 ^ 4) by (apply Rinv_0_lt_compat; apply pow_lt; lra).
  assert (M2 : 0 < / 10 ^ 200) by (apply Rinv_0_lt_compat; apply pow_lt; lra).
  set (e := / 10 ^ 4) in *. set (e2 := / 10 ^ 200) in *. clearbody e e2.
  assert (K : forall a b c, 0 <= a -> 0 <= c -> (if Rlt_dec (a * c - b * b) e2 then (g_irr g', g_irc g', g_icc g') = ((a + c) / 2, 0, (a + c) / 2)
     else (g_irr g', g_irc g', g_icc g') = (a, b, c)) -> psd g').
  { clear a b c. intros a b c Ha Hc H x y. destruct (Rlt_dec _ _) as [L|L]; injection H as -> -> ->.
    - nra.
    - apply Rnot_lt_le in L. assert (0 < a) by nra.
      replace (a * x * x + 2 * b * x * y + c * y * y) with ((Rsqr (a * x + b * y) + (a * c - b * b) * Rsqr y) / a) by (unfold Rsqr; field; lra).
      apply Rmult_le_pos; [|left; apply Rinv_0_lt_compat; lra]. pose proof (Rle_0_sqr (a * x + b * y)). pose proof (Rle_0_sqr y). nra. }
  destruct (Rlt_dec a 0) as [La|La]; [|destruct (Rlt_dec c 0) as [Lc|Lc]]; intros C; (eapply K; [| |exact C]); lra.
Qed.

(** ** go *)
Lemma pars_fresh g : pars_of (fresh g) = pars_of g. Proof. reflexivity. Qed.
Lemma same_pars_fresh l : same_pars l (map fresh l).
Proof. induction l; constructor; auto. Qed.
Lemma same_pars_norm l : same_pars l (map fresh (map norm_unset l)).
Proof. induction l; constructor; auto. Qed.
Lemma same_pars_visible l l' : Forall2 visible l l' -> same_pars l (map fresh l').
Proof.
  induction 1 as [|x y l l' (_ & _ & S & _) _ IH]; constructor; [|exact IH]. unfold same_gauss in S. unfold pars_of, fresh. cbn.
  decompose [and] S. congruence.
Qed.
Lemma copy_full o : o_kind o = KFull -> exists c, obj_copy o = Ok c /\ o_data c = o_data o.
Proof. intros K. unfold obj_copy. rewrite K. eexists. split; reflexivity. Qed.
Lemma valid_wf m obs guess : valid_call m obs guess -> wf (em_gm m).
Proof. intros ((l & H) & _). eapply run_wf; [apply empty_wf|exact H]. Qed.

(** the cases of a successful or failing call *)
Definition success (f : fitter) (m : emem) (obs : eobs) (guess : nat) (sky : option R) (m' : emem) (r : em_res) : Prop :=
  exists px s G P h n t d a b,
    ran f m obs guess sky px s G P h /\ length h = S n /\ nth_error h n = Some t /\
    r = mkRes (if Nat.leb (f_maxiter f) n then EM_MAXITER else 0%Z) (Some (n, d, m_sky t)) (r_gm r) /\
    get_gmix m' r false = Ok a /\ same_pars (m_gm t) (o_data a) /\
    get_gmix m' r true = Ok b /\ same_pars (views P (m_gm t)) (o_data b) /\
    (1 <= n <= f_maxiter f)%nat /\ (f_miniter f <= n)%nat /\
    (forall j, (1 <= j < n)%nat -> ~ converged (f_kind f) P (f_tol f) (f_miniter f) h j) /\
    (n = f_maxiter f \/ converged (f_kind f) P (f_tol f) (f_miniter f) h n) /\ d = change (f_kind f) P h n.
Definition failure (f : fitter) (m : emem) (obs : eobs) (guess : nat) (sky : option R) (r : em_res) : Prop :=
  r = mkRes EM_RANGE_ERROR None None /\
  exists px s G P, data_given m obs sky px s /\ guess_given m guess G /\ psf_given m obs P /\
    (~ Forall evaluable (views P G) \/
     exists h, ran f m obs guess sky px s G P h /\ (length h <= f_maxiter f)%nat /\
       (forall j, (1 <= j < length h)%nat -> ~ converged (f_kind f) P (f_tol f) (f_miniter f) h j) /\
       stuck (f_kind f) P (f_vary_sky f) (f_miniter f) h).

Lemma go_result f m obs guess sky m' r : valid_call m obs guess -> em_go f m obs guess sky = Some (m', r) ->
  same_old m m' /\
  match r with
  | Ok r => success f m obs guess sky m' r \/ failure f m obs guess sky r
  | Raise e => bad_call m obs guess sky e \/ e = UnboundLocalError /\ (f_maxiter f = 0 \/ f_maxiter f < f_miniter f)%nat
  end.
Proof.
  intros V E. pose proof (valid_wf _ _ _ V) as W. destruct V as (_ & Hg & Hp).
  destruct (go_cases f m obs guess sky m' r W Hg Hp E) as [M C]. split; [apply mext_same; exact M|].
  destruct C as [(e & -> & C)|(px & s & G & P & D1 & D2 & D3 & C)]; [left; exact C|].
  destruct (psf_flux _ _ _ D3) as [F1 NP]. assert (F0 : flux_of P <> 0) by lra.
  destruct (em_run (f_kind f) (conf_of f s) px G P (views P G) (existsb masked px)) as [out|e] eqn:ER.
  - destruct C as (i & j & a & b & -> & Ra & Ka & Da & Rb & Kb & Db). left.
    destruct (em_run_ok _ _ _ _ _ _ NP F0 ER) as (h & t & H1 & H2 & H3 & H4 & H5 & H6 & H7 & H8 & H9 & H10 & H11 & H12).
    destruct (copy_full a Ka) as (a' & Ea & Da'). destruct (copy_full b Kb) as (b' & Eb & Db').
    exists px, s, G, P, h, (o_numiter out), t, (o_fdiff out), a', b'.
    split; [split; [exact D1|split; [exact D2|split; [exact D3|exact H1]]]|]. split; [exact H2|]. split; [exact H3|].
    split; [cbn [r_gm]; rewrite H6; reflexivity|].
    split; [unfold get_gmix; cbn [r_gm]; rewrite Ra; exact Ea|]. split; [rewrite Da', Da, H4; apply same_pars_norm|].
    split; [unfold get_gmix; cbn [r_gm]; rewrite Rb; exact Eb|]. split; [rewrite Db', Db; apply same_pars_visible; exact H7|].
    split; [exact H8|]. split; [exact H9|]. split; [exact H10|]. split; [exact H11|]. exact H12.
  - destruct (em_run_raise _ _ _ _ _ _ NP F0 ER) as [([->| ->] & H)|(-> & H)].
    1,2: subst r; right; split; [reflexivity|]; exists px, s, G, P; split; [exact D1|]; split; [exact D2|]; split; [exact D3|];
      destruct H as [H|(h & H1 & H2 & H3 & H4)]; [left; exact H|right]; exists h; split; [split; [exact D1|split; [exact D2|split; [exact D3|exact H1]]]|]; auto.
    subst r. right. split; [reflexivity|exact H].
Qed.
