From Verif Require Import Base Moments_Spec Jacobian_Model Pixels_Model GMix_Model GMix_Spec Render_Spec GMixObj_Model GMix_Proofs
  EM_Model EM_Spec EM_Proofs EMIter_Proofs EMLoop_Proofs EMGo_Proofs EMResult_Proofs EMCex_Proofs UnitsEM_Spec.
Local Open Scope R_scope.

Lemma rsum_times {A} c (f f' : A -> R) (l l' : list A) : Forall2 (fun a b => f' b = c * f a) l l' -> rsum (map f' l') = c * rsum (map f l).
Proof. induction 1 as [|a b l l' E _ IH]; cbn [map]; [rewrite !rsum_nil; ring|]. rewrite !rsum_cons, E, IH. ring. Qed.
Lemma Forall2_imp2 {A B} (P Q : A -> B -> Prop) a b : (forall x y, P x y -> Q x y) -> Forall2 P a b -> Forall2 Q a b.
Proof. intros H. induction 1; constructor; auto. Qed.
Lemma Forall2_In_l {A B} (Q : A -> B -> Prop) l l' : Forall2 Q l l' -> Forall2 (fun a b => In a l /\ Q a b) l l'.
Proof.
  induction 1 as [|a b l l' E _ IH]; constructor; [split; [left; reflexivity|exact E]|].
  eapply Forall2_imp2; [|exact IH]. cbv beta. intros x y [I J]. split; [right; exact I|exact J].
Qed.
Lemma Forall2_trans3 {A B C} (P : A -> B -> Prop) (Q : B -> C -> Prop) (T : A -> C -> Prop) a b d :
  (forall x y z, P x y -> Q y z -> T x z) -> Forall2 P a b -> Forall2 Q b d -> Forall2 T a d.
Proof. intros H F. revert d. induction F; intros d F'; inversion F'; subst; constructor; eauto. Qed.

Section Units.
Variable c : R.
Hypothesis C : 0 < c.
Variables (k : em_kind) (psf : gmix) (vs : bool).

Lemma pt_gcov g g' : pars_times c g g' -> gcov g' = gcov g /\ g_row g' = g_row g /\ g_col g' = g_col g /\ g_p g' = c * g_p g.
Proof. unfold pars_times, pars_of, gcov. intros E. injection E as -> -> -> -> -> ->. auto. Qed.
Lemma seen_times g g' q : pars_times c g g' -> pars_times c (seen psf g q) (seen psf g' q).
Proof.
  unfold pars_times, pars_of, seen, gauss2d_set. cbn [g_p g_row g_col g_irr g_irc g_icc]. intros E. injection E as -> -> -> -> -> ->.
  f_equal. f_equal. f_equal. f_equal. f_equal. unfold Rdiv. ring.
Qed.
Lemma views_times G G' : gmix_times c G G' -> gmix_times c (views psf G) (views psf G').
Proof.
  unfold gmix_times, views. induction 1 as [|g g' G G' E _ IH]; cbn [flat_map]; [constructor|]. apply Forall2_app; [|exact IH].
  clear IH. assert (K : forall l, Forall2 (pars_times c) (map (seen psf g) l) (map (seen psf g') l)); [|apply K].
  induction l; cbn [map]; constructor; [apply seen_times; exact E|assumption].
Qed.
Lemma dist_times h h' p p' : pars_times c h h' -> pix_times c p p' -> dist2 h' p' = dist2 h p.
Proof.
  intros E (U & V & _). destruct (pt_gcov _ _ E) as (E1 & E2 & E3 & _). unfold dist2. rewrite E1, E2, E3, U, V. reflexivity.
Qed.
Lemma in_pixel_times h h' p p' : pars_times c h h' -> pix_times c p p' -> in_pixel h' p' = c * in_pixel h p.
Proof.
  intros E F. unfold in_pixel. rewrite (dist_times _ _ _ _ E F). destruct (pt_gcov _ _ E) as (-> & _ & _ & ->).
  destruct F as (_ & _ & -> & _). destruct (Rlt_dec _ 25); [unfold Rdiv; ring|ring].
Qed.
Lemma model_times G G' p p' : gmix_times c G G' -> pix_times c p p' -> model psf G' p' = c * model psf G p.
Proof.
  intros E F. unfold model. apply views_times in E. induction E as [|h h' l l' H _ IH]; cbn [map]; [rewrite !rsum_nil; ring|].
  rewrite !rsum_cons, IH, (in_pixel_times _ _ _ _ H F). ring.
Qed.
Lemma filled_times s s' : em_times c s s' -> Forall2 (pix_times c) (filled psf s) (filled psf s').
Proof.
  intros (A & B & D). unfold filled. induction B as [|p p' l l' H _ IH]; cbn [map]; constructor; [|exact IH].
  pose proof H as (H1 & H2 & H3 & H4 & H5). destruct (Rle_dec (px_ierr p) 0), (Rle_dec (px_ierr p') 0); try tauto.
  unfold pix_times. cbn [px_u px_v px_area px_val px_ierr]. rewrite D, (model_times _ _ _ _ A H). repeat split; try tauto. ring.
Qed.
Lemma total_times s s' p p' : em_times c s s' -> pix_times c p p' -> total psf s' p' = c * total psf s p.
Proof. intros (A & B & D) H. unfold total. rewrite D, (model_times _ _ _ _ A H). ring. Qed.
Lemma share_times s s' h h' p p' : em_times c s s' -> pix_times c p p' -> pars_times c h h' -> total psf s p <> 0 ->
  share psf s' h' p' = c * share psf s h p.
Proof.
  intros E F H T. unfold share. rewrite (total_times _ _ _ _ E F), (in_pixel_times _ _ _ _ H F). destruct F as (_ & _ & _ & -> & _).
  field. split; [exact T|lra].
Qed.
Definition lawful (s : em) : Prop := forall p, In p (filled psf s) -> total psf s p <> 0.
Lemma attributed_times s s' g g' (x : gauss -> pixel R -> R) : em_times c s s' -> lawful s -> pars_times c g g' ->
  (forall h h' p p', pars_times c h h' -> pix_times c p p' -> x h' p' = x h p) ->
  attributed psf s' g' x = c * attributed psf s g x.
Proof.
  intros E L H X. unfold attributed.
  apply rsum_times. eapply Forall2_imp2; [|apply Forall2_In_l, filled_times; exact E]. cbv beta. intros p p' [I F].
  apply rsum_times. apply Forall2_refl'. intros q.
  pose proof (seen_times _ _ q H) as S. rewrite (X _ _ _ _ S F), (share_times _ _ _ _ _ _ E F S (L p I)). ring.
Qed.
Lemma mean_times s s' g g' (x : gauss -> pixel R -> R) : em_times c s s' -> lawful s -> pars_times c g g' -> att_flux psf s g <> 0 ->
  (forall h h' p p', pars_times c h h' -> pix_times c p p' -> x h' p' = x h p) ->
  att_mean psf s' g' x = att_mean psf s g x.
Proof.
  intros E L H N X. unfold att_mean, att_flux in *. rewrite (attributed_times s s' g g' x), (attributed_times s s' g g' (fun _ _ => 1)); auto.
  field. split; [exact N|lra].
Qed.
Lemma sky_times s s' : em_times c s s' -> lawful s -> sky_flux psf s' = c * sky_flux psf s.
Proof.
  intros E L. unfold sky_flux. apply rsum_times. eapply Forall2_imp2; [|apply Forall2_In_l, filled_times; exact E]. cbv beta. intros p p' [I F].
  rewrite (total_times _ _ _ _ E F). destruct E as (_ & _ & ->). destruct F as (_ & _ & _ & -> & _). field. split; [exact (L p I)|lra].
Qed.

(** ** one iteration *)
Definition gt (g : gauss) : gauss := gauss2d_set (c * g_p g) (g_row g) (g_col g) (g_irr g) (g_irc g) (g_icc g).
Lemma gt_times G : gmix_times c G (map gt G).
Proof. unfold gmix_times. induction G; cbn [map]; constructor; [reflexivity|assumption]. Qed.
Lemma new_times s s' g g' g1 : em_times c s s' -> lawful s -> pars_times c g g' ->
  g_p g1 = att_flux psf s g /\ new_cen k psf s g g1 /\ new_cov k psf s g g1 ->
  g_p (gt g1) = att_flux psf s' g' /\ new_cen k psf s' g' (gt g1) /\ new_cov k psf s' g' (gt g1).
Proof.
  intros E L H (A & B & D).
  assert (AF : att_flux psf s' g' = c * att_flux psf s g) by (unfold att_flux; apply attributed_times; auto).
  assert (XV : forall h h' p p', pars_times c h h' -> pix_times c p p' -> px_v p' = px_v p /\ px_u p' = px_u p /\ g_row h' = g_row h /\ g_col h' = g_col h).
  { intros h h' p p' X Y. destruct (pt_gcov _ _ X) as (_ & ? & ? & _). destruct Y as (? & ? & _). auto. }
  pose proof (pt_gcov _ _ H) as (_ & R1 & R2 & _).
  split; [cbn [gt gauss2d_set g_p]; rewrite AF, A; reflexivity|]. split.
  - unfold new_cen in *. cbn [gt gauss2d_set g_row g_col]. destruct (tracks_cen k).
    + destruct B as (N & B1 & B2). rewrite AF. split; [nra|]. rewrite !(mean_times s s' g g'); auto; intros h h' p p' X Y; destruct (XV _ _ _ _ X Y) as (? & ? & _); assumption.
    + rewrite R1, R2. exact B.
  - unfold new_cov in *. cbn [gt gauss2d_set g_irr g_irc g_icc]. destruct (tracks_cov k).
    + destruct D as (N & D). rewrite AF. split; [nra|].
      rewrite !(mean_times s s' g g'); auto; intros h h' p p' X Y; cbv beta; destruct (XV _ _ _ _ X Y) as (E1 & E2 & E3 & E4); rewrite ?E1, ?E2, ?E3, ?E4; reflexivity.
    + unfold pars_times, pars_of in H. injection H as _ _ _ -> -> ->. exact D.
Qed.
Lemma step_times s s' s1 : em_times c s s' -> em_step k psf vs s s1 -> exists s1', em_step k psf vs s' s1' /\ em_times c s1 s1'.
Proof.
  intros E (L & A & B & D). exists (mkEM (map gt (m_gm s1)) (filled psf s') (c * m_sky s1)). split.
  - split; [|split; [|split]].
    + intros p' I. pose proof (filled_times _ _ E) as F. clear - F I L E C. assert (exists p, In p (filled psf s) /\ pix_times c p p') as (p & J & H).
      { revert I. clear L. induction F as [|p q l l' H _ IH]; intros I; [destruct I|]. destruct I as [<-|I]; [exists p; split; [left; reflexivity|exact H]|].
        destruct (IH I) as (p1 & J & K). exists p1. split; [right; exact J|exact K]. }
      rewrite (total_times _ _ _ _ E H). pose proof (L p J). nra.
    + cbn [m_gm]. pose proof E as (EG & _). clear B D. revert EG. generalize (m_gm s'). induction A as [|g g1 l l1 H _ IH]; intros l' EG; inversion EG; subst; cbn [map]; constructor; auto.
      apply (new_times s s' g y g1); auto.
    + reflexivity.
    + cbn [m_sky]. pose proof E as (_ & EP & ES). destruct vs.
      * destruct D as [D1 D2]. split; [intros Z; rewrite Z in EP; inversion EP; subst; congruence|].
        rewrite (sky_times _ _ E L), D2, <- (Forall2_length' _ _ _ EP). unfold Rdiv. ring.
      * rewrite D, ES. reflexivity.
  - split; [apply gt_times|]. cbn [m_pix m_sky]. split; [rewrite B; apply filled_times; exact E|reflexivity].
Qed.
Lemma step_unique s a b : em_step k psf vs s a -> em_step k psf vs s b ->
  same_pars (m_gm a) (m_gm b) /\ m_pix a = m_pix b /\ m_sky a = m_sky b.
Proof.
  intros (_ & A1 & B1 & C1) (_ & A2 & B2 & C2). split; [|split; [congruence|]].
  - clear B1 B2 C1 C2. unfold same_pars. revert A2. generalize (m_gm b). induction A1 as [|g g1 l l1 H1 _ IH]; intros l2 A2; inversion A2; subst; constructor; auto.
    apply (upd_rel_unique k psf s g); assumption.
  - destruct vs; [destruct C1 as [_ ->], C2 as [_ ->]; reflexivity|congruence].
Qed.
Lemma same_pars_times a b d : gmix_times c a b -> same_pars b d -> gmix_times c a d.
Proof. apply Forall2_trans3. unfold pars_times. intros x y z E <-. exact E. Qed.
Lemma same_pars_times_l a b d : same_pars a b -> gmix_times c a d -> gmix_times c b d.
Proof.
  intros S. revert d. induction S as [|x y l l' E _ IH]; intros d F; inversion F as [|? z ? ? Ez Fz]; subst; constructor; [|apply IH; assumption].
  unfold pars_times in *. rewrite Ez. unfold pars_of in E. injection E as -> -> -> -> -> ->. reflexivity.
Qed.
Lemma step_both s s' s1 s1' : em_times c s s' -> em_step k psf vs s s1 -> em_step k psf vs s' s1' -> em_times c s1 s1'.
Proof.
  intros E S S'. destruct (step_times _ _ _ E S) as (t & T & (E1 & E2 & E3)). destruct (step_unique _ _ _ T S') as (U1 & U2 & U3).
  split; [eapply same_pars_times; eassumption|]. split; [rewrite <- U2; exact E2|rewrite <- U3; exact E3].
Qed.
Lemma evaluable_times G G' : gmix_times c G G' -> Forall evaluable (views psf G) -> Forall evaluable (views psf G').
Proof.
  intros E. apply views_times in E. induction E as [|h h' l l' H _ IH]; intros F; inversion F; subst; constructor; auto.
  unfold evaluable in *. destruct (pt_gcov _ _ H) as (-> & _). assumption.
Qed.
Lemma flux_times G G' : gmix_times c G G' -> flux_of G' = c * flux_of G.
Proof. intros E. unfold flux_of. apply rsum_times. eapply Forall2_imp2; [|exact E]. intros x y H. apply pt_gcov in H. tauto. Qed.

(** ** a run *)
Lemma runs_times s0 s0' h h' : em_times c s0 s0' -> is_run k psf vs s0 h -> is_run k psf vs s0' h' ->
  forall i a b, nth_error h i = Some a -> nth_error h' i = Some b -> em_times c a b.
Proof.
  intros E (A0 & A1 & _) (B0 & B1 & _). induction i as [|i IH]; intros a b Ha Hb.
  - assert (a = s0) by congruence. assert (b = s0') by congruence. subst. exact E.
  - destruct (nth_error h i) as [a0|] eqn:Ea; [|apply nth_error_None in Ea; assert (S i < length h)%nat by (apply nth_error_Some; congruence); lia].
    destruct (nth_error h' i) as [b0|] eqn:Eb; [|apply nth_error_None in Eb; assert (S i < length h')%nat by (apply nth_error_Some; congruence); lia].
    eapply step_both; [exact (IH _ _ eq_refl eq_refl)|eapply A1; eassumption|eapply B1; eassumption].
Qed.

(** ** the likelihood *)
Lemma log_dens_times h h' p p' : pars_times c h h' -> pix_times c p p' ->
  log_dens h' p' = match log_dens h p with Some x => Some (c * (x + in_pixel h p * ln c)) | None => None end.
Proof.
  intros E F. unfold log_dens. rewrite (in_pixel_times _ _ _ _ E F), (dist_times _ _ _ _ E F). destruct (pt_gcov _ _ E) as (-> & _ & _ & ->).
  destruct (Rlt_dec 0 (g_p h)) as [P|P]; destruct (Rlt_dec 0 (c * g_p h)) as [Q|Q]; try (exfalso; nra); [|reflexivity].
  rewrite ln_mult by assumption. f_equal. ring.
Qed.
Lemma osum_dens_times hs hs' p p' : gmix_times c hs hs' -> pix_times c p p' ->
  osum (map (fun h => log_dens h p') hs') =
  match osum (map (fun h => log_dens h p) hs) with Some x => Some (c * (x + rsum (map (fun h => in_pixel h p) hs) * ln c)) | None => None end.
Proof.
  intros E F. induction E as [|h h' l l' H _ IH]; cbn [map osum]; [f_equal; rewrite rsum_nil; ring|].
  rewrite IH, (log_dens_times _ _ _ _ H F), rsum_cons. destruct (log_dens h p) as [x|]; [|reflexivity]. destruct (osum (map _ l)); [|reflexivity]. f_equal. ring.
Qed.
Lemma log_like_times s s' : em_times c s s' ->
  log_like psf s' = match log_like psf s with Some L => Some (L + INR (lit psf s) * ln c) | None => None end.
Proof.
  intros E. unfold log_like, lit. pose proof (filled_times _ _ E) as F. destruct E as (EG & _).
  induction F as [|p p' l l' H _ IH]; [cbn; f_equal; ring|]. cbn [map osum filter]. rewrite IH. clear IH.
  rewrite (model_times _ _ _ _ EG H), (osum_dens_times _ _ _ _ (views_times _ _ EG) H).
  change (rsum (map (fun h => in_pixel h p) (views psf (m_gm s)))) with (model psf (m_gm s) p).
  destruct (Req_EM_T (model psf (m_gm s) p) 0) as [Z|Z].
  - rewrite Z. destruct (Req_EM_T (c * 0) 0) as [_|N]; [|exfalso; apply N; ring]. destruct (osum (map _ l)); [f_equal; ring|reflexivity].
  - destruct (Req_EM_T (c * model psf (m_gm s) p) 0) as [Y|_]; [exfalso; nra|]. cbn [length]. rewrite S_INR.
    destruct (osum (map _ (views _ _))) as [x|]; [|reflexivity]. destruct (osum (map _ l)) as [y|]; [|reflexivity]. f_equal. field. split; [exact Z|lra].
Qed.
End Units.
