(** Proofs of the theorems on go(). *)
From Verif Require Import Base Shape_Model Moments_Spec Jacobian_Model Pixels_Model GMix_Model GMix_Spec FastExp_Model
  Render_Model Render_Spec GMixObj_Model GMixObj_Spec Flags_Model GMix_Proofs
  EM_Model EM_Spec EM_Proofs EMIter_Proofs EMLoop_Proofs EMGo_Proofs EMResult_Proofs EMCex_Proofs.
Local Open Scope R_scope.

Lemma got f m obs guess sky m' r a : valid_call m obs guess -> em_go f m obs guess sky = Some (m', Ok r) -> get_gmix m' r false = Ok a ->
  success f m obs guess sky m' r.
Proof.
  intros V E A. destruct (go_result _ _ _ _ _ _ _ V E) as (_ & [C|(-> & _)]); [exact C|]. discriminate.
Qed.
Lemma same_pars_flux a b : same_pars a b -> flux_of a = flux_of b.
Proof. unfold flux_of. induction 1 as [|x y l l' E _ IH]; [reflexivity|]. cbn [map]. rewrite !rsum_cons, IH. f_equal. injection E. auto. Qed.

Theorem c81 f m obs guess sky m' r a : valid_call m obs guess -> em_go f m obs guess sky = Some (m', Ok r) -> get_gmix m' r false = Ok a ->
  exists px s G P h n t d b, ran f m obs guess sky px s G P h /\ length h = S n /\ nth_error h n = Some t /\
    r_fit r = Some (n, d, m_sky t) /\ same_pars (m_gm t) (o_data a) /\
    get_gmix m' r true = Ok b /\ same_pars (views P (m_gm t)) (o_data b).
Proof.
  intros V E A. destruct (got _ _ _ _ _ _ _ _ V E A) as (px & s & G & P & h & n & t & d & a' & b & R & L & T & ER & GA & SA & GB & SB & _).
  assert (a' = a) by congruence. subst a'. exists px, s, G, P, h, n, t, d, b. rewrite ER at 1. cbn [r_fit]. auto 10.
Qed.
Theorem c38_step f m obs guess sky px s G P h i t t' : ran f m obs guess sky px s G P h ->
  nth_error h i = Some t -> nth_error h (S i) = Some t' ->
  flux_of (m_gm t') + sky_flux P t = rsum (map px_val (m_pix t')) /\
  Forall2 same_unmasked px (m_pix t') /\
  (f_vary_sky f = true -> sky_flux P t = INR (length px) * m_sky t').
Proof.
  intros (_ & _ & _ & R) T T'. pose proof R as (H0 & HS & HE). pose proof (HS _ _ _ T T') as ST. split; [eapply flux_step; exact ST|].
  assert (U : forall j x, nth_error h j = Some x -> Forall2 same_unmasked px (m_pix x)).
  { apply (run_induct _ _ _ _ _ (fun x => Forall2 same_unmasked px (m_pix x)) R).
    - cbn [m_pix]. apply Forall2_refl'. intros p. unfold same_unmasked. auto 10.
    - intros x x' F (_ & _ & PX & _). eapply Forall2_trans'; [|exact F|].
      + intros p q w (A1 & A2 & A3 & A4 & A5) (B1 & B2 & B3 & B4 & B5). unfold same_unmasked. repeat split; try congruence.
        intros K. rewrite A5 by exact K. apply B5. rewrite <- A4. exact K.
      + rewrite PX. unfold filled. generalize (m_pix x). intros l. induction l as [|p l IH]; constructor; [|exact IH].
        unfold same_unmasked. destruct (Rle_dec (px_ierr p) 0); cbn; repeat split; auto. intros; lra. }
  split; [exact (U _ _ T')|]. intros VS. rewrite VS in ST. rewrite <- (sky_step _ _ _ _ ST). f_equal. f_equal.
  symmetry. exact (Forall2_length' _ _ _ (U _ _ T)).
Qed.
Theorem c38 f m obs guess sky px s m' r a : valid_call m obs guess -> em_go f m obs guess sky = Some (m', Ok r) -> get_gmix m' r false = Ok a ->
  data_given m obs sky px s -> unmasked px ->
  exists n d sky', r_fit r = Some (n, d, sky') /\
    if f_vary_sky f then flux_of (o_data a) + INR (length px) * sky' = rsum (map px_val px)
    else sky' = s /\ (s = 0 -> flux_of (o_data a) = rsum (map px_val px)).
Proof.
  intros V E A D U. destruct (got _ _ _ _ _ _ _ _ V E A) as (px' & s' & G & P & h & n & t & d & a' & b & R & L & T & ER & GA & SA & GB & SB & NN & _).
  assert (a' = a) by congruence. subst a'. exists n, d, (m_sky t). rewrite ER at 1. split; [reflexivity|].
  pose proof R as (D' & _ & _ & RR). destruct (data_unique _ _ _ _ _ _ _ D D') as [<- <-]. clear D'.
  destruct n as [|n]; [lia|]. destruct (run_prev _ _ _ _ _ _ _ RR T) as (t0 & T0 & ST).
  destruct (c38_step _ _ _ _ _ _ _ _ _ _ _ _ _ R T0 T) as (F & _ & SK).
  rewrite (run_unmasked _ _ _ _ _ RR U _ _ T) in F. cbn [m_pix] in F. rewrite <- (same_pars_flux _ _ SA).
  destruct (f_vary_sky f) eqn:VS.
  - rewrite <- SK by reflexivity. exact F.
  - split; [apply (run_sky _ _ _ _ RR _ _ T)|]. intros ->. rewrite <- F. pose proof (run_sky _ _ _ _ RR _ _ T0) as Z. cbn [m_sky] in Z.
    unfold sky_flux. rewrite Z. rewrite (rsum_map_ext _ (fun _ => 0)); [rewrite rsum_zero; ring|]. intros p _. unfold Rdiv. ring.
Qed.
Lemma same_pars_frame (Q : gauss -> gauss -> Prop) a b c : (forall x y z, Q x y -> pars_of y = pars_of z -> Q x z) -> Forall2 Q a b -> same_pars b c -> Forall2 Q a c.
Proof.
  intros H F. revert c. induction F; intros c S; inversion S; subst; constructor; eauto.
Qed.
Theorem c39 f m obs guess sky m' r a G : valid_call m obs guess -> em_go f m obs guess sky = Some (m', Ok r) -> get_gmix m' r false = Ok a ->
  guess_given m guess G ->
  length (o_data a) = length G /\
  (f_kind f = FixCen \/ f_kind f = FluxOnly -> Forall2 same_cen G (o_data a)) /\
  (f_kind f = FixCov \/ f_kind f = FluxOnly -> Forall2 same_cov G (o_data a)).
Proof.
  intros V E A D. destruct (got _ _ _ _ _ _ _ _ V E A) as (px' & s' & G' & P & h & n & t & d & a' & b & R & L & T & ER & GA & SA & GB & SB & NN & _).
  assert (a' = a) by congruence. subst a'. destruct R as (_ & D' & _ & RR). pose proof (guess_unique _ _ _ _ D D') as <-.
  assert (FR : forall Q : gauss -> gauss -> Prop, (forall x, Q x x) -> (forall x y z, Q x y -> Q y z -> Q x z) ->
     (forall s g g', new_cen (f_kind f) P s g g' -> new_cov (f_kind f) P s g g' -> Q g g') -> (forall x y z, Q x y -> pars_of y = pars_of z -> Q x z) ->
     Forall2 Q G (o_data a)).
  { intros Q Q1 Q2 Q3 Q4. eapply same_pars_frame; [exact Q4| |exact SA]. exact (run_frame _ _ _ _ _ Q RR Q1 Q2 Q3 _ _ T). }
  split; [|split].
  - symmetry. apply (Forall2_length' _ _ _ (FR (fun _ _ => True) (fun _ => I) (fun _ _ _ _ _ => I) (fun _ _ _ _ _ => I) (fun _ _ _ _ _ => I))).
  - intros K. apply FR; unfold same_cen.
    + auto.
    + intros x y z [] []. split; congruence.
    + intros s g g' C _. unfold new_cen in C. destruct K as [K|K]; rewrite K in C; exact C.
    + intros x y z [] PP. injection PP as _ <- <- _ _ _. auto.
  - intros K. apply FR; unfold same_cov.
    + auto.
    + intros x y z (? & ? & ?) (? & ? & ?). repeat split; congruence.
    + intros s g g' _ C. unfold new_cov in C. destruct K as [K|K]; rewrite K in C; exact C.
    + intros x y z (? & ? & ?) PP. injection PP as _ _ _ <- <- <-. auto.
Qed.
Theorem c82 f m obs guess sky m' r a : valid_call m obs guess -> em_go f m obs guess sky = Some (m', Ok r) -> get_gmix m' r false = Ok a ->
  f_kind f = Free \/ f_kind f = FixCen -> Forall psd (o_data a).
Proof.
  intros V E A K. destruct (got _ _ _ _ _ _ _ _ V E A) as (px' & s' & G' & P & h & n & t & d & a' & b & R & L & T & ER & GA & SA & GB & SB & NN & _).
  assert (a' = a) by congruence. subst a'. destruct R as (_ & _ & _ & RR). destruct n as [|n]; [lia|].
  destruct (run_prev _ _ _ _ _ _ _ RR T) as (t0 & T0 & ST). apply step_psd in ST; [|destruct K as [-> | ->]; reflexivity].
  clear - SA ST. induction SA as [|x y l l' PP _ IH]; constructor; apply Forall_cons_iff in ST; destruct ST as [S1 S2]; [|auto].
  unfold psd in *. injection PP as _ _ _ <- <- <-. exact S1.
Qed.
Theorem c40 f m obs guess sky m' r : valid_call m obs guess -> em_go f m obs guess sky = Some (m', Ok r) ->
  (* range error: nothing is exposed *)
  (r_flags r = EM_RANGE_ERROR /\ r_fit r = None /\ has_gmix r = false /\ (forall b, get_gmix m' r b = Raise RuntimeError)) \/
  (* otherwise *)
  exists px s G P h n t d, ran f m obs guess sky px s G P h /\ length h = S n /\ nth_error h n = Some t /\ r_fit r = Some (n, d, m_sky t) /\
    d = change (f_kind f) P h n /\ has_gmix r = true /\ (forall b, exists a, get_gmix m' r b = Ok a) /\
    (1 <= n <= f_maxiter f)%nat /\ (f_miniter f <= n)%nat /\
    (forall j, (1 <= j < n)%nat -> ~ converged (f_kind f) P (f_tol f) (f_miniter f) h j) /\
    (r_flags r = 0%Z /\ (n < f_maxiter f)%nat /\ converged (f_kind f) P (f_tol f) (f_miniter f) h n \/
     r_flags r = EM_MAXITER /\ n = f_maxiter f).
Proof.
  intros V E. destruct (go_result _ _ _ _ _ _ _ V E) as (_ & [C|(-> & C)]).
  2:{ left. cbn. auto. }
  right. destruct C as (px' & s' & G' & P & h & n & t & d & a' & b & R & L & T & ER & GA & SA & GB & SB & NN & MI & NC & CV & DD).
  exists px', s', G', P, h, n, t, d. split; [exact R|]. split; [exact L|]. split; [exact T|]. split; [rewrite ER; reflexivity|]. split; [exact DD|].
  split. { unfold get_gmix in GA. unfold has_gmix. destruct (r_gm r); [reflexivity|discriminate]. }
  split. { intros [|]; eauto. }
  split; [exact NN|]. split; [exact MI|]. split; [exact NC|]. rewrite ER. cbn [r_flags].
  destruct (Nat.leb (f_maxiter f) n) eqn:LE; [right|left].
  - apply Nat.leb_le in LE. split; [reflexivity|lia].
  - apply Nat.leb_gt in LE. split; [reflexivity|]. split; [exact LE|]. destruct CV as [CV|CV]; [lia|exact CV].
Qed.
Theorem c40_flags f m obs guess sky m' r : valid_call m obs guess -> em_go f m obs guess sky = Some (m', Ok r) -> r_flags r = 0%Z ->
  exists n d sky', r_fit r = Some (n, Some d, sky') /\ d < f_tol f /\ (f_miniter f <= n < f_maxiter f)%nat.
Proof.
  intros V E Z. destruct (c40 _ _ _ _ _ _ _ V E) as [(F & _)|(px & s & G & P & h & n & t & d & C)].
  - rewrite F in Z. discriminate.
  - destruct C as (_ & _ & _ & RF & DD & _ & _ & _ & MI & _ & [(_ & L & (_ & d' & CD & LT))|(F & _)]).
    + exists n, d', (m_sky t). rewrite RF, DD, CD. auto.
    + rewrite F in Z. discriminate.
Qed.
Theorem c40_range f m obs guess sky m' r : valid_call m obs guess -> em_go f m obs guess sky = Some (m', Ok r) -> r_flags r = EM_RANGE_ERROR ->
  exists px s G P, data_given m obs sky px s /\ guess_given m guess G /\ psf_given m obs P /\
    (~ Forall evaluable (views P G) \/
     exists h, ran f m obs guess sky px s G P h /\ (length h <= f_maxiter f)%nat /\
       (forall j, (1 <= j < length h)%nat -> ~ converged (f_kind f) P (f_tol f) (f_miniter f) h j) /\
       stuck (f_kind f) P (f_vary_sky f) (f_miniter f) h).
Proof.
  intros V E Z. destruct (go_result _ _ _ _ _ _ _ V E) as (_ & [C|(_ & C)]); [|exact C].
  exfalso. destruct C as (px' & s' & G' & P & h & n & t & d & a' & b & R & L & T & ER & _). rewrite ER in Z. cbn [r_flags] in Z.
  destruct (Nat.leb (f_maxiter f) n); discriminate.
Qed.
Theorem c40_raise f m obs guess sky m' e : valid_call m obs guess -> em_go f m obs guess sky = Some (m', Raise e) ->
  bad_call m obs guess sky e \/ e = UnboundLocalError /\ (f_maxiter f = 0 \/ f_maxiter f < f_miniter f)%nat.
Proof. intros V E. apply (go_result _ _ _ _ _ _ _ V E). Qed.
Theorem c41_frame f m obs guess sky m' r : valid_call m obs guess -> em_go f m obs guess sky = Some (m', r) -> same_old m m'.
Proof. intros V E. apply (go_result _ _ _ _ _ _ _ V E). Qed.
