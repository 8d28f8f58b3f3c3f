(** Uniqueness of the outcome of adaptive moments, and what the flags mean. *)
From Verif Require Import Base XReal Moments_Model Moments_Spec Shape_Model Shape_Spec Shape_Proofs Jacobian_Model Pixels_Model GMix_Model GMix_Spec GMix_Proofs FastExp_Model FastExp_Proofs
  Render_Model Render_Spec Render_Proofs GMixObj_Model GMixObj_Spec GMixObj_Proofs Flags_Model WSums_Model WSums_Proofs MomResult_Model MomResult_Spec MomResult_Proofs
  ObsS2N_Proofs EM_Model EM_Spec EM_Proofs Admom_Model Admom_Spec Admom_Proofs Admom2_Proofs.
Local Open Scope R_scope.

Section Det.
Variables (c : am_conf) (px : list (pixel R)) (w0 : gmix).
Notation reached := (reached c px w0).
Notation measures := (measures c px w0).

Lemma measures_det w wc M wc' M' : measures w wc M -> measures w wc' M' -> wc = wc' /\ M = M'.
Proof. intros (_ & _ & _ & A & _ & _ & B & _) (_ & _ & _ & A' & _ & _ & B' & _). subst. auto. Qed.
Lemma next_det wc M w w' : next c wc M w -> next c wc M w' -> w = w'.
Proof. unfold next. destruct (ac_cenonly c); [congruence|]. intros [_ A] [_ B]. congruence. Qed.
Lemma reached_det i : forall old w old' w', reached i old w -> reached i old' w' -> old = old' /\ w = w'.
Proof.
  induction i as [|i IH]; intros old w old' w' A B; inversion A; inversion B; subst; [auto|].
  match goal with H1 : Admom_Spec.reached _ _ _ i ?o1 ?x1, H2 : Admom_Spec.reached _ _ _ i ?o2 ?x2 |- _ => destruct (IH _ _ _ _ H1 H2) as [-> ->] end.
  match goal with H1 : Admom_Spec.measures _ _ _ ?x _ _, H2 : Admom_Spec.measures _ _ _ ?x _ _ |- _ => destruct (measures_det _ _ _ _ _ H1 H2) as [-> ->] end.
  split; [reflexivity|]. eapply next_det; eassumption.
Qed.
Definition goes_on (old : option sym2) (w : gmix) : Prop :=
  exists wc M w', measures w wc M /\ (forall M0, old = Some M0 -> ~ agrees c M0 M) /\ next c wc M w'.
Lemma reached_before n old w : reached n old w -> forall i, (i < n)%nat -> exists oi wi, reached i oi wi /\ goes_on oi wi.
Proof.
  induction 1 as [|k o v wc M v' R IH ME NA NX]; intros i Hi; [lia|]. destruct (Nat.eq_dec i k) as [->|D]; [|apply IH; lia].
  exists o, v. split; [exact R|]. exists wc, M, v'. auto.
Qed.
(** how an iteration stops the run, and under which number it is reported *)
Definition stops (old : option sym2) (w : gmix) (f : Z) (r : bool) : Prop :=
  (exists M0 wc M, old = Some M0 /\ measures w wc M /\ agrees c M0 M /\ f = 0%Z /\ r = true) \/
  (det2 (cov0_of w) < low /\ f = LOW_DET /\ r = true) \/
  (low <= det2 (cov0_of w) /\ ~ Forall evaluable w /\ f = GMIX_RANGE_ERROR /\ r = false) \/
  (low <= det2 (cov0_of w) /\ Forall evaluable w /\ wflux w px <= 0 /\ f = NONPOS_FLUX /\ r = true) \/
  (low <= det2 (cov0_of w) /\ Forall evaluable w /\ 0 < wflux w px /\ ~ in_range c w0 (centred px w) /\ f = CEN_SHIFT /\ r = true) \/
  (low <= det2 (cov0_of w) /\ Forall evaluable w /\ 0 < wflux w px /\ in_range c w0 (centred px w) /\ wflux (centred px w) px <= 0 /\ f = NONPOS_FLUX /\ r = true) \/
  (low <= det2 (cov0_of w) /\ Forall evaluable w /\ 0 < wflux w px /\ in_range c w0 (centred px w) /\ 0 < wflux (centred px w) px /\
     trace2 (mom2 px (centred px w)) <= 0 /\ f = NONPOS_SIZE /\ r = true) \/
  (exists wc M, measures w wc M /\ (forall M0, old = Some M0 -> ~ agrees c M0 M) /\ ac_cenonly c = false /\ ~ can_deweight (cov0_of wc) M /\ f = LOW_DET /\ r = true).
Lemma ends_stops f n : ends c px w0 f n ->
  (exists i old w r, (i < ac_maxiter c)%nat /\ reached i old w /\ stops old w f r /\ n = if r : bool then S i else 0%nat) \/
  (exists old w, reached (ac_maxiter c) old w /\ f = MAXITER /\ n = ac_maxiter c).
Proof.
  destruct 1; [left|left|left|left|left|left|left|left|right].
  all: try (match goal with R : Admom_Spec.reached _ _ _ ?i ?o ?w |- _ => exists i, o, w, true; split; [assumption|]; split; [assumption|]; split; [|reflexivity] end; unfold stops).
  - left. exists M0, wc, M. auto 10.
  - right. left. auto.
  - exists i, old, w, false. split; [assumption|]. split; [assumption|]. split; [|reflexivity]. right. right. left. auto.
  - do 3 right. left. auto.
  - do 4 right. left. auto 10.
  - do 5 right. left. repeat (split; [assumption|]). auto.
  - do 6 right. left. repeat (split; [assumption|]). auto.
  - do 7 right. exists wc, M. repeat (split; [assumption|]). auto.
  - exists old, w. auto.
Qed.
Lemma stops_not_on old w f r : stops old w f r -> goes_on old w -> False.
Proof.
  intros S (wc & M & w' & ME & NA & NX). pose proof ME as (A1 & A2 & A3 & A4 & A5 & A6 & A7 & A8). subst wc.
  destruct S as [(M0 & wc' & M' & E0 & ME' & AG & _)|[S|[S|[S|[S|[S|[S|(wc' & M' & ME' & _ & CN & NC & _)]]]]]]].
  - destruct (measures_det _ _ _ _ _ ME ME') as [_ <-]. exact (NA M0 E0 AG).
  - lra.
  - tauto.
  - lra.
  - tauto.
  - lra.
  - subst M. lra.
  - destruct (measures_det _ _ _ _ _ ME ME') as [<- <-]. unfold next in NX. rewrite CN in NX. tauto.
Qed.
Lemma stops_det old w f r f' r' : stops old w f r -> stops old w f' r' -> f = f' /\ r = r'.
Proof.
  intros A B.
  destruct A as [(M0 & wc1 & M1 & E0 & ME & AG & -> & ->)|[A|[A|[A|[A|[A|[A|(wc1 & M1 & ME & NA & CN & NC & -> & ->)]]]]]]];
  destruct B as [(M0' & wc2 & M2 & E0' & ME2 & AG2 & -> & ->)|[B|[B|[B|[B|[B|[B|(wc2 & M2 & ME2 & NA2 & CN2 & NC2 & -> & ->)]]]]]]];
  try (destruct A as (? & A)); try (destruct B as (? & B));
  try (destruct (measures_det _ _ _ _ _ ME ME2) as [<- <-]);
  try (pose proof ME as (Q1 & Q2 & Q3 & Q4 & Q5 & Q6 & Q7 & Q8); subst wc1);
  try (pose proof ME2 as (P1 & P2 & P3 & P4 & P5 & P6 & P7 & P8); subst wc2);
  try (subst M1); try (subst M2);
  try (exfalso; first [lra | tauto | decompose [and] A; lra | decompose [and] B; lra | decompose [and] A; decompose [and] B; first [lra|tauto] | (eapply NA; eassumption) | (eapply NA2; eassumption)]);
  try (decompose [and] A); try (decompose [and] B); subst; auto.
Qed.
Lemma ends_det f n f' n' : ends c px w0 f n -> ends c px w0 f' n' -> f = f' /\ n = n'.
Proof.
  intros A B. apply ends_stops in A, B.
  destruct A as [(i & o & w & r & L & R & S & E)|(o & w & R & E & En)]; destruct B as [(i' & o' & w' & r' & L' & R' & S' & E')|(o' & w' & R' & E' & En')].
  - destruct (Nat.lt_trichotomy i i') as [K|[<-|K]].
    + exfalso. destruct (reached_before _ _ _ R' i K) as (oi & wi & Ri & G). destruct (reached_det _ _ _ _ _ R Ri) as [<- <-]. exact (stops_not_on _ _ _ _ S G).
    + destruct (reached_det _ _ _ _ _ R R') as [<- <-]. destruct (stops_det _ _ _ _ _ _ S S') as [<- <-]. subst. auto.
    + exfalso. destruct (reached_before _ _ _ R i' K) as (oi & wi & Ri & G). destruct (reached_det _ _ _ _ _ R' Ri) as [<- <-]. exact (stops_not_on _ _ _ _ S' G).
  - exfalso. destruct (reached_before _ _ _ R' i L) as (oi & wi & Ri & G). destruct (reached_det _ _ _ _ _ R Ri) as [<- <-]. exact (stops_not_on _ _ _ _ S G).
  - exfalso. destruct (reached_before _ _ _ R i' L') as (oi & wi & Ri & G). destruct (reached_det _ _ _ _ _ R' Ri) as [<- <-]. exact (stops_not_on _ _ _ _ S' G).
  - subst. auto.
Qed.
Lemma reached_some i M w : reached i (Some M) w -> (1 <= i)%nat.
Proof. inversion 1. lia. Qed.
Lemma ends_flags f n : ends c px w0 f n -> In f [0; LOW_DET; GMIX_RANGE_ERROR; NONPOS_FLUX; CEN_SHIFT; NONPOS_SIZE; MAXITER]%Z.
Proof. destruct 1; cbn; tauto. Qed.
Lemma ends_maxiter f n : ends c px w0 f n -> f = MAXITER -> n = ac_maxiter c.
Proof. destruct 1; intros K; try discriminate; reflexivity. Qed.
Lemma converges_unique n wc n' wc' : converges c px w0 n wc -> converges c px w0 n' wc' -> n = n' -> wc = wc'.
Proof.
  intros (i & M0 & w & M & -> & R & ME & _) (i' & M0' & w' & M' & -> & R' & ME' & _) E. injection E as <-.
  destruct (reached_det _ _ _ _ _ R R') as [_ <-]. apply (measures_det _ _ _ _ _ ME ME').
Qed.
Lemma converges_ends n wc : (n <= ac_maxiter c)%nat -> converges c px w0 n wc -> ends c px w0 0 n.
Proof. intros L (i & M0 & w & M & -> & R & ME & AG). eapply e_converged; try eassumption. Qed.
End Det.

(** ** meaning of the flags *)
Lemma failed_nonzero d f : f <> 0%Z -> failed_dict d f -> d_flags d <> 0%Z.
Proof. intros F ([(_ & ->)|(_ & ->)] & _); [exact F|]. intros K. apply Z.lor_eq_0_iff in K. tauto. Qed.
Lemma ok_converged c o wt d : good_input c o wt -> snd (am_run c o wt) = Ok d -> d_flags d = 0%Z ->
  (2 <= d_numiter d < ac_maxiter c)%nat /\ exists wc, converges c (ao_pix o) (plain wt) (d_numiter d) wc /\
    dict_describes d wc (ao_pix o) (get_area (ao_jac o)) /\ shape_describes d wc (ao_pix o) /\ plain (fst (am_run c o wt)) = wc.
Proof.
  intros G E F. destruct (am_run_spec c o wt G) as (d' & f & E' & EN & L & H). rewrite E in E'. injection E' as <-. cbv zeta in H.
  destruct H as [(B & K)|(B & wc & CV & D & S & PW)].
  - exfalso. exact (failed_nonzero _ _ B K F).
  - destruct (Nat.eqb_spec (d_numiter d) (ac_maxiter c)) as [Q|Q]; [discriminate|]. split; [|exists wc; auto].
    destruct CV as (i & M0 & w & M & Ei & RR & _). apply reached_some in RR. lia.
Qed.
Lemma outcome c o wt f n : good_input c o wt -> ends c (ao_pix o) (plain wt) f n -> (n <= ac_maxiter c)%nat /\
  exists d, snd (am_run c o wt) = Ok d /\ d_numiter d = n /\
    (base_flag c n f <> 0%Z -> failed_dict d (base_flag c n f)) /\
    (base_flag c n f = 0%Z -> exists wc, converges c (ao_pix o) (plain wt) n wc /\ dict_describes d wc (ao_pix o) (get_area (ao_jac o)) /\ shape_describes d wc (ao_pix o) /\ plain (fst (am_run c o wt)) = wc).
Proof.
  intros G E. destruct (am_run_spec c o wt G) as (d & f' & E' & EN & L & H). destruct (ends_det _ _ _ _ _ _ _ E EN) as [-> ->]. split; [exact L|].
  exists d. split; [exact E'|]. split; [reflexivity|]. unfold base_flag. destruct H as [(B & K)|(B & wc & CV & D & S & PW)].
  - split; [auto|]. intros Z. congruence.
  - split; [congruence|]. intros _. exists wc. auto.
Qed.
Lemma outcome_exists c o wt : good_input c o wt -> exists f n, ends c (ao_pix o) (plain wt) f n.
Proof. intros G. destruct (am_run_spec c o wt G) as (d & f & _ & EN & _). eauto. Qed.
(** the MAXITER bit *)
Lemma maxiter_bit c o wt d : good_input c o wt -> snd (am_run c o wt) = Ok d ->
  (Z.land (d_flags d) MAXITER <> 0%Z <-> d_numiter d = ac_maxiter c).
Proof.
  intros G E. destruct (am_run_spec c o wt G) as (d' & f & E' & EN & L & H). rewrite E in E'. injection E' as <-. cbv zeta in H.
  pose proof (ends_maxiter _ _ _ _ _ EN) as MX. apply ends_flags in EN. destruct (Nat.eqb_spec (d_numiter d) (ac_maxiter c)) as [Q|Q].
  - split; [intros _; exact Q|]. intros _. destruct H as [(B & ([(_ & ->)|(_ & ->)] & _))|(B & _)]; discriminate.
  - split; [|congruence]. intros K. exfalso. apply K.
    destruct H as [(B & ([(_ & ->)|(_ & ->)] & _))|(B & wc & CV & D & S & _)].
    + cbn in EN. destruct EN as [<-|[<-|[<-|[<-|[<-|[<-|[<-|[]]]]]]]]; try reflexivity. exfalso. exact (Q (MX eq_refl)).
    + cbn in EN. destruct EN as [<-|[<-|[<-|[<-|[<-|[<-|[<-|[]]]]]]]]; try reflexivity. exfalso. exact (Q (MX eq_refl)).
    + destruct S as [(_ & -> & _)|(_ & _ & _ & [(_ & -> & _)|(_ & -> & _)])]; reflexivity.
Qed.
