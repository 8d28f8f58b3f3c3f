(** Proofs on images of EM and adaptive-moment results. *)
From Verif Require Import Base XReal Moments_Spec Jacobian_Model Jacobian_Spec Pixels_Model GMix_Model GMix_Spec GMix_Proofs GMixObj_Model GMixObj_Proofs
  Render_Model Render_Spec Render_Proofs FastExp_Model Flags_Model EM_Model EM_Spec EM_Proofs EMIter_Proofs EMLoop_Proofs EMGo_Proofs EMResult_Proofs EMCex_Proofs EMThm_Proofs
  PSFFlux_Model Admom_Model Admom_Spec Admom_Proofs Admom2_Proofs Admom3_Proofs Admom4_Proofs Admom5_Proofs Results_Model Results_Spec.
Local Open Scope R_scope.

Lemma raw_good d : d <> [] -> Forall raw d -> Forall evaluable d -> good_gmix d.
Proof.
  intros N Fr E. split; [exact N|]. split; [eapply Forall_impl; [|exact Fr]; intros g [C _]; exact C|]. split; [exact E|].
  intros g rest -> Hn. apply Forall_cons_iff in Fr. destruct Fr as [[_ K] _]. congruence.
Qed.
Lemma fresh_raw g : raw (fresh g). Proof. apply raw_set. Qed.
Lemma good_shows d nr nc j : good_gmix d -> exists im, snd (make_image d nr nc (Some j) false) = Ok im /\ shows d j nr nc im.
Proof. intros G. destruct (make_image_exact d nr nc j G) as (gm' & im & -> & _ & _ & A & B & C). exists im. split; [reflexivity|split; [exact A|split; [exact B|exact C]]]. Qed.

(** ** mixtures that differ in the cached norms only have the same brightness *)
Lemma component_pars x y v u : pars_of x = pars_of y -> component x v u = component y v u.
Proof. unfold pars_of. intros E. injection E as E1 E2 E3 E4 E5 E6. unfold component, gcov. rewrite E1, E2, E3, E4, E5, E6. reflexivity. Qed.
Lemma brightness_pars a b v u : same_pars a b -> brightness a v u = brightness b v u.
Proof.
  unfold brightness. induction 1 as [|x y l l' E _ IH]; [reflexivity|]. cbn [map]. rewrite !rsum_cons, IH, (component_pars _ _ _ _ E). reflexivity.
Qed.
Lemma evaluable_pars x y : pars_of x = pars_of y -> evaluable x -> evaluable y.
Proof. unfold pars_of. intros E. injection E as E1 E2 E3 E4 E5 E6. unfold evaluable, gcov. rewrite E4, E5, E6. auto. Qed.
Lemma evaluable_same a b : same_pars a b -> Forall evaluable a -> Forall evaluable b.
Proof. induction 1 as [|x y l l' E _ IH]; intros H; [constructor|]. apply Forall_cons_iff in H. destruct H. constructor; [eapply evaluable_pars; eassumption|auto]. Qed.
Lemma seen_pars P x y q : pars_of x = pars_of y -> seen P x q = seen P y q.
Proof. unfold pars_of. intros E. injection E as E1 E2 E3 E4 E5 E6. unfold seen. rewrite E1, E2, E3, E4, E5, E6. reflexivity. Qed.
Lemma views_pars P a b : same_pars a b -> views P a = views P b.
Proof.
  unfold views. induction 1 as [|x y l l' E _ IH]; [reflexivity|]. cbn [flat_map]. rewrite IH. f_equal. apply map_ext. intros q. apply seen_pars, E.
Qed.

(** ** EM *)
Lemma go_raw f m obs guess sky m' r b : valid_call m obs guess -> em_go f m obs guess sky = Some (m', Ok r) -> EM_Model.get_gmix m' r true = Ok b ->
  Forall raw (o_data b).
Proof.
  intros V E B. pose proof (valid_wf _ _ _ V) as W. destruct V as (_ & Hg & Hp).
  destruct (go_cases f m obs guess sky m' _ W Hg Hp E) as [_ [(e & H & _)|(px & s & G & P & _ & _ & _ & C)]]; [discriminate|].
  assert (FR : forall d, Forall raw (map fresh d)) by (intros d; induction d; cbn [map]; [apply Forall_nil|apply Forall_cons; [apply fresh_raw|assumption]]).
  destruct (em_run _ _ _ _ _ _ _) as [out|e].
  - destruct C as (i & j & a & b0 & C & _ & _ & _ & Rb & Kb & Db). injection C as ->. unfold EM_Model.get_gmix in B. cbn [r_gm] in B. rewrite Rb in B.
    destruct (copy_full b0 Kb) as (b' & Eb & Db'). assert (b' = b) by congruence. subst b'. rewrite Db', Db. apply FR.
  - destruct e; try discriminate; injection C as ->; discriminate.
Qed.
Lemma views_nonempty P g : P <> [] -> g <> [] -> views P g <> [].
Proof. destruct g, P; cbn; congruence. Qed.
Lemma em_image f m obs guess sky m' r a P im0 : valid_call m obs guess -> em_go f m obs guess sky = Some (m', Ok r) ->
  EM_Model.get_gmix m' r false = Ok a -> o_data a <> [] -> psf_given m obs P -> nth_error (em_im m) (eo_image obs) = Some im0 ->
  exists im, em_make_image m' r obs = Some (Ok im) /\ shows (views P (o_data a)) (eo_jac obs) (nrow im0) (ncol im0) im.
Proof.
  intros V E A NA HP HI. destruct (got _ _ _ _ _ _ _ _ V E A) as (px & s & G & P' & h & n & t & d & a' & b & R & L & T & ER & GA & SA & GB & SB & _).
  assert (a' = a) by congruence. subst a'. pose proof R as (_ & _ & HP' & RR). rewrite (psf_unique _ _ _ _ HP HP') in *. clear HP P.
  destruct (psf_flux _ _ _ HP') as [_ NP].
  assert (EV : Forall evaluable (o_data b)). { eapply evaluable_same; [exact SB|]. destruct RR as (_ & _ & RE). apply RE. eapply nth_error_In. exact T. }
  assert (NB : o_data b <> []).
  { intros K. rewrite K in SB. inversion SB as [K'|]. apply NA. symmetry in K'. destruct (m_gm t) as [|x l] eqn:Et.
    - inversion SA. reflexivity.
    - exfalso. revert K'. apply views_nonempty; [exact NP|discriminate]. }
  destruct (good_shows (o_data b) (nrow im0) (ncol im0) (eo_jac obs) (raw_good _ NB (go_raw _ _ _ _ _ _ _ _ V E GB) EV)) as (im & Ei & S1 & S2 & S3).
  exists im. pose proof (c41_frame _ _ _ _ _ _ _ V E) as (_ & _ & FI). split.
  - unfold em_make_image. rewrite (FI _ _ HI), GB. cbn [bind]. rewrite Ei. reflexivity.
  - split; [exact S1|]. split; [exact S2|]. intros r0 c v u Hr Hc M. rewrite (S3 r0 c v u Hr Hc M). do 2 f_equal.
    rewrite <- (brightness_pars _ _ v u SB), (views_pars P' _ _ SA). reflexivity.
Qed.
Lemma em_image_none f m obs guess sky m' r im0 : valid_call m obs guess -> em_go f m obs guess sky = Some (m', Ok r) ->
  nth_error (em_im m) (eo_image obs) = Some im0 -> has_gmix r = false -> em_make_image m' r obs = Some (Raise RuntimeError).
Proof.
  intros V E HI H. pose proof (c41_frame _ _ _ _ _ _ _ V E) as (_ & _ & FI). unfold em_make_image. rewrite (FI _ _ HI).
  unfold has_gmix in H. unfold EM_Model.get_gmix. destruct (r_gm r); [discriminate|reflexivity].
Qed.

(** ** adaptive moments *)
Lemma rsum_concat (l : list (list R)) : rsum (concat l) = rsum (map rsum l).
Proof. induction l as [|a l IH]; [reflexivity|]. cbn [concat map]. rewrite rsum_app, rsum_cons, IH. reflexivity. Qed.
Lemma cells_total im : rsum (cells (nrow im) (ncol im) (at2 im)) = total_of im.
Proof. unfold cells, total_of. rewrite rsum_concat, map_map. reflexivity. Qed.
Lemma set_flux_one f g0 : g_p g0 = 1 -> raw g0 -> exists g1, gm_set_flux [g0] f = Some [g1] /\ raw g1 /\
  pars_of g1 = (f, g_row g0, g_col g0, g_irr g0, g_irc g0, g_icc g0).
Proof.
  intros P1 [C N]. assert (F1 : flux_of [g0] = 1) by (unfold flux_of; cbn [map]; rewrite rsum_cons, rsum_nil, P1; ring).
  destruct (set_flux_spec [g0] f ltac:(rewrite F1; lra)) as (gm' & E & _ & _ & F2). inversion F2 as [|x g1 l l' (Hp & Hr & Hc & K & NS) F3]; subst. inversion F3; subst.
  exists g1. split; [exact E|]. rewrite F1, P1 in Hp. unfold setters_keep in K. destruct K as (K1 & K2 & K3 & K4). split.
  - split; [|exact NS]. unfold coherent, gcov in *. congruence.
  - unfold pars_of. rewrite Hr, Hc, K1, K2, K3. replace (g_p g1) with f by lra. reflexivity.
Qed.
Lemma am_image c o wt d im0 : good_input c o wt -> snd (am_run c o wt) = Ok d -> d_flags d = 0%Z ->
  exists wc im, converges c (ao_pix o) (plain wt) (d_numiter d) wc /\ am_make_image d (ao_jac o) im0 = Some (Ok im) /\
    shows (with_flux (total_of im0) wc) (ao_jac o) (nrow im0) (ncol im0) im.
Proof.
  intros G E F. destruct (result_gmix c o wt d G E F) as (wc & g & CV & EG & DG).
  assert (L : evaluable (gauss2d_set 1 (row0_of wc) (col0_of wc) (yy (cov0_of wc)) (xy (cov0_of wc)) (xx (cov0_of wc)))).
  { destruct CV as (i & M0 & w & M & _ & _ & ME & _). pose proof (measures_ne _ _ _ _ _ _ ME) as NE. destruct ME as (D & EV & _ & -> & _).
    apply centred_evaluable with (px := ao_pix o) in EV. destruct (centred (ao_pix o) w) as [|x l] eqn:EE; [congruence|]. apply Forall_cons_iff in EV. destruct EV as [EV _].
    unfold evaluable in *. cbn [cov0_of]. destruct x; exact EV. }
  exists wc. unfold am_make_image. rewrite F, EG, cells_total. cbn [Z.eqb negb opt_bind]. unfold obj_set_flux. rewrite DG.
  edestruct (set_flux_one (total_of im0)) as (g1 & E1 & R1 & P1); [| |rewrite E1]; [reflexivity|apply raw_set|]. cbn [opt_bind o_data with_data].
  assert (SP : same_pars (with_flux (total_of im0) wc) [g1]) by (constructor; [rewrite P1; reflexivity|constructor]).
  destruct (good_shows [g1] (nrow im0) (ncol im0) (ao_jac o)) as (im & Ei & S1 & S2 & S3).
  { apply raw_good; [discriminate|constructor; [exact R1|constructor]|]. eapply evaluable_same; [exact SP|]. constructor; [exact L|constructor]. }
  exists im. rewrite Ei. split; [exact CV|]. split; [reflexivity|]. split; [exact S1|]. split; [exact S2|]. intros r0 c0 v u Hr Hc M.
  rewrite (S3 r0 c0 v u Hr Hc M). do 2 f_equal. symmetry. apply brightness_pars, SP.
Qed.
Lemma am_image_failed d j im : d_flags d <> 0%Z -> am_make_image d j im = Some (Raise RuntimeError).
Proof. intros F. unfold am_make_image. apply Z.eqb_neq in F. rewrite F. reflexivity. Qed.
