(** C65, C66, C68, C69, C94 for the joint priors. *)
From Verif Require Import Base XReal Pixels_Model Priors_Model Priors_Spec Priors_Proofs PriorSample_Model PriorSample_Spec PriorSample_Proofs
  Joint_Model Joint_Spec Joint_Proofs PriorsCex_Proofs.
Local Open Scope R_scope.

(** the log probability is the sum of those of the parts, each at its own parameters *)
Theorem C65_joint_sum : forall cen g T F, (exists a b s t, cen_init a b s t = Ok cen) ->
  (forall P, simple_init cen g T F = Ok P -> lnprob_spec cen g (simple_ps T (fluxes F)) (simple_lnprob P)) /\
  (forall Tr fd P, bd_init cen g T Tr fd F = Ok P -> lnprob_spec cen g (bd_ps T Tr fd (fluxes F)) (bd_lnprob P)) /\
  (forall fd P, bdf_init cen g T fd F = Ok P -> lnprob_spec cen g (bdf_ps T fd (fluxes F)) (bdf_lnprob P)) /\
  (forall nu P, spergel_init cen g T nu F = Ok P -> lnprob_spec cen g (spergel_ps T nu (fluxes F)) (spergel_lnprob P)).
Proof.
  intros cen g T F Hc. split; [intros P; exact (simple_lnprob_ok cen g T F P Hc)|].
  split; [intros Tr fd P; exact (bd_lnprob_ok cen g T Tr fd F P Hc)|].
  split; [intros fd P; exact (bdf_lnprob_ok cen g T fd F P Hc)|intros nu P; exact (spergel_lnprob_ok cen g T nu F P Hc)].
Qed.
Print Assumptions C65_joint_sum.
Theorem C65_joint_sum_coellip : forall n cen g T F P, (exists a b s t, cen_init a b s t = Ok cen) ->
  coellip_init n cen g T (FOne F) = Ok P ->
  forall pars L, coellip_lnprob P pars = Ok L <->
    length pars = (4 + 2 * n)%nat /\ exists ls, terms_at cen g (coellip_ps n T F) pars ls /\ L = xsum ls.
Proof. exact coellip_lnprob_ok. Qed.
Print Assumptions C65_joint_sum_coellip.
(** so it is never positive, and zero at the modes *)
Theorem C65_joint_peak : forall cen g ps f a b s t, cen_init a b s t = Ok cen -> lnprob_spec cen g ps f ->
  (never_positive2 (p2_lnprob g) -> Forall (fun p => never_positive (p1_lnprob p)) ps -> never_positive_pars f) /\
  (forall m1 m2 ms, p2_lnprob g (Fin m1) (Fin m2) = Ok (Fin 0) ->
     Forall2 (fun p m => p1_lnprob p (Fin m) = Ok (Fin 0)) ps ms ->
     f (Fin a :: Fin b :: Fin m1 :: Fin m2 :: map Fin ms) = Ok (Fin 0)).
Proof.
  intros cen g ps f a b s t Hc Hf. split.
  - intros Hg Hp. exact (joint_np cen g ps f (ex_intro _ a (ex_intro _ b (ex_intro _ s (ex_intro _ t Hc)))) Hg Hp Hf).
  - intros m1 m2 ms Hg Hp. exact (joint_mode cen g ps f a b s t m1 m2 ms Hc Hg Hp Hf).
Qed.
Print Assumptions C65_joint_peak.

(** ** C66 *)
Theorem C66_joint : forall erf cen g T F s A p, erf_like erf -> (exists a b s t, cen_init a b s t = Ok cen) ->
  gba_init s A = Ok p -> g = gba_obj p -> made_1d erf T -> Forall (made_1d erf) (fluxes F) ->
  (forall P, simple_init cen g T F = Ok P ->
     fill_spec cen g (simple_ps T (fluxes F)) (simple_lnprob P) (simple_fill_fdiff P)) /\
  (forall Tr fd P, made_1d erf Tr -> made_1d erf fd -> bd_init cen g T Tr fd F = Ok P ->
     fill_spec cen g (bd_ps T Tr fd (fluxes F)) (bd_lnprob P) (bd_fill_fdiff P)) /\
  (forall fd P, made_1d erf fd -> bdf_init cen g T fd F = Ok P ->
     fill_spec cen g (bdf_ps T fd (fluxes F)) (bdf_lnprob P) (bdf_fill_fdiff P)) /\
  (forall nu P, made_1d erf nu -> spergel_init cen g T nu F = Ok P ->
     fill_spec cen g (spergel_ps T nu (fluxes F)) (spergel_lnprob P) (spergel_fill_fdiff P)) /\
  (forall n Fp P, F = FOne Fp -> coellip_init n cen g T F = Ok P ->
     fill_spec cen g (coellip_ps n T Fp) (coellip_lnprob P) (coellip_fill_fdiff P)).
Proof.
  intros erf cen g T F s A p He Hc Hp -> HT HF.
  assert (Eg := ba_encodes s A p Hp). assert (Ng : never_positive2 (p2_lnprob (gba_obj p))) by (intros v1 v2 r; exact (ba_np s A p v1 v2 r Hp)).
  assert (En : forall l, Forall (made_1d erf) l -> Forall encodes l) by (intros l; apply Forall_impl; intros q; exact (made_encodes erf q He)).
  assert (Nn : forall l, Forall (made_1d erf) l -> Forall (fun p => never_positive (p1_lnprob p)) l)
    by (intros l; apply Forall_impl; intros q; exact (made_np erf q He)).
  split; [|split; [|split; [|split]]].
  - intros P H. apply simple_fill_ok; try assumption. apply Nn. constructor; assumption.
  - intros Tr fd P H1 H2 H. apply bd_fill_ok; try assumption. apply En. repeat (constructor; [assumption|]). assumption.
  - intros fd P H1 H. apply bdf_fill_ok; try assumption. apply En. repeat (constructor; [assumption|]). assumption.
  - intros nu P H1 H. apply spergel_fill_ok; try assumption. apply Nn. repeat (constructor; [assumption|]). assumption.
  - intros n Fp P -> H. cbn [fluxes] in HF. inversion HF; subst.
    apply coellip_fill_ok; try assumption; apply (made_np erf); assumption.
Qed.
Print Assumptions C66_joint.
(** the same for any priors with these properties *)
Theorem C66_joint_any_prior : forall cen g T F, (exists a b s t, cen_init a b s t = Ok cen) ->
  (never_positive2 (p2_lnprob g) -> forall P, Forall (fun p => never_positive (p1_lnprob p)) (simple_ps T (fluxes F)) ->
     simple_init cen g T F = Ok P -> fill_spec cen g (simple_ps T (fluxes F)) (simple_lnprob P) (simple_fill_fdiff P)) /\
  (encodes2 g -> forall Tr fd P, Forall encodes (bd_ps T Tr fd (fluxes F)) -> bd_init cen g T Tr fd F = Ok P ->
     fill_spec cen g (bd_ps T Tr fd (fluxes F)) (bd_lnprob P) (bd_fill_fdiff P)).
Proof.
  intros cen g T F Hc. split.
  - intros Hg P Hp H. exact (simple_fill_ok cen g T F P Hc Hg Hp H).
  - intros Hg Tr fd P Hp H. exact (bd_fill_ok cen g T Tr fd F P Hc Hg Hp H).
Qed.
Print Assumptions C66_joint_any_prior.
Example C66_joint_hypotheses_hold : exists P,
  simple_init the_cen (gba_obj the_ba) (normal_obj the_normal) (FList [normal_obj the_normal; trunc_obj the_trunc]) = Ok P /\
  simple_lnprob P [Fin 0; Fin 0; Fin 0; Fin 0; Fin 1; Fin 0; Fin 1] = Ok (Fin (- 1)).
Proof.
  eexists. split; [reflexivity|]. rewrite simple_lnprob_gen, gen_lnprob_eq.
  unfold on2. cbn [ss_cen ss_g ss_T ss_F item nth_error bind skipn tail_terms simple_ps normal_obj trunc_obj gba_obj p1_lnprob p2_lnprob].
  rewrite cen_zero, ba_zero, !normal_at. cbn [bind].
  assert (E : trunc_lnprob_scalar the_trunc (Fin 1) = Ok (Fin (-1/2))).
  { unfold trunc_lnprob_scalar, trunc_out. cbn [the_trunc xltb tg_min tg_max]. rewrite !Rltb_f by lra. cbn. do 2 f_equal. field. }
  rewrite E. cbn [bind fold_left xadd]. do 2 f_equal. field.
Qed.

(** ** C68 *)
Theorem C68_joint : forall cen g T F, array_ok2 g -> array_ok T -> Forall array_ok (fluxes F) ->
  (forall P, simple_init cen g T F = Ok P -> rows_spec (simple_lnprob P) (simple_lnprob_array P)) /\
  (forall Tr fd P, array_ok Tr -> array_ok fd -> bd_init cen g T Tr fd F = Ok P -> rows_spec (bd_lnprob P) (bd_lnprob_array P)) /\
  (forall fd P, array_ok fd -> bdf_init cen g T fd F = Ok P -> rows_spec (bdf_lnprob P) (bdf_lnprob_array P)) /\
  (forall nu P, array_ok nu -> spergel_init cen g T nu F = Ok P -> rows_spec (spergel_lnprob P) (spergel_lnprob_array P)).
Proof.
  intros cen g T F Hg HT HF. split; [|split; [|split]].
  - intros P. apply simple_array_ok; [exact Hg|constructor; assumption].
  - intros Tr fd P H1 H2. apply bd_array_ok; [exact Hg|repeat (constructor; [assumption|]); assumption].
  - intros fd P H1. apply bdf_array_ok; [exact Hg|repeat (constructor; [assumption|]); assumption].
  - intros nu P H1. apply spergel_array_ok; [exact Hg|repeat (constructor; [assumption|]); assumption].
Qed.
Print Assumptions C68_joint.
Theorem C68_joint_parts : (forall p, array_ok (flat_obj p)) /\ (forall p, array_ok (normal_obj p)) /\
  (forall p, array_ok (lognormal_obj p)) /\
  (forall erf p, erf_like erf -> 0 < te_wmin p -> 0 < te_wmax p -> array_ok (erf_obj erf p)) /\
  (forall s A p, gba_init s A = Ok p -> array_ok2 (gba_obj p)).
Proof.
  split; [exact flat_array_ok|]. split; [exact normal_array_ok|]. split; [exact lognormal_array_ok|].
  split; [exact erf_array_ok|exact gba_array_ok].
Qed.
Print Assumptions C68_joint_parts.
(** PriorCoellipSame inherits get_lnprob_array, which looks at the first two columns only *)
Theorem C68_joint_coellip_refuted : exists n cen g T F P, coellip_init n cen g T F = Ok P /\ array_ok2 g /\ array_ok T /\
  Forall array_ok (fluxes F) /\ ~ rows_spec (coellip_lnprob P) (coellip_lnprob_array P).
Proof. exact coellip_array_wrong. Qed.
Print Assumptions C68_joint_coellip_refuted.
Example C68_joint_hypotheses_hold : coellip_lnprob the_coellip (row the_points 0) = Ok (Fin (- (1 / 2))) /\
  coellip_lnprob_array the_coellip the_points = Ok (AArray [Fin 0]).
Proof. split; [exact the_scalar|exact the_array]. Qed.

(** ** C69 *)
Theorem C69_bounds : forall cen g T F,
  (forall P, simple_init cen g T F = Ok P -> bounds_spec (simple_ps T (fluxes F)) (ss_bounds P)) /\
  (forall Tr fd P, bd_init cen g T Tr fd F = Ok P -> bounds_spec (bd_ps T Tr fd (fluxes F)) (bd_bounds P)) /\
  (forall fd P, bdf_init cen g T fd F = Ok P -> bounds_spec (bdf_ps T fd (fluxes F)) (bf_bounds P)) /\
  (forall nu P, spergel_init cen g T nu F = Ok P -> bounds_spec (spergel_ps T nu (fluxes F)) (sp_bounds P)).
Proof.
  intros cen g T F. split; [|split; [|split]].
  - intros P H. apply simple_init_parts in H. destruct H as (_ & _ & _ & _ & ->). apply list_bounds_ok.
  - intros Tr fd P H. apply bd_init_parts in H. destruct H as (_ & _ & _ & _ & _ & _ & ->). apply list_bounds_ok.
  - intros fd P H. apply bdf_init_parts in H. destruct H as (_ & _ & _ & _ & _ & ->). apply list_bounds_ok.
  - intros nu P H. apply spergel_init_parts in H. destruct H as (_ & _ & _ & _ & _ & ->). apply list_bounds_ok.
Qed.
Print Assumptions C69_bounds.
Theorem C69_coellip_refuted : forall n cen g T F P, (1 <= n)%nat -> coellip_init n cen g T (FOne F) = Ok P ->
  p1_bounds T <> None \/ p1_bounds F <> None ->
  exists l, ss_bounds (co_base P) = Some l /\ length l = (4 + (n + 1) * n)%nat /\
    (forall k, (4 <= k < length l)%nat -> exists lo hi, nth_error l k = Some (BNested lo hi)) /\
    ~ bounds_spec (coellip_ps n T F) (ss_bounds (co_base P)).
Proof. exact coellip_bounds_wrong. Qed.
Print Assumptions C69_coellip_refuted.
(** a tuple of flux priors, which the documentation allows like a list, cannot be used *)
Theorem C69_tuple_refuted : forall cen g T Tr fd l,
  simple_init cen g T (FTuple l) = Raise AttributeError /\ bd_init cen g T Tr fd (FTuple l) = Raise TypeError /\
  bdf_init cen g T fd (FTuple l) = Raise TypeError /\ spergel_init cen g T fd (FTuple l) = Raise AttributeError.
Proof. intros cen g T Tr fd l. repeat split. Qed.
Print Assumptions C69_tuple_refuted.
Example C69_hypotheses_hold : exists P,
  bdf_init the_cen (gba_obj the_ba) (flat_obj (mkFlat 0 1)) (normal_obj the_normal) (FList [flat_obj (mkFlat 0 2)]) = Ok P /\
  bf_bounds P = Some [BPair None None; BPair None None; BPair None None; BPair None None; BPair None None; BPair (Some 0) (Some 1); BPair None None].
Proof. eexists. split; reflexivity. Qed.
Example C69_coellip_hypotheses_hold :
  coellip_init 2 the_cen (gba_obj the_ba) (normal_obj the_normal) (FOne (normal_obj the_normal)) = Ok the_coellip /\
  p1_bounds (normal_obj the_normal) <> None.
Proof. split; [exact the_coellip_made|discriminate]. Qed.

(** ** C94 *)
Theorem C94_columns : forall W (cen g : sampler2 W) mid Fs w n,
  sample_spec cen g (mid ++ Fs) n w (sep_sample cen g mid Fs w n).
Proof. intros W. exact (sep_sample_ok W). Qed.
Print Assumptions C94_columns.
(** coellip: the size of the first gaussian is the sum of two draws, all else as it should be *)
Theorem C94_coellip_columns : forall W (cen g : sampler2 W) T F ng w n, (1 <= ng)%nat ->
  let out := coellip_sample ng cen g T F w n in
  exists w1 c1 c2 w2 g1 g2 t0 ts fs,
    cen w n = (w1, (c1, c2)) /\ g w1 n = (w2, (g1, g2)) /\
    drawn (T :: repeat T ng ++ repeat F ng) w2 n (t0 :: ts ++ fs) (fst out) /\
    nrow (snd out) = n /\ ncol (snd out) = (4 + 2 * ng)%nat /\ length ts = ng /\ length fs = ng /\
    forall r c, (r < n)%nat -> (c < 4 + 2 * ng)%nat ->
      at2 (snd out) r c = nth r (nth c (c1 :: c2 :: g1 :: g2 :: ts ++ fs) []) 0 + (if Nat.eqb c 4 then nth r t0 0 else 0).
Proof. exact coellip_sample_ok. Qed.
Print Assumptions C94_coellip_columns.
Theorem C94_coellip_refuted : exists ng (cen g : sampler2 unit) T F w n, (1 <= ng)%nat /\
  ~ sample_spec cen g (repeat T ng ++ repeat F ng) n w (coellip_sample ng cen g T F w n).
Proof. exact coellip_sample_wrong. Qed.
Print Assumptions C94_coellip_refuted.
Example C94_hypotheses_hold :
  at2 (snd (sep_sample (fun (w : nat) n => (S w, (repeat 1 n, repeat 2 n))) (fun w n => (S w, (repeat 3 n, repeat 4 n)))
    [fun w n => (S w, repeat (INR w) n)] [fun w n => (S w, repeat (INR w) n)] 0%nat 2%nat)) 1 5 = INR 3.
Proof. reflexivity. Qed.
