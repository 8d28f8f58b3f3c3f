From Verif Require Import Base XReal Shape_Model Shape_Spec Moments_Model Jacobian_Model Pixels_Model Priors_Model Priors_Spec PriorSample_Model PriorSample_Spec PriorSample_Proofs
  Joint_Model PriorsCex_Proofs GMix_Model GMix_Proofs GMixObj_Model Guessers_Model Guessers_Spec Guessers_Proofs Guessers2_Proofs Guessers3_Proofs GuessersPSF_Proofs GuessersPrior_Proofs GuessersCex_Proofs.
From Verif Require EMGo_Proofs.
Local Open Scope R_scope.

(** ** ParsGuesser *)
Lemma four {A} (P : list A -> Prop) : (forall a b c d l, P (a :: b :: c :: d :: l)) -> forall l, (4 <= length l)%nat -> P l.
Proof. intros H [|a [|b [|c [|d l]]]]; cbn [length]; intros; try lia. apply H. Qed.
Lemma pars_range {W} (G : rng W) fuel pars ws P nrand : good_rng G -> (4 <= length pars <= length ws)%nat -> Forall (fun w => 0 <= w) ws ->
  holds W (pars_guess W G fuel pars (Some ws) P nrand)
    (fun o => length (rows o) = nrows nrand /\ Forall (fun row => pars_row pars ws row \/ exists P', P = Some P' /\ prior_row P' row) (rows o)).
Proof.
  intros HG [L1 L2]. revert pars L1 L2. apply (four (fun pars => (length pars <= length ws)%nat -> Forall (fun w => 0 <= w) ws -> holds W _ _)). intros p0 p1 p2 p3 pl L2.
  assert (L3 : (4 <= length ws)%nat) by (cbn in L2; lia). revert ws L3 L2. apply (four (fun ws => _ -> _ -> holds W _ _)). intros w0 w1 w2 w3 wl L2 Pw.
  apply (pars_holds W G HG fuel p0 p1 p2 p3 pl w0 w1 w2 w3 wl); [cbn in L2; lia|exact Pw|]. intros g Hn Hr. destruct P as [P|].
  - eapply holds_weaken; [|exact (ptail_prior W P nrand g _ Hn Hr)]. intros o [K1 K2]. split; [exact K1|]. eapply Forall_impl; [|exact K2]. intros row [K|K]; eauto.
  - eapply holds_weaken; [|apply total_holds; exact (ptail_none W nrand g _ Hn Hr)]. intros o [K1 K2]. split; [exact K1|]. eapply Forall_impl; [|exact K2]. intros row K; auto.
Qed.
Lemma pars_returns {W} (G : rng W) fuel pars ws nrand : good_rng G -> (4 <= length pars <= length ws)%nat -> Forall (fun w => 0 <= w) ws -> nth 2 ws 0 ^ 2 + nth 3 ws 0 ^ 2 < 1 -> (0 < fuel)%nat ->
  total W (pars_guess W G fuel pars (Some ws) None nrand) (fun o => length (rows o) = nrows nrand /\ Forall (pars_row pars ws) (rows o)).
Proof.
  intros HG [L1 L2] Pw H2 Hf. revert pars L1 L2. apply (four (fun pars => (length pars <= length ws)%nat -> total W _ _)). intros p0 p1 p2 p3 pl L2.
  assert (L3 : (4 <= length ws)%nat) by (cbn in L2; lia). revert ws L3 L2 Pw H2. apply (four (fun ws => _ -> _ -> _ -> total W _ _)). intros w0 w1 w2 w3 wl L2 Pw H2.
  apply (pars_total W G HG fuel p0 p1 p2 p3 pl w0 w1 w2 w3 wl); [cbn in L2; lia|exact Pw|exact H2|exact Hf|]. intros g Hn Hr. exact (ptail_none W nrand g _ Hn Hr).
Qed.
Lemma pars_allowed {W} (G : rng W) fuel pars ws P nrand : good_rng G -> (4 <= length pars <= length ws)%nat -> Forall (fun w => 0 <= w) ws -> proper P -> draws_allowed P ->
  holds W (pars_guess W G fuel pars (Some ws) (Some P) nrand) (fun o => Forall (allowed P) (rows o)).
Proof.
  intros HG [L1 L2] Pw Pp Pd. revert pars L1 L2. apply (four (fun pars => (length pars <= length ws)%nat -> holds W _ _)). intros p0 p1 p2 p3 pl L2.
  assert (L3 : (4 <= length ws)%nat) by (cbn in L2; lia). revert ws L3 L2 Pw. apply (four (fun ws => _ -> _ -> holds W _ _)). intros w0 w1 w2 w3 wl L2 Pw.
  apply (pars_holds W G HG fuel p0 p1 p2 p3 pl w0 w1 w2 w3 wl); [cbn in L2; lia|exact Pw|]. intros g Hn Hr. exact (ptail_allowed W P nrand g Pp Pd Hn).
Qed.
Lemma default_same {W} (G : rng W) fuel pars P nrand : (4 <= length pars)%nat -> exists ws, length ws = length pars /\ (forall i w, nth_error ws i = Some w -> w = if Nat.ltb i 2 then 2/100 else 1/10) /\
  pars_guess W G fuel pars None P nrand = pars_guess W G fuel pars (Some ws) P nrand.
Proof.
  intros _. exists (default_widths pars). split; [unfold default_widths; rewrite map_length, seq_length; reflexivity|]. split; [|apply pars_default].
  intros i w H. unfold default_widths in H. rewrite nth_error_map in H. destruct (nth_error (seq 0 (length pars)) i) as [k|] eqn:E; [|discriminate]. cbn in H. injection H as <-.
  assert (Hi : (i < length pars)%nat) by (rewrite <- (seq_length (length pars) 0); apply nth_error_Some; congruence).
  rewrite (nth_error_nth' _ 0%nat) in E by (rewrite seq_length; lia). rewrite seq_nth in E by lia. injection E as <-. reflexivity.
Qed.

(** ** psfs *)
Lemma mixture_full flux s off tab l : psf_mixture flux s off tab l -> exists d, l = gm_get_full_pars d /\ length d = length tab.
Proof.
  intros (comps & -> & F). induction F as [|pf comp tab comps (p & r & c & irr & irc & icc & -> & _) F (d & E & L)]; [exists []; split; reflexivity|].
  exists (gauss2d_set p r c irr irc icc :: d). cbn [concat length]. rewrite E, L. split; reflexivity.
Qed.
Lemma full_fresh d : gm_get_full_pars (map fresh d) = gm_get_full_pars d.
Proof. unfold gm_get_full_pars. induction d as [|g d IH]; [reflexivity|]. cbn [map flat_map]. rewrite IH. reflexivity. Qed.
Lemma gmix_of {W} (G : rng W) n flux T (Q : list R -> Prop) : total W (em_pars W G n flux T) (fun l => (exists d, l = gm_get_full_pars d) /\ Q l) ->
  total W (gmixpsf_guess W G n flux T) (fun o => o_kind o = KFull /\ Q (gm_get_full_pars (o_data o))).
Proof.
  intros H w. destruct (H w) as (w' & l & E & (d & ->) & HQ). destruct (EMGo_Proofs.new_full_of d) as (o & Eo & K & D). exists w', o. split; [|split; [exact K|rewrite D, full_fresh; exact HQ]].
  unfold gmixpsf_guess, bindM. rewrite E. unfold of_res. rewrite Eo. reflexivity.
Qed.
Lemma gmix_mixture {W} (G : rng W) n flux T s off tab : total W (em_pars W G n flux T) (psf_mixture flux s off tab) ->
  total W (gmixpsf_guess W G n flux T) (fun o => o_kind o = KFull /\ psf_mixture flux s off tab (gm_get_full_pars (o_data o))).
Proof. intros H. apply gmix_of. eapply total_weaken; [|exact H]. intros l K. split; [|exact K]. destruct (mixture_full _ _ _ _ _ K) as (d & -> & _). eauto. Qed.
Lemma em_form {W} (G : rng W) n flux T : good_rng G -> (1 <= n <= 5)%nat -> 0 < T -> total W (em_pars W G n flux T) (fun l => exists d, l = gm_get_full_pars d /\ length d = n).
Proof.
  intros HG Hn HT. destruct n as [|[|[|[|[|[|n]]]]]]; try lia.
  - eapply total_weaken; [|apply (em1_total W G HG), HT]. intros l K. exact (mixture_full _ _ _ _ _ K).
  - eapply total_weaken; [|apply em2_total, HG]. intros l K. exact (mixture_full _ _ _ _ _ K).
  - eapply total_weaken; [|apply em3_total, HG]. intros l K. exact (mixture_full _ _ _ _ _ K).
  - eapply total_weaken; [|apply em4_total, HG]. intros l K. exact (mixture_full _ _ _ _ _ K).
  - eapply total_weaken; [|apply em5_total, HG]. intros l K. exact (mixture_full _ _ _ _ _ K).
Qed.
Lemma total_and {W A} (m : M W A) (P Q : A -> Prop) : total W m P -> total W m Q -> total W m (fun a => P a /\ Q a).
Proof. intros H K w. destruct (H w) as (w1 & a & E & HP). destruct (K w) as (w2 & b & E' & HQ). rewrite E in E'. injection E' as <- <-. exists w1, a. auto. Qed.
Lemma gmix_posdef {W} (G : rng W) n flux T : good_rng G -> (1 <= n <= 5)%nat -> 0 < T -> ((n <= 2)%nat \/ 5/100 <= T) ->
  total W (gmixpsf_guess W G n flux T) (fun o => length (gm_get_full_pars (o_data o)) = (6 * n)%nat /\ pos_def (gm_get_full_pars (o_data o))).
Proof.
  intros HG Hn HT Hc. eapply total_weaken; [|apply (gmix_of G n flux T (fun l => length l = (6 * n)%nat /\ pos_def l))]. intros o [_ K]; exact K.
  eapply total_weaken; [|apply total_and; [apply (em_form G n flux T HG Hn HT)|apply (em_posdef G n flux T HG Hn HT Hc)]].
  intros l [(d & -> & Ld) K]. split; [eauto|]. split; [rewrite full_pars_length, Ld; reflexivity|exact K].
Qed.
Lemma gmix_small : exists w' o, gmixpsf_guess nat the_rng 3 1 (fst (T_flux_default (3/100) 1)) 0%nat = Some (w', Ok o) /\ ~ pos_def (gm_get_full_pars (o_data o)).
Proof.
  destruct small_wrong as (l & E & K). assert (HT := proj1 small_T). destruct (em_form the_rng 3 1 _ the_rng_good ltac:(lia) HT 0%nat) as (w' & l' & E' & d & Ed & _).
  rewrite E in E'. injection E' as <- <-. rewrite Ed in *. destruct (EMGo_Proofs.new_full_of d) as (o & Eo & _ & D). exists 18%nat, o. split; [|rewrite D, full_fresh; exact K].
  unfold gmixpsf_guess, bindM. rewrite E. unfold of_res. rewrite Eo. reflexivity.
Qed.

(** weights add up to one *)
Lemma coellip_tables n : (2 <= n <= 5)%nat -> exists p f, coellip_table n = Some (p, f) /\ length p = n /\ length f = n /\ Rabs (rsum p - 1) <= 1/1000.
Proof.
  intros Hn. destruct n as [|[|[|[|[|[|n]]]]]]; try lia; do 2 eexists; (split; [reflexivity|]; split; [reflexivity|]; split; [reflexivity|]);
    unfold moffat2_p, moffat3_p, moffat4_p, moffat5_p; rewrite ?rsum_cons, rsum_nil; apply Rabs_le; lra.
Qed.

(** ** a prior of the library *)
Definition the_flat : flat := mkFlat 1 2.
Definition the_joint : simplesep := mkSS the_cen (zdisk_obj (zdisk_init 1)) (flat_obj the_flat) [flat_obj the_flat] None.
Definition the_jp : jprior nat := sep_jp (simple_lnprob the_joint) (cen_sample the_rng the_cen) (zdisk_sample2d the_rng (zdisk_init 1)) [flat_sample the_rng the_flat] [flat_sample the_rng the_flat].
Lemma the_jp_ok : proper the_jp /\ draws_allowed the_jp /\ separable the_jp.
Proof.
  apply (lib_priors (simple_lnprob the_joint) the_cen (zdisk_obj (zdisk_init 1)) [flat_obj the_flat; flat_obj the_flat]).
  - intros pars. exact (simple_sep the_joint pars).
  - apply zdisk_clean.
  - constructor; [apply flat_clean|constructor; [apply flat_clean|constructor]].
  - apply cen_draws, the_rng_good.
  - apply zdisk_draws; [apply the_rng_good|lra].
  - assert (D : draws1 (flat_obj the_flat) (flat_sample the_rng the_flat)) by (apply flat_draws; [apply the_rng_good|cbn; lra]). constructor; [exact D|constructor; [exact D|constructor]].
Qed.
