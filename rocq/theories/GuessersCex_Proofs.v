From Verif Require Import Base XReal Shape_Model Shape_Spec Moments_Model Moments_Proofs Jacobian_Model Pixels_Model Priors_Model Priors_Spec PriorSample_Model PriorSample_Spec PriorSample_Proofs
  Joint_Model PriorsCex_Proofs GMix_Model GMixObj_Model Guessers_Model Guessers_Spec Guessers_Proofs Guessers2_Proofs Guessers3_Proofs GuessersPSF_Proofs GuessersPrior_Proofs.
From Verif Require Import PSFFlux_Model.
Local Open Scope R_scope.

(** ** the cache *)
Lemma after_failure {W} (G : rng W) body c oid fits w : c_id c <> Some oid -> ~ measurable fits -> good_rng G ->
  exists c' e, psf_call W G body c oid fits w = Some (w, c', Raise e) /\
    forall fits' w', psf_call W G body c' oid fits' w' =
      match c_fluxes c with
      | None => Some (w', c', Raise AttributeError)
      | Some fl => match body fl w' with None => None | Some (w1, r) => Some (w1, c', r) end
      end.
Proof.
  intros Hid Hm HG. destruct (psf_fluxes_cases W G HG fits w) as (w' & r & Er & [[K _]|(_ & -> & K)]); [contradiction|].
  assert (Kr : exists e, r = Raise e) by (destruct K as [(e & _ & ->)| ->]; eauto). destruct Kr as [e ->].
  exists (mkCache (Some oid) (c_fluxes c)), e. split.
  - unfold psf_call, get_psf_fluxes. destruct (c_id c) as [i|] eqn:Ei.
    + destruct (Nat.eqb oid i) eqn:E; [apply Nat.eqb_eq in E; subst; congruence|]. rewrite Er. reflexivity.
    + rewrite Er. reflexivity.
  - intros fits' w'. unfold psf_call, get_psf_fluxes. cbn. rewrite Nat.eqb_refl. destruct (c_fluxes c); reflexivity.
Qed.
Lemma same_id {W} (G : rng W) body c oid fl fits w : c_id c = Some oid -> c_fluxes c = Some fl ->
  psf_call W G body c oid fits w = match body fl w with None => None | Some (w1, r) => Some (w1, c, r) end.
Proof. intros Hid Hf. unfold psf_call, get_psf_fluxes. rewrite Hid, Nat.eqb_refl, Hf. destruct (body fl w) as [[]|]; reflexivity. Qed.

Definition fit_of (f : R) : res pres := Ok (mkPres 0 (Fin 1) 1 (Fin f) (Fin 1)).
Definition bad_fit : res pres := Ok (mkPres 1 (Fin 1) 1 (Fin 0) (Fin 1)).
Lemma fit_measurable f l : goods_of [fit_of f] l <-> l = [f].
Proof.
  split.
  - intros H. inversion H as [|r f' fits l' [_ Hf] Hl|r fits l' Hn Hl]; subst.
    + inversion Hl; subst. cbn in Hf. congruence.
    + destruct Hn. exists f. split; reflexivity.
  - intros ->. apply go_good; [split; reflexivity|constructor].
Qed.
Lemma bad_not_measurable : ~ measurable [bad_fit].
Proof.
  intros (l & H & K). apply K; [discriminate|]. inversion H as [|r f' fits l' [Hf _] Hl|r fits l' Hn Hl]; subst; [cbn in Hf; discriminate|].
  inversion Hl. reflexivity.
Qed.
Lemma fluxes_of_one f fl : fluxes_of [fit_of f] fl <-> fl = [f].
Proof.
  split.
  - intros (goods & Hg & _ & F). inversion F as [|x f' l l' (r & Hr & K) F' ]; subst. inversion F'; subst. injection Hr as <-.
    destruct K as [[_ K]|[K _]]; [cbn in K; congruence|]. destruct K. exists f. split; reflexivity.
  - intros ->. exists [f]. split; [apply fit_measurable; reflexivity|]. split; [discriminate|]. constructor; [|constructor].
    eexists. split; [reflexivity|]. left. split; reflexivity.
Qed.
Lemma first_call body f w : exists c, c_id c = Some 1%nat /\ c_fluxes c = Some [f] /\
  psf_call nat the_rng body cache0 1 [fit_of f] w = match body [f] w with None => None | Some (w1, r) => Some (w1, c, r) end.
Proof. exists (mkCache (Some 1%nat) (Some [f])). split; [reflexivity|]. split; [reflexivity|]. cbn. destruct (body [f] w) as [[]|]; reflexivity. Qed.

(** ** a prior that draws what it does not allow *)
Definition const_sample (row : list R) : nat -> nat -> nat * res (arr2 R) := fun w n => (w, Ok (mkArr n (length row) (fun _ c => nth c row 0))).
Definition neg_prior : jprior nat :=
  mkJp nat (fun pars => if Rleb (nth 4 pars 0) 0 then Raise GMixRangeError else Ok (Fin 0)) (const_sample [0; 0; 0; 0; -1; 1]).
Lemma neg_run : tflux_guess nat the_rng (-2) [1] (Some neg_prior) 1 0%nat = Some (6%nat, Ok (G1 [0; 0; 0; 0; -1; 1])).
Proof.
  unfold tflux_guess, maybe_fix, fix_guess. cbn -[fix_row Rmult Rdiv Ropp IZR]. unfold bindM at 1. 
  unfold fix_row at 1. unfold dosample, of_res, bindM, neg_prior. cbn -[Rmult Rdiv Ropp IZR Rleb LOWVAL].
  rewrite (Rleb_t (-2 * (9 / 10)) 0) by lra. cbn -[Rmult Rdiv Ropp IZR Rleb LOWVAL]. rewrite (Rleb_t (-1) 0) by lra. cbn -[Rmult Rdiv Ropp IZR Rleb]. reflexivity.
Qed.
Lemma neg_not_allowed : ~ allowed neg_prior [0; 0; 0; 0; -1; 1].
Proof. intros (v & Hv & _). unfold neg_prior in Hv. cbn -[Rleb IZR] in Hv. rewrite Rleb_t in Hv by lra. discriminate. Qed.
Lemma neg_proper : proper neg_prior.
Proof. intros pars. cbn. destruct (Rleb _ _); discriminate. Qed.

(** ** a prior whose parts are not independent *)
Definition tied_prior : jprior nat :=
  mkJp nat (fun pars => if Reqb (nth 0 pars 0) (nth 4 pars 0) then Ok (Fin 0) else Raise GMixRangeError)
    (fun w n => (S w, Ok (mkArr n 6 (fun _ _ => match w with O => 0 | _ => 1 end)))).
Lemma tied_proper : proper tied_prior.
Proof. intros pars. cbn. destruct (Reqb _ _); discriminate. Qed.
Lemma tied_draws : draws_allowed tied_prior.
Proof.
  intros row (w & n & w' & m & r & E & Hr & ->). cbn in E. injection E as _ <-. exists (Fin 0). split; [|reflexivity]. cbn. rewrite Reqb_t by reflexivity. reflexivity.
Qed.
Lemma tied_step i ts a x y k : (i < 4)%nat -> 0 <> x ->
  fix_row_TFlux nat 4 (i :: ts) tied_prior [0; a; a; a; x; y] (S k) = fix_row_TFlux nat 4 ts tied_prior [0; a; a; a; 1; 1] (S (S k)).
Proof.
  intros Hi Hx. cbn [fix_row_TFlux]. unfold bindM at 1. unfold of_res, dosample. cbn [tied_prior jp_lnprob nth]. rewrite Reqb_f by exact Hx.
  rewrite (proj2 (Nat.ltb_lt i 4) Hi). reflexivity.
Qed.
Lemma tied_run : tflux_prior_guess nat the_rng 1 [1] tied_prior 1 0%nat = Some (7%nat, Ok (G1 [0; 0; 0; 0; 1; 1])).
Proof.
  unfold tflux_prior_guess, fix_guess_TFlux. unfold bindM at 1. change (sampleN nat tied_prior 1 0%nat) with (Some (1%nat, @Ok (arr2 R) (mkArr 1 6 (fun _ _ => 0)))).
  cbn -[fix_row_TFlux Rplus Rmult Rdiv Ropp IZR tied_prior]. unfold bindM. cbn -[fix_row_TFlux Rplus Rmult Rdiv Ropp IZR tied_prior].
  rewrite !tied_step by (try lia; lra). cbn. reflexivity.
Qed.
Lemma tied_not_allowed : ~ allowed tied_prior [0; 0; 0; 0; 1; 1].
Proof. intros (v & Hv & _). cbn in Hv. rewrite Reqb_f in Hv by lra. discriminate. Qed.

(** ** the bulge-disk guesser *)
Definition bd_prior : jprior nat := mkJp nat (fun _ => Ok (Fin 0)) (const_sample [0; 0; 0; 0; 1; 2; 3/4; 1]).
Lemma bd_prior_ok : proper bd_prior /\ draws_allowed bd_prior /\ separable bd_prior.
Proof. split; [intros ? [=]|]. assert (A : forall pars, allowed bd_prior pars) by (intros; exists (Fin 0); split; reflexivity). split; repeat intro; apply A. Qed.
Lemma bd_run : bd_guess nat the_rng 1 [1] bd_prior 1 0%nat = Some (3%nat, Ok (G1 [0; 0; 0; 0; 1 * (1 + -1/10); 4/10; 3/4; 1 * (1 + -1/10)])).
Proof. unfold bd_guess. cbn -[Rplus Rmult Rdiv Ropp IZR]. reflexivity. Qed.
Lemma bd_wrong : exists o w', bd_guess nat the_rng 1 [1] bd_prior 1 0%nat = Some (w', Ok o) /\
  Forall (fun row => ~ kept (bd_over 1 [1]) bd_prior row /\ ~ prior_row bd_prior row) (rows o).
Proof.
  eexists. eexists. split; [apply bd_run|]. constructor; [|constructor]. split.
  - intros (s & _ & _ & _ & _ & (x & Hx & K) & _). cbn in Hx. injection Hx as <-. unfold between in K. lra.
  - intros (w & n & w' & m & r & E & Hr & E'). cbn in E. injection E as _ <-. cbn in E'. injection E'. intros. lra.
Qed.

(** ** mixtures for psfs *)
Lemma mixture_nth flux sigma2 off : forall tab l, psf_mixture flux sigma2 off tab l ->
  forall i pf, nth_error tab i = Some pf -> psf_comp flux sigma2 off pf (firstn 6 (skipn (6 * i) l)).
Proof.
  intros tab l (comps & -> & F). induction F as [|pf comp tab comps H F IH]; intros i pf'; [destruct i; discriminate|].
  assert (L : length comp = 6%nat) by (destruct H as (p & r & c & irr & irc & icc & -> & _); reflexivity).
  destruct i as [|i]; cbn [nth_error].
  - intros [= <-]. replace (6 * 0)%nat with 0%nat by lia. cbn [skipn concat]. rewrite firstn_app, L. rewrite Nat.sub_diag, firstn_O. rewrite <- L, firstn_all, app_nil_r. exact H.
  - intros Hi. replace (6 * S i)%nat with (6 + 6 * i)%nat by lia. cbn [concat]. replace (skipn (6 + 6 * i) (comp ++ concat comps)) with (skipn (6 * i) (concat comps)); [apply IH; exact Hi|].
    rewrite skipn_app, L. rewrite (skipn_all2 comp) by lia. cbn [app]. f_equal. lia.
Qed.
Lemma comp_differs flux s o1 o2 p1 f1 p2 f2 l : 0 < s -> 0 < f1 -> 11/10 * f1 < 9/10 * f2 -> psf_comp flux s o1 (p1, f1) l -> psf_comp flux s o2 (p2, f2) l -> False.
Proof.
  intros Hs H1 H2 (p & r & c & irr & irc & icc & E1 & _ & _ & _ & K1 & _) (p' & r' & c' & irr' & irc' & icc' & E2 & _ & _ & _ & K2 & _).
  rewrite E1 in E2. injection E2 as <- <- <- <- <- <-. unfold near in *. cbn in *. 
  rewrite (Rabs_pos_eq (f1 * s)) in K1 by nra. rewrite (Rabs_pos_eq (f2 * s)) in K2 by nra. 
  assert (irr <= f1 * s + 1/10 * (f1 * s)) by (revert K1; unfold Rabs; destruct (Rcase_abs _); lra).
  assert (f2 * s - 1/10 * (f2 * s) <= irr) by (revert K2; unfold Rabs; destruct (Rcase_abs _); lra). nra.
Qed.
Lemma em4_total {W} (G : rng W) flux T : good_rng G -> total W (em_pars W G 4 flux T) (psf_mixture flux (T/2) (1/100) (entries em4_p em4_f [0; 1; 2; 2]%nat)).
Proof. intros HG. exact (em_comps_total W G HG flux (T/2) true _). Qed.
Lemma em5_total {W} (G : rng W) flux T : good_rng G -> total W (em_pars W G 5 flux T) (psf_mixture flux (T/2) (1/100) (entries em5_p em5_f [0; 1; 2; 2; 2]%nat)).
Proof. intros HG. exact (em_comps_total W G HG flux (T/2) true _). Qed.
Lemma em3_total {W} (G : rng W) flux T : good_rng G -> total W (em_pars W G 3 flux T) (psf_mixture flux (T/2) (1/100) (combine em3_p em3_f)).
Proof. intros HG. exact (em_comps_total W G HG flux (T/2) true _). Qed.
Lemma em2_total {W} (G : rng W) flux T : good_rng G -> total W (em_pars W G 2 flux T) (psf_mixture flux (T/2) 0 (combine em2_p em2_f)).
Proof. intros HG. exact (em_comps_total W G HG flux (T/2) false _). Qed.
Lemma em4_wrong {W} (G : rng W) flux T : good_rng G -> 0 < T ->
  total W (em_pars W G 4 flux T) (fun l => length l = 24%nat /\ forall off, ~ psf_mixture flux (T/2) off (combine em4_p em4_f) l).
Proof.
  intros HG HT. eapply total_weaken; [|apply em4_total, HG]. intros l H. split.
  - destruct H as (comps & -> & F). repeat (match goal with H : Forall2 _ (_ :: _) _ |- _ => inversion H; subst; clear H | H : psf_comp _ _ _ _ _ |- _ => destruct H as (? & ? & ? & ? & ? & ? & -> & _) | H : Forall2 _ (entries _ _ _) _ |- _ => unfold entries in H; cbn [map] in H | H : Forall2 _ [] _ |- _ => inversion H; subst; clear H end). reflexivity.
  - intros off K. refine (comp_differs flux (T/2) _ _ _ _ _ _ _ _ _ _ (mixture_nth _ _ _ _ _ H 3%nat _ eq_refl) (mixture_nth _ _ _ _ _ K 3%nat _ eq_refl)); cbn; lra.
Qed.
Lemma em5_wrong {W} (G : rng W) flux T : good_rng G -> 0 < T ->
  total W (em_pars W G 5 flux T) (fun l => length l = 30%nat /\ forall off, ~ psf_mixture flux (T/2) off (combine em5_p em5_f) l).
Proof.
  intros HG HT. eapply total_weaken; [|apply em5_total, HG]. intros l H. split.
  - destruct H as (comps & -> & F). repeat (match goal with H : Forall2 _ (_ :: _) _ |- _ => inversion H; subst; clear H | H : psf_comp _ _ _ _ _ |- _ => destruct H as (? & ? & ? & ? & ? & ? & -> & _) | H : Forall2 _ (entries _ _ _) _ |- _ => unfold entries in H; cbn [map] in H | H : Forall2 _ [] _ |- _ => inversion H; subst; clear H end). reflexivity.
  - intros off K. refine (comp_differs flux (T/2) _ _ _ _ _ _ _ _ _ _ (mixture_nth _ _ _ _ _ H 3%nat _ eq_refl) (mixture_nth _ _ _ _ _ K 3%nat _ eq_refl)); cbn; lra.
Qed.
(** positive definite *)
Ltac tab := unfold entries, em5_p, em5_f, em4_p, em4_f; unfold em3_p, em3_f; unfold em2_p, em2_f; cbn [map app combine nth snd]; repeat (first [apply Forall_nil | apply Forall_cons; [split; unfold snd, em2_f; cbn [app]; lra|]]).
Lemma em_posdef {W} (G : rng W) n flux T : good_rng G -> (1 <= n <= 5)%nat -> 0 < T -> ((n <= 2)%nat \/ 5/100 <= T) -> total W (em_pars W G n flux T) pos_def.
Proof.
  intros HG Hn HT Hc. destruct n as [|[|[|[|[|[|n]]]]]]; try lia.
  - eapply total_weaken; [|apply (em1_total W G HG); exact HT]. intros l H. eapply mixture_pos; [exact H|]. repeat constructor; cbn; lra.
  - eapply total_weaken; [|apply (em2_total G); exact HG]. intros l H. eapply mixture_pos; [exact H|]. tab.
  - destruct Hc; [lia|]. eapply total_weaken; [|apply (em3_total G); exact HG]. intros l H'. eapply mixture_pos; [exact H'|]. tab.
  - destruct Hc; [lia|]. eapply total_weaken; [|apply (em4_total G); exact HG]. intros l H'. eapply mixture_pos; [exact H'|]. tab.
  - destruct Hc; [lia|]. eapply total_weaken; [|apply (em5_total G); exact HG]. intros l H'. eapply mixture_pos; [exact H'|]. tab.
Qed.
(** pixels of 3/100 *)
Lemma small_T : 0 < fst (T_flux_default (3/100) 1) < 1/200.
Proof.
  cbn [T_flux_default fst]. unfold fwhm_to_T, fwhm_to_sigma, FWHM_FAC. cbv zeta. set (x := 3 / 100 * (7 / 2) / (23548200450309493 / 10000000000000000)).
  assert (E : x * (23548200450309493 / 10000000000000000) = 3 / 100 * (7 / 2)) by (unfold x; field). clearbody x. nra.
Qed.
Lemma small_wrong : exists l, em_pars nat the_rng 3 1 (fst (T_flux_default (3/100) 1)) 0%nat = Some (18%nat, Ok l) /\ ~ pos_def l.
Proof.
  assert (HT := small_T). set (T := fst _) in *. clearbody T. unfold em_pars, entries. cbn -[Rplus Rmult Rdiv Ropp IZR]. eexists. split; [reflexivity|].
  intros H. specialize (H 0%nat _ _ _ _ _ _ eq_refl). cbn [nth em3_f em2_f app] in H. destruct H as (H1 & _ & H3). nra.
Qed.
(** ** the size of the psf *)
Lemma default_pos scale s : 0 < scale -> 0 < fst (T_flux_default scale s).
Proof. intros H. cbn [T_flux_default fst]. unfold fwhm_to_T, fwhm_to_sigma, FWHM_FAC. cbv zeta. assert (0 < scale * (7/2) / (23548200450309493 / 10000000000000000)) by (apply Rdiv_lt_0_compat; lra). nra. Qed.
Lemma T_pos scale s m T f : 0 < scale -> (mo_flags m = 0%Z -> 0 < mo_T m) -> T_flux_from_moms scale s m = Some (T, f) -> 0 < T.
Proof.
  intros Hs Hm. assert (D := default_pos scale s Hs). unfold T_flux_from_moms, T_flux_default in *. cbv zeta in *. cbn [fst] in D. destruct (Z.eqb (mo_flags m) 0) eqn:Ef; cbn [negb].
  2: { intros [= <- <-]. exact D. }
  apply Z.eqb_eq in Ef. specialize (Hm Ef). destruct (Rltb (T_to_fwhm (mo_T m)) scale); [intros [= <- <-]; exact D|]. set (d := 1 / mo_T m - 1 / Tweight scale) in *.
  destruct (Reqb d 0) eqn:Ed; [discriminate|]. apply Reqb_false in Ed. destruct (Rltb (1 / d) 0) eqn:En; intros [= <- <-]; [exact Hm|]. apply Rltb_false in En.
  assert (0 < 1 / d \/ 1 / d = 0) as [K|K] by lra; [exact K|]. exfalso. unfold Rdiv in K. rewrite Rmult_1_l in K. now apply Rinv_neq_0_compat in K.
Qed.
Lemma T_recovered scale s m T0 F : 0 < scale -> 0 < T0 -> mo_flags m = 0%Z -> 1 / mo_T m = 1 / T0 + 1 / Tweight scale -> mo_flux m = F * scale ^ 2 / (PI * (T0 + Tweight scale)) ->
  scale <= T_to_fwhm (mo_T m) -> T_flux_from_moms scale s m = Some (T0, F).
Proof.
  intros Hs HT Hf E1 E2 Hw. unfold T_flux_from_moms. rewrite Hf. cbn [Z.eqb negb]. rewrite Rltb_f by lra.
  assert (Dp : 0 < Tweight scale) by exact (default_pos scale 0 Hs). assert (Pi := PI_RGT_0).
  replace (1 / mo_T m - 1 / Tweight scale) with (1 / T0) by lra. assert (Ti : 0 < 1 / T0) by (apply Rdiv_lt_0_compat; lra).
  rewrite Reqb_f by lra. replace (1 / (1 / T0)) with T0 by (field; lra). rewrite Rltb_f by lra. f_equal. f_equal. rewrite E2. field. repeat split; lra.
Qed.
Lemma T_infinite scale s m : mo_flags m = 0%Z -> mo_T m = Tweight scale -> scale <= T_to_fwhm (mo_T m) -> T_flux_from_moms scale s m = None.
Proof.
  intros Hf E Hw. unfold T_flux_from_moms. rewrite Hf. cbn [Z.eqb negb]. rewrite Rltb_f by lra. rewrite Reqb_t by (rewrite E; ring). reflexivity.
Qed.
Lemma T_None scale s m : T_flux_from_moms scale s m = None -> mo_flags m = 0%Z /\ 1 / mo_T m = 1 / Tweight scale.
Proof.
  unfold T_flux_from_moms. destruct (Z.eqb (mo_flags m) 0) eqn:Ef; cbn [negb]; [|discriminate]. apply Z.eqb_eq in Ef. destruct (Rltb _ scale); [discriminate|]. destruct (Reqb _ 0) eqn:Ed; [|discriminate]. apply Reqb_true in Ed. intros _. split; [exact Ef|lra].
Qed.
