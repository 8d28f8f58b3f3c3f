From Verif Require Import Base XReal Shape_Model Moments_Model Jacobian_Model Pixels_Model Priors_Model PriorSample_Model PriorSample_Spec Joint_Model
  GMix_Model GMixObj_Model Guessers_Model Guessers_Spec Guessers_Proofs.
From Verif Require PSFFlux_Model.
Local Open Scope R_scope.
Import PSFFlux_Model.

Section More.
Variable W : Type.
Variable G : rng W.
Hypothesis HG : good_rng G.
Local Notation M := (M W).
Ltac hstep t := eapply holds_bind; [apply total_holds; t|intros ? ?].
Ltac step t := eapply total_bind; [t|intros ? ?].

(** ** psf fluxes *)
Lemma good_fit_iff r : good_fit r = true <-> exists f, good_band r f.
Proof.
  unfold good_fit, good_band. rewrite andb_true_iff, Z.eqb_eq. split.
  - intros [A B]. destruct (pr_flux r) as [f| | |]; try discriminate. exists f. auto.
  - intros (f & A & B). rewrite B. auto.
Qed.
Lemma good_fit_val r : good_fit r = true -> good_band r (flux_val r).
Proof. intros H. apply good_fit_iff in H. destruct H as (f & A & B). unfold flux_val. rewrite B. split; assumption. Qed.
Lemma mapM_id fits rs : mapM (fun r : res pres => r) fits = Ok rs <-> fits = map Ok rs.
Proof.
  split.
  - revert rs. induction fits as [|r fits IH]; intros rs; cbn [mapM]; [intros [= <-]; reflexivity|]. destruct r as [x|e]; cbn [bind]; [|discriminate].
    destruct (mapM (fun r => r) fits) as [l|e]; cbn [bind]; [|discriminate]. intros [= <-]. cbn [map]. f_equal. apply IH. reflexivity.
  - intros ->. induction rs as [|r rs IH]; [reflexivity|]. cbn [map mapM bind]. rewrite IH. reflexivity.
Qed.
Lemma goods_filter rs : goods_of (map Ok rs) (map flux_val (filter good_fit rs)).
Proof.
  induction rs as [|r rs IH]; [constructor|]. cbn [map filter]. destruct (good_fit r) eqn:E.
  - cbn [map]. constructor; [apply good_fit_val; exact E|exact IH].
  - constructor; [|exact IH]. intros H. apply good_fit_iff in H. congruence.
Qed.
Lemma goods_unique fits l l' : goods_of fits l -> goods_of fits l' -> l = l'.
Proof.
  intros H. revert l'. induction H as [|r f fits l B H IH|r fits l B H IH]; intros l' K; inversion K; subst; try reflexivity.
  - match goal with Hb : good_band r ?g |- _ => assert (f = g) by (destruct B as [_ B]; destruct Hb as [_ Hb]; congruence) end. subst. f_equal. auto.
  - exfalso. eauto.
  - exfalso. eauto.
  - auto.
Qed.
Lemma goods_ok fits l : goods_of fits l -> exists rs, fits = map Ok rs.
Proof. induction 1 as [|r f fits l B H [rs ->]|r fits l B H [rs ->]]; [exists []; reflexivity|exists (r :: rs); reflexivity|exists (r :: rs); reflexivity]. Qed.
Lemma fill_ok mean : forall rs fac, length fac = (length rs - length (filter good_fit rs))%nat -> Forall (small (1/10)) (map (fun f => f - 1) fac) ->
  Forall2 (fun x f => exists r, x = Ok r /\ (good_band r f \/ (~ exists f', good_band r f') /\ near (1/10) mean f)) (map Ok rs) (fill_bad rs mean fac).
Proof.
  induction rs as [|r rs IH]; intros fac L F; [constructor|]. cbn [map fill_bad filter] in *. assert (Lf : (length (filter good_fit rs) <= length rs)%nat).
  { clear. induction rs as [|x rs IH]; [reflexivity|]. cbn. destruct (good_fit x); cbn; lia. }
  destruct (good_fit r) eqn:E.
  - constructor; [exists r; split; [reflexivity|left; apply good_fit_val; exact E]|]. apply IH; [cbn [length] in L; lia|exact F].
  - destruct fac as [|f fac]; [cbn [length] in L; lia|]. cbn [map] in F. inversion F as [|? ? Ff F']; subst. constructor.
    + exists r. split; [reflexivity|]. right. split; [intros K; apply good_fit_iff in K; congruence|]. replace (mean * f) with (mean * (1 + (f - 1))) by ring. apply near_w. exact Ff.
    + apply IH; [cbn [length] in L; lia|exact F'].
Qed.
Lemma all_good rs : length (filter good_fit rs) = length rs -> Forall (fun r => good_fit r = true) rs.
Proof.
  induction rs as [|r rs IH]; intros H; [constructor|]. cbn [filter] in H. assert (Lf : (length (filter good_fit rs) <= length rs)%nat).
  { clear. induction rs as [|x rs IH]; [reflexivity|]. cbn. destruct (good_fit x); cbn; lia. }
  destruct (good_fit r) eqn:E; cbn [length] in H; [constructor; [exact E|apply IH; lia]|lia].
Qed.
Lemma some_good rs : (map (@Ok pres) rs <> [] -> map flux_val (filter good_fit rs) <> []) -> length (filter good_fit rs) <> length rs -> length (filter good_fit rs) <> 0%nat.
Proof. intros H N Z0. destruct rs as [|r rs]; [cbn in N; congruence|]. apply H; [discriminate|]. destruct (filter good_fit (r :: rs)); [reflexivity|discriminate]. Qed.
Lemma psf_fluxes_total fits : measurable fits -> total W (psf_fluxes W G fits) (fluxes_of fits).
Proof.
  intros (gs & Hg & Ne). destruct (goods_ok _ _ Hg) as [rs ->]. assert (gs = map flux_val (filter good_fit rs)) by (eapply goods_unique; [exact Hg|apply goods_filter]). subst gs.
  unfold psf_fluxes. rewrite (proj2 (mapM_id (map Ok rs) rs) eq_refl). intros w. cbn [bindM of_res]. destruct (Nat.eqb_spec (length (filter good_fit rs)) (length rs)) as [E|E].
  - exists w, (map flux_val rs). split; [reflexivity|]. exists (map flux_val (filter good_fit rs)). split; [exact Hg|]. split; [exact Ne|]. apply all_good in E. generalize (rsum (map flux_val (filter good_fit rs)) / INR (length (map flux_val (filter good_fit rs)))) as mean. clear - E. intros mean.
    induction E as [|r rs Hr _ IH]; [constructor|]. cbn [map]. constructor; [|exact IH]. exists r. split; [reflexivity|left; apply good_fit_val; exact Hr].
  - assert (Z0 := some_good rs Ne E). destruct (Nat.eqb_spec (length (filter good_fit rs)) 0) as [K|_]; [contradiction|]. revert w.
    step ltac:(apply (total_uni W G HG (-1/10) (1/10)); lra). destruct H as [L F]. rewrite (proj2 (Nat.eqb_eq _ _) L). apply total_ret.
    exists (map flux_val (filter good_fit rs)). split; [exact Hg|]. split; [exact Ne|]. rewrite map_length. apply fill_ok; [rewrite map_length; exact L|].
    apply Forall_forall. intros x Hx. apply in_map_iff in Hx. destruct Hx as (y & <- & Hy). apply in_map_iff in Hy. destruct Hy as (z & <- & Hz). rewrite Forall_forall in F. specialize (F z Hz). unfold small, between in *. lra.
Qed.
Lemma psf_fluxes_cases fits w : exists w' r, psf_fluxes W G fits w = Some (w', r) /\
  ((measurable fits /\ exists fl, r = Ok fl /\ fluxes_of fits fl) \/
   (~ measurable fits /\ w' = w /\ ((exists e, mapM (fun r => r) fits = Raise e /\ r = Raise e) \/ r = Raise PSFFluxFailure))).
Proof.
  destruct (mapM (fun r : res pres => r) fits) as [rs|e] eqn:E.
  - assert (Ef := proj1 (mapM_id _ _) E). destruct (Nat.eq_dec (length (filter good_fit rs)) 0) as [Z0|Z0].
    + destruct rs as [|r rs].
      * assert (Me : measurable fits) by (subst fits; exists []; split; [constructor|intros K; exfalso; apply K; reflexivity]). destruct (psf_fluxes_total fits Me w) as (w' & fl & R1 & R2). exists w', (Ok fl). split; [exact R1|]. left. eauto.
      * exists w, (Raise PSFFluxFailure). split.
        -- unfold psf_fluxes. rewrite E. cbn [bindM of_res]. destruct (Nat.eqb_spec (length (filter good_fit (r :: rs))) (length (r :: rs))) as [K|K]; [rewrite Z0 in K; discriminate|]. destruct (Nat.eqb_spec (length (filter good_fit (r :: rs))) 0) as [K'|K']; [reflexivity|contradiction].
        -- right. split; [|auto]. intros (gs & Hg & Ne). subst fits. assert (gs = map flux_val (filter good_fit (r :: rs))) by (eapply goods_unique; [exact Hg|apply goods_filter]). subst gs.
           apply Ne; [discriminate|]. destruct (filter good_fit (r :: rs)); [reflexivity|discriminate].
    + assert (Me : measurable fits). { subst fits. exists (map flux_val (filter good_fit rs)). split; [apply goods_filter|]. intros _ K. apply Z0. destruct (filter good_fit rs); [reflexivity|discriminate]. }
      destruct (psf_fluxes_total fits Me w) as (w' & fl & R1 & R2). exists w', (Ok fl). split; [exact R1|]. left. eauto.
  - exists w, (Raise e). split; [unfold psf_fluxes; rewrite E; reflexivity|]. right. split; [|split; [reflexivity|left; exists e; auto]].
    intros (gs & Hg & _). destruct (goods_ok _ _ Hg) as [rs ->]. rewrite (proj2 (mapM_id (map Ok rs) rs) eq_refl) in E. discriminate.
Qed.

(** ** The cache *)
Definition cache_good (obs_of : nat -> list (res pres)) (c : cache) : Prop :=
  match c_id c with Some i => exists fl, c_fluxes c = Some fl /\ fluxes_of (obs_of i) fl | None => c_fluxes c = None end.
Lemma call_good obs_of c body oid w w' c' r : measurable (obs_of oid) -> cache_good obs_of c -> psf_call W G body c oid (obs_of oid) w = Some (w', c', r) ->
  cache_good obs_of c' /\ exists fl w1, fluxes_of (obs_of oid) fl /\ body fl w1 = Some (w', r).
Proof.
  intros Me Gc. unfold psf_call, get_psf_fluxes. destruct (match c_id c with Some i => Nat.eqb oid i | None => false end) eqn:E.
  - unfold cache_good in Gc. destruct (c_id c) as [i|] eqn:Ei; [|discriminate]. apply Nat.eqb_eq in E. subst i. destruct Gc as (fl & Ef & Hf). rewrite Ef.
    destruct (body fl w) as [[w2 r2]|] eqn:Eb; [|discriminate]. intros [= <- <- <-]. split; [unfold cache_good; rewrite Ei; eauto|eauto].
  - destruct (psf_fluxes_total (obs_of oid) Me w) as (w1 & fl & -> & Hf). destruct (body fl w1) as [[w2 r2]|] eqn:Eb; [|discriminate]. intros [= <- <- <-]. split; [unfold cache_good; cbn [c_id c_fluxes]; eauto|eauto].
Qed.
Lemma after_good obs_of c : (forall oid, measurable (obs_of oid)) -> after G obs_of c -> cache_good obs_of c.
Proof. intros Me H. induction H as [|c body oid w w' c' r H IH Hc]; [reflexivity|]. eapply call_good; [apply Me|exact IH|exact Hc]. Qed.
Lemma psf_call_own obs_of c body oid w w' c' r : (forall oid, measurable (obs_of oid)) -> after G obs_of c -> psf_call W G body c oid (obs_of oid) w = Some (w', c', r) ->
  exists fl w1, fluxes_of (obs_of oid) fl /\ body fl w1 = Some (w', r).
Proof. intros Me A E. eapply call_good; [apply Me|apply after_good; eassumption|exact E]. Qed.
(** a call with another observation than the last one, after any history *)
Lemma psf_call_new c body oid fits w w' c' r : c_id c <> Some oid -> psf_call W G body c oid fits w = Some (w', c', r) ->
  (measurable fits /\ exists fl w1, fluxes_of fits fl /\ body fl w1 = Some (w', r)) \/
  (~ measurable fits /\ exists e, r = Raise e).
Proof.
  intros N. unfold psf_call, get_psf_fluxes. replace (match c_id c with Some i => Nat.eqb oid i | None => false end) with false.
  2:{ destruct (c_id c) as [i|]; [|reflexivity]. symmetry. apply Nat.eqb_neq. congruence. }
  destruct (psf_fluxes_cases fits w) as (w1 & r1 & -> & [(Me & fl & -> & Hf)|(Nm & -> & [(e & _ & ->)| ->])]).
  - destruct (body fl w1) as [[w2 r2]|] eqn:Eb; [|discriminate]. intros [= <- <- <-]. left. split; [exact Me|]. eauto.
  - intros [= <- <- <-]. right. eauto.
  - intros [= <- <- <-]. right. eauto.
Qed.

(** ** psf guesses *)
Lemma near_around c x : between (9/10) (11/10) x -> near (1/10) c (c * x).
Proof. apply near_u. Qed.
Lemma near_1 c x : between (-1/10) (1/10) x -> near (1/10) c (c * (1 + x)).
Proof. intros H. apply near_w. unfold small, between in *. lra. Qed.
Lemma small_10 x : between (-1/10) (1/10) x -> small (1/10) x.
Proof. unfold small, between. lra. Qed.
Lemma near_self k c : 0 <= k -> near k c c.
Proof. intros H. unfold near. replace (c - c) with 0 by ring. rewrite Rabs_R0. apply Rmult_le_pos; [exact H|apply Rabs_pos]. Qed.
Definition off_of (vary : bool) : R := if vary then 1/100 else 0.
Lemma em_comp_total flux sigma2 p f vary : total W (em_comp W G flux sigma2 p f vary) (psf_comp flux sigma2 (off_of vary) (p, f)).
Proof.
  unfold em_comp. eapply (total_bind W _ _ (fun a => near (1/10) (p * flux) a)).
  { destruct vary; [|apply total_ret, near_self; lra]. step ltac:(apply (total_uni1 W G HG (-1/10) (1/10)); lra). apply total_ret. replace (flux * p) with (p * flux) by ring. apply near_1. exact H. }
  intros a Ha. step ltac:(apply (total_uni1 W G HG (-1/10) (1/10)); lra). rename a0 into r. step ltac:(apply (total_uni1 W G HG (-1/10) (1/10)); lra). rename a0 into c.
  step ltac:(apply (total_uni1 W G HG (-1/10) (1/10)); lra). rename a0 into x.
  eapply (total_bind W _ _ (fun xy => small (off_of vary) xy)).
  { destruct vary; [eapply total_weaken; [|apply (total_uni1 W G HG (-1/100) (1/100)); lra]; unfold small, between, off_of; intros; lra|apply total_ret; unfold small, off_of; lra]. }
  intros xy Hxy. step ltac:(apply (total_uni1 W G HG (-1/10) (1/10)); lra). rename a0 into y. apply total_ret.
  exists a, r, c, (f * sigma2 * (1 + x)), xy, (f * sigma2 * (1 + y)). cbn [fst snd]. split; [reflexivity|]. split; [exact Ha|]. split; [apply small_10; assumption|]. split; [apply small_10; assumption|].
  split; [apply near_1; assumption|]. split; [exact Hxy|apply near_1; assumption].
Qed.
Lemma em_comps_total flux sigma2 vary tab : total W (em_comps W G flux sigma2 vary tab) (psf_mixture flux sigma2 (off_of vary) tab).
Proof.
  induction tab as [|[p f] tab IH]; cbn [em_comps]; [apply total_ret; exists []; split; [reflexivity|constructor]|].
  step ltac:(apply (em_comp_total flux sigma2 p f vary)). step ltac:(apply IH). apply total_ret. destruct H0 as (cs & -> & F). exists (a :: cs). split; [reflexivity|]. constructor; assumption.
Qed.
Lemma em1_total flux T : 0 < T -> total W (em_pars W G 1 flux T) (one_gauss flux (T / 2)).
Proof.
  intros HT. unfold em_pars. cbv zeta. eapply (total_bind W _ _ (fun a => near (1/10) (1 * flux) a)).
  { step ltac:(apply (total_uni1 W G HG (9/10) (11/10)); lra). apply total_ret. rewrite Rmult_1_l. apply near_around. exact H. }
  intros a Ha. step ltac:(apply (total_uni1 W G HG (-1/10) (1/10)); lra). rename a0 into r. step ltac:(apply (total_uni1 W G HG (-1/10) (1/10)); lra). rename a0 into c.
  step ltac:(apply (total_uni1 W G HG (-1/10) (1/10)); lra). rename a0 into x. step ltac:(apply (total_uni1 W G HG (- (2/10) * (T / 2)) (2/10 * (T / 2))); lra). rename a0 into xy.
  step ltac:(apply (total_uni1 W G HG (-1/10) (1/10)); lra). rename a0 into y. apply total_ret.
  exists [[a; r; c; T / 2 * (1 + x); xy; T / 2 * (1 + y)]]. split; [reflexivity|]. constructor; [|constructor].
  exists a, r, c, (T / 2 * (1 + x)), xy, (T / 2 * (1 + y)). cbn [fst snd]. rewrite (Rmult_1_l (T / 2)). split; [reflexivity|]. split; [exact Ha|]. split; [apply small_10; assumption|]. split; [apply small_10; assumption|].
  split; [apply near_1; assumption|]. split; [unfold small, between in *; lra|apply near_1; assumption].
Qed.
(** positive definite *)
Lemma comp_pos sigma2 off f irr irc icc : 0 < f * sigma2 -> off < 9/10 * (f * sigma2) -> near (1/10) (f * sigma2) irr -> small off irc -> near (1/10) (f * sigma2) icc ->
  0 < irr /\ 0 < icc /\ 0 < irr * icc - irc ^ 2.
Proof.
  intros P O A B C. unfold near in *. rewrite (Rabs_pos_eq (f * sigma2)) in A, C by lra. set (k := f * sigma2) in *.
  assert (A' : 9/10 * k <= irr) by (revert A; unfold Rabs; destruct (Rcase_abs _); lra). assert (C' : 9/10 * k <= icc) by (revert C; unfold Rabs; destruct (Rcase_abs _); lra). unfold small in B.
  assert (Q1 : (9/10 * k) * (9/10 * k) <= irr * icc) by (apply Rmult_le_compat; lra). assert (Q2 : irc ^ 2 <= off * off) by nra. assert (off * off < (9/10 * k) * (9/10 * k)) by nra. lra.
Qed.
Lemma mixture_pos flux sigma2 off tab l : psf_mixture flux sigma2 off tab l -> Forall (fun pf => 0 < snd pf * sigma2 /\ off < 9/10 * (snd pf * sigma2)) tab -> pos_def l.
Proof.
  intros (cs & -> & F). induction F as [|pf cmp tab cs Hc F IH]; intros K; inversion K as [|? ? [K1 K2] K3]; subst.
  - intros i p r c irr irc icc E. cbn [concat] in E. rewrite skipn_nil in E. discriminate.
  - intros i p r c irr irc icc E. cbn [concat] in E. destruct Hc as (p' & r' & c' & irr' & irc' & icc' & -> & N1 & N2 & N3 & N4 & N5 & N6). destruct i as [|i].
    + cbn in E. injection E as <- <- <- <- <- <-. eapply (comp_pos sigma2 off (snd pf)); eassumption.
    + replace (6 * S i)%nat with (6 + 6 * i)%nat in E by lia. cbn [app] in E. change (6 + 6 * i)%nat with (S (S (S (S (S (S (6 * i))))))) in E. cbn [skipn] in E. exact (IH K3 i p r c irr irc icc E).
Qed.
Lemma head_total : total W (psf_head W G) (fun h => exists c1 c2 g1 g2, h = [c1; c2; g1; g2] /\ small (1/100) c1 /\ small (1/100) c2 /\ small (5/100) g1 /\ small (5/100) g2).
Proof.
  unfold psf_head. step ltac:(apply (total_uni W G HG (-1/100) (1/100)); lra). step ltac:(apply (total_uni W G HG (-5/100) (5/100)); lra). destruct H as [L1 F1], H0 as [L2 F2].
  destruct a as [|x [|y [|]]]; try discriminate. destruct a0 as [|u [|v [|]]]; try discriminate. inversion F1 as [|? ? X1 F1']; subst. inversion F1' as [|? ? X2 _]; subst. inversion F2 as [|? ? X3 F2']; subst. inversion F2' as [|? ? X4 _]; subst.
  apply total_ret. eexists _, _, _, _. split; [reflexivity|]. unfold small, between in *. lra.
Qed.
Lemma simplepsf_total flux T : total W (simplepsf_guess W G flux T) (coellip_row (1/10) [T] [flux]).
Proof.
  unfold simplepsf_guess. step ltac:(apply head_total). step ltac:(apply (total_uni1 W G HG (9/10) (11/10)); lra). step ltac:(apply (total_uni1 W G HG (9/10) (11/10)); lra). apply total_ret.
  destruct H as (c1 & c2 & g1 & g2 & -> & A1 & A2 & A3 & A4). exists c1, c2, g1, g2, [T * a0], [flux * a1]. split; [reflexivity|]. repeat (split; [assumption|]). split; (constructor; [apply near_around; assumption|constructor]).
Qed.
Lemma near_99 c x : between (99/100) (101/100) x -> near (1/100) c (c * x).
Proof. intros H. replace (c * x) with (c * (1 + (x - 1))) by ring. apply near_w. unfold small, between in *. lra. Qed.
Lemma scaled_total c l : total W (scaled_entries W G c l) (Forall2 (near (1/100)) (map (fun x => c * x) l)).
Proof.
  induction l as [|x l IH]; cbn [scaled_entries]; [apply total_ret; constructor|]. step ltac:(apply (total_uni1 W G HG (99/100) (101/100)); lra). step ltac:(apply IH). apply total_ret. cbn [map]. constructor; [apply near_99; assumption|assumption].
Qed.
Lemma coellip_total ngauss p f flux T : coellip_table ngauss = Some (p, f) ->
  total W (coellippsf_guess W G ngauss flux T) (coellip_row (1/100) (map (fun x => T * x) f) (map (fun x => flux * x) p)).
Proof.
  intros E. unfold coellippsf_guess. destruct ngauss as [|[|n]]; try discriminate. rewrite E. step ltac:(apply head_total). step ltac:(apply (scaled_total T f)). step ltac:(apply (scaled_total flux p)). apply total_ret.
  destruct H as (c1 & c2 & g1 & g2 & -> & A1 & A2 & A3 & A4). exists c1, c2, g1, g2, a0, a1. split; [reflexivity|]. repeat (split; [assumption|]). assumption.
Qed.
End More.
