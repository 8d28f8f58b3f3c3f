From Verif Require Import Base XReal Pixels_Model Pixels_Spec Jacobian_Model Jacobian_Spec GMix_Model GMix_Spec GMixObj_Model GMixObj_Proofs Render_Model Render_Spec Render_Proofs Pixels_Proofs
  FastExp_Model Priors_Model Joint_Model Fit_Model Fit_Spec Fit_Proofs Fit2_Proofs Fit3_Proofs Units_Spec Units_Proofs Coords_Spec Coords_Proofs CoordsGM_Proofs CoordsAm_Proofs FitUnits_Spec FitUnits_Proofs FitUnits2_Proofs FitUnits3_Proofs.
Local Open Scope R_scope.

Section U.
Variables k a f : R.
Hypothesis K : k <> 0.
Hypothesis A : a <> 0.
Hypothesis FF : f * f = 1.
Notation OU := (obs_units k a f).
Notation PU := (pars_units k a f).

Lemma sqrt_units c v : c <> 0 -> xsqrt (Fin (c * c * v)) = times (Rabs c) (xsqrt (Fin v)).
Proof.
  clear. intros C. pose proof (Rsqr_pos_lt c C) as C2. unfold Rsqr in C2. cbn [xsqrt]. destruct (Rltb_spec v 0) as [N|N].
  - rewrite Rltb_t by nra. reflexivity.
  - rewrite Rltb_f by nra. rewrite sqrt_mult by nra. change (c * c) with (Rsqr c). rewrite sqrt_Rsqr_abs. symmetry. apply times_fin.
Qed.
Lemma ritem_units m p p' i : PU m p p' -> same_outcome (fun x x' => x' = par_factor k a f m i * x) (ritem p i) (ritem p' i).
Proof.
  clear. intros [L H]. unfold ritem. specialize (H i). destruct (nth_error p i) as [x|] eqn:E.
  - assert (i < length p)%nat by (apply nth_error_Some; congruence). destruct (nth_error p' i) as [x'|] eqn:E'; [|apply nth_error_None in E'; lia].
    rewrite (nth_error_nth _ _ 0 E), (nth_error_nth _ _ 0 E') in H. exact H.
  - apply nth_error_None in E. destruct (nth_error p' i) eqn:E'; [|reflexivity]. assert (i < length p')%nat by (apply nth_error_Some; congruence). lia.
Qed.
Lemma citem_units m c c' i j : cov_units k a f m c c' -> same_outcome (fun x x' => x' = par_factor k a f m i * par_factor k a f m j * x) (citem c i j) (citem c' i j).
Proof. clear. intros (E1 & E2 & E3). unfold citem. rewrite E1, E2. destruct (_ && _)%bool; [apply E3|reflexivity]. Qed.
Lemma flux_factor m i : (flux_start m <= i)%nat -> par_factor k a f (FName m) i = k.
Proof.
  clear. intros Hi. unfold par_factor, flux_start in *. destruct i as [|[|[|[|[|i]]]]]; try (destruct m; lia). destruct m; cbn [Nat.eqb]; rewrite (proj2 (Nat.ltb_ge _ _)) by lia; reflexivity.
Qed.
Lemma skipn_units m p p' : PU (FName m) p p' -> skipn (flux_start m) p' = map (Rmult k) (skipn (flux_start m) p).
Proof.
  clear - k a f. intros [L H]. apply nth_ext with (d := 0) (d' := 0); [rewrite map_length, !skipn_length; lia|]. intros i Hi.
  replace 0 with (k * 0) at 2 by ring. rewrite map_nth.
  assert (N : forall (n : nat) (l : list R) i, nth i (skipn n l) 0 = nth (n + i) l 0).
  { clear. induction n; intros [|x l] i; cbn [skipn nth Nat.add]; try reflexivity; [destruct i; reflexivity|apply IHn]. }
  rewrite !N, H, flux_factor by lia. reflexivity.
Qed.
Lemma set_flux_units m n p p' c c' : PU m p p' -> cov_units k a f m c c' -> same_outcome (flux_units k) (set_flux_result m n p c) (set_flux_result m n p' c').
Proof.
  intros H C. destruct m as [m|nn]; cbn [set_flux_result]; [|exact I]. destruct (Nat.eqb n 1).
  - eapply same_bind; [apply (ritem_units _ _ _ _ H)|]. intros x ? ->. eapply same_bind; [apply (citem_units _ _ _ _ _ C)|]. intros v ? ->. rewrite !flux_factor by lia.
    split; [reflexivity|]. apply sqrt_units, K.
  - cbn [same_outcome flux_units]. destruct C as (C1 & C2 & C3). unfold block. cbn [nrow ncol at2]. rewrite C1, C2. split; [apply skipn_units, H|]. split; [|split; [reflexivity|split; [reflexivity|]]].
    + rewrite map_map. apply map_ext. intros i. rewrite C3, !flux_factor by lia. apply sqrt_units, K.
    + intros i j. rewrite C3, !flux_factor by lia. reflexivity.
Qed.
Lemma size_factor m : m <> FCoellip 0 -> par_factor k a f m 4 = a ^ 2.
Proof. clear. intros H. destruct m as [m|[|n]]; [reflexivity|congruence|]. unfold par_factor. rewrite (proj2 (Nat.ltb_lt _ _)) by lia. reflexivity. Qed.
Lemma result_units_of m obs obs' prior prior' F F' p p' e e' c c' : m <> FCoellip 0 -> fit_of m obs prior F -> fit_of m obs' prior' F' -> Forall2 (Forall2 OU) obs obs' -> prior_units k a f m prior prior' ->
  PU m p p' -> err_units k a f m e e' -> cov_units k a f m c c' ->
  snd (calc_lnprob F' p') = snd (calc_lnprob F p) ->
  same_outcome (result_units k a f) (snd (set_fit_result F p e c)) (snd (set_fit_result F' p' e' c')).
Proof.
  intros Hm Ft Ft' HO HP HU [HE1 HE2] HC EQ. pose proof (fit_made _ _ _ _ Ft) as M. pose proof (fit_made _ _ _ _ Ft') as M'.
  pose proof (proj2 (size_same k a f m obs obs' prior prior' F F' Ft Ft' HO HP)) as NP.
  unfold set_fit_result. destruct (lnprob_pure F p (md_ok _ _ _ _ M)) as (_ & [g S] & _). destruct (lnprob_pure F' p' (md_ok _ _ _ _ M')) as (_ & [g' S'] & _).
  destruct (calc_lnprob F p) as [G r], (calc_lnprob F' p') as [G' r']. cbn [fst snd] in *. subst G G' r'. cbn [with_gms f_npars f_prior f_model f_obs].
  rewrite NP, (md_model _ _ _ _ M), (md_model _ _ _ _ M'), (md_obs _ _ _ _ M), (md_obs _ _ _ _ M'), (md_prior _ _ _ _ M), (md_prior _ _ _ _ M'), (Forall2_length _ _ _ HO).
  destruct r as [l|]; [|reflexivity]. cbn [bind]. cbv zeta.
  eapply same_bind with (P := eq).
  { destruct (Z.eqb _ 0); [|reflexivity]. replace (match prior' with None => false | Some q => jp_numpy q end) with (match prior with None => false | Some q => jp_numpy q end).
    - destruct (match prior with None => false | Some q => jp_numpy q end); reflexivity.
    - unfold prior_units in HP. destruct prior, prior'; try contradiction; [symmetry; apply HP|reflexivity]. }
  intros ch ? <-. eapply same_bind; [apply (ritem_units _ _ _ _ HU)|]. intros T ? ->. eapply same_bind; [apply (citem_units _ _ _ _ _ HC)|]. intros v ? ->.
  eapply same_bind; [apply (set_flux_units m (length obs') p p' c c' HU HC)|]. intros fl fl' FU. cbn [same_outcome].
  rewrite (size_factor m Hm). destruct HU as [L H]. destruct HC as (C1 & C2 & C3).
  assert (N : forall (l : list R) i, nth i (firstn 2 (skipn 2 l)) 0 = if Nat.ltb i 2 then nth (2 + i) l 0 else 0).
  { clear. intros l i. rewrite nth_firstn'. destruct (Nat.ltb i 2); [|reflexivity]. destruct l as [|x [|y l]]; cbn [skipn nth Nat.add]; destruct i; reflexivity. }
  assert (P2 : par_factor k a f m 2 = 1) by reflexivity. assert (P3 : par_factor k a f m 3 = f) by reflexivity.
  unfold result_units. cbn [r_ln r_s2n r_chi2per r_dof r_g r_g_cov r_g_err r_T r_T_err r_flux].
  repeat (split; [reflexivity|]). split; [rewrite !firstn_length, !skipn_length; lia|]. rewrite !N. cbn [Nat.ltb Nat.leb Nat.add]. rewrite !H, P2, P3.
  split; [ring|]. split; [reflexivity|]. unfold block. cbn [nrow ncol at2 Nat.add]. rewrite C1, C2, !C3, P2, P3. repeat (split; [reflexivity|]).
  split; [ring|]. split; [ring|]. split; [ring|]. split; [rewrite FF; ring|]. split; [|split; [reflexivity|split; [|exact FU]]].
  - apply nth_ext with (d := 0) (d' := 0); [rewrite !firstn_length, !skipn_length; lia|]. intros i _. rewrite !N. destruct i as [|[|i]]; cbn [Nat.ltb Nat.leb Nat.add]; [| |reflexivity]; rewrite HE2.
    + rewrite P2, Rabs_R1. ring.
    + rewrite P3, (fabs f FF). ring.
  - rewrite sqrt_units by (pose proof (a2 a A); lra). rewrite Rabs_right by (pose proof (a2 a A); lra). reflexivity.
Qed.
End U.
