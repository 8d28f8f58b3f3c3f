From Verif Require Import Base XReal Pixels_Model Jacobian_Model GMix_Model GMix_Spec GMixObj_Model GMixObj_Proofs Render_Model Render_Spec Render_Proofs
  FastExp_Model Priors_Model Joint_Model Fit_Model Fit_Spec Fit_Proofs Fit2_Proofs Fit3_Proofs Units_Spec Units_Proofs Coords_Spec Coords_Proofs FitUnits_Spec FitUnits_Proofs FitUnits2_Proofs FitUnits3_Proofs FluxLik_Spec.
Local Open Scope R_scope.

Section C.
Variable c : R.
Notation GU := (gauss_units c 1 1).
Notation PU := (pars_units c 1 1).
Notation WU := (WU c 1 1).
Lemma one_one : 1 * 1 = 1. Proof. ring. Qed.
Lemma one_not : 1 <> 0. Proof. lra. Qed.

(** an observation with other pixel values, and the same psf *)
Definition dim (o : fobs) : fobs :=
  mkFobs (option_map (map (fun p : pixel R => mkPix (px_u p) (px_v p) (px_area p) (c * px_val p) (px_ierr p / c))) (fo_pixels o)) (fo_psf o) (fo_nr o) (fo_nc o) (fo_jac o).
Lemma dim_units o : obs_units c 1 1 o (dim o).
Proof.
  unfold obs_units. split.
  { unfold dim; cbn [fo_pixels]. destruct (fo_pixels o) as [px|]; cbn [option_map]; [|exact I]. induction px as [|p px IH]; cbn [map]; constructor; [|exact IH]. cbn. repeat split; ring. }
  split; [reflexivity|]. split; [reflexivity|]. split; [unfold jac_coords; cbn [dim fo_jac]; rewrite Rabs_R1; repeat split; ring|]. split; [reflexivity|].
  exists 1. split; [lra|]. change (psf_gmix (dim o)) with (psf_gmix o). destruct (psf_gmix o) as [g|]; cbn [same_outcome]; [|reflexivity]. split; [reflexivity|].
  induction (o_data g) as [|x l IH]; constructor; [|exact IH]. unfold gauss_units. repeat split; ring.
Qed.
Lemma bands_flux m dopsf p p' tot : PU m p p' -> length p = n_pars m tot -> forall obs b, (b + length obs <= length tot)%nat ->
  same_outcome (Forall2 (Forall2 WU)) (bands_mix m dopsf p b obs) (bands_mix m dopsf p' b obs).
Proof.
  intros H L. induction obs as [|os obs IH]; intros b Hb; cbn [bands_mix]; [constructor|]. cbn [length] in Hb.
  pose proof (band_pars_units c 1 1 m p p' b H) as B. destruct (band_pars_ok m tot p b L ltac:(lia)) as (bp & E & Lb). rewrite E in *. destruct (band_pars_of m p' b) as [bp'|]; cbn [same_outcome] in B; [|contradiction].
  cbn [bind]. eapply same_bind; [apply mapM_same; intros o _; apply (one_units c 1 1 one_one m dopsf bp bp' o (dim o) B Lb (dim_units o))|]. intros l l' HL.
  eapply same_bind; [apply IH; lia|]. intros r r' HR. constructor; assumption.
Qed.

Lemma range_flux w w' : Forall2 GU w w' -> snd (gmix_set_norms w') = snd (gmix_set_norms w).
Proof.
  induction 1 as [|g g' w w' (_ & _ & _ & I1 & _ & I3 & D) _ IH]; [reflexivity|]. cbn [gmix_set_norms]. unfold gauss2d_set_norm. rewrite D, I1, I3, !pow1, !Rmult_1_l.
  destruct (Rltb (g_det g) _); [reflexivity|]. cbv zeta. destruct (Rleb _ _); [reflexivity|].
  destruct (gmix_set_norms w), (gmix_set_norms w'). cbn [snd] in *. exact IH.
Qed.
Definition lik := (R * R * R * nat)%type.
(** the log likelihood is [l], or, with [c] times the flux, [l'] *)
Definition flux_lik (s s' : lik) : Prop :=
  let '(l, n, d, k) := s in let '(l', n', d', k') := s' in
  l' = parabola (l - n + d / 2) n d c /\ n' = c * n /\ d' = c ^ 2 * d /\ k' = k /\ 0 <= d.
(** the same before the factor of a half *)
Definition flux_sum (s s' : lik) : Prop :=
  let '(l, n, d, k) := s in let '(l', n', d', k') := s' in
  l' = l + 2 * n - d - 2 * c * n + c ^ 2 * d /\ n' = c * n /\ d' = c ^ 2 * d /\ k' = k /\ 0 <= d.
Lemma loglike_c w w' px : WU w w' -> same_outcome flux_lik (snd (get_loglike w px)) (snd (get_loglike w' px)).
Proof.
  intros W. assert (N : snd (set_norms_if_needed w') = snd (set_norms_if_needed w)).
  { destruct W as (W & R & R'). destruct W as [|g g' w w' G W]; [reflexivity|]. unfold set_norms_if_needed. apply Forall_cons_iff in R, R'. destruct R as [[_ ->] _], R' as [[_ ->] _]. cbn [negb]. apply range_flux. constructor; assumption. }
  destruct (norms_units c 1 1 one_not w w' W) as [E|[E|[[-> ->]|(v & v' & E & E' & V)]]].
  - unfold get_loglike. rewrite E in N. destruct (set_norms_if_needed w), (set_norms_if_needed w'). cbn [snd] in *. rewrite E, N. reflexivity.
  - unfold get_loglike. rewrite E in N. destruct (set_norms_if_needed w), (set_norms_if_needed w'). cbn [snd] in *. rewrite E, <- N. reflexivity.
  - reflexivity.
  - unfold get_loglike. rewrite E, E'. cbn [snd bind]. eapply same_bind with (P := flux_sum).
    + eapply same_foldM with (E := eq); [apply Forall2_diag| |cbn; repeat split; lra]. intros s s' p ? S <-. destruct s as [[[l n] d] k], s' as [[[l' n'] d'] k']. unfold loglike_body.
      eapply same_bind; [apply (eval_units c 1 1 one_not one_one v v' _ _ _ _ _ _ V); ring|]. intros x ? ->. cbv zeta. cbn [same_outcome flux_sum]. destruct S as (-> & -> & -> & -> & S).
      pose proof (pow2_ge_0 (x * px_ierr p)). repeat split; try ring. lra.
    + intros [[[l n] d] k] [[[l' n'] d'] k'] (-> & -> & -> & -> & S). cbn [same_outcome flux_lik]. repeat split; try assumption. unfold parabola. field.
Qed.
Lemma like_step_c s s' o w w' : flux_lik s s' -> WU w w' -> same_outcome flux_lik (like_step s (o, w)) (like_step s' (o, w')).
Proof.
  intros S W. unfold like_step. cbn [fst snd]. destruct (obs_pixels o) as [px|]; [|reflexivity]. cbn [bind]. eapply same_bind; [apply loglike_c, W|].
  intros [[[l n] d] k] [[[l' n'] d'] k'] (-> & -> & -> & -> & Q). destruct s as [[[a b] e] g], s' as [[[a' b'] e'] g']. destruct S as (-> & -> & -> & -> & S).
  cbn [same_outcome flux_lik]. unfold parabola. repeat split; try field; lra.
Qed.
Lemma like_fold_c os ds ds' : Forall2 WU ds ds' -> forall s s', flux_lik s s' -> same_outcome flux_lik (foldM like_step (combine os ds) s) (foldM like_step (combine os ds') s').
Proof.
  intros H. revert os. induction H as [|w w' ds ds' W _ IH]; intros [|o os] s s' S; cbn [combine foldM]; try exact S. eapply same_bind; [apply like_step_c; eassumption|]. intros; apply IH; assumption.
Qed.
Definition core (F : fit) (p : list R) : res lik :=
  let* ds := bands_mix (f_model F) (f_dopsf F) p 0 (f_obs F) in foldM like_step (combine (concat (f_obs F)) (concat ds)) (0, 0, 0, 0%nat).
Lemma core_c m obs prior F p p' : fit_of m obs prior F -> PU m p p' -> length p = n_pars m obs -> same_outcome flux_lik (core F p) (core F p').
Proof.
  intros Ft HU HL. pose proof (fit_made _ _ _ _ Ft) as M. unfold core. rewrite (md_model _ _ _ _ M), (md_obs _ _ _ _ M).
  eapply same_bind; [apply (bands_flux m (f_dopsf F) p p' obs HU HL); lia|]. intros ds ds' D.
  apply like_fold_c; [apply concat_F2; exact D|cbn; unfold parabola; repeat split; lra].
Qed.
End C.

Lemma core_lnprob m obs prior F p lp : fit_of m obs prior F -> prior_value prior p = Ok lp ->
  snd (calc_lnprob F p) = or_range (let* (l, n, d, k) := core F p in Ok (mkLn (xadd (Fin l) lp) n d k)) ln_low.
Proof.
  intros Ft HP. pose proof (fit_made _ _ _ _ Ft) as M. rewrite (made_lnprob _ _ _ _ _ M). unfold pure_lnprob, get_priors. rewrite (md_prior _ _ _ _ M).
  assert (E : match prior with None => Ok (Fin 0) | Some q => jp_lnprob q (map Fin p) end = Ok lp) by exact HP. rewrite E. cbn [bind]. unfold core. destruct (bands_mix _ _ _ _ _); reflexivity.
Qed.
Theorem fit_flux m obs prior F p : fit_of m obs prior F -> length p = n_pars m obs ->
  (exists r, (r = Ok ln_low \/ exists e, r = Raise e) /\ forall c p' lp, pars_units c 1 1 m p p' -> prior_value prior p' = Ok lp -> snd (calc_lnprob F p') = r) \/
  exists l0 num den k, 0 <= den /\ forall c p' lp, pars_units c 1 1 m p p' -> prior_value prior p' = Ok lp ->
    snd (calc_lnprob F p') = Ok (mkLn (xadd (Fin (parabola l0 num den c)) lp) (c * num) (c ^ 2 * den) k).
Proof.
  intros Ft HL. destruct (core F p) as [[[[l n] d] k]|e] eqn:E.
  - right. assert (P1 : pars_units 1 1 1 m p p). { split; [reflexivity|]. intros i. unfold par_factor. destruct i as [|[|[|[|i]]]]; try ring. destruct m as [m0|n0]; [destruct (Nat.eqb _ _); [ring|]|]; destruct (Nat.ltb _ _); ring. }
    pose proof (core_c 1 m obs prior F p p Ft P1 HL) as H1. rewrite E in H1. destruct H1 as (_ & _ & _ & _ & D).
    exists (l - n + d / 2), n, d, k. split; [exact D|]. intros c p' lp HU HP. rewrite (core_lnprob _ _ _ _ _ _ Ft HP).
    pose proof (core_c c m obs prior F p p' Ft HU HL) as H. rewrite E in H.
    destruct (core F p') as [[[[l' n'] d'] k']|]; cbn [same_outcome] in H; [|contradiction]. destruct H as (-> & -> & -> & -> & _). reflexivity.
  - left. exists (or_range (Raise e) ln_low). split; [destruct e; cbn [or_range]; eauto|]. intros c p' lp HU HP. rewrite (core_lnprob _ _ _ _ _ _ Ft HP).
    pose proof (core_c c m obs prior F p p' Ft HU HL) as H. rewrite E in H. destruct (core F p'); cbn [same_outcome] in H; [contradiction|]. subst. reflexivity.
Qed.
