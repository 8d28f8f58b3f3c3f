From Coq Require String.
From Verif Require Import Base XReal Flags_Model Pixels_Model GMix_Model GMix_Spec GMixObj_Model Render_Model Render_Spec Priors_Model Joint_Model GMixObj_Proofs
  Fit_Model Fit_Spec Fit_Proofs Fit2_Proofs Fit3_Proofs Fit4_Proofs LM_Model LM_Spec LM_Proofs PriorFit_Model PriorFit_Proofs
  Fitter_Model Fitter_Spec.
Import String.StringSyntax.
Local Open Scope R_scope.
Local Open Scope string_scope.
Local Open Scope list_scope.

Lemma all_some_eq v : forall l, all_some v = Some l -> v = map Some l.
Proof.
  induction v as [|[x|] v IH]; intros l H; cbn in H; try discriminate.
  - injection H as <-. reflexivity.
  - destruct (all_some v) as [r|]; [|discriminate]. injection H as <-. cbn. f_equal. apply IH. reflexivity.
Qed.
Lemma all_some_map l : all_some (map Some l) = Some l.
Proof. induction l as [|x l IH]; [reflexivity|]. cbn. rewrite IH. reflexivity. Qed.
Lemma map_some_inj (a b : list R) : map Some a = map Some b -> a = b.
Proof. intros H. assert (E : all_some (map Some a) = all_some (map Some b)) by congruence. rewrite !all_some_map in E. congruence. Qed.

Lemma after_evolved hist : forall F0 F, evolved F0 F -> evolved F0 (after hist F).
Proof. induction hist as [|p hist IH]; intros F0 F H; [exact H|]. cbn [after fold_left]. apply IH. constructor. exact H. Qed.

(** where the residuals are not all lowest, the mixtures are good *)
Lemma finite_in_range m obs prior F k pars fd : fit_of m obs prior F -> m <> FCoellip 0 -> prior_ok prior k -> (k <= f_n_prior F)%nat ->
  uniform_psf obs -> length pars = n_pars m obs -> snd (calc_fdiff F pars) = Ok fd -> fd <> repeat LOWVAL (f_size F) ->
  exists ms L, in_range F pars ms /\ prior_value prior pars = Ok L.
Proof.
  intros Ft Hm Hp Hk Hu Lp Ef Hn. destruct (mixtures_bands m obs prior F Ft Hu pars Lp) as [B1 B2].
  destruct (mixtures F pars) as [ms|e] eqn:Em.
  2:{ exfalso. destruct (evaluate_raise m obs prior F Ft pars e (B2 e eq_refl)) as [Q _].
      rewrite Ef in Q. symmetry in Q. apply or_range_ok in Q. exact (Hn Q). }
  destruct (B1 ms eq_refl) as (ds & Ed & Eq').
  destruct (prior_value prior pars) as [L|e] eqn:Ev.
  2:{ exfalso. destruct (evaluate_prior m obs prior F k Ft Hp Hk pars e ds Ev Ed) as [Q _].
      rewrite Ef in Q. symmetry in Q. apply or_range_ok in Q. exact (Hn Q). }
  exists ms, L. split; [|reflexivity]. split; [exact Em|].
  destruct (Classical_Prop.classic (Forall (Forall evaluable) (concat ds))) as [G|G].
  - apply (evaluable_map ms (concat ds)); assumption.
  - exfalso. destruct (evaluate_bad m obs prior F k Ft Hm Hp Hk pars ds L Ed Ev G) as [Q _]. rewrite Ef in Q. injection Q as Q. exact (Hn Q).
Qed.

Lemma map_rep {A B} (f : A -> B) a n : map f (repeat a n) = repeat (f a) n.
Proof. induction n as [|n IH]; [reflexivity|]. cbn. rewrite IH. reflexivity. Qed.
Lemma skipn_past {A} (a b : list A) n : skipn (length a + n) (a ++ b) = skipn n b.
Proof. induction a as [|x a IH]; [reflexivity|exact IH]. Qed.
Lemma skipn_rep {A} (a b : list A) n k : n = (length a + k)%nat -> skipn n (a ++ b) = skipn k b.
Proof. intros ->. apply skipn_past. Qed.
Lemma chi2_app a b : chi2 (a ++ b) = chi2 a + chi2 b.
Proof. unfold chi2. rewrite map_app, rsum_app. reflexivity. Qed.

Lemma init_bounds m obs guess prior F : fit_init m obs guess prior = Ok F -> f_bounds F = match prior with Some p => jp_bounds p | None => None end.
Proof.
  unfold fit_init. destruct (mapM obs_pixels (concat obs)) as [px|]; [|discriminate]. cbn [bind].
  intros H. apply bind_ok in H. destruct H as (np & _ & H). apply bind_ok in H. destruct H as ([dopsf gms] & _ & H). injection H as <-. destruct prior; reflexivity.
Qed.

Section Go.
Variable lmdif : (vec -> resx vec) -> vec -> nat -> resx lmret.
Variable leastsq : (vec -> resx vec) -> vec -> nat -> resx lmtup.
Variable inv : omat -> option omat.
Variable eig : nat -> (nat -> nat -> R) -> option (list R).
Variable message : Z -> String.string.
Variable odd : vec -> resx vec.
Notation GO := (fitter_go lmdif leastsq inv eig message odd).
Notation LSB := (leastsqbound lmdif leastsq inv message).

Lemma lsb_shapes func x0 bounds maxfev tup : minimizer_shapes lmdif leastsq inv ->
  LSB func x0 bounds maxfev = OkX tup ->
  length (tp_x tup) = length x0 /\ forall c, tp_cov tup = Some c -> nrow c = length x0.
Proof.
  intros (K & SL & SI) H. destruct bounds as [bounds|]; [|exact (SL _ _ _ _ H)]. cbn [leastsqbound] in H.
  apply bindx_ok in H as (i0 & Ei & H).
  destruct (Nat.eqb (length bounds) (length x0)) eqn:Lb; cbn [negb] in H; [|discriminate].
  apply bindx_ok in H as (f0 & _ & H). destruct (_ <? _)%nat; [discriminate|].
  apply bindx_ok in H as (ret & Er & H). destruct (negb _); [discriminate|].
  apply bindx_ok in H as (x & Ex & H). apply bindx_ok in H as (g & _ & H). injection H as <-. cbn [tp_x tp_cov].
  assert (AA : forall n l v, assign_all n l = OkX v -> length v = n).
  { intros n l v. unfold assign_all. destruct (Nat.eqb_spec (length l) n); [intros Q; injection Q as <-; assumption|].
    destruct l as [|a [|b l]]; try discriminate. intros Q. injection Q as <-. apply repeat_length. }
  split.
  - rewrite (AA _ _ _ Ex), (K _ _ _ _ Er). exact (AA _ _ _ Ei).
  - intros c. destruct (_ && _)%bool; [|discriminate]. unfold cov_from. intros Q. apply SI in Q. exact Q.
Qed.

Lemma good_fit m prior maxfev hist obs guess out :
  known_status leastsq -> eig_complete eig -> minimizer_shapes lmdif leastsq inv ->
  m <> FCoellip 0 -> uniform_psf obs -> concat (pixels_of obs) <> [] ->
  prior_ok prior (terms_of m prior (length obs)) ->
  GO m prior maxfev hist obs guess = Some (OkX out) -> dget (ou_dict out) "flags" = Some (LInt 0) ->
  exists pars r ms models L cov0 cov,
    dget (ou_dict out) "pars" = Some (LVec (map Some pars)) /\ length pars = n_pars m obs /\
    ou_res out = Some r /\ fit_of m obs prior (ou_fit out) /\
    in_range (ou_fit out) pars ms /\ Forall2 model_of ms models /\ prior_value prior pars = Ok L /\
    let resid := all_resid models (pixels_of obs) in
    let dof := (Z.of_nat (length resid) - Z.of_nat (n_pars m obs))%Z in
    length resid = length (concat (pixels_of obs)) /\
    r_dof r = dof /\ dof <> 0%Z /\
    l_lnprob (r_ln r) = xadd (Fin (- chi2 resid / 2)) L /\
    xmul (r_chi2per r) (Fin (IZR dof)) = xmul (Fin (-2)) (l_lnprob (r_ln r)) /\
    nth_error pars 4 = Some (r_T r) /\ nth_error (r_g r) 0 = nth_error pars 2 /\ nth_error (r_g r) 1 = nth_error pars 3 /\
    (let denom := sum_over (fun m p => m p ^ 2 * px_ierr p ^ 2) models (pixels_of obs) in
     0 < denom -> r_s2n r = sum_over (fun m p => px_val p * m p * px_ierr p ^ 2) models (pixels_of obs) / sqrt denom) /\
    dget (ou_dict out) "pars_cov0" = Some (LMat (Some cov0)) /\ dget (ou_dict out) "pars_cov" = Some (LMat (Some cov)) /\
    (forall i j, (i < n_pars m obs)%nat -> (j < n_pars m obs)%nat ->
       exists c, at2 cov0 i j = Some c /\ at2 cov i j = Some (c * (chi2 (used m prior resid) / IZR dof))) /\
    (exists errs, dget (ou_dict out) "pars_err" = Some (LVec (map Some errs)) /\ length errs = n_pars m obs /\
       forall i v, (i < n_pars m obs)%nat -> at2 cov i i = Some v -> 0 <= v /\ nth_error errs i = Some (sqrt v)) /\
    (forall bounds, match prior with Some p => jp_bounds p | None => None end = Some bounds ->
       Forall consistent (map bound_of bounds) -> inside (map bound_of bounds) (map Some pars)).
Proof.
  intros Hks Hec Hsh Hm Hu Hpx Hp H Hfl. unfold fitter_go in H.
  destruct (fit_init m obs guess prior) as [F|e] eqn:EF; [|discriminate].
  destruct (bounds_arg (f_bounds F)) as [bounds|e] eqn:EB; [|discriminate].
  destruct (run_leastsq lmdif leastsq inv eig message (fdiff_func odd F) (map Some guess) (f_n_prior F) false bounds maxfev) as [d|e b] eqn:ER; [|discriminate].
  assert (Ft : fit_of m obs prior F) by (exists guess, F; split; [exact EF|constructor]).
  assert (Fa : fit_of m obs prior (after hist F)) by (exists guess, F; split; [exact EF|apply after_evolved; constructor]).
  destruct (init_parts _ _ _ _ _ EF) as (A1&A2&A3&A4&A5&A6&A7&A8&A9&A10&A11&_&_).
  assert (Ed : ou_dict out = d).
  { unfold finish_fit in H. repeat match type of H with context [match ?x with _ => _ end] => destruct x; try discriminate H end; injection H as <-; reflexivity. }
  rewrite Ed in *. clear Ed.
  destruct (zero_flags lmdif leastsq inv eig message _ _ _ _ _ _ _ Hks Hec ER Hfl)
    as (tup & cov0 & fdiff & n & P & Etup & _ & Ecov & Efd & Hdof & Nr & Nc & Hres & Hpos & _ & Dp & Dc0 & (pcov & Dc & Pr & Pc & Pat) & De).
  destruct (lsb_shapes _ _ _ _ _ Hsh Etup) as [Lx Lc]. rewrite map_length in Lx, Lc. specialize (Lc _ Ecov). rewrite Nr in Lc. rewrite A5 in Lx, Lc. subst n. rename Lc into Ln.
  unfold finish_fit in H. rewrite (kget_dget d "flags"), (kget_dget d "pars"), (kget_dget d "pars_err"), (kget_dget d "pars_cov"), Hfl, Dp, Dc, De in H.
  destruct (all_some (tp_x tup)) as [pars|] eqn:Ep; [|discriminate]. pose proof (all_some_eq _ _ Ep) as Ex.
  destruct (all_some (map _ _)) as [errs|] eqn:Ee; [|discriminate]. pose proof (all_some_eq _ _ Ee) as Eer.
  destruct (finite_mat pcov) as [pc|] eqn:Epc; [|discriminate].
  destruct (set_fit_result (after hist F) pars errs pc) as [F' r0] eqn:Es.
  destruct r0 as [r|]; [|discriminate]. injection H as <-. cbn [ou_fit ou_dict ou_res] in *.
  assert (Lp : length pars = n_pars m obs) by (rewrite <- Lx, Ex, map_length; reflexivity).
  assert (N0 : (0 < n_pars m obs)%nat) by (unfold n_pars; destruct m; lia).
  rewrite Ln in *. destruct (Hres N0) as (residuals & C0 & Sk & Cs). clear Hres.
  (* the residuals at the solution *)
  unfold fdiff_func in Efd. rewrite Ep in Efd. destruct (snd (calc_fdiff F pars)) as [fd|] eqn:Efx; [|discriminate]. injection Efd as <-.
  set (k := terms_of m prior (length obs)) in *.
  pose proof (f_equal fst Es) as EF1. pose proof (f_equal snd Es) as EF2. cbn [fst snd] in EF1, EF2.
  assert (Fo : fst (set_fit_result (after hist F) pars errs pc) = fst (calc_lnprob (after hist F) pars))
    by (unfold set_fit_result; destruct (calc_lnprob (after hist F) pars); reflexivity).
  rewrite EF1 in Fo.
  assert (Ev : evolved F F') by (rewrite Fo; constructor; apply after_evolved; constructor).
  assert (Fp : fit_of m obs prior F') by (exists guess, F; split; assumption).
  destruct (no_memory _ _ _ _ _ _ EF Ev pars) as [NM1 NM2].
  destruct (no_memory _ _ _ _ _ _ EF (after_evolved hist F F (ev_new F)) pars) as [NM3 _].
  pose proof (n_prior_exact _ _ _ _ Ft) as NP. pose proof (n_prior_exact _ _ _ _ Fp) as NP'. rewrite <- NP in NP'.
  assert (Hk : (k <= f_n_prior F')%nat) by (rewrite NP', NP; unfold k, terms_of; destruct prior; lia).
  pose proof (pixels_eq _ _ A8) as Epix. pose proof (fit_made _ _ _ _ Fp) as MD.
  assert (EP' : f_pixels F' = f_pixels F) by (pose proof (md_pixels _ _ _ _ MD); congruence).
  assert (ET' : f_totpix F' = f_totpix F) by (rewrite (md_totpix _ _ _ _ MD), EP'; congruence).
  assert (ES' : f_size F' = f_size F) by (rewrite (md_size _ _ _ _ MD), ET', NP'; congruence).
  assert (TP : f_totpix F = length (concat (pixels_of obs))).
  { rewrite A9, Epix. generalize (pixels_of obs). intros l. induction l as [|a l IH]; [reflexivity|]. cbn [map list_sum fold_right concat]. rewrite app_length. cbn in IH. rewrite <- IH. reflexivity. }
  assert (T0 : (0 < f_totpix F)%nat) by (rewrite TP; destruct (concat (pixels_of obs)); [congruence|cbn; lia]).
  assert (NL : fd <> repeat LOWVAL (f_size F')).
  { intros ->. assert (Q : nth_error (map Some residuals) 0 = Some None).
    { rewrite <- Sk. rewrite map_rep. rewrite ES', A7.
      replace (f_totpix F + f_n_prior F)%nat with (f_n_prior F + S (f_totpix F - 1))%nat by lia. rewrite repeat_app.
      rewrite skipn_app, repeat_length, Nat.sub_diag, skipn_all2 by (rewrite repeat_length; lia). reflexivity. }
    destruct residuals; discriminate Q. }
  rewrite <- NM2 in Efx.
  destruct (finite_in_range m obs prior F' k pars fd Fp Hm Hp Hk Hu Lp Efx NL) as (ms & L & Rg & PV).
  destruct (layout m obs prior F' k Fp Hm Hp Hk Hu pars ms L Lp Rg PV) as (models & pr & HM & Lpr & En & Ef2 & Lr & El).
  set (resid := all_resid models (pixels_of obs)) in *.
  rewrite Efx in Ef2. injection Ef2 as ->.
  rewrite map_length in Hdof, Cs. rewrite !app_length, map_length, repeat_length, Lpr, Lr, ET', NP' in Hdof.
  rewrite !app_length, map_length, repeat_length, Lpr, Lr, ET', NP' in Cs. rewrite map_length, A5 in Hdof. 
  assert (Cs' : forall i j, (i < n_pars m obs)%nat -> (j < n_pars m obs)%nat -> at2 cov0 i j = Some (C0 i j) /\ P i j = C0 i j * (chi2 residuals / IZR (degrees false (k + (f_totpix F + (f_n_prior F - k))) (f_n_prior F) (n_pars m obs)))).
  { intros i j Hi Hj. rewrite map_length, A5 in Cs. apply Cs; assumption. }
  clear Cs.
  assert (Edeg : degrees false (k + (f_totpix F + (f_n_prior F - k))) (f_n_prior F) (n_pars m obs) = (Z.of_nat (length resid) - Z.of_nat (n_pars m obs))%Z).
  { unfold degrees. rewrite Lr, ET'. rewrite NP' in Hk. lia. }
  rewrite Edeg in *.
  assert (Eres : residuals = used m prior resid ++ repeat 0 (f_n_prior F - k)).
  { apply map_some_inj. rewrite <- Sk, !map_app, map_map, !map_rep. cbn [of_xr].
    assert (Nn : resid <> []) by (intros Q; rewrite Q in Lr; cbn in Lr; lia).
    assert (Ld : (length (map of_xr pr) = k)%nat) by (rewrite map_length; exact Lpr).
    rewrite (skipn_rep _ _ _ (f_n_prior F - k)) by (rewrite NP' in Hk; lia). rewrite NP'.
    assert (Y : f_n_prior F = k /\ used m prior resid = resid \/ f_n_prior F = S k /\ used m prior resid = tl resid).
    { unfold k, terms_of, used. rewrite NP. clear. destruct prior; [|left; auto]. destruct m as [[]|n]; first [left; split; [cbn; lia|reflexivity]|right; split; [cbn; lia|reflexivity]]. }
    destruct Y as [[-> ->]|[-> ->]].
    - rewrite Nat.sub_diag. reflexivity.
    - replace (S k - k)%nat with 1%nat by lia. destruct resid as [|x l]; [congruence|]. reflexivity. }
  assert (Ech : chi2 residuals = chi2 (used m prior resid)).
  { rewrite Eres, chi2_app. assert (Z0 : chi2 (repeat 0 (f_n_prior F - k)) = 0).
    { unfold chi2. rewrite map_rep. generalize (f_n_prior F - k)%nat. intros n. induction n as [|n IH]; [reflexivity|]. cbn [repeat]. rewrite rsum_cons, IH. ring. }
    rewrite Z0. ring. }
  rewrite NM1 in El. rewrite <- NM3 in El.
  destruct (result_fields _ _ _ _ _ EF2) as (R1 & R2 & R2' & R3 & R4 & R5 & R6 & _).
  rewrite R1 in El. injection El as El.
  assert (Nf : f_npars (after hist F) = n_pars m obs) by (exact (md_npars _ _ _ _ (fit_made _ _ _ _ Fa))).
  assert (R3' : r_dof r = (Z.of_nat (length resid) - Z.of_nat (n_pars m obs))%Z) by (rewrite R3, El, Nf; cbn [l_npix]; rewrite Lr; reflexivity).
  exists pars, r, ms, models, L, cov0, pcov. fold resid. cbv zeta.
  split; [rewrite Dp, Ex; reflexivity|]. split; [exact Lp|]. split; [reflexivity|]. split; [exact Fp|]. split; [exact Rg|]. split; [exact HM|]. split; [exact PV|].
  split; [rewrite Lr, ET'; exact TP|]. split; [exact R3'|]. split; [exact Hdof|].
  assert (Es2 : sum_over (fun m p => Fit_Spec.resid m p ^ 2) models (pixels_of obs) = chi2 resid).
  { unfold chi2, resid, all_resid, sum_over. rewrite concat_map, map_map. do 2 f_equal. apply map_ext. intros x. rewrite map_map. reflexivity. }
  split. { transitivity (xadd (Fin (- sum_over (fun m p => Fit_Spec.resid m p ^ 2) models (pixels_of obs) / 2)) L); [rewrite El; reflexivity|rewrite Es2; reflexivity]. }
  split; [rewrite <- R3'; apply R4; rewrite R3'; exact Hdof|].
  split; [exact R6|]. split; [apply (R5 0%nat); lia|]. split; [apply (R5 1%nat); lia|]. split; [rewrite El in R2; exact R2|].
  split; [exact Dc0|]. split; [exact Dc|].
  split. { intros i j Hi Hj. destruct (Cs' i j Hi Hj) as [Q1 Q2]. exists (C0 i j). split; [exact Q1|]. rewrite (Pat i j Hi Hj), Q2, Ech. reflexivity. }
  split.
  { exists errs. split; [rewrite De, Eer; reflexivity|]. assert (Le : length errs = n_pars m obs) by (rewrite <- (map_length Some errs), <- Eer, map_length, seq_length; reflexivity).
    split; [exact Le|]. intros i v Hi Hv. rewrite (Pat i i Hi Hi) in Hv. injection Hv as <-. split; [apply Hpos; exact Hi|].
    assert (Q : nth_error (map Some errs) i = Some (Some (sqrt (P i i)))).
    { rewrite <- Eer. rewrite nth_error_map, nth_error_nth' with (d := 0%nat) by (rewrite seq_length; exact Hi). rewrite seq_nth by exact Hi. reflexivity. }
    rewrite nth_error_map in Q. destruct (nth_error errs i); [|discriminate]. cbn in Q. congruence. }
  intros bs Hb Hc.
  assert (EBs : f_bounds F = Some bs). { rewrite <- Hb. exact (init_bounds _ _ _ _ _ EF). }
  rewrite EBs in EB. cbn in EB. destruct (mapM unpack_bound bs) as [bl|] eqn:Eb; [|discriminate]. injection EB as <-.
  assert (bl = map bound_of bs).
  { clear - Eb. revert bl Eb. induction bs as [|b bs IH]; intros bl H; cbn in H; [injection H as <-; reflexivity|]. destruct b as [lo hi|lo hi]; [|discriminate].
    cbn in H. destruct (mapM unpack_bound bs) as [l|]; [|discriminate]. injection H as <-. cbn. f_equal. apply IH. reflexivity. }
  subst bl. rewrite <- Ex. exact (fit_inside _ _ _ _ _ _ _ _ _ (proj1 Hsh) Hc Etup).
Qed.

Lemma failed_fit m prior maxfev hist obs guess out : GO m prior maxfev hist obs guess = Some (OkX out) ->
  (dget (ou_dict out) "flags" = Some (LInt 0) <-> ou_res out <> None) /\ length guess = n_pars m obs.
Proof.
  unfold fitter_go. destruct (fit_init m obs guess prior) as [F|e] eqn:EF; [|discriminate].
  destruct (init_parts _ _ _ _ _ EF) as (_&_&_&_&A5&_).
  destruct (bounds_arg (f_bounds F)) as [bounds|e]; [|discriminate].
  destruct (run_leastsq lmdif leastsq inv eig message (fdiff_func odd F) (map Some guess) (f_n_prior F) false bounds maxfev) as [d|e b]; [|discriminate].
  intros H. split; [|exact A5]. unfold finish_fit in H. rewrite (kget_dget d "flags") in H. 
  destruct (dget d "flags") as [[[| |]| | |]|] eqn:Ef;
    try (injection H as <-; cbn [ou_dict ou_res]; rewrite Ef; split; [discriminate|congruence]).
  repeat match type of H with context [match ?x with _ => _ end] => destruct x; try discriminate H end;
    injection H as <-; cbn [ou_dict ou_res]; rewrite Ef; split; [discriminate|reflexivity].
Qed.

Lemma mapM_nested l k lo hi : nth_error l k = Some (BNested lo hi) -> mapM unpack_bound l = Raise ValueError.
Proof.
  revert k. induction l as [|b l IH]; intros k H; [destruct k; discriminate|]. cbn [mapM]. destruct k as [|k].
  - injection H as ->. reflexivity.
  - destruct b as [a c|a c]; cbn [unpack_bound bind]; [|reflexivity]. rewrite (IH k H). reflexivity.
Qed.
Lemma nested_fails m p maxfev hist obs guess F l k lo hi : fit_init m obs guess (Some p) = Ok F ->
  jp_bounds p = Some l -> nth_error l k = Some (BNested lo hi) ->
  GO m (Some p) maxfev hist obs guess = Some (RaiseX ValueError false).
Proof.
  intros EF Hl Hk. unfold fitter_go. rewrite EF, (init_bounds _ _ _ _ _ EF), Hl. cbn [bounds_arg]. rewrite (mapM_nested l k lo hi Hk). reflexivity.
Qed.
End Go.
