(** C60, C64, C99 and the library's priors. *)
From Verif Require Import Base XReal Jacobian_Model Pixels_Model GMix_Model GMix_Spec GMix_Proofs GMixObj_Model GMixObj_Proofs
  Render_Model Render_Spec Render_Proofs Priors_Model Priors_Spec Joint_Model Joint_Spec Joint_Proofs
  Fit_Model Fit_Spec Fit_Proofs Fit2_Proofs Fit3_Proofs.
From Verif Require GaussAp_Model.
Local Open Scope R_scope.

(** ** C60 *)
Lemma band_pars_iff m pars b bp : m <> Mbdc ->
  get_band_pars m pars b = Ok bp <->
  exists f, nth_error pars (n_shared m + b) = Some f /\ bp = firstn (n_shared m) pars ++ [f] /\ length bp = model_npars m.
Proof.
  intros Hm. assert (E : get_band_pars m pars b = slice_and_one (model_npars m) (n_shared m) b pars) by (destruct m; try reflexivity; congruence).
  rewrite E. assert (Pn : (5 <= n_shared m)%nat /\ model_npars m = S (n_shared m)) by (destruct m; cbn; lia). destruct Pn as [P1 P2].
  unfold slice_and_one. replace (model_npars m - n_shared m - 1)%nat with 0%nat by lia. cbn [repeat app].
  assert (Ln : forall f, nth_error pars (n_shared m + b) = Some f -> length (firstn (n_shared m) pars ++ [f]) = model_npars m).
  { intros f Ef. assert ((n_shared m + b < length pars)%nat) by (apply nth_error_Some; congruence). rewrite app_length, firstn_length. cbn [length]. lia. }
  split.
  - destruct (_ && _); [discriminate|]. destruct (nth_error pars (n_shared m + b)) as [f|] eqn:Ef; [|discriminate].
    intros H; injection H as <-. exists f. auto.
  - intros (f & Ef & -> & _). assert ((n_shared m + b < length pars)%nat) by (apply nth_error_Some; congruence).
    destruct (Nat.ltb_spec (length pars) (n_shared m)); [lia|]. rewrite Bool.andb_false_r, Ef. reflexivity.
Qed.
Lemma band_pars_raise m pars b : m <> Mbdc -> (length pars <= n_shared m + b)%nat -> exists e, get_band_pars m pars b = Raise e.
Proof.
  intros Hm L. destruct (get_band_pars m pars b) as [bp|e] eqn:E; [|eauto]. exfalso.
  apply (band_pars_iff m pars b bp Hm) in E. destruct E as (f & Ef & _). assert ((n_shared m + b < length pars)%nat) by (apply nth_error_Some; congruence). lia.
Qed.

(** ** priors *)
Lemma fill_consistent cen g ps lnprob fill bounds np : fill_spec cen g ps lnprob fill -> consistent_prior (mkJP lnprob fill bounds np) (3 + length ps).
Proof.
  intros H pars fd L. cbn [jp_lnprob jp_fill]. specialize (H pars fd L). destruct (lnprob pars) as [x|e]; destruct (fill pars fd) as [[out n]|e']; auto.
  destruct H as ((ls & T & R1 & R2 & R3 & R4) & S & X). cbn [fst snd] in *. rewrite S in *. rewrite <- R1 in R3. auto.
Qed.

(** ** C64: each observation's mixture *)
Lemma own_mixtures m obs prior F pars ms : fit_of m obs prior F -> mixtures F pars = Ok ms ->
  Forall2 (fun t g => own_mixture F pars (fst t) (snd t) g) (with_bands obs) ms.
Proof.
  intros Ft. pose proof (fit_made _ _ _ _ Ft) as M. unfold mixtures, positions, with_bands. rewrite (md_obs _ _ _ _ M). intros H. apply mapM_F2 in H.
  pose proof (positions_at F obs 0 [] (md_obs _ _ _ _ M) eq_refl) as P. revert H P. generalize (positions_from 0 obs) as ps, (bands_from 0 obs) as ts.
  intros ps ts H. revert ts. induction H as [|p g ps ms H _ IH]; intros ts P; inversion P; subst; constructor; [|apply IH; assumption].
  destruct H2 as (Eo & Eb & _). unfold get_convolved_gmix in H. rewrite Eb in *. unfold own_mixture. destruct (get_gmix F pars (fst y)) as [gm|]; [|discriminate]. cbn [bind] in H.
  rewrite Eo in H. cbn [bind] in H. exists gm. split; [reflexivity|]. unfold has_psf_gmix, psf_gmix in H.
  destruct (fo_psf (snd y)) as [[psf|]|]; [|injection H as <-; reflexivity|injection H as <-; reflexivity].
  destruct (obj_copy psf) as [c|]; [|discriminate]. cbn [bind] in H. exists c. auto.
Qed.
(** the first observation decides for all *)
Lemma first_decides m obs guess prior o os l : obs = (o :: os) :: l -> has_psf_gmix o = true ->
  (exists o', In o' (concat obs) /\ has_psf_gmix o' = false) -> forall F, fit_init m obs guess prior <> Ok F.
Proof.
  intros E Hp (o' & Ho & Hn) F H. destruct (init_parts _ _ _ _ _ H) as (_&_&_&_&_&_&_&_&_&_&(x & xs & xl & Ex & D)&_&Ps).
  assert (x = o) by congruence. subst x. rewrite Hp in D. specialize (Ps D). rewrite Forall_forall in Ps. destruct (Ps o' Ho) as [psf Eq'].
  unfold psf_gmix in Eq'. unfold has_psf_gmix in Hn. destruct (fo_psf o') as [[|]|]; discriminate.
Qed.
Lemma init_one_no_psf m bp o : init_one m false bp (no_psf o) = init_one m false bp o. Proof. reflexivity. Qed.
Lemma mapM_map_ext {A A' B} (f : A -> res B) (g : A' -> res B) (h : A -> A') l : (forall a, g (h a) = f a) -> mapM g (map h l) = mapM f l.
Proof. intros H. induction l as [|a l IH]; [reflexivity|]. cbn [map mapM]. rewrite H, IH. reflexivity. Qed.
Lemma psf_ignored m obs guess prior F o os l : obs = (o :: os) :: l -> has_psf_gmix o = false -> fit_init m obs guess prior = Ok F ->
  exists F', fit_init m (map (map no_psf) obs) guess prior = Ok F' /\
    forall pars, snd (calc_fdiff F pars) = snd (calc_fdiff F' pars) /\ snd (calc_lnprob F pars) = snd (calc_lnprob F' pars).
Proof.
  intros E Hn H. set (obs' := map (map no_psf) obs).
  assert (Lo : length obs' = length obs) by apply map_length.
  assert (Px : mapM obs_pixels (concat obs') = mapM obs_pixels (concat obs)).
  { unfold obs'. rewrite <- concat_map. apply mapM_map_ext. reflexivity. }
  assert (Eg : init_gmix_all m obs' guess = init_gmix_all m obs guess).
  { unfold init_gmix_all. rewrite Lo.
    assert (K : forall s : list nat, mapM (fun p => let* bp := band_pars_of m guess (snd p) in mapM (init_one m false bp) (fst p)) (combine obs' s) =
      mapM (fun p => let* bp := band_pars_of m guess (snd p) in mapM (init_one m false bp) (fst p)) (combine obs s)).
    { unfold obs'. clear. induction obs as [|os obs IH]; intros [|b s]; try reflexivity. cbn [map combine mapM fst snd]. rewrite IH.
      destruct (band_pars_of m guess b) as [bp|]; [|reflexivity]. cbn [bind]. rewrite (mapM_map_ext (init_one m false bp) _ no_psf os) by (intros; apply init_one_no_psf). reflexivity. }
    unfold obs' at 1. rewrite E. cbn [map bind]. rewrite <- E. change (has_psf_gmix (no_psf o)) with false. rewrite Hn. rewrite K. reflexivity. }
  assert (Hi : fit_init m obs' guess prior = rmap (fun F => mkFit (f_model F) obs' (f_prior F) (f_totpix F) (f_npars F) (f_n_prior F) (f_size F) (f_pixels F) (f_bounds F) (f_dopsf F) (f_gms F)) (fit_init m obs guess prior)).
  { unfold fit_init. rewrite Px, Lo. destruct (mapM obs_pixels (concat obs)); [|reflexivity]. cbn [bind].
    match goal with |- context [bind ?x _] => destruct x end; [|reflexivity]. cbn [bind]. unfold setup_fit. rewrite Eg.
    destruct (negb _); [reflexivity|]. destruct (init_gmix_all m obs guess) as [[d g]|[]]; reflexivity. }
  rewrite H in Hi. cbn [rmap] in Hi. eexists; split; [exact Hi|]. intros pars.
  destruct (init_parts _ _ _ _ _ H) as (A1&A2&_&_&_&_&_&_&_&_&(x & xs & xl & Ex & D)&O&_).
  destruct (init_parts _ _ _ _ _ Hi) as (_&_&_&_&_&_&_&_&_&_&_&O'&_).
  rewrite (proj2 (proj2 (fdiff_pure F pars O))), (proj2 (proj2 (fdiff_pure _ pars O'))), (proj2 (proj2 (lnprob_pure F pars O))), (proj2 (proj2 (lnprob_pure _ pars O'))).
  unfold pure_fdiff, pure_lnprob, get_priors, fill_priors. cbn [f_model f_dopsf f_obs f_prior f_size f_pixels]. rewrite A1, A2.
  assert (x = o) by congruence. subst x. rewrite Hn in D. rewrite D.
  assert (B : forall b obs, bands_mix m false pars b (map (map no_psf) obs) = bands_mix m false pars b obs).
  { clear. intros b obs; revert b; induction obs as [|os obs IH]; intros b; [reflexivity|]. cbn [map bands_mix]. destruct (band_pars_of m pars b) as [bp|]; [|reflexivity]. cbn [bind].
    rewrite (mapM_map_ext (one_mix m false bp) _ no_psf os) by reflexivity. rewrite IH. reflexivity. }
  unfold obs'. rewrite B. split; [reflexivity|]. destruct (match f_prior F with Some p => _ | None => _ end); [|reflexivity]. cbn [bind].
  destruct (bands_mix m false pars 0 obs) as [ds|]; [|reflexivity]. cbn [bind]. rewrite <- concat_map.
  replace (foldM like_step (combine (map no_psf (concat obs)) (concat ds)) (0, 0, 0, 0%nat)) with (foldM like_step (combine (concat obs) (concat ds)) (0, 0, 0, 0%nat)); [reflexivity|].
  generalize (concat obs) as l1, (concat ds) as l2, (0, 0, 0, 0%nat) as s. clear. intros l1. induction l1 as [|a l1 IH]; intros [|d l2] s; try reflexivity.
  cbn [map combine foldM]. change (like_step s (no_psf a, d)) with (like_step s (a, d)). destruct (like_step s (a, d)); [apply IH|reflexivity].
Qed.

(** ** C99 *)
Lemma nth_error_skipn {A} (l : list A) : forall k i, nth_error (skipn k l) i = nth_error l (k + i).
Proof. induction l as [|x l IH]; intros [|k] i; cbn; try reflexivity; [destruct i; reflexivity|apply IH]. Qed.
Lemma nth_error_firstn' {A} (l : list A) : forall k i, (i < k)%nat -> nth_error (firstn k l) i = nth_error l i.
Proof. induction l as [|x l IH]; intros [|k] [|i] H; cbn; try reflexivity; try lia. apply IH. lia. Qed.
Lemma result_fields F pars err cov r : snd (set_fit_result F pars err cov) = Ok r ->
  snd (calc_lnprob F pars) = Ok (r_ln r) /\
  (0 < l_denom (r_ln r) -> r_s2n r = l_numer (r_ln r) / sqrt (l_denom (r_ln r))) /\ (l_denom (r_ln r) <= 0 -> r_s2n r = 0) /\
  r_dof r = (Z.of_nat (l_npix (r_ln r)) - Z.of_nat (f_npars F))%Z /\
  (r_dof r <> 0%Z -> xmul (r_chi2per r) (Fin (IZR (r_dof r))) = xmul (Fin (-2)) (l_lnprob (r_ln r))) /\
  (forall i, (i < 2)%nat -> nth_error (r_g r) i = nth_error pars (2 + i) /\ nth_error (r_g_err r) i = nth_error err (2 + i)) /\
  nth_error pars 4 = Some (r_T r) /\ r_T_err r = xsqrt (Fin (at2 cov 4 4)) /\
  (forall i j, at2 (r_g_cov r) i j = at2 cov (2 + i) (2 + j)).
Proof.
  unfold set_fit_result. destruct (calc_lnprob F pars) as [F' rl] eqn:EF.
  assert (Fn : f_npars F' = f_npars F).
  { pose proof (f_equal fst EF) as Q. cbn [fst] in Q. rewrite <- Q. unfold calc_lnprob. destruct (get_priors F pars); [|reflexivity]. unfold fill_gmix_all.
    destruct (fill_bands _ _ _ _ _ _) as [g [|e]]; [|reflexivity]. cbn [f_obs f_gms with_gms]. destruct (like_bands _ _ _); reflexivity. }
  cbn [snd]. intros H. apply bind_ok in H. destruct H as (l & -> & H). cbv zeta in H.
  apply bind_ok in H. destruct H as (cp & Ecp & H). apply bind_ok in H. destruct H as (T & ET & H). apply bind_ok in H. destruct H as (vT & EvT & H).
  apply bind_ok in H. destruct H as (fl & Efl & H). injection H as <-. cbn [r_ln r_s2n r_dof r_chi2per r_g r_g_err r_T r_T_err r_g_cov].
  split; [reflexivity|]. split; [intros D; rewrite Rltb_t by exact D; reflexivity|]. split; [intros D; rewrite Rltb_f by exact D; reflexivity|].
  split; [rewrite Fn; reflexivity|]. split; [|split; [|split; [|split]]].
  - intros D. destruct (Z.eqb_spec (Z.of_nat (l_npix l) - Z.of_nat (f_npars F')) 0) as [K|_]; [contradiction|]. injection Ecp as <-.
    assert (Dn : IZR (Z.of_nat (l_npix l) - Z.of_nat (f_npars F')) <> 0) by (apply not_0_IZR; exact D).
    set (d := IZR _) in *. clearbody d. assert (N2 : (-1/2) <> 0) by lra.
    assert (S1 : rsgn (-1/2) = SNeg) by (unfold rsgn; rewrite Rltb_f, Rltb_t by lra; reflexivity).
    assert (S2 : rsgn (-2) = SNeg) by (unfold rsgn; rewrite Rltb_f, Rltb_t by lra; reflexivity).
    destruct (Rtotal_order d 0) as [Dl|[|Dg]]; [|contradiction|].
    + assert (Sd : rsgn d = SNeg) by (unfold rsgn; rewrite Rltb_f, Rltb_t by lra; reflexivity).
      destruct (l_lnprob l) as [x| | |]; cbn [xdiv xmul xsgn]; rewrite ?(Reqb_f _ _ N2), ?(Reqb_f _ _ Dn), ?S1, ?S2, ?Sd; cbn [inf_of xdiv xmul xsgn];
        rewrite ?(Reqb_f _ _ Dn), ?Sd; cbn [inf_of xmul xsgn]; rewrite ?Sd; try reflexivity. f_equal. field. exact Dn.
    + assert (Sd : rsgn d = SPos) by (unfold rsgn; rewrite Rltb_t by lra; reflexivity).
      destruct (l_lnprob l) as [x| | |]; cbn [xdiv xmul xsgn]; rewrite ?(Reqb_f _ _ N2), ?(Reqb_f _ _ Dn), ?S1, ?S2, ?Sd; cbn [inf_of xdiv xmul xsgn];
        rewrite ?(Reqb_f _ _ Dn), ?Sd; cbn [inf_of xmul xsgn]; rewrite ?Sd; try reflexivity. f_equal. field. exact Dn.
  - intros i Hi. rewrite <- !nth_error_skipn, <- (nth_error_firstn' (skipn 2 pars) 2 i Hi), <- (nth_error_firstn' (skipn 2 err) 2 i Hi). split; reflexivity.
  - unfold ritem in ET. destruct (nth_error pars 4); [injection ET as <-; reflexivity|discriminate].
  - unfold citem in EvT. destruct (_ && _); [injection EvT as <-; reflexivity|discriminate].
  - intros i j. reflexivity.
Qed.
(** fluxes: those of the band parameters *)
Lemma result_fluxes m n pars cov fl b bp : set_flux_result (FName m) n pars cov = Ok fl -> m <> Mbdc ->
  length pars = (n_shared m + n)%nat -> nrow cov = length pars -> ncol cov = length pars -> (b < n)%nat ->
  get_band_pars m pars b = Ok bp ->
  exists f, result_flux fl b = Some f /\ bp = firstn (n_shared m) pars ++ [f] /\
    result_flux_err fl b = Some (xsqrt (Fin (at2 cov (n_shared m + b) (n_shared m + b)))).
Proof.
  intros H Hm L N1 N2 Hb E. apply (band_pars_iff m pars b bp Hm) in E. destruct E as (f & Ef & Ebp & _). exists f.
  assert (Es : flux_start m = n_shared m) by (destruct m; try reflexivity; congruence).
  unfold set_flux_result in H. rewrite Es in H. destruct (Nat.eqb_spec n 1) as [->|Hn].
  - assert (b = 0%nat) by lia. subst b. rewrite Nat.add_0_r in *. unfold ritem in H. rewrite Ef in H. cbn [bind] in H. unfold citem in H.
    destruct (_ && _); [|discriminate]. cbn [bind] in H. injection H as <-. cbn [result_flux result_flux_err Nat.eqb]. auto.
  - injection H as <-. cbn [result_flux result_flux_err]. rewrite nth_error_skipn. split; [exact Ef|]. split; [exact Ebp|].
    rewrite nth_error_map, nth_error_nth' with (d := 0%nat) by (rewrite seq_length; unfold block; cbn [nrow ncol]; lia).
    rewrite seq_nth by (unfold block; cbn [nrow ncol]; lia). cbn [option_map Nat.add]. reflexivity.
Qed.

(** ** C60, entry by entry *)
Lemma band_pars_entries m pars b : m <> Mbdc -> (n_shared m + b < length pars)%nat ->
  exists bp, get_band_pars m pars b = Ok bp /\ length bp = model_npars m /\
    (forall i, (i < n_shared m)%nat -> nth_error bp i = nth_error pars i) /\ nth_error bp (n_shared m) = nth_error pars (n_shared m + b).
Proof.
  intros Hm L. destruct (nth_error pars (n_shared m + b)) as [f|] eqn:Ef; [|apply nth_error_None in Ef; lia].
  assert (Lf : length (firstn (n_shared m) pars) = n_shared m) by (rewrite firstn_length; lia).
  assert (Pn : model_npars m = S (n_shared m)) by (destruct m; cbn; lia).
  exists (firstn (n_shared m) pars ++ [f]). split; [apply (band_pars_iff m pars b _ Hm); exists f; split; [exact Ef|]; split; [reflexivity|]; rewrite app_length, Lf; cbn; lia|].
  split; [rewrite app_length, Lf; cbn; lia|]. split.
  - intros i Hi. rewrite nth_error_app1 by lia. apply nth_error_firstn'. exact Hi.
  - rewrite nth_error_app2, Lf, Nat.sub_diag by lia. reflexivity.
Qed.
Lemma gap_band_pars m row b : m <> Mbdc -> m <> Mbd -> (n_shared m + b < length row)%nat ->
  exists bp, GaussAp_Model.get_band_pars row (GaussAp_Model.AModel m) b = Ok bp /\ length bp = model_npars m /\
    (forall i, (i < n_shared m)%nat -> i <> 4%nat -> nth_error bp i = nth_error row i) /\
    nth_error bp 4 = option_map (Rmax (/ 10000)) (nth_error row 4) /\ nth_error bp (n_shared m) = nth_error row (n_shared m + b).
Proof.
  intros Hm Hb L. assert (En : GaussAp_Model.get_band_npars (GaussAp_Model.AModel m) = model_npars m) by (destruct m; try reflexivity; congruence).
  assert (Pn : model_npars m = S (n_shared m) /\ (n_shared m = 5 \/ n_shared m = 6)%nat) by (destruct m; cbn; split; try lia; congruence). destruct Pn as [Pn P56].
  unfold GaussAp_Model.get_band_pars. rewrite En. replace (model_npars m - 1)%nat with (n_shared m) by lia.
  destruct (nth_error row (n_shared m + b)) as [f|] eqn:Ef; [|apply nth_error_None in Ef; lia].
  destruct row as [|r0 [|r1 [|r2 [|r3 [|r4 rest]]]]]; try (cbn [length] in L; lia).
  destruct P56 as [E5|E6].
  - rewrite E5 in *. cbn [firstn]. eexists. split; [reflexivity|]. split; [cbn; lia|].
    split; [|split; [reflexivity|reflexivity]]. intros i Hi H4. do 5 (destruct i as [|i]; [try reflexivity; lia|]). lia.
  - rewrite E6 in *. destruct rest as [|r5 rest]; [cbn [length] in L; lia|]. cbn [firstn]. eexists. split; [reflexivity|]. split; [cbn; lia|].
    split; [|split; [reflexivity|reflexivity]]. intros i Hi H4. do 6 (destruct i as [|i]; [try reflexivity; lia|]). lia.
Qed.

(** ** C61: how many residuals the prior has *)

Lemma n_prior_exact m obs prior F : fit_of m obs prior F ->
  f_n_prior F = match prior with
                | None => 0%nat
                | Some _ => (prior_terms m (length obs) + match m with FName Mbd | FName Mbdf | FCoellip _ => 0 | _ => 1 end)%nat end.
Proof.
  intros Ft. pose proof (md_nprior _ _ _ _ (fit_made _ _ _ _ Ft)) as N. destruct m as [m|n].
  - destruct prior; [|exact N]. destruct m; cbn in *; try discriminate; injection N as <-; lia.
  - destruct N as [_ N]. rewrite N. destruct prior; cbn; lia.
Qed.

(** ** C98: nor does the guess matter *)
Lemma same_results m obs prior F F' pars : fit_of m obs prior F -> fit_of m obs prior F' ->
  snd (calc_lnprob F pars) = snd (calc_lnprob F' pars) /\ snd (calc_fdiff F pars) = snd (calc_fdiff F' pars).
Proof.
  intros H H'. pose proof (n_prior_exact _ _ _ _ H) as N. pose proof (n_prior_exact _ _ _ _ H') as N'. apply fit_made in H, H'.
  rewrite (made_lnprob _ _ _ _ _ H), (made_lnprob _ _ _ _ _ H'), (made_fdiff _ _ _ _ _ H), (made_fdiff _ _ _ _ _ H').
  destruct H as [A1 A2 A3 A4 A5 A6 A7 _ (o & os & l & Ao & Ad) _ _], H' as [B1 B2 B3 B4 B5 B6 B7 _ (o' & os' & l' & Bo & Bd) _ _].
  assert (P : f_pixels F = f_pixels F') by congruence. assert (T : f_totpix F = f_totpix F') by congruence. assert (Sz : f_size F = f_size F') by congruence.
  assert (D : f_dopsf F = f_dopsf F') by congruence.
  unfold pure_lnprob, pure_fdiff, get_priors, fill_priors. rewrite A1, A2, A3, B1, B2, B3, Sz, D, P. auto.
Qed.
