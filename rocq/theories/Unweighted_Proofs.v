From Coq Require Import FunctionalExtensionality.
From Verif Require Import Base XReal Jacobian_Model Pixels_Model Pixels_Spec Pixels_Proofs Shape_Model Moments_Model GMix_Model Render_Model Render_Proofs
  WSums_Model WSums_Proofs GMixObj_Model GMixObj_Proofs Flags_Model MomResult_Model GaussMom_Model Admom_Model Units_Spec Units_Proofs UnitsPP_Proofs ObsList_Model
  Priors_Model Joint_Model Fit_Model Fit_Spec Fit_Proofs Fit2_Proofs Fit3_Proofs FitUnits_Proofs FitUnits3_Proofs PSFGuess_Model Unweighted_Spec.
Local Open Scope R_scope.

(** ** the pixel list *)
Lemma alike_refl p : pix_alike p p. Proof. repeat split. Qed.
Lemma alike_len l l' : Forall2 pix_alike l l' -> length l' = length l.
Proof. induction 1; cbn; congruence. Qed.
Lemma alike_all l : Forall2 pix_alike l l. Proof. induction l; constructor; [apply alike_refl|assumption]. Qed.
Lemma alike_upd l l' i p p' : Forall2 pix_alike l l' -> pix_alike p p' -> Forall2 pix_alike (upd l i p) (upd l' i p').
Proof. intros H. revert i. induction H as [|x x' l l' HA H IH]; intros [|i] HP; cbn; constructor; auto. Qed.
Lemma pixels_alike ig w im im' j : images_alike w im im' -> same_outcome (Forall2 pix_alike) (make_pixels im w j ig) (make_pixels im' w j ig).
Proof.
  intros (A & B & A' & B' & V). unfold make_pixels, make_pixels_gen. rewrite A, B, A', B'.
  match goal with |- context [bind ?x _] => destruct x as [n|e] end; cbn [bind]; [|reflexivity].
  unfold fill_pixels. rewrite A, B, A', B'. apply same_bind with (P := fun x x' => Forall2 pix_alike (fst x) (fst x') /\ snd x' = snd x).
  2:{ intros [l i] [l' i'] [X Y]. cbn [fst snd] in X, Y. subst i'. rewrite (alike_len _ _ X). destruct (Nat.eqb _ _); [exact X|reflexivity]. }
  apply same_foldM with (E := fun a b : nat => b = a /\ (a < nrow w)%nat); [apply seq_range| |split; [apply alike_all|reflexivity]].
  intros s s' r r' HS [-> Hr]. apply same_foldM with (E := fun a b : nat => b = a /\ (a < ncol w)%nat); [apply seq_range| |exact HS].
  clear s s' HS. intros [l i] [l' i'] c c' [X Y] [-> Hc]. cbn [fst snd] in X, Y. subst i'. unfold fill_body.
  destruct (_ && _)%bool; [split; [exact X|reflexivity]|]. destruct (get_vu j (INR r) (INR c)) as [v u].
  apply same_bind with (P := Forall2 pix_alike); [|intros l1 l1' H; split; [exact H|reflexivity]].
  unfold put. rewrite (alike_len _ _ X). destruct (Nat.ltb _ _); [|reflexivity]. cbn [same_outcome]. apply alike_upd; [exact X|].
  unfold pix_alike; cbn [px_v px_u px_area px_val px_ierr]. do 4 (split; [reflexivity|]). intros N. apply V; [exact Hr|exact Hc|].
  destruct (Rlt_dec 0 (at2 w r c)) as [P|P]; [exact P|]. exfalso. apply N.
  destruct (Rltb_spec (at2 w r c) 0); [apply sqrt_0|]. replace (at2 w r c) with 0 by lra. apply sqrt_0.
Qed.
(** where pixels without weight are left out, the lists are the same *)
Lemma foldM_range {S} (f f' : S -> nat -> res S) n : (forall s i, (i < n)%nat -> f' s i = f s i) -> forall s, foldM f' (seq 0 n) s = foldM f (seq 0 n) s.
Proof.
  intros H. assert (G : forall m k, (k + m <= n)%nat -> forall s, foldM f' (seq k m) s = foldM f (seq k m) s); [|apply G; lia].
  induction m as [|m IH]; intros k L s; cbn [seq foldM]; [reflexivity|]. rewrite H by lia. destruct (f s k); cbn [bind]; [apply IH; lia|reflexivity].
Qed.
Lemma pixels_same w im im' j : images_alike w im im' -> make_pixels im' w j true = make_pixels im w j true.
Proof.
  intros (A & B & A' & B' & V). unfold make_pixels, make_pixels_gen.
  match goal with |- context [bind ?x _] => destruct x as [n|e] end; cbn [bind]; [|reflexivity].
  unfold fill_pixels. rewrite A, B, A', B'. match goal with |- bind ?x _ = bind ?y _ => assert (E : x = y); [|rewrite E; reflexivity] end.
  apply foldM_range. intros s r Hr. apply foldM_range. intros [l i] c Hc. unfold fill_body. cbn [andb].
  destruct (Rleb_spec (at2 w r c) 0) as [L|L]; [reflexivity|]. rewrite (V r c Hr Hc) by lra. reflexivity.
Qed.

(** ** weighted sums *)
Lemma foldM_alike {S} (f : S -> pixel R -> res S) l l' : (forall s p p', pix_alike p p' -> f s p' = f s p) -> Forall2 pix_alike l l' ->
  forall s, foldM f l' s = foldM f l s.
Proof. intros H. induction 1 as [|p p' l l' A _ IH]; intros s; cbn [foldM]; [reflexivity|]. rewrite (H s p p' A). destruct (f s p); cbn [bind]; [apply IH|reflexivity]. Qed.
Lemma wsums_alike higher w px px' mr s : Forall2 pix_alike px px' -> get_weighted_sums w px' mr higher s = get_weighted_sums w px mr higher s.
Proof.
  intros H. unfold get_weighted_sums. destruct (set_norms_if_needed w) as [w' [[]|e]]; cbn [bind]; [|reflexivity].
  assert (G : forall s m, nb_weighted_sums higher w' px' s m = nb_weighted_sums higher w' px s m).
  { intros s0 m. unfold nb_weighted_sums. destruct w' as [|g w']; [reflexivity|]. apply foldM_alike; [|exact H].
    intros t p p' (A & B & C & D & E). unfold wsums_body. rewrite A, B, C, D. destruct (Rltb _ _); [|reflexivity]. destruct (gmix_eval_pixel _ _ _ _); [|reflexivity].
    destruct (Reqb_spec (px_ierr p * px_ierr p) 0) as [Z|Z]; [reflexivity|]. rewrite E; [reflexivity|]. intros X. apply Z. rewrite X. ring. }
  destruct mr; [rewrite G; reflexivity|]. destruct (gm_get_sigma w'); [rewrite G|]; reflexivity.
Qed.
Lemma gaussmom_alike fwhm higher px px' j : Forall2 pix_alike px px' -> gaussmom fwhm higher (GObs px' j) = gaussmom fwhm higher (GObs px j).
Proof.
  intros H. unfold gaussmom. destruct (set_mompars fwhm) as [w|]; cbn [bind]; [|reflexivity]. cbn [measure_moments]. rewrite (wsums_alike _ _ _ _ _ _ H). reflexivity.
Qed.

(** ** likelihoods *)
Lemma loglike_alike gm px px' : Forall2 pix_alike px px' -> get_loglike gm px' = get_loglike gm px.
Proof.
  intros H. unfold get_loglike. destruct (set_norms_if_needed gm) as [g r]. f_equal. destruct r; cbn [bind]; [|reflexivity].
  rewrite (foldM_alike (loglike_body g) px px'); [reflexivity| |exact H]. intros [[[a b] c] d] p p' (A & B & C & D & E). unfold loglike_body. rewrite A, B, C, D.
  destruct (gmix_eval_pixel_fast _ _ _ _) as [y|]; cbn [bind]; [|reflexivity]. destruct (Req_dec (px_ierr p) 0) as [Z|Z]; [rewrite Z|rewrite (E Z); reflexivity].
  do 4 f_equal; ring.
Qed.
Lemma s2n_alike gm px px' : Forall2 pix_alike px px' -> get_model_s2n gm px' = get_model_s2n gm px.
Proof.
  intros H. unfold get_model_s2n, get_model_s2n_sum. destruct (set_norms_if_needed gm) as [g r]. f_equal. destruct r; cbn [bind]; [|reflexivity]. f_equal.
  apply foldM_alike; [|exact H]. intros s p p' (A & B & C & D & _). rewrite A, B, C, D. reflexivity.
Qed.
Lemma fdiff_alike gm px px' fd st : Forall2 pix_alike px px' -> fill_fdiff gm px' fd st = fill_fdiff gm px fd st.
Proof.
  intros H. unfold fill_fdiff. destruct (set_norms_if_needed gm) as [g r]. f_equal. destruct r; cbn [bind]; [|reflexivity].
  match goal with |- bind (foldM ?f _ _) _ = _ => rewrite (foldM_alike f px px'); [reflexivity| |exact H] end.
  intros [l i] p p' (A & B & C & D & E). rewrite A, B, C, D. destruct (gmix_eval_pixel_fast _ _ _ _) as [y|]; cbn [bind]; [|reflexivity].
  destruct (Req_dec (px_ierr p) 0) as [Z|Z]; [rewrite Z, !Rmult_0_r|rewrite (E Z)]; reflexivity.
Qed.
Lemma fdiff_x_alike gm px px' fd st : Forall2 pix_alike px px' -> fill_fdiff_x gm px' fd st = fill_fdiff_x gm px fd st.
Proof.
  intros H. unfold fill_fdiff_x. destruct (set_norms_if_needed gm) as [g r]. f_equal. destruct r; cbn [bind]; [|reflexivity].
  match goal with |- bind (foldM ?f _ _) _ = _ => rewrite (foldM_alike f px px'); [reflexivity| |exact H] end.
  intros [l i] p p' (A & B & C & D & E). rewrite A, B, C, D. destruct (gmix_eval_pixel_fast _ _ _ _) as [y|]; cbn [bind]; [|reflexivity].
  destruct (Req_dec (px_ierr p) 0) as [Z|Z]; [rewrite Z, !Rmult_0_r|rewrite (E Z)]; reflexivity.
Qed.

(** ** fits *)
Lemma alike_psf o o' : obs_alike o o' -> psf_gmix o' = psf_gmix o /\ has_psf_gmix o' = has_psf_gmix o.
Proof. intros [_ E]. unfold psf_gmix, has_psf_gmix. rewrite E. split; reflexivity. Qed.
Lemma alike_pixels o o' : obs_alike o o' -> same_outcome (Forall2 pix_alike) (obs_pixels o) (obs_pixels o').
Proof. intros [H _]. unfold obs_pixels. destruct (fo_pixels o), (fo_pixels o'); try contradiction; [exact H|reflexivity]. Qed.
Lemma mapM_alike {B} (f : fobs -> res B) os os' : (forall o o', obs_alike o o' -> f o' = f o) -> Forall2 obs_alike os os' -> mapM f os' = mapM f os.
Proof. intros H. induction 1 as [|o o' os os' R _ IH]; [reflexivity|]. cbn [mapM]. rewrite (H o o' R), IH. reflexivity. Qed.
Lemma lengths_alike l l' : Forall2 (Forall2 pix_alike) l l' -> forall n, fold_left (fun n (p : list (pixel R)) => (n + length p)%nat) l' n = fold_left (fun n p => (n + length p)%nat) l n.
Proof. induction 1 as [|x y l l' P _ IH]; intros n; [reflexivity|]. cbn [fold_left]. rewrite (alike_len _ _ P). apply IH. Qed.
Lemma init_alike m obs obs' guess prior : Forall2 (Forall2 obs_alike) obs obs' ->
  same_outcome (fun F F' => f_size F' = f_size F /\ f_npars F' = f_npars F /\ f_totpix F' = f_totpix F /\ f_dopsf F' = f_dopsf F /\ f_gms F' = f_gms F) (fit_init m obs guess prior) (fit_init m obs' guess prior).
Proof.
  intros HO. unfold fit_init. rewrite <- (Forall2_length _ _ _ HO).
  eapply same_bind; [eapply mapM_same2; [exact (concat_F2 _ _ _ HO)|exact alike_pixels]|]. intros px px' P. cbv zeta. rewrite (lengths_alike px px' P).
  eapply same_bind with (P := eq); [apply same_refl|]. intros np ? <-.
  assert (E : setup_fit m obs' (match m with FName m0 => model_npars m0 + length obs - 1 | FCoellip n => 4 + 2 * n end)%nat guess = setup_fit m obs (match m with FName m0 => model_npars m0 + length obs - 1 | FCoellip n => 4 + 2 * n end)%nat guess).
  { unfold setup_fit. destruct (negb _); [reflexivity|]. assert (I : init_gmix_all m obs' guess = init_gmix_all m obs guess); [|rewrite I; reflexivity].
    unfold init_gmix_all. rewrite <- (Forall2_length _ _ _ HO).
    assert (G : forall d b, mapM (fun p => let* bp := band_pars_of m guess (snd p) in mapM (init_one m d bp) (fst p)) (combine obs' (seq b (length obs)))
                        = mapM (fun p => let* bp := band_pars_of m guess (snd p) in mapM (init_one m d bp) (fst p)) (combine obs (seq b (length obs)))).
    { intros d. clear - HO. induction HO as [|os os' obs obs' H _ IH]; intros b; [reflexivity|]. cbn [length seq combine mapM fst snd]. rewrite (IH (S b)).
      destruct (band_pars_of m guess b) as [bp|]; cbn [bind]; [|reflexivity]. rewrite (mapM_alike (init_one m d bp) os os'); [reflexivity| |exact H].
      intros o o' R. unfold init_one. rewrite (proj1 (alike_psf o o' R)). reflexivity. }
    destruct HO as [|? ? obs obs' [|o o' os os' R H] HO]; cbn [bind]; [reflexivity|reflexivity|]. cbv zeta. rewrite (proj2 (alike_psf o o' R)).
    rewrite (G (has_psf_gmix o) 0%nat). reflexivity. }
  rewrite E. eapply same_bind with (P := eq); [apply same_refl|]. intros [d g] ? <-. cbn. auto.
Qed.

Section Fits.
Variables (m : fmodel) (obs obs' : list (list fobs)) (prior : option jprior) (F F' : fit).
Hypothesis Ft : fit_of m obs prior F.
Hypothesis Ft' : fit_of m obs' prior F'.
Hypothesis HO : Forall2 (Forall2 obs_alike) obs obs'.
Let M := fit_made _ _ _ _ Ft.
Let M' := fit_made _ _ _ _ Ft'.

Lemma dopsf_alike : f_dopsf F' = f_dopsf F.
Proof.
  destruct (md_first _ _ _ _ M) as (o & os & l & E & ->), (md_first _ _ _ _ M') as (o' & os' & l' & E' & ->). rewrite E, E' in HO.
  inversion HO as [|? ? ? ? H _]; subst. inversion H as [|? ? ? ? X _]; subst. apply (alike_psf _ _ X).
Qed.
Lemma fpix_alike : Forall2 (Forall2 pix_alike) (f_pixels F) (f_pixels F').
Proof.
  pose proof (mapM_same2 obs_alike (Forall2 pix_alike) obs_pixels obs_pixels _ _ (concat_F2 _ _ _ HO) alike_pixels) as H.
  rewrite (md_pixels _ _ _ _ M), (md_pixels _ _ _ _ M') in H. exact H.
Qed.
Lemma sizes_alike : f_size F' = f_size F /\ f_npars F' = f_npars F.
Proof.
  split.
  - rewrite (md_size _ _ _ _ M), (md_size _ _ _ _ M'). f_equal.
    + rewrite (md_totpix _ _ _ _ M), (md_totpix _ _ _ _ M'). f_equal. pose proof fpix_alike as X. clear - X.
      induction X as [|p p' l l' H _ IH]; [reflexivity|]. cbn [map]. rewrite IH, (alike_len _ _ H). reflexivity.
    + pose proof (md_nprior _ _ _ _ M) as N. pose proof (md_nprior _ _ _ _ M') as N'. rewrite <- (Forall2_length _ _ _ HO) in N'.
      destruct m; destruct prior; try congruence; destruct N, N'; congruence.
  - rewrite (md_npars _ _ _ _ M), (md_npars _ _ _ _ M'). unfold n_pars. rewrite (Forall2_length _ _ _ HO). reflexivity.
Qed.
Lemma bands_alike p : bands_mix (f_model F') (f_dopsf F') p 0 (f_obs F') = bands_mix (f_model F) (f_dopsf F) p 0 (f_obs F).
Proof.
  rewrite dopsf_alike, (md_model _ _ _ _ M), (md_model _ _ _ _ M'), (md_obs _ _ _ _ M), (md_obs _ _ _ _ M'). generalize 0%nat. generalize (f_dopsf F). intros d. pose proof HO as X. clear - X.
  induction X as [|os os' l l' H _ IH]; intros b; [reflexivity|]. cbn [bands_mix]. destruct (band_pars_of m p b) as [bp|]; cbn [bind]; [|reflexivity].
  rewrite (mapM_alike (one_mix m d bp) os os'), IH; [reflexivity| |exact H]. intros o o' R. unfold one_mix. rewrite (proj1 (alike_psf o o' R)). reflexivity.
Qed.
Lemma like_fold_alike os os' : Forall2 obs_alike os os' -> forall ds s, foldM like_step (combine os' ds) s = foldM like_step (combine os ds) s.
Proof.
  clear. induction 1 as [|o o' os os' R _ IH]; intros ds s; [reflexivity|]. destruct ds as [|d ds]; [reflexivity|]. cbn [combine foldM].
  assert (E : like_step s (o', d) = like_step s (o, d)).
  { unfold like_step. cbn [fst snd]. pose proof (alike_pixels o o' R) as P. destruct (obs_pixels o) as [px|], (obs_pixels o') as [px'|]; cbn in P; try contradiction; cbn [bind]; [|congruence].
    rewrite (loglike_alike d px px' P). reflexivity. }
  rewrite E. destruct (like_step s (o, d)); [apply IH|reflexivity].
Qed.
Lemma lnprob_alike p : snd (calc_lnprob F' p) = snd (calc_lnprob F p).
Proof.
  rewrite (made_lnprob _ _ _ _ _ M), (made_lnprob _ _ _ _ _ M'). unfold pure_lnprob. unfold get_priors. rewrite (md_prior _ _ _ _ M), (md_prior _ _ _ _ M').
  rewrite bands_alike. rewrite (md_obs _ _ _ _ M), (md_obs _ _ _ _ M').
  destruct (match prior with None => _ | Some _ => _ end); cbn [bind]; [|reflexivity]. destruct (bands_mix _ _ p 0 _) as [ds|]; cbn [bind]; [|reflexivity].
  rewrite (like_fold_alike _ _ (concat_F2 _ _ _ HO)). reflexivity.
Qed.
Lemma fd_fold_alike pl pl' : Forall2 (Forall2 pix_alike) pl pl' -> forall ds s, foldM fd_step (combine pl' ds) s = foldM fd_step (combine pl ds) s.
Proof.
  clear. induction 1 as [|px px' l l' H _ IH]; intros ds s; [reflexivity|]. destruct ds as [|d ds]; [reflexivity|]. cbn [combine foldM].
  assert (E : fd_step s (px', d) = fd_step s (px, d)).
  { destruct s as [fd n]. unfold fd_step. cbn [fst snd]. rewrite (fdiff_x_alike d px px' _ _ H), (alike_len _ _ H). reflexivity. }
  rewrite E. destruct (fd_step s (px, d)); [apply IH|reflexivity].
Qed.
Lemma residuals_alike p : snd (calc_fdiff F' p) = snd (calc_fdiff F p).
Proof.
  rewrite (made_fdiff _ _ _ _ _ M), (made_fdiff _ _ _ _ _ M'). unfold pure_fdiff. rewrite (proj1 sizes_alike), bands_alike. f_equal.
  destruct (bands_mix _ _ p 0 _) as [ds|]; cbn [bind]; [|reflexivity].
  assert (E : fill_priors F' p (repeat (Fin 0) (f_size F)) = fill_priors F p (repeat (Fin 0) (f_size F))) by (unfold fill_priors; rewrite (md_prior _ _ _ _ M), (md_prior _ _ _ _ M'); reflexivity).
  rewrite E. destruct (fill_priors F p _) as [s|]; cbn [bind]; [|reflexivity]. rewrite (fd_fold_alike _ _ fpix_alike). reflexivity.
Qed.
Lemma result_alike p err cov : snd (set_fit_result F' p err cov) = snd (set_fit_result F p err cov).
Proof.
  unfold set_fit_result. pose proof (lnprob_alike p) as L.
  destruct (lnprob_pure F p (md_ok _ _ _ _ M)) as (_ & (g & G) & _). destruct (lnprob_pure F' p (md_ok _ _ _ _ M')) as (_ & (g' & G') & _).
  destruct (calc_lnprob F p) as [A r], (calc_lnprob F' p) as [A' r']. cbn [fst snd] in *. subst A A' r'. cbn [f_npars f_prior f_model f_obs with_gms].
  rewrite (proj2 sizes_alike), (md_prior _ _ _ _ M), (md_prior _ _ _ _ M'), (md_model _ _ _ _ M), (md_model _ _ _ _ M'), (md_obs _ _ _ _ M), (md_obs _ _ _ _ M'), (Forall2_length _ _ _ HO). reflexivity.
Qed.
End Fits.

(** ** the signal to noise of an observation *)
Lemma sums_same w im im' : images_alike w im im' -> obs_sums im' w = obs_sums im w.
Proof.
  intros (_ & _ & _ & _ & V). assert (E : good_pixels im' w = good_pixels im w); [|unfold obs_sums; rewrite E; reflexivity].
  unfold good_pixels. 
  assert (R : forall rows, (forall r, In r rows -> (r < nrow w)%nat) ->
    filter (fun x : R * R => Rltb 0 (snd x)) (flat_map (fun r => map (fun c => (at2 im' r c, at2 w r c)) (seq 0 (ncol w))) rows) =
    filter (fun x : R * R => Rltb 0 (snd x)) (flat_map (fun r => map (fun c => (at2 im r c, at2 w r c)) (seq 0 (ncol w))) rows)).
  { induction rows as [|r rows IH]; intros HR; [reflexivity|]. cbn [flat_map]. rewrite !filter_app, IH by (intros; apply HR; right; assumption). f_equal.
    assert (C : forall cols, (forall c, In c cols -> (c < ncol w)%nat) -> filter (fun x : R * R => Rltb 0 (snd x)) (map (fun c => (at2 im' r c, at2 w r c)) cols) = filter (fun x : R * R => Rltb 0 (snd x)) (map (fun c => (at2 im r c, at2 w r c)) cols)).
    { induction cols as [|c cols IC]; intros HC; [reflexivity|]. cbn [map filter snd]. rewrite IC by (intros; apply HC; right; assumption).
      destruct (Rltb_spec 0 (at2 w r c)) as [P|P]; [|reflexivity]. rewrite (V r c) by (first [exact P|apply HR; left; reflexivity|apply HC; left; reflexivity]). reflexivity. }
    apply C. intros c. rewrite in_seq. lia. }
  apply R. intros r. rewrite in_seq. lia.
Qed.
