From Coq Require Import Permutation.
From Verif Require Import Base XReal Jacobian_Model Pixels_Model Pixels_Proofs GMix_Model GMixObj_Model GMixObj_Proofs Render_Model Render_Proofs FastExp_Model FastExp_Proofs EM_Model EM_Proofs
  Priors_Model Joint_Model Fit_Model Fit_Spec Fit_Proofs Fit2_Proofs Fit3_Proofs Units_Spec Units_Proofs FitUnits_Proofs FitUnits3_Proofs Layout_Spec Layout_Proofs.
Local Open Scope R_scope.

(** ** fits *)
Lemma relaid_psf o o' : relaid o o' -> psf_gmix o' = psf_gmix o /\ has_psf_gmix o' = has_psf_gmix o.
Proof. intros [_ E]. unfold psf_gmix, has_psf_gmix. rewrite E. split; reflexivity. Qed.
Lemma relaid_pixels o o' : relaid o o' -> same_outcome (@Permutation (pixel R)) (obs_pixels o) (obs_pixels o').
Proof. intros [H _]. unfold obs_pixels. destruct (fo_pixels o), (fo_pixels o'); try contradiction; [exact H|reflexivity]. Qed.
Lemma mapM_relaid {B} (f : fobs -> res B) os os' : (forall o o', relaid o o' -> f o' = f o) -> Forall2 relaid os os' -> mapM f os' = mapM f os.
Proof. intros H. induction 1 as [|o o' os os' R _ IH]; [reflexivity|]. cbn [mapM]. rewrite (H o o' R), IH. reflexivity. Qed.
Lemma lengths_relaid {A} (l l' : list (list A)) : Forall2 (@Permutation A) l l' -> forall n, fold_left (fun n p => (n + length p)%nat) l' n = fold_left (fun n p => (n + length p)%nat) l n.
Proof. induction 1 as [|x y l l' P _ IH]; intros n; [reflexivity|]. cbn [fold_left]. rewrite (Permutation_length P). apply IH. Qed.
Lemma init_relaid m obs obs' guess prior : Forall2 (Forall2 relaid) obs obs' ->
  same_outcome (fun F F' => f_size F' = f_size F /\ f_npars F' = f_npars F /\ f_totpix F' = f_totpix F /\ f_dopsf F' = f_dopsf F /\ f_gms F' = f_gms F) (fit_init m obs guess prior) (fit_init m obs' guess prior).
Proof.
  intros HO. unfold fit_init. rewrite <- (Forall2_length _ _ _ HO).
  eapply same_bind; [eapply mapM_same2; [exact (concat_F2 _ _ _ HO)|exact relaid_pixels]|]. intros px px' P. cbv zeta. rewrite (lengths_relaid px px' P).
  eapply same_bind with (P := eq); [apply same_refl|]. intros np ? <-.
  assert (E : setup_fit m obs' (match m with FName m0 => model_npars m0 + length obs - 1 | FCoellip n => 4 + 2 * n end)%nat guess = setup_fit m obs (match m with FName m0 => model_npars m0 + length obs - 1 | FCoellip n => 4 + 2 * n end)%nat guess).
  { unfold setup_fit. destruct (negb _); [reflexivity|]. assert (I : init_gmix_all m obs' guess = init_gmix_all m obs guess); [|rewrite I; reflexivity].
    unfold init_gmix_all. rewrite <- (Forall2_length _ _ _ HO).
    assert (G : forall d b, mapM (fun p => let* bp := band_pars_of m guess (snd p) in mapM (init_one m d bp) (fst p)) (combine obs' (seq b (length obs)))
                        = mapM (fun p => let* bp := band_pars_of m guess (snd p) in mapM (init_one m d bp) (fst p)) (combine obs (seq b (length obs)))).
    { intros d. clear - HO. induction HO as [|os os' obs obs' H _ IH]; intros b; [reflexivity|]. cbn [length seq combine mapM fst snd]. rewrite (IH (S b)).
      destruct (band_pars_of m guess b) as [bp|]; cbn [bind]; [|reflexivity]. rewrite (mapM_relaid (init_one m d bp) os os'); [reflexivity| |exact H].
      intros o o' R. unfold init_one. rewrite (proj1 (relaid_psf o o' R)). reflexivity. }
    destruct HO as [|? ? obs obs' [|o o' os os' R H] HO]; cbn [bind]; [reflexivity|reflexivity|]. cbv zeta. rewrite (proj2 (relaid_psf o o' R)).
    rewrite (G (has_psf_gmix o) 0%nat). reflexivity. }
  rewrite E. eapply same_bind with (P := eq); [apply same_refl|]. intros [d g] ? <-. cbn. auto.
Qed.

Section Fits.
Variables (m : fmodel) (obs obs' : list (list fobs)) (prior : option jprior) (F F' : fit).
Hypothesis Ft : fit_of m obs prior F.
Hypothesis Ft' : fit_of m obs' prior F'.
Hypothesis HO : Forall2 (Forall2 relaid) obs obs'.
Let M := fit_made _ _ _ _ Ft.
Let M' := fit_made _ _ _ _ Ft'.

Lemma dopsf_relaid : f_dopsf F' = f_dopsf F.
Proof.
  destruct (md_first _ _ _ _ M) as (o & os & l & E & ->), (md_first _ _ _ _ M') as (o' & os' & l' & E' & ->). rewrite E, E' in HO.
  inversion HO as [|? ? ? ? H _]; subst. inversion H as [|? ? ? ? X _]; subst. apply (relaid_psf _ _ X).
Qed.
Lemma fpix_relaid : Forall2 (@Permutation (pixel R)) (f_pixels F) (f_pixels F').
Proof.
  pose proof (mapM_same2 relaid (@Permutation (pixel R)) obs_pixels obs_pixels _ _ (concat_F2 _ _ _ HO) relaid_pixels) as H.
  rewrite (md_pixels _ _ _ _ M), (md_pixels _ _ _ _ M') in H. exact H.
Qed.
Lemma sizes_relaid : f_size F' = f_size F /\ f_npars F' = f_npars F.
Proof.
  split.
  - rewrite (md_size _ _ _ _ M), (md_size _ _ _ _ M'). f_equal.
    + rewrite (md_totpix _ _ _ _ M), (md_totpix _ _ _ _ M'). f_equal. pose proof fpix_relaid as X. clear - X.
      induction X as [|p p' l l' H _ IH]; [reflexivity|]. cbn [map]. rewrite IH, (Permutation_length H). reflexivity.
    + pose proof (md_nprior _ _ _ _ M) as N. pose proof (md_nprior _ _ _ _ M') as N'. rewrite <- (Forall2_length _ _ _ HO) in N'.
      destruct m; destruct prior; try congruence; destruct N, N'; congruence.
  - rewrite (md_npars _ _ _ _ M), (md_npars _ _ _ _ M'). unfold n_pars. rewrite (Forall2_length _ _ _ HO). reflexivity.
Qed.
Lemma bands_relaid p : bands_mix (f_model F') (f_dopsf F') p 0 (f_obs F') = bands_mix (f_model F) (f_dopsf F) p 0 (f_obs F).
Proof.
  rewrite dopsf_relaid, (md_model _ _ _ _ M), (md_model _ _ _ _ M'), (md_obs _ _ _ _ M), (md_obs _ _ _ _ M'). generalize 0%nat. generalize (f_dopsf F). intros d. pose proof HO as X. clear - X. 
  induction X as [|os os' l l' H _ IH]; intros b; [reflexivity|]. cbn [bands_mix]. destruct (band_pars_of m p b) as [bp|]; cbn [bind]; [|reflexivity].
  rewrite (mapM_relaid (one_mix m d bp) os os'), IH; [reflexivity| |exact H]. intros o o' R. unfold one_mix. rewrite (proj1 (relaid_psf o o' R)). reflexivity.
Qed.
Lemma like_fold os os' : Forall2 relaid os os' -> forall ds s, foldM like_step (combine os' ds) s = foldM like_step (combine os ds) s.
Proof.
  clear. induction 1 as [|o o' os os' R _ IH]; intros ds s; [reflexivity|]. destruct ds as [|d ds]; [reflexivity|]. cbn [combine foldM].
  assert (E : like_step s (o', d) = like_step s (o, d)).
  { unfold like_step. cbn [fst snd]. pose proof (relaid_pixels o o' R) as P. destruct (obs_pixels o) as [px|], (obs_pixels o') as [px'|]; cbn in P; try contradiction; cbn [bind]; [|congruence].
    rewrite (loglike_perm d px px' P). reflexivity. }
  rewrite E. destruct (like_step s (o, d)); [apply IH|reflexivity].
Qed.
Lemma lnprob_relaid p : snd (calc_lnprob F' p) = snd (calc_lnprob F p).
Proof.
  rewrite (made_lnprob _ _ _ _ _ M), (made_lnprob _ _ _ _ _ M'). unfold pure_lnprob. unfold get_priors. rewrite (md_prior _ _ _ _ M), (md_prior _ _ _ _ M').
  rewrite bands_relaid. rewrite (md_obs _ _ _ _ M), (md_obs _ _ _ _ M').
  destruct (match prior with None => _ | Some _ => _ end); cbn [bind]; [|reflexivity]. destruct (bands_mix _ _ p 0 _) as [ds|]; cbn [bind]; [|reflexivity].
  rewrite (like_fold _ _ (concat_F2 _ _ _ HO)). reflexivity.
Qed.

(** the residuals: the same up to the start of the next pixels, in another order, and the same array after it *)
Definition same_array (s s' : list xr * nat) : Prop :=
  snd s' = snd s /\ Permutation (firstn (snd s) (fst s)) (firstn (snd s) (fst s')) /\ skipn (snd s) (fst s') = skipn (snd s) (fst s) /\ length (fst s') = length (fst s).
Lemma put_over {A} (l : list A) i x : (length l <= i)%nat -> put l i x = Raise OtherError.
Proof. intros H. unfold put. destruct (Nat.ltb_spec i (length l)); [lia|reflexivity]. Qed.
Lemma fdiff_over gm' pixels : forall fdiff start k, (length fdiff < start + k + length pixels)%nat -> (pixels <> []) ->
  foldM (fun (s : list xr * nat) p =>
      let '(fdiff, ipixel) := s in
      let* model_val := gmix_eval_pixel_fast gm' (px_v p) (px_u p) (px_area p) in
      let* fdiff' := put fdiff (start + ipixel) (Fin ((model_val - px_val p) * px_ierr p)) in
      Ok (fdiff', S ipixel)) pixels (fdiff, k) = Raise OtherError.
Proof.
  clear. induction pixels as [|p pixels IH]; intros fdiff start k H N; [congruence|]. cbn [foldM]. rewrite fastval_eq. cbn [bind].
  destruct (Nat.ltb_spec (start + k) (length fdiff)) as [L|L].
  - rewrite put_ok by exact L. cbn [bind]. apply IH; [rewrite upd_length; cbn [length] in H; lia|]. intros ->. cbn [length] in H. lia.
  - rewrite put_over by exact L. reflexivity.
Qed.
Lemma firstn_app_len {A} (a b : list A) : firstn (length a) (a ++ b) = a.
Proof. rewrite firstn_app, Nat.sub_diag, firstn_O, app_nil_r. apply firstn_all. Qed.
Lemma skipn_app_len {A} (a b : list A) : skipn (length a) (a ++ b) = b.
Proof. rewrite skipn_app, Nat.sub_diag, skipn_all. reflexivity. Qed.
Lemma skipn_more {A} (n k : nat) (l l' : list A) : skipn n l' = skipn n l -> skipn (n + k) l' = skipn (n + k) l.
Proof.
  assert (G : forall (x : list A) a b, skipn (a + b) x = skipn b (skipn a x)).
  { induction x as [|y x IH]; intros [|a] b; cbn [Nat.add skipn]; try reflexivity; [destruct b; reflexivity|apply IH]. }
  intros E. rewrite !G, E. reflexivity.
Qed.
Lemma fd_step_relaid s s' px px' d : same_array s s' -> Permutation px px' -> same_outcome same_array (fd_step s (px, d)) (fd_step s' (px', d)).
Proof.
  clear. intros (E1 & E2 & E3 & E4) P. destruct s as [fd n], s' as [fd' n']. cbn [fst snd] in *. subst n'. unfold fd_step, fill_fdiff_x. cbn [fst snd].
  destruct (set_norms_if_needed d) as [d' r]. cbn [snd]. destruct r as [[]|e]; cbn [bind]; [|reflexivity]. pose proof (Permutation_length P) as LP.
  destruct px as [|x px].
  { apply Permutation_nil in P. subst px'. cbn [foldM bind length same_outcome]. rewrite Nat.add_0_r. unfold same_array. auto. }
  assert (NE' : px' <> []) by (intros ->; discriminate). assert (NE : x :: px <> []) by discriminate. revert P LP NE. generalize (x :: px). clear x px. intros px P LP NE.
  destruct (le_lt_dec (n + length px) (length fd)) as [L|L].
  - rewrite !fdiff_x_loop by (rewrite ?Nat.add_0_r; lia). cbn [bind]. rewrite !Nat.add_0_r, <- LP. cbn [same_outcome]. unfold same_array. cbn [fst snd].
    set (h := fun p : pixel R => Fin _). split; [reflexivity|].
    assert (A : forall fd0 px0, length fd0 = length fd -> length px0 = length px -> firstn (n + length px) (firstn n fd0 ++ map h px0 ++ skipn (n + length px) fd0) = firstn n fd0 ++ map h px0 /\
      skipn (n + length px) (firstn n fd0 ++ map h px0 ++ skipn (n + length px) fd0) = skipn (n + length px) fd0 /\ length (firstn n fd0 ++ map h px0 ++ skipn (n + length px) fd0) = length fd).
    { intros fd0 px0 L0 L1. rewrite app_assoc. assert (LL : (n + length px)%nat = length (firstn n fd0 ++ map h px0)) by (rewrite app_length, firstn_length, map_length; lia).
      rewrite LL at 1 3. rewrite firstn_app_len, skipn_app_len. split; [reflexivity|]. split; [reflexivity|]. rewrite app_length, skipn_length, <- LL. lia. }
    destruct (A fd px eq_refl eq_refl) as (A1 & A2 & A3), (A fd' px' E4 (eq_sym LP)) as (B1 & B2 & B3). rewrite A1, A2, A3, B1, B2, B3.
    split; [apply Permutation_app; [exact E2|apply Permutation_map; exact P]|]. split; [apply skipn_more; exact E3|reflexivity].
  - rewrite !fdiff_over by (try assumption; lia). reflexivity.
Qed.
Lemma fdiff_relaid p : same_outcome (@Permutation xr) (snd (calc_fdiff F p)) (snd (calc_fdiff F' p)).
Proof.
  rewrite (made_fdiff _ _ _ _ _ M), (made_fdiff _ _ _ _ _ M'). unfold pure_fdiff. rewrite (proj1 sizes_relaid), bands_relaid.
  assert (X : same_outcome (@Permutation xr)
    (let* ds := bands_mix (f_model F) (f_dopsf F) p 0 (f_obs F) in let* s := fill_priors F p (repeat (Fin 0) (f_size F)) in rmap fst (foldM fd_step (combine (f_pixels F) (concat ds)) s))
    (let* ds := bands_mix (f_model F) (f_dopsf F) p 0 (f_obs F) in let* s := fill_priors F' p (repeat (Fin 0) (f_size F)) in rmap fst (foldM fd_step (combine (f_pixels F') (concat ds)) s))).
  { eapply same_bind with (P := eq); [apply same_refl|]. intros ds ? <-. eapply same_bind with (P := eq).
    { unfold fill_priors. rewrite (md_prior _ _ _ _ M), (md_prior _ _ _ _ M'). apply same_refl. }
    intros s ? <-. rewrite !rmap_bind. eapply same_bind with (P := same_array).
    - eapply same_foldM with (E := fun x x' => Permutation (fst x) (fst x') /\ snd x' = snd x).
      + pose proof fpix_relaid as X. clear - X. generalize (concat ds) as l1. induction X as [|p p' l l' H _ IH]; intros; [constructor|].
        destruct l1 as [|d l1]; [constructor|]. cbn [combine]. constructor; [split; [exact H|reflexivity]|apply IH].
      + intros t t' [px d] [px' d'] T [P1 P2]. cbn [fst snd] in *. subst d'. apply fd_step_relaid; assumption.
      + repeat split. apply Permutation_refl.
    - intros [l n] [l' n'] (E1 & E2 & E3 & E4). cbn [fst snd] in *. subst n'. cbn [same_outcome]. rewrite <- (firstn_skipn n l), <- (firstn_skipn n l'), E3. apply Permutation_app_tail. exact E2. }
  revert X. match goal with |- same_outcome _ ?r ?r' -> _ => destruct r as [a|e], r' as [a'|e'] end; cbn [same_outcome or_range]; try contradiction; [auto|]. intros <-. destruct e; cbn; reflexivity.
Qed.
Lemma result_relaid p err cov : snd (set_fit_result F' p err cov) = snd (set_fit_result F p err cov).
Proof.
  unfold set_fit_result. pose proof (lnprob_relaid p) as L.
  destruct (lnprob_pure F p (md_ok _ _ _ _ M)) as (_ & (g & G) & _). destruct (lnprob_pure F' p (md_ok _ _ _ _ M')) as (_ & (g' & G') & _).
  destruct (calc_lnprob F p) as [A r], (calc_lnprob F' p) as [A' r']. cbn [fst snd] in *. subst A A' r'. cbn [f_npars f_prior f_model f_obs with_gms].
  rewrite (proj2 sizes_relaid), (md_prior _ _ _ _ M), (md_prior _ _ _ _ M'), (md_model _ _ _ _ M), (md_model _ _ _ _ M'), (md_obs _ _ _ _ M), (md_obs _ _ _ _ M'), (Forall2_length _ _ _ HO). reflexivity.
Qed.
End Fits.

(** ** EM *)
Lemma em_val_total g v u ar : exists y, em_val g v u ar = Ok y.
Proof.
  unfold em_val. destruct (g_nrm g); [|eauto]. destruct (em_chi2 g v u) as [t|]; [|eauto]. destruct (Rltb_spec t 25); cbn [andb]; [|eauto].
  destruct (Rleb_spec 0 t); [|eauto]. destruct (fexp_spec (- (5/10) * t) ltac:(lra)) as (y & -> & _). cbn [bind]. eauto.
Qed.
Lemma foldM_total {A S} (f : S -> A -> res S) l : (forall s a, exists t, f s a = Ok t) -> forall s, exists t, foldM f l s = Ok t.
Proof. intros H. induction l as [|a l IH]; intros s; cbn [foldM]; [eauto|]. destruct (H s a) as [t ->]. cbn [bind]. apply IH. Qed.
Lemma scratch_total k p c n tau : n <> 0%nat -> exists x, do_scratch_sums k p c n tau = Ok x.
Proof.
  intros N. unfold do_scratch_sums. destruct (Nat.eqb_spec n 0); [contradiction|].
  match goal with |- context [foldM ?f ?l ?x] => edestruct (foldM_total f l) with (s := x) as [[[a b] c'] E] end; [|rewrite E; cbn [bind]; eauto].
  intros [[l g] L] i. match goal with |- context [foldM ?f ?l ?x] => edestruct (foldM_total f l) with (s := x) as [[[a b] c'] E] end; [|rewrite E; cbn [bind]; eauto].
  intros [[s g'] L'] [h t]. unfold scratch_gauss. destruct (em_val_total h (px_v p) (px_u p) (px_area p)) as [y ->]. cbn [bind]. eauto.
Qed.
Lemma do_sums_comm : forall s s' l v g v' g', do_sums (do_sums l s v g) s' v' g' = do_sums (do_sums l s' v' g') s v g.
Proof.
  unfold do_sums. intros s s' l v g v' g'. revert s s'. induction l as [|x l IH]; intros s s'; [destruct s, s'; reflexivity|].
  destruct s as [|t s], s' as [|t' s']; cbn [combine map]; try reflexivity.
  f_equal; [cbn; f_equal; ring|apply IH].
Qed.
Lemma nan_add_comm a b c : nan_add (nan_add a b) c = nan_add (nan_add a c) b.
Proof. destruct a, b, c; cbn; try reflexivity. f_equal. ring. Qed.
Lemma em_pixel_comm k c n tau sky : forall s a b, (let* x := em_pixel k c n tau sky s a in em_pixel k c n tau sky x b) = (let* x := em_pixel k c n tau sky s b in em_pixel k c n tau sky x a).
Proof.
  destruct (Nat.eq_dec n 0) as [->|N].
  { intros [[l e] y] a b. unfold em_pixel, do_scratch_sums. reflexivity. }
  apply (commute _ (fun p => match do_scratch_sums k p c n tau with Ok (s, gsum, L) => if Reqb (gsum + sky) 0 then None else Some (s, px_val p, gsum + sky, L) | Raise _ => None end)
    (fun st t => let '(l, e, y) := st in let '(s, v, g, L) := t in (do_sums l s v g, nan_add e L, y + sky * v / g)) GMixRangeError).
  - intros [[l e] y] p. unfold em_pixel. destruct (scratch_total k p c n tau N) as [[[s g] L] ->]. cbn [bind]. cbv zeta. destruct (Reqb _ 0); reflexivity.
  - intros [[l e] y] [[[s v] g] L] [[[s' v'] g'] L']. rewrite do_sums_comm, nan_add_comm. f_equal. ring.
Qed.
Lemma fill_zero_perm c px px' sky : Permutation px px' -> same_outcome (@Permutation (pixel R)) (fill_zero_weight_pixels c px sky) (fill_zero_weight_pixels c px' sky).
Proof.
  intros P. unfold fill_zero_weight_pixels.
  set (h := fun p : pixel R => if Rleb (px_ierr p) 0 then mkPix (px_u p) (px_v p) (px_area p) (sky + fastval c (px_v p) (px_u p) (px_area p)) (px_ierr p) else p).
  assert (E : forall l, mapM (fun p : pixel R => if Rleb (px_ierr p) 0 then let* val := gmix_eval_pixel_fast c (px_v p) (px_u p) (px_area p) in
      Ok (mkPix (px_u p) (px_v p) (px_area p) (sky + val) (px_ierr p)) else Ok p) l = Ok (map h l)).
  { induction l as [|p l IH]; [reflexivity|]. cbn [mapM map]. rewrite IH. unfold h at 2. destruct (Rleb (px_ierr p) 0); [|reflexivity]. rewrite fastval_eq. reflexivity. }
  rewrite !E. apply Permutation_map. exact P.
Qed.
Definition relaid_state (s s' : em_state) : Prop :=
  e_gm s' = e_gm s /\ e_conv s' = e_conv s /\ Permutation (e_pix s) (e_pix s') /\ e_sky s' = e_sky s /\ e_last s' = e_last s /\ e_fdiff s' = e_fdiff s.
Lemma em_iter_perm k c psf fill i s s' : relaid_state s s' ->
  same_outcome (fun x x' => relaid_state (fst x) (fst x') /\ snd x' = snd x) (em_iter k c psf fill i s) (em_iter k c psf fill i s').
Proof.
  intros (E1 & E2 & P & E4 & E5 & E6). unfold em_iter. rewrite E1, E2, E4, E5, E6. cbv zeta. eapply same_bind with (P := @Permutation (pixel R)).
  { destruct fill; [apply fill_zero_perm; exact P|exact P]. }
  intros px px' Q. rewrite (foldM_perm _ px px' (em_pixel_comm _ _ _ _ _) Q), <- (Permutation_length Q).
  eapply same_bind with (P := eq); [apply same_refl|]. intros [[l e] y] ? <-. eapply same_bind with (P := eq); [apply same_refl|]. intros [gm conv] ? <-.
  eapply same_bind with (P := eq); [apply same_refl|]. intros sky ? <-. eapply same_bind with (P := eq); [apply same_refl|]. intros [fd stop] ? <-.
  cbn [same_outcome fst snd]. split; [|reflexivity]. unfold relaid_state. cbn. auto 10.
Qed.
Lemma em_loop_perm k c psf fill : forall n i s s', relaid_state s s' -> same_outcome (fun x x' => relaid_state (fst x) (fst x') /\ snd x' = snd x) (em_loop k c psf fill n i s) (em_loop k c psf fill n i s').
Proof.
  induction n as [|n IH]; intros i s s' H; cbn [em_loop]; [split; [exact H|reflexivity]|].
  eapply same_bind; [apply em_iter_perm; exact H|]. intros [t st] [t' st'] [H1 H2]. cbn [fst snd] in *. subst st'. destruct st; [split; [exact H1|reflexivity]|apply IH; exact H1].
Qed.
Definition relaid_out (o o' : em_out) : Prop :=
  o_gm o' = o_gm o /\ o_conv o' = o_conv o /\ Permutation (o_pix o) (o_pix o') /\ o_numiter o' = o_numiter o /\ o_fdiff o' = o_fdiff o /\ o_sky o' = o_sky o.
Lemma em_run_perm k c px px' gm psf conv fill : Permutation px px' -> same_outcome relaid_out (em_run k c px gm psf conv fill) (em_run k c px' gm psf conv fill).
Proof.
  intros P. unfold em_run. destruct (gmix_set_norms conv) as [conv' r]. destruct r as [[]|]; cbn [bind]; [|reflexivity]. cbv zeta.
  eapply same_bind; [apply em_loop_perm; unfold relaid_state; cbn; auto 10|]. intros [s n] [s' n'] [(E1 & E2 & E3 & E4 & E5 & E6) H]. cbn [fst snd] in *. subst n'.
  rewrite E1, E2, E4, E6. destruct n; [reflexivity|]. destruct (e_fdiff s); [|reflexivity]. cbn [same_outcome]. unfold relaid_out. cbn. auto 10.
Qed.
Lemma existsb_perm {A} (f : A -> bool) l l' : Permutation l l' -> existsb f l' = existsb f l.
Proof.
  induction 1 as [|x a b P IH|x y a|a b c P1 I1 P2 I2]; cbn [existsb]; [reflexivity|rewrite IH; reflexivity| |congruence].
  destruct (f x), (f y); reflexivity.
Qed.
Lemma nth_relaid m m' i : relaid_mem m m' -> match nth_error (em_px m) i, nth_error (em_px m') i with Some p, Some p' => Permutation p p' | None, None => True | _, _ => False end.
Proof. intros [_ H]. revert i. induction H as [|x y a b P _ IH]; intros [|i]; cbn; auto. apply IH. Qed.
Lemma set_data_relaid m m' i d : relaid_mem m m' -> relaid_mem (set_data m i d) (set_data m' i d).
Proof. intros [E H]. unfold set_data. rewrite E. destruct (read (em_gm m) i); [|split; assumption]. split; [reflexivity|exact H]. Qed.
Lemma upd_relaid {A} (P : A -> A -> Prop) l l' i x x' : Forall2 P l l' -> P x x' -> Forall2 P (Jacobian_Model.upd l i x) (Jacobian_Model.upd l' i x').
Proof. intros H X. revert i. induction H as [|a b l l' Q H IH]; intros [|i]; cbn; try constructor; auto. Qed.
Lemma new_obj_relaid m m' r : relaid_mem m m' -> same_outcome (fun x x' => relaid_mem (fst x) (fst x') /\ snd x' = snd x) (new_obj m r) (new_obj m' r).
Proof. intros [E H]. unfold new_obj. destruct r; cbn; [|reflexivity]. rewrite E. split; [split; [reflexivity|exact H]|reflexivity]. Qed.
Lemma em_fit_relaid f m m' px gm psf conv sky : relaid_mem m m' -> relaid_run (em_fit f m px gm psf conv sky) (em_fit f m' px gm psf conv sky).
Proof.
  intros R. unfold em_fit. pose proof (nth_relaid m m' px R) as N. rewrite (proj1 R).
  destruct (nth_error (em_px m) px) as [p|], (nth_error (em_px m') px) as [p'|]; try contradiction; [|exact I].
  destruct (read (em_gm m) gm) as [g|]; [|exact I]. destruct (read (em_gm m) psf) as [q|]; [|exact I]. destruct (read (em_gm m) conv) as [gc|]; [|exact I]. cbv zeta.
  rewrite (existsb_perm (fun x => Rleb (px_ierr x) 0) p p' N).
  match goal with |- context [em_run ?a ?b p ?c ?d ?e ?h] => pose proof (em_run_perm a b p p' c d e h N) as S; destruct (em_run a b p c d e h) as [out|ex], (em_run a b p' c d e h) as [out'|ex'] end; cbn in S; try contradiction.
  - destruct S as (S1 & S2 & S3 & S4 & S5 & S6). rewrite S1, S2, S4, S5, S6.
    set (m1 := set_px (set_data (set_data m gm (o_gm out)) conv (o_conv out)) px (o_pix out)). set (m1' := set_px (set_data (set_data m' gm (o_gm out)) conv (o_conv out)) px (o_pix out')).
    assert (R1 : relaid_mem m1 m1').
    { pose proof (set_data_relaid _ _ conv (o_conv out) (set_data_relaid m m' gm (o_gm out) R)) as [A B]. split; [exact A|]. cbn [m1 m1' set_px em_px]. apply upd_relaid; assumption. }
    assert (S : same_outcome (fun x x' => relaid_mem (fst (fst x)) (fst (fst x')) /\ snd (fst x') = snd (fst x) /\ snd x' = snd x)
      (let* (m2, i) := new_obj m1 (new_full (gm_get_full_pars (o_gm out))) in let* (m3, j) := new_obj m2 (new_full (gm_get_full_pars (o_conv out))) in Ok (m3, i, j))
      (let* (m2, i) := new_obj m1' (new_full (gm_get_full_pars (o_gm out))) in let* (m3, j) := new_obj m2 (new_full (gm_get_full_pars (o_conv out))) in Ok (m3, i, j))).
    { eapply same_bind; [apply new_obj_relaid; exact R1|]. intros [m2 i] [m2' i'] [R2 E2]. cbn [fst snd] in *. subst i'.
      eapply same_bind; [apply new_obj_relaid; exact R2|]. intros [m3 j] [m3' j'] [R3 E3]. cbn [fst snd] in *. subst j'. cbn. auto. }
    match type of S with same_outcome _ ?r ?r' => destruct r as [[[m3 i] j]|e], r' as [[[m3' i'] j']|e'] end; cbn in S; try contradiction.
    + destruct S as (R3 & -> & ->). cbn. split; [exact R3|reflexivity].
    + subst e'. cbn. split; [exact R1|reflexivity].
  - subst ex'. destruct ex; cbn; split; try exact R; reflexivity.
Qed.
Lemma get_psf_relaid m m' o o' : relaid_mem m m' -> eo_psf o' = eo_psf o ->
  match get_psf m o, get_psf m' o' with Some r, Some r' => same_outcome (fun x x' => relaid_mem (fst x) (fst x') /\ snd x' = snd x) r r' | None, None => True | _, _ => False end.
Proof.
  intros R EP. unfold get_psf. rewrite EP. destruct (eo_psf o) as [[g|]|]; [|apply new_obj_relaid; exact R|apply new_obj_relaid; exact R]. rewrite (proj1 R).
  destruct (read (em_gm m) g) as [x|]; [|exact I]. pose proof (new_obj_relaid m m' (obj_copy x) R) as S.
  destruct (new_obj m (obj_copy x)) as [[m1 i]|e], (new_obj m' (obj_copy x)) as [[m1' i']|e']; cbn in S; try contradiction; [|exact S].
  destruct S as [R1 ->]. unfold call_obj. rewrite (proj1 R1). destruct (step (em_gm m1) (OCall i (MSetFlux 1))) as [[h r]|]; [|exact I].
  destruct r; cbn; [|reflexivity]. split; [split; [reflexivity|exact (proj2 R1)]|reflexivity].
Qed.
Lemma em_go_relaid f m m' o o' guess sky : relaid_mem m m' -> eo_psf o' = eo_psf o -> eo_px o' = eo_px o ->
  relaid_run (em_go f m o guess (Some sky)) (em_go f m' o' guess (Some sky)).
Proof.
  intros R EP EX. unfold em_go. pose proof (get_psf_relaid m m' o o' R EP) as S. rewrite EX.
  destruct (get_psf m o) as [[[m1 psf]|e]|], (get_psf m' o') as [[[m1' psf']|e']|]; cbn in S; try contradiction; try exact I.
  2:{ subst e'. split; [exact R|reflexivity]. }
  destruct S as [R1 ->]. rewrite (proj1 R1). destruct (read (em_gm m1) guess) as [g|]; [|exact I]. destruct (read (em_gm m1) psf) as [p|]; [|exact I].
  pose proof (new_obj_relaid m1 m1' (obj_copy g) R1) as S. destruct (new_obj m1 (obj_copy g)) as [[m2 gm]|e], (new_obj m1' (obj_copy g)) as [[m2' gm']|e']; cbn in S; try contradiction.
  2:{ subst e'. split; [exact R1|reflexivity]. }
  destruct S as [R2 ->]. rewrite (proj1 R2). destruct (read (em_gm m2) gm) as [g2|]; [|exact I].
  pose proof (new_obj_relaid m2 m2' (obj_convolve g2 p) R2) as S. destruct (new_obj m2 (obj_convolve g2 p)) as [[m3 cv]|e], (new_obj m2' (obj_convolve g2 p)) as [[m3' cv']|e']; cbn in S; try contradiction.
  2:{ subst e'. split; [exact R2|reflexivity]. }
  destruct S as [R3 ->]. pose proof (nth_relaid m3 m3' (eo_px o) R3) as N.
  destruct (nth_error (em_px m3) (eo_px o)) as [px|], (nth_error (em_px m3') (eo_px o)) as [px'|]; try contradiction; [|exact I].
  rewrite <- (Forall2_length _ _ _ (proj2 R3)). apply em_fit_relaid. split; [exact (proj1 R3)|]. cbn [em_px]. apply Forall2_app; [exact (proj2 R3)|]. constructor; [exact N|constructor].
Qed.
