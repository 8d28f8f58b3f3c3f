From Coq Require Import Permutation FunctionalExtensionality.
From Verif Require Import Base XReal Jacobian_Model Jacobian_Spec Pixels_Model Pixels_Spec Pixels_Proofs Shape_Model Moments_Model GMix_Model Render_Model Render_Proofs
  WSums_Model WSums_Proofs GMixObj_Model Flags_Model MomResult_Model GaussMom_Model Admom_Model Units_Spec Units_Proofs Fit_Model EM_Model Layout_Spec.
Local Open Scope R_scope.

(** ** the pixel list *)
Lemma describes_unique image weight j rc p q : describes image weight j rc p -> describes image weight j rc q -> p = q.
Proof.
  destruct rc as [r c], p, q. unfold describes, maps_to. cbn. intros ((-> & ->) & -> & -> & ->) ((-> & ->) & -> & -> & ->). reflexivity.
Qed.
Section Moved.
  Variables (extra : R -> Prop) (image weight image' weight' : arr2 R) (j j' : jac) (s : nat * nat -> nat * nat).
  Hypothesis M : moved extra image weight j image' weight' j' s.
  Lemma describes_moved rc p : inside image rc -> describes image weight j rc p -> describes image' weight' j' (s rc) p.
  Proof.
    intros I. pose proof (mv_place _ _ _ _ _ _ _ _ M rc (px_v p) (px_u p) I) as P. pose proof (mv_val _ _ _ _ _ _ _ _ M rc I) as V.
    pose proof (mv_weight _ _ _ _ _ _ _ _ M rc I) as W. destruct rc as [r c]. destruct (s (r, c)) as [r' c']. cbn [fst snd] in *. unfold describes.
    intros (A & B & C & D). rewrite V, W, (mv_scale _ _ _ _ _ _ _ _ M). auto.
  Qed.
  Lemma lists_permuted (P : nat * nat -> Prop) (P' : nat * nat -> Prop) idx l idx' l' :
    (forall rc, P rc -> inside image rc) -> (forall rc, P rc -> P' (s rc)) -> (forall rc', P' rc' -> exists rc, P rc /\ rc' = s rc) ->
    (forall rc, In rc idx <-> P rc) -> (forall rc, In rc idx' <-> P' rc) -> NoDup idx -> NoDup idx' ->
    Forall2 (describes image weight j) idx l -> Forall2 (describes image' weight' j') idx' l' -> Permutation l l'.
  Proof.
    intros I U1 U2 H H' N N' D D'.
    assert (PM : Permutation (map s idx) idx').
    { apply NoDup_Permutation; [|exact N'|].
      - assert (A : forall x, In x idx -> inside image x) by (intros x X; apply I, H, X). clear - N A M. induction idx as [|x l IH]; [constructor|].
        inversion N; subst. cbn [map]. constructor; [|apply IH; [assumption|intros y Y; apply A; right; exact Y]].
        rewrite in_map_iff. intros (y & E & Y). apply H1. assert (y = x) as <-; [|exact Y].
        apply (mv_inj _ _ _ _ _ _ _ _ M); [apply A; right; exact Y|apply A; left; reflexivity|exact E].
      - intros rc'. rewrite in_map_iff, H'. split.
        + intros (rc & <- & X). apply U1, H, X.
        + intros X. destruct (U2 rc' X) as (rc & Y & ->). exists rc. split; [reflexivity|]. apply H, Y. }
    assert (D2 : Forall2 (describes image' weight' j') (map s idx) l).
    { assert (A : forall x, In x idx -> inside image x) by (intros x X; apply I, H, X). clear - D A M. induction D as [|x y a b E D IH]; [constructor|].
      cbn [map]. constructor; [apply describes_moved; [apply A; left; reflexivity|exact E]|]. apply IH. intros z Z. apply A; right; exact Z. }
    clear - PM D2 D'. revert l D2 l' D'. induction PM as [|x a b PM IH|x y a|a b c P1 I1 P2 I2]; intros l D l' D'.
    - inversion D; inversion D'; constructor.
    - inversion D as [|? p ? l0 E1 F1]; subst. inversion D' as [|? q ? l9 E2 F2]; subst. rewrite (describes_unique _ _ _ _ _ _ E1 E2). constructor. apply IH; assumption.
    - inversion D as [|? p ? l0 E1 F1]; subst. inversion F1 as [|? q ? l1 E2 F2]; subst. inversion D' as [|? p' ? l0' E1' F1']; subst. inversion F1' as [|? q' ? l1' E2' F2']; subst.
      rewrite (describes_unique _ _ _ _ _ _ E1 E2'), (describes_unique _ _ _ _ _ _ E2 E1').
      assert (EL : l1 = l1'); [|rewrite EL; constructor]. clear - F2 F2'. revert l1' F2'. induction F2 as [|z p a' b E F IH]; intros k' D'; inversion D' as [|? q ? k1 E' F']; subst; [reflexivity|].
      f_equal; [eapply describes_unique; eassumption|apply IH; assumption].
    - assert (exists m, Forall2 (describes image' weight' j') b m) as [m Dm].
      { assert (A : forall x, In x b -> exists p, describes image' weight' j' x p).
        { intros x X. apply (Permutation_in _ (Permutation_sym P1)) in X. clear - X D. induction D as [|z p u w E D IH]; [destruct X|]. destruct X as [->|X]; [eauto|apply IH; exact X]. }
        clear - A. induction b as [|x b IH]; [exists []; constructor|]. destruct (A x (or_introl eq_refl)) as [p E]. destruct IH as [m F]; [intros y Y; apply A; right; exact Y|].
        exists (p :: m). constructor; assumption. }
      apply Permutation_trans with m; [apply I1|apply I2]; assumption.
  Qed.
End Moved.

Lemma pixels_moved ignore extra image weight j image' weight' j' s : moved extra image weight j image' weight' j' s ->
  (forall w, extra w -> ignore = true /\ w <= 0) ->
  same_outcome (@Permutation (pixel R)) (make_pixels image weight j ignore) (make_pixels image' weight' j' ignore).
Proof.
  intros M EX. destruct (mv_shape _ _ _ _ _ _ _ _ M) as (S1 & S2 & S3 & S4).
  pose proof (make_pixels_spec image weight j ignore S1 S2) as A. pose proof (make_pixels_spec image' weight' j' ignore S3 S4) as B. cbv zeta in A, B.
  set (P := fun rc : nat * nat => inside image rc /\ (ignore = true -> at2 weight (fst rc) (snd rc) > 0)) in *.
  set (P' := fun rc : nat * nat => inside image' rc /\ (ignore = true -> at2 weight' (fst rc) (snd rc) > 0)) in *.
  assert (I : forall rc, P rc -> inside image rc) by (intros rc [X _]; exact X).
  assert (U1 : forall rc, P rc -> P' (s rc)).
  { intros rc [X Y]. split; [apply (mv_inside _ _ _ _ _ _ _ _ M), X|]. rewrite (mv_weight _ _ _ _ _ _ _ _ M) by exact X. exact Y. }
  assert (U2 : forall rc', P' rc' -> exists rc, P rc /\ rc' = s rc).
  { intros rc' [X Y]. destruct (mv_rest _ _ _ _ _ _ _ _ M rc' X) as [(rc & Z & ->)|Z].
    - exists rc. split; [split; [exact Z|]|reflexivity]. rewrite <- (mv_weight _ _ _ _ _ _ _ _ M) by exact Z. exact Y.
    - apply EX in Z. destruct Z as [Z1 Z2]. apply Y in Z1. lra. }
  destruct A as [(EA & TA & NA)|(idx & l & EA & HA & SA & DA & LA)], B as [(EB & TB & NB)|(idx' & l' & EB & HB & SB & DB & LB)]; rewrite EA, EB; cbn [same_outcome].
  - reflexivity.
  - exfalso. destruct idx' as [|rc' ?]; [apply LB; [exact TA|inversion DB; reflexivity]|].
    destruct (U2 rc') as (rc & X & _); [apply HB; left; reflexivity|]. exact (NA rc X).
  - exfalso. destruct idx as [|rc ?]; [apply LA; [exact TB|inversion DA; reflexivity]|].
    apply (NB (s rc)), U1, HA. left; reflexivity.
  - exact (lists_permuted extra image weight image' weight' j j' s M P P' idx l idx' l' I U1 U2 HA HB (before_nodup _ SA) (before_nodup _ SB) DA DB).
Qed.

(** ** the layouts *)
Ltac mv := unfold inside, maps_to in *; cbn in *.
Lemma transpose_moved image weight j : nrow weight = nrow image -> ncol weight = ncol image ->
  moved nothing image weight j (transpose image) (transpose weight) (transpose_jac j) (fun rc => (snd rc, fst rc)).
Proof.
  intros A B. constructor; mv.
  - auto.
  - tauto.
  - intros [a b] [c d] _ _ E. injection E as -> ->. reflexivity.
  - reflexivity.
  - reflexivity.
  - intros rc v u _ (-> & ->). split; ring.
  - reflexivity.
  - intros [r c] [X Y]. left. exists (c, r). cbn in *. auto.
Qed.
Lemma flip_moved image weight j : nrow weight = nrow image -> ncol weight = ncol image ->
  moved nothing image weight j (flip image) (flip weight) (flip_jac (nrow image) j) (fun rc => ((nrow image - 1 - fst rc)%nat, snd rc)).
Proof.
  intros A B. constructor; mv.
  - auto.
  - intros rc. lia.
  - intros [a b] [c d] H1 H2 E. cbn in *. injection E as E1 ->. f_equal. lia.
  - intros [r c] [X Y]. cbn in *. f_equal. lia.
  - intros [r c] [X Y]. cbn in *. f_equal. lia.
  - intros [r c] v u [X Y] (-> & ->). cbn in *. rewrite !minus_INR by lia. cbn. split; ring.
  - reflexivity.
  - intros [r c] [X Y]. left. exists ((nrow image - 1 - r)%nat, c). cbn in *. split; [lia|]. f_equal. lia.
Qed.
Lemma pad_moved t b l r x w image weight j : nrow weight = nrow image -> ncol weight = ncol image -> w <= 0 ->
  moved no_weight image weight j (pad t b l r x image) (pad t b l r w weight) (pad_jac t l j) (fun rc => ((t + fst rc)%nat, (l + snd rc)%nat)).
Proof.
  intros A B Hw. constructor; unfold inside, maps_to in *; cbn [fst snd at2 pad nrow ncol pad_jac row0 col0 dvdrow dvdcol dudrow dudcol jscale] in *.
  - rewrite A, B. auto.
  - intros rc. lia.
  - intros [a c] [d e] H1 H2 E. cbn [fst snd at2 pad nrow ncol pad_jac row0 col0 dvdrow dvdcol dudrow dudcol jscale] in *. injection E as E1 E2. f_equal; lia.
  - intros [i k] [X Y]. cbn [fst snd at2 pad nrow ncol pad_jac row0 col0 dvdrow dvdcol dudrow dudcol jscale] in *. destruct (Nat.leb_spec t (t + i)), (Nat.ltb_spec (t + i) (t + nrow image)), (Nat.leb_spec l (l + k)), (Nat.ltb_spec (l + k) (l + ncol image)); cbn [andb]; try lia.
    replace (t + i - t)%nat with i by lia. replace (l + k - l)%nat with k by lia. reflexivity.
  - intros [i k] [X Y]. cbn [fst snd at2 pad nrow ncol pad_jac row0 col0 dvdrow dvdcol dudrow dudcol jscale] in *. rewrite A, B. destruct (Nat.leb_spec t (t + i)), (Nat.ltb_spec (t + i) (t + nrow image)), (Nat.leb_spec l (l + k)), (Nat.ltb_spec (l + k) (l + ncol image)); cbn [andb]; try lia.
    replace (t + i - t)%nat with i by lia. replace (l + k - l)%nat with k by lia. reflexivity.
  - intros [i k] v u [X Y] (-> & ->). cbn [fst snd at2 pad nrow ncol pad_jac row0 col0 dvdrow dvdcol dudrow dudcol jscale] in *. rewrite !plus_INR. split; ring.
  - reflexivity.
  - intros [i k] [X Y]. cbn [fst snd at2 pad nrow ncol pad_jac row0 col0 dvdrow dvdcol dudrow dudcol jscale] in *. unfold no_weight. rewrite A, B.
    destruct (Nat.leb_spec t i), (Nat.ltb_spec i (t + nrow image)), (Nat.leb_spec l k), (Nat.ltb_spec k (l + ncol image)); cbn [andb]; auto.
    left. exists ((i - t)%nat, (k - l)%nat). cbn [fst snd]. split; [lia|]. f_equal; lia.
Qed.

(** ** sums do not depend on the order *)
Lemma foldM_perm {A S} (f : S -> A -> res S) l l' : (forall s a b, (let* x := f s a in f x b) = (let* x := f s b in f x a)) ->
  Permutation l l' -> forall s, foldM f l' s = foldM f l s.
Proof.
  intros C. induction 1 as [|x a b P IH|x y a|a b c P1 I1 P2 I2]; intros s; cbn [foldM].
  - reflexivity.
  - destruct (f s x); cbn; [apply IH|reflexivity].
  - pose proof (C s x y) as E. destruct (f s x) as [s1|e1], (f s y) as [s2|e2]; cbn [bind] in *.
    + rewrite E. reflexivity.
    + rewrite E. reflexivity.
    + rewrite <- E. reflexivity.
    + exact E.
  - rewrite I2, I1. reflexivity.
Qed.
(** every element either adds its contribution or raises the one exception *)
Lemma commute {A S T} (f : S -> A -> res S) (val : A -> option T) (add : S -> T -> S) e :
  (forall s a, f s a = match val a with Some t => Ok (add s t) | None => Raise e end) ->
  (forall s x y, add (add s x) y = add (add s y) x) ->
  forall s a b, (let* x := f s a in f x b) = (let* x := f s b in f x a).
Proof.
  intros F C s a b. rewrite (F s a), (F s b). destruct (val a) as [x|] eqn:Ea, (val b) as [y|] eqn:Eb; cbn [bind]; rewrite ?F, ?Ea, ?Eb; try reflexivity.
  rewrite C. reflexivity.
Qed.
Lemma wsums_eq s s' : ws_npix s = ws_npix s' -> ws_wsum s = ws_wsum s' -> (forall k, ws_sums s k = ws_sums s' k) -> (forall k l, ws_cov s k l = ws_cov s' k l) -> s = s'.
Proof.
  destruct s as [a b c d], s' as [a' b' c' d']. cbn. intros -> -> C D. f_equal; [apply functional_extensionality; exact C|].
  apply functional_extensionality; intros k. apply functional_extensionality; intros l. apply D.
Qed.
Lemma accumulate_all N F weight wdata w2 var s :
  accumulate N F weight wdata w2 var s =
  mkWs (S (ws_npix s)) (ws_wsum s + weight) (fun k => if Nat.ltb k N then ws_sums s k + wdata * F k else ws_sums s k)
    (fun k l => if Nat.ltb k N && Nat.ltb l N then ws_cov s k l + w2 * var * F k * F l else ws_cov s k l).
Proof.
  unfold accumulate. destruct (accumulate_loop N F wdata (w2 * var) N 0 (ws_sums s) (ws_cov s) ltac:(lia)) as [A B].
  destruct (fold_left _ (seq 0 N) (ws_sums s, ws_cov s)) as [sums cov]. cbn [fst snd] in A, B. apply wsums_eq; cbn [ws_npix ws_wsum ws_sums ws_cov]; try reflexivity.
  - intros k. rewrite A. reflexivity. - intros k l. rewrite B. reflexivity.
Qed.
Lemma accumulate_comm N F a b c d F' a' b' c' d' s :
  accumulate N F' a' b' c' d' (accumulate N F a b c d s) = accumulate N F a b c d (accumulate N F' a' b' c' d' s).
Proof.
  rewrite !accumulate_all. apply wsums_eq; cbn [ws_npix ws_wsum ws_sums ws_cov]; try reflexivity; [ring| |].
  - intros k. destruct (Nat.ltb k N); ring. - intros k l. destruct (Nat.ltb k N && Nat.ltb l N); ring.
Qed.

(** ** weighted moments *)
Lemma eval_some w v u ar : Forall (fun g => g_nrm g <> None) w -> exists y, gmix_eval_pixel w v u ar = Some y.
Proof.
  intros H. unfold gmix_eval_pixel. generalize 0. induction H as [|g w G _ IH]; intros x; cbn [fold_left]; [eauto|].
  assert (E : exists y, gauss2d_eval_pixel g v u ar = Some y) by (unfold gauss2d_eval_pixel; destruct (g_nrm g); [eauto|congruence]).
  destruct E as [y ->]. cbn [nan_add]. apply IH.
Qed.
Lemma norms_some w w' : gmix_set_norms w = (w', Ok tt) -> Forall (fun g => g_nrm g <> None) w'.
Proof.
  revert w'. induction w as [|g w IH]; intros w'; cbn [gmix_set_norms]; [intros E; injection E as <-; constructor|].
  destruct (gauss2d_set_norm g) as [g'|] eqn:G; [|discriminate]. destruct (gmix_set_norms w) as [r q]. intros E; injection E as <- ->. constructor; [|apply IH; reflexivity].
  unfold gauss2d_set_norm in G. destruct (Rltb _ _); [discriminate|]. cbv zeta in G. destruct (Rleb _ _); [discriminate|]. injection G as <-. discriminate.
Qed.
Lemma wsums_comm higher w vc uc m : Forall (fun g => g_nrm g <> None) w ->
  forall s a b, (let* x := wsums_body higher w vc uc m s a in wsums_body higher w vc uc m x b) = (let* x := wsums_body higher w vc uc m s b in wsums_body higher w vc uc m x a).
Proof.
  intros H.
  set (wt := fun p : pixel R => match gmix_eval_pixel w (px_v p) (px_u p) (px_area p) with Some y => y | None => 0 end).
  apply (commute _ (fun p : pixel R => let vmod := px_v p - vc in let umod := px_u p - uc in
      if Rltb (umod * umod + vmod * vmod) m then if Reqb (px_ierr p * px_ierr p) 0 then None else Some (Some p) else Some None)
    (fun s t => match t with None => s | Some p => let n := if higher then 17%nat else 6%nat in
       let vmod := px_v p - vc in let umod := px_u p - uc in
       accumulate n (if higher then F17 (px_v p) (px_u p) vmod umod else F6 (px_v p) (px_u p) vmod umod) (wt p) (wt p * px_val p) (wt p * wt p) (1 / (px_ierr p * px_ierr p)) s end) ZeroDivisionError).
  - intros s a. unfold wsums_body. cbv zeta. destruct (Rltb _ m); [|reflexivity]. destruct (eval_some w (px_v a) (px_u a) (px_area a) H) as [y Y].
    replace y with (wt a) in Y by (unfold wt; rewrite Y; reflexivity). rewrite Y. destruct (Reqb _ 0); reflexivity.
  - intros s [x|] [y|]; cbv zeta; try reflexivity. apply accumulate_comm.
Qed.
Lemma nb_perm higher w px px' s m : Forall (fun g => g_nrm g <> None) w -> Permutation px px' -> nb_weighted_sums higher w px' s m = nb_weighted_sums higher w px s m.
Proof. intros H P. destruct w as [|g w]; [reflexivity|]. cbn [nb_weighted_sums]. apply foldM_perm; [apply wsums_comm, H|exact P]. Qed.
Lemma sums_perm w px px' mr higher s : (forall g, In g w -> g_norm_set g = true -> g_nrm g <> None) -> (exists b, Forall (fun g => g_norm_set g = b) w) -> Permutation px px' ->
  snd (get_weighted_sums w px' mr higher s) = snd (get_weighted_sums w px mr higher s).
Proof.
  intros H (b & U) P. unfold get_weighted_sums. destruct (set_norms_if_needed w) as [w' r] eqn:E. cbn [snd]. destruct r as [[]|e]; cbn [bind]; [|reflexivity].
  assert (N : Forall (fun g => g_nrm g <> None) w').
  { destruct w as [|g w]; [discriminate|]. cbn [set_norms_if_needed] in E. inversion U as [|? ? G U']; subst. destruct (g_norm_set g) eqn:B; cbn [negb] in E.
    - injection E as <-. apply Forall_forall. intros x X. apply H; [exact X|]. rewrite Forall_forall in U. rewrite (U x X). reflexivity.
    - apply norms_some in E. exact E. }
  destruct mr; [apply nb_perm; assumption|]. destruct (gm_get_sigma w'); [apply nb_perm; assumption|reflexivity].
Qed.
Lemma set_flux_unset w x w' : gm_set_flux w x = Some w' -> Forall (fun g => g_norm_set g = false) w'.
Proof.
  unfold gm_set_flux. destruct (np_div _ _); [|discriminate]. intros E; injection E as <-. clear. induction w; cbn [map]; constructor; [reflexivity|assumption].
Qed.
Lemma mompars_unset fwhm w : set_mompars fwhm = Ok w -> Forall (fun g => g_norm_set g = false) w.
Proof.
  unfold set_mompars. destruct (gmix_fill_gauss _ _); cbn [bind]; [|discriminate]. destruct (gmix_set_norms g) as [v [|]]; cbn [bind]; [|discriminate].
  destruct v; [discriminate|]. destruct (g_nrm g0); [|discriminate]. destruct (gm_set_flux _ _) eqn:E; [|discriminate]. intros X; injection X as <-.
  eapply set_flux_unset; exact E.
Qed.
Lemma gaussmom_perm fwhm higher px px' j j' : Permutation px px' -> jscale j' = jscale j -> gaussmom fwhm higher (GObs px' j') = gaussmom fwhm higher (GObs px j).
Proof.
  intros P J. unfold gaussmom. destruct (set_mompars fwhm) as [w|] eqn:E; cbn [bind]; [|reflexivity]. cbn [measure_moments].
  pose proof (mompars_unset fwhm w E) as U. rewrite (sums_perm w px px' None higher None); [| |exists false; exact U|exact P].
  - unfold get_area. rewrite J. reflexivity.
  - intros g G T. rewrite Forall_forall in U. rewrite (U g G) in T. discriminate.
Qed.

(** ** adaptive moments *)
Lemma censums_comm w : forall s a b, (let* x := censums_body w s a in censums_body w x b) = (let* x := censums_body w s b in censums_body w x a).
Proof.
  intros s a b. unfold censums_body. rewrite !fastval_eq. cbn [bind]. f_equal.
  set (x := fastval w (px_v a) (px_u a) (px_area a)). set (y := fastval w (px_v b) (px_u b) (px_area b)).
  apply wsums_eq; cbn [ws_npix ws_wsum ws_sums ws_cov]; try reflexivity. intros k. unfold fset. do 6 (destruct k as [|k]; [cbn; ring|]). cbn. reflexivity.
Qed.
Lemma momsums_comm w g : g_nrm g <> None ->
  forall s a b, (let* x := momsums_body w g s a in momsums_body w g x b) = (let* x := momsums_body w g s b in momsums_body w g x a).
Proof.
  intros H. destruct (g_nrm g) as [n|] eqn:N; [|congruence].
  apply (commute _ (fun p : pixel R => if Reqb (px_ierr p * px_ierr p) 0 then None else Some p)
    (fun s p => let wt := fastval w (px_v p) (px_u p) (px_area p) in let vmod := px_v p - g_row g in let umod := px_u p - g_col g in
       accumulate 7 (F7 (px_v p) (px_u p) vmod umod (n_dcc n * vmod * vmod + n_drr n * umod * umod - 2 * n_drc n * vmod * umod))
         wt (wt * px_val p) (wt * wt) (1 / (px_ierr p * px_ierr p)) s) ZeroDivisionError).
  - intros s a. unfold momsums_body. rewrite fastval_eq, N. cbn [bind]. destruct (Reqb _ 0); reflexivity.
  - intros s x y. apply accumulate_comm.
Qed.
Lemma iter_perm c r0 c0 px px' s : Permutation px px' -> am_iter c r0 c0 px' s = am_iter c r0 c0 px s.
Proof.
  intros P. unfold am_iter. destruct (as_wt s) as [|g0 w0] eqn:W; [reflexivity|]. destruct (Rltb (g_det g0) _); [reflexivity|].
  destruct (gmix_set_norms (g0 :: w0)) as [[|g1 rest] [[]|e]] eqn:N; try reflexivity. apply norms_some in N. inversion N as [|? ? N1 _]; subst.
  rewrite (foldM_perm _ px px' (censums_comm (g1 :: rest)) P). destruct (foldM (censums_body _) px wsums_zero) as [ws|]; [|reflexivity]. cbv zeta.
  destruct (Rleb _ 0); [reflexivity|]. destruct (_ || _); [reflexivity|].
  match goal with |- context [foldM (momsums_body ?w ?g) px' _] => rewrite (foldM_perm _ px px' (momsums_comm w g N1) P) end. reflexivity.
Qed.
Lemma loop_perm c r0 c0 px px' : Permutation px px' -> forall n i s, am_loop c r0 c0 px' n i s = am_loop c r0 c0 px n i s.
Proof.
  intros P. induction n as [|n IH]; intros i s; [reflexivity|]. cbn [am_loop]. rewrite (iter_perm c r0 c0 px px' s P).
  destruct (am_iter c r0 c0 px s) as [s' [[|]|]]; try reflexivity. apply IH.
Qed.
Lemma run_perm c px px' j j' w : Permutation px px' -> jscale j' = jscale j -> am_run c (mkAo px' j') w = am_run c (mkAo px j) w.
Proof.
  intros P J. unfold am_run, admom. cbn [ao_pix ao_jac]. unfold get_area. rewrite J. destruct w as [|g w]; [reflexivity|]. rewrite (loop_perm _ _ _ px px' P). reflexivity.
Qed.
Lemma go_perm c h px px' j j' g : Permutation px px' -> jscale j' = jscale j -> am_go c h (mkAo px' j') g = am_go c h (mkAo px j) g.
Proof.
  intros P J. unfold am_go. destruct g.
  - destruct (read h i); [|reflexivity]. rewrite (run_perm c px px' j j' _ P J). reflexivity.
  - f_equal. f_equal. unfold generate_guess, get_scale. cbn [ao_jac]. rewrite J. destruct (new_model _ _); cbn [bind]; [|reflexivity].
    rewrite (run_perm c px px' j j' _ P J). reflexivity.
Qed.
Lemma cen_loop_perm c px px' j j' many k : Permutation px px' -> jscale j' = jscale j -> forall n d h last, cen_loop c (mkAo px' j') many k n d h last = cen_loop c (mkAo px j) many k n d h last.
Proof.
  intros P J. induction n as [|n IH]; intros d h last; [reflexivity|]. cbn [cen_loop]. rewrite (go_perm c h px px' j j' _ P J).
  destruct (am_go c h (mkAo px j) (GObj k)) as [[h' [x|]]|]; try reflexivity. destruct (Z.eqb _ 0); [reflexivity|]. destruct many; [|apply IH].
  destruct d as [|[u1 u2] d]; [reflexivity|]. unfold get_scale. cbn [ao_jac]. rewrite J. destruct (step h' _) as [[h2 [|]]|]; try reflexivity. apply IH.
Qed.
Lemma find_cen_perm c h px px' j j' w n rng : Permutation px px' -> jscale j' = jscale j -> find_cen_admom c h (mkAo px' j') w n rng = find_cen_admom c h (mkAo px j) w n rng.
Proof.
  intros P J. unfold find_cen_admom. cbv zeta. destruct (_ && _); [reflexivity|]. 
  repeat match goal with |- context [match ?x with _ => _ end] => first [rewrite (cen_loop_perm _ px px' j j' _ _ P J); reflexivity | destruct x; try reflexivity] end.
Qed.

(** ** likelihood and signal to noise *)
Lemma like_comm w : forall s a b, (let* x := loglike_body w s a in loglike_body w x b) = (let* x := loglike_body w s b in loglike_body w x a).
Proof.
  intros [[[x y] z] n] a b. unfold loglike_body. rewrite !fastval_eq. cbn [bind]. apply f_equal. apply (f_equal2 pair); [apply (f_equal2 pair); [apply (f_equal2 pair)|]|]; try ring; reflexivity.
Qed.
Lemma loglike_perm w px px' : Permutation px px' -> get_loglike w px' = get_loglike w px.
Proof. intros P. unfold get_loglike. destruct (set_norms_if_needed w) as [v r]. rewrite (foldM_perm _ px px' (like_comm v) P). reflexivity. Qed.
Lemma s2n_perm w px px' : Permutation px px' -> get_model_s2n w px' = get_model_s2n w px.
Proof.
  intros P. unfold get_model_s2n, get_model_s2n_sum. destruct (set_norms_if_needed w) as [v r]. erewrite (foldM_perm _ px px'); [reflexivity| |exact P].
  intros s a b. rewrite !fastval_eq. cbn [bind]. f_equal. ring.
Qed.
