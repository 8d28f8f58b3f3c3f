(** Caches do not change results. *)
From Verif Require Import Base XReal Moments_Model Jacobian_Model Pixels_Model MomResult_Model PrePSF_Model PrePSF_Spec PrePSF_Proofs PrePSF2_Proofs PrePSF3_Proofs PrePSFCache_Model PrePSFCache_Spec.
From Coq Require Import FunctionalExtensionality.
Local Open Scope R_scope.

(** ** Heap *)
Lemma write_app1 h t l y : (l < length h)%nat -> write (h ++ t) l y = write h l y ++ t.
Proof. revert l. induction h as [|x h IH]; intros [|l] H; cbn in *; try lia; [reflexivity|]. rewrite IH by lia. reflexivity. Qed.
Lemma write_last h x y : write (h ++ [x]) (length h) y = h ++ [y].
Proof. induction h as [|z h IH]; cbn; [reflexivity|]. rewrite IH. reflexivity. Qed.
Lemma write_length h l x : length (write h l x) = length h.
Proof. revert l. induction h as [|z h IH]; intros [|l]; cbn; auto. Qed.
Lemma write_other h l l' x : l <> l' -> nth_error (write h l x) l' = nth_error h l'.
Proof. revert l l'. induction h as [|z h IH]; intros [|l] [|l'] H; cbn; try reflexivity; try congruence. apply IH. congruence. Qed.
Lemma nth_last {A} (h : list A) x : nth_error (h ++ [x]) (length h) = Some x.
Proof. rewrite nth_error_app2 by lia. rewrite Nat.sub_diag. reflexivity. Qed.
Lemma nth_app {A} (h t : list A) l x : nth_error h l = Some x -> nth_error (h ++ t) l = Some x.
Proof. intros H. rewrite nth_error_app1; [exact H|]. apply nth_error_Some. congruence. Qed.
Lemma nth_lt {A} (h : list A) l x : nth_error h l = Some x -> (l < length h)%nat.
Proof. intros H. apply nth_error_Some. congruence. Qed.

(** ** lru *)
Lemma lru_find_spec {K V} (eqb : K -> K -> bool) k (c : list (K * V)) v c' : lru_find eqb k c = Some (v, c') ->
  exists k', eqb k k' = true /\ In (k', v) c /\ forall x, In x c' -> In x c.
Proof.
  revert v c'. induction c as [|[k1 v1] c IH]; intros v c' H; cbn in H; [discriminate|]. destruct (eqb k k1) eqn:E.
  - injection H as <- <-. exists k1. split; [exact E|]. split; [left; reflexivity|]. intros x Hx. right. exact Hx.
  - destruct (lru_find eqb k c) as [[v2 c2]|] eqn:F; [|discriminate]. injection H as <- <-. destruct (IH v2 c2 eq_refl) as (k' & A & B & C).
    exists k'. split; [exact A|]. split; [right; exact B|]. intros x [<-|Hx]; [left; reflexivity|right; apply C; exact Hx].
Qed.
Lemma lru_get_spec {K V} (eqb : K -> K -> bool) k (c : list (K * V)) v c' : lru_get eqb k c = Some (v, c') ->
  exists k', eqb k k' = true /\ In (k', v) c /\ forall x, In x c' -> x = (k, v) \/ In x c.
Proof.
  unfold lru_get. destruct (lru_find eqb k c) as [[v2 c2]|] eqn:F; [|discriminate]. intros [= <- <-].
  destruct (lru_find_spec eqb k c v2 c2 F) as (k' & A & B & C). exists k'. split; [exact A|]. split; [exact B|]. intros x [<-|Hx]; auto.
Qed.
Lemma firstn_In {A} n (l : list A) x : In x (firstn n l) -> In x l.
Proof. revert l. induction n as [|n IH]; intros [|y l]; cbn; try tauto. intros [<-|H]; auto. Qed.
Lemma lru_put_in {K V} k v (c : list (K * V)) x : In x (lru_put k v c) -> x = (k, v) \/ In x c.
Proof. intros H. apply firstn_In in H. destruct H as [<-|H]; auto. Qed.

(** ** Keys *)
Lemma Reqb_eq a b : Reqb a b = true -> a = b. Proof. apply Reqb_true. Qed.
Lemma im_eqb_spec a b : im_eqb a b = true -> nrow a = nrow b /\ ncol a = ncol b /\ forall r c, (r < nrow a)%nat -> (c < ncol a)%nat -> at2 a r c = at2 b r c.
Proof.
  unfold im_eqb. rewrite !andb_true_iff, !Nat.eqb_eq, forallb_forall. intros (A & B & C). split; [exact A|]. split; [exact B|]. intros r c Hr Hc.
  specialize (C r). rewrite in_seq, forallb_forall in C. specialize (C ltac:(lia) c). rewrite in_seq in C. apply Reqb_eq. apply C. lia.
Qed.
Lemma np_pad_ext a b x y : nrow a = nrow b -> ncol a = ncol b -> (forall r c, (r < nrow a)%nat -> (c < ncol a)%nat -> at2 a r c = at2 b r c) -> np_pad a x y = np_pad b x y.
Proof.
  intros H1 H2 H3. unfold np_pad. destruct ((x <? 0)%Z || (y <? 0)%Z); [reflexivity|]. rewrite <- H1, <- H2. do 2 f_equal.
  extensionality r. extensionality c. destruct (Nat.leb (Z.to_nat x) r && Nat.ltb r (Z.to_nat x + nrow a) && Nat.leb (Z.to_nat x) c && Nat.ltb c (Z.to_nat x + ncol a)) eqn:E; [|reflexivity].
  rewrite !andb_true_iff, !Nat.leb_le, !Nat.ltb_lt in E. apply H3; lia.
Qed.
Lemma pad_fft_ext a b cr cc t ap : im_eqb a b = true -> pad_fft a cr cc t ap = pad_fft b cr cc t ap.
Proof.
  intros H. apply im_eqb_spec in H. destruct H as (H1 & H2 & H3). unfold pad_fft, zero_pad.
  assert (S1 : nrow (apodize a ap) = nrow (apodize b ap)) by (destruct (apodize_shape a ap) as [-> _]; destruct (apodize_shape b ap) as [-> _]; exact H1).
  assert (S2 : ncol (apodize a ap) = ncol (apodize b ap)) by (destruct (apodize_shape a ap) as [_ ->]; destruct (apodize_shape b ap) as [_ ->]; exact H2).
  rewrite S1. rewrite (np_pad_ext (apodize a ap) (apodize b ap) _ _ S1 S2); [reflexivity|].
  intros r c Hr Hc. destruct (apodize_shape a ap) as [Q1 Q2]. rewrite Q1 in Hr. rewrite Q2 in Hc. unfold apodize. destruct (Rltb 0 ap); [|apply H3; assumption].
  cbn [at2]. unfold ones_like. rewrite <- H1, <- H2. rewrite (H3 r c Hr Hc). reflexivity.
Qed.
Lemma fkey_spec im cr cc t ap k' : fkey_eqb (im, cr, cc, t, ap) k' = true -> exists im', k' = (im', cr, cc, t, ap) /\ im_eqb im im' = true.
Proof.
  destruct k' as [[[[im' cr'] cc'] t'] ap']. cbn. rewrite !andb_true_iff. intros (A & B & C & D & E).
  apply Reqb_eq in B, C, E. apply Z.eqb_eq in D. subst. exists im'. auto.
Qed.
Lemma kkey_spec x y : kkey_eqb x y = true -> x = y.
Proof.
  destruct x as [[[d s] [w1 w2 w3 w4]] f]. destruct y as [[[d' s'] [v1 v2 v3 v4]] f']. cbn. unfold w2_eqb. cbn. rewrite !andb_true_iff. intros (A & B & (C1 & C2 & C3 & C4) & D).
  apply Nat.eqb_eq in A. apply Reqb_eq in B, C1, C2, C3, C4, D. congruence.
Qed.
Lemma pad_fft_rows im cr cc t ap k r c : pad_fft im cr cc t ap = Ok (k, r, c) -> nrow k = Z.to_nat t.
Proof.
  intros H. destruct (Z_lt_le_dec t (Z.of_nat (nrow im))) as [L|L]; [rewrite pad_fft_small in H by exact L; discriminate|].
  rewrite <- (Z2Nat.id t) in H by lia. apply pad_fft_shape in H; [apply H|]. lia.
Qed.

(** ** The invariant *)
Definition own (s : st) (l : loc) (x : obj) : Prop := nth_error (s_heap s) l = Some x /\ ~ In l (s_given s).
Definition holds (s : st) (d : kdict) (K : kernels) : Prop :=
  kd_msk d = k_msk K /\ kd_nrm d = k_nrm K /\ kd_00 d = k_00 K /\ own s (kd_f d) (OReal (k_f K)) /\ own s (kd_r d) (OReal (k_r K)) /\ own s (kd_p d) (OReal (k_p K)) /\ own s (kd_c d) (OReal (k_c K)).
Record inv (s : st) : Prop := {
  i_given : forall l, In l (s_given s) -> (l < length (s_heap s))%nat;
  i_fft : forall im cr cc t ap l r c, In ((im, cr, cc, t, ap), (l, r, c)) (s_fft s) -> exists k, pad_fft im cr cc t ap = Ok (k, r, c) /\ own s l (OGrid k);
  i_pix : forall d l, In (d, l) (s_pix s) -> own s l (OGrid (pixel_fft d));
  i_ks : forall d fw j sm v, In ((d, fw, j, sm), v) (s_ks s) -> exists K, ksigma_kernels d fw j sm = Ok K /\ holds s v K;
  i_ga : forall d fw j sm v, In ((d, fw, j, sm), v) (s_ga s) -> exists K, gauss_kernels d fw j sm = Ok K /\ holds s v K }.
Definition grows (s s' : st) : Prop := forall l x, own s l x -> own s' l x.
Lemma grows_refl s : grows s s. Proof. intros l x H. exact H. Qed.
Lemma grows_trans a b c : grows a b -> grows b c -> grows a c. Proof. intros H1 H2 l x H. apply H2, H1, H. Qed.
Lemma holds_grows s s' d K : grows s s' -> holds s d K -> holds s' d K.
Proof. intros G (A & B & C & D & E & F & H). repeat split; try assumption; first [apply (G _ _ D)|apply (G _ _ E)|apply (G _ _ F)|apply (G _ _ H)]. Qed.
Lemma inv_grows s s' : inv s -> grows s s' -> (forall l, In l (s_given s') -> (l < length (s_heap s'))%nat) ->
  s_fft s' = s_fft s -> s_pix s' = s_pix s -> s_ks s' = s_ks s -> s_ga s' = s_ga s -> inv s'.
Proof.
  intros [A B C D E] G Gv F1 F2 F3 F4. constructor; rewrite ?F1, ?F2, ?F3, ?F4.
  - exact Gv.
  - intros im cr cc t ap l r c H. destruct (B _ _ _ _ _ _ _ _ H) as (k & P & O). exists k. split; [exact P|apply G; exact O].
  - intros d l H. apply G. apply C. exact H.
  - intros d fw j sm v H. destruct (D _ _ _ _ _ H) as (K & P & O). exists K. split; [exact P|apply (holds_grows s); assumption].
  - intros d fw j sm v H. destruct (E _ _ _ _ _ H) as (K & P & O). exists K. split; [exact P|apply (holds_grows s); assumption].
Qed.
Lemma heap_grows s t : grows s (set_heap s (s_heap s ++ t)).
Proof. intros l x [H N]. split; [apply nth_app; exact H|exact N]. Qed.
Lemma inv_heap s t : inv s -> inv (set_heap s (s_heap s ++ t)).
Proof.
  intros H. apply (inv_grows s); try reflexivity; [exact H|apply heap_grows|]. intros l Hl. cbn. rewrite app_length. pose proof (i_given s H l Hl). lia.
Qed.
Lemma own_new s x t : inv s -> own (set_heap s ((s_heap s ++ [x]) ++ t)) (length (s_heap s)) x.
Proof. intros H. split; cbn; [apply nth_app, nth_last|]. intros G. apply (i_given s H) in G. lia. Qed.

(** ** Transforms *)
Definition fft_post (s s' : st) (r : res (loc * R * R)) (p : res (arr2 cplx * R * R)) : Prop :=
  inv s' /\ grows s s' /\ match p, r with
  | Ok (k, r, c), Ok (l, r', c') => r = r' /\ c = c' /\ own s' l (OGrid k)
  | Raise e, Raise e' => e = e'
  | _, _ => False end.
Lemma run_fft_spec s im cr cc t ap r s' : inv s -> run_fft s im cr cc t ap = (r, s') -> fft_post s s' r (pad_fft im cr cc t ap) /\ s_fft s' = s_fft s.
Proof.
  intros I. unfold run_fft. destruct (pad_fft im cr cc t ap) as [[[k pr] pc]|e]; cbn; intros [= <- <-].
  - split; [|reflexivity]. split; [apply inv_heap; exact I|]. split; [apply heap_grows|]. split; [reflexivity|]. split; [reflexivity|].
    pose proof (own_new s (OGrid k) [] I) as O. rewrite app_nil_r in O. exact O.
  - split; [|reflexivity]. split; [exact I|]. split; [apply grows_refl|reflexivity].
Qed.
Lemma maybe_fft_spec s im cr cc t ap : inv s -> (0 < nrow im)%nat ->
  exists r s', maybe_fft s im cr cc t ap = Some (r, s') /\ fft_post s s' r (pad_fft im cr cc t ap).
Proof.
  intros I Hn. unfold maybe_fft. destruct (s_use_fft s).
  - destruct (Nat.eqb_spec (nrow im) 0) as [E|_]; [lia|]. destruct (lru_get fkey_eqb (im, cr, cc, t, ap) (s_fft s)) as [[[[l r] c] c']|] eqn:G.
    + destruct (lru_get_spec _ _ _ _ _ G) as (k' & E & Hin & Hc). apply fkey_spec in E. destruct E as (im' & -> & E).
      destruct (i_fft s I _ _ _ _ _ _ _ _ Hin) as (k & P & O). rewrite <- (pad_fft_ext im im') in P by exact E.
      do 2 eexists. split; [reflexivity|]. rewrite P. split; [|split; [intros x y H; exact H|split; [reflexivity|split; [reflexivity|exact O]]]].
      destruct I as [A B C D F]. constructor; cbn; try assumption. intros im0 cr0 cc0 t0 ap0 l0 r0 c0 H. apply Hc in H. destruct H as [H|H]; [|apply (B _ _ _ _ _ _ _ _ H)].
      injection H as -> -> -> -> -> -> -> ->. exists k. split; [exact P|exact O].
    + destruct (run_fft s im cr cc t ap) as [r s1] eqn:R. destruct (run_fft_spec s im cr cc t ap r s1 I R) as ((I1 & G1 & P1) & F1).
      destruct r as [[[l pr] pc]|e]; do 2 eexists; (split; [reflexivity|]); [|split; [exact I1|split; [exact G1|exact P1]]].
      destruct (pad_fft im cr cc t ap) as [[[k qr] qc]|e] eqn:P; [|contradiction]. destruct P1 as (-> & -> & O).
      split; [|split; [exact G1|split; [reflexivity|split; [reflexivity|exact O]]]].
      destruct I1 as [A B C D F]. constructor; cbn; try assumption. intros im0 cr0 cc0 t0 ap0 l0 r0 c0 H. apply lru_put_in in H. destruct H as [H|H]; [|apply (B _ _ _ _ _ _ _ _ H)].
      injection H as -> -> -> -> -> -> -> ->. exists k. split; [exact P|exact O].
  - destruct (run_fft s im cr cc t ap) as [r s1] eqn:R. exists r, s1. split; [reflexivity|]. apply (run_fft_spec s im cr cc t ap r s1 I R).
Qed.
Lemma pixel_spec s d : inv s -> let '(l, s') := pixel s d in inv s' /\ grows s s' /\ own s' l (OGrid (pixel_fft d)).
Proof.
  intros I. unfold pixel. destruct (lru_get Nat.eqb d (s_pix s)) as [[l c]|] eqn:G.
  - destruct (lru_get_spec _ _ _ _ _ G) as (k' & E & Hin & Hc). apply Nat.eqb_eq in E. subst k'. pose proof (i_pix s I _ _ Hin) as O.
    split; [|split; [intros x y H; exact H|exact O]]. destruct I as [A B C D F]. constructor; cbn; try assumption. intros d0 l0 H. apply Hc in H. destruct H as [[= -> ->]|H]; [exact O|apply C; exact H].
  - cbn [alloc]. pose proof (inv_heap s [OGrid (pixel_fft d)] I) as I1. pose proof (own_new s (OGrid (pixel_fft d)) [] I) as O. rewrite app_nil_r in O.
    split; [|split; [apply heap_grows|exact O]]. destruct I1 as [A B C D F]. constructor; cbn; try assumption.
    intros d0 l0 H. apply lru_put_in in H. destruct H as [[= -> ->]|H]; [exact O|apply C; exact H].
Qed.

(** ** Kernels *)
Definition kern_post (s s' : st) (r : res kdict) (p : res kernels) : Prop :=
  inv s' /\ grows s s' /\ match p, r with Ok K, Ok d => holds s' d K | Raise e, Raise e' => e = e' | _, _ => False end.
Lemma new_kernels_spec s p : inv s -> let '(r, s') := new_kernels s p in kern_post s s' r p /\ s_ks s' = s_ks s /\ s_ga s' = s_ga s.
Proof.
  intros I. destruct p as [K|e]; cbn; [|split; [|split; reflexivity]; split; [exact I|split; [apply grows_refl|reflexivity]]].
  set (h := s_heap s). split; [|split; reflexivity]. 
  assert (E : (((h ++ [OReal (k_f K)]) ++ [OReal (k_r K)]) ++ [OReal (k_p K)]) ++ [OReal (k_c K)] = h ++ [OReal (k_f K); OReal (k_r K); OReal (k_p K); OReal (k_c K)]) by (rewrite <- !app_assoc; reflexivity).
  split; [rewrite E; apply inv_heap; exact I|]. split; [rewrite E; apply heap_grows|].
  assert (N : forall l, In l (s_given s) -> (l < length h)%nat) by (intros l; apply (i_given s I)).
  unfold holds, own. cbn. repeat split; try (intros X; apply N in X; rewrite ?app_length in X; cbn in X; lia).
  - apply nth_app, nth_app, nth_app, nth_last.
  - apply nth_app, nth_app, nth_last.
  - apply nth_app, nth_last.
  - apply nth_last.
Qed.
Lemma get_kernels_spec s f d j : inv s -> let '(r, s') := get_kernels s f d j in kern_post s s' r (make_kernels f d j).
Proof.
  intros I. unfold get_kernels, make_kernels. cbv zeta. destruct (s_use_kern s).
  - destruct (ft_kind f).
    + destruct (lru_get kkey_eqb (d, ft_fwhm f, j, ft_smooth f) (s_ks s)) as [[v c]|] eqn:G.
      * destruct (lru_get_spec _ _ _ _ _ G) as (k' & E & Hin & Hc). apply kkey_spec in E. subst k'. destruct (i_ks s I _ _ _ _ _ Hin) as (K & P & O). rewrite P.
        split; [|split; [intros x y H; exact H|exact O]]. destruct I as [A B C D F]. constructor; cbn; try assumption.
        intros d0 fw0 j0 sm0 v0 H. apply Hc in H. destruct H as [[= -> -> -> -> ->]|H]; [exists K; split; [exact P|exact O]|apply (D _ _ _ _ _ H)].
      * pose proof (new_kernels_spec s (ksigma_kernels d (ft_fwhm f) j (ft_smooth f)) I) as Q. destruct (new_kernels s _) as [[v|e] s1]; destruct Q as ((I1 & G1 & P1) & _ & _); [|split; [exact I1|split; [exact G1|exact P1]]].
        destruct (ksigma_kernels d (ft_fwhm f) j (ft_smooth f)) as [K|e] eqn:P; [|contradiction]. split; [|split; [exact G1|exact P1]].
        destruct I1 as [A B C D F]. constructor; cbn; try assumption. intros d0 fw0 j0 sm0 v0 H. apply lru_put_in in H. destruct H as [[= -> -> -> -> ->]|H]; [exists K; split; [exact P|exact P1]|apply (D _ _ _ _ _ H)].
    + destruct (lru_get kkey_eqb (d, ft_fwhm f, j, ft_smooth f) (s_ga s)) as [[v c]|] eqn:G.
      * destruct (lru_get_spec _ _ _ _ _ G) as (k' & E & Hin & Hc). apply kkey_spec in E. subst k'. destruct (i_ga s I _ _ _ _ _ Hin) as (K & P & O). rewrite P.
        split; [|split; [intros x y H; exact H|exact O]]. destruct I as [A B C D F]. constructor; cbn; try assumption.
        intros d0 fw0 j0 sm0 v0 H. apply Hc in H. destruct H as [[= -> -> -> -> ->]|H]; [exists K; split; [exact P|exact O]|apply (F _ _ _ _ _ H)].
      * pose proof (new_kernels_spec s (gauss_kernels d (ft_fwhm f) j (ft_smooth f)) I) as Q. destruct (new_kernels s _) as [[v|e] s1]; destruct Q as ((I1 & G1 & P1) & _ & _); [|split; [exact I1|split; [exact G1|exact P1]]].
        destruct (gauss_kernels d (ft_fwhm f) j (ft_smooth f)) as [K|e] eqn:P; [|contradiction]. split; [|split; [exact G1|exact P1]].
        destruct I1 as [A B C D F]. constructor; cbn; try assumption. intros d0 fw0 j0 sm0 v0 H. apply lru_put_in in H. destruct H as [[= -> -> -> -> ->]|H]; [exists K; split; [exact P|exact P1]|apply (F _ _ _ _ _ H)].
  - pose proof (new_kernels_spec s (match ft_kind f with KSigma => ksigma_kernels d (ft_fwhm f) j (ft_smooth f) | PGauss => gauss_kernels d (ft_fwhm f) j (ft_smooth f) end) I) as Q.
    unfold make_kernels. destruct (new_kernels s _) as [r s1]. apply Q.
Qed.

(** ** Measuring in place *)
Lemma vec_prev h a b : vec_at ((h ++ [OVec a]) ++ [b]) (length h) = Some a.
Proof. unfold vec_at. rewrite (nth_app _ [b] _ _ (nth_last h (OVec a))). reflexivity. Qed.
Lemma vec_last h b : vec_at (h ++ [OVec b]) (length h) = Some b.
Proof. unfold vec_at. rewrite nth_last. reflexivity. Qed.
Lemma kernels_at_holds s d K : holds s d K -> kernels_at (s_heap s) d = Some K.
Proof. intros (A & B & C & (D & _) & (E & _) & (F & _) & (G & _)). unfold kernels_at, real_at. rewrite D, E, F, G, A, B, C. destruct K. reflexivity. Qed.
Lemma real_app h t l x : real_at h l = Some x -> real_at (h ++ t) l = Some x.
Proof. unfold real_at. destruct (nth_error h l) eqn:E; [|discriminate]. rewrite (nth_app h t l _ E). auto. Qed.
Lemma kernels_at_app h t d K : kernels_at h d = Some K -> kernels_at (h ++ t) d = Some K.
Proof.
  unfold kernels_at. destruct (real_at h (kd_f d)) eqn:A; [|discriminate]. destruct (real_at h (kd_r d)) eqn:B; [|discriminate]. destruct (real_at h (kd_p d)) eqn:C; [|discriminate]. destruct (real_at h (kd_c d)) eqn:D; [|discriminate].
  rewrite (real_app _ _ _ _ A), (real_app _ _ _ _ B), (real_app _ _ _ _ C), (real_app _ _ _ _ D). auto.
Qed.
Lemma measure_spec h kim kpsf tv eff d dr dc gk gp K : grid_at h kim = Some gk -> grid_at h kpsf = Some gp -> kernels_at h d = Some K ->
  exists t, measure_h h kim kpsf tv eff d dr dc = (measure_fft gk gp tv eff K dr dc, h ++ t).
Proof.
  intros H1 H2 H3. unfold measure_h, measure_fft. rewrite H1, H2. cbv zeta.
  assert (M : kd_msk d = k_msk K). { unfold kernels_at in H3. repeat (destruct (real_at h _); [|discriminate]). injection H3 as <-. reflexivity. } rewrite M.
  destruct (select (nrow gk) (k_msk K) gk) as [kl|e]; [|exists []; rewrite app_nil_r; reflexivity].
  destruct (select (nrow gk) (k_msk K) gp) as [pl|e]; [|exists []; rewrite app_nil_r; reflexivity].
  cbn [alloc]. set (h1 := h ++ [OVec kl]). unfold deconvolve_inplace. unfold h1 at 1. rewrite vec_prev. fold h1. rewrite vec_last. rewrite write_last.
  unfold h1 at 1. rewrite vec_prev. fold h1. rewrite vec_last. unfold deconvolve. cbv zeta. set (pl' := map _ pl).
  destruct (cdivs kl pl') as [kl'|]; [|exists [OVec kl; OVec pl]; unfold h1; rewrite <- app_assoc; reflexivity].
  unfold h1. rewrite write_app1 by (rewrite app_length; cbn; lia). rewrite write_last.
  assert (LE : length (h ++ [OVec kl]) = length (h ++ [OVec kl'])) by (rewrite !app_length; reflexivity). rewrite LE.
  destruct (Reqb dr 0 && Reqb dc 0).
  - rewrite vec_prev, vec_last, (kernels_at_app _ _ _ _ (kernels_at_app _ _ _ _ H3)).
    exists [OVec kl'; OVec pl']. rewrite <- app_assoc. destruct (measure_numba _ _ _ _ _ _); reflexivity.
  - unfold phase_inplace. rewrite vec_prev. rewrite write_app1 by (rewrite app_length; cbn; lia). rewrite write_last. set (kl2 := map _ (combine kl' (k_msk K))).
    assert (L2 : length (h ++ [OVec kl']) = length (h ++ [OVec kl2])) by (rewrite !app_length; reflexivity). rewrite L2.
    rewrite vec_prev, vec_last, (kernels_at_app _ _ _ _ (kernels_at_app _ _ _ _ H3)).
    exists [OVec kl2; OVec pl']. rewrite <- app_assoc. destruct (measure_numba _ _ _ _ _ _); reflexivity.
Qed.

(** ** The fitter *)
Definition alone_meas (f : fitter) (o : ppobs) psf (rk : bool) : option (res answer) :=
  match meas f o psf with
  | None => None
  | Some (Raise e) => Some (Raise e)
  | Some (Ok r) =>
      if rk then
        let t := Z.to_nat (target_of f o psf) in
        match make_kernels f t (wcs_of (pp_jac o)) with
        | Ok K => Some (Ok (r, Some (full_kernels t K, k_nrm K)))
        | Raise e => Some (Raise e)
        end
      else Some (Ok (r, None))
  end.
Lemma grid_own s l k : own s l (OGrid k) -> grid_at (s_heap s) l = Some k.
Proof. intros [H _]. unfold grid_at. rewrite H. reflexivity. Qed.
Lemma inv_give s gs : inv s -> inv (give s gs).
Proof.
  intros I. apply (inv_grows s); try reflexivity; [exact I| |].
  - intros l x [H N]. split; cbn; [apply nth_app; exact H|]. rewrite in_app_iff, in_seq. apply nth_lt in H. intros [X|X]; [contradiction|lia].
  - intros l. cbn. rewrite in_app_iff, in_seq, app_length, map_length. intros [X|X]; [apply (i_given s I) in X|]; lia.
Qed.
Lemma meas_spec s f o psf rk : inv s -> (0 < nrow (pp_im o))%nat -> match psf with Some q => (0 < nrow (fst q))%nat | None => True end ->
  let '(r, s') := meas_h s f o psf rk in inv s' /\ r = alone_meas f o psf rk.
Proof.
  intros I Hn Hp. unfold meas_h, alone_meas, meas. cbv zeta. destruct (Nat.eqb_spec (nrow (pp_im o)) 0) as [E|_]; [lia|].
  destruct (maybe_fft_spec s (pp_im o) (row0 (pp_jac o)) (col0 (pp_jac o)) (target_of f o psf) (ft_ap f) I Hn) as (r1 & s1 & M1 & I1 & G1 & P1). rewrite M1.
  destruct (pad_fft (pp_im o) (row0 (pp_jac o)) (col0 (pp_jac o)) (target_of f o psf) (ft_ap f)) as [[[k1 a1] b1]|e] eqn:F1; destruct r1 as [[[l1 a1'] b1']|e']; try contradiction.
  2:{ rewrite P1. split; [exact I1|reflexivity]. }
  destruct P1 as (<- & <- & O1). rewrite (grid_own _ _ _ O1). pose proof (pad_fft_rows _ _ _ _ _ _ _ _ F1) as Rw.
  assert (P2 : exists r2 s2, (match psf with Some (pim, pj) => maybe_fft s1 pim (row0 pj) (col0 pj) (target_of f o psf) 0 | None => let '(l, s) := pixel s1 (nrow k1) in Some (Ok (l, 0, 0), s) end) = Some (r2, s2) /\
    fft_post s1 s2 r2 (match psf with Some (pim, pj) => pad_fft pim (row0 pj) (col0 pj) (target_of f o psf) 0 | None => Ok (pixel_fft (nrow k1), 0, 0) end)).
  { destruct psf as [[p j]|]; [apply maybe_fft_spec; assumption|]. pose proof (pixel_spec s1 (nrow k1) I1) as PX. destruct (pixel s1 (nrow k1)) as [l s2].
    destruct PX as (A & B & C). exists (Ok (l, 0, 0)), s2. split; [reflexivity|]. split; [exact A|]. split; [exact B|]. auto. }
  destruct P2 as (r2 & s2 & M2 & I2 & G2 & P2). rewrite M2.
  destruct (match psf with Some (pim, pj) => pad_fft pim (row0 pj) (col0 pj) (target_of f o psf) 0 | None => Ok (pixel_fft (nrow k1), 0, 0) end) as [[[k2 a2] b2]|e]; destruct r2 as [[[l2 a2'] b2']|e']; try contradiction.
  2:{ rewrite P2. split; [exact I2|reflexivity]. }
  destruct P2 as (<- & <- & O2). pose proof (get_kernels_spec s2 f (Z.to_nat (target_of f o psf)) (wcs_of (pp_jac o)) I2) as P3.
  destruct (get_kernels s2 f (Z.to_nat (target_of f o psf)) (wcs_of (pp_jac o))) as [r3 s3]. destruct P3 as (I3 & G3 & P3).
  destruct (make_kernels f (Z.to_nat (target_of f o psf)) (wcs_of (pp_jac o))) as [K|e] eqn:EK; destruct r3 as [d|e']; try contradiction.
  2:{ rewrite P3. split; [exact I3|reflexivity]. }
  pose proof (grid_own _ _ _ (G3 _ _ (G2 _ _ O1))) as Q1. pose proof (grid_own _ _ _ (G3 _ _ O2)) as Q2. pose proof (kernels_at_holds _ _ _ P3) as Q3.
  destruct (measure_spec (s_heap s3) l1 l2 (total_var (pp_wt o)) (IZR (target_of f o psf) / INR (nrow (pp_im o))) d (a1 - a2) (b1 - b2) k1 k2 K Q1 Q2 Q3) as (t & MS). rewrite MS.
  pose proof (inv_heap s3 t I3) as I4.
  destruct (measure_fft k1 k2 _ _ K _ _) as [[[[mom cov] nrm]|e]|]; [|split; [exact I4|reflexivity]|split; [exact I4|reflexivity]].
  destruct (make_mom_result mom cov (Some (Fin nrm))) as [r|e]; [|split; [exact I4|reflexivity]].
  destruct rk; [|split; [exact I4|reflexivity]]. cbn [s_heap set_heap]. rewrite (kernels_at_app _ _ _ _ Q3). rewrite Rw. split; [apply inv_give; exact I4|reflexivity].
Qed.
Lemma check_the_psf o np psf : check_obs o np = Ok psf -> psf = the_psf o np.
Proof.
  unfold check_obs, the_psf. destruct (negb _); [discriminate|]. destruct np; [intros [= <-]; reflexivity|]. destruct (pp_psf o) as [p|]; [|discriminate].
  destruct (negb _); [discriminate|]. intros [= <-]. reflexivity.
Qed.
Lemma go_spec s f o np rk : inv s -> has_rows (Go f o np rk) -> let '(r, s') := go_h s f o np rk in inv s' /\ r = alone f o np rk.
Proof.
  intros I [H1 H2]. unfold go_h, alone, go. destruct (check_obs o np) as [psf|e] eqn:C; [|split; [exact I|reflexivity]].
  apply check_the_psf in C. subst psf. apply (meas_spec s f o (the_psf o np) rk I H1). unfold the_psf. destruct np; [exact Logic.I|]. destruct (pp_psf o); exact H2.
Qed.
Lemma inv_init : inv init.
Proof. constructor; cbn; intros; contradiction. Qed.
Lemma step_spec s p : inv s -> has_rows p -> let '(a, s') := step s p in inv s' /\ a = returns p.
Proof.
  intros I H. destruct p as [| | | |l x|f o np rk]; cbn [step returns].
  - split; [|reflexivity]. destruct I; constructor; assumption.
  - split; [|reflexivity]. destruct I; constructor; cbn; try assumption; intros; contradiction.
  - split; [|reflexivity]. destruct I; constructor; assumption.
  - split; [|reflexivity]. destruct I; constructor; cbn; try assumption; intros; contradiction.
  - split; [|reflexivity]. destruct (existsb (Nat.eqb l) (s_given s)) eqn:E; [|exact I]. apply existsb_exists in E. destruct E as (l' & L1 & L2). apply Nat.eqb_eq in L2. subst l'.
    apply (inv_grows s); try reflexivity; [exact I| |].
    + intros m y [M N]. split; [|exact N]. cbn. rewrite write_other; [exact M|]. intros ->. contradiction.
    + cbn. intros m Hm. rewrite write_length. apply (i_given s I m Hm).
  - pose proof (go_spec s f o np rk I H) as G. destruct (go_h s f o np rk) as [r s']. destruct G as [A ->]. split; [exact A|reflexivity].
Qed.
Lemma run_spec ps : forall s, inv s -> Forall has_rows ps -> fst (run s ps) = flat_map returns ps.
Proof.
  induction ps as [|p ps IH]; intros s I H; [reflexivity|]. inversion H as [|? ? Hp Hps]. subst. cbn [run flat_map].
  pose proof (step_spec s p I Hp) as S1. destruct (step s p) as [a s1]. destruct S1 as [I1 ->]. specialize (IH s1 I1 Hps). destruct (run s1 ps) as [b s2]. cbn in *. rewrite IH. reflexivity.
Qed.
Lemma history_spec ps : Forall has_rows ps -> fst (run init ps) = flat_map returns ps.
Proof. apply run_spec. apply inv_init. Qed.
(** ** The kernels that are returned *)
Lemma scatter_in t msk v i m x : NoDup msk -> nth_error msk i = Some m -> nth_error v i = Some x -> at2 (scatter t msk v) (fst m) (snd m) = mkC x 0.
Proof.
  intros N Hm Hx. cbn [scatter at2]. revert v i Hm Hx. induction msk as [|m0 msk IH]; intros v i Hm Hx; [destruct i; discriminate|].
  inversion N as [|? ? N1 N2]. subst. destruct v as [|x0 v]; [destruct i; discriminate|]. destruct i as [|i]; cbn in Hm, Hx.
  - injection Hm as ->. injection Hx as ->. cbn [combine find fst snd]. rewrite !Nat.eqb_refl. reflexivity.
  - cbn [combine find fst snd]. destruct (Nat.eqb (fst m0) (fst m) && Nat.eqb (snd m0) (snd m)) eqn:E; [|apply (IH N2 v i); assumption].
    exfalso. apply andb_true_iff in E. destruct E as [A B]. apply Nat.eqb_eq in A, B. apply N1. replace m0 with m by (destruct m, m0; cbn in *; congruence). apply (nth_error_In _ _ Hm).
Qed.
Lemma scatter_out t msk v r c : ~ In (r, c) msk -> at2 (scatter t msk v) r c = mkC 0 0.
Proof.
  intros N. cbn [scatter at2]. destruct (find _ (combine msk v)) as [[[a b] x]|] eqn:F; [|reflexivity]. exfalso. apply find_some in F. destruct F as [A B]. cbn in B.
  apply andb_true_iff in B. destruct B as [B1 B2]. apply Nat.eqb_eq in B1, B2. subst. apply in_combine_l in A. contradiction.
Qed.
