From Verif Require Import Base XReal Shape_Model Shape_Spec Moments_Model Jacobian_Model Pixels_Model Priors_Model PriorSample_Model PriorSample_Spec Joint_Model
  GMix_Model GMixObj_Model Guessers_Model Guessers_Spec.
From Verif Require PSFFlux_Model.
Local Open Scope R_scope.

Section Logic.
Variable W : Type.
Variable G : rng W.
Hypothesis HG : good_rng G.
Local Notation M := (M W).

(** ** Reasoning about programs *)
Local Notation holds := (holds W).
Local Notation total := (total W).
Lemma total_holds {A} (m : M A) Q : total m Q -> holds m Q.
Proof. intros H w w' a E. destruct (H w) as (w1 & a1 & E1 & K). congruence. Qed.
Lemma holds_ret {A} (a : A) (Q : A -> Prop) : Q a -> holds (ret a) Q.
Proof. intros H w w' b E. injection E as _ <-. exact H. Qed.
Lemma total_ret {A} (a : A) (Q : A -> Prop) : Q a -> total (ret a) Q.
Proof. intros H w. exists w, a. split; [reflexivity|exact H]. Qed.
Lemma holds_bind {A B} (m : M A) (f : A -> M B) P Q : holds m P -> (forall a, P a -> holds (f a) Q) -> holds (bindM m f) Q.
Proof. intros H K w w' b E. unfold bindM in E. destruct (m w) as [[w1 [a|e]]|] eqn:Em; try discriminate. exact (K a (H _ _ _ Em) _ _ _ E). Qed.
Lemma total_bind {A B} (m : M A) (f : A -> M B) P Q : total m P -> (forall a, P a -> total (f a) Q) -> total (bindM m f) Q.
Proof. intros H K w. destruct (H w) as (w1 & a & E & Pa). unfold bindM. rewrite E. apply K. exact Pa. Qed.
Lemma holds_ret_bind {A B} (a : A) (f : A -> M B) Q : holds (f a) Q -> holds (bindM (ret a) f) Q.
Proof. auto. Qed.
Lemma total_weaken {A} (m : M A) (P Q : A -> Prop) : (forall a, P a -> Q a) -> total m P -> total m Q.
Proof. intros H K w. destruct (K w) as (w' & a & E & Pa). eauto. Qed.
Lemma holds_weaken {A} (m : M A) (P Q : A -> Prop) : (forall a, P a -> Q a) -> holds m P -> holds m Q.
Proof. intros H K w w' a E. eauto. Qed.
Lemma holds_raise {A} e (Q : A -> Prop) : holds (raise e : M A) Q.
Proof. intros w w' a E. discriminate. Qed.

(** ** Draws *)
Definition vals (n : nat) (P : R -> Prop) (l : list R) : Prop := length l = n /\ Forall P l.
Lemma total_uni low high n : low < high -> total (uni W G low high n) (vals n (between low high)).
Proof.
  intros H w. unfold uni. destruct HG as (L & _ & B). specialize (L w low high n). specialize (B w low high n H). destruct (uniform G w low high n) as [w' l]. cbn [snd] in *.
  exists w', l. split; [reflexivity|]. split; [exact L|]. eapply Forall_impl; [|exact B]. unfold between. cbn. intros; lra.
Qed.
Lemma total_uni1 low high : low < high -> total (uni1 W G low high) (between low high).
Proof.
  intros H. unfold uni1. eapply total_bind; [apply total_uni; exact H|]. intros l [L B]. destruct l as [|x [|y l]]; try discriminate. apply total_ret. inversion B; assumption.
Qed.
Lemma near_u c r : between (9/10) (11/10) r -> near (1/10) c (c * r).
Proof. unfold between, near. intros H. replace (c * r - c) with (c * (r - 1)) by ring. rewrite Rabs_mult, Rmult_comm. apply Rmult_le_compat_r; [apply Rabs_pos|]. apply Rabs_le. lra. Qed.
Lemma near_w k c r : small k r -> near k c (c * (1 + r)).
Proof. unfold small, near. intros H. replace (c * (1 + r) - c) with (c * r) by ring. rewrite Rabs_mult, Rmult_comm. apply Rmult_le_compat_r; [apply Rabs_pos|]. apply Rabs_le. lra. Qed.
Lemma vals_map n (P Q : R -> Prop) f l : vals n P l -> (forall x, P x -> Q (f x)) -> vals n Q (map f l).
Proof. intros [L B] H. split; [rewrite map_length; exact L|]. apply Forall_map. eapply Forall_impl; [|exact B]. exact H. Qed.
Lemma total_around_u c n : total (around_u W G c n) (vals n (near (1/10) c)).
Proof. eapply total_bind; [apply total_uni; lra|]. intros l H. apply total_ret. eapply vals_map; [exact H|]. intros x. apply near_u. Qed.
Lemma total_around_1u c n : total (around_1u W G c n) (vals n (near (1/10) c)).
Proof. eapply total_bind; [apply total_uni; lra|]. intros l H. apply total_ret. eapply vals_map; [exact H|]. intros x Hx. apply near_w. unfold small, between in *. lra. Qed.
Lemma small_scaled k r : 0 <= k -> between (-1) 1 r -> small k (k * r).
Proof. unfold small, between. intros. nra. Qed.
Lemma total_around_s k c n : 0 <= k -> total (around_s W G k c n) (vals n (near k c)).
Proof. intros K. eapply total_bind; [apply total_uni; lra|]. intros l H. apply total_ret. eapply vals_map; [exact H|]. intros x Hx. apply near_w, small_scaled; assumption. Qed.
Lemma total_offset_s k c n : 0 <= k -> total (offset_s W G k c n) (vals n (fun x => small k (x - c))).
Proof. intros K. eapply total_bind; [apply total_uni; lra|]. intros l H. apply total_ret. eapply vals_map; [exact H|]. intros x Hx. replace (c + k * x - c) with (k * x) by ring. apply small_scaled; assumption. Qed.

(** ** Arrays *)
Definition arr (n m : nat) (K : nat -> nat -> R -> Prop) (g : arr2 R) : Prop :=
  nrow g = n /\ ncol g = m /\ forall r c, (r < n)%nat -> (c < m)%nat -> K r c (at2 g r c).
Definition putk (K : nat -> nat -> R -> Prop) (j : nat) (P : R -> Prop) : nat -> nat -> R -> Prop :=
  fun r c x => if Nat.eqb c j then P x else K r c x.
Lemma total_setcol n m K g j P l : (j < m)%nat -> arr n m K g -> vals n P l -> total (setcol W g j l) (arr n m (putk K j P)).
Proof.
  intros J (Rn & Cn & V) (L & B). unfold setcol. rewrite Cn, Rn, L, Nat.eqb_refl. apply Nat.ltb_lt in J. rewrite J. apply total_ret. split; [reflexivity|]. split; [reflexivity|]. cbn [nrow ncol at2]. intros r c Hr Hc. unfold putk.
  destruct (Nat.eqb c j); [|apply V; assumption]. rewrite Forall_forall in B. apply B. apply nth_In. lia.
Qed.
Lemma total_set_bands draw (Hd : forall c n, total (draw c n) (vals n (near (1/10) c))) n m fluxes : forall start K g, (start + length fluxes <= m)%nat -> arr n m K g ->
  total (set_bands W draw fluxes start n g)
    (arr n m (fun r c x => if Nat.leb start c && Nat.ltb c (start + length fluxes) then near (1/10) (nth (c - start) fluxes 0) x else K r c x)).
Proof.
  induction fluxes as [|f fluxes IH]; intros start K g L A.
  - apply total_ret. destruct A as (Rn & Cn & V). split; [exact Rn|]. split; [exact Cn|]. intros r c Hr Hc. cbn [length]. rewrite Nat.add_0_r.
    destruct (Nat.leb start c) eqn:E1'; destruct (Nat.ltb c start) eqn:E2'; cbn [andb]; try (apply V; assumption). apply Nat.leb_le in E1'. apply Nat.ltb_lt in E2'. lia.
  - cbn [length] in L. eapply total_bind; [apply Hd|]. intros v Hv. eapply total_bind; [apply (total_setcol n m K g start (near (1/10) f) v); [lia|exact A|exact Hv]|]. intros g' A'.
    eapply total_weaken; [|apply (IH (S start)); [lia|exact A']]. intros g2 (Rn & Cn & V). split; [exact Rn|]. split; [exact Cn|]. intros r c Hr Hc. specialize (V r c Hr Hc). cbn beta in V. cbn [length].
    destruct (Nat.leb (S start) c) eqn:E1'; cbn [andb] in V.
    + apply Nat.leb_le in E1'. replace (Nat.leb start c) with true by (symmetry; apply Nat.leb_le; lia). replace (start + S (length fluxes))%nat with (S start + length fluxes)%nat by lia.
      destruct (Nat.ltb c (S start + length fluxes)); cbn [andb]; [replace (c - start)%nat with (S (c - S start)) by lia; exact V|]. unfold putk in V. destruct (Nat.eqb c start) eqn:E3; [apply Nat.eqb_eq in E3; lia|exact V].
    + apply Nat.leb_gt in E1'. unfold putk in V. destruct (Nat.eqb c start) eqn:E3.
      * apply Nat.eqb_eq in E3. subst c. rewrite Nat.leb_refl. replace (Nat.ltb start (start + S (length fluxes))) with true by (symmetry; apply Nat.ltb_lt; lia). cbn [andb]. rewrite Nat.sub_diag. exact V.
      * apply Nat.eqb_neq in E3. replace (Nat.leb start c) with false by (symmetry; apply Nat.leb_gt; lia). exact V.
Qed.
Lemma arr_zeros n m : arr n m (fun _ _ _ => True) (zeros2 n m).
Proof. split; [reflexivity|]. split; [reflexivity|]. auto. Qed.

(** ** Rows *)
Lemma row_len g j : length (row_of g j) = ncol g.
Proof. unfold row_of. rewrite map_length, seq_length. reflexivity. Qed.
Lemma row_nth g j c : (c < ncol g)%nat -> nth_error (row_of g j) c = Some (at2 g j c).
Proof. intros H. unfold row_of. rewrite nth_error_map. rewrite (nth_error_nth' _ 0%nat) by (rewrite seq_length; exact H). rewrite seq_nth by exact H. reflexivity. Qed.
Lemma rows_finish nrand g : nrow g = nrand -> rows (finish_guess nrand g) = map (row_of g) (seq 0 nrand).
Proof.
  intros <-. unfold finish_guess. destruct (Nat.eqb (nrow g) 1) eqn:E; [apply Nat.eqb_eq in E; rewrite E; reflexivity|reflexivity].
Qed.
Lemma rows_all nrand g (Q : list R -> Prop) : nrow g = nrand -> (forall r, (r < nrand)%nat -> Q (row_of g r)) ->
  length (rows (finish_guess nrand g)) = nrand /\ Forall Q (rows (finish_guess nrand g)).
Proof.
  intros N H. rewrite (rows_finish nrand g N). split; [rewrite map_length, seq_length; reflexivity|]. apply Forall_map, Forall_forall. intros r Hr. apply in_seq in Hr. apply H. lia.
Qed.
Lemma arr_col n m K g r c (P : R -> Prop) : arr n m K g -> (r < n)%nat -> (c < m)%nat -> (forall x, K r c x -> P x) -> at_col (row_of g r) c P.
Proof. intros (Rn & Cn & V) Hr Hc H. exists (at2 g r c). split; [apply row_nth; lia|]. apply H, V; assumption. Qed.
Lemma arr_bands n m (K : nat -> nat -> R -> Prop) g r fluxes start : (forall c x, (start <= c < start + length fluxes)%nat -> K r c x -> near (1/10) (nth (c - start) fluxes 0) x) ->
  (start + length fluxes <= m)%nat -> arr n m K g -> (r < n)%nat -> bands_at (row_of g r) fluxes start.
Proof.
  intros HK L A Hr b f E. assert (B : (b < length fluxes)%nat) by (apply nth_error_Some; congruence). eapply (arr_col n m K g r); [exact A|exact Hr|lia|]. intros x Hx.
  apply HK in Hx; [|lia]. replace (start + b - start)%nat with b in Hx by lia. rewrite (nth_error_nth _ _ 0 E) in Hx. exact Hx.
Qed.
Lemma band_range start c len : Nat.leb start c && Nat.ltb c (start + len) = true <-> (start <= c < start + len)%nat.
Proof. rewrite andb_true_iff, Nat.leb_le, Nat.ltb_lt. reflexivity. Qed.
Lemma band_in start c len (P : Prop) (Q : Prop) : (start <= c < start + len)%nat -> (if Nat.leb start c && Nat.ltb c (start + len) then P else Q) -> P.
Proof. intros H. apply band_range in H. rewrite H. auto. Qed.
Lemma band_out start c len (P : Prop) (Q : Prop) : (c < start)%nat -> (if Nat.leb start c && Nat.ltb c (start + len) then P else Q) -> Q.
Proof. intros H. replace (Nat.leb start c) with false by (symmetry; apply Nat.leb_gt; exact H). auto. Qed.
Lemma band_after start c len (P : Prop) (Q : Prop) : (start + len <= c)%nat -> (if Nat.leb start c && Nat.ltb c (start + len) then P else Q) -> Q.
Proof. intros H. replace (Nat.ltb c (start + len)) with false by (symmetry; apply Nat.ltb_ge; exact H). rewrite andb_false_r. auto. Qed.

(** ** TFluxGuesser, TPSFFluxGuesser, R50FluxGuesser before the repair *)
Lemma small_m a b x : a = - b -> between a b x -> small b x.
Proof. unfold small, between. intros ->. auto. Qed.
Lemma small_z k x : small k (x - 0) -> small k x.
Proof. rewrite Rminus_0_r. auto. Qed.
Ltac step t := eapply total_bind; [t|intros ? ?].
Ltac col := eapply total_bind; [eapply total_setcol; [|eassumption|eassumption]; lia|intros ? ?].

Definition tflux_cols (T : R) (fluxes : list R) (nrand : nat) : M (arr2 R) :=
  let g := zeros2 nrand (5 + length fluxes) in
  do r <- uni W G (-1/100) (1/100) nrand; do g <- setcol W g 0 r;
  do r <- uni W G (-1/100) (1/100) nrand; do g <- setcol W g 1 r;
  do r <- uni W G (-2/100) (2/100) nrand; do g <- setcol W g 2 r;
  do r <- uni W G (-2/100) (2/100) nrand; do g <- setcol W g 3 r;
  do r <- around_u W G T nrand; do g <- setcol W g 4 r;
  set_bands W (around_u W G) fluxes 5 nrand g.
Lemma total_tflux_cols T fluxes n : total (tflux_cols T fluxes n) (fun g => nrow g = n /\ ncol g = (5 + length fluxes)%nat /\ forall r, (r < n)%nat -> simple_row T fluxes (row_of g r)).
Proof.
  unfold tflux_cols. assert (A0 := arr_zeros n (5 + length fluxes)).
  step ltac:(apply total_uni; lra). col. step ltac:(apply total_uni; lra). col. step ltac:(apply total_uni; lra). col. step ltac:(apply total_uni; lra). col.
  step ltac:(apply total_around_u). col. eapply total_weaken; [|eapply total_set_bands; [exact total_around_u| |eassumption]; lia]. intros g A. assert (D := A). destruct D as (Rn & Cn & _). split; [exact Rn|]. split; [exact Cn|].
  intros r Hr. unfold simple_row. rewrite row_len. split; [exact Cn|].
  repeat (split; [eapply arr_col; [exact A|exact Hr|lia|]; intros x Hx; cbn beta in Hx; apply band_out in Hx; [|lia]; cbn in Hx; first [exact Hx|eapply small_m; [|exact Hx]; lra]|]).
  eapply arr_bands; [|apply Nat.le_refl|exact A|exact Hr]. intros c x Hc Hx. cbn beta in Hx. eapply band_in; [exact Hc|exact Hx].
Qed.
Lemma tflux_split T fluxes P n w : tflux_guess W G T fluxes P n w =
  (do g <- tflux_cols T fluxes n; do g <- maybe_fix W P g; ret (finish_guess n g)) w.
Proof.
  unfold tflux_guess, tflux_cols, bindM. repeat (match goal with |- context[match ?m w with _ => _ end] => idtac | _ => idtac end).
  repeat match goal with |- match ?x with _ => _ end = match match ?x with _ => _ end with _ => _ end => destruct x as [[? [?|?]]|]; try reflexivity end.
Qed.
Lemma tflux_none T fluxes n : total (tflux_guess W G T fluxes None n) (fun o => length (rows o) = n /\ Forall (simple_row T fluxes) (rows o)).
Proof.
  intros w. rewrite tflux_split. revert w. change (total (do g <- tflux_cols T fluxes n; do g <- maybe_fix W None g; ret (finish_guess n g)) (fun o => length (rows o) = n /\ Forall (simple_row T fluxes) (rows o))).
  eapply total_bind; [apply total_tflux_cols|]. intros g (Rn & Cn & H). eapply total_bind; [apply (total_ret g (fun g' => g' = g)); reflexivity|]. intros g' ->. apply total_ret. apply rows_all; assumption.
Qed.

(** ** Repair *)
Lemma holds_sample1 (P : jprior W) : holds (sample1 W P) (prior_row P).
Proof.
  intros w w' a E. unfold sample1 in E. destruct (jp_sample P w 1) as [w1 [m|e]] eqn:Es; [|discriminate]. cbn [bind] in E. destruct (Nat.ltb 0 (nrow m)) eqn:L; [|discriminate]. apply Nat.ltb_lt in L. injection E as <- <-.
  exists w, 1%nat, w1, m, 0%nat. split; [exact Es|]. split; [exact L|reflexivity].
Qed.
Lemma holds_of_res {A} (r : res A) : holds (of_res r : M A) (fun a => r = Ok a).
Proof. intros w w' a E. injection E as _ <-. reflexivity. Qed.
Lemma not_bad (P : jprior W) row : proper P -> dosample W P row = Ok false -> allowed P row.
Proof.
  intros Pr E. unfold dosample in E. destruct (jp_lnprob P row) as [v|e] eqn:L.
  - injection E as E. exists v. split; [exact L|]. destruct v; cbn in *; try reflexivity; try discriminate. exfalso. exact (Pr _ L).
  - destruct e; discriminate.
Qed.
Lemma allowed_not_bad (P : jprior W) row : allowed P row -> dosample W P row = Ok false.
Proof. intros (v & E & H). unfold dosample. rewrite E. destruct v; cbn in *; try reflexivity; try discriminate. Qed.
Lemma fix_row_range n (P : jprior W) : forall row, holds (fix_row W n P row) (fun r => length r = length row /\ (r = row \/ prior_row P r)).
Proof.
  induction n as [|n IH]; intros row; cbn [fix_row]; [apply holds_ret; auto|]. eapply holds_bind; [apply holds_of_res|]. intros [|] _; [|apply holds_ret; auto].
  eapply holds_bind; [apply holds_sample1|]. intros s Hs. destruct (Nat.eqb (length s) (length row)) eqn:L; [|apply holds_raise]. apply Nat.eqb_eq in L.
  eapply holds_weaken; [|apply IH]. intros r [Lr [->|H]]; split; auto; congruence.
Qed.
Lemma fix_row_allowed n (P : jprior W) row : proper P -> draws_allowed P -> holds (fix_row W (S (S n)) P row) (allowed P).
Proof.
  intros Pr Da. cbn [fix_row]. eapply holds_bind; [apply holds_of_res|]. intros [|] E; [|apply holds_ret; apply not_bad; assumption].
  eapply holds_bind; [apply holds_sample1|]. intros s Hs. destruct (Nat.eqb (length s) (length row)); [|apply holds_raise].
  eapply holds_bind; [apply holds_of_res|]. intros b Eb. rewrite (allowed_not_bad P s (Da s Hs)) in Eb. injection Eb as <-. apply holds_ret, Da, Hs.
Qed.
Lemma firstn_app_exact {A} k (a b : list A) : (k <= length a)%nat -> firstn k (firstn k a ++ b) = firstn k a.
Proof. intros H. rewrite firstn_app, firstn_firstn, Nat.min_id, firstn_length_le by exact H. rewrite Nat.sub_diag, firstn_O, app_nil_r. reflexivity. Qed.
Lemma skipn_app_exact {A} k (a b : list A) : (k <= length a)%nat -> skipn k (firstn k a ++ b) = b.
Proof. intros H. rewrite skipn_app, skipn_all2 by (rewrite firstn_length; lia). rewrite firstn_length_le by exact H. rewrite Nat.sub_diag, skipn_O. reflexivity. Qed.
Lemma fix_TFlux_range ntry tries (P : jprior W) : Forall (fun i => (i < ntry)%nat) tries -> forall row, (4 < length row)%nat ->
  holds (fix_row_TFlux W ntry tries P row) (fun r => r = row \/ firstn 4 r = firstn 4 row /\ length r = length row /\ exists s, prior_row P s /\ skipn 4 r = skipn 4 s).
Proof.
  induction 1 as [|i tries Hi _ IH]; intros row L; cbn [fix_row_TFlux]; [apply holds_ret; auto|]. eapply holds_bind; [apply holds_of_res|]. intros [|] _; [|apply holds_ret; auto].
  apply Nat.ltb_lt in Hi. rewrite Hi. eapply holds_bind; [apply holds_sample1|]. intros s Hs. destruct (Nat.eqb _ _) eqn:E; [|apply holds_raise]. apply Nat.eqb_eq in E. rewrite !skipn_length in E.
  assert (Lr : length (firstn 4 row ++ skipn 4 s) = length row) by (rewrite app_length, firstn_length, skipn_length; lia).
  eapply holds_weaken; [|apply IH; rewrite Lr; exact L]. intros r [->|(A & B & s' & C & D)]; right.
  - rewrite firstn_app_exact, skipn_app_exact by lia. eauto.
  - rewrite firstn_app_exact in A by lia. split; [exact A|]. split; [congruence|]. eauto.
Qed.
Lemma fix_TFlux_allowed ntry i j tries (P : jprior W) row s : (i < ntry)%nat -> proper P -> draws_allowed P -> separable P ->
  prior_row P s -> firstn 4 row = firstn 4 s -> length row = length s -> (4 < length row)%nat -> holds (fix_row_TFlux W ntry (i :: j :: tries) P row) (allowed P).
Proof.
  intros Hi Pr Da Sp Hs F Ls L. cbn [fix_row_TFlux]. eapply holds_bind; [apply holds_of_res|]. intros [|] E; [|apply holds_ret; apply not_bad; assumption].
  apply Nat.ltb_lt in Hi. rewrite Hi. eapply holds_bind; [apply holds_sample1|]. intros t Ht. destruct (Nat.eqb _ _) eqn:El; [|apply holds_raise]. apply Nat.eqb_eq in El. rewrite !skipn_length in El.
  assert (A : allowed P (firstn 4 row ++ skipn 4 t)) by (rewrite F; apply Sp; [lia|apply Da; exact Hs|apply Da; exact Ht]).
  eapply holds_bind; [apply holds_of_res|]. intros b Eb. rewrite (allowed_not_bad P _ A) in Eb. injection Eb as <-. apply holds_ret, A.
Qed.

(** rows, one after the other *)
Lemma setrow_row g j row : length row = ncol g -> forall r, row_of (mkArr (nrow g) (ncol g) (fun r c => if Nat.eqb r j then nth c row 0 else at2 g r c)) r = if Nat.eqb r j then row else row_of g r.
Proof.
  intros L r. unfold row_of. cbn [ncol at2]. destruct (Nat.eqb r j); [|reflexivity]. rewrite <- L. clear. induction row as [|x row IH]; [reflexivity|]. cbn [length seq map nth]. f_equal.
  rewrite <- seq_shift, map_map. exact IH.
Qed.
Lemma fix_rows_holds fix1 (R1 : nat -> list R -> Prop) js : NoDup js -> forall g, (forall r, In r js -> holds (fix1 (row_of g r)) (R1 r)) ->
  holds (fix_rows W fix1 js g) (fun g' => nrow g' = nrow g /\ ncol g' = ncol g /\ (forall r, In r js -> R1 r (row_of g' r)) /\ forall r, ~ In r js -> row_of g' r = row_of g r).
Proof.
  induction 1 as [|j js Nj _ IH]; intros g H; cbn [fix_rows]; [apply holds_ret; split; [reflexivity|split; [reflexivity|split; [intros r []|reflexivity]]]|]. eapply holds_bind; [exact (H j (or_introl eq_refl))|]. intros row Hr. unfold setrow.
  destruct (Nat.eqb (length row) (ncol g)) eqn:L; [|intros w w' a E; discriminate]. apply Nat.eqb_eq in L. apply holds_ret_bind.
  set (g1 := mkArr _ _ _). assert (S1 := setrow_row g j row L). fold g1 in S1.
  eapply holds_weaken; [|apply (IH g1)].
  - intros g' (A & B & C & D). split; [exact A|]. split; [exact B|]. split.
    + intros r [<-|Hi]; [rewrite (D j Nj), S1, Nat.eqb_refl; exact Hr|apply C; exact Hi].
    + intros r Hn. rewrite (D r) by (intros K; apply Hn; right; exact K). rewrite S1. destruct (Nat.eqb r j) eqn:E; [|reflexivity]. apply Nat.eqb_eq in E. subst r. exfalso. apply Hn. left. reflexivity.
  - intros r Hi. rewrite S1. destruct (Nat.eqb r j) eqn:E; [apply Nat.eqb_eq in E; subst; contradiction|]. apply H. right. exact Hi.
Qed.
Lemma fix_all fix1 (R1 : nat -> list R -> Prop) g : (forall r, (r < nrow g)%nat -> holds (fix1 (row_of g r)) (R1 r)) ->
  holds (fix_rows W fix1 (seq 0 (nrow g)) g) (fun g' => nrow g' = nrow g /\ ncol g' = ncol g /\ forall r, (r < nrow g)%nat -> R1 r (row_of g' r)).
Proof.
  intros H. eapply holds_weaken; [|apply (fix_rows_holds fix1 R1 (seq 0 (nrow g)) (seq_NoDup _ _) g)].
  - intros g' (A & B & C & _). split; [exact A|]. split; [exact B|]. intros r Hr. apply C, in_seq. lia.
  - intros r Hr. apply in_seq in Hr. apply H. lia.
Qed.

Lemma tflux_prior T fluxes P n : holds (tflux_guess W G T fluxes (Some P) n) (fun o => length (rows o) = n /\ Forall (fun row => simple_row T fluxes row \/ prior_row P row) (rows o)).
Proof.
  intros w w' a. rewrite tflux_split. revert w w' a. change (holds (do g <- tflux_cols T fluxes n; do g <- maybe_fix W (Some P) g; ret (finish_guess n g)) (fun o => length (rows o) = n /\ Forall (fun row => simple_row T fluxes row \/ prior_row P row) (rows o))).
  eapply holds_bind; [apply total_holds, total_tflux_cols|]. intros g (Rn & Cn & H). cbn [maybe_fix]. unfold fix_guess.
  eapply holds_bind; [apply (fix_all _ (fun r row => simple_row T fluxes row \/ prior_row P row))|].
  - intros r Hr. eapply holds_weaken; [|apply fix_row_range]. intros row [_ [->|K]]; [left; apply H; lia|right; exact K].
  - intros g' (A & B & C). apply holds_ret. apply rows_all; [lia|]. intros r Hr. apply C. lia.
Qed.
Lemma allowed_rows P n g : proper P -> draws_allowed P -> nrow g = n ->
  holds (do g <- fix_guess W P g; ret (finish_guess n g)) (fun o => Forall (allowed P) (rows o)).
Proof.
  intros Pr Da N. unfold fix_guess. eapply holds_bind; [apply (fix_all _ (fun r row => allowed P row))|].
  - intros r Hr. apply (fix_row_allowed 2); assumption.
  - intros g' (A & B & C). apply holds_ret. apply rows_all; [lia|]. intros r Hr. apply C. lia.
Qed.
Lemma tflux_allowed T fluxes P n : proper P -> draws_allowed P -> holds (tflux_guess W G T fluxes (Some P) n) (fun o => Forall (allowed P) (rows o)).
Proof.
  intros Pr Da w w' a. rewrite tflux_split. revert w w' a. change (holds (do g <- tflux_cols T fluxes n; do g <- maybe_fix W (Some P) g; ret (finish_guess n g)) (fun o => Forall (allowed P) (rows o))).
  eapply holds_bind; [apply total_holds, total_tflux_cols|]. intros g (Rn & Cn & H). apply allowed_rows; assumption.
Qed.
End Logic.
