From Verif Require Import Base XReal Shape_Model Shape_Spec Moments_Model Jacobian_Model Pixels_Model Priors_Model PriorSample_Model PriorSample_Spec Joint_Model
  GMix_Model GMixObj_Model Guessers_Model Guessers_Spec Guessers_Proofs.
From Verif Require PSFFlux_Model.
Local Open Scope R_scope.

Section More.
Variable W : Type.
Variable G : rng W.
Hypothesis HG : good_rng G.
Variable fuel : nat.
Local Notation M := (M W).
Ltac step t := eapply total_bind; [t|intros ? ?].
Ltac col := eapply total_bind; [eapply total_setcol; [|eassumption|eassumption]; lia|intros ? ?].
Ltac hstep t := eapply holds_bind; [apply total_holds; t|intros ? ?].
Ltac hcol := eapply holds_bind; [apply total_holds; eapply total_setcol; [|eassumption|eassumption]; lia|intros ? ?].
Ltac colgoal A Hr tac := eapply arr_col; [exact A|exact Hr|lia|]; intros x Hx; cbn beta in Hx; apply band_out in Hx; [|lia]; cbn in Hx; tac Hx.

(** ** the end of the guessers that repair with _fix_guess *)
Definition tail_of (P : option (jprior W)) (n : nat) (g : arr2 R) : M gout := do g <- maybe_fix W P g; ret (finish_guess n g).
Lemma tail_none n g (Q : list R -> Prop) : nrow g = n -> (forall r, (r < n)%nat -> Q (row_of g r)) ->
  total W (tail_of None n g) (fun o => length (rows o) = n /\ Forall Q (rows o)).
Proof. intros N H. unfold tail_of. cbn [maybe_fix]. intros w. exists w, (finish_guess n g). split; [reflexivity|]. apply rows_all; assumption. Qed.
Lemma tail_prior P n g (Q : list R -> Prop) : nrow g = n -> (forall r, (r < n)%nat -> Q (row_of g r)) ->
  holds W (tail_of (Some P) n g) (fun o => length (rows o) = n /\ Forall (fun row => Q row \/ prior_row P row) (rows o)).
Proof.
  intros N H. unfold tail_of. cbn [maybe_fix]. unfold fix_guess. eapply holds_bind; [apply (fix_all W _ (fun r row => Q row \/ prior_row P row))|].
  - intros r Hr. eapply holds_weaken; [|apply fix_row_range]. intros row [_ [->|K]]; [left; apply H; lia|right; exact K].
  - intros g' (A & B & C). apply holds_ret. apply rows_all; [lia|]. intros r Hr. apply C. lia.
Qed.
Lemma tail_allowed P n g : proper P -> draws_allowed P -> nrow g = n -> holds W (tail_of (Some P) n g) (fun o => Forall (allowed P) (rows o)).
Proof. intros Pr Da N. apply allowed_rows; assumption. Qed.

(** ** R50FluxGuesser *)
Ltac r50_holds_body := hstep ltac:(apply total_offset_s; [exact HG|lra]); hcol; hstep ltac:(apply total_offset_s; [exact HG|lra]); hcol; hstep ltac:(apply total_offset_s; [exact HG|lra]); hcol; hstep ltac:(apply total_offset_s; [exact HG|lra]); hcol; hstep ltac:(apply total_around_s; [exact HG|lra]); hcol.
Ltac r50_total_body := step ltac:(apply total_offset_s; [exact HG|lra]); col; step ltac:(apply total_offset_s; [exact HG|lra]); col; step ltac:(apply total_offset_s; [exact HG|lra]); col; step ltac:(apply total_offset_s; [exact HG|lra]); col; step ltac:(apply total_around_s; [exact HG|lra]); col.
Lemma bands_s n m fluxes start K g : (start + length fluxes <= m)%nat -> arr n m K g ->
  total W (set_bands W (around_s W G (1/10)) fluxes start n g)
    (arr n m (fun r c x => if Nat.leb start c && Nat.ltb c (start + length fluxes) then near (1/10) (nth (c - start) fluxes 0) x else K r c x)).
Proof. apply total_set_bands. intros c k. apply total_around_s; [exact HG|lra]. Qed.
Lemma r50_rows r50 fluxes n g r K : (r < n)%nat ->
  arr n (5 + length fluxes) (fun r c x => if Nat.leb 5 c && Nat.ltb c (5 + length fluxes) then near (1/10) (nth (c - 5) fluxes 0) x else
     putk (putk (putk (putk (putk K 0 (fun x => small (1/100) (x - 0))) 1 (fun x => small (1/100) (x - 0))) 2 (fun x => small (2/100) (x - 0))) 3 (fun x => small (2/100) (x - 0))) 4 (near (1/10) r50) r c x) g ->
  simple_row r50 fluxes (row_of g r).
Proof.
  intros Hr A. unfold simple_row. rewrite row_len. assert (D := A). destruct D as (_ & Cn & _). split; [exact Cn|].
  repeat (split; [colgoal A Hr ltac:(fun Hx => first [apply small_z; exact Hx|exact Hx])|]).
  eapply arr_bands; [|apply Nat.le_refl|exact A|exact Hr]. intros c x Hc Hx. cbn beta in Hx. eapply band_in; [exact Hc|exact Hx].
Qed.
Lemma r50_holds r50 fluxes P n (Q : gout -> Prop) :
  (forall g, nrow g = n -> (forall r, (r < n)%nat -> simple_row r50 fluxes (row_of g r)) -> holds W (tail_of P n g) Q) -> holds W (r50flux_guess W G r50 fluxes P n) Q.
Proof.
  intros H. unfold r50flux_guess. assert (A0 := arr_zeros n (5 + length fluxes)). r50_holds_body. eapply holds_bind; [apply total_holds; eapply bands_s; [|eassumption]; lia|].
  intros g A. apply H; [apply A|]. intros r Hr. eapply r50_rows; eassumption.
Qed.
Lemma r50_total r50 fluxes P n (Q : gout -> Prop) :
  (forall g, nrow g = n -> (forall r, (r < n)%nat -> simple_row r50 fluxes (row_of g r)) -> total W (tail_of P n g) Q) -> total W (r50flux_guess W G r50 fluxes P n) Q.
Proof.
  intros H. unfold r50flux_guess. assert (A0 := arr_zeros n (5 + length fluxes)). r50_total_body. eapply total_bind; [eapply bands_s; [|eassumption]; lia|].
  intros g A. apply H; [apply A|]. intros r Hr. eapply r50_rows; eassumption.
Qed.
Lemma r50_none r50 fluxes n : total W (r50flux_guess W G r50 fluxes None n) (fun o => length (rows o) = n /\ Forall (simple_row r50 fluxes) (rows o)).
Proof. apply r50_total. intros g N H. apply tail_none; assumption. Qed.
Lemma r50_prior r50 fluxes P n : holds W (r50flux_guess W G r50 fluxes (Some P) n) (fun o => length (rows o) = n /\ Forall (fun row => simple_row r50 fluxes row \/ prior_row P row) (rows o)).
Proof. apply r50_holds. intros g N H. apply tail_prior; assumption. Qed.
Lemma r50_allowed r50 fluxes P n : proper P -> draws_allowed P -> holds W (r50flux_guess W G r50 fluxes (Some P) n) (fun o => Forall (allowed P) (rows o)).
Proof. intros Pr Da. apply r50_holds. intros g N H. apply tail_allowed; assumption. Qed.

(** ** R50NuFluxGuesser *)
Lemma nu_holds n nu : holds W (nu_loop W G n nu) (fun x => near (1/10) nu x /\ NUMIN < x < NUMAX).
Proof.
  induction n as [|n IH]; [intros w w' a E; discriminate|]. cbn [nu_loop]. hstep ltac:(apply total_uni1; [exact HG|lra]). destruct (Rltb NUMIN (nu * (1 + 1 / 10 * a))) eqn:A; cbn [andb]; [|apply IH].
  destruct (Rltb (nu * (1 + 1 / 10 * a)) NUMAX) eqn:B; [|apply IH]. apply holds_ret. apply Rltb_true in A. apply Rltb_true in B. split; [|lra]. apply near_w, small_scaled; [lra|exact H].
Qed.
Lemma repeatM_holds {A} n (m : M A) Q : holds W m Q -> holds W (repeatM W n m) (fun l => length l = n /\ Forall Q l).
Proof. intros H. induction n as [|n IH]; cbn [repeatM]; [apply holds_ret; auto|]. eapply holds_bind; [exact H|]. intros a Ha. eapply holds_bind; [exact IH|]. intros l [L F]. apply holds_ret. cbn [length]. auto. Qed.
Lemma r50nu_rows r50 nu fluxes n g r K : (r < n)%nat ->
  arr n (6 + length fluxes) (fun r c x => if Nat.leb 6 c && Nat.ltb c (6 + length fluxes) then near (1/10) (nth (c - 6) fluxes 0) x else
     putk (putk (putk (putk (putk (putk K 0 (fun x => small (1/100) (x - 0))) 1 (fun x => small (1/100) (x - 0))) 2 (fun x => small (2/100) (x - 0))) 3 (fun x => small (2/100) (x - 0))) 4 (near (1/10) r50))
       5 (fun x => near (1/10) nu x /\ NUMIN < x < NUMAX) r c x) g ->
  spergel_row r50 nu fluxes (row_of g r).
Proof.
  intros Hr A. unfold spergel_row. rewrite row_len. assert (D := A). destruct D as (_ & Cn & _). split; [exact Cn|].
  repeat (split; [colgoal A Hr ltac:(fun Hx => first [apply small_z; exact Hx|exact Hx])|]).
  eapply arr_bands; [|apply Nat.le_refl|exact A|exact Hr]. intros c x Hc Hx. cbn beta in Hx. eapply band_in; [exact Hc|exact Hx].
Qed.
Lemma r50nu_holds r50 nu fluxes P n (Q : gout -> Prop) :
  (forall g, nrow g = n -> (forall r, (r < n)%nat -> spergel_row r50 nu fluxes (row_of g r)) -> holds W (tail_of P n g) Q) -> holds W (r50nu_guess W G fuel r50 nu fluxes P n) Q.
Proof.
  intros H. unfold r50nu_guess. assert (A0 := arr_zeros n (6 + length fluxes)). r50_holds_body. eapply holds_bind; [apply repeatM_holds, nu_holds|]. intros l Hl.
  assert (V : vals n (fun x => near (1/10) nu x /\ NUMIN < x < NUMAX) l) by exact Hl. clear Hl. hcol. eapply holds_bind; [apply total_holds; eapply bands_s; [|eassumption]; lia|].
  intros g A. apply H; [apply A|]. intros r Hr. eapply r50nu_rows; eassumption.
Qed.
Lemma r50nu_none r50 nu fluxes n : holds W (r50nu_guess W G fuel r50 nu fluxes None n) (fun o => length (rows o) = n /\ Forall (spergel_row r50 nu fluxes) (rows o)).
Proof. apply r50nu_holds. intros g N H. apply total_holds, tail_none; assumption. Qed.
Lemma r50nu_prior r50 nu fluxes P n : holds W (r50nu_guess W G fuel r50 nu fluxes (Some P) n) (fun o => length (rows o) = n /\ Forall (fun row => spergel_row r50 nu fluxes row \/ prior_row P row) (rows o)).
Proof. apply r50nu_holds. intros g N H. apply tail_prior; assumption. Qed.
Lemma r50nu_allowed r50 nu fluxes P n : proper P -> draws_allowed P -> holds W (r50nu_guess W G fuel r50 nu fluxes (Some P) n) (fun o => Forall (allowed P) (rows o)).
Proof. intros Pr Da. apply r50nu_holds. intros g N H. apply tail_allowed; assumption. Qed.
Lemma nu_in_range nu : NUMIN <= nu_init nu <= NUMAX /\ (NUMIN <= nu <= NUMAX -> nu_init nu = nu).
Proof.
  unfold nu_init, NUMIN, NUMAX. destruct (Rltb_spec nu (-99/100)) as [A|A]; [split; lra|]. destruct (Rltb_spec (7/2) nu) as [B|B]; split; lra.
Qed.

(** ** Guessers that start from a sample of the prior *)
Lemma holds_setcol n m K g j (P : R -> Prop) l : arr n m K g -> Forall P l -> holds W (setcol W g j l) (fun g' => arr n m (putk K j P) g' /\ (j < m)%nat /\ length l = n).
Proof.
  intros A B w w' g' E. unfold setcol in E. destruct (Nat.ltb j (ncol g)) eqn:J; [|discriminate]. destruct (Nat.eqb (length l) (nrow g)) eqn:L; [|discriminate].
  assert (D := A). destruct D as (Rn & Cn & _). apply Nat.ltb_lt in J. apply Nat.eqb_eq in L. split; [|split; congruence].
  assert (T : total W (setcol W g j l) (arr n m (putk K j P))) by (apply total_setcol; [congruence|exact A|split; [congruence|exact B]]).
  apply (total_holds _ _ _ T w w'). unfold setcol. apply Nat.ltb_lt in J. apply Nat.eqb_eq in L. rewrite J, L. exact E.
Qed.
Lemma holds_set_bands draw (Hd : forall c n, total W (draw c n) (vals n (near (1/10) c))) nrand n m fluxes : forall start K g, arr n m K g ->
  holds W (set_bands W draw fluxes start nrand g)
    (fun g' => arr n m (fun r c x => if Nat.leb start c && Nat.ltb c (start + length fluxes) then near (1/10) (nth (c - start) fluxes 0) x else K r c x) g' /\
       (fluxes <> [] -> start + length fluxes <= m)%nat).
Proof.
  induction fluxes as [|f fluxes IH]; intros start K g A.
  - apply holds_ret. split; [|congruence]. destruct A as (Rn & Cn & V). split; [exact Rn|]. split; [exact Cn|]. intros r c Hr Hc. cbn [length]. rewrite Nat.add_0_r.
    destruct (Nat.leb start c) eqn:E1'; destruct (Nat.ltb c start) eqn:E2'; cbn [andb]; try (apply V; assumption). apply Nat.leb_le in E1'. apply Nat.ltb_lt in E2'. lia.
  - cbn [set_bands]. hstep ltac:(apply Hd). eapply holds_bind; [apply (holds_setcol n m K g start (near (1/10) f)); [exact A|apply H]|]. intros g' (A' & J & L).
    eapply holds_weaken; [|apply (IH (S start)); exact A']. intros g2 ((Rn & Cn & V) & Lf). split.
    + split; [exact Rn|]. split; [exact Cn|]. intros r c Hr Hc. specialize (V r c Hr Hc). cbn beta in V. cbn [length].
      destruct (Nat.leb (S start) c) eqn:E1'; cbn [andb] in V.
      * apply Nat.leb_le in E1'. replace (Nat.leb start c) with true by (symmetry; apply Nat.leb_le; lia). replace (start + S (length fluxes))%nat with (S start + length fluxes)%nat by lia.
        destruct (Nat.ltb c (S start + length fluxes)); cbn [andb]; [replace (c - start)%nat with (S (c - S start)) by lia; exact V|]. unfold putk in V. destruct (Nat.eqb c start) eqn:E3; [apply Nat.eqb_eq in E3; lia|exact V].
      * apply Nat.leb_gt in E1'. unfold putk in V. destruct (Nat.eqb c start) eqn:E3.
        -- apply Nat.eqb_eq in E3. subst c. rewrite Nat.leb_refl. replace (Nat.ltb start (start + S (length fluxes))) with true by (symmetry; apply Nat.ltb_lt; lia). cbn [andb]. rewrite Nat.sub_diag. exact V.
        -- apply Nat.eqb_neq in E3. replace (Nat.leb start c) with false by (symmetry; apply Nat.leb_gt; lia). exact V.
    + intros _. cbn [length]. destruct fluxes as [|f2 fl]; [cbn [length]; lia|]. assert (f2 :: fl <> []) by discriminate. specialize (Lf H0). cbn [length] in *. lia.
Qed.
Lemma holds_sampleN (P : jprior W) n : holds W (sampleN W P n) (fun g => forall r, (r < nrow g)%nat -> prior_row P (row_of g r)).
Proof. intros w w' g E r Hr. unfold sampleN in E. destruct (jp_sample P w n) as [w1 r1] eqn:Es. injection E as _ ->. exists w, n, w1, g, r. split; [exact Es|]. split; [exact Hr|reflexivity]. Qed.
Lemma firstn_ext {A} k : forall a b : list A, (forall i, (i < k)%nat -> nth_error a i = nth_error b i) -> firstn k a = firstn k b.
Proof.
  induction k as [|k IH]; intros a b H; [reflexivity|]. assert (H0 := H 0%nat ltac:(lia)). destruct a as [|x a], b as [|y b]; try discriminate; [reflexivity|]. injection H0 as ->. cbn [firstn]. f_equal.
  apply IH. intros i Hi. apply (H (S i)). lia.
Qed.
Lemma row_nth_over g j c : (ncol g <= c)%nat -> nth_error (row_of g j) c = None.
Proof. intros H. apply nth_error_None. rewrite row_len. exact H. Qed.
Lemma same_col n m K g g0 r c : arr n m K g -> ncol g0 = m -> (r < n)%nat -> (forall x, K r c x -> x = at2 g0 r c) -> nth_error (row_of g r) c = nth_error (row_of g0 r) c.
Proof.
  intros (Rn & Cn & V) C0 Hr H. destruct (Nat.ltb c m) eqn:E; [apply Nat.ltb_lt in E|apply Nat.ltb_ge in E].
  - rewrite !row_nth by lia. f_equal. apply H, V; assumption.
  - rewrite !row_nth_over by lia. reflexivity.
Qed.
Definition sampled (g0 : arr2 R) : nat -> nat -> R -> Prop := fun r c x => x = at2 g0 r c.
Lemma arr_sampled g0 : arr (nrow g0) (ncol g0) (sampled g0) g0.
Proof. split; [reflexivity|]. split; [reflexivity|]. intros; reflexivity. Qed.

Lemma simple_over_rows T fluxes g0 g r : (r < nrow g0)%nat -> (4 < ncol g0)%nat -> (fluxes <> [] -> 5 + length fluxes <= ncol g0)%nat ->
  arr (nrow g0) (ncol g0) (fun r c x => if Nat.leb 5 c && Nat.ltb c (5 + length fluxes) then near (1/10) (nth (c - 5) fluxes 0) x else putk (sampled g0) 4 (near (1/10) T) r c x) g ->
  simple_over T fluxes (row_of g0 r) (row_of g r).
Proof.
  intros Hr L4 Lf A. assert (D := A). destruct D as (Rn & Cn & V). unfold simple_over. rewrite !row_len. split; [exact Cn|]. split.
  { apply firstn_ext. intros i Hi. eapply same_col; [exact A|reflexivity|exact Hr|]. intros x Hx. cbn beta in Hx. apply band_out in Hx; [|lia]. unfold putk in Hx. destruct (Nat.eqb i 4) eqn:E; [apply Nat.eqb_eq in E; lia|exact Hx]. }
  split; [colgoal A Hr ltac:(fun Hx => exact Hx)|]. split.
  { destruct fluxes as [|f fl]; [intros b f' E; destruct b; discriminate|]. eapply arr_bands; [|apply Lf; discriminate|exact A|exact Hr]. intros c x Hc Hx. cbn beta in Hx. eapply band_in; [exact Hc|exact Hx]. }
  intros i Hi. eapply same_col; [exact A|reflexivity|exact Hr|]. intros x Hx. cbn beta in Hx. apply band_after in Hx; [|exact Hi]. unfold putk in Hx. destruct (Nat.eqb i 4) eqn:E; [apply Nat.eqb_eq in E; lia|exact Hx].
Qed.
Lemma bdf_over_rows T fluxes g0 g r : (r < nrow g0)%nat -> (5 < ncol g0)%nat -> (fluxes <> [] -> 6 + length fluxes <= ncol g0)%nat ->
  arr (nrow g0) (ncol g0) (fun r c x => if Nat.leb 6 c && Nat.ltb c (6 + length fluxes) then near (1/10) (nth (c - 6) fluxes 0) x else putk (putk (sampled g0) 4 (near (1/10) T)) 5 (between (4/10) (6/10)) r c x) g ->
  bdf_over T fluxes (row_of g0 r) (row_of g r).
Proof.
  intros Hr L4 Lf A. assert (D := A). destruct D as (Rn & Cn & V). unfold bdf_over. rewrite !row_len. split; [exact Cn|]. split.
  { apply firstn_ext. intros i Hi. eapply same_col; [exact A|reflexivity|exact Hr|]. intros x Hx. cbn beta in Hx. apply band_out in Hx; [|lia]. unfold putk in Hx. destruct (Nat.eqb i 5) eqn:E; [apply Nat.eqb_eq in E; lia|]. destruct (Nat.eqb i 4) eqn:E'; [apply Nat.eqb_eq in E'; lia|exact Hx]. }
  split; [colgoal A Hr ltac:(fun Hx => exact Hx)|]. split; [colgoal A Hr ltac:(fun Hx => exact Hx)|]. split.
  { destruct fluxes as [|f fl]; [intros b f' E; destruct b; discriminate|]. eapply arr_bands; [|apply Lf; discriminate|exact A|exact Hr]. intros c x Hc Hx. cbn beta in Hx. eapply band_in; [exact Hc|exact Hx]. }
  intros i Hi. eapply same_col; [exact A|reflexivity|exact Hr|]. intros x Hx. cbn beta in Hx. apply band_after in Hx; [|exact Hi]. unfold putk in Hx. destruct (Nat.eqb i 5) eqn:E; [apply Nat.eqb_eq in E; lia|]. destruct (Nat.eqb i 4) eqn:E'; [apply Nat.eqb_eq in E'; lia|exact Hx].
Qed.

(** the rows before the repair, and after *)
Lemma tfluxprior_before draw T fluxes (P : jprior W) n k (Q : gout -> Prop) : (forall c n, total W (draw c n) (vals n (near (1/10) c))) ->
  (forall g, nrow g = n -> (4 < ncol g)%nat -> (forall r, (r < n)%nat -> kept (simple_over T fluxes) P (row_of g r)) -> holds W (k g) Q) ->
  holds W (do g <- sampleN W P n; do r <- around_1u W G T n; do g <- setcol W g 4 r; do g <- set_bands W draw fluxes 5 n g; k g) Q.
Proof.
  intros Hd H. eapply holds_bind; [apply holds_sampleN|]. intros g0 H0. hstep ltac:(apply total_around_1u; exact HG). rename a into r. destruct H1 as [Lr Fr].
  eapply holds_bind; [apply (holds_setcol _ _ _ _ _ _ _ (arr_sampled g0) Fr)|]. intros g1 (A1 & J & L). rewrite Lr in L.
  eapply holds_bind; [apply (holds_set_bands draw Hd _ _ _ _ _ _ _ A1)|]. intros g2 (A2 & Lf). assert (D := A2). destruct D as (Rn & Cn & _). apply H; [congruence|lia|].
  intros r' Hr. exists (row_of g0 r'). split; [apply H0; lia|]. apply simple_over_rows; [lia|exact J|exact Lf|exact A2].
Qed.
Lemma tfluxprior_range draw T fluxes (P : jprior W) n : (forall c n, total W (draw c n) (vals n (near (1/10) c))) ->
  holds W (do g <- sampleN W P n; do r <- around_1u W G T n; do g <- setcol W g 4 r; do g <- set_bands W draw fluxes 5 n g; do g <- fix_guess_TFlux W P g; ret (finish_guess n g))
    (fun o => length (rows o) = n /\ Forall (fun row => kept (simple_over T fluxes) P row \/ retailed P row) (rows o)).
Proof.
  intros Hd. apply (tfluxprior_before draw T fluxes P n (fun g => do g <- fix_guess_TFlux W P g; ret (finish_guess n g)) _ Hd). intros g N C4 H. unfold fix_guess_TFlux.
  eapply holds_bind; [apply (fix_all W _ (fun r row => kept (simple_over T fluxes) P row \/ retailed P row))|].
  - intros r Hr. eapply holds_weaken; [|apply fix_TFlux_range; [repeat constructor|rewrite row_len; exact C4]].
    intros row [->|(A & B & t & Ht & D)]; [left; apply H; lia|]. right. destruct (H r) as (s & Hs & O); [lia|]. destruct O as (O1 & O2 & _). exists s, t. repeat split; try assumption; congruence.
  - intros g' (A & B & C). apply holds_ret. apply rows_all; [lia|]. intros r Hr. apply C. lia.
Qed.
Lemma tfluxprior_allowed draw T fluxes (P : jprior W) n : (forall c n, total W (draw c n) (vals n (near (1/10) c))) -> proper P -> draws_allowed P -> separable P ->
  holds W (do g <- sampleN W P n; do r <- around_1u W G T n; do g <- setcol W g 4 r; do g <- set_bands W draw fluxes 5 n g; do g <- fix_guess_TFlux W P g; ret (finish_guess n g))
    (fun o => Forall (allowed P) (rows o)).
Proof.
  intros Hd Pr Da Sp. apply (tfluxprior_before draw T fluxes P n (fun g => do g <- fix_guess_TFlux W P g; ret (finish_guess n g)) _ Hd). intros g N C4 H. unfold fix_guess_TFlux.
  eapply holds_bind; [apply (fix_all W _ (fun r row => allowed P row))|].
  - intros r Hr. destruct (H r) as (s & Hs & O); [lia|]. destruct O as (O1 & O2 & _). apply (fix_TFlux_allowed W 4 0 1 [2; 3]%nat P _ s); try assumption; [lia|rewrite row_len; exact C4].
  - intros g' (A & B & C). apply holds_ret. apply rows_all; [lia|]. intros r Hr. apply C. lia.
Qed.
Lemma tflux_prior_range T fluxes P n : holds W (tflux_prior_guess W G T fluxes P n) (fun o => length (rows o) = n /\ Forall (fun row => kept (simple_over T fluxes) P row \/ retailed P row) (rows o)).
Proof. apply tfluxprior_range. intros. apply total_around_1u; exact HG. Qed.
Lemma tpsfflux_prior_range T fluxes P n : holds W (tpsfflux_prior_guess W G T fluxes P n) (fun o => length (rows o) = n /\ Forall (fun row => kept (simple_over T fluxes) P row \/ retailed P row) (rows o)).
Proof. apply tfluxprior_range. intros. apply total_around_u; exact HG. Qed.
Lemma tflux_prior_allowed T fluxes P n : proper P -> draws_allowed P -> separable P -> holds W (tflux_prior_guess W G T fluxes P n) (fun o => Forall (allowed P) (rows o)).
Proof. apply tfluxprior_allowed. intros. apply total_around_1u; exact HG. Qed.
Lemma tpsfflux_prior_allowed T fluxes P n : proper P -> draws_allowed P -> separable P -> holds W (tpsfflux_prior_guess W G T fluxes P n) (fun o => Forall (allowed P) (rows o)).
Proof. apply tfluxprior_allowed. intros. apply total_around_u; exact HG. Qed.

Lemma bdf_before T fluxes (P : jprior W) n (Q : gout -> Prop) :
  (forall g, nrow g = n -> (forall r, (r < n)%nat -> kept (bdf_over T fluxes) P (row_of g r)) -> holds W (tail_of (Some P) n g) Q) ->
  holds W (bdf_guess W G T fluxes P n) Q.
Proof.
  intros H. unfold bdf_guess. eapply holds_bind; [apply holds_sampleN|]. intros g0 H0. hstep ltac:(apply total_around_1u; exact HG). rename a into r. destruct H1 as [Lr Fr].
  eapply holds_bind; [apply (holds_setcol _ _ _ _ _ _ _ (arr_sampled g0) Fr)|]. intros g1 (A1 & J & L). rewrite Lr in L.
  hstep ltac:(apply (total_uni W G HG (4/10) (6/10)); lra). rename a into r2. destruct H1 as [Lr2 Fr2].
  eapply holds_bind; [apply (holds_setcol _ _ _ _ _ _ _ A1 Fr2)|]. intros g2 (A2 & J2 & L2).
  eapply holds_bind; [apply (holds_set_bands _ (fun c n => total_around_1u W G HG c n) _ _ _ _ _ _ _ A2)|]. intros g3 (A3 & Lf). assert (D := A3). destruct D as (Rn & Cn & _). apply H; [congruence|].
  intros r' Hr. exists (row_of g0 r'). split; [apply H0; lia|]. apply bdf_over_rows; [lia|exact J2|exact Lf|exact A3].
Qed.
Lemma bdf_range T fluxes P n : holds W (bdf_guess W G T fluxes P n) (fun o => length (rows o) = n /\ Forall (fun row => kept (bdf_over T fluxes) P row \/ prior_row P row) (rows o)).
Proof. apply bdf_before. intros g N H. apply tail_prior; assumption. Qed.
Lemma bdf_allowed T fluxes P n : proper P -> draws_allowed P -> holds W (bdf_guess W G T fluxes P n) (fun o => Forall (allowed P) (rows o)).
Proof. intros Pr Da. apply bdf_before. intros g N H. apply tail_allowed; assumption. Qed.
(** the bulge-disk guesser: what goes in columns 5 and 6 *)
Lemma bd_rows T fluxes g0 g r : (r < nrow g0)%nat -> (5 < ncol g0)%nat -> (fluxes <> [] -> 7 + length fluxes <= ncol g0)%nat ->
  arr (nrow g0) (ncol g0) (fun r c x => if Nat.leb 7 c && Nat.ltb c (7 + length fluxes) then near (1/10) (nth (c - 7) fluxes 0) x else putk (putk (sampled g0) 4 (near (1/10) T)) 5 (between (4/10) (6/10)) r c x) g ->
  bd_actual T fluxes (row_of g0 r) (row_of g r).
Proof.
  intros Hr L4 Lf A. assert (D := A). destruct D as (Rn & Cn & V). unfold bd_actual. rewrite !row_len. split; [exact Cn|]. split.
  { apply firstn_ext. intros i Hi. eapply same_col; [exact A|reflexivity|exact Hr|]. intros x Hx. cbn beta in Hx. apply band_out in Hx; [|lia]. unfold putk in Hx. destruct (Nat.eqb i 5) eqn:E; [apply Nat.eqb_eq in E; lia|]. destruct (Nat.eqb i 4) eqn:E'; [apply Nat.eqb_eq in E'; lia|exact Hx]. }
  split; [colgoal A Hr ltac:(fun Hx => exact Hx)|]. split; [colgoal A Hr ltac:(fun Hx => exact Hx)|]. split.
  { eapply same_col; [exact A|reflexivity|exact Hr|]. intros x Hx. cbn beta in Hx. apply band_out in Hx; [|lia]. exact Hx. }
  destruct fluxes as [|f fl]; [intros b f' E; destruct b; discriminate|]. eapply arr_bands; [|apply Lf; discriminate|exact A|exact Hr]. intros c x Hc Hx. cbn beta in Hx. eapply band_in; [exact Hc|exact Hx].
Qed.
Lemma bd_range T fluxes P n : holds W (bd_guess W G T fluxes P n) (fun o => length (rows o) = n /\ Forall (fun row => kept (bd_actual T fluxes) P row \/ prior_row P row) (rows o)).
Proof.
  unfold bd_guess. eapply holds_bind; [apply holds_sampleN|]. intros g0 H0. hstep ltac:(apply total_around_1u; exact HG). rename a into r. destruct H as [Lr Fr].
  eapply holds_bind; [apply (holds_setcol _ _ _ _ _ _ _ (arr_sampled g0) Fr)|]. intros g1 (A1 & J & L). rewrite Lr in L.
  hstep ltac:(apply (total_uni W G HG (4/10) (6/10)); lra). rename a into r2. destruct H as [Lr2 Fr2].
  eapply holds_bind; [apply (holds_setcol _ _ _ _ _ _ _ A1 Fr2)|]. intros g2 (A2 & J2 & L2).
  eapply holds_bind; [apply (holds_set_bands _ (fun c n => total_around_1u W G HG c n) _ _ _ _ _ _ _ A2)|]. intros g3 (A3 & Lf). assert (D := A3). destruct D as (Rn & Cn & _). apply tail_prior; [congruence|].
  intros r' Hr. exists (row_of g0 r'). split; [apply H0; lia|]. apply bd_rows; [lia|exact J2|exact Lf|exact A3].
Qed.
Lemma bd_allowed T fluxes P n : proper P -> draws_allowed P -> holds W (bd_guess W G T fluxes P n) (fun o => Forall (allowed P) (rows o)).
Proof.
  intros Pr Da. unfold bd_guess. eapply holds_bind; [apply holds_sampleN|]. intros g0 H0. hstep ltac:(apply total_around_1u; exact HG). rename a into r. destruct H as [Lr Fr].
  eapply holds_bind; [apply (holds_setcol _ _ _ _ _ _ _ (arr_sampled g0) Fr)|]. intros g1 (A1 & J & L). rewrite Lr in L.
  hstep ltac:(apply (total_uni W G HG (4/10) (6/10)); lra). rename a into r2. destruct H as [Lr2 Fr2].
  eapply holds_bind; [apply (holds_setcol _ _ _ _ _ _ _ A1 Fr2)|]. intros g2 (A2 & J2 & L2).
  eapply holds_bind; [apply (holds_set_bands _ (fun c n => total_around_1u W G HG c n) _ _ _ _ _ _ _ A2)|]. intros g3 (A3 & Lf). assert (D := A3). destruct D as (Rn & Cn & _). apply tail_allowed; [assumption|assumption|congruence].
Qed.
End More.
