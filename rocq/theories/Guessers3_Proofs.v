From Verif Require Import Base XReal Shape_Model Shape_Spec Shape_Proofs Moments_Model Jacobian_Model Pixels_Model Priors_Model PriorSample_Model PriorSample_Spec Joint_Model
  GMix_Model GMixObj_Model Guessers_Model Guessers_Spec Guessers_Proofs Guessers2_Proofs.
From Verif Require PSFFlux_Model.
Local Open Scope R_scope.

Section More.
Variable W : Type.
Variable G : rng W.
Hypothesis HG : good_rng G.
Variable fuel : nat.
Local Notation M := (M W).
Ltac hstep t := eapply holds_bind; [apply total_holds; t|intros ? ?].
Ltac step t := eapply total_bind; [t|intros ? ?].

(** ** ParsGuesser *)
Lemma total_setcol_exact n m K g j l : arr n m K g -> (j < m)%nat -> length l = n -> total W (setcol W g j l) (arr n m (fun r c x => if Nat.eqb c j then x = nth r l 0 else K r c x)).
Proof.
  intros (Rn & Cn & V) J L w. unfold setcol. rewrite Rn, Cn. apply Nat.ltb_lt in J. rewrite J. rewrite (proj2 (Nat.eqb_eq _ _) L). eexists _, _. split; [reflexivity|].
  split; [reflexivity|]. split; [reflexivity|]. cbn [at2]. intros r c Hr Hc. destruct (Nat.eqb c j); [reflexivity|]. apply V; assumption.
Qed.
Lemma holds_setcol_exact n m K g j l : arr n m K g -> holds W (setcol W g j l) (fun g' => arr n m (fun r c x => if Nat.eqb c j then x = nth r l 0 else K r c x) g' /\ (j < m)%nat /\ length l = n).
Proof.
  intros A w w' g' E. unfold setcol in E. destruct (Nat.ltb j (ncol g)) eqn:J; [|discriminate]. destruct (Nat.eqb (length l) (nrow g)) eqn:L; [|discriminate].
  assert (D := A). destruct D as (Rn & Cn & _). apply Nat.ltb_lt in J. apply Nat.eqb_eq in L. split; [|split; congruence].
  assert (T := total_setcol_exact n m K g j l A ltac:(congruence) ltac:(congruence)).
  apply (total_holds _ _ _ T w w'). unfold setcol. apply Nat.ltb_lt in J. apply Nat.eqb_eq in L. rewrite J, L. exact E.
Qed.
Lemma small_mul w r : 0 <= w -> between (-1) 1 r -> small w (w * r).
Proof. unfold small, between. intros H B. split; nra. Qed.
Definition shape_near (b : Shape_Spec.C) (w1 w2 : R) (g : R * R) : Prop :=
  exists s1 s2, small w1 s1 /\ small w2 s2 /\ moebius b (s1, s2) g /\ in_disk g.
Lemma shape_loop_holds n s w1 w2 : 0 <= w1 -> 0 <= w2 -> holds W (shape_loop W G n s w1 w2) (shape_near (sh_g1 s, sh_g2 s) w1 w2).
Proof.
  intros P1 P2. induction n as [|n IH]; [intros w w' a E; discriminate|]. cbn [shape_loop]. hstep ltac:(apply (total_uni1 W G HG); lra). hstep ltac:(apply (total_uni1 W G HG); lra).
  destruct (Shape_get_sheared s (ByScalars (w1 * a) (Some (w2 * a0)))) as [s'|e] eqn:E.
  - apply holds_ret. unfold Shape_get_sheared in E. cbn [bind] in E. destruct (shear_reduced (sh_g1 s) (sh_g2 s) (w1 * a) (w2 * a0)) as [[g1 g2]|e] eqn:E'; [|discriminate]. cbn [bind] in E.
    apply Shape_init_inv in E. destruct E as (D & -> & -> & _). exists (w1 * a), (w2 * a0). split; [apply small_mul; assumption|]. split; [apply small_mul; assumption|]. split; [apply shear_moebius_iff; exact E'|exact D].
  - destruct e; try (intros w w' x K; discriminate). apply IH.
Qed.
Lemma shape_loop_total n s w1 w2 : 0 <= w1 -> 0 <= w2 -> w1 ^ 2 + w2 ^ 2 < 1 -> valid_shape s -> total W (shape_loop W G (S n) s w1 w2) (shape_near (sh_g1 s, sh_g2 s) w1 w2).
Proof.
  intros P1 P2 B V. cbn [shape_loop]. step ltac:(apply (total_uni1 W G HG); lra). step ltac:(apply (total_uni1 W G HG); lra).
  destruct (get_sheared_valid s (w1 * a) (w2 * a0)) as (s' & E & V' & _ & E'); [exact V| |].
  { unfold in_disk, cmod2. cbn [fst snd]. unfold between in *. assert (A1 : a * a <= 1) by nra. assert (A2 : a0 * a0 <= 1) by nra. assert (0 <= a * a) by nra. assert (0 <= a0 * a0) by nra. nra. }
  rewrite E. apply total_ret. exists (w1 * a), (w2 * a0). split; [apply small_mul; assumption|]. split; [apply small_mul; assumption|]. split; [apply shear_moebius_iff; exact E'|apply V'].
Qed.
Lemma repeatM_total {A} n (m : M A) Q : total W m Q -> total W (repeatM W n m) (fun l => length l = n /\ Forall Q l).
Proof. intros H. induction n as [|n IH]; cbn [repeatM]; [apply total_ret; auto|]. eapply total_bind; [exact H|]. intros a Ha. eapply total_bind; [exact IH|]. intros l [L F]. apply total_ret. cbn [length]. auto. Qed.

Definition clipped (g1 g2 : R) : R * R := if Rltb (8/10) (sqrt (g1 ^ 2 + g2 ^ 2)) then (g1 * ((8/10) / sqrt (g1 ^ 2 + g2 ^ 2)), g2 * ((8/10) / sqrt (g1 ^ 2 + g2 ^ 2))) else (g1, g2).
Lemma clipped_ok g1 g2 : shrunk (g1, g2) (clipped g1 g2) /\ in_disk (clipped g1 g2).
Proof.
  unfold clipped, shrunk, in_disk. assert (P : 0 <= g1 ^ 2 + g2 ^ 2) by nra. assert (S0 := sqrt_pos (g1 ^ 2 + g2 ^ 2)). assert (S1 := sqrt_sqrt _ P). set (s := sqrt _) in *.
  destruct (Rltb_spec (8/10) s) as [H|H].
  - assert (s <> 0) by lra. assert (C : cmod2 (g1 * (8 / 10 / s), g2 * (8 / 10 / s)) = 64/100).
    { unfold cmod2. cbn [fst snd]. replace (g1 * (8 / 10 / s) * (g1 * (8 / 10 / s)) + g2 * (8 / 10 / s) * (g2 * (8 / 10 / s))) with ((g1 ^ 2 + g2 ^ 2) * ((8/10) ^ 2 / (s * s))) by (field; assumption). rewrite <- S1. field. assumption. }
    rewrite C. split; [|lra]. right. split; [unfold cmod2; cbn [fst snd]; nra|]. split; [reflexivity|]. exists (8 / 10 / s). split; [apply Rdiv_lt_0_compat; lra|]. cbn [fst snd]. f_equal; ring.
  - assert (Q : cmod2 (g1, g2) <= 64 / 100) by (unfold cmod2; cbn [fst snd]; nra). split; [left; auto|lra].
Qed.
Lemma get_shape_unfold g1 g2 n width : get_shape_guess W G fuel g1 g2 n width (8/10) =
  do s <- of_res (Shape_init (fst (clipped g1 g2)) (snd (clipped g1 g2)));
  match width with w1 :: w2 :: _ => repeatM W n (shape_loop W G fuel s w1 w2) | _ => if Nat.eqb n 0 then ret [] else raise IndexError end.
Proof. unfold get_shape_guess, clipped. destruct (Rltb _ _); reflexivity. Qed.
Lemma get_shape_holds g1 g2 n w2 w3 : 0 <= w2 -> 0 <= w3 -> holds W (get_shape_guess W G fuel g1 g2 n [w2; w3] (8/10)) (fun l => length l = n /\ Forall (shape_near (clipped g1 g2) w2 w3) l).
Proof.
  intros P2 P3. rewrite get_shape_unfold. destruct (clipped_ok g1 g2) as [_ D]. destruct (clipped g1 g2) as [a b]. cbn [fst snd]. rewrite (Shape_init_ok a b D). eapply holds_bind; [apply holds_of_res|].
  intros s [= <-]. apply repeatM_holds. apply (shape_loop_holds fuel (mkShape a b _)); assumption.
Qed.
Lemma get_shape_total g1 g2 n w2 w3 : 0 <= w2 -> 0 <= w3 -> w2 ^ 2 + w3 ^ 2 < 1 -> (0 < fuel)%nat -> total W (get_shape_guess W G fuel g1 g2 n [w2; w3] (8/10)) (fun l => length l = n /\ Forall (shape_near (clipped g1 g2) w2 w3) l).
Proof.
  intros P2 P3 B F. rewrite get_shape_unfold. destruct (clipped_ok g1 g2) as [_ D]. destruct (clipped g1 g2) as [a b]. cbn [fst snd]. rewrite (Shape_init_ok a b D). intros w. cbn [bindM of_res].
  destruct fuel as [|f]; [lia|]. apply (repeatM_total n _ _ (shape_loop_total f (mkShape a b (sqrt (a * a + b * b))) w2 w3 P2 P3 B ltac:(split; [exact D|reflexivity])) w).
Qed.

(** the remaining columns *)
Lemma set_pars_total n m widths : Forall (fun w => 0 <= w) widths -> forall l start K g, (start + length l <= m)%nat -> (start + length l <= length widths)%nat -> arr n m K g ->
  total W (set_pars_cols W G (combine l (seq start (length l))) widths n g)
    (arr n m (fun r c x => if Nat.leb start c && Nat.ltb c (start + length l) then near (nth c widths 0) (nth (c - start) l 0) x else K r c x)).
Proof.
  intros Hw. induction l as [|p l IH]; intros start K g Lm Lw A.
  - apply total_ret. destruct A as (Rn & Cn & V). split; [exact Rn|]. split; [exact Cn|]. intros r c Hr Hc. cbn [length]. rewrite Nat.add_0_r.
    destruct (Nat.leb start c) eqn:E1'; destruct (Nat.ltb c start) eqn:E2'; cbn [andb]; try (apply V; assumption). apply Nat.leb_le in E1'. apply Nat.ltb_lt in E2'. lia.
  - cbn [length] in Lm, Lw. cbn [length seq combine set_pars_cols].
    assert (Ew : item widths start = Ok (nth start widths 0)) by (unfold item; rewrite (nth_error_nth' widths 0) by lia; reflexivity).
    assert (Pw : 0 <= nth start widths 0) by (rewrite Forall_forall in Hw; apply Hw, nth_In; lia).
    step ltac:(intros w; rewrite Ew; exists w, (nth start widths 0); split; [reflexivity|apply eq_refl]). subst a.
    step ltac:(apply (total_around_s W G HG (nth start widths 0) p n Pw)).
    eapply total_bind; [eapply total_setcol; [|exact A|exact H]; lia|]. intros g' A'.
    eapply total_weaken; [|apply (IH (S start)); [lia|lia|exact A']]. intros g2 (Rn & Cn & V). split; [exact Rn|]. split; [exact Cn|]. intros r c Hr Hc. specialize (V r c Hr Hc). cbn beta in V.
    destruct (Nat.leb (S start) c) eqn:E1'; cbn [andb] in V.
    * apply Nat.leb_le in E1'. replace (Nat.leb start c) with true by (symmetry; apply Nat.leb_le; lia). replace (start + S (length l))%nat with (S start + length l)%nat by lia.
      destruct (Nat.ltb c (S start + length l)); cbn [andb]; [replace (c - start)%nat with (S (c - S start)) by lia; exact V|]. unfold putk in V. destruct (Nat.eqb c start) eqn:E3; [apply Nat.eqb_eq in E3; lia|exact V].
    * apply Nat.leb_gt in E1'. unfold putk in V. destruct (Nat.eqb c start) eqn:E3.
      -- apply Nat.eqb_eq in E3. subst c. rewrite Nat.leb_refl. replace (Nat.ltb start (start + S (length l))) with true by (symmetry; apply Nat.ltb_lt; lia). cbn [andb]. rewrite Nat.sub_diag. exact V.
      -- apply Nat.eqb_neq in E3. replace (Nat.leb start c) with false by (symmetry; apply Nat.leb_gt; lia). exact V.
Qed.
Lemma skip4 (pars : list R) : (4 <= length pars)%nat -> skipn 4 (combine pars (seq 0 (length pars))) = combine (skipn 4 pars) (seq 4 (length (skipn 4 pars))).
Proof. destruct pars as [|a [|b [|c [|d l]]]]; cbn [length]; try lia. intros _. reflexivity. Qed.

Definition shape_in (p2 p3 w2 w3 : R) (l : list (R * R)) (n : nat) : Prop := length l = n /\ Forall (shape_near (clipped p2 p3) w2 w3) l.
Lemma pars_rows p0 p1 p2 p3 pl w0 w1 w2 w3 wl s n g r K : (r < n)%nat -> (length pl <= length wl)%nat -> shape_in p2 p3 w2 w3 s n ->
  arr n (4 + length pl) (fun r c x => if Nat.leb 4 c && Nat.ltb c (4 + length pl) then near (nth c (w0 :: w1 :: w2 :: w3 :: wl) 0) (nth (c - 4) pl 0) x else
    if Nat.eqb c 3 then x = nth r (map snd s) 0 else if Nat.eqb c 2 then x = nth r (map fst s) 0 else
     putk (putk K 0 (fun x => small w0 (x - p0))) 1 (fun x => small w1 (x - p1)) r c x) g ->
  pars_row (p0 :: p1 :: p2 :: p3 :: pl) (w0 :: w1 :: w2 :: w3 :: wl) (row_of g r).
Proof.
  intros Hr Lw [Ls Fs] A. assert (D := A). destruct D as (Rn & Cn & V). unfold pars_row. rewrite row_len. split; [exact Cn|]. split; [|split].
  - intros i p w Hi Ep Ew. eapply arr_col; [exact A|exact Hr|lia|]. intros x Hx. cbn beta in Hx. apply band_out in Hx; [|lia].
    destruct i as [|[|i]]; [| |lia]; cbn in Ep, Ew, Hx; injection Ep as <-; injection Ew as <-; exact Hx.
  - assert (N2 : nth_error (row_of g r) 2 = Some (nth r (map fst s) 0)).
    { rewrite row_nth by lia. f_equal. assert (H := V r 2%nat Hr ltac:(lia)). cbn beta in H. apply band_out in H; [|lia]. exact H. }
    assert (N3 : nth_error (row_of g r) 3 = Some (nth r (map snd s) 0)).
    { rewrite row_nth by lia. f_equal. assert (H := V r 3%nat Hr ltac:(lia)). cbn beta in H. apply band_out in H; [|lia]. exact H. }
    assert (I : In (nth r s (0, 0)) s) by (apply nth_In; lia). rewrite Forall_forall in Fs. destruct (Fs _ I) as (s1 & s2 & B1 & B2 & Mo & Dk).
    change 0 with (fst (0, 0)) in N2 at 1. rewrite map_nth in N2. change 0 with (snd (0, 0)) in N3 at 1. rewrite map_nth in N3. destruct (nth r s (0, 0)) as [g1 g2]. cbn [fst snd] in *.
    exists p2, p3, w2, w3, (clipped p2 p3), s1, s2, g1, g2. repeat (split; [first [reflexivity|assumption|apply clipped_ok]|]). assumption.
  - intros i p w Hi Ep Ew. assert (L : (i < 4 + length pl)%nat) by (assert (Q : nth_error (p0 :: p1 :: p2 :: p3 :: pl) i <> None) by congruence; apply nth_error_Some in Q; exact Q).
    eapply arr_col; [exact A|exact Hr|exact L|]. intros x Hx. cbn beta in Hx. apply band_in in Hx; [|lia].
    rewrite (nth_error_nth _ _ _ Ew) in Hx. destruct i as [|[|[|[|i]]]]; try lia. cbn [nth_error] in Ep. replace (S (S (S (S i))) - 4)%nat with i in Hx by lia. rewrite (nth_error_nth _ _ _ Ep) in Hx. exact Hx.
Qed.

Definition ptail (P : option (jprior W)) (nrand : option nat) (g : arr2 R) : M gout :=
  do g <- maybe_fix W P g; ret (match nrand with None => G1 (row_of g 0) | Some _ => G2 g end).
Lemma rows_out nrand g (Q : list R -> Prop) : nrow g = nrows nrand -> (forall r, (r < nrows nrand)%nat -> Q (row_of g r)) ->
  length (rows (match nrand with None => G1 (row_of g 0) | Some _ => G2 g end)) = nrows nrand /\ Forall Q (rows (match nrand with None => G1 (row_of g 0) | Some _ => G2 g end)).
Proof.
  intros N H. destruct nrand as [n|]; cbn [rows nrows] in *.
  - rewrite map_length, seq_length. split; [exact N|]. apply Forall_forall. intros x Hx. apply in_map_iff in Hx. destruct Hx as (r & <- & Hr). apply in_seq in Hr. apply H. lia.
  - split; [reflexivity|]. constructor; [|constructor]. apply H. lia.
Qed.
Lemma ptail_none nrand g (Q : list R -> Prop) : nrow g = nrows nrand -> (forall r, (r < nrows nrand)%nat -> Q (row_of g r)) ->
  total W (ptail None nrand g) (fun o => length (rows o) = nrows nrand /\ Forall Q (rows o)).
Proof. intros N H w. unfold ptail. cbn [maybe_fix]. eexists w, _. split; [reflexivity|]. apply rows_out; assumption. Qed.
Lemma ptail_prior P nrand g (Q : list R -> Prop) : nrow g = nrows nrand -> (forall r, (r < nrows nrand)%nat -> Q (row_of g r)) ->
  holds W (ptail (Some P) nrand g) (fun o => length (rows o) = nrows nrand /\ Forall (fun row => Q row \/ prior_row P row) (rows o)).
Proof.
  intros N H. unfold ptail. cbn [maybe_fix]. unfold fix_guess. eapply holds_bind; [apply (fix_all W _ (fun r row => Q row \/ prior_row P row))|].
  - intros r Hr. eapply holds_weaken; [|apply fix_row_range]. intros row [_ [->|K]]; [left; apply H; lia|right; exact K].
  - intros g' (A & B & C). apply holds_ret. apply rows_out; [lia|]. intros r Hr. apply C. lia.
Qed.
Lemma ptail_allowed P nrand g : proper P -> draws_allowed P -> nrow g = nrows nrand -> holds W (ptail (Some P) nrand g) (fun o => Forall (allowed P) (rows o)).
Proof.
  intros Pr Da N. unfold ptail. cbn [maybe_fix]. unfold fix_guess. eapply holds_bind; [apply (fix_all W _ (fun r row => allowed P row))|].
  - intros r Hr. apply (fix_row_allowed W 2); assumption.
  - intros g' (A & B & C). apply holds_ret. apply rows_out; [lia|]. intros r Hr. apply C. lia.
Qed.

Section Pars.
Variables (p0 p1 p2 p3 : R) (pl : list R) (w0 w1 w2 w3 : R) (wl : list R).
Local Notation pars := (p0 :: p1 :: p2 :: p3 :: pl).
Local Notation ws := (w0 :: w1 :: w2 :: w3 :: wl).
Hypothesis Lw : (length pl <= length wl)%nat.
Hypothesis Pw : Forall (fun w => 0 <= w) ws.
Lemma pars_after_shape P nrand g K s : shape_in p2 p3 w2 w3 s (nrows nrand) ->
  arr (nrows nrand) (4 + length pl) (putk (putk K 0 (fun x => small w0 (x - p0))) 1 (fun x => small w1 (x - p1))) g ->
  (forall Q, (forall g, nrow g = nrows nrand -> (forall r, (r < nrows nrand)%nat -> pars_row pars ws (row_of g r)) -> total W (ptail P nrand g) Q) ->
   total W (do g <- setcol W g 2 (map fst s); do g <- setcol W g 3 (map snd s); do g <- set_pars_cols W G (combine pl (seq 4 (length pl))) ws (nrows nrand) g; ptail P nrand g) Q) /\
  (forall Q, (forall g, nrow g = nrows nrand -> (forall r, (r < nrows nrand)%nat -> pars_row pars ws (row_of g r)) -> holds W (ptail P nrand g) Q) ->
   holds W (do g <- setcol W g 2 (map fst s); do g <- setcol W g 3 (map snd s); do g <- set_pars_cols W G (combine pl (seq 4 (length pl))) ws (nrows nrand) g; ptail P nrand g) Q).
Proof.
  intros Hs A. assert (T : total W (do g <- setcol W g 2 (map fst s); do g <- setcol W g 3 (map snd s); set_pars_cols W G (combine pl (seq 4 (length pl))) ws (nrows nrand) g)
     (fun g => nrow g = nrows nrand /\ forall r, (r < nrows nrand)%nat -> pars_row pars ws (row_of g r))).
  { assert (L1 : length (map fst s) = nrows nrand) by (rewrite map_length; apply Hs). assert (L2 : length (map snd s) = nrows nrand) by (rewrite map_length; apply Hs).
    eapply total_bind; [eapply total_setcol_exact; [exact A|lia|exact L1]|]. intros g1 A1. eapply total_bind; [eapply total_setcol_exact; [exact A1|lia|exact L2]|]. intros g2 A2.
    eapply total_weaken; [|eapply (set_pars_total (nrows nrand) (4 + length pl) ws Pw pl 4); [|cbn [length]|exact A2]; lia].
    intros g3 A3. split; [apply A3|]. intros r Hr. eapply (pars_rows p0 p1 p2 p3 pl w0 w1 w2 w3 wl s (nrows nrand) g3 r K); [exact Hr|exact Lw|exact Hs|exact A3]. }
  assert (Eq' : forall w, (do g <- setcol W g 2 (map fst s); do g <- setcol W g 3 (map snd s); do g <- set_pars_cols W G (combine pl (seq 4 (length pl))) ws (nrows nrand) g; ptail P nrand g) w =
    (do g <- (do g <- setcol W g 2 (map fst s); do g <- setcol W g 3 (map snd s); set_pars_cols W G (combine pl (seq 4 (length pl))) ws (nrows nrand) g); ptail P nrand g) w).
  { intros w. unfold bindM. destruct (setcol W g 2 (map fst s) w) as [[w1' [g1|e]]|]; try reflexivity. destruct (setcol W g1 3 (map snd s) w1') as [[w2' [g2|e]]|]; reflexivity. }
  split.
  - intros Q H w. rewrite Eq'. revert w. eapply (total_bind W); [exact T|]. intros g' [N R']. apply H; assumption.
  - intros Q H w w' a. rewrite Eq'. revert w w' a. eapply (holds_bind W); [apply total_holds; exact T|]. intros g' [N R']. apply H; assumption.
Qed.
Lemma pars_holds P nrand (Q : gout -> Prop) :
  (forall g, nrow g = nrows nrand -> (forall r, (r < nrows nrand)%nat -> pars_row pars ws (row_of g r)) -> holds W (ptail P nrand g) Q) -> holds W (pars_guess W G fuel pars (Some ws) P nrand) Q.
Proof.
  intros H. unfold pars_guess. change (match nrand with Some n => n | None => 1%nat end) with (nrows nrand). inversion Pw as [|? ? Q0 P1]; subst. inversion P1 as [|? ? Q1 P2]; subst. inversion P2 as [|? ? Q2 P3]; subst. inversion P3 as [|? ? Q3 P4]; subst.
  cbn [item nth_error]. assert (A0 := arr_zeros (nrows nrand) (length pars)).
  eapply holds_bind; [apply holds_of_res|]. intros ? [= <-]. eapply holds_bind; [apply holds_of_res|]. intros ? [= <-]. hstep ltac:(apply (total_offset_s W G HG w0 p0 (nrows nrand) Q0)).
  eapply holds_bind; [apply total_holds; eapply total_setcol; [|exact A0|exact H0]; cbn [length]; lia|]. intros g1 A1.
  eapply holds_bind; [apply holds_of_res|]. intros ? [= <-]. eapply holds_bind; [apply holds_of_res|]. intros ? [= <-]. hstep ltac:(apply (total_offset_s W G HG w1 p1 (nrows nrand) Q1)).
  eapply holds_bind; [apply total_holds; eapply total_setcol; [|exact A1|exact H1]; cbn [length]; lia|]. intros g2 A2.
  eapply holds_bind; [apply holds_of_res|]. intros ? [= <-]. eapply holds_bind; [apply holds_of_res|]. intros ? [= <-].
  eapply holds_bind; [apply (get_shape_holds p2 p3 (nrows nrand) w2 w3 Q2 Q3)|]. intros s Hs. rewrite skip4 by (cbn [length]; lia). cbn [skipn].
  exact (proj2 (pars_after_shape P nrand g2 (fun _ _ _ => True) s Hs A2) Q H).
Qed.
Lemma pars_total P nrand (Q : gout -> Prop) : w2 ^ 2 + w3 ^ 2 < 1 -> (0 < fuel)%nat ->
  (forall g, nrow g = nrows nrand -> (forall r, (r < nrows nrand)%nat -> pars_row pars ws (row_of g r)) -> total W (ptail P nrand g) Q) -> total W (pars_guess W G fuel pars (Some ws) P nrand) Q.
Proof.
  intros B Fu H. unfold pars_guess. change (match nrand with Some n => n | None => 1%nat end) with (nrows nrand). inversion Pw as [|? ? Q0 P1]; subst. inversion P1 as [|? ? Q1 P2]; subst. inversion P2 as [|? ? Q2 P3]; subst. inversion P3 as [|? ? Q3 P4]; subst.
  cbn [item nth_error]. assert (A0 := arr_zeros (nrows nrand) (length pars)).
  assert (O : forall a : R, total W (of_res (Ok a)) (fun b => b = a)) by (intros a w; exists w, a; split; reflexivity).
  eapply total_bind; [apply O|]. intros ? ->. eapply total_bind; [apply O|]. intros ? ->. step ltac:(apply (total_offset_s W G HG w0 p0 (nrows nrand) Q0)).
  eapply total_bind; [eapply total_setcol; [|exact A0|exact H0]; cbn [length]; lia|]. intros g1 A1.
  eapply total_bind; [apply O|]. intros ? ->. eapply total_bind; [apply O|]. intros ? ->. step ltac:(apply (total_offset_s W G HG w1 p1 (nrows nrand) Q1)).
  eapply total_bind; [eapply total_setcol; [|exact A1|exact H1]; cbn [length]; lia|]. intros g2 A2.
  eapply total_bind; [apply O|]. intros ? ->. eapply total_bind; [apply O|]. intros ? ->.
  eapply total_bind; [apply (get_shape_total p2 p3 (nrows nrand) w2 w3 Q2 Q3 B Fu)|]. intros s Hs. rewrite skip4 by (cbn [length]; lia). cbn [skipn].
  exact (proj1 (pars_after_shape P nrand g2 (fun _ _ _ => True) s Hs A2) Q H).
Qed.
End Pars.
Lemma pars_default pars P nrand : pars_guess W G fuel pars None P nrand = pars_guess W G fuel pars (Some (default_widths pars)) P nrand.
Proof. reflexivity. Qed.
Lemma default_form p0 p1 p2 p3 pl : default_widths (p0 :: p1 :: p2 :: p3 :: pl) = 2/100 :: 2/100 :: 1/10 :: 1/10 :: map (fun _ => 1/10) pl.
Proof.
  unfold default_widths. cbn [length seq map Nat.ltb Nat.leb]. do 4 f_equal. assert (H : forall k, (2 <= k)%nat -> map (fun i : nat => if Nat.ltb i 2 then 2 / 100 else 1 / 10) (seq k (length pl)) = map (fun _ => 1 / 10) pl).
  { induction pl as [|x pl IH]; intros k Hk; [reflexivity|]. cbn [length seq map]. replace (Nat.ltb k 2) with false by (symmetry; apply Nat.ltb_ge; lia). f_equal. apply IH. lia. }
  apply H. lia.
Qed.
End More.
