(** Proofs for C151 *)
From Verif Require Import Base Pixels_Model Joint_Model Joint_Spec Joint_Proofs Widths_Model Widths_Spec.
Local Open Scope R_scope.

Lemma rsum_nonneg l : Forall (fun x => 0 <= x) l -> 0 <= rsum l.
Proof. induction 1; [rewrite rsum_nil; lra|rewrite rsum_cons; lra]. Qed.
Lemma std_ok v n : (0 < n)%nat -> length v = n -> is_std v n (np_std v).
Proof.
  intros P L. assert (N : 0 < INR n) by (apply lt_0_INR, P). unfold is_std, np_std. rewrite L. split; [reflexivity|]. split; [apply sqrt_pos|].
  exists (rsum v / INR n). split; [field; lra|]. rewrite pow2_sqrt; [field; lra|].
  apply Rmult_le_pos; [|left; apply Rinv_0_lt_compat, N]. apply rsum_nonneg. apply Forall_forall. intros x I. apply in_map_iff in I. destruct I as (y & <- & _). apply pow2_ge_0.
Qed.
Lemma col_nth (m : arr2 R) c v : nrow m = length v -> (forall r, (r < length v)%nat -> at2 m r c = nth r v 0) -> col_values m c = v.
Proof.
  intros N H. unfold col_values. rewrite N. transitivity (map (fun r => nth r v 0) (seq 0 (length v))).
  - apply map_ext_in. intros r I. apply in_seq in I. apply H. lia.
  - clear. induction v as [|a v IH]; [reflexivity|]. cbn [length seq map nth]. f_equal. rewrite <- seq_shift, map_map. exact IH.
Qed.
Lemma drawn_full {W} (ps : list (sampler1 W)) : Forall full1 ps -> forall w n vs w', drawn ps w n vs w' -> length vs = length ps /\ Forall (fun v => length v = n) vs.
Proof.
  induction 1 as [|f ps F _ IH]; intros w n [|v vs] w' D; cbn [drawn] in D; try contradiction; [auto|]. destruct D as (w1 & E & D).
  destruct (IH _ _ _ _ D) as [L A]. split; [cbn; lia|]. constructor; [|exact A]. pose proof (F w n) as X. rewrite E in X. exact X.
Qed.
Theorem first_call W (cen g : sampler2 W) ps smp n w arrays :
  (forall w n, sample_spec cen g ps n w (smp w n)) -> full2 cen -> Forall full1 ps -> (0 < n)%nat ->
  exists out s, answer smp (new_prior w arrays) n = Some out /\ length out = (4 + length ps)%nat /\ widths_spec cen g ps n w out /\
    get_widths smp (new_prior w arrays) n = Some (s, length arrays) /\ ws_rng s = fst (smp w n).
Proof.
  intros SP FC FP P. destruct (SP w n) as (w1 & c1 & c2 & w2 & g1 & g2 & vs & EC & EG & D & NR & NC & AT).
  pose proof (FC w n) as L. rewrite EC in L. cbn in L. destruct L as [L1 L2]. destruct (drawn_full ps FP _ _ _ _ D) as [LV FV].
  destruct (smp w n) as [w3 m] eqn:ES. cbn [fst snd] in *. unfold answer, get_widths, new_prior; cbn [ws_cache ws_rng ws_arrays]. destruct (Nat.eqb_spec n 0) as [->|_]; [lia|]. rewrite ES.
  set (sg := map (fun c => np_std (col_values m c)) (seq 0 (ncol m))).
  assert (E : sg = np_std (col_values m 0) :: np_std (col_values m 1) :: np_std (col_values m 2) :: np_std (col_values m 3) :: map (fun c => np_std (col_values m c)) (seq 4 (length ps))).
  { unfold sg. rewrite NC. reflexivity. }
  assert (C1 : col_values m 0 = c1) by (apply col_nth; [lia|intros r I; rewrite AT by lia; reflexivity]).
  assert (C2 : col_values m 1 = c2) by (apply col_nth; [lia|intros r I; rewrite AT by lia; reflexivity]).
  rewrite E. cbn [put]. do 2 eexists. cbn [ws_arrays]. split; [rewrite nth_error_app2, Nat.sub_diag by lia; reflexivity|].
  split; [cbn [length]; rewrite map_length, seq_length; reflexivity|]. split; [|split; [reflexivity|reflexivity]].
  exists w1, c1, c2, w2, (g1, g2), vs, w3. split; [exact EC|]. split; [exact EG|]. split; [exact D|]. do 3 eexists. split; [reflexivity|].
  rewrite C1, C2. split; [apply std_ok; assumption|]. split; [apply std_ok; assumption|].
  assert (K : forall us k, (length us + k = length ps)%nat -> Forall (fun v => length v = n) us ->
    (forall r i, (r < n)%nat -> (i < length us)%nat -> at2 m r (4 + k + i) = nth r (nth i us []) 0) -> Forall2 (fun v s => is_std v n s) us (map (fun c => np_std (col_values m c)) (seq (4 + k) (length us)))).
  { intros us. induction us as [|u us IH]; intros k Lk A H; cbn [length seq map]; [constructor|]. inversion A as [|? ? Lu A']; subst. constructor.
    - assert (CV : col_values m (4 + k)%nat = u). { apply col_nth; [lia|]. intros r I. specialize (H r 0%nat ltac:(lia) ltac:(cbn; lia)). rewrite Nat.add_0_r in H. exact H. }
      rewrite CV. apply std_ok; [exact P|exact Lu].
    - change (S (4 + k))%nat with (4 + S k)%nat. apply IH; [cbn in Lk; lia|exact A'|]. intros r i R I. specialize (H r (S i) R ltac:(cbn; lia)). replace (4 + S k + i)%nat with (4 + k + S i)%nat by lia. exact H. }
  rewrite <- LV. apply (K vs 0%nat); [lia|exact FV|]. intros r i R I. rewrite Nat.add_0_r. rewrite AT by lia. reflexivity.
Qed.

(** ** asking again *)
Lemma cached W (smp : W -> nat -> W * arr2 R) s i n : ws_cache s = Some i -> get_widths smp s n = Some (s, i).
Proof. intros E. unfold get_widths. rewrite E. reflexivity. Qed.
Lemma run_cached W (smp : W -> nat -> W * arr2 R) s i l : ws_cache s = Some i -> asked l -> wrun smp s l = Some s.
Proof. intros E A. induction A as [|[n|] l H A IH]; [reflexivity| |contradiction]. cbn [wrun wstep]. rewrite (cached W smp s i n E). exact IH. Qed.
Theorem later_calls W (smp : W -> nat -> W * arr2 R) w arrays n l : (0 < n)%nat -> asked l ->
  exists s i out, get_widths smp (new_prior w arrays) n = Some (s, i) /\ answer smp (new_prior w arrays) n = Some out /\
    wrun smp (new_prior w arrays) (Ask n :: l) = Some s /\ ws_rng s = fst (smp w n) /\ (forall k, get_widths smp s k = Some (s, i) /\ answer smp s k = Some out).
Proof.
  intros P A. destruct (smp w n) as [w' m] eqn:E.
  assert (G : get_widths smp (new_prior w arrays) n = Some (mkWs w' (arrays ++ [put (put (map (fun c => np_std (col_values m c)) (seq 0 (ncol m))) 2 2) 3 2]) (Some (length arrays)), length arrays)).
  { unfold get_widths, new_prior; cbn [ws_cache ws_rng ws_arrays]. destruct (Nat.eqb_spec n 0) as [->|_]; [lia|]. rewrite E. reflexivity. }
  do 3 eexists. split; [exact G|]. split; [unfold answer; rewrite G; cbn [ws_arrays]; rewrite nth_error_app2, Nat.sub_diag by lia; reflexivity|].
  split; [cbn [wrun wstep]; rewrite G; eapply run_cached; [reflexivity|exact A]|]. split; [reflexivity|]. intros k. split; [reflexivity|].
  unfold answer, get_widths; cbn [ws_cache ws_arrays]. rewrite nth_error_app2, Nat.sub_diag by lia. reflexivity.
Qed.

(** ** the wrong widths *)
(** one size and one flux; the i-th value drawn is i *)
Definition count1 : sampler1 unit := fun w n => (w, map INR (seq 0 n)).
Definition count2 : sampler2 unit := fun w n => (w, (map INR (seq 0 n), map INR (seq 0 n))).
Definition count_sample := sep_sample count2 count2 [count1] [count1].
Lemma count_spec : forall w n, sample_spec count2 count2 ([count1] ++ [count1]) n w (count_sample w n).
Proof. intros. apply sep_sample_ok. Qed.
Lemma count_full : full2 count2 /\ Forall full1 [count1; count1].
Proof. split; [intros w n; cbn; rewrite map_length, seq_length; auto|repeat constructor; intros w n; cbn; rewrite map_length, seq_length; reflexivity]. Qed.
Theorem other_number : exists s i out, get_widths count_sample (new_prior tt []) 1 = Some (s, i) /\ answer count_sample s 2 = Some out /\
  ~ widths_spec count2 count2 [count1; count1] 2 (ws_rng s) out.
Proof.
  destruct (later_calls unit count_sample tt [] 1 [] ltac:(lia) ltac:(constructor)) as (s & i & out & G & A & _ & _ & K).
  destruct (first_call unit count2 count2 [count1; count1] count_sample 1 tt [] count_spec (proj1 count_full) (proj2 count_full) ltac:(lia)) as (o & s' & A' & _ & W1 & G' & _).
  assert (o = out) by congruence. subst o. exists s, i, out. split; [exact G|]. split; [apply K|]. intros W2.
  destruct W1 as (a1 & c1 & c2 & a2 & gs & vs & a3 & EC & _ & _ & s1 & s2 & ss & -> & (_ & P1 & m1 & M1 & V1) & _).
  destruct W2 as (b1 & d1 & d2 & b2 & hs & us & b3 & ED & _ & _ & t1 & t2 & ts & ET & (_ & Q1 & n1 & N1 & U1) & _). injection ET as <- _ _.
  unfold count2 in EC, ED. cbn [seq map] in EC, ED. injection EC as _ <- <-. injection ED as _ <- <-. cbn in M1, V1, N1, U1. nra.
Qed.
Theorem written : exists s out out', (exists i, get_widths count_sample (new_prior tt []) 2 = Some (s, i)) /\ answer count_sample (new_prior tt []) 2 = Some out /\
  (exists s', wrun count_sample (new_prior tt []) [Ask 2; Write 0 0 7] = Some s' /\ answer count_sample s' 2 = Some out') /\ out' <> out.
Proof.
  destruct (first_call unit count2 count2 [count1; count1] count_sample 2 tt [] count_spec (proj1 count_full) (proj2 count_full) ltac:(lia)) as (o & s & A & _ & W1 & G & _).
  destruct (later_calls unit count_sample tt [] 2 [] ltac:(lia) ltac:(constructor)) as (s0 & i & o0 & G0 & A0 & _ & _ & K).
  assert (s0 = s) by congruence. assert (o0 = o) by congruence. subst s0 o0. pose proof W1 as W1'.
  destruct W1 as (a1 & c1 & c2 & a2 & gs & vs & a3 & EC & _ & _ & s1 & s2 & ss & EO & (_ & P1 & m1 & M1 & V1) & _).
  unfold count2 in EC. cbn [seq map] in EC. injection EC as _ <- <-. cbn in M1, V1.
  assert (AR : ws_arrays s = [o] /\ ws_cache s = Some 0%nat).
  { unfold answer in A. rewrite G in A. cbn [length nth_error] in A. unfold get_widths, new_prior in G; cbn [ws_cache ws_rng ws_arrays Nat.eqb] in G.
    destruct (count_sample tt 2) as [w m]. injection G as <-. cbn [ws_arrays ws_cache app nth_error length] in *. split; [|reflexivity]. f_equal. congruence. }
  destruct AR as [AR CA]. exists s, o, (put o 0 7). split; [eauto|]. split; [exact A|]. split.
  - exists (mkWs (ws_rng s) (put_array (ws_arrays s) 0 0 7) (ws_cache s)). split; [cbn [wrun wstep]; rewrite G; reflexivity|]. unfold answer, get_widths; cbn [ws_cache ws_arrays]. rewrite CA, AR. reflexivity.
  - subst o. cbn [put]. intros E. injection E as E. subst s1. nra.
Qed.
Definition count_coellip := coellip_sample 1 count2 count2 count1 count1.
Theorem coellip_widths : exists out, answer count_coellip (new_prior tt []) 2 = Some out /\ ~ widths_spec count2 count2 [count1; count1] 2 tt out.
Proof.
  unfold answer, get_widths, new_prior; cbn [ws_cache ws_rng ws_arrays Nat.eqb]. destruct (count_coellip tt 2) as [w m] eqn:E. cbn [app length nth_error ws_arrays].
  unfold count_coellip, coellip_sample, count2, count1 in E. cbn in E. injection E as _ <-. eexists. split; [reflexivity|]. intros (a1 & c1 & c2 & a2 & gs & vs & a3 & _ & _ & D & s1 & s2 & ss & EO & _ & _ & F).
  cbn [ncol seq map put] in EO. injection EO as _ _ <-. destruct vs as [|v vs]; [contradiction|]. cbn [drawn] in D. destruct D as (w1 & E1 & _). unfold count1 in E1. cbn in E1. injection E1 as _ <-.
  inversion F as [|? ? ? ? (_ & P & mm & M & V) _]; subst. unfold np_std, col_values in V. cbn in M, V.
  set (q := sqrt _) in V. assert (Q : q * q = 1). { unfold q. rewrite sqrt_sqrt; [field|]. match goal with |- 0 <= ?x => replace x with 1 by field end. lra. }
  rewrite Rmult_1_r in V. nra.
Qed.
