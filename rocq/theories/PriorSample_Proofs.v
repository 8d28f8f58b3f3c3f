From Verif Require Import Base XReal Priors_Model Priors_Spec Priors_Proofs PriorSample_Model PriorSample_Spec.
Local Open Scope R_scope.

(** ** selection *)
Lemma selects_filter {A} (P : A -> Prop) (f : A -> bool) l :
  (forall x, In x l -> (f x = true <-> P x)) -> forall k, selects P l k <-> k = filter f l.
Proof.
  induction l as [|x l IH]; intros H k; cbn [filter].
  - split; [inversion 1; reflexivity|]. intros ->. constructor.
  - assert (Hx := H x (or_introl eq_refl)). assert (IH' := IH (fun y Hy => H y (or_intror Hy))). clear IH H.
    split.
    + inversion 1; subst.
      * rewrite (proj2 Hx H2). f_equal. apply IH'. assumption.
      * destruct (f x); [tauto|]. apply IH'. assumption.
    + intros ->. destruct (f x) eqn:E.
      * constructor; [tauto|]. apply IH'. reflexivity.
      * constructor; [|apply IH'; reflexivity]. intros K. apply Hx in K. congruence.
Qed.
Lemma selects_length {A} (P : A -> Prop) l k : selects P l k -> (length k <= length l)%nat.
Proof. induction 1; cbn; lia. Qed.
Lemma selects_all {A} (P : A -> Prop) l k : selects P l k -> Forall P k /\ incl k l.
Proof.
  induction 1 as [|x l k Hx H [IH1 IH2]|x l k Hx H [IH1 IH2]].
  - split; [constructor|intros x Hx; exact Hx].
  - split; [constructor; assumption|]. intros y [->|Hy]; [left; reflexivity|right; apply IH2; exact Hy].
  - split; [assumption|]. intros y Hy. right. apply IH2. exact Hy.
Qed.

(** ** the loop *)
Section Loop.
Context {W C A : Type}.
Variables (propose : W -> nat -> W * list C) (accept : C -> Prop) (value : C -> A).
Variable pass : W -> nat -> W * res (list A).
(** what a pass does *)
Definition pass_ok : Prop := forall w n, exists kept,
  pass w n = (fst (propose w n), Ok (map value kept)) /\ selects accept (snd (propose w n)) kept /\
  (length kept <= n)%nat.

Lemma put_exact {B} (done : list B) (v : list B) d k : (length v <= k)%nat ->
  put_slice (done ++ repeat d k) (length done) v = Ok ((done ++ v) ++ repeat d (k - length v)).
Proof.
  intros H. unfold put_slice. rewrite app_length, repeat_length.
  replace (Nat.leb _ _) with true by (symmetry; apply Nat.leb_le; lia). f_equal.
  rewrite firstn_app, Nat.sub_diag, firstn_all. cbn [firstn]. rewrite app_nil_r, <- app_assoc. do 2 f_equal.
  rewrite skipn_app. replace (skipn (length done + length v) done) with (@nil B)
    by (symmetry; apply skipn_all2; lia). cbn [app].
  replace (length done + length v - length done)%nat with (length v) by lia.
  clear. revert k. induction v as [|x v IH]; intros k; cbn [length skipn]; [rewrite Nat.sub_0_r; reflexivity|].
  destruct k as [|k]; [reflexivity|]. cbn [repeat skipn Nat.sub]. apply IH.
Qed.

Lemma loop_sound : pass_ok -> forall d fuel w done k w' r,
  loop pass fuel w (done ++ repeat d k) (length done) k = Some (w', r) ->
  exists vals, r = Ok (done ++ vals) /\ length vals = k /\ rejection propose accept value w k vals w'.
Proof.
  intros Hp d fuel. induction fuel as [|fuel IH]; intros w done k w' r; cbn [loop]; rewrite app_length, repeat_length.
  - destruct (Nat.ltb _ _) eqn:E; [discriminate|]. apply Nat.ltb_ge in E. intros [= <- <-].
    assert (k = 0)%nat by lia. subst k. exists []. split; [reflexivity|]. split; [reflexivity|constructor].
  - destruct (Nat.ltb _ _) eqn:E.
    + apply Nat.ltb_lt in E. destruct (Hp w k) as (kept & Ep & Hs & Hl). rewrite Ep. rewrite map_length.
      destruct (propose w k) as [w1 cs] eqn:Epr. cbn [fst snd] in *.
      destruct (Nat.ltb 0 (length kept)) eqn:E0.
      * rewrite put_exact by (rewrite map_length; exact Hl). intros H. rewrite map_length in H.
        replace (length done + length kept)%nat with (length (done ++ map value kept)) in H
          by (rewrite app_length, map_length; lia).
        apply IH in H. destruct H as (vals & -> & Hv & Hr).
        exists (map value kept ++ vals). split; [rewrite app_assoc; reflexivity|].
        split; [rewrite app_length, map_length; lia|].
        exact (rej_more _ _ _ w k w1 cs kept vals w' ltac:(lia) Epr Hs Hr).
      * apply Nat.ltb_ge in E0. assert (kept = []) by (destruct kept; [reflexivity|cbn in E0; lia]). subst kept.
        intros H. apply IH in H. destruct H as (vals & -> & Hv & Hr). exists vals. split; [reflexivity|]. split; [exact Hv|].
        refine (rej_more _ _ _ w k w1 cs [] vals w' ltac:(lia) Epr Hs _). cbn [length]. rewrite Nat.sub_0_r. exact Hr.
    + apply Nat.ltb_ge in E. intros [= <- <-].
      assert (k = 0)%nat by lia. subst k. exists []. split; [reflexivity|]. split; [reflexivity|constructor].
Qed.
Lemma selects_unique {B} (P : B -> Prop) l : forall k k', selects P l k -> selects P l k' -> k = k'.
Proof.
  induction l as [|x l IH]; intros k k' H H'; inversion H; inversion H'; subst; try tauto; try reflexivity.
  - f_equal. apply IH; assumption.
  - apply IH; assumption.
Qed.
(** a pass that may also raise *)
Lemma loop_sound_may : (forall w n, (exists w1 e, pass w n = (w1, Raise e)) \/ exists kept,
    pass w n = (fst (propose w n), Ok (map value kept)) /\ selects accept (snd (propose w n)) kept /\ (length kept <= n)%nat) ->
  forall d fuel w done k w' v, loop pass fuel w (done ++ repeat d k) (length done) k = Some (w', Ok v) ->
  exists vals, v = done ++ vals /\ length vals = k /\ rejection propose accept value w k vals w'.
Proof.
  intros Hp d fuel. induction fuel as [|fuel IH]; intros w done k w' v; cbn [loop]; rewrite app_length, repeat_length.
  - destruct (Nat.ltb _ _) eqn:E; [discriminate|]. apply Nat.ltb_ge in E. intros [= <- <-].
    assert (k = 0)%nat by lia. subst k. exists []. split; [reflexivity|]. split; [reflexivity|constructor].
  - destruct (Nat.ltb _ _) eqn:E.
    + apply Nat.ltb_lt in E. destruct (Hp w k) as [(w1 & e & ->)|(kept & Ep & Hs & Hl)]; [discriminate|]. rewrite Ep. rewrite map_length.
      destruct (propose w k) as [w1 cs] eqn:Epr. cbn [fst snd] in *.
      destruct (Nat.ltb 0 (length kept)) eqn:E0.
      * rewrite put_exact by (rewrite map_length; exact Hl). intros H. rewrite map_length in H.
        replace (length done + length kept)%nat with (length (done ++ map value kept)) in H by (rewrite app_length, map_length; lia).
        apply IH in H. destruct H as (vals & -> & Hv & Hr). exists (map value kept ++ vals). rewrite app_assoc. split; [reflexivity|].
        split; [rewrite app_length, map_length, Hv; lia|]. econstructor; [lia|exact Epr|exact Hs|exact Hr].
      * apply Nat.ltb_ge in E0. destruct kept; [|cbn in E0; lia]. intros H. apply IH in H. destruct H as (vals & -> & Hv & Hr). exists vals.
        split; [reflexivity|]. split; [exact Hv|]. change vals with (map value [] ++ vals). econstructor; [lia|exact Epr|exact Hs|rewrite Nat.sub_0_r; exact Hr].
    + apply Nat.ltb_ge in E. intros [= <- <-].
      assert (k = 0)%nat by lia. subst k. exists []. split; [reflexivity|]. split; [reflexivity|constructor].
Qed.
Lemma loop_complete : pass_ok -> forall d w k vals w', rejection propose accept value w k vals w' ->
  exists fuel, forall done, loop pass fuel w (done ++ repeat d k) (length done) k = Some (w', Ok (done ++ vals)).
Proof.
  intros Hp d w k vals w' H. induction H as [w|w n w1 cs kept rest w2 H0 Epr Hs Hr [fuel IH]].
  - exists 0%nat. intros done. cbn [loop]. rewrite app_length. cbn [repeat length]. rewrite Nat.add_0_r, Nat.ltb_irrefl.
    reflexivity.
  - exists (S fuel). intros done. cbn [loop]. rewrite app_length, repeat_length.
    replace (Nat.ltb (length done) (length done + n)) with true by (symmetry; apply Nat.ltb_lt; lia).
    destruct (Hp w n) as (kept' & Ep & Hs' & Hl). rewrite Ep. rewrite Epr in *. cbn [fst snd] in *.
    assert (kept' = kept) by exact (selects_unique _ _ _ _ Hs' Hs). subst kept'. rewrite map_length.
    destruct (Nat.ltb 0 (length kept)) eqn:E0.
    + rewrite put_exact by (rewrite map_length; exact Hl). rewrite map_length.
      replace (length done + length kept)%nat with (length (done ++ map value kept)) by (rewrite app_length, map_length; lia).
      rewrite IH, <- app_assoc. reflexivity.
    + apply Nat.ltb_ge in E0. assert (kept = []) by (destruct kept; [reflexivity|cbn in E0; lia]). subst kept.
      cbn [length] in IH. rewrite Nat.sub_0_r in IH. rewrite IH. reflexivity.
Qed.
Lemma loop_samples d : pass_ok ->
  samples_by propose accept value (fun fuel w n => loop pass fuel w (repeat d n) 0 n).
Proof.
  intros Hp w n. split.
  - intros fuel w' r H. exact (loop_sound Hp d fuel w [] n w' r H).
  - intros vals w' H. destruct (loop_complete Hp d w n vals w' H) as [fuel Hf]. exists fuel. exact (Hf []).
Qed.
Lemma rejection_length w n vals w' : rejection propose accept value w n vals w' ->
  (forall w n, length (snd (propose w n)) = n) -> length vals = n.
Proof.
  intros H Hl. induction H as [w|w n w1 cs kept rest w2 H0 Epr Hs Hr IH]; [reflexivity|].
  rewrite app_length, map_length, IH. assert (K := selects_length _ _ _ Hs). specialize (Hl w n). rewrite Epr in Hl.
  cbn in Hl. lia.
Qed.
Lemma rejection_values (P : A -> Prop) w n vals w' : rejection propose accept value w n vals w' ->
  (forall w n c, (0 < n)%nat -> In c (snd (propose w n)) -> accept c -> P (value c)) -> Forall P vals.
Proof.
  intros H Hv. induction H as [w|w n w1 cs kept rest w2 H0 Epr Hs Hr IH]; [constructor|].
  apply Forall_app. split; [|exact IH]. apply Forall_forall. intros x Hx. apply in_map_iff in Hx.
  destruct Hx as (c & <- & Hc). destruct (selects_all _ _ _ Hs) as [Ha Hi]. rewrite Forall_forall in Ha.
  apply (Hv w n c H0); [rewrite Epr; apply Hi; exact Hc|apply Ha; exact Hc].
Qed.
(** rejection sampling never ends when nothing can be accepted *)
Lemma rejection_hangs w n vals w' : rejection propose accept value w n vals w' ->
  (forall w n c, In c (snd (propose w n)) -> ~ accept c) -> n = 0%nat.
Proof.
  intros H Hv. induction H as [w|w n w1 cs kept rest w2 H0 Epr Hs Hr IH]; [reflexivity|].
  destruct kept as [|c kept]; [cbn in IH; lia|]. destruct (selects_all _ _ _ Hs) as [Ha Hi]. inversion Ha; subst.
  exfalso. apply (Hv w n c); [|assumption]. rewrite Epr. apply Hi. left. reflexivity.
Qed.
End Loop.
Lemma values_of {W C A} (propose : W -> nat -> W * list C) accept (value : C -> A) run (P : A -> Prop) :
  samples_by propose accept value run ->
  (forall w n c, (0 < n)%nat -> In c (snd (propose w n)) -> accept c -> P (value c)) -> all_values P run.
Proof.
  intros H Hv fuel w n w' vals E. destruct (H w n) as [Hs _]. destruct (Hs _ _ _ E) as (vals' & [= <-] & Hl & Hr).
  split; [exact Hl|]. exact (rejection_values _ _ _ P _ _ _ _ Hr Hv).
Qed.
Lemma hangs_of {W C A} (propose : W -> nat -> W * list C) accept (value : C -> A) run :
  samples_by propose accept value run -> (forall w n c, In c (snd (propose w n)) -> ~ accept c) ->
  forall fuel w n, (0 < n)%nat -> run fuel w n = None.
Proof.
  intros H Hv fuel w n Hn. destruct (run fuel w n) as [[w' r]|] eqn:E; [|reflexivity].
  destruct (H w n) as [Hs _]. destruct (Hs _ _ _ E) as (vals' & _ & Hl & Hr).
  apply rejection_hangs in Hr; [lia|exact Hv].
Qed.

(** ** the samplers *)
Section S.
Variables (W : Type) (G : rng W).
Hypothesis HG : good_rng G.
Lemma uni_len w a b n : length (snd (uniform G w a b n)) = n. Proof. apply HG. Qed.
Lemma nor_len w a b n : length (snd (rnormal G w a b n)) = n. Proof. apply HG. Qed.
Lemma uni_in w a b n x : a < b -> In x (snd (uniform G w a b n)) -> a <= x < b.
Proof. intros H Hx. destruct HG as (_ & _ & K). specialize (K w a b n H). rewrite Forall_forall in K. exact (K x Hx). Qed.

(** a pass whose accepted values are a filter *)
Lemma filter_pass {C} (propose : W -> nat -> W * list C) (accept : C -> Prop) (keep : C -> bool) {A} (value : C -> A) pass :
  (forall w n, length (snd (propose w n)) = n) ->
  (forall w n c, In c (snd (propose w n)) -> (keep c = true <-> accept c)) ->
  (forall w n, pass w n = (fst (propose w n), Ok (map value (filter keep (snd (propose w n)))))) ->
  pass_ok propose accept value pass.
Proof.
  intros Hl Ha Hp w n. exists (filter keep (snd (propose w n))). split; [apply Hp|].
  assert (S := selects_filter accept keep (snd (propose w n)) (fun x Hx => Ha w n x Hx)). split; [apply S; reflexivity|].
  rewrite <- (Hl w n) at 2. apply (selects_length accept). apply S. reflexivity.
Qed.
Lemma two_len f g w n : (forall w n, length (snd (f w n)) = n) -> (forall w n, length (snd (g w n)) = n) ->
  length (snd (two_draws (W:=W) f g w n)) = n.
Proof.
  intros Hf Hg. unfold two_draws. specialize (Hf w n). destruct (f w n) as [w1 a]. specialize (Hg w1 n).
  destruct (g w1 n) as [w2 b]. cbn [snd] in *. rewrite combine_length. lia.
Qed.

Lemma trunc_samples p : samples_by (fun w n => rnormal G w (tg_mean p) (tg_sigma p) n)
  (fun x => tg_min p < x < tg_max p) (fun x => x) (trunc_sample G p).
Proof.
  unfold trunc_sample. apply (loop_samples _ _ _ _ 0).
  apply (filter_pass _ _ (fun x => Rltb (tg_min p) x && Rltb x (tg_max p))%bool).
  - intros. apply nor_len.
  - intros w n x _. rewrite andb_true_iff. split.
    + intros [A B]. apply Rltb_true in A, B. lra.
    + intros [A B]. split; apply Rltb_t; assumption.
  - intros w n. unfold trunc_pass, masked. destruct (rnormal G w _ _ n) as [w' t]. cbn [fst snd]. rewrite map_id. reflexivity.
Qed.
Lemma trunc_values p : all_values (fun x => tg_min p < x < tg_max p) (trunc_sample G p).
Proof. eapply values_of; [apply trunc_samples|]. intros w n c _ _ H. exact H. Qed.
Lemma trunc_empty p : tg_max p <= tg_min p -> forall fuel w n, (0 < n)%nat -> trunc_sample G p fuel w n = None.
Proof. intros H. eapply hangs_of; [apply trunc_samples|]. intros w n c _ K. cbn in K. lra. Qed.

Lemma bounded_samples pdf lo hi : (forall w n, exists l, snd (pdf w n) = Ok l /\ length l = n) ->
  samples_by (fun w n => (fst (pdf w n), match snd (pdf w n) with Ok l => l | Raise _ => [] end))
    (fun x => lo < x < hi) (fun x => x) (bounded_sample (W:=W) pdf lo hi).
Proof.
  intros Hpdf. unfold bounded_sample. apply (loop_samples _ _ _ _ 0).
  apply (filter_pass _ _ (fun x => Rltb lo x && Rltb x hi)%bool).
  - intros w n. destruct (Hpdf w n) as (l & E & Hl). cbn [snd]. rewrite E. exact Hl.
  - intros w n x _. rewrite andb_true_iff. split.
    + intros [A B]. apply Rltb_true in A, B. lra.
    + intros [A B]. split; apply Rltb_t; assumption.
  - intros w n. unfold bounded_pass, masked. destruct (Hpdf w n) as (l & E & Hl). destruct (pdf w n) as [w' r]. cbn [fst snd] in *.
    subst r. cbn [bind]. rewrite map_id. reflexivity.
Qed.
Lemma bounded_values pdf lo hi : (forall w n, exists l, snd (pdf w n) = Ok l /\ length l = n) ->
  all_values (fun x => lo < x < hi) (bounded_sample (W:=W) pdf lo hi).
Proof. intros H. eapply values_of; [apply bounded_samples; exact H|]. intros w n c _ _ K. exact K. Qed.

(** candidates with a height *)
Lemma filter_combine {B} (f : B -> xr) (xs : list B) (ys : list R) :
  map (fun t => fst (fst t)) (filter (fun t => xltb (Fin (snd t)) (snd (fst t))) (combine (combine xs (map f xs)) ys)) =
  map fst (filter (fun c => xltb (Fin (snd c)) (f (fst c))) (combine xs ys)).
Proof.
  revert ys. induction xs as [|x xs IH]; intros [|y ys]; cbn [combine map filter fst snd]; try reflexivity.
  destruct (xltb (Fin y) (f x)); cbn [map fst]; rewrite IH; reflexivity.
Qed.

Lemma erf_samples erf p : samples_by
  (two_draws (fun w n => uniform G w (te_min p - 5 * te_wmin p) (te_max p + 5 * te_wmax p) n) (fun w n => uniform G w 0 1 n))
  (fun c => xltb (Fin (snd c)) (erf_prob_scalar erf p (Fin (fst c))) = true) fst (erf_sample G erf p).
Proof.
  unfold erf_sample. apply (loop_samples _ _ _ _ 0).
  apply (filter_pass _ _ (fun c => xltb (Fin (snd c)) (erf_prob_scalar erf p (Fin (fst c))))).
  - intros. apply two_len; intros; apply uni_len.
  - intros. reflexivity.
  - intros w n. unfold erf_pass, two_draws, masked. destruct (uniform G w _ _ n) as [w1 xs]. destruct (uniform G w1 0 1 n) as [w2 ys].
    cbn [fst snd]. unfold erf_prob_array. rewrite map_map.
    rewrite (filter_combine (fun x => erf_prob_scalar erf p (Fin x))). reflexivity.
Qed.
Lemma erf_values erf p : te_min p - 5 * te_wmin p < te_max p + 5 * te_wmax p ->
  all_values (fun x => te_min p - 5 * te_wmin p <= x < te_max p + 5 * te_wmax p /\
                       xltb (Fin 0) (erf_prob_scalar erf p (Fin x)) = true) (erf_sample G erf p).
Proof.
  intros Hx. eapply values_of; [apply erf_samples|]. intros w n [x y] _. unfold two_draws.
  destruct (uniform G w _ _ n) as [w1 xs] eqn:E1. destruct (uniform G w1 0 1 n) as [w2 ys] eqn:E2. cbn [fst snd].
  intros Hc Ha. assert (Ix := in_combine_l _ _ _ _ Hc). assert (Iy := in_combine_r _ _ _ _ Hc).
  assert (Kx := uni_in w _ _ n x Hx). rewrite E1 in Kx. assert (Ky := uni_in w1 0 1 n y ltac:(lra)). rewrite E2 in Ky.
  split; [exact (Kx Ix)|]. specialize (Ky Iy). destruct (erf_prob_scalar erf p (Fin x)) as [q| | |]; cbn [xltb] in *; try congruence.
  apply Rltb_true in Ha. apply Rltb_t. lra.
Qed.

(** sample1d of the shape priors, for any density evaluated element by element *)
Lemma g1d_samples prob gmax maxval : samples_by
  (two_draws (scaled (gmax - 1 / 10000) (fun w n => uniform G w 0 1 n)) (scaled (maxval * (11 / 10)) (fun w n => uniform G w 0 1 n)))
  (fun c => xltb (Fin (snd c)) (prob (Fin (fst c))) = true) fst (g1d_sample G (map prob) gmax maxval).
Proof.
  unfold g1d_sample. apply (loop_samples _ _ _ _ 0).
  apply (filter_pass _ _ (fun c => xltb (Fin (snd c)) (prob (Fin (fst c))))).
  - intros. apply two_len; intros w' n'; unfold scaled; assert (K := uni_len w' 0 1 n');
      destruct (uniform G w' 0 1 n'); cbn [snd] in *; rewrite map_length; exact K.
  - intros. reflexivity.
  - intros w n. unfold g1d_pass, two_draws, scaled, masked. destruct (uniform G w 0 1 n) as [w1 xs].
    destruct (uniform G w1 0 1 n) as [w2 ys]. cbn [fst snd]. rewrite map_map.
    rewrite (filter_combine (fun x => prob (Fin x))). reflexivity.
Qed.
Lemma g1d_values prob gmax maxval : 1 / 10000 < gmax -> gmax <= 1 ->
  all_values (fun g => 0 <= g < 1) (g1d_sample G (map prob) gmax maxval).
Proof.
  intros H1 H2. eapply values_of; [apply g1d_samples|]. intros w n [x y] _. unfold two_draws, scaled.
  destruct (uniform G w 0 1 n) as [w1 xs] eqn:E1. destruct (uniform G w1 0 1 n) as [w2 ys] eqn:E2. cbn [fst snd].
  intros Hc _. apply in_combine_l in Hc. apply in_map_iff in Hc. destruct Hc as (u & <- & Hu).
  assert (Kx := uni_in w 0 1 n u ltac:(lra)). rewrite E1 in Kx. specialize (Kx Hu). nra.
Qed.
Lemma g2d_values prob gmax maxval : 1 / 10000 < gmax -> gmax <= 1 ->
  forall fuel w n w' g1 g2, g2d_sample G (map prob) gmax maxval fuel w n = Some (w', Ok (g1, g2)) ->
    length g1 = n /\ length g2 = n /\
    exists gs ths, (exists w1, g1d_sample G (map prob) gmax maxval fuel w n = Some (w1, Ok gs)) /\
      (forall i, (i < n)%nat -> nth i g1 0 = nth i gs 0 * cos (2 * nth i ths 0) /\ nth i g2 0 = nth i gs 0 * sin (2 * nth i ths 0) /\
         0 <= nth i ths 0 < 2 * PI /\ nth i g1 0 ^ 2 + nth i g2 0 ^ 2 = nth i gs 0 ^ 2 /\ nth i g1 0 ^ 2 + nth i g2 0 ^ 2 < 1).
Proof.
  intros H1 H2 fuel w n w' g1 g2. unfold g2d_sample.
  destruct (g1d_sample G (map prob) gmax maxval fuel w n) as [[w1 [gs|e]]|] eqn:E; try discriminate.
  destruct (g1d_values prob gmax maxval H1 H2 fuel w n w1 gs E) as [Hl Hv].
  destruct (uniform G w1 0 1 n) as [w2 us] eqn:Eu. intros [= <- <- <-].
  assert (Hu := uni_len w1 0 1 n). rewrite Eu in Hu. cbn [snd] in Hu.
  set (ths := map (fun u => u * 2 * PI) us).
  assert (Ht : length ths = n) by (unfold ths; rewrite map_length; exact Hu).
  split; [rewrite map_length, combine_length; lia|]. split; [rewrite map_length, combine_length; lia|].
  exists gs, ths. split; [exists w1; reflexivity|]. intros i Hi.
  assert (N : forall (f : R * R -> R), nth i (map f (combine gs ths)) 0 = f (nth i gs 0, nth i ths 0)).
  { intros f. rewrite (nth_indep _ 0 (f (0, 0))) by (rewrite map_length, combine_length; lia).
    rewrite (map_nth f), combine_nth by lia. reflexivity. }
  rewrite !N. cbn [fst snd].
  rewrite Forall_forall in Hv. assert (Kg : 0 <= nth i gs 0 < 1) by (apply Hv; apply nth_In; lia). cbn in Kg.
  assert (C := sin2_cos2 (2 * nth i ths 0)). unfold Rsqr in C.
  split; [reflexivity|]. split; [reflexivity|].
  split.
  { unfold ths. rewrite (nth_indep _ 0 ((fun u => u * 2 * PI) 0)) by (rewrite map_length; lia).
    rewrite (map_nth (fun u => u * 2 * PI)). cbn beta.
    assert (Ku := uni_in w1 0 1 n (nth i us 0) ltac:(lra)). rewrite Eu in Ku. cbn [snd] in Ku.
    assert (Iu : In (nth i us 0) us) by (apply nth_In; lia). specialize (Ku Iu). assert (P := PI_RGT_0).
    split; [apply Rmult_le_pos; lra|apply Rmult_lt_compat_r; lra]. }
  set (g := nth i gs 0) in *. set (c := cos _) in *. set (s := sin _) in *.
  assert (Q : (g * c) ^ 2 + (g * s) ^ 2 = g ^ 2).
  { transitivity (g ^ 2 * (s * s + c * c)); [ring|]. rewrite C. ring. }
  split; [exact Q|]. rewrite Q. nra.
Qed.
Lemma ggauss_samples gmax sigma : samples_by
  (two_draws (fun w n => rnormal G w 0 sigma n) (fun w n => rnormal G w 0 sigma n))
  (fun g => sqrt (fst g ^ 2 + snd g ^ 2) < gmax - 1 / 10000) (fun g => g) (ggauss_sample G gmax sigma).
Proof.
  unfold ggauss_sample. apply (loop_samples _ _ _ _ (0, 0)).
  apply (filter_pass _ _ (fun g => Rltb (sqrt (fst g ^ 2 + snd g ^ 2)) (gmax - 1 / 10000))).
  - intros. apply two_len; intros; apply nor_len.
  - intros w n x _. split; [apply Rltb_true|apply Rltb_t].
  - intros w n. unfold ggauss_pass, two_draws, masked. destruct (rnormal G w _ _ n) as [w1 xs].
    destruct (rnormal G w1 _ _ n) as [w2 ys]. cbn [fst snd]. rewrite map_id. reflexivity.
Qed.
Lemma ggauss_values gmax sigma : gmax <= 1 ->
  all_values (fun g => fst g ^ 2 + snd g ^ 2 < 1) (ggauss_sample G gmax sigma).
Proof.
  intros Hg. eapply values_of; [apply ggauss_samples|]. intros w n [x y] _ _. cbn [fst snd]. intros H.
  assert (P : 0 <= x ^ 2 + y ^ 2) by (assert (A := pow2_ge_0 x); assert (B := pow2_ge_0 y); lra).
  assert (S := sqrt_pos (x ^ 2 + y ^ 2)). assert (Q := sqrt_sqrt _ P). nra.
Qed.
Lemma filter_combine2 {B} (f : B -> xr) (k : R -> xr) (xs : list B) (ys : list R) :
  map (fun t => fst (fst t)) (filter (fun t => xltb (snd t) (snd (fst t))) (combine (combine xs (map f xs)) (map k ys))) =
  map fst (filter (fun c => xltb (k (snd c)) (f (fst c))) (combine xs ys)).
Proof.
  revert ys. induction xs as [|x xs IH]; intros [|y ys]; cbn [combine map filter fst snd]; try reflexivity.
  destruct (xltb (k y) (f x)); cbn [map fst]; rewrite IH; reflexivity.
Qed.
Lemma ba_brute_samples p : samples_by
  (three_draws (fun w n => uniform G w (-1) 1 n) (fun w n => uniform G w (-1) 1 n) (fun w n => uniform G w 0 1 n))
  (fun c => xltb (xmul (ba_prob_scalar2d p (Fin 0) (Fin 0)) (Fin (snd c)))
                 (ba_prob_scalar2d p (Fin (fst (fst c))) (Fin (snd (fst c)))) = true) fst (ba_brute_sample G p).
Proof.
  unfold ba_brute_sample. apply (loop_samples _ _ _ _ (0, 0)).
  apply (filter_pass _ _ (fun c => xltb (xmul (ba_prob_scalar2d p (Fin 0) (Fin 0)) (Fin (snd c)))
                 (ba_prob_scalar2d p (Fin (fst (fst c))) (Fin (snd (fst c)))))).
  - intros w n. unfold three_draws. assert (A := uni_len w (-1) 1 n). destruct (uniform G w _ _ n) as [w1 xs].
    assert (B := uni_len w1 (-1) 1 n). destruct (uniform G w1 _ _ n) as [w2 ys].
    assert (C := uni_len w2 0 1 n). destruct (uniform G w2 _ _ n) as [w3 zs]. cbn [snd] in *.
    rewrite !combine_length. lia.
  - intros. reflexivity.
  - intros w n. unfold ba_brute_pass, three_draws, masked. destruct (uniform G w _ _ n) as [w1 xs].
    destruct (uniform G w1 _ _ n) as [w2 ys]. destruct (uniform G w2 _ _ n) as [w3 zs]. cbn [fst snd].
    rewrite ba_prob_agree.
    + rewrite map_map. cbn [fst snd].
      rewrite (filter_combine2 (fun g => ba_prob_scalar2d p (Fin (fst g)) (Fin (snd g))) (fun u => xmul (ba_prob_scalar2d p (Fin 0) (Fin 0)) (Fin u))).
      reflexivity.
    + apply Forall_forall. intros v Hv. apply in_map_iff in Hv. destruct Hv as (g & <- & _). split; eexists; reflexivity.
Qed.
Lemma ba_brute_values s A p : gba_init s A = Ok p -> 0 <= A ->
  all_values (fun g => fst g ^ 2 + snd g ^ 2 < 1) (ba_brute_sample G p).
Proof.
  intros Hp HA. eapply values_of; [apply ba_brute_samples|]. intros w n [[x y] u] _. unfold three_draws.
  destruct (uniform G w _ _ n) as [w1 xs]. destruct (uniform G w1 _ _ n) as [w2 ys].
  destruct (uniform G w2 0 1 n) as [w3 zs] eqn:E. cbn [fst snd]. intros Hc Ha.
  apply in_combine_r in Hc. assert (Ku := uni_in w2 0 1 n u ltac:(lra)). rewrite E in Ku. specialize (Ku Hc).
  apply gba_init_inv in Hp. destruct Hp as [Hs ->].
  destruct (Rlt_dec (x ^ 2 + y ^ 2) 1) as [K|K]; [exact K|exfalso].
  unfold ba_prob_scalar2d in Ha. cbn [gsq_of xmul xadd xsub xneg xltb] in Ha.
  rewrite (Rltb_t 0 (1 + - (0 * 0 + 0 * 0))) in Ha by lra.
  rewrite (Rltb_f 0 (1 + - (x * x + y * y))) in Ha by nra. cbn [xmul xexp xltb ba_A] in Ha.
  apply Rltb_true in Ha. rewrite Rmult_0_r in Ha.
  match type of Ha with context [exp ?e] => assert (Ee := exp_pos e); set (ee := exp e) in * end.
  assert (0 <= A * ((1 + - (0 * 0 + 0 * 0)) * (1 + - (0 * 0 + 0 * 0)) * ee) * u); [|lra].
  apply Rmult_le_pos; [|lra]. apply Rmult_le_pos; [exact HA|]. nra.
Qed.

(** ** samplers that do not reject *)
Lemma flat_values p : fl_min p < fl_max p ->
  all_direct (fun x => fl_min p <= x < fl_max p) (flat_sample G p).
Proof.
  intros H w n. unfold flat_sample. assert (L := uni_len w 0 1 n). destruct (uniform G w 0 1 n) as [w' u] eqn:E. cbn [snd] in *.
  rewrite map_length. split; [exact L|]. apply Forall_forall. intros x Hx. apply in_map_iff in Hx. destruct Hx as (r & <- & Hr).
  assert (K := uni_in w 0 1 n r ltac:(lra)). rewrite E in K. specialize (K Hr). nra.
Qed.
Lemma lmbounds_values p : lb_min p < lb_max p -> all_direct (fun x => lb_min p <= x < lb_max p) (lmbounds_sample G p).
Proof. intros H w n. split; [apply uni_len|]. apply HG. exact H. Qed.
Lemma sinh_values p : 0 < sh_scale p ->
  all_direct (fun x => sh_mean p - sh_scale p <= x < sh_mean p + sh_scale p) (sinh_sample G p).
Proof. intros H w n. split; [apply uni_len|]. apply HG. lra. Qed.
Lemma lognormal_values p : all_direct (fun x => shift_of (lg_shift p) < x) (lognormal_sample G p).
Proof.
  intros w n. unfold lognormal_sample. assert (L := nor_len w 0 1 n). destruct (rnormal G w 0 1 n) as [w' z]. cbn [snd] in *.
  rewrite map_length. split; [exact L|]. apply Forall_forall. intros x Hx. apply in_map_iff in Hx. destruct Hx as (r & <- & Hr).
  assert (K := exp_pos (lg_logmean p + lg_logsigma p * r)). destruct (lg_shift p); cbn [shift_of]; lra.
Qed.
Lemma zdisk1d_values r : r <> 0 -> all_direct (fun x => 0 <= x < Rabs r) (zdisk_sample1d G (zdisk_init r)).
Proof.
  intros H w n. unfold zdisk_sample1d. assert (L := uni_len w 0 1 n). destruct (uniform G w 0 1 n) as [w' u] eqn:E. cbn [snd] in *.
  rewrite map_length. split; [exact L|]. apply Forall_forall. intros x Hx. apply in_map_iff in Hx. destruct Hx as (v & <- & Hv).
  assert (K := uni_in w 0 1 n v ltac:(lra)). rewrite E in K. specialize (K Hv). cbn [zdisk_init zd_radius_sq].
  split; [apply sqrt_pos|]. rewrite <- sqrt_Rsqr_abs. unfold Rsqr. apply sqrt_lt_1_alt.
  assert (0 < r * r) by nra. nra.
Qed.
Lemma zdisk2d_values r : r <> 0 -> forall w n,
  let out := snd (zdisk_sample2d G (zdisk_init r) w n) in
  length (fst out) = n /\ length (snd out) = n /\
  Forall (fun x => fst x ^ 2 + snd x ^ 2 < r ^ 2) (combine (fst out) (snd out)).
Proof.
  intros H w n out. unfold out, zdisk_sample2d. assert (V := zdisk1d_values r H w n).
  destruct (zdisk_sample1d G (zdisk_init r) w n) as [w1 rs]. cbn [snd] in V. destruct V as [Lr Vr].
  assert (Lu := uni_len w1 0 1 n). destruct (uniform G w1 0 1 n) as [w2 us]. cbn [fst snd] in *.
  rewrite !map_length, !combine_length, map_length.
  split; [lia|]. split; [lia|]. apply Forall_forall. intros x Hx.
  assert (K : forall l : list (R * R), In x (combine (map (fun t => fst t * cos (snd t)) l) (map (fun t => fst t * sin (snd t)) l)) ->
    exists t, In t l /\ x = (fst t * cos (snd t), fst t * sin (snd t))).
  { induction l as [|t l IH]; cbn; [tauto|]. intros [<-|K]; [exists t; auto|]. destruct (IH K) as (t' & A & B). exists t'. auto. }
  apply K in Hx. destruct Hx as ([q th] & Hq & ->). cbn [fst snd]. apply in_combine_l in Hq.
  rewrite Forall_forall in Vr. specialize (Vr q Hq). cbn in Vr.
  assert (C := sin2_cos2 th). unfold Rsqr in C.
  replace ((q * cos th) ^ 2 + (q * sin th) ^ 2) with (q ^ 2 * (sin th * sin th + cos th * cos th)) by ring.
  rewrite C, Rmult_1_r. rewrite <- (pow2_abs r). assert (0 <= Rabs r) by apply Rabs_pos. nra.
Qed.

Lemma Forall2_map_l {A B} (P : B -> A -> Prop) (f : A -> B) l : Forall (fun u => P (f u) u) l -> Forall2 P (map f l) l.
Proof. induction 1; cbn; constructor; assumption. Qed.
Lemma flat_transformed p : fl_min p < fl_max p ->
  transformed (fun x => (x - fl_min p) / (fl_max p - fl_min p)) (fun w n => uniform G w 0 1 n) (flat_sample G p).
Proof.
  intros H w n. unfold flat_sample. destruct (uniform G w 0 1 n) as [w' u]. cbn [fst snd]. split; [reflexivity|].
  apply Forall2_map_l. apply Forall_forall. intros x _. field. lra.
Qed.
Lemma lognormal_transformed m s sh p : s <> 0 -> lognormal_init m s sh = Ok p ->
  transformed (fun x => (ln (x - shift_of sh) - lg_logmean p) / sqrt (lg_logvar p)) (fun w n => rnormal G w 0 1 n) (lognormal_sample G p).
Proof.
  intros Hs H w n. unfold lognormal_sample. destruct (rnormal G w 0 1 n) as [w' u]. cbn [fst snd]. split; [reflexivity|].
  apply Forall2_map_l. apply Forall_forall. intros x _.
  unfold lognormal_init in H. destruct (Rleb m 0) eqn:E; [discriminate|]. apply Rleb_false in E.
  assert (P : 0 < ln (1 + s ^ 2 / m ^ 2)).
  { rewrite <- ln_1. apply ln_increasing; [lra|]. assert (0 < s ^ 2 / m ^ 2); [|lra]. apply Rdiv_lt_0_compat; [|nra].
    assert (0 <= s ^ 2) by apply pow2_ge_0. assert (s ^ 2 <> 0) by (apply pow_nonzero; exact Hs). lra. }
  set (lv := ln (1 + s ^ 2 / m ^ 2)) in *. clearbody lv. set (lm := ln m - 1 / 2 * lv) in H. clearbody lm. injection H as <-.
  cbn [lg_shift lg_logmean lg_logsigma lg_logvar]. assert (Q := sqrt_lt_R0 _ P).
  assert (L : forall y, y = exp (lm + sqrt lv * x) -> ln y = lm + sqrt lv * x) by (intros y ->; apply ln_exp).
  destruct sh; cbn [shift_of]; (rewrite L; [field; lra|ring]).
Qed.
Lemma zdisk_transformed r : r <> 0 ->
  transformed (fun x => x ^ 2 / r ^ 2) (fun w n => uniform G w 0 1 n) (zdisk_sample1d G (zdisk_init r)).
Proof.
  intros H w n. unfold zdisk_sample1d. destruct (uniform G w 0 1 n) as [w' u] eqn:E. cbn [fst snd]. split; [reflexivity|].
  apply Forall2_map_l. apply Forall_forall. intros x Hx. cbn [zdisk_init zd_radius_sq].
  assert (K := uni_in w 0 1 n x ltac:(lra)). rewrite E in K. specialize (K Hx). rewrite pow2_sqrt.
  - field. exact H.
  - apply Rmult_le_pos; [apply pow2_ge_0|lra].
Qed.
Lemma zdisk2d_angles r : forall w n w1 rs w2 us,
  zdisk_sample1d G (zdisk_init r) w n = (w1, rs) -> uniform G w1 0 1 n = (w2, us) ->
  zdisk_sample2d G (zdisk_init r) w n =
    (w2, (map (fun i => nth i rs 0 * cos (2 * PI * nth i us 0)) (seq 0 n), map (fun i => nth i rs 0 * sin (2 * PI * nth i us 0)) (seq 0 n))).
Proof.
  intros w n w1 rs w2 us H1 H2. unfold zdisk_sample2d. rewrite H1, H2.
  assert (L1 : length rs = n).
  { unfold zdisk_sample1d in H1. assert (L := uni_len w 0 1 n). destruct (uniform G w 0 1 n). injection H1 as _ <-. rewrite map_length. exact L. }
  assert (L2 : length us = n) by (assert (L := uni_len w1 0 1 n); rewrite H2 in L; exact L).
  assert (K : forall f : R -> R, map (fun t => fst t * f (snd t)) (combine rs (map (fun u => 2 * PI * u) us)) =
    map (fun i => nth i rs 0 * f (2 * PI * nth i us 0)) (seq 0 n)).
  { intros f. clear H1 H2. revert n us L1 L2. induction rs as [|q rs IH]; intros n us L1 L2.
    - cbn in L1. subst n. reflexivity.
    - destruct us as [|u us]; [cbn in *; lia|]. destruct n as [|n]; [discriminate|]. cbn [map combine seq nth fst snd]. f_equal.
      rewrite <- seq_shift, map_map. cbn [nth]. apply IH; cbn in *; lia. }
  rewrite (K cos), (K sin). reflexivity.
Qed.
(** sample_brute of LogNormal: raises GMixRangeError when a candidate has no probability *)
Lemma brute_values m s sh p maxval : s <> 0 -> lognormal_init m s sh = Ok p ->
  forall fuel w n w' r, brute_sample G p maxval fuel w n = Some (w', r) ->
    r = Raise GMixRangeError \/ exists vals, r = Ok vals /\ length vals = n /\ Forall (fun x => shift_of sh < x) vals.
Proof.
  intros Hs Hp. unfold brute_sample. set (mv := match maxval with Some m => m | None => _ end).
  assert (Hsh := init_shift _ _ _ _ Hp).
  assert (P : forall w n, exists w1, brute_pass G p mv w n = (w1, Raise GMixRangeError) \/
     exists good, brute_pass G p mv w n = (w1, Ok good) /\ (length good <= n)%nat /\ Forall (fun x => shift_of sh < x) good).
  { intros w n. unfold brute_pass. assert (L1 := uni_len w 0 1 n). destruct (uniform G w 0 1 n) as [w1 us].
    assert (L2 := uni_len w1 0 1 n). destruct (uniform G w1 0 1 n) as [w2 hs]. cbn [snd] in *. exists w2.
    set (rv := map _ us). assert (Lr : length rv = n) by (unfold rv; rewrite map_length; exact L1).
    unfold lognormal_prob_array, lognormal_lnprob_array. rewrite Hsh.
    destruct (existsb _ (map (apply_shift sh) (map Fin rv))) eqn:E; cbn [bind]; [left; reflexivity|right].
    eexists. split; [reflexivity|]. split.
    - unfold masked. rewrite map_length. etransitivity; [apply (selects_length (fun c => xltb (Fin (snd c)) (snd (fst c)) = true))|].
      + apply (selects_filter _ (fun c => xltb (Fin (snd c)) (snd (fst c)))); [intros; reflexivity|reflexivity].
      + rewrite !combine_length. lia.
    - apply Forall_forall. intros x Hx. apply in_map_iff in Hx. destruct Hx as ([[a b] c] & <- & Hx). cbn [fst].
      apply filter_In in Hx. destruct Hx as [Hx _]. apply in_combine_l in Hx. apply in_combine_l in Hx.
      destruct (Rlt_dec (shift_of sh) a) as [K|K]; [exact K|exfalso].
      assert (T : existsb (fun v => xleb v (Fin 0)) (map (apply_shift sh) (map Fin rv)) = true).
      { apply existsb_exists. exists (Fin (a - shift_of sh)). split.
        - rewrite <- apply_shift_fin. apply in_map. apply in_map. exact Hx.
        - cbn. apply Rleb_t. lra. }
      congruence. }
  assert (L : forall fuel w done k w' r, Forall (fun x => shift_of sh < x) done ->
    loop (brute_pass G p mv) fuel w (done ++ repeat 0 k) (length done) k = Some (w', r) ->
    r = Raise GMixRangeError \/ exists vals, r = Ok vals /\ length vals = (length done + k)%nat /\ Forall (fun x => shift_of sh < x) vals).
  { induction fuel as [|fuel IH]; intros w done k w' r Hd; cbn [loop]; rewrite app_length, repeat_length.
    - destruct (Nat.ltb _ _) eqn:E; [discriminate|]. apply Nat.ltb_ge in E. intros [= <- <-].
      assert (k = 0)%nat by lia. subst k. right. exists done. cbn. rewrite app_nil_r. repeat split; [lia|exact Hd].
    - destruct (Nat.ltb _ _) eqn:E.
      + destruct (P w k) as (w1 & [-> |(good & -> & Hl & Hg)]); [intros [= <- <-]; left; reflexivity|].
        destruct (Nat.ltb 0 (length good)) eqn:E0.
        * rewrite put_exact by exact Hl.
          replace (length done + length good)%nat with (length (done ++ good)) by (rewrite app_length; lia).
          intros H. apply IH in H; [|apply Forall_app; split; assumption].
          destruct H as [H|(vals & -> & Hv & Hf)]; [left; exact H|right]. exists vals. split; [reflexivity|]. split; [|exact Hf].
          rewrite Hv, app_length. lia.
        * intros H. apply IH in H; assumption.
      + apply Nat.ltb_ge in E. intros [= <- <-].
        assert (k = 0)%nat by lia. subst k. right. exists done. cbn. rewrite app_nil_r. repeat split; [lia|exact Hd]. }
  intros fuel w n w' r H. apply (L fuel w [] n w' r (Forall_nil _)) in H. exact H.
Qed.
(** what it returns is drawn by rejection *)
Lemma brute_rejection m s sh p maxval : lognormal_init m s sh = Ok p ->
  forall fuel w n w' vals, brute_sample G p maxval fuel w n = Some (w', Ok vals) -> length vals = n /\
    rejection (two_draws (fun w n => let (w, u) := uniform G w 0 1 n in
                            (w, map (fun u => match maxval with Some v => v | None => m + 10 * s end * u + shift_of sh) u)) (fun w n => uniform G w 0 1 n))
      (fun c => exists q, lognormal_prob_scalar p (Fin (fst c)) = Ok q /\ xltb (Fin (snd c)) q = true) fst w n vals w'.
Proof.
  intros Hp fuel w n w' vals. unfold brute_sample. assert (Hsh := init_shift _ _ _ _ Hp).
  assert (Em : lg_mean p = m /\ lg_sigma p = s) by (unfold lognormal_init in Hp; revert Hp; rcase; [discriminate|]; intros [= <-]; split; reflexivity).
  destruct Em as [-> ->]. set (mv := match maxval with Some m => m | None => _ end). intros H.
  destruct (loop_sound_may (two_draws (fun w n => let (w, u) := uniform G w 0 1 n in (w, map (fun u => mv * u + shift_of sh) u)) (fun w n => uniform G w 0 1 n))
      (fun c => exists q, lognormal_prob_scalar p (Fin (fst c)) = Ok q /\ xltb (Fin (snd c)) q = true) fst (brute_pass G p mv)) with (d := 0) (fuel := fuel) (w := w) (done := @nil R) (k := n) (w' := w') (v := vals) as (v & E & L & R); [|exact H|].
  - clear - Hsh HG. intros w n. unfold brute_pass, two_draws. destruct (uniform G w 0 1 n) as [w1 us] eqn:Eu. assert (L1 := uni_len w 0 1 n). rewrite Eu in L1. cbn [snd] in L1.
    assert (Hm : map (fun u => match lg_shift p with Some s => mv * u + s | None => mv * u end) us = map (fun u => mv * u + shift_of sh) us).
    { apply map_ext. intros u. rewrite Hsh. destruct sh; cbn [shift_of]; ring. }
    cbv zeta. rewrite Hm. set (rv := map _ us). destruct (uniform G w1 0 1 n) as [w2 hs]. cbn [fst snd].
    unfold lognormal_prob_array, lognormal_lnprob_array. rewrite Hsh. destruct (existsb _ _) eqn:E; cbn [bind]; [left; eauto|right].
    rewrite !map_map. set (f := fun x => xexp (lognormal_value p (apply_shift sh (Fin x)))). unfold masked.
    assert (K := filter_combine2 f Fin rv hs). exists (filter (fun c => xltb (Fin (snd c)) (f (fst c))) (combine rv hs)). split.
    + do 2 f_equal. rewrite <- K. clear. revert hs. induction rv as [|x rv IH]; intros [|h hs]; cbn [combine map filter fst snd]; try reflexivity. destruct (xltb (Fin h) (f x)); cbn [map fst]; rewrite IH; reflexivity.
    + split.
      * assert (F : Forall (fun x => lognormal_prob_scalar p (Fin x) = Ok (f x)) rv).
        { apply Forall_forall. intros x Hx. unfold lognormal_prob_scalar, lognormal_lnprob_scalar. rewrite Hsh. cbv zeta. destruct (xleb (apply_shift sh (Fin x)) (Fin 0)) eqn:E'; [|reflexivity].
          exfalso. enough (existsb (fun v => xleb v (Fin 0)) (map (apply_shift sh) (map Fin rv)) = true) by congruence. apply existsb_exists. exists (apply_shift sh (Fin x)). split; [apply in_map, in_map; exact Hx|exact E']. }
        apply (selects_filter _ (fun c => xltb (Fin (snd c)) (f (fst c)))); [|reflexivity]. intros [x h] Hx. cbn [fst snd]. apply in_combine_l in Hx. rewrite Forall_forall in F. rewrite (F x Hx). split; [intros K'; eauto|intros (q & [= <-] & Q); exact Q].
      * etransitivity; [apply (selects_length (fun c => xltb (Fin (snd c)) (f (fst c)) = true)); apply (selects_filter _ (fun c => xltb (Fin (snd c)) (f (fst c)))); [intros; reflexivity|reflexivity]|].
        rewrite combine_length. unfold rv. rewrite map_length. lia.
  - cbn [app] in E. subst v. auto.
Qed.
End S.
