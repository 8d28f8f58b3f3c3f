From Verif Require Import Base Jacobian_Model Jacobian_Spec Pixels_Model GMix_Model GMix_Spec Render_Model Render_Spec Render_Proofs Obs_Model Obs_Spec ObsZone_Proofs Obs_Proofs ObsThm_Proofs ObsVal_Model SimObs_Model SimObs_Spec.
From Verif Require GMixObj_Model.
From Coq Require Import Sorting.Sorted Sorting.Permutation.
Local Open Scope R_scope.

(** ---- lists ---- *)
Lemma elements_prod {A} (a : arr2 A) : elements a = map (fun rc => at2 a (fst rc) (snd rc)) (list_prod (seq 0 (nrow a)) (seq 0 (ncol a))).
Proof.
  unfold elements. induction (seq 0 (nrow a)) as [|r l IH]; cbn; auto.
  rewrite map_app, map_map, IH. reflexivity.
Qed.
Lemma elements_in {A} (a : arr2 A) x : In x (elements a) <-> exists r c, inside a r c /\ at2 a r c = x.
Proof.
  rewrite elements_prod, in_map_iff. split.
  - intros ([r c] & H & I). apply in_prod_iff in I as [I1 I2]. apply in_seq in I1, I2. exists r, c. split; [split; lia|exact H].
  - intros (r & c & [I1 I2] & H). exists (r, c). split; [exact H|]. apply in_prod_iff. rewrite !in_seq. lia.
Qed.
Lemma elements_length {A} (a : arr2 A) : length (elements a) = (nrow a * ncol a)%nat.
Proof. rewrite elements_prod, map_length, prod_length, !seq_length. reflexivity. Qed.
Lemma filter_map {A B} (f : A -> B) (p : B -> bool) l : filter p (map f l) = map f (filter (fun x => p (f x)) l).
Proof. induction l; cbn; auto. destruct (p (f a)); cbn; rewrite IHl; reflexivity. Qed.
Lemma pos_map w : map (fun x => sqrt (1 / x)) (filter (Rltb 0) (elements w)) = errors w.
Proof.
  rewrite elements_prod, filter_map, map_map. unfold errors, good_pixels. apply map_ext_in. intros [r c] H.
  apply filter_In in H as [_ H]. apply Rltb_true in H. cbn [fst snd] in *. unfold Rdiv. rewrite Rmult_1_l.
  symmetry. rewrite sqrt_inv. reflexivity.
Qed.

(** ---- median ---- *)
Lemma insert_perm x l : Permutation (x :: l) (insert_sorted x l).
Proof.
  induction l as [|y l IH]; cbn; auto. destruct (Rleb x y); auto.
  rewrite perm_swap. apply perm_skip. exact IH.
Qed.
Lemma sort_perm l : Permutation l (np_sort l).
Proof. induction l as [|x l IH]; cbn; auto. rewrite <- insert_perm. apply perm_skip. exact IH. Qed.
Lemma insert_sorted_ok x l : Sorted Rle l -> Sorted Rle (insert_sorted x l).
Proof.
  induction 1 as [|y l S IH H]; cbn; [repeat constructor|].
  destruct (Rleb_spec x y) as [L|L]; [constructor; [constructor; auto|constructor; auto]|].
  constructor; auto. destruct l as [|z l]; cbn; [constructor; lra|].
  destruct (Rleb x z); constructor; try lra. apply HdRel_inv in H. exact H.
Qed.
Lemma sort_ok l : Sorted Rle (np_sort l).
Proof. induction l; cbn; [constructor|apply insert_sorted_ok; auto]. Qed.
Lemma median_spec l : l <> [] -> exists m, median l = Ok m /\ median_of l m.
Proof.
  intros N. unfold median. set (s := np_sort l). assert (L : length s = length l) by (symmetry; apply Permutation_length, sort_perm).
  assert (P : (0 < length l)%nat) by (destruct l; [congruence|cbn; lia]).
  assert (X : forall k, (k < length l)%nat -> exists a, nth_error s k = Some a).
  { intros k Hk. destruct (nth_error s k) eqn:E; eauto. apply nth_error_None in E. lia. }
  assert (D : (length l / 2 < length l)%nat) by (apply Nat.div_lt; lia).
  destruct (Nat.odd (length l)) eqn:O.
  - destruct (X (length l / 2)%nat D) as [a Ea]. rewrite Ea. exists a. split; [reflexivity|].
    exists s, a, a. split; [apply sort_perm|]. split; [apply sort_ok|]. rewrite L.
    apply Nat.odd_spec in O as [k Ek]. rewrite Ek in *. replace (2 * k + 1 - 1)%nat with (k * 2)%nat by lia. rewrite Nat.div_mul by lia.
    replace ((2 * k + 1) / 2)%nat with k in *; [|apply (Nat.div_unique _ _ _ 1); lia].
    split; [auto|]. split; [auto|lra].
  - rewrite <- Nat.negb_even in O. apply negb_false_iff in O. apply Nat.even_spec in O as [k Ek]. rewrite Ek in *.
    replace (2 * k)%nat with (k * 2)%nat in * by lia. rewrite Nat.div_mul in * by lia.
    destruct (X (k - 1)%nat ltac:(lia)) as [a Ea]. destruct (X k ltac:(lia)) as [b Eb]. rewrite Ea, Eb.
    eexists. split; [reflexivity|]. exists s, a, b. split; [apply sort_perm|]. split; [apply sort_ok|]. rewrite L.
    replace ((k * 2 - 1) / 2)%nat with (k - 1)%nat by (apply (Nat.div_unique _ _ _ 1); lia).
    rewrite Nat.div_mul by lia. auto.
Qed.

(** ---- the noise image ---- *)
Lemma pos_nonempty w : some_weight w <-> (0 < length (filter (Rltb 0) (elements w)))%nat.
Proof.
  split.
  - intros (r & c & I & P). assert (H : In (at2 w r c) (filter (Rltb 0) (elements w))).
    { apply filter_In. split; [apply elements_in; eauto|apply Rltb_t; auto]. }
    destruct (filter _ _); [destruct H|cbn; lia].
  - intros H. destruct (filter (Rltb 0) (elements w)) as [|x l] eqn:E; [cbn in H; lia|].
    assert (I : In x (filter (Rltb 0) (elements w))) by (rewrite E; left; auto).
    apply filter_In in I as [I P]. apply elements_in in I as (r & c & I & <-). apply Rltb_true in P. exists r, c. auto.
Qed.
Lemma filter_le {A} (p : A -> bool) l : (length (filter p l) <= length l)%nat.
Proof. induction l; cbn; auto. destruct (p a); cbn; lia. Qed.
Lemma filter_full {A} (p : A -> bool) l : length (filter p l) = length l -> Forall (fun x => p x = true) l.
Proof.
  induction l as [|x l IH]; cbn; intros H; constructor.
  - destruct (p x); auto. cbn in H. pose proof (filter_le p l). lia.
  - apply IH. destruct (p x); cbn in H; [lia|]. pose proof (filter_le p l). lia.
Qed.
Lemma errors_nonempty w : some_weight w -> errors w <> [].
Proof.
  intros S. apply pos_nonempty in S. rewrite <- pos_map. intros E. apply (f_equal (@length R)) in E. rewrite map_length in E. cbn in E. lia.
Qed.
Lemma err_spec w add_all f : some_weight w -> exists e, err_image w add_all f = Ok e /\ same_dims e w /\
  forall r c, inside w r c ->
    (0 < at2 w r c -> exists s, at2 e r c = s /\ s ^ 2 = factor f ^ 2 / at2 w r c /\ (0 <= factor f -> 0 <= s)) /\
    (at2 w r c <= 0 -> add_all = false -> at2 e r c = 0) /\
    (at2 w r c <= 0 -> add_all = true -> exists m, median_of (errors w) m /\ at2 e r c = m * factor f).
Proof.
  intros S. unfold err_image. pose proof (proj1 (pos_nonempty w) S) as P. apply Nat.ltb_lt in P. rewrite P.
  rewrite pos_map. destruct (median_spec (errors w) (errors_nonempty w S)) as (m & Em & Hm).
  assert (F : exists fill, (if add_all && negb (Nat.eqb (length (filter (Rltb 0) (elements w))) (nrow w * ncol w)) then median (errors w) else Ok 0) = Ok fill
     /\ (add_all = false -> fill = 0) /\ (add_all = true -> (exists r c, inside w r c /\ at2 w r c <= 0) -> fill = m)).
  { destruct add_all; cbn [andb].
    - destruct (Nat.eqb_spec (length (filter (Rltb 0) (elements w))) (nrow w * ncol w)) as [E|E]; cbn [negb].
      + exists 0. split; [auto|]. split; [auto|]. intros _ (r & c & I & L). exfalso. rewrite <- elements_length in E.
        apply filter_full in E. rewrite Forall_forall in E. specialize (E (at2 w r c) ltac:(apply elements_in; eauto)). apply Rltb_true in E. lra.
      + exists m. split; [auto|]. split; [discriminate|auto].
    - exists 0. split; [auto|]. split; [auto|discriminate]. }
  destruct F as (fill & -> & F1 & F2). cbn [bind]. eexists. split; [reflexivity|]. split; [split; reflexivity|].
  intros r c I. cbn [at2].
  assert (G : forall x, match f with None => x | Some f => x * f end = x * factor f) by (intros; destruct f; cbn; lra).
  rewrite G. split; [|split].
  - intros W. rewrite Rltb_t by auto. eexists. split; [reflexivity|]. unfold Rdiv. rewrite Rmult_1_l.
    assert (0 < / at2 w r c) by (apply Rinv_0_lt_compat; auto). split.
    + rewrite Rpow_mult_distr. replace (sqrt (/ at2 w r c) ^ 2) with (/ at2 w r c) by (rewrite <- Rsqr_pow2, Rsqr_sqrt; lra). ring.
    + intros. apply Rmult_le_pos; auto. apply sqrt_pos.
  - intros W A. rewrite Rltb_f by lra. rewrite F1 by auto. ring.
  - intros W A. rewrite Rltb_f by lra. exists m. split; auto. rewrite F2; auto. exists r, c; auto.
Qed.
Section S.
Variable W : Type.
Variable normal : W -> nat -> nat -> W * arr2 R.
Lemma no_weight_err w add_all f : ~ some_weight w -> err_image w add_all f = Ok (mkArr (nrow w) (ncol w) (fun _ _ => 10 ^ 15)).
Proof.
  intros N. unfold err_image. destruct (Nat.ltb_spec 0 (length (filter (Rltb 0) (elements w)))) as [L|L]; [|reflexivity].
  exfalso. apply N, pos_nonempty, L.
Qed.
Lemma some_weight_dec w : some_weight w \/ ~ some_weight w.
Proof.
  destruct (Nat.ltb_spec 0 (length (filter (Rltb 0) (elements w)))) as [L|L]; [left|right]; rewrite pos_nonempty; lia.
Qed.
Theorem noise_image_spec weight add_all f s s' z : normal s (nrow weight) (ncol weight) = (s', z) ->
  exists n, get_noise_image W normal weight add_all f (Some s) = (Some s', Ok n) /\ noise_law weight add_all f z n.
Proof.
  intros E. unfold get_noise_image. rewrite E. destruct (some_weight_dec weight) as [S|S].
  - destruct (err_spec weight add_all f S) as (e & -> & D & H). cbn [bind]. eexists. split; [reflexivity|]. split; [split; reflexivity|].
    intros _ r c I. cbn [at2]. destruct (H r c I) as (H1 & H2 & H3). split; [|split].
    + intros P. destruct (H1 P) as (x & Ex & X). exists x. rewrite Ex. auto.
    + intros P A. rewrite H2; auto. ring.
    + intros P A. destruct (H3 P A) as (m & M1 & M2). exists m. rewrite M2. auto.
  - rewrite no_weight_err by auto. cbn [bind]. eexists. split; [reflexivity|]. split; [split; reflexivity|]. intros S'. contradiction.
Qed.
Theorem noise_no_weight weight add_all f s s' z : normal s (nrow weight) (ncol weight) = (s', z) -> ~ some_weight weight ->
  exists n, get_noise_image W normal weight add_all f (Some s) = (Some s', Ok n) /\
    forall r c, at2 n r c = at2 z r c * 10 ^ 15.
Proof.
  intros E S. unfold get_noise_image. rewrite E, no_weight_err by auto. cbn [bind]. eexists. split; [reflexivity|]. reflexivity.
Qed.

(** ---- copies of values ---- *)
Lemma v_copy_sound v : sound v -> forall v', v_copy v = Ok v' -> v' = v.
Proof.
  induction 1 as [im w j opts g d st ig p D J G P IH]. intros v'. cbn [v_copy].
  destruct g as [g|]; [rewrite (G g eq_refl)|]; cbn [rmap bind].
  - destruct p as [p|].
    + destruct (v_copy p) as [q|] eqn:E; cbn [rmap bind]; [|discriminate]. rewrite (IH p eq_refl q E). rewrite J. cbn [bind].
      destruct (v_pixels _ _ _ _ _); cbn [bind]; [|discriminate]. rewrite (G g eq_refl). cbn. intros [= <-]. reflexivity.
    + cbn [bind]. rewrite J. cbn [bind].
      destruct (v_pixels _ _ _ _ _); cbn [bind]; [|discriminate]. rewrite (G g eq_refl). cbn. intros [= <-]. reflexivity.
  - destruct p as [p|].
    + destruct (v_copy p) as [q|] eqn:E; cbn [rmap bind]; [|discriminate]. rewrite (IH p eq_refl q E). rewrite J. cbn [bind].
      destruct (v_pixels _ _ _ _ _); cbn [bind]; [|discriminate]. intros [= <-]. reflexivity.
    + cbn [bind]. rewrite J. cbn [bind].
      destruct (v_pixels _ _ _ _ _); cbn [bind]; [|discriminate]. intros [= <-]. reflexivity.
Qed.
(** every observation of the memory model is sound *)
Lemma reads_sound m : good false m -> forall i v, reads m i v -> sound v.
Proof.
  intros G i v H. induction H; pose proof (good_ok _ _ _ _ G H) as O;
    destruct (ok_img _ _ O) as (im' & w' & A & B & C); destruct (ok_jac _ _ O) as (j' & D & E);
    rewrite H0 in A; rewrite H1 in B; rewrite H2 in D; injection A as <-; injection B as <-; injection D as <-;
    (constructor; [exact C|exact E|intros x Hx; apply (ok_gmix _ _ O x Hx)|]).
  - intros q [= <-]. exact IHreads.
  - discriminate.
Qed.

(** ---- the simulated image ---- *)
Lemma finite_image_spec im f : (forall r c, inside im r c -> at2 im r c = Some (f r c)) ->
  exists out, finite_image im = Ok out /\ same_dims out im /\ forall r c, inside im r c -> at2 out r c = f r c.
Proof.
  intros H. unfold finite_image.
  assert (A : forallb (fun x => match x with Some _ => true | None => false end) (elements im) = true).
  { apply forallb_forall. intros x Hx. apply elements_in in Hx as (r & c & I & <-). rewrite H by auto. reflexivity. }
  rewrite A. eexists. split; [reflexivity|]. split; [split; reflexivity|]. intros r c I. cbn. rewrite H by auto. reflexivity.
Qed.
Lemma seen_convolve g pg c : GMixObj_Model.obj_convolve g pg = Ok c -> gmix_convolve (GMixObj_Model.o_data g) (GMixObj_Model.o_data pg) = Ok (GMixObj_Model.o_data c).
Proof. unfold GMixObj_Model.obj_convolve. destruct (gmix_convolve _ _); cbn [bind]; [|discriminate]. intros [= <-]. reflexivity. Qed.
Lemma seen_convolve_ok g pg c : gmix_convolve (GMixObj_Model.o_data g) (GMixObj_Model.o_data pg) = Ok c ->
  exists x, GMixObj_Model.obj_convolve g pg = Ok x /\ GMixObj_Model.o_data x = c.
Proof. unfold GMixObj_Model.obj_convolve. intros ->. cbn [bind]. eexists. split; reflexivity. Qed.
Lemma sim_image_spec gm v conv d : sound v -> seen gm v conv d -> (forall x, d = Some x -> good_gmix x) ->
  exists im, get_simulated_image gm v conv = Ok im /\ same_dims im (v_image v) /\
    forall r c, inside im r c -> at2 im r c = model_flux d (v_jac v) r c.
Proof.
  intros S H G. unfold get_simulated_image, seen in *. destruct gm as [g|].
  - assert (X : exists x, (if conv then let* pg := get_psf_gmix v in GMixObj_Model.obj_convolve g pg else Ok g) = Ok x /\ d = Some (GMixObj_Model.o_data x)).
    { destruct conv; [|exists g; auto]. destruct H as (p & pg & c & P & Q & E & ->).
      destruct (seen_convolve_ok _ _ _ E) as (x & E1 & E2). exists x. unfold get_psf_gmix. rewrite P, Q.
      assert (C : gm_copy pg = Ok pg).
      { destruct S. cbn in P. subst. specialize (H2 p eq_refl). destruct H2. cbn in Q. subst. auto. }
      rewrite C. cbn [bind]. rewrite E1, E2. auto. }
    destruct X as (x & -> & ->). cbn [bind]. specialize (G _ eq_refl).
    destruct (make_image_exact _ (nrow (v_image v)) (ncol (v_image v)) (v_jac v) G) as (gm' & im & -> & _ & _ & N1 & N2 & P).
    cbn [snd bind]. destruct (finite_image_spec im (model_flux (Some (GMixObj_Model.o_data x)) (v_jac v))) as (out & -> & [D1 D2] & Q).
    { intros r c [I1 I2]. rewrite N1 in I1. rewrite N2 in I2. apply P; auto. split; reflexivity. }
    exists out. split; [auto|]. split; [split; congruence|]. intros r c [I1 I2]. apply Q. split; congruence.
  - subst d. eexists. split; [reflexivity|]. split; [split; reflexivity|]. reflexivity.
Qed.
Lemma v_new_spec im w j p v : v_new im w j p = Ok v -> Jacobian_copy j = Ok j ->
  v = OV im w j (fun _ => None) None [] true true p /\ same_dims w im.
Proof.
  unfold v_new. destruct (shape_eqb (nrow w, ncol w) (nrow im, ncol im)) eqn:E; [|discriminate]. cbn [negb].
  intros H J. rewrite J in H. cbn [bind] in H. destruct (v_pixels _ _ _ _ _); cbn [bind] in H; [|discriminate]. injection H as <-.
  split; [reflexivity|]. apply shape_eqb_true in E. injection E as E1 E2. split; auto.
Qed.
Lemma simulate_shape gm o sp rng rng' out : sound (si_val o) -> simulate_one W normal gm o sp rng = (rng', Ok out) ->
  exists im w n, so_val out = OV im w (v_jac (si_val o)) (fun _ => None) None [] true true (v_psf (si_val o)) /\ so_noise out = n /\
    same_dims w im /\ same_dims w (v_weight (si_val o)) /\
    (forall r c, at2 w r c = at2 (v_weight (si_val o)) r c / factor (sp_factor sp) ^ 2) /\ factor (sp_factor sp) <> 0 /\
    exists sim, get_simulated_image gm (si_val o) (sp_convolve sp) = Ok sim /\
      (if sp_add_noise sp then exists nn, n = Some nn /\ same_dims im sim /\ same_dims nn sim /\
            get_noise_image W normal (noise_weight o sp) (sp_add_all sp) (sp_factor sp) rng = (rng', Ok nn) /\
            forall r c, at2 im r c = at2 sim r c + at2 nn r c
       else n = None /\ im = sim /\ rng' = rng).
Proof.
  intros S. unfold simulate_one. set (v := si_val o) in *.
  destruct (get_simulated_image gm v (sp_convolve sp)) as [sim|] eqn:E; [|discriminate].
  set (noisy := if sp_add_noise sp then _ else _). destruct noisy as [r1 res] eqn:N. intros H. injection H as -> H.
  destruct res as [[im n]|]; cbn [bind] in H; [|discriminate].
  assert (P : exists pp, match v_psf v with None => Ok None | Some p => rmap Some (v_copy p) end = Ok pp /\ pp = v_psf v).
  { destruct (v_psf v) as [p|] eqn:Ep; [|eauto]. destruct (v_copy p) as [q|] eqn:Eq; cbn [rmap bind] in H; [|discriminate].
    exists (Some q). split; [reflexivity|]. f_equal. eapply v_copy_sound; [|exact Eq]. destruct S. cbn in Ep. auto. }
  destruct P as (pp & EP & ->). rewrite EP in H. cbn [bind] in H. clear EP.
  assert (J : Jacobian_copy (v_jac v) = Ok (v_jac v)) by (destruct S; auto).
  assert (Wt : exists w, (match sp_factor sp with
        | None => Ok (v_weight v)
        | Some f => if Reqb (f ^ 2) 0 then Raise ZeroDivisionError
                    else Ok (mkArr (nrow (v_weight v)) (ncol (v_weight v)) (fun r c => at2 (v_weight v) r c * (1 / f ^ 2)))
        end) = Ok w /\ same_dims w (v_weight v) /\ (forall r c, at2 w r c = at2 (v_weight v) r c / factor (sp_factor sp) ^ 2) /\ factor (sp_factor sp) <> 0).
  { clear N noisy. revert H. destruct (sp_factor sp) as [f|]; cbn [factor].
    - change (f * (f * 1)) with (f ^ 2). destruct (Reqb_spec (f ^ 2) 0) as [F|F]; [cbn [bind]; discriminate|intros _]. eexists. split; [reflexivity|]. split; [split; reflexivity|].
      assert (f <> 0) by (intros ->; apply F; ring). split; [intros; cbn; field; auto|auto].
    - intros _. exists (v_weight v). split; [auto|]. split; [split; auto|]. split; [intros; field|lra]. }
  destruct Wt as (w & Ew & D & Wv & F). change (match sp_factor sp with
        | None => Ok (v_weight v)
        | Some f => if Reqb (f ^ 2) 0 then Raise ZeroDivisionError
                    else Ok (mkArr (nrow (v_weight v)) (ncol (v_weight v)) (fun r c => at2 (v_weight v) r c * (1 / f ^ 2)))
        end) with (match sp_factor sp with
        | None => Ok (v_weight v)
        | Some f => if Reqb (f * (f * 1)) 0 then Raise ZeroDivisionError
                    else Ok (mkArr (nrow (v_weight v)) (ncol (v_weight v)) (fun r c => at2 (v_weight v) r c * (1 / (f * (f * 1)))))
        end) in Ew. rewrite Ew in H. cbn [bind] in H.
  destruct (v_new im w (v_jac v) (v_psf v)) as [new|] eqn:En; cbn [bind] in H; [|discriminate]. injection H as <-.
  destruct (v_new_spec _ _ _ _ _ En J) as [-> D2]. exists im, w, n. split; [reflexivity|]. split; [reflexivity|].
  split; [auto|]. split; [auto|]. split; [auto|]. split; [auto|]. exists sim. split; [auto|].
  unfold noisy in N. destruct (sp_add_noise sp).
  - unfold get_noisy_image in N. fold v in N. change (match si_raw o with Some raw => if sp_use_raw sp then raw else v_weight v | None => v_weight v end) with (noise_weight o sp) in N.
    destruct (get_noise_image W normal (noise_weight o sp) (sp_add_all sp) (sp_factor sp) rng) as [r2 nn] eqn:Eg.
    injection N as -> N. destruct nn as [nn|]; cbn [bind rmap] in N; [|discriminate].
    destruct (shape_eqb (nrow nn, ncol nn) (nrow sim, ncol sim)) eqn:Sh; cbn [bind rmap] in N; [|discriminate]. cbn in N. injection N as <- <-.
    exists nn. apply shape_eqb_true in Sh. injection Sh as S1 S2. split; [auto|]. split; [split; reflexivity|]. split; [split; auto|]. split; auto.
  - injection N as -> -> ->. auto.
Qed.
Theorem observation_spec gm o sp d s s' z rng' out :
  sound (si_val o) -> seen gm (si_val o) (sp_convolve sp) d -> (forall x, d = Some x -> good_gmix x) ->
  simulate_one W normal gm o sp (Some s) = (rng', Ok out) ->
  normal s (nrow (noise_weight o sp)) (ncol (noise_weight o sp)) = (s', z) ->
  let new := so_val out in let old := si_val o in
  same_dims (v_image new) (v_image old) /\ same_dims (v_weight new) (v_weight old) /\
  v_jac new = v_jac old /\ v_psf new = v_psf old /\ factor (sp_factor sp) <> 0 /\
  (forall r c, at2 (v_weight new) r c = at2 (v_weight old) r c / factor (sp_factor sp) ^ 2) /\
  (sp_add_noise sp = true -> rng' = Some s' /\ exists n, so_noise out = Some n /\
     noise_law (noise_weight o sp) (sp_add_all sp) (sp_factor sp) z n /\
     forall r c, inside (v_image new) r c -> at2 (v_image new) r c = model_flux d (v_jac old) r c + at2 n r c) /\
  (sp_add_noise sp = false -> rng' = Some s /\ so_noise out = None /\
     forall r c, inside (v_image new) r c -> at2 (v_image new) r c = model_flux d (v_jac old) r c).
Proof.
  intros So Se G H N. cbv zeta. destruct (simulate_shape _ _ _ _ _ _ So H) as (im & w & n & V & Nn & D1 & D2 & Wv & F & sim & E & X).
  destruct (sim_image_spec _ _ _ _ So Se G) as (sim' & E' & [D3 D4] & P). rewrite E in E'. injection E' as <-.
  rewrite V. cbn [v_image v_weight v_jac v_psf].
  destruct (noise_image_spec (noise_weight o sp) (sp_add_all sp) (sp_factor sp) s s' z N) as (n' & En & L).
  destruct (sp_add_noise sp).
  - destruct X as (nn & -> & [X1 X2] & X3 & X4 & X5). rewrite En in X4. injection X4 as <- <-.
    split; [split; congruence|]. do 5 (split; [auto|]). split; [|discriminate]. intros _. split; [auto|]. exists n'. split; [auto|]. split; [auto|].
    intros r c [I1 I2]. rewrite X5, P; [reflexivity|]. split; congruence.
  - destruct X as (-> & -> & ->). split; [split; congruence|]. do 5 (split; [auto|]). split; [discriminate|]. intros _. auto.
Qed.
(** noise variance times new weight is one *)
Theorem inverse_variance gm o sp d s s' z rng' out n :
  sound (si_val o) -> seen gm (si_val o) (sp_convolve sp) d -> (forall x, d = Some x -> good_gmix x) ->
  simulate_one W normal gm o sp (Some s) = (rng', Ok out) ->
  normal s (nrow (noise_weight o sp)) (ncol (noise_weight o sp)) = (s', z) ->
  so_noise out = Some n -> noise_weight o sp = v_weight (si_val o) ->
  forall r c, inside (v_image (so_val out)) r c -> 0 < at2 (v_weight (si_val o)) r c ->
    exists sigma, at2 (v_image (so_val out)) r c = model_flux d (v_jac (si_val o)) r c + at2 z r c * sigma /\
      sigma ^ 2 * at2 (v_weight (so_val out)) r c = 1.
Proof.
  intros So Se G H N Nn Wt r c I P.
  destruct (observation_spec _ _ _ _ _ _ _ _ _ So Se G H N) as ([D1 D2] & [D3 D4] & _ & _ & F & Wv & A & B).
  destruct (simulate_shape _ _ _ _ _ _ So H) as (im & w & n0 & V & _ & [D5 D6] & _).
  destruct (sp_add_noise sp); [|destruct (B eq_refl) as (_ & X & _); congruence].
  destruct (A eq_refl) as (_ & n' & X & [_ L] & Im). rewrite Nn in X. injection X as <-. rewrite Wt in L.
  rewrite V in I, D3, D4. cbn [v_image v_weight] in I, D3, D4. destruct I as [I1 I2].
  assert (In : inside (v_weight (si_val o)) r c) by (split; congruence).
  destruct (L (ex_intro _ r (ex_intro _ c (conj In P))) r c In) as [L1 _]. destruct (L1 P) as (sg & E1 & E2 & _).
  exists sg. rewrite Im by (rewrite V; split; cbn [v_image]; assumption). rewrite E1. split; [reflexivity|]. rewrite Wv, E2. field. split; [auto|lra].
Qed.
Theorem zero_factor gm o sp rng rng' out : sound (si_val o) -> sp_factor sp = Some 0 -> simulate_one W normal gm o sp rng <> (rng', Ok out).
Proof.
  intros So F H. destruct (simulate_shape _ _ _ _ _ _ So H) as (im & w & n & V & Nn & D1 & D2 & Wv & X & _). rewrite F in X. cbn in X. congruence.
Qed.

(** ---- containers ---- *)
Lemma item_inv x o sp rng rng' out : simulate_item W normal x o sp rng = (rng', Ok out) ->
  exists gm, item_gmix x = Some gm /\ simulate_one W normal gm o sp rng = (rng', Ok out).
Proof. destruct x; cbn; intros H; try discriminate; eauto. Qed.
Lemma list_inv x sp : forall l rng rng' outs, simulate_list W normal x l sp rng = (rng', Ok outs) ->
  (l = [] \/ exists g, item_gmix x = Some g) /\ (forall g, item_gmix x = Some g -> chain (sim_of W normal g sp) rng l outs rng').
Proof.
  induction l as [|o l IH]; cbn; intros rng rng' outs H; [injection H as <- <-; split; [auto|constructor]|].
  destruct (simulate_item W normal x o sp rng) as [r1 [s|]] eqn:E; [|discriminate].
  destruct (simulate_list W normal x l sp r1) as [r2 [t|]] eqn:E2; cbn in H; [|discriminate]. injection H as <- <-.
  destruct (item_inv _ _ _ _ _ _ E) as (gm & E3 & E4). split; [eauto|]. intros g Eg. rewrite E3 in Eg. injection Eg as <-.
  econstructor; [exact E4|]. apply IH; auto.
Qed.
Lemma bands_inv sp gm : forall l gms k rng rng' outs, simulate_bands W normal gms l sp rng = (rng', Ok outs) ->
  (forall i, (i < length l)%nat -> nth_error gms i = band_item gm (k + i)) ->
  chain (sim_band W normal gm sp) rng (combine (seq k (length l)) l) outs rng'.
Proof.
  induction l as [|b l IH]; cbn [simulate_bands length seq combine]; intros gms k rng rng' outs H Hg; [injection H as <- <-; constructor|].
  destruct gms as [|x gms]; [discriminate|].
  destruct (simulate_list W normal x b sp rng) as [r1 [s|]] eqn:E; [|discriminate].
  destruct (simulate_bands W normal gms l sp r1) as [r2 [t|]] eqn:E2; cbn in H; [|discriminate]. injection H as <- <-.
  econstructor; [|apply (IH gms (S k) _ _ _ E2); intros i Hi; specialize (Hg (S i) ltac:(cbn; lia)); cbn in Hg; rewrite Hg; f_equal; lia].
  specialize (Hg 0%nat ltac:(cbn; lia)). cbn in Hg. rewrite Nat.add_0_r in Hg.
  destruct (list_inv _ _ _ _ _ _ E) as [A B]. exists x. cbn [fst snd]. auto.
Qed.
Lemma chain_length {S A B} (st : A -> S -> B -> S -> Prop) s l l' s' : chain st s l l' s' -> length l' = length l.
Proof. induction 1; cbn; lia. Qed.
Theorem mb_structure gm l sp rng rng' r : simulate_obs W normal gm (OMb l) sp rng = (rng', Ok r) ->
  exists l', r = SMb l' /\ length l' = length l /\ chain (sim_band W normal gm sp) rng (combine (seq 0 (length l)) l) l' rng'.
Proof.
  cbn [simulate_obs]. destruct (simulate_mb W normal gm l sp rng) as [r1 res] eqn:E. intros H. injection H as -> H.
  destruct res as [l'|]; cbn in H; [|discriminate]. injection H as <-. exists l'. split; [auto|].
  enough (C : chain (sim_band W normal gm sp) rng (combine (seq 0 (length l)) l) l' rng').
  { split; [|auto]. apply chain_length in C. rewrite combine_length, seq_length, Nat.min_id in C. auto. }
  unfold simulate_mb in E. destruct gm as [x|gms].
  - destruct x; try discriminate. eapply bands_inv; [exact E|]. intros i Hi. cbn.
    destruct (nth_error (repeat GINone (length l)) i) eqn:N; [|apply nth_error_None in N; rewrite repeat_length in N; lia].
    apply nth_error_In, repeat_spec in N. congruence.
  - destruct gms as [|[g| |] gms]; try discriminate. destruct (Nat.eqb _ _); [|discriminate].
    eapply bands_inv; [exact E|]. reflexivity.
Qed.
Theorem list_structure gm l sp rng rng' r : simulate_obs W normal gm (OList l) sp rng = (rng', Ok r) ->
  exists l' x g, r = SList l' /\ gm = GOne x /\ item_gmix x = Some g /\ length l' = length l /\ chain (sim_of W normal g sp) rng l l' rng'.
Proof.
  cbn [simulate_obs]. destruct gm as [x|]; [|discriminate]. destruct x as [g| |]; try discriminate.
  - destruct (simulate_list W normal (GI g) l sp rng) as [r1 [t|]] eqn:E; cbn; [|discriminate]. intros H. injection H as <- <-.
    destruct (list_inv _ _ _ _ _ _ E) as [_ C]. specialize (C _ eq_refl).
    exists t, (GI g), (Some g). do 3 (split; [auto|]). split; [apply (chain_length _ _ _ _ _ C)|auto].
  - destruct (simulate_list W normal GINone l sp rng) as [r1 [t|]] eqn:E; cbn; [|discriminate]. intros H. injection H as <- <-.
    destruct (list_inv _ _ _ _ _ _ E) as [_ C]. specialize (C _ eq_refl).
    exists t, GINone, None. do 3 (split; [auto|]). split; [apply (chain_length _ _ _ _ _ C)|auto].
Qed.
Theorem obs_structure gm o sp rng rng' r : simulate_obs W normal gm (OObs o) sp rng = (rng', Ok r) ->
  exists out x g, r = SObs out /\ gm = GOne x /\ item_gmix x = Some g /\ simulate_one W normal g o sp rng = (rng', Ok out).
Proof.
  cbn [simulate_obs]. destruct gm as [x|]; [|discriminate]. destruct x as [g| |]; try discriminate; cbn [simulate_item].
  - destruct (simulate_one W normal (Some g) o sp rng) as [r1 [t|]] eqn:E; cbn; [|discriminate]. intros H. injection H as <- <-.
    exists t, (GI g), (Some g). auto.
  - destruct (simulate_one W normal None o sp rng) as [r1 [t|]] eqn:E; cbn; [|discriminate]. intros H. injection H as <- <-.
    exists t, GINone, None. auto.
Qed.
Theorem mismatch gms l sp rng : length gms <> length l ->
  simulate_obs W normal (GList gms) (OMb l) sp rng = (rng, Raise (match gms with [] => IndexError | _ => ValueError end)).
Proof.
  intros N. cbn [simulate_obs]. unfold simulate_mb. destruct gms as [|[g| |] gms]; auto.
  destruct (Nat.eqb_spec (length (GI g :: gms)) (length l)); [contradiction|reflexivity].
Qed.
Theorem wrong_kinds sp rng :
  (forall g l, simulate_obs W normal (GOne (GI g)) (OMb l) sp rng = (rng, Raise ValueError)) /\
  (forall gms obs, (forall l, obs <> OMb l) -> simulate_obs W normal (GList gms) obs sp rng = (rng, Raise ValueError)) /\
  (forall gm, simulate_obs W normal gm OOther sp rng = (rng, Raise ValueError)) /\
  (forall obs, simulate_obs W normal (GOne GIOther) obs sp rng = (rng, Raise ValueError)).
Proof.
  split; [reflexivity|]. split; [|split].
  - intros gms [o|l|l|] H; try reflexivity. exfalso. eapply H; reflexivity.
  - intros [[g| |]|l]; reflexivity.
  - intros [o|l|l|]; reflexivity.
Qed.
End S.

(** ---- on the memory ---- *)
Section H.
Lemma alloc_step_copy i v : alloc false (fun m => reads m i v) (step (CopyObs i)) (fun k m => reads m k v).
Proof.
  intros m m' r G P E. cbn [step] in E.
  destruct (alloc_copy_obs false _ (fun u => u = v) i _ _ _ G ltac:(intros u ->; exact P) E) as (A & B & C).
  split; [auto|split; [auto|]]. intros k ->. destruct (C k eq_refl) as (o & _ & _ & _ & H). auto.
Qed.
Lemma build_alloc i im w j o v : Jacobian_copy j = Ok j ->
  alloc false (fun m => reads m i v /\ nth_error (m_obs m) i = Some o) (build_obs i im w j)
    (fun k m => reads m k (OV im w j (fun _ => None) None [] true true (val_psf v))).
Proof.
  intros J. unfold build_obs.
  eapply alloc_bind; [keep3|apply alloc_get_obs'|cbv beta; intros o'].
  eapply alloc_bind; [keep3|apply alloc_new_arr|cbv beta; intros a].
  eapply alloc_bind with (Q := fun p m => match ob_psf o with
      | None => p = PNone | Some _ => exists k pv, p = PObs k /\ val_psf v = Some pv /\ reads m k pv end).
  { keep3. }
  { intros m m' r G (((R & N) & N' & _) & Ca) E. rewrite N in N'. injection N' as <-.
    destruct (reads_inv _ _ _ R) as (o1 & N1 & _ & Q). rewrite N in N1. injection N1 as <-.
    destruct (ob_psf o) as [k|].
    - destruct Q as (pv & Q1 & Q2).
      assert (X : alloc false (fun m => reads m k pv) (do k' <- step (CopyObs k) ;; ret (PObs k'))
        (fun p m => exists k0 pv, p = PObs k0 /\ val_psf v = Some pv /\ reads m k0 pv)).
      { eapply alloc_bind; [keep3|apply alloc_step_copy|cbv beta; intros k']. apply alloc_ret. intros m0 [_ H]. eauto. }
      apply (X m m' r G Q2 E).
    - injection E as <- <-. split; [auto|]. split; [apply grow_refl|]. intros p [= <-]. reflexivity. }
  cbv beta. intros p.
  assert (KP : keeps (fun m => match ob_psf o with
      | None => p = PNone | Some _ => exists k pv, p = PObs k /\ val_psf v = Some pv /\ reads m k pv end)).
  { destruct (ob_psf o); keep3. }
  eapply alloc_bind; [keep3|apply alloc_new_arr|cbv beta; intros wa].
  intros m m' r G H E.
  destruct (alloc_new_obs false (fun _ => True) _ _ _ _ _ _ _ _ _ _ _ _ _ m m' r G Logic.I E) as (G1 & G2 & G3).
  split; [auto|split; [auto|]]. intros k Hk. destruct (G3 k Hk) as (ob & N' & B).
  destruct H as (((((R & N) & _) & Ca) & Hp) & Cw).
  destruct (reads_inv _ _ _ R) as (o1 & N1 & _ & Q). rewrite N in N1. injection N1 as <-.
  destruct B as (B1 & B2 & B3 & _ & _ & (im' & B4a & B4b) & (sh & B5 & B6 & B7 & B8 & B9) & Bj & Bg & Bp & Bd).
  pose proof (grow_content _ _ _ _ G2 Ca) as Ca'. pose proof (grow_content _ _ _ _ G2 Cw) as Cw'.
  apply (reads_intro m' k ob _ N').
  - split; [congruence|]. split.
    { destruct B5 as (wi & X1 & X2 & X3). specialize (X3 _ _ eq_refl). congruence. }
    split.
    { destruct Bj as (j' & X1 & X2 & X3). specialize (X3 _ eq_refl). congruence. }
    assert (On : forall s, ob_opt ob s = None).
    { assert (K : forall x, opt_is m' sh ANone x -> x = None) by (intros [x|]; auto; intros [X _]; congruence). intros []; auto. }
    split; [intros s; rewrite On; reflexivity|].
    split; [destruct (ob_gmix ob); auto; destruct Bg as (_ & g0 & X & _); discriminate|].
    split; [|split; auto]. exact (proj2 (proj2 Bd) eq_refl).
  - cbn [val_psf]. destruct (ob_psf o) as [q|].
    + destruct Hp as (k0 & pv & -> & Hv & Hr). destruct (ob_psf ob) as [x|]; [|discriminate]. destruct Bp as [[= <-] _].
      exists pv. split; [auto|]. apply (keeps_reads _ _ m m' G2). auto.
    + subst p. destruct (ob_psf ob); [destruct Bp; discriminate|]. exact Q.
Qed.
End H.
Lemma build_safe Z i im w j : forall P, safe Z P (build_obs i im w j) (fun k m => freeO Z m k).
Proof.
  intros P. apply (safe_conseq Z (fun _ => True) P _ (fun x m => freeO Z m x) _); auto. unfold build_obs.
  sbind; [apply get_obs_any|]. rename a into o. sbind; [apply safe_new_arr|].
  sbind. { instantiate (1 := fun x m => okpsf Z x). destruct (ob_psf o) as [k|].
    - sbind.
      + instantiate (1 := fun x m => freeO Z m x). intros m m' r I _ E. cbn [step] in E.
        apply (safe_copy_obs Z (length (m_obs m)) (fun _ => True) k m m' r I Logic.I E).
      + apply safe_ret. intros m H b [<-|[]]. apply H.
    - apply safe_ret. intros m _ b []. }
  sbind; [apply safe_new_arr|].
  intros m m' r Iv H E. repeat match goal with H : _ /\ _ |- _ => destruct H end.
  eapply (safe_new_obs Z (fun _ => True)); [| | | | | | | |exact Iv|exact Logic.I|exact E]; try assumption;
    try (intros b cv [= <- <-]); try (intros b cv Hb; discriminate Hb); try (intros b []); try right; match goal with H : _ |- _ => apply H end.
Qed.
Lemma v_psf_val v : v_psf v = val_psf v.
Proof. destruct v; reflexivity. Qed.
(** the object made for observation i has the value of the model, nothing that existed
    changes, and the new and the old observations share no data *)
Theorem build_spec (W : Type) normal p i o gm sp rng rng' out m' k : let m := exec empty_mem p in
  reads m i (si_val o) -> simulate_one W normal gm o sp rng = (rng', Ok out) ->
  build_obs i (v_image (so_val out)) (v_weight (so_val out)) (v_jac (si_val o)) m = (m', Ok k) ->
  reads m' k (so_val out) /\ (forall l v, reads m l v -> reads m' l v) /\
  (forall q, Forall (only_later_objects m) q -> forall l v, reads m l v -> reads (exec m' q) l v) /\
  (forall q, Forall (no_object_between m m') q -> reads (exec m' q) k (so_val out)).
Proof.
  intros m R H E. pose proof (reach_good p) as G. fold m in G.
  pose proof (reads_sound m G i _ R) as So.
  destruct (simulate_shape W normal _ _ _ _ _ _ So H) as (im & w & n & V & _).
  rewrite V in E. cbn [v_image v_weight] in E.
  assert (J : Jacobian_copy (v_jac (si_val o)) = Ok (v_jac (si_val o))) by (destruct So; auto).
  destruct (reads_inv _ _ _ R) as (ob & N & _).
  destruct (build_alloc i im w _ ob (si_val o) J m m' (Ok k) G (conj R N) E) as (G' & L & Q).
  assert (Rk : reads m' k (so_val out)) by (rewrite V, v_psf_val; apply Q; reflexivity).
  pose proof (inv_zold m (reach_inv p)) as I.
  destruct (build_safe (zold m) i im w _ (fun _ => True) m m' (Ok k) I Logic.I E) as (I' & Lz & F).
  split; [exact Rk|]. split; [intros l v Hv; apply (keeps_reads l v m m' L Hv)|]. split.
  - intros q Hq l v Hv. destruct (exec_safe (zold m) q m' I' (Forall_weaken _ _ _ (avoid_old m) Hq)) as [_ L2].
    eapply frame_reads; [exact I'|exact L2|apply (keeps_reads l v m m' L Hv)|].
    cbn [zo zold]. apply Nat.ltb_lt. destruct Hv; apply nth_error_Some; congruence.
  - intros q Hq. pose proof (inv_znew m m' I') as I2.
    destruct (exec_safe (znew m m') q m' I2 (Forall_weaken _ _ _ (avoid_new m m') Hq)) as [_ L2].
    eapply frame_reads; [exact I2|exact L2|exact Rk|].
    specialize (F k eq_refl). unfold freeO in F. cbn [zo zold znew] in *.
    apply andb_true_iff. split; [destruct F as [_ F]; rewrite F; auto|].
    apply Nat.ltb_lt. destruct Rk; apply nth_error_Some; congruence.
Qed.

(** ---- it succeeds ---- *)
From Verif Require Import Pixels_Proofs.
Lemma pixels_ok im w j ig : same_dims w im -> some_weight w \/ ig = false -> exists l, make_pixels im w j ig = Ok l.
Proof.
  intros [D1 D2] H. destruct (make_pixels_spec im w j ig D1 D2) as [(_ & E & X)|(idx & l & E & _)]; [|eauto].
  exfalso. destruct H as [(r & c & [I1 I2] & P)|H]; [|congruence]. apply (X (r, c)). cbn. split; [split; cbn; congruence|auto].
Qed.
Lemma no_pixels im w j : same_dims w im -> ~ some_weight w -> make_pixels im w j true = Raise GMixFatalError.
Proof.
  intros [D1 D2] H. destruct (make_pixels_spec im w j true D1 D2) as [(E & _)|(idx & l & E & X & _ & _ & N)]; [auto|].
  exfalso. destruct idx as [|[r c] idx].
  - specialize (N eq_refl). destruct (make_pixels_spec im w j true D1 D2) as [(E' & _)|(idx' & l' & E' & X' & _ & F & _)]; [congruence|].
    assert (idx' = []). { destruct idx' as [|rc t]; auto. exfalso. apply (proj2 (X rc)). apply X'. left; auto. }
    subst. inversion F. congruence.
  - apply H. destruct (proj1 (X (r, c)) (or_introl eq_refl)) as [[I1 I2] P]. cbn in *. exists r, c. split; [split; congruence|]. specialize (P eq_refl). lra.
Qed.
Section T.
Variable W : Type.
Variable normal : W -> nat -> nat -> W * arr2 R.
Theorem simulate_succeeds gm o sp d s : sound (si_val o) -> seen gm (si_val o) (sp_convolve sp) d -> (forall x, d = Some x -> good_gmix x) ->
  same_dims (noise_weight o sp) (v_weight (si_val o)) -> some_weight (v_weight (si_val o)) ->
  sp_factor sp <> Some 0 -> (forall p, v_psf (si_val o) = Some p -> is_ok (v_copy p) = true) ->
  exists rng' out, simulate_one W normal gm o sp (Some s) = (rng', Ok out).
Proof.
  intros So Se G Dn Sw F P. unfold simulate_one. set (v := si_val o) in *.
  destruct (sim_image_spec gm v (sp_convolve sp) d So Se G) as (sim & -> & [D1 D2] & _).
  assert (Dv : same_dims (v_weight v) (v_image v)) by (destruct So; auto).
  assert (Tail : forall (x : option W) im n, same_dims im sim -> exists rng' out,
    (x, let* (im, noise) := Ok (im, n) in
        let* psf := match v_psf v with None => Ok None | Some p => rmap Some (v_copy p) end in
             let* weight :=
               match sp_factor sp with
               | None => Ok (v_weight v)
               | Some f => if Reqb (f ^ 2) 0 then Raise ZeroDivisionError
                           else Ok (mkArr (nrow (v_weight v)) (ncol (v_weight v)) (fun r c => at2 (v_weight v) r c * (1 / f ^ 2)))
               end in
             let* new := v_new im weight (v_jac v) psf in
             Ok (mkSo new noise)) = (rng', Ok out)).
  { intros x im n [D3 D4]. cbn [bind].
    assert (Pp : exists q, match v_psf v with None => Ok None | Some p => rmap Some (v_copy p) end = Ok q).
    { destruct (v_psf v) as [p|]; eauto. specialize (P p eq_refl). destruct (v_copy p); [cbn; eauto|discriminate]. }
    destruct Pp as (q & ->). cbn [bind].
    assert (Wp : exists w, match sp_factor sp with
               | None => Ok (v_weight v)
               | Some f => if Reqb (f ^ 2) 0 then Raise ZeroDivisionError
                           else Ok (mkArr (nrow (v_weight v)) (ncol (v_weight v)) (fun r c => at2 (v_weight v) r c * (1 / f ^ 2)))
               end = Ok w /\ same_dims w (v_weight v) /\ some_weight w).
    { destruct (sp_factor sp) as [f|]; [|exists (v_weight v); split; [auto|split; [split; auto|auto]]].
      assert (N : f <> 0) by (intros ->; congruence). assert (0 < f ^ 2) by (assert (0 < f * f) by nra; lra).
      destruct (Reqb_spec (f ^ 2) 0) as [X|X]; [lra|]. eexists. split; [reflexivity|]. split; [split; reflexivity|].
      destruct Sw as (r & c & I & Pw). exists r, c. split; [exact I|]. cbn [at2]. unfold Rdiv. rewrite Rmult_1_l.
      apply Rmult_lt_0_compat; auto. apply Rinv_0_lt_compat; auto. }
    destruct Wp as (w & -> & [D5 D6] & Sw'). cbn [bind]. destruct Dv as [D7 D8]. unfold v_new.
    assert (Sh : shape_eqb (nrow w, ncol w) (nrow im, ncol im) = true).
    { unfold shape_eqb. cbn. apply andb_true_iff. rewrite !Nat.eqb_eq. split; congruence. }
    rewrite Sh. cbn [negb]. assert (J : Jacobian_copy (v_jac v) = Ok (v_jac v)) by (destruct So; auto). rewrite J. cbn [bind v_pixels].
    destruct (pixels_ok im w (v_jac v) true) as (l & ->); [split; congruence|auto|]. cbn. eauto. }
  destruct (sp_add_noise sp).
  - unfold get_noisy_image. fold v. change (match si_raw o with Some raw => if sp_use_raw sp then raw else v_weight v | None => v_weight v end) with (noise_weight o sp).
    destruct (normal s (nrow (noise_weight o sp)) (ncol (noise_weight o sp))) as [s' z] eqn:En.
    destruct (noise_image_spec W normal (noise_weight o sp) (sp_add_all sp) (sp_factor sp) s s' z En) as (n & -> & [[D3 D4] _]). cbn [bind].
    assert (Sh : shape_eqb (nrow n, ncol n) (nrow sim, ncol sim) = true).
    { destruct Dv, Dn. unfold shape_eqb. cbn. apply andb_true_iff. rewrite !Nat.eqb_eq. split; congruence. }
    rewrite Sh. cbn [rmap fst snd]. apply Tail. split; reflexivity.
  - apply Tail. split; reflexivity.
Qed.
Theorem all_masked gm o sp rng : sound (si_val o) -> ~ some_weight (v_weight (si_val o)) ->
  forall rng' out, simulate_one W normal gm o sp rng <> (rng', Ok out).
Proof.
  intros So Sw rng' out H. pose proof H as H'. unfold simulate_one in H'.
  destruct (simulate_shape W normal _ _ _ _ _ _ So H) as (im & w & n & V & _ & D1 & D2 & Wv & F & sim & E & _).
  rewrite E in H'. set (v := si_val o) in *.
  destruct (if sp_add_noise sp then _ else _) as [r1 res]. injection H' as -> H'.
  destruct res as [[im1 n1]|]; cbn [bind] in H'; [|discriminate].
  match type of H' with bind ?x _ = _ => destruct x as [psf1|]; cbn [bind] in H'; [|discriminate] end.
  match type of H' with bind ?x _ = _ => destruct x as [w1|]; cbn [bind] in H'; [|discriminate] end.
  destruct (v_new im1 w1 (v_jac v) psf1) as [x|] eqn:Ev; cbn [bind] in H'; [|discriminate]. injection H' as <-. cbn in V. subst x.
  assert (J : Jacobian_copy (v_jac v) = Ok (v_jac v)) by (destruct So; auto).
  unfold v_new in Ev. destruct (shape_eqb _ _); [|discriminate]. cbn [negb] in Ev. rewrite J in Ev. cbn [bind v_pixels] in Ev.
  destruct (make_pixels im1 w1 (v_jac v) true) eqn:Em; cbn in Ev; [|discriminate]. injection Ev as -> -> _ .
  rewrite no_pixels in Em; [discriminate|auto|]. intros (r & c & [I1 I2] & P). apply Sw. destruct D2. exists r, c. split; [split; congruence|].
  rewrite Wv in P. assert (0 < factor (sp_factor sp) ^ 2) by (assert (0 < factor (sp_factor sp) * factor (sp_factor sp)) by nra; lra).
  apply (Rmult_lt_reg_r (/ factor (sp_factor sp) ^ 2)); [apply Rinv_0_lt_compat; auto|]. unfold Rdiv in P. lra.
Qed.
End T.
