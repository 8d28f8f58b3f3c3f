(** Proofs about bounded least squares. *)
From Coq Require String.
From Verif Require Import Base Flags_Model Pixels_Model LM_Model LM_Spec.
Import String.StringSyntax.
Local Open Scope R_scope.
Local Open Scope string_scope.
Local Open Scope list_scope.
Local Notation string := String.string.

(** * the maps *)
Lemma sqrt_sq1 x : 1 <= sqrt (x * x + 1).
Proof.
  rewrite <- sqrt_1 at 1. apply sqrt_le_1; [lra|nra|nra].
Qed.

Lemma i2e_inside b v : consistent b ->
  exists y, i2e_lam b (Some v) = Some y /\ within b y.
Proof.
  intros [x [H1 H2]]. destruct b as [[lower|] [upper|]]; cbn in *.
  - specialize (H1 _ eq_refl); specialize (H2 _ eq_refl).
    eexists; split; [reflexivity|]; split; cbn; intros z [= <-];
      pose proof (SIN_bound v) as [S1 S2]; nra.
  - eexists; split; [reflexivity|]; split; cbn; intros z; [intros [= <-]|discriminate].
    pose proof (sqrt_sq1 v); lra.
  - eexists; split; [reflexivity|]; split; cbn; intros z; [discriminate|intros [= <-]].
    pose proof (sqrt_sq1 v); lra.
  - eexists; split; [reflexivity|]; split; cbn; intros z; discriminate.
Qed.

Lemma i2e_none b : i2e_lam b None = None.
Proof. destruct b as [[l|] [u|]]; reflexivity. Qed.

Lemma osqrt_some x : 0 <= x -> osqrt x = Some (sqrt x).
Proof. intros H. unfold osqrt. rewrite Rltb_f by lra. reflexivity. Qed.

Lemma root_back t : 1 <= t -> sqrt (sqrt (t ^ 2 - 1) * sqrt (t ^ 2 - 1) + 1) = t.
Proof.
  intros H. rewrite sqrt_sqrt by nra.
  replace (t ^ 2 - 1 + 1) with (t * t) by ring. apply sqrt_square. lra.
Qed.

Lemma start_back b x : open_bound b -> within b x ->
  exists v, e2i_lam b (Some x) = Some v /\ i2e_lam b (Some v) = Some x.
Proof.
  intros Ho [H1 H2]. destruct b as [[lower|] [upper|]]; cbn in *.
  - specialize (H1 _ eq_refl); specialize (H2 _ eq_refl).
    specialize (Ho _ _ eq_refl). rewrite Reqb_f by lra. cbn.
    set (q := 2 * (x - lower) / (upper - lower) - 1).
    assert (Hq : (upper - lower) * (q + 1) = 2 * (x - lower)) by (unfold q; field; lra).
    assert (-1 <= q <= 1).
    { assert (0 <= (upper - lower) * (q + 1)) by lra.
      assert ((upper - lower) * (q + 1) <= (upper - lower) * 2) by lra.
      split.
      - apply Rnot_lt_le; intros Hc. nra.
      - apply Rmult_le_reg_l in H0; lra. }
    unfold oarcsin. rewrite !Rltb_f by lra.
    eexists; split; [reflexivity|]. f_equal. rewrite sin_asin by lra.
    replace (lower + (upper - lower) / 2 * (q + 1)) with (lower + (upper - lower) * (q + 1) / 2)
      by field. rewrite Hq. field.
  - specialize (H1 _ eq_refl). change (x - lower + 1) with (x - lower + 1).
    rewrite osqrt_some by nra. eexists; split; [reflexivity|]. f_equal.
    pose proof (root_back (x - lower + 1) ltac:(lra)) as Hr. cbn [pow] in Hr. rewrite Hr. ring.
  - specialize (H2 _ eq_refl).
    rewrite osqrt_some by nra. eexists; split; [reflexivity|]. f_equal.
    pose proof (root_back (upper - x + 1) ltac:(lra)) as Hr. cbn [pow] in Hr. rewrite Hr. ring.
  - eexists; split; reflexivity.
Qed.

Lemma equal_bounds a x : e2i_lam (Some a, Some a) (Some x) = None.
Proof. cbn. rewrite Reqb_t by lra. reflexivity. Qed.

(** a start outside the bounds is never used as such *)
Lemma outside_start b x v : ~ within b x -> consistent b ->
  e2i_lam b (Some x) = Some v -> exists y, i2e_lam b (Some v) = Some y /\ y <> x.
Proof.
  intros Hw Hc _. destruct (i2e_inside b v Hc) as [y [Hy Hin]].
  exists y; split; [exact Hy|]. intros ->; tauto.
Qed.

Lemma far_below lower x : x <= lower - 2 ->
  exists v, e2i_lam (Some lower, None) (Some x) = Some v /\
            i2e_lam (Some lower, None) (Some v) = Some (2 * lower - 2 - x).
Proof.
  intros H. cbn. rewrite osqrt_some by nra. eexists; split; [reflexivity|]. cbn. f_equal.
  pose proof (root_back (- (x - lower + 1)) ltac:(lra)) as Hr.
  replace ((- (x - lower + 1)) ^ 2) with ((x - lower + 1) ^ 2) in Hr by ring. cbn [pow] in Hr.
  rewrite Hr. ring.
Qed.

(** * gradient *)
Lemma sqrt1_deriv x : derivable_pt_lim (fun v => sqrt (v * v + 1)) x (x / sqrt (x * x + 1)).
Proof.
  pose proof (sqrt_sq1 x) as Hs.
  assert (H1 : derivable_pt_lim (fun v => v * v + 1) x (2 * x)).
  { replace (2 * x) with ((1 * id x + id x * 1) + 0) by (unfold id; ring).
    apply (derivable_pt_lim_plus (mult_fct id id) (fct_cte 1)).
    - apply derivable_pt_lim_mult; apply derivable_pt_lim_id.
    - apply derivable_pt_lim_const. }
  assert (H2 : derivable_pt_lim sqrt (x * x + 1) (/ (2 * sqrt (x * x + 1)))).
  { apply derivable_pt_lim_sqrt. nra. }
  pose proof (derivable_pt_lim_comp _ _ _ _ _ H1 H2) as H3.
  replace (x / sqrt (x * x + 1)) with (/ (2 * sqrt (x * x + 1)) * (2 * x)).
  - exact H3.
  - field. lra.
Qed.

Lemma grad_correct b x :
  exists g f, grad_one (Some x) b = Some g /\ (forall v, i2e_lam b (Some v) = Some (f v)) /\
    derivable_pt_lim f x g.
Proof.
  pose proof (sqrt_sq1 x) as Hs.
  destruct b as [[lower|] [upper|]]; cbn.
  - exists ((upper - lower) * cos x / 2), (fun v => lower + (upper - lower) / 2 * (sin v + 1)).
    split; [reflexivity|]. split; [reflexivity|].
    replace ((upper - lower) * cos x / 2) with (0 + (upper - lower) / 2 * (cos x + 0)) by field.
    apply (derivable_pt_lim_plus (fct_cte lower) (fun v => (upper - lower) / 2 * (sin v + 1))).
    + apply derivable_pt_lim_const.
    + apply (derivable_pt_lim_scal (fun v => sin v + 1)).
      apply (derivable_pt_lim_plus sin (fct_cte 1)).
      * apply derivable_pt_lim_sin.
      * apply derivable_pt_lim_const.
  - rewrite Reqb_f by lra.
    exists (x / sqrt (x * x + 1)), (fun v => lower - 1 + sqrt (v * v + 1)).
    split; [reflexivity|]. split; [reflexivity|].
    replace (x / sqrt (x * x + 1)) with (0 + x / sqrt (x * x + 1)) by ring.
    apply (derivable_pt_lim_plus (fct_cte (lower - 1)) (fun v => sqrt (v * v + 1))).
    + apply derivable_pt_lim_const.
    + apply sqrt1_deriv.
  - rewrite Reqb_f by lra.
    exists (- x / sqrt (x * x + 1)), (fun v => upper + 1 - sqrt (v * v + 1)).
    split; [reflexivity|]. split; [reflexivity|].
    replace (- x / sqrt (x * x + 1)) with (0 - x / sqrt (x * x + 1)) by (field; lra).
    apply (derivable_pt_lim_minus (fct_cte (upper + 1)) (fun v => sqrt (v * v + 1))).
    + apply derivable_pt_lim_const.
    + apply sqrt1_deriv.
  - exists 1, (fun v => v). split; [reflexivity|]. split; [reflexivity|].
    apply derivable_pt_lim_id.
Qed.

(** * whole vectors *)
Lemma zip_with_length {A B C} (f : A -> B -> C) l m :
  length (zip_with f l m) = Nat.min (length l) (length m).
Proof. unfold zip_with. rewrite map_length, combine_length. reflexivity. Qed.

Lemma convert_i2e_ok bounds x : length x = length bounds ->
  convert_i2e bounds x = OkX (zip_with i2e_lam bounds x).
Proof.
  intros H. unfold convert_i2e, assign_all. rewrite zip_with_length, H, Nat.min_id, Nat.eqb_refl.
  reflexivity.
Qed.
Lemma convert_e2i_ok bounds x : length x = length bounds ->
  convert_e2i bounds x = OkX (zip_with e2i_lam bounds x).
Proof.
  intros H. unfold convert_e2i, assign_all. rewrite zip_with_length, H, Nat.min_id, Nat.eqb_refl.
  reflexivity.
Qed.

Lemma zip_inside bounds x : Forall consistent bounds -> length x = length bounds ->
  inside bounds (zip_with i2e_lam bounds x).
Proof.
  unfold inside. revert x; induction bounds as [|b bounds IH]; intros [|p x] Hc Hl; try discriminate.
  - constructor.
  - apply Forall_cons_iff in Hc as [Hb Hc]. constructor.
    + intros v Hv. cbn in Hv. destruct p as [p|]; [|rewrite i2e_none in Hv; discriminate].
      destruct (i2e_inside b p Hb) as [y [Hy Hin]]. rewrite Hy in Hv. injection Hv as <-. exact Hin.
    + apply IH; [exact Hc|]. now injection Hl.
Qed.

Lemma zip_start bounds xs : Forall open_bound bounds -> Forall2 within bounds xs ->
  zip_with i2e_lam bounds (zip_with e2i_lam bounds (map Some xs)) = map Some xs.
Proof.
  intros Ho Hw. induction Hw as [|b x bounds xs Hx Hw IH]; [reflexivity|].
  apply Forall_cons_iff in Ho as [Hb Ho].
  destruct (start_back b x Hb Hx) as [v [Hv Hv']].
  cbn [map]. unfold zip_with in *. cbn [combine map fst snd]. rewrite Hv, Hv'. f_equal. apply IH, Ho.
Qed.

Lemma Forall2_len {A B} (P : A -> B -> Prop) l m : Forall2 P l m -> length l = length m.
Proof. induction 1; cbn; congruence. Qed.

Lemma bindx_ok {A B} (m : resx A) (f : A -> resx B) b :
  bindx m f = OkX b -> exists a, m = OkX a /\ f a = OkX b.
Proof. destruct m; cbn; [eauto|discriminate]. Qed.

Section S.
Variable lmdif : (vec -> resx vec) -> vec -> nat -> resx lmret.
Variable leastsq : (vec -> resx vec) -> vec -> nat -> resx lmtup.
Variable inv : omat -> option omat.
Variable eig : nat -> (nat -> nat -> R) -> option (list R).
Variable message : Z -> string.
Local Notation LSB := (leastsqbound lmdif leastsq inv message).
Local Notation RUN := (run_leastsq lmdif leastsq inv eig message).
Local Notation TRY := (run_try lmdif leastsq inv eig message).

(** what a bounded fit that returns has done *)
Lemma bounded_inv func x0 bounds maxfev tup :
  LSB func x0 (Some bounds) maxfev = OkX tup ->
  length bounds = length x0 /\
  exists f0 ret g maxfev',
    func x0 = OkX f0 /\ (length x0 <= length f0)%nat /\
    lmdif (fun x => bindx (convert_i2e bounds x) func) (zip_with e2i_lam bounds x0) maxfev' = OkX ret /\
    (0 <= rt_info ret <= 8)%Z /\ convert_i2e bounds (rt_x ret) = OkX (tp_x tup) /\
    take_ipvt (i2e_grad (rt_x ret) bounds) (rt_ipvt ret) = OkX g /\
    tp_cov tup = (if ((1 <=? rt_info ret) && (rt_info ret <=? 4))%Z
                  then cov_from inv (length x0) (fun j i => odiv (rt_fjac ret j i) (nth j g None))
                         (rt_ipvt ret) else None) /\
    tp_ier tup = rt_info ret /\ tp_nfev tup = rt_nfev ret.
Proof.
  unfold leastsqbound. intros H. apply bindx_ok in H as [i0 [Hi0 H]].
  destruct (Nat.eqb_spec (length bounds) (length x0)) as [Hl|Hl]; cbn [negb] in H; [|discriminate].
  split; [exact Hl|].
  rewrite convert_e2i_ok in Hi0 by now symmetry. injection Hi0 as <-.
  apply bindx_ok in H as [f0 [Hf0 H]].
  destruct (Nat.ltb_spec (length f0) (length x0)) as [Hm|Hm]; [discriminate|].
  apply bindx_ok in H as [ret [Hret H]].
  destruct ((0 <=? rt_info ret) && (rt_info ret <=? 8))%Z eqn:Hinf; cbn [negb] in H; [|discriminate].
  apply andb_true_iff in Hinf as [I1 I2]. apply Z.leb_le in I1, I2.
  apply bindx_ok in H as [x [Hx H]].
  apply bindx_ok in H as [g [Hg H]].
  injection H as <-. cbn [tp_x tp_cov tp_ier tp_nfev].
  do 4 eexists. split; [exact Hf0|]. split; [exact Hm|]. split; [exact Hret|].
  do 2 (split; [first [lia|exact Hx]|]). split; [exact Hg|]. auto.
Qed.

Lemma fit_inside func x0 bounds maxfev tup :
  keeps_length lmdif -> Forall consistent bounds ->
  LSB func x0 (Some bounds) maxfev = OkX tup -> inside bounds (tp_x tup).
Proof.
  intros Hk Hc H. apply bounded_inv in H as (Hl & f0 & ret & g & mf & Hf & _ & Hret & _ & Hx & _).
  apply Hk in Hret. rewrite zip_with_length, Hl, Nat.min_id in Hret.
  rewrite convert_i2e_ok in Hx by congruence. injection Hx as <-.
  apply zip_inside; [exact Hc|congruence].
Qed.

Lemma fit_evaluations func func' x0 bounds maxfev :
  black_box lmdif -> Forall consistent bounds ->
  func x0 = func' x0 ->
  (forall x, inside bounds x -> func x = func' x) ->
  LSB func x0 (Some bounds) maxfev = LSB func' x0 (Some bounds) maxfev.
Proof.
  intros Hb Hc H0 Hf. unfold leastsqbound.
  destruct (Nat.eq_dec (length bounds) (length x0)) as [Hl|Hl].
  2:{ destruct (convert_e2i bounds x0); [|reflexivity]. cbn [bindx].
      apply Nat.eqb_neq in Hl. rewrite Hl. reflexivity. }
  rewrite convert_e2i_ok by now symmetry. cbn [bindx]. rewrite H0.
  destruct (negb (length bounds =? length x0)%nat); [reflexivity|].
  destruct (func' x0) as [f0|]; [|reflexivity]. cbn [bindx].
  destruct (length f0 <? length x0)%nat; [reflexivity|].
  erewrite Hb; [reflexivity|]. intros x Hx. rewrite zip_with_length, <- Hl, Nat.min_id in Hx.
  cbn beta. rewrite convert_i2e_ok by exact Hx. cbn [bindx]. apply Hf.
  apply zip_inside; assumption.
Qed.

Lemma fit_starts_at_guess func xs bounds maxfev tup :
  (forall f i k r, lmdif f i k = OkX r -> rt_x r = i) ->
  Forall open_bound bounds -> Forall2 within bounds xs ->
  LSB func (map Some xs) (Some bounds) maxfev = OkX tup -> tp_x tup = map Some xs.
Proof.
  intros Hi Ho Hw H.
  apply bounded_inv in H as (Hl & f0 & ret & g & mf & Hf & _ & Hret & _ & Hx & _).
  rewrite map_length in Hl.
  apply Hi in Hret. rewrite Hret in Hx. rewrite convert_i2e_ok in Hx.
  - injection Hx as <-. apply zip_start; assumption.
  - rewrite zip_with_length, map_length, Hl. apply Nat.min_id.
Qed.

(** * results of run_leastsq *)
Lemma forallb_cells M : forallb is_fin (all_cells M) = true ->
  forall i j, (i < nrow M)%nat -> (j < ncol M)%nat -> exists x, at2 M i j = Some x.
Proof.
  intros H i j Hi Hj. rewrite forallb_forall in H.
  assert (Hin : In (at2 M i j) (all_cells M)).
  { unfold all_cells. apply in_flat_map. exists i. split; [apply in_seq; lia|].
    apply in_map_iff. exists j. split; [reflexivity|apply in_seq; lia]. }
  apply H in Hin. destruct (at2 M i j); [eauto|discriminate].
Qed.

Lemma test_cov_zero M : eig_complete eig -> test_cov eig M = 0%Z ->
  nrow M = ncol M /\
  (forall i j, (i < nrow M)%nat -> (j < nrow M)%nat -> at2 M i j = Some (oval (at2 M i j))) /\
  (forall i, (i < nrow M)%nat -> 0 <= oval (at2 M i i)) /\
  (forall lam, eigenvalue (nrow M) (fun i j => oval (at2 M i j)) lam -> 0 <= lam).
Proof.
  intros Hec H. unfold test_cov, np_eig in H.
  destruct (Nat.eqb_spec (nrow M) (ncol M)) as [Hs|Hs]; cbn [negb] in H; [|discriminate].
  destruct (forallb is_fin (all_cells M)) eqn:Hfin; [|discriminate].
  destruct (eig (nrow M) _) as [e|] eqn:He; [|discriminate].
  pose proof (forallb_cells M Hfin) as Hcell.
  destruct (existsb (fun x => Rltb x 0) e) eqn:E1.
  { exfalso. destruct (existsb oneg (odiag M)); discriminate. }
  destruct (existsb oneg (odiag M)) eqn:E2; [discriminate|].
  split; [exact Hs|]. split; [|split].
  - intros i j Hi Hj. destruct (Hcell i j) as [x ->]; [lia|lia|reflexivity].
  - intros i Hi. apply Rnot_lt_le. intros Hn.
    assert (Ht : existsb oneg (odiag M) = true); [|congruence].
    apply existsb_exists. exists (at2 M i i). split.
    + unfold odiag. apply in_map_iff. exists i. split; [reflexivity|].
      apply in_seq. rewrite <- Hs, Nat.min_id. lia.
    + destruct (Hcell i i) as [x Hx]; [lia|lia|]. rewrite Hx in *. cbn in *.
      apply Rltb_t. exact Hn.
  - intros lam Hlam. apply (Hec _ _ _ He) in Hlam. apply Rnot_lt_le. intros Hn.
    assert (Ht : existsb (fun x => Rltb x 0) e = true); [|congruence].
    apply existsb_exists. exists lam. split; [exact Hlam|]. apply Rltb_t. exact Hn.
Qed.

Lemma osum_some l a : fold_left oadd (map Some l) (Some a) = Some (a + rsum l).
Proof.
  revert a; induction l as [|x l IH]; intros a; cbn [map fold_left].
  - rewrite rsum_nil. f_equal; ring.
  - cbn [oadd oap2]. rewrite IH, rsum_cons. f_equal; ring.
Qed.
Lemma fold_oadd_none l : fold_left oadd l None = None.
Proof. induction l as [|x l IH]; cbn [fold_left]; [reflexivity|]. exact IH. Qed.
Lemma osum_inv l a x : fold_left oadd l a = Some x ->
  exists l' a', l = map Some l' /\ a = Some a'.
Proof.
  revert a; induction l as [|y l IH]; intros a H; cbn [fold_left] in H.
  - exists [], x. auto.
  - apply IH in H as (l' & a' & -> & Ha). destruct a as [a|]; [|discriminate].
    destruct y as [y|]; [|discriminate]. exists (y :: l'), a. auto.
Qed.
Lemma sumsq_inv l x : osum (map (fun d => omul d d) l) = Some x ->
  exists l', l = map Some l' /\ x = chi2 l'.
Proof.
  intros H. pose proof H as H0. apply osum_inv in H0 as (sq & _ & Hsq & _).
  assert (Hl : exists l', l = map Some l' /\ sq = map (fun d => d ^ 2) l').
  { clear H. revert sq Hsq; induction l as [|y l IH]; intros [|s sq] Hsq; try discriminate.
    - exists []; auto.
    - cbn in Hsq. injection Hsq as Hy Hsq. apply IH in Hsq as (l' & -> & ->).
      destruct y as [y|]; [|discriminate]. exists (y :: l'). cbn in *.
      split; [reflexivity|]. f_equal. injection Hy as <-. ring. }
  destruct Hl as (l' & -> & ->). exists l'. split; [reflexivity|].
  unfold osum in H. rewrite Hsq, osum_some in H. injection H as <-. unfold chi2. apply Rplus_0_l.
Qed.

Lemma lor_0_pow k : (0 <= k)%Z -> Z.lor 0 (2 ^ k) <> 0%Z.
Proof. intros H. rewrite Z.lor_0_l. pose proof (Z.pow_pos_nonneg 2 k); lia. Qed.

Lemma odiag_sqrt M : (forall i, (i < nrow M)%nat -> at2 M i i = Some (oval (at2 M i i))) ->
  (forall i, (i < nrow M)%nat -> 0 <= oval (at2 M i i)) -> nrow M = ncol M ->
  map (fun d => obind d osqrt) (odiag M) =
  map (fun i => Some (sqrt (oval (at2 M i i)))) (seq 0 (nrow M)).
Proof.
  intros H1 H2 H3. unfold odiag. rewrite <- H3, Nat.min_id, map_map. apply map_ext_in.
  intros i Hi. apply in_seq in Hi. rewrite H1 by lia. cbn. apply osqrt_some, H2. lia.
Qed.

Lemma bounded_status func x0 bounds maxfev tup : known_status leastsq ->
  LSB func x0 bounds maxfev = OkX tup -> (0 <= tp_ier tup <= 8)%Z.
Proof.
  intros Hk. destruct bounds as [bounds|].
  - intros H. apply bounded_inv in H as (_ & f0 & ret & g & mf & _ & _ & _ & Hi & _ & _ & _ & -> & _).
    exact Hi.
  - apply Hk.
Qed.

Lemma zero_flags func guess np ks bounds maxfev d :
  known_status leastsq -> eig_complete eig ->
  RUN func guess np ks bounds maxfev = OkX d -> dget d "flags" = Some (LInt 0) ->
  exists tup cov0 fdiff n P,
    LSB func guess bounds maxfev = OkX tup /\ (1 <= tp_ier tup <= 4)%Z /\
    tp_cov tup = Some cov0 /\ func (tp_x tup) = OkX fdiff /\
    degrees ks (length fdiff) np (length guess) <> 0%Z /\
    nrow cov0 = n /\ ncol cov0 = n /\
    ((0 < n)%nat -> exists residuals C0,
       skipn np fdiff = map Some residuals /\
       (forall i j, (i < n)%nat -> (j < n)%nat -> at2 cov0 i j = Some (C0 i j) /\
          P i j = C0 i j * (chi2 residuals / IZR (degrees ks (length fdiff) np (length guess))))) /\
    (forall i, (i < n)%nat -> 0 <= P i i) /\
    (forall lam, eigenvalue n P lam -> 0 <= lam) /\
    dget d "pars" = Some (LVec (tp_x tup)) /\
    dget d "pars_cov0" = Some (LMat (Some cov0)) /\
    (exists pcov, dget d "pars_cov" = Some (LMat (Some pcov)) /\ nrow pcov = n /\ ncol pcov = n /\
       forall i j, (i < n)%nat -> (j < n)%nat -> at2 pcov i j = Some (P i j)) /\
    dget d "pars_err" = Some (LVec (map (fun i => Some (sqrt (P i i))) (seq 0 n))).
Proof.
  intros Hks Hec H Hf. unfold run_leastsq in H.
  destruct (TRY func guess np ks bounds maxfev) as [d'|e nf] eqn:Ht.
  2:{ exfalso. destruct e; try discriminate; [| destruct nf; try discriminate];
      injection H as <-; cbn in Hf; discriminate. }
  injection H as ->. unfold run_try in Ht.
  apply bindx_ok in Ht as [tup [Htup H]].
  pose proof (bounded_status _ _ _ _ _ Hks Htup) as Hst.
  destruct (Z.eqb_spec (tp_ier tup) 0) as [E0|E0]; [discriminate|].
  destruct (Z.ltb_spec 4 (tp_ier tup)) as [E4|E4].
  { exfalso. injection H as <-. cbn [dget full_dict String.eqb Ascii.eqb Bool.eqb] in Hf.
    injection Hf as Hf. revert Hf. apply lor_0_pow. lia. }
  destruct (tp_cov tup) as [cov0|] eqn:Ecov.
  2:{ exfalso. injection H as <-. discriminate. }
  apply bindx_ok in H as [fdiff [Hfd H]]. cbn beta zeta in H.
  set (dof := if ks then _ else _) in H.
  assert (Hdof : dof = degrees ks (length fdiff) np (length guess)).
  { unfold dof, degrees. destruct ks; lia. }
  clearbody dof. subst dof.
  destruct (Z.eqb_spec (degrees ks (length fdiff) np (length guess)) 0) as [Ed|Ed].
  { exfalso. injection H as <-. discriminate. }
  set (pcov := mat_scale _ _) in H.
  destruct (Z.eqb_spec (test_cov eig pcov) 0) as [Ec|Ec]; cbn [negb] in H.
  2:{ exfalso. injection H as <-. cbn in Hf. injection Hf as Hf.
      apply Ec. exact Hf. }
  injection H as <-.
  destruct (test_cov_zero _ Hec Ec) as (Hsq & Hcells & Hdiag & Heig).
  exists tup, cov0, fdiff, (nrow cov0), (fun i j => oval (at2 pcov i j)).
  split; [exact Htup|]. split; [lia|]. split; [exact Ecov|]. split; [exact Hfd|]. split; [exact Ed|].
  split; [reflexivity|]. split; [symmetry; exact Hsq|].
  split.
  { intros Hn. change (nrow pcov) with (nrow cov0) in *.
    pose proof (Hcells 0%nat 0%nat Hn Hn) as H00. unfold pcov, mat_scale in H00.
    cbn [at2] in H00.
    destruct (odiv (osum (map (fun d => omul d d) (skipn np fdiff)))
                   (Some (IZR (degrees ks (length fdiff) np (length guess))))) as [s|] eqn:Es.
    2:{ exfalso. cbn in H00. destruct (at2 cov0 0 0); discriminate. }
    destruct (osum (map (fun d => omul d d) (skipn np fdiff))) as [q|] eqn:Eq; [|discriminate].
    apply sumsq_inv in Eq as (res & Hres & ->).
    cbn in Es. rewrite Reqb_f in Es by (apply not_0_IZR; exact Ed). injection Es as <-.
    exists res, (fun i j => oval (at2 cov0 i j)). split; [exact Hres|].
    intros i j Hi Hj. pose proof (Hcells i j Hi Hj) as Hij. unfold pcov, mat_scale in *.
    cbn [at2] in *. destruct (at2 cov0 i j) as [c|]; [|discriminate]. split; reflexivity. }
  split; [exact Hdiag|]. split; [exact Heig|]. split; [reflexivity|]. split; [reflexivity|].
  split.
  { exists pcov. split; [reflexivity|]. split; [reflexivity|]. split; [symmetry; exact Hsq|].
    intros i j Hi Hj. apply Hcells; assumption. }
  transitivity (Some (LVec (map (fun d => obind d osqrt) (odiag pcov)))); [reflexivity|].
  rewrite (odiag_sqrt pcov); [reflexivity|intros; apply Hcells; assumption|exact Hdiag|exact Hsq].
Qed.

(** a fit that fails: what is in the result *)
Lemma failed_defaults func guess np ks bounds maxfev d flags :
  RUN func guess np ks bounds maxfev = OkX d -> dget d "flags" = Some (LInt flags) -> flags <> 0%Z ->
  (forall e, dget d "pars_err" = Some e -> e = LVec (repeat (Some CDEF) (length guess))) /\
  ((forall tup, LSB func guess bounds maxfev = OkX tup -> (4 < tp_ier tup)%Z) ->
     dget d "pars" = Some (LVec (repeat (Some PDEF) (length guess))) /\
     exists C, dget d "pars_cov" = Some (LMat (Some C)) /\ nrow C = length guess /\
       ncol C = length guess /\ forall i j, at2 C i j = Some CDEF).
Proof.
  intros H Hf Hnz. unfold run_leastsq in H.
  destruct (TRY func guess np ks bounds maxfev) as [d'|e nf] eqn:Ht.
  2:{ assert (Hd : d = [ ("pars", LVec (def_pars (length guess)));
        ("pars_cov0", LMat (Some (def_cov (length guess))));
        ("pars_cov", LMat (Some (def_cov (length guess)))); ("nfev", LInt (-1)%Z);
        ("flags", LInt LM_FUNC_NOTFINITE); ("errmsg", LStr "not finite") ] \/
      d = [ ("pars", LVec (def_pars (length guess)));
        ("pars_cov0", LMat (Some (def_cov (length guess))));
        ("pars_cov", LMat (Some (def_cov (length guess)))); ("nfev", LInt (-1)%Z);
        ("flags", LInt DIV_ZERO); ("errmsg", LStr "zero division") ]).
      { destruct e; try discriminate; [right | left; destruct nf; [|discriminate]];
          injection H as <-; reflexivity. }
      destruct Hd as [-> | ->]; (split; [cbn; discriminate|]; intros _; split; [reflexivity|];
        eexists; split; [reflexivity|]; split; [reflexivity|]; split; reflexivity). }
  injection H as ->. unfold run_try in Ht.
  apply bindx_ok in Ht as [tup [Htup H]]. cbn beta zeta in H.
  destruct (Z.eqb_spec (tp_ier tup) 0) as [E0|E0]; [discriminate|].
  destruct (Z.ltb_spec 4 (tp_ier tup)) as [E4|E4].
  { injection H as <-. split; [cbn; intros e [= <-]; reflexivity|]. intros _.
    split; [reflexivity|]. eexists; split; [reflexivity|]. split; [reflexivity|]. split; reflexivity. }
  assert (Hno : forall Q : Prop, (forall tup, LSB func guess bounds maxfev = OkX tup -> (4 < tp_ier tup)%Z) -> Q).
  { intros Q Hq. specialize (Hq _ Htup). lia. }
  split; [|apply Hno].
  destruct (tp_cov tup) as [cov0|].
  2:{ injection H as <-. cbn. intros e [= <-]; reflexivity. }
  apply bindx_ok in H as [fdiff [Hfd H]]. cbn beta zeta in H.
  destruct (_ =? 0)%Z in H; [injection H as <-; cbn; intros e [= <-]; reflexivity|].
  destruct (negb _) in H; injection H as <-; cbn in Hf |- *.
  - intros e [= <-]; reflexivity.
  - injection Hf as <-. tauto.
Qed.

Definition six_keys := ["flags"; "nfev"; "errmsg"; "pars"; "pars_cov0"; "pars_cov"].
Lemma keys_present func guess np ks bounds maxfev d :
  RUN func guess np ks bounds maxfev = OkX d ->
  (forall k, In k six_keys -> dget d k <> None) /\
  ((forall k, In k result_keys -> dget d k <> None) \/
   (dget d "flags" = Some (LInt LM_FUNC_NOTFINITE) \/ dget d "flags" = Some (LInt DIV_ZERO)) /\
   dget d "pars_err" = None /\ dget d "ier" = None).
Proof.
  intros H. unfold run_leastsq in H.
  assert (Hfull : forall fl nf ie em pa pe c0 c,
     (forall k, In k six_keys -> dget (full_dict fl nf ie em pa pe c0 c) k <> None) /\
     (forall k, In k result_keys -> dget (full_dict fl nf ie em pa pe c0 c) k <> None)).
  { intros. split; intros k Hk; cbn in Hk;
      repeat (destruct Hk as [<-|Hk]; [cbn; discriminate|]); destruct Hk. }
  destruct (TRY func guess np ks bounds maxfev) as [d'|e nf] eqn:Ht.
  - injection H as ->. unfold run_try in Ht.
    assert (Hd : exists fl nf ie em pa pe c0 c, d = full_dict fl nf ie em pa pe c0 c).
    { apply bindx_ok in Ht as [tup [Htup H]]. cbn beta zeta in H.
      destruct (_ =? 0)%Z in H; [discriminate|].
      destruct (4 <? _)%Z in H; [injection H as <-; do 8 eexists; reflexivity|].
      destruct (tp_cov tup); [|injection H as <-; do 8 eexists; reflexivity].
      apply bindx_ok in H as [fdiff [Hfd H]]. cbn beta zeta in H.
      destruct (_ =? 0)%Z in H; [injection H as <-; do 8 eexists; reflexivity|].
      destruct (negb _) in H; injection H as <-; do 8 eexists; reflexivity. }
    destruct Hd as (fl & nf & ie & em & pa & pe & c0 & c & ->).
    destruct (Hfull fl nf ie em pa pe c0 c) as [H1 H2]. split; [exact H1|left; exact H2].
  - destruct e; try discriminate.
    + injection H as <-. split; [|right; split; [right; reflexivity|split; reflexivity]].
      intros k Hk; cbn in Hk; repeat (destruct Hk as [<-|Hk]; [cbn; discriminate|]); destruct Hk.
    + destruct nf; [|discriminate].
      injection H as <-. split; [|right; split; [left; reflexivity|split; reflexivity]].
      intros k Hk; cbn in Hk; repeat (destruct Hk as [<-|Hk]; [cbn; discriminate|]); destruct Hk.
Qed.

(** a solver status above four *)
Lemma lm_status_flags func guess np ks bounds maxfev tup :
  LSB func guess bounds maxfev = OkX tup -> (5 <= tp_ier tup)%Z ->
  exists d, RUN func guess np ks bounds maxfev = OkX d /\
    dget d "flags" = Some (LInt (2 ^ (tp_ier tup - 5))).
Proof.
  intros H Hi. unfold run_leastsq, run_try. rewrite H. cbn [bindx].
  destruct (Z.eqb_spec (tp_ier tup) 0) as [E|_]; [lia|].
  destruct (Z.ltb_spec 4 (tp_ier tup)) as [_|E]; [|lia].
  eexists. split; [reflexivity|]. reflexivity.
Qed.

(** * covariance of the external parameters *)
Lemma take_ipvt_ok a ipvt g : take_ipvt a ipvt = OkX g ->
  length g = length ipvt /\
  forall j, (j < length ipvt)%nat ->
    nth_error a (ipvt_index (length a) (nth j ipvt 0%nat)) = Some (nth j g None).
Proof.
  revert g; induction ipvt as [|k ipvt IH]; intros g H; cbn in H.
  - injection H as <-. split; [reflexivity|]. intros j Hj; cbn in Hj; lia.
  - apply bindx_ok in H as [l [Hl H]].
    destruct (nth_error a (ipvt_index (length a) k)) as [x|] eqn:Hx; [|discriminate].
    injection H as <-. destruct (IH _ Hl) as [IH1 IH2].
    split; [cbn; congruence|]. intros [|j] Hj; cbn in Hj |- *; [exact Hx|]. apply IH2. lia.
Qed.

Lemma osum_map_some {A} (l : list A) (f : A -> option R) (h : A -> R) :
  (forall a, In a l -> f a = Some (h a)) -> osum (map f l) = Some (rsum (map h l)).
Proof.
  intros H. unfold osum.
  replace (map f l) with (map Some (map h l)).
  - rewrite osum_some. f_equal; ring.
  - rewrite map_map. apply map_ext_in. intros a Ha. symmetry; apply H, Ha.
Qed.

Lemma external_cov func x0 bounds maxfev tup C :
  inv_correct inv -> inv_extensional inv ->
  (forall f i k r, lmdif f i k = OkX r -> minpack_output (length i) r) ->
  LSB func x0 (Some bounds) maxfev = OkX tup -> tp_cov tup = Some C ->
  let n := length x0 in
  exists f i k ret, lmdif f i k = OkX ret /\ (1 <= rt_info ret <= 4)%Z /\
  forall (xs : list R) (fj : nat -> nat -> R) (d : nat -> R),
  rt_x ret = map Some xs ->
  (forall j i, (j < n)%nat -> (i < n)%nat -> rt_fjac ret j i = Some (fj j i)) ->
  (forall k, (k < n)%nat -> d k <> 0 /\
     exists h, (forall v, i2e_lam (nth k bounds (None, None)) (Some v) = Some (h v)) /\
       derivable_pt_lim h (nth k xs 0) (d k)) ->
  exists I : nat -> nat -> R,
    (forall i j, (i < n)%nat -> (j < n)%nat -> at2 C i j = Some (d i * I i j * d j)) /\
    (forall i k, (i < n)%nat -> (k < n)%nat ->
      rsum (map (fun j => I i j * gauss_newton n fj (rt_ipvt ret) j k) (seq 0 n)) =
      if Nat.eqb i k then 1 else 0).
Proof.
  intros Hinv Hext Hlm H HC n.
  apply bounded_inv in H as (Hl & f0 & ret & g & mf & Hf & _ & Hret & Hin8 & Hx & Htk & Hcov & _).
  destruct (Hlm _ _ _ _ Hret) as (Hxl & Hpl & Hp).
  rewrite zip_with_length, Hl, Nat.min_id in Hxl, Hpl, Hp.
  rewrite HC in Hcov.
  destruct ((1 <=? rt_info ret) && (rt_info ret <=? 4))%Z eqn:Hinfo; [|discriminate].
  apply andb_true_iff in Hinfo as [I1 I4]. apply Z.leb_le in I1, I4.
  do 3 eexists. exists ret. split; [exact Hret|]. split; [lia|]. clear Hret.
  intros xs fj d Hxs Hfj Hder.
  assert (Hg : forall k v b, nth_error (rt_x ret) k = Some v -> nth_error bounds k = Some b ->
     grad_one v b = Some (d k) /\ d k <> 0).
  { intros k v b Hv Hb.
    assert (Hk : (k < n)%nat).
    { assert (k < length (rt_x ret))%nat by (apply nth_error_Some; congruence). unfold n. lia. }
    destruct (Hder k Hk) as (Hd & h & Hh & Hdl). split; [|exact Hd].
    assert (Hnb : nth k bounds (None, None) = b) by (apply nth_error_nth; exact Hb).
    rewrite Hnb in Hh.
    rewrite Hxs in Hv. rewrite nth_error_map in Hv.
    destruct (nth_error xs k) as [x|] eqn:Hxk; [|discriminate]. injection Hv as <-.
    rewrite (nth_error_nth _ _ 0 Hxk) in Hdl.
    destruct (grad_correct b x) as (g' & f & Hgo & Hf' & Hdl').
    rewrite Hgo. f_equal. apply (uniqueness_limite f x); [exact Hdl'|].
    assert (Hfh : forall v, f v = h v).
    { intros v. specialize (Hh v). specialize (Hf' v). congruence. }
    intros eps He. destruct (Hdl eps He) as [delta Hdelta]. exists delta. intros z Hz Hz'.
    rewrite !Hfh. apply Hdelta; assumption. }
  clear Hder.
  destruct (take_ipvt_ok _ _ _ Htk) as [Hgl Hgn].
  assert (Hgrl : length (i2e_grad (rt_x ret) bounds) = n).
  { unfold i2e_grad. rewrite app_length, zip_with_length, repeat_length. unfold n. lia. }
  assert (Hpj : forall j, (j < n)%nat -> exists k, nth j (rt_ipvt ret) 0%nat = S k /\ (k < n)%nat).
  { intros j Hj. rewrite Forall_forall in Hp.
    assert (Hin : In (nth j (rt_ipvt ret) 0%nat) (rt_ipvt ret)) by (apply nth_In; unfold n in Hj; lia).
    apply Hp in Hin. exists (nth j (rt_ipvt ret) 0%nat - 1)%nat. unfold n. lia. }
  assert (Hgd : forall j k, (j < n)%nat -> nth j (rt_ipvt ret) 0%nat = S k -> (k < n)%nat ->
            nth j g None = Some (d k) /\ d k <> 0).
  { intros j k Hj Hjk Hk.
    specialize (Hgn j ltac:(unfold n in Hj; lia)). rewrite Hjk in Hgn. cbn [ipvt_index] in Hgn.
    unfold i2e_grad in Hgn. rewrite nth_error_app1 in Hgn
      by (rewrite zip_with_length; unfold n in Hk; lia).
    unfold zip_with in Hgn. rewrite nth_error_map in Hgn.
    destruct (nth_error (combine (rt_x ret) bounds) k) as [[v b]|] eqn:Hc; [|discriminate].
    cbn in Hgn.
    assert (Hv : nth_error (rt_x ret) k = Some v /\ nth_error bounds k = Some b).
    { clear -Hc. revert k bounds Hc. induction (rt_x ret) as [|p l IH]; intros [|k] [|q m] Hc;
        cbn in Hc; try discriminate.
      - injection Hc as -> ->. split; reflexivity.
      - cbn. apply IH, Hc. }
    destruct Hv as [Hv Hb]. destruct (Hg _ _ _ Hv Hb) as [Hgo Hd]. split; [congruence|exact Hd]. }
  unfold cov_from in Hcov.
  set (Rext := fun i k => factor n fj (rt_ipvt ret) i k / d k).
  assert (HR : forall i k, (i < n)%nat -> (k < n)%nat ->
     odot (length x0)
       (fun i0 j => if (i0 <=? j)%nat then odiv (rt_fjac ret j i0) (nth j g None) else Some 0)
       (fun i0 k0 => Some (if (ipvt_index (length x0) (nth i0 (rt_ipvt ret) 0) =? k0)%nat then 1 else 0))
       i k = Some (Rext i k)).
  { intros i k Hi Hk. unfold odot.
    rewrite (osum_map_some _ _ (fun j => (if Nat.eqb (nth j (rt_ipvt ret) 0%nat) (S k) then
                        if (i <=? j)%nat then fj j i else 0 else 0) * / d k)).
    - f_equal. unfold Rext, factor, Rdiv. fold n.
      rewrite (rsum_map_ext _ (fun j => / d k * (if (nth j (rt_ipvt ret) 0 =? S k)%nat
        then if (i <=? j)%nat then fj j i else 0 else 0))) by (intros; ring).
      rewrite rsum_map_mult. ring.
    - intros j Hj. apply in_seq in Hj. cbn in Hj. destruct (Hpj j) as (p & Hjp & Hpn); [unfold n; lia|].
      rewrite Hjp. cbn [ipvt_index]. destruct (Hgd j p ltac:(unfold n; lia) Hjp Hpn) as [Hgj Hdp].
      rewrite Hgj. cbn [Nat.eqb].
      destruct (Nat.leb_spec i j) as [Hij|Hij].
      + rewrite Hfj by (unfold n in *; lia). cbn [odiv]. rewrite Reqb_f by exact Hdp.
        cbn [omul oap2].
        destruct (Nat.eqb_spec p k) as [->|Hne]; f_equal; field; [exact Hdp|].
        split; [|exact Hdp]. destruct (Hpj j) as (p' & _); [unfold n; lia|].
        destruct (nth_error (rt_x ret) k) as [v|] eqn:Hv.
        * destruct (nth_error bounds k) as [b|] eqn:Hb; [exact (proj2 (Hg _ _ _ Hv Hb))|].
          apply nth_error_None in Hb. unfold n in Hk. lia.
        * apply nth_error_None in Hv. unfold n in Hk. lia.
      + cbn [omul oap2]. destruct (Nat.eqb_spec p k); f_equal; ring. }
  assert (HdN : forall k, (k < n)%nat -> d k <> 0).
  { intros k Hk. destruct (nth_error (rt_x ret) k) as [v|] eqn:Hv.
    - destruct (nth_error bounds k) as [b|] eqn:Hb; [exact (proj2 (Hg _ _ _ Hv Hb))|].
      apply nth_error_None in Hb. unfold n in Hk. lia.
    - apply nth_error_None in Hv. unfold n in Hk. lia. }
  rewrite (Hext _ _ (fun j k => Some (rsum (map (fun i => Rext i j * Rext i k) (seq 0 n))))) in Hcov.
  2:{ intros i j Hi Hj. unfold odot at 1. fold n. apply osum_map_some.
      intros k Hk. apply in_seq in Hk. rewrite !HR by (unfold n in *; lia). reflexivity. }
  symmetry in Hcov. fold n in Hcov.
  apply (Hinv n (fun j k => rsum (map (fun i => Rext i j * Rext i k) (seq 0 n)))) in Hcov
    as (B & HB1 & HB2).
  exists (fun i j => B i j / (d i * d j)). split.
  - intros i j Hi Hj. rewrite HB1 by assumption. f_equal. field. split; apply HdN; assumption.
  - intros i k Hi Hk. pose proof (HB2 i k Hi Hk) as Hik.
    assert (HA : forall j, (j < n)%nat ->
       rsum (map (fun m => Rext m j * Rext m k) (seq 0 n)) =
       gauss_newton n fj (rt_ipvt ret) j k * (/ d j * / d k)).
    { intros j Hj. unfold gauss_newton, Rext.
      rewrite (Rmult_comm _ (/ d j * / d k)), <- rsum_map_mult. apply rsum_map_ext.
      intros m _. field. split; apply HdN; assumption. }
    rewrite (rsum_map_ext _ (fun j => / d k * (B i j * / d j * gauss_newton n fj (rt_ipvt ret) j k)))
      in Hik.
    2:{ intros j Hj. apply in_seq in Hj. rewrite HA by lia. ring. }
    rewrite rsum_map_mult in Hik.
    rewrite (rsum_map_ext _ (fun j => / d i * (B i j * / d j * gauss_newton n fj (rt_ipvt ret) j k))).
    2:{ intros j Hj. apply in_seq in Hj. field. split; apply HdN; lia. }
    rewrite rsum_map_mult.
    replace (rsum (map (fun x => B i x * / d x * gauss_newton n fj (rt_ipvt ret) x k) (seq 0 n)))
      with (d k * (if (i =? k)%nat then 1 else 0)).
    + destruct (Nat.eqb_spec i k) as [->|_]; [field; apply HdN, Hk|ring].
    + rewrite <- Hik. field. apply HdN, Hk.
Qed.

Lemma run_exceptions func guess np ks bounds maxfev e nf :
  RUN func guess np ks bounds maxfev = RaiseX e nf ->
  e <> ZeroDivisionError /\ (e = ValueError -> nf = false) /\
  TRY func guess np ks bounds maxfev = RaiseX e nf.
Proof.
  unfold run_leastsq.
  destruct (TRY func guess np ks bounds maxfev) as [d|e' nf']; [discriminate|].
  destruct e'; try (intros [= <- <-]; split; [discriminate|split; [discriminate|reflexivity]]).
  - discriminate.
  - destruct nf'; [discriminate|]. intros [= <- <-].
    split; [discriminate|split; reflexivity].
Qed.

Lemma success_reported func guess np ks bounds maxfev tup cov0 n C0 fdiff residuals :
  LSB func guess bounds maxfev = OkX tup -> (1 <= tp_ier tup <= 4)%Z ->
  tp_cov tup = Some cov0 -> nrow cov0 = n -> ncol cov0 = n ->
  (forall i j, (i < n)%nat -> (j < n)%nat -> at2 cov0 i j = Some (C0 i j)) ->
  func (tp_x tup) = OkX fdiff -> skipn np fdiff = map Some residuals ->
  degrees ks (length fdiff) np (length guess) <> 0%Z ->
  let s := chi2 residuals / IZR (degrees ks (length fdiff) np (length guess)) in
  (forall i, (i < n)%nat -> 0 <= C0 i i * s) ->
  (forall M, (forall i j, (i < n)%nat -> (j < n)%nat -> M i j = C0 i j * s) ->
     exists l, eig n M = Some l /\ Forall (fun x => 0 <= x) l) ->
  exists d, RUN func guess np ks bounds maxfev = OkX d /\ dget d "flags" = Some (LInt 0) /\
    dget d "pars" = Some (LVec (tp_x tup)).
Proof.
  intros Ht Hi Hc Hn1 Hn2 HC Hf Hr Hd s Hdiag He.
  unfold run_leastsq, run_try. rewrite Ht. cbn [bindx].
  destruct (Z.eqb_spec (tp_ier tup) 0) as [E|_]; [lia|].
  destruct (Z.ltb_spec 4 (tp_ier tup)) as [E|_]; [lia|].
  rewrite Hc, Hf. cbn [bindx]. cbn zeta.
  set (dof := if ks then _ else _).
  assert (Hdof : dof = degrees ks (length fdiff) np (length guess)).
  { unfold dof, degrees. destruct ks; lia. }
  clearbody dof. subst dof.
  destruct (Z.eqb_spec (degrees ks (length fdiff) np (length guess)) 0) as [E|_]; [tauto|].
  assert (Hs : odiv (osum (map (fun d => omul d d) (skipn np fdiff)))
            (Some (IZR (degrees ks (length fdiff) np (length guess)))) = Some s).
  { rewrite Hr, map_map. rewrite (osum_map_some _ _ (fun d => d ^ 2)).
    - cbn [odiv]. rewrite Reqb_f by (apply not_0_IZR; exact Hd). reflexivity.
    - intros a _. cbn. f_equal. ring. }
  rewrite Hs.
  assert (Htc : test_cov eig (mat_scale cov0 (Some s)) = 0%Z).
  { unfold test_cov, np_eig. cbn [mat_scale nrow ncol at2]. rewrite Hn1, Hn2, Nat.eqb_refl. cbn [negb].
    assert (Hcell : forall i j, (i < n)%nat -> (j < n)%nat ->
              omul (at2 cov0 i j) (Some s) = Some (C0 i j * s)).
    { intros i j Hi' Hj'. rewrite HC by assumption. reflexivity. }
    assert (Hfin : forallb is_fin (all_cells (mat_scale cov0 (Some s))) = true).
    { apply forallb_forall. intros x Hx. unfold all_cells in Hx. apply in_flat_map in Hx as (i & Hi' & Hx).
      apply in_map_iff in Hx as (j & <- & Hj'). apply in_seq in Hi', Hj'. cbn in Hi', Hj'.
      cbn [mat_scale at2]. rewrite Hcell by lia. reflexivity. }
    unfold mat_scale in Hfin. rewrite Hn1, Hn2 in Hfin. unfold mat_scale.
    rewrite Hn1, Hn2. cbn [nrow ncol at2]. rewrite Hfin.
    destruct (He (fun i j => oval (omul (at2 cov0 i j) (Some s)))) as (l & Hl & Hpos).
    { intros i j Hi' Hj'. rewrite Hcell by assumption. reflexivity. }
    rewrite Hl.
    assert (H1 : existsb (fun x => Rltb x 0) l = false).
    { destruct (existsb _ l) eqn:Ex; [|reflexivity]. apply existsb_exists in Ex as (x & Hx & Hlt).
      rewrite Forall_forall in Hpos. apply Hpos in Hx. revert Hlt. rewrite Rltb_f by exact Hx. discriminate. }
    rewrite H1.
    match goal with |- (if ?b then _ else _) = _ => assert (H2 : b = false) end.
    { match goal with |- existsb ?f ?m = _ => destruct (existsb f m) eqn:Ex; [|reflexivity] end.
      apply existsb_exists in Ex as (x & Hx & Hlt). unfold odiag in Hx. cbn [nrow ncol at2] in Hx.
      apply in_map_iff in Hx as (i & <- & Hi'). apply in_seq in Hi'. rewrite Nat.min_id in Hi'.
      rewrite Hcell in Hlt by lia. cbn in Hlt. rewrite Rltb_f in Hlt by (apply Hdiag; lia). discriminate. }
    rewrite H2. reflexivity. }
  rewrite Htc. cbn [Z.eqb negb]. eexists. split; [reflexivity|]. split; reflexivity.
Qed.
End S.
