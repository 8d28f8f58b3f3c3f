(** Complex numbers and deconvolution; C75. *)
From Verif Require Import Base XReal Pixels_Model FastExp_Model PrePSF_Model PrePSF_Spec PrePSF_Proofs.
From Coq Require Import Psatz.
Local Open Scope R_scope.

Lemma ceq a b : re a = re b -> im a = im b -> a = b.
Proof. destruct a, b. cbn. intros -> ->. reflexivity. Qed.
Definition csq (a : cplx) : R := re a ^ 2 + im a ^ 2.
Lemma csq_nonneg a : 0 <= csq a. Proof. unfold csq. nra. Qed.
Lemma csq_0 a : csq a = 0 -> a = mkC 0 0.
Proof. unfold csq. intros H. apply ceq; cbn; nra. Qed.
Lemma cabs_sq a : cabs a * cabs a = csq a.
Proof. unfold cabs. apply sqrt_sqrt. apply csq_nonneg. Qed.
Lemma cabs_nonneg a : 0 <= cabs a. Proof. apply sqrt_pos. Qed.
Lemma cabs_0 a : cabs a = 0 <-> a = mkC 0 0.
Proof.
  split.
  - intros H. apply csq_0. rewrite <- cabs_sq, H. ring.
  - intros ->. unfold cabs. cbn [re im]. replace (0 ^ 2 + 0 ^ 2) with 0 by ring. apply sqrt_0.
Qed.
Lemma csq_scale x a : csq (cscale x a) = x * x * csq a. Proof. unfold csq. cbn. ring. Qed.
Lemma csq_mul a b : csq (cmul a b) = csq a * csq b. Proof. unfold csq. cbn. ring. Qed.
Lemma csq_conj a : csq (cconj a) = csq a. Proof. unfold csq. cbn. ring. Qed.
Lemma cabs_eq a x : 0 <= x -> csq a = x * x -> cabs a = x.
Proof. intros Hx H. unfold cabs. fold (csq a). rewrite H. apply sqrt_square. exact Hx. Qed.
Lemma cabs_scale x a : 0 <= x -> cabs (cscale x a) = x * cabs a.
Proof.
  intros Hx. apply cabs_eq; [apply Rmult_le_pos; [exact Hx|apply cabs_nonneg]|]. rewrite csq_scale, <- cabs_sq. ring.
Qed.
Lemma cabs_mul a b : cabs (cmul a b) = cabs a * cabs b.
Proof. apply cabs_eq; [apply Rmult_le_pos; apply cabs_nonneg|]. rewrite csq_mul, <- !cabs_sq. ring. Qed.
Lemma cmul_comm a b : cmul a b = cmul b a. Proof. apply ceq; cbn; ring. Qed.
Lemma cmul_assoc a b c : cmul a (cmul b c) = cmul (cmul a b) c. Proof. apply ceq; cbn; ring. Qed.
Lemma cmul_1 a : cmul a (mkC 1 0) = a. Proof. apply ceq; cbn; ring. Qed.

(** ** Division *)
Definition cinv (b : cplx) : cplx := cscale (/ csq b) (cconj b).
Lemma cdiv_some a b : b <> mkC 0 0 -> cdiv a b = Some (cmul a (cinv b)).
Proof.
  intros H. unfold cdiv. fold (csq b). destruct (Reqb_spec (csq b) 0) as [E|E]; [apply csq_0 in E; contradiction|].
  f_equal. unfold cinv. apply ceq; cbn; ring.
Qed.
Lemma cdiv_none a b : cdiv a b = None <-> b = mkC 0 0.
Proof.
  unfold cdiv. fold (csq b). destruct (Reqb_spec (csq b) 0) as [E|E].
  - split; [intros _; apply csq_0; exact E|reflexivity].
  - split; [discriminate|]. intros ->. exfalso. apply E. unfold csq. cbn. ring.
Qed.
Lemma cinv_r b : b <> mkC 0 0 -> cmul (cinv b) b = mkC 1 0.
Proof.
  intros H. assert (csq b <> 0) by (intros E; apply H, csq_0, E).
  unfold cinv. apply ceq; cbn; unfold csq in *; field; assumption.
Qed.
Lemma csq_inv b : b <> mkC 0 0 -> csq (cinv b) * csq b = 1.
Proof. intros H. rewrite <- csq_mul, (cinv_r b H). unfold csq. cbn. ring. Qed.
Lemma cabs_inv b : b <> mkC 0 0 -> cabs (cinv b) * cabs b = 1.
Proof. intros H. rewrite <- cabs_mul, (cinv_r b H). apply cabs_eq; [lra|]. unfold csq. cbn. ring. Qed.

(** ** Truncation of one mode *)
Lemma trunc_mode_spec m p : 0 < m ->
  m <= cabs (trunc_mode m p) /\
  (m < cabs p -> trunc_mode m p = p) /\
  (cabs p <= m -> cabs (trunc_mode m p) = m) /\
  (p <> mkC 0 0 -> exists s, 0 < s /\ trunc_mode m p = cscale s p).
Proof.
  intros Hm. unfold trunc_mode. cbv zeta. destruct (Rleb_spec (cabs p) m) as [A|A].
  - destruct (Reqb_spec (cabs p) 0) as [B|B].
    + assert (E : cabs (mkC m 0) = m). { apply cabs_eq; [lra|]. unfold csq. cbn. ring. }
      rewrite E. repeat split; try lra. intros H. exfalso. apply H. apply cabs_0. exact B.
    + pose proof (cabs_nonneg p) as N. assert (P : 0 < cabs p) by lra.
      assert (Hs : 0 < m / cabs p) by (apply Rdiv_lt_0_compat; assumption).
      assert (E : cabs (cscale (m / cabs p) p) = m). { rewrite cabs_scale by lra. field. lra. }
      rewrite E. repeat split; try lra. intros _. exists (m / cabs p). split; [exact Hs|reflexivity].
  - repeat split; try lra. intros _. exists 1. split; [lra|]. apply ceq; cbn; ring.
Qed.
Lemma trunc_nonzero m p : 0 < m -> trunc_mode m p <> mkC 0 0.
Proof. intros Hm E. destruct (trunc_mode_spec m p Hm) as (A & _). rewrite E in A. assert (cabs (mkC 0 0) = 0) by (apply cabs_0; reflexivity). lra. Qed.

Lemma cdivs_some a b : length a = length b -> (forall y, In y b -> y <> mkC 0 0) ->
  cdivs a b = Some (map (fun x => cmul (fst x) (cinv (snd x))) (combine a b)).
Proof.
  revert b. induction a as [|x a IH]; intros [|y b] L H; try discriminate L; [reflexivity|].
  cbn [cdivs combine map fst snd]. rewrite cdiv_some by (apply H; left; reflexivity).
  rewrite IH; [reflexivity|now inversion L|]. intros z Hz. apply H. right. exact Hz.
Qed.
Lemma cdivs_none a b : length a = length b -> (exists y, In y b /\ y = mkC 0 0) -> cdivs a b = None.
Proof.
  revert b. induction a as [|x a IH]; intros [|y b] L (z & Hz & Ez); try discriminate L; [destruct Hz|].
  cbn [cdivs]. destruct Hz as [->|Hz].
  - rewrite (proj2 (cdiv_none x z) Ez). reflexivity.
  - rewrite (IH b); [destruct (cdiv x y); reflexivity|now inversion L|exists z; auto].
Qed.
Lemma deconvolve_some k p amp frac : length k = length p -> 0 < frac * amp ->
  deconvolve k p amp frac = Some (map (fun x => cmul (fst x) (cinv (snd x))) (combine k (map (trunc_mode (frac * amp)) p)),
                                  map (trunc_mode (frac * amp)) p, map (trunc_mask (frac * amp)) p).
Proof.
  intros L H. unfold deconvolve. cbv zeta. rewrite cdivs_some; [reflexivity|now rewrite map_length|].
  intros y Hy. apply in_map_iff in Hy. destruct Hy as (z & <- & _). apply trunc_nonzero. exact H.
Qed.
Lemma nth_error_combine {A B} (a : list A) (b : list B) i : nth_error (combine a b) i =
  match nth_error a i, nth_error b i with Some x, Some y => Some (x, y) | _, _ => None end.
Proof.
  revert b i. induction a as [|x a IH]; intros [|y b] [|i]; cbn; try reflexivity.
  - destruct (nth_error a i); reflexivity.
  - apply IH.
Qed.
(** everything C75 says, mode by mode *)
Lemma deconvolve_modes k p amp frac : length k = length p -> 0 < frac * amp ->
  exists k' p' m, deconvolve k p amp frac = Some (k', p', m) /\ length k' = length k /\ length p' = length p /\ length m = length p /\
  forall i x y, nth_error k i = Some x -> nth_error p i = Some y ->
    exists x' y' b, nth_error k' i = Some x' /\ nth_error p' i = Some y' /\ nth_error m i = Some b /\
      frac * amp <= cabs y' /\ (frac * amp < cabs y -> y' = y) /\ (cabs y <= frac * amp -> cabs y' = frac * amp) /\
      (y <> mkC 0 0 -> exists s, 0 < s /\ y' = cscale s y) /\ (y = mkC 0 0 -> y' = mkC (frac * amp) 0) /\
      cmul x' y' = x /\ cabs x' <= cabs x / (frac * amp) /\ (b = true <-> y = mkC 0 0).
Proof.
  intros L H. rewrite (deconvolve_some k p amp frac L H). do 3 eexists. split; [reflexivity|].
  rewrite !map_length, combine_length, map_length, L, Nat.min_id. repeat split.
  intros i x y Hx Hy.
  assert (Hy' : nth_error (map (trunc_mode (frac * amp)) p) i = Some (trunc_mode (frac * amp) y)) by (apply map_nth_error; exact Hy).
  exists (cmul x (cinv (trunc_mode (frac * amp) y))), (trunc_mode (frac * amp) y), (trunc_mask (frac * amp) y).
  destruct (trunc_mode_spec (frac * amp) y H) as (A & B & C & D). set (y' := trunc_mode (frac * amp) y) in *.
  assert (NZ : y' <> mkC 0 0) by (apply trunc_nonzero; exact H).
  split; [|split; [exact Hy'|split; [apply map_nth_error; exact Hy|]]].
  - change (cmul x (cinv y')) with ((fun x => cmul (fst x) (cinv (snd x))) (x, y')). apply map_nth_error. rewrite nth_error_combine, Hx, Hy'. reflexivity.
  - repeat split; try assumption.
    + intros ->. unfold y', trunc_mode. cbv zeta. rewrite (proj2 (cabs_0 (mkC 0 0)) eq_refl).
      rewrite Rleb_t by lra. rewrite (proj2 (Reqb_true 0 0) eq_refl). reflexivity.
    + rewrite <- cmul_assoc, cinv_r by exact NZ. apply cmul_1.
    + rewrite cabs_mul. pose proof (cabs_inv y' NZ) as I. pose proof (cabs_nonneg (cinv y')). pose proof (cabs_nonneg x).
      assert (cabs (cinv y') <= / (frac * amp)).
      { apply Rmult_le_reg_r with (cabs y'); [lra|]. rewrite I. apply Rmult_le_reg_l with (frac * amp); [lra|].
        replace (frac * amp * (/ (frac * amp) * cabs y')) with (cabs y') by (rewrite <- Rmult_assoc, Rinv_r, Rmult_1_l by lra; reflexivity). lra. }
      unfold Rdiv. apply Rmult_le_compat_l; assumption.
    + unfold trunc_mask. cbv zeta. intros E. apply andb_true_iff in E. destruct E as [_ E]. apply cabs_0. apply Reqb_true. exact E.
    + intros ->. unfold trunc_mask. cbv zeta. rewrite (proj2 (cabs_0 (mkC 0 0)) eq_refl). rewrite Rleb_t by lra. cbn [andb]. apply Reqb_true. reflexivity.
Qed.
(** a psf without flux: min_amp is 0 and a vanishing mode is divided by *)
Lemma deconvolve_no_flux k p frac : length k = length p -> (deconvolve k p 0 frac = None <-> In (mkC 0 0) p).
Proof.
  intros L. unfold deconvolve. cbv zeta. rewrite Rmult_0_r.
  assert (T : forall y, trunc_mode 0 y = y).
  { intros y. unfold trunc_mode. cbv zeta. destruct (Rleb_spec (cabs y) 0) as [A|A]; [|reflexivity].
    pose proof (cabs_nonneg y). assert (E : cabs y = 0) by lra. rewrite (proj2 (Reqb_true _ _) E). symmetry. apply cabs_0. exact E. }
  rewrite (map_ext _ (fun y => y) T), map_id. split.
  - intros H. destruct (in_dec (fun a b : cplx => ltac:(destruct a as [a1 a2], b as [b1 b2]; destruct (Req_EM_T a1 b1); [destruct (Req_EM_T a2 b2)|]; [left|right|right]; congruence)) (mkC 0 0) p) as [I|I]; [exact I|].
    rewrite cdivs_some in H; [discriminate H|exact L|]. intros y Hy ->. contradiction.
  - intros I. rewrite cdivs_none; [reflexivity|exact L|]. exists (mkC 0 0). auto.
Qed.
(** the docstring's claim on the mask fails: a mode that is truncated is not marked *)
Lemma mask_witness : exists k' p', deconvolve [mkC 1 0] [mkC (1 / 2) 0] 1 1 = Some (k', p', [false]) /\ p' = [mkC 1 0].
Proof.
  assert (E : cabs (mkC (1 / 2) 0) = 1 / 2). { apply cabs_eq; [lra|]. unfold csq. cbn. field. }
  rewrite deconvolve_some by (try reflexivity; lra). do 2 eexists. cbn [map combine fst snd].
  assert (M : trunc_mask (1 * 1) (mkC (1 / 2) 0) = false).
  { unfold trunc_mask. cbv zeta. rewrite E. destruct (Reqb_spec (1 / 2) 0); [lra|]. apply andb_false_r. }
  rewrite M. split; [reflexivity|]. f_equal. unfold trunc_mode. cbv zeta. rewrite E. rewrite Rleb_t by lra.
  destruct (Reqb_spec (1 / 2) 0); [lra|]. apply ceq; cbn; field.
Qed.
