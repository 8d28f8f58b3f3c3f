(** Covariances, windows and copies of the psf: C76, C102-C104. *)
From Verif Require Import Base XReal Moments_Model Jacobian_Model Pixels_Model FastExp_Model MomResult_Model MomResult_Spec MomResult_Proofs PrePSF_Model PrePSF_Spec PrePSF_Proofs PrePSF2_Proofs PrePSF3_Proofs PrePSF4_Proofs PrePSF5_Proofs.
From Coq Require Import Psatz.
Local Open Scope R_scope.

(** ** Results *)
Lemma mom_shape a cv sn : length a = 6%nat -> sm_n cv = 6%nat -> exists r, make_mom_result a cv sn = Ok r /\ m_sums r = a /\ m_cov r = cv /\ m_flux r = nth 5 a NaN.
Proof.
  intros H1 H2. destruct (mom_result_full a cv sn) as (r & A & B & C & D & E & F & G & _).
  - unfold shapes_ok. lia.
  - exists r. auto.
Qed.
Lemma go_cases f o np r : go f o np = Some (Ok r) <->
  nrow (pp_im o) = ncol (pp_im o) /\ (np = true \/ exists p, pp_psf o = Some p /\ same_wcs (snd p) (pp_jac o) = true) /\ meas f o (the_psf o np) = Some (Ok r).
Proof.
  unfold go, check_obs, the_psf. destruct (Nat.eqb_spec (nrow (pp_im o)) (ncol (pp_im o))) as [E|E]; cbn [negb].
  2:{ split; [discriminate|]. intros (H & _). contradiction. }
  destruct np.
  - split; [intros H; auto|]. intros (_ & _ & H). exact H.
  - destruct (pp_psf o) as [p|].
    + destruct (same_wcs (snd p) (pp_jac o)) eqn:W; cbn [negb].
      * split; [intros H; split; [exact E|]; split; [right; exists p; auto|exact H]|]. intros (_ & _ & H). exact H.
      * split; [discriminate|]. intros (_ & [H|(q & [= <-] & H)] & _); [discriminate|congruence].
    + split; [discriminate|]. intros (_ & [H|(q & H & _)] & _); discriminate.
Qed.
(** the result of a run *)
Definition result_of f o psf t K r : Prop :=
  moments_are r (stamp_moment f o psf t K) /\ sm_n (m_cov r) = 6%nat /\
  (forall i j, (i < 6)%nat -> (j < 6)%nat -> sm_at (m_cov r) i j = Fin (stamp_cov o psf t K i j)) /\
  m_flux r = Fin (stamp_moment f o psf t K 3).
Lemma runs_result f o psf t K : runs f o psf t K -> exists r, meas f o psf = Some (Ok r) /\ result_of f o psf t K r.
Proof.
  intros H. destruct (meas_runs f o psf t K H) as (cv & M & N & C).
  destruct (mom_shape (NaN :: NaN :: map (fun i => Fin (stamp_moment f o psf t K i)) [0%nat; 1%nat; 2%nat; 3%nat]) cv (Some (Fin (k_00 K))) eq_refl N) as (r & R1 & R2 & R3 & R4).
  exists r. split; [rewrite M, R1; reflexivity|]. unfold result_of, moments_are. rewrite R2, R3, R4. repeat split; assumption.
Qed.
Lemma go_runs f o np r : go f o np = Some (Ok r) -> exists t K, runs f o (the_psf o np) t K /\ result_of f o (the_psf o np) t K r.
Proof.
  intros H. apply go_cases in H. destruct H as (Hsq & _ & H). destruct (meas_only f o (the_psf o np) r Hsq H) as (t & K & R).
  exists t, K. split; [exact R|]. destruct (runs_result f o (the_psf o np) t K R) as (r' & M & Rr). rewrite M in H. injection H as <-. exact Rr.
Qed.

(** ** Kernels as functions of the mode *)
Lemma list_as_map {A} (dec : forall a b : A, {a = b} + {a <> b}) (l : list A) (v : list R) : NoDup l -> length v = length l -> exists g, v = map g l.
Proof.
  revert v. induction l as [|x l IH]; intros [|y v] Hd L; try discriminate; [exists (fun _ => 0); reflexivity|].
  inversion Hd as [|? ? N Hd']; subst. destruct (IH v Hd' ltac:(cbn in L; lia)) as (g & ->).
  exists (fun a => if dec a x then y else g a). cbn [map]. destruct (dec x x); [|contradiction]. f_equal.
  apply map_ext_in. intros a Ha. destruct (dec a x) as [->|]; [contradiction|reflexivity].
Qed.
Definition pair_dec (a b : nat * nat) : {a = b} + {a <> b}.
Proof. decide equality; apply Nat.eq_dec. Defined.
Lemma kern_fun t K : good_kernels t K -> exists kf : nat -> nat * nat -> R, forall i, kern_at K i = map (kf i) (k_msk K).
Proof.
  intros G.
  destruct (list_as_map pair_dec (k_msk K) (kern_at K 0) (gk_nodup t K G) (gk_len t K G 0)) as (g0 & H0).
  destruct (list_as_map pair_dec (k_msk K) (kern_at K 1) (gk_nodup t K G) (gk_len t K G 1)) as (g1 & H1).
  destruct (list_as_map pair_dec (k_msk K) (kern_at K 2) (gk_nodup t K G) (gk_len t K G 2)) as (g2 & H2).
  destruct (list_as_map pair_dec (k_msk K) (kern_at K 3) (gk_nodup t K G) (gk_len t K G 3)) as (g3 & H3).
  exists (fun i => match i with 0%nat => g0 | 1%nat => g1 | 2%nat => g2 | _ => g3 end).
  intros [|[|[|i]]]; assumption.
Qed.
Lemma combine_self_map {A B} (f : A -> B) l : combine l (map f l) = map (fun x => (x, f x)) l.
Proof. induction l as [|x l IH]; cbn; [reflexivity|]. rewrite IH. reflexivity. Qed.
Lemma mode_cov_fun pinv msk (f g : nat * nat -> R) : mode_cov pinv msk (map f msk) (map g msk) = lsum msk (fun m => f m * g m * csq (pinv m)).
Proof. unfold mode_cov. rewrite combine_map_map, combine_self_map, map_map. reflexivity. Qed.
Lemma psf_window_fun t msk f pinv x y : psf_window t msk (map f msk) pinv x y = lsum msk (fun m => f m * re (cmul (cis (- dot t m x y)) (pinv m))) / INR t ^ 2.
Proof. unfold psf_window. rewrite combine_self_map, map_map. reflexivity. Qed.
Lemma lsum_nonneg l f : (forall m, In m l -> 0 <= f m) -> 0 <= lsum l f.
Proof. intros H. unfold lsum. apply rsum_nonneg. intros x Hx. apply in_map_iff in Hx. destruct Hx as (m & <- & Hm). apply H. exact Hm. Qed.
Lemma sumn4 f : sumn 4 f = f 0%nat + f 1%nat + f 2%nat + f 3%nat. Proof. unfold sumn. cbn. ring. Qed.
Lemma dsum4 f : dsum 4 4 f = sumn 4 (fun i => f i 0%nat + f i 1%nat + f i 2%nat + f i 3%nat).
Proof. unfold dsum. apply sumn_ext. intros i _. apply sumn4. Qed.
Lemma lsum_lin l a b f g : lsum l (fun m => a * f m + b * g m) = a * lsum l f + b * lsum l g.
Proof. unfold lsum. rewrite rsum_map_plus, !rsum_map_mult. reflexivity. Qed.
Lemma lsum_ext l f g : (forall m, In m l -> f m = g m) -> lsum l f = lsum l g.
Proof. intros H. unfold lsum. apply rsum_map_ext. exact H. Qed.
(** quadratic form of the modes *)
Lemma quad_modes msk (kf : nat -> nat * nat -> R) (q : nat * nat -> R) x :
  quad4 (fun i j => lsum msk (fun m => kf i m * kf j m * q m)) x = lsum msk (fun m => sumn 4 (fun i => x i * kf i m) ^ 2 * q m).
Proof.
  unfold quad4. rewrite dsum4, sumn4. symmetry. unfold lsum.
  induction msk as [|m msk IH]; cbn [map]; rewrite ?rsum_nil, ?rsum_cons; [ring|]. rewrite IH, sumn4. ring.
Qed.

Section Cov.
  Variables (o : ppobs) (psf : option (arr2 R * jac)) (t : nat) (K : kernels) (kf : nat -> nat * nat -> R).
  Hypothesis HK : forall i, kern_at K i = map (kf i) (k_msk K).
  Let pinv := psf_inv (psf_ft t psf).
  Let amp := total_var (pp_wt o) * (INR t / INR (nrow (pp_im o))) ^ 2 / INR t ^ 4.
  Let base i j := lsum (k_msk K) (fun m => kf i m * kf j m * csq (pinv m)).
  Lemma base_sym i j : base i j = base j i.
  Proof. apply lsum_ext. intros m _. ring. Qed.
  Lemma stamp_cov_block i j : stamp_cov o psf t K (2 + i) (2 + j) = base i j * amp.
  Proof.
    unfold stamp_cov. change (Nat.leb 2 (2 + i) && Nat.leb 2 (2 + j)) with true. cbv iota. fold amp. fold pinv.
    rewrite !HK, mode_cov_fun. f_equal. fold (base (Nat.min (2 + i) (2 + j) - 2) (Nat.max (2 + i) (2 + j) - 2)).
    destruct (Nat.le_ge_cases i j) as [L|L].
    - rewrite Nat.min_l, Nat.max_r by lia. f_equal; lia.
    - rewrite Nat.min_r, Nat.max_l by lia. rewrite base_sym. f_equal; lia.
  Qed.
  Lemma stamp_cov_sym i j : stamp_cov o psf t K i j = stamp_cov o psf t K j i.
  Proof. unfold stamp_cov. rewrite (andb_comm (Nat.leb 2 i)), (Nat.min_comm i j), (Nat.max_comm i j), (Nat.eqb_sym i j). reflexivity. Qed.
  Lemma stamp_cov_quad x : quad4 (fun i j => stamp_cov o psf t K (2 + i) (2 + j)) x = lsum (k_msk K) (fun m => sumn 4 (fun i => x i * kf i m) ^ 2 * csq (pinv m)) * amp.
  Proof.
    rewrite <- quad_modes. fold base. unfold quad4. rewrite !dsum4, !sumn4, !stamp_cov_block. unfold base. ring.
  Qed.
  Lemma stamp_cov_psd : 0 <= amp -> psd 6 (stamp_cov o psf t K).
  Proof.
    intros Ha x.
    assert (E : dsum 6 6 (fun i j => x i * stamp_cov o psf t K i j * x j) = x 0%nat ^ 2 + x 1%nat ^ 2 + quad4 (fun i j => stamp_cov o psf t K (2 + i) (2 + j)) (fun i => x (2 + i)%nat)).
    { unfold quad4. rewrite dsum4, sumn4. unfold dsum, sumn. cbn [seq map]. rewrite !rsum_cons, !rsum_nil. cbn [Nat.add].
      assert (Z : forall i j, (i < 2 \/ j < 2)%nat -> stamp_cov o psf t K i j = if Nat.eqb i j then 1 else 0).
      { intros i j Hij. unfold stamp_cov. destruct (Nat.leb_spec 2 i), (Nat.leb_spec 2 j); cbn [andb]; try reflexivity. lia. }
      rewrite ?(Z 0%nat), ?(Z 1%nat), ?(Z 2%nat 0%nat), ?(Z 2%nat 1%nat), ?(Z 3%nat 0%nat), ?(Z 3%nat 1%nat), ?(Z 4%nat 0%nat), ?(Z 4%nat 1%nat), ?(Z 5%nat 0%nat), ?(Z 5%nat 1%nat) by lia.
      cbn [Nat.eqb]. ring. }
    rewrite E, stamp_cov_quad. 
    assert (0 <= lsum (k_msk K) (fun m => sumn 4 (fun i => x (2 + i)%nat * kf i m) ^ 2 * csq (pinv m))).
    { apply lsum_nonneg. intros m _. apply Rmult_le_pos; [apply pow2_ge_0|apply csq_nonneg]. }
    pose proof (pow2_ge_0 (x 0%nat)). pose proof (pow2_ge_0 (x 1%nat)). assert (0 <= lsum (k_msk K) (fun m => sumn 4 (fun i => x (2 + i)%nat * kf i m) ^ 2 * csq (pinv m)) * amp) by (apply Rmult_le_pos; assumption). lra.
  Qed.
End Cov.
Lemma total_var_nonneg w : 0 <= total_var w.
Proof.
  unfold total_var. apply rsum_nonneg. intros x Hx. apply in_map_iff in Hx. destruct Hx as (y & <- & Hy). apply filter_In in Hy. destruct Hy as [_ Hy].
  apply Rltb_true in Hy. apply Rlt_le. apply Rdiv_lt_0_compat; lra.
Qed.
Lemma amp_nonneg o t : 0 <= total_var (pp_wt o) * (INR t / INR (nrow (pp_im o))) ^ 2 / INR t ^ 4.
Proof.
  pose proof (total_var_nonneg (pp_wt o)). pose proof (pow2_ge_0 (INR t / INR (nrow (pp_im o)))).
  unfold Rdiv at 1. apply Rmult_le_pos; [apply Rmult_le_pos; assumption|].
  destruct (Req_dec (INR t) 0) as [E|E]; [rewrite E; replace (0 ^ 4) with 0 by ring; rewrite Rinv_0; lra|].
  apply Rlt_le, Rinv_0_lt_compat. pose proof (pos_INR t). apply pow_lt. lra.
Qed.

(** C76 *)
Lemma go_cov f o np r : go f o np = Some (Ok r) ->
  sm_n (m_cov r) = 6%nat /\ exists q, (forall i j, (i < 6)%nat -> (j < 6)%nat -> sm_at (m_cov r) i j = Fin (q i j)) /\ (forall i j, q i j = q j i) /\ psd 6 q.
Proof.
  intros H. destruct (go_runs f o np r H) as (t & K & R & (_ & N & C & _)). split; [exact N|].
  exists (stamp_cov o (the_psf o np) t K). split; [exact C|]. split; [apply stamp_cov_sym|].
  assert (G : good_kernels t K). { apply (kernels_good f t (wcs_of (pp_jac o))); [destruct R; lia|apply (rn_K _ _ _ _ _ R)]. }
  destruct (kern_fun t K G) as (kf & Hkf). apply (stamp_cov_psd o _ t K kf Hkf). apply amp_nonneg.
Qed.
Lemma total_var_scale w s : 0 < s -> total_var (mkArr (nrow w) (ncol w) (fun r c => s * at2 w r c)) = total_var w / s.
Proof.
  intros Hs. unfold total_var. cbn [nrow ncol at2]. set (L := flat_map (fun r => map (at2 w r) (seq 0 (ncol w))) (seq 0 (nrow w))).
  assert (E : flat_map (fun r => map (fun c => s * at2 w r c) (seq 0 (ncol w))) (seq 0 (nrow w)) = map (Rmult s) L).
  { unfold L. induction (seq 0 (nrow w)) as [|x l IH]; cbn [flat_map]; [reflexivity|]. rewrite map_app, IH, map_map. reflexivity. }
  rewrite E. clear E. induction L as [|x L IH]; cbn [map filter].
  - rewrite rsum_nil. unfold Rdiv. ring.
  - destruct (Rltb_spec 0 x) as [P|P].
    + rewrite Rltb_t by nra. cbn [map]. rewrite !rsum_cons, IH. field. lra.
    + rewrite Rltb_f by nra. exact IH.
Qed.
Lemma runs_weight f o w psf t K : runs f o psf t K -> runs f (with_weight o w) psf t K.
Proof. intros [A B C D E F]. constructor; assumption. Qed.
Lemma weight_scale f o np r s : go f o np = Some (Ok r) -> 0 < s ->
  exists r', go f (with_weight o (mkArr (nrow (pp_wt o)) (ncol (pp_wt o)) (fun i j => s * at2 (pp_wt o) i j))) np = Some (Ok r') /\
    m_sums r' = m_sums r /\ (forall i j, (i < 4)%nat -> (j < 4)%nat -> cov4 r' i j = cov4 r i j / s).
Proof.
  intros H Hs. destruct (go_runs f o np r H) as (t & K & R & (M & N & C & _)).
  set (o' := with_weight o _). pose proof (runs_weight f o (mkArr (nrow (pp_wt o)) (ncol (pp_wt o)) (fun i j => s * at2 (pp_wt o) i j)) _ t K R) as R'.
  destruct (runs_result f o' (the_psf o np) t K R') as (r' & M' & (S1 & N1 & C1 & _)).
  apply go_cases in H. destruct H as (Hsq & Hp & _). exists r'. split; [|split].
  - apply go_cases. split; [exact Hsq|]. split; [exact Hp|exact M'].
  - unfold moments_are in *. rewrite M, S1. reflexivity.
  - intros i j Hi Hj. unfold cov4. rewrite C, C1 by lia.
    assert (G : good_kernels t K). { apply (kernels_good f t (wcs_of (pp_jac o))); [destruct R; lia|apply (rn_K _ _ _ _ _ R)]. }
    destruct (kern_fun t K G) as (kf & Hkf). rewrite !(stamp_cov_block _ _ _ _ kf Hkf).
    unfold o' at 1. cbn [with_weight pp_wt pp_im]. rewrite total_var_scale by exact Hs. unfold o'. cbn [with_weight pp_im]. unfold Rdiv. ring.
Qed.
