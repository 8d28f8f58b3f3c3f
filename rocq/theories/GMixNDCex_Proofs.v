(** Examples and counterexamples about GMixND. *)
From Verif Require Import Base XReal Priors_Model GMixND_Model GMixND_Spec GMixND_Proofs.
Local Open Scope R_scope.

(** inv and det for one and two dimensions; sampling returns the means of the first gaussian; fits
    fail; no files *)
Definition inv12 (d : nat) (M : mat) : res mat :=
  match d with
  | 1%nat => if Reqb (M 0 0)%nat 0 then Raise LinAlgError else Ok (fun _ _ => / M 0%nat 0%nat)
  | 2%nat => let det := M 0%nat 0%nat * M 1%nat 1%nat - M 0%nat 1%nat * M 1%nat 0%nat in
             if Reqb det 0 then Raise LinAlgError
             else Ok (fun i j => (match i, j with O, O => M 1%nat 1%nat | O, _ => - M 0%nat 1%nat | _, O => - M 1%nat 0%nat | _, _ => M 0%nat 0%nat end) / det)
  | _ => Raise LinAlgError
  end.
Definition ext12 : ext unit :=
  mkExt unit inv12 mdet (fun w _ _ => (w, Raise ValueError)) (fun _ => Ok tt)
    (fun g w n => (w, Ok (mkA2 n (nc2 (q_means g)) (fun _ j => at2d (q_means g) 0 j)))) (fun _ => Raise OtherError).

(** two gaussians in two dimensions *)
Definition ex_w : arr1 R := mkA1 2 (fun i => if Nat.eqb i 0 then 3/10 else 7/10).
Definition ex_m : arr2d R := mkA2 2 2 (fun i j => INR i + 2 * INR j).
Definition ex_cov : nat -> mat := fun i a b => if Nat.eqb a b then (if Nat.eqb a 0 then 2 else 1 + INR i) else 1.
Definition ex_c : covars_arg := Covars3 (mkA3 2 2 2 ex_cov).
Definition ex_x : mixture := mkMix ex_w ex_m ex_c 2 2.

Lemma lt2 i : (i < 2)%nat -> i = 0%nat \/ i = 1%nat. Proof. lia. Qed.
Ltac two := repeat match goal with H : (?i < 2)%nat |- _ => destruct (lt2 i H); subst i; clear H end.
Lemma ex_det i : (i < 2)%nat -> mdet 2 (ex_cov i) = 1 + 2 * INR i.
Proof. intros Hi. two; unfold ex_cov; cbn; lra. Qed.
Lemma ex_proper : proper ex_x.
Proof.
  constructor; cbn [ex_x x_weights x_means x_covars x_ngauss x_ndim ex_w ex_m len1 nr2 nc2].
  - auto.
  - reflexivity.
  - exists ex_cov. reflexivity.
  - intros i Hi. two; cbn; lra.
  - intros i Hi. unfold covar_of. cbn [ex_x x_covars ex_c at3]. rewrite ex_det by exact Hi. two; cbn; lra.
Qed.
Lemma ex_linalg : linalg_ok ext12 ex_x.
Proof.
  intros i Hi. split; [reflexivity|]. cbn [ex_x x_ngauss x_ndim] in *. unfold covar_of. cbn [x_covars ex_c at3].
  unfold ext12, e_inv, inv12.
  rewrite Reqb_f.
  2:{ unfold ex_cov. two; cbn; lra. }
  eexists. split; [reflexivity|]. unfold ex_cov. split; intros a b Ha Hb; two; unfold delta, sum_n; cbn; field; lra.
Qed.
Lemma ex_set : exists s, new_nd ext12 tt false (Some ex_w) (Some (Means2 ex_m)) (Some ex_c) = Ok s /\ n_mix s = Some ex_x.
Proof.
  unfold new_nd, set_mixture, calc_icovars_and_norms. cbn [means_shaped covars_shaped ex_c ex_w ex_m len1 nc2 x_ngauss x_ndim x_covars seq mapM].
  unfold calc_one, cov_at. unfold ex_c. cbn [d0 d1 d2 at3 Nat.ltb Nat.leb Nat.eqb bind covars_shaped]. cbn [e_inv ext12 inv12 bind].
  rewrite !Reqb_f by (unfold ex_cov; cbn; lra). cbn. eexists. split; reflexivity.
Qed.

(** ** a failing set_mixture *)
Definition one_w : arr1 R := mkA1 1 (fun _ => 1).
Definition st_ok : gmixnd := fst (set_mixture ext12 empty_nd one_w (Means1 1 (fun _ => 0)) (Covars1 1 (fun _ => 1))).
Definition st_bad : gmixnd := fst (set_mixture ext12 st_ok one_w (Means1 1 (fun _ => 5)) (Covars1 1 (fun _ => 0))).
Lemma calc_1d c m : c <> 0 -> exists k, calc_icovars_and_norms ext12 (mkMix one_w m (Covars3 (mkA3 1 1 1 (fun _ _ _ => c))) 1 1) = Ok k.
Proof.
  intros Hc. unfold calc_icovars_and_norms, calc_one, cov_at, assign_icov. cbn [x_ngauss x_ndim x_covars seq mapM d0 d1 d2 at3 Nat.ltb Nat.leb Nat.eqb bind e_inv ext12 inv12].
  rewrite Reqb_f by exact Hc. cbn [bind]. eexists. reflexivity.
Qed.
Definition x_1d (c m : R) : mixture := mkMix one_w (mkA2 1 1 (fun _ _ => m)) (Covars3 (mkA3 1 1 1 (fun _ _ _ => c))) 1 1.
Lemma set_1d s c m : c <> 0 -> set_mixture ext12 s one_w (Means1 1 (fun _ => m)) (Covars1 1 (fun _ => c)) =
  (fst (set_mixture ext12 s one_w (Means1 1 (fun _ => m)) (Covars1 1 (fun _ => c))), Ok tt).
Proof.
  intros Hc. unfold set_mixture. cbn [means_shaped covars_shaped len1 one_w nc2]. fold one_w.
  destruct (calc_1d c (mkA2 1 1 (fun _ _ => m)) Hc) as [k E]. rewrite E. reflexivity.
Qed.
Lemma proper_1d c m : 0 < c -> proper (x_1d c m).
Proof.
  intros Hc. constructor; cbn [x_1d x_weights x_means x_covars x_ngauss x_ndim one_w len1 nr2 nc2 at1]; auto.
  - eexists. reflexivity.
  - intros; lra.
  - intros i Hi. unfold covar_of. cbn. lra.
Qed.
Lemma linalg_1d c m : 0 < c -> linalg_ok ext12 (x_1d c m).
Proof.
  intros Hc i Hi. split; [reflexivity|]. unfold covar_of, x_1d, ext12, e_inv, inv12. cbn [x_ndim x_covars at3]. rewrite Reqb_f by lra.
  eexists. split; [reflexivity|]. split; intros a b Ha Hb; replace a with 0%nat by lia; replace b with 0%nat by lia;
    unfold delta, sum_n; cbn; field; lra.
Qed.
Lemma coherent_1d s c m : 0 < c -> coherent ext12 (fst (set_mixture ext12 s one_w (Means1 1 (fun _ => m)) (Covars1 1 (fun _ => c)))) (x_1d c m).
Proof. intros Hc. apply (set_mixture_coherent ext12 s one_w (Means1 1 (fun _ => m)) (Covars1 1 (fun _ => c))). apply set_1d. lra. Qed.
(** the density of a one dimensional gaussian *)
Lemma density_1d c m v : 0 < c -> density (x_1d c m) (fun _ => v) (exp (- (1/2) * ((v - m) ^ 2 / c)) / sqrt (2 * PI * c)).
Proof.
  intros Hc. exists (fun _ => exp (- (1/2) * ((v - m) ^ 2 / c)) / sqrt (2 * PI * c)). split.
  - intros i Hi. exists ((v - m) ^ 2 / c). split.
    + exists (fun _ => (v - m) / c). split.
      * intros a Ha. unfold covar_of, sum_n. cbn. field. lra.
      * unfold sum_n. cbn. field. lra.
    + unfold gauss_density, covar_of. cbn [x_1d x_weights one_w at1 x_ndim x_covars at3]. rewrite Rmult_1_l. f_equal. f_equal.
      cbn. ring.
  - unfold sum_n. cbn. ring.
Qed.
Lemma prob_1d s c m v l : 0 < c -> coherent ext12 s (x_1d c m) ->
  exists s', get_prob1 s (point 1 (fun _ => v)) l None =
    Some (s', Ok (let p := exp (- (1/2) * ((v - m) ^ 2 / c)) / sqrt (2 * PI * c) in if l then xlog (Fin p) else Fin p)).
Proof.
  intros Hc HC. destruct (prob_is_density ext12 s (x_1d c m) (fun _ => v) (point 1 (fun _ => v)) l HC (proper_1d c m Hc) (linalg_1d c m Hc)) as [p [s' [_ [HU [_ E]]]]].
  - cbn. lia.
  - intros j Hj. reflexivity.
  - exists s'. rewrite E. rewrite <- (HU _ (density_1d c m v Hc)). reflexivity.
Qed.
Lemma bad_raises : snd (set_mixture ext12 st_ok one_w (Means1 1 (fun _ => 5)) (Covars1 1 (fun _ => 0))) = Raise LinAlgError.
Proof.
  unfold set_mixture, calc_icovars_and_norms, calc_one, cov_at.
  cbn [means_shaped covars_shaped one_w len1 nc2 x_ngauss x_ndim x_covars seq mapM d0 d1 d2 at3 Nat.ltb Nat.leb Nat.eqb bind e_inv ext12 inv12].
  rewrite Reqb_t by reflexivity. reflexivity.
Qed.
Lemma set_raise s w m c e : snd (set_mixture ext12 s w m c) = Raise e ->
  fst (set_mixture ext12 s w m c) = mkNd (Some (mkMix w (means_shaped m) (covars_shaped c) (len1 w) (nc2 (means_shaped m)))) (n_norm s) (n_scr s) (n_gmm s).
Proof. unfold set_mixture. destruct (calc_icovars_and_norms _ _); cbn; [discriminate|reflexivity]. Qed.
(** the norms are those of the old mixture, the mean is that of the new one *)
Lemma bad_prob : exists s', get_prob1 st_bad (point 1 (fun _ => 5)) false None = Some (s', Ok (Fin (/ sqrt (2 * PI)))).
Proof.
  pose proof (coherent_1d empty_nd 1 0 Rlt_0_1) as HC. fold st_ok in HC.
  pose proof HC as [HM [k [HK HKe]] [sc [HS [HT HX]]] _ _].
  assert (st_bad = mkNd (Some (mkMix one_w (mkA2 1 1 (fun _ _ => 5)) (Covars3 (mkA3 1 1 1 (fun _ _ _ => 0))) 1 1)) (Some k) (Some sc) (n_gmm st_ok)) as EB.
  { unfold st_bad. rewrite (set_raise _ _ _ _ _ bad_raises), HK, HS. reflexivity. }
  (** compare with a mixture at 5 of variance one *)
  pose proof (coherent_1d empty_nd 1 5 Rlt_0_1) as HC5. pose proof HC5 as [HM5 [k5 [HK5 HKe5]] _ _ _].
  assert (k5 = k) as Ek.
  { unfold calc_icovars_and_norms, x_1d in *. cbn [x_ngauss x_ndim x_covars x_weights] in *. rewrite HKe5 in HKe. congruence. }
  subst k5.
  destruct (prob_1d (mkNd (Some (x_1d 1 5)) (Some k) (Some sc) None) 1 5 5 false Rlt_0_1) as [s' E].
  { constructor; cbn; eauto. }
  unfold get_prob1 in *. cbn [n_norm n_mix n_scr x_1d x_means] in E. rewrite EB. cbn [n_norm n_mix n_scr x_means].
  destruct (kernel_prob k _ _ sc false) as [[v sc']|]; [|discriminate]. eexists. f_equal. f_equal. apply (f_equal (fun o => match o with Some (_, r) => r | None => Ok v end)) in E.
  cbv beta iota in E. rewrite E. cbv zeta. f_equal. f_equal.
  replace (- (1 / 2) * ((5 - 5) ^ 2 / 1)) with 0 by field. rewrite exp_0, Rmult_1_r. unfold Rdiv. ring.
Qed.
Lemma root_2pi : 0 < sqrt (2 * PI).
Proof. apply sqrt_lt_R0. pose proof PI_RGT_0. lra. Qed.
Lemma ok_prob : exists s' p, get_prob1 st_ok (point 1 (fun _ => 5)) false None = Some (s', Ok (Fin p)) /\ p < / sqrt (2 * PI).
Proof.
  destruct (prob_1d st_ok 1 0 5 false Rlt_0_1 (coherent_1d empty_nd 1 0 Rlt_0_1)) as [s' E].
  exists s'. eexists. split; [exact E|]. cbv zeta. rewrite Rmult_1_r.
  pose proof root_2pi as HR. 
  assert (exp (- (1 / 2) * ((5 - 0) ^ 2 / 1)) < exp 0) as HE by (apply exp_increasing; lra). rewrite exp_0 in HE.
  pose proof (Rinv_0_lt_compat _ HR). unfold Rdiv at 1. nra.
Qed.

(** ** covariances of the wrong shape: a 1-dimensional array of them in two dimensions *)
Definition flat_c : covars_arg := Covars1 1 (fun _ => 4).
Definition flat_m : means_arg := Means2 (mkA2 1 2 (fun _ _ => 0)).
Definition flat_s : gmixnd := fst (set_mixture ext12 empty_nd one_w flat_m flat_c).
Lemma flat_calc : calc_icovars_and_norms ext12 (mkMix one_w (mkA2 1 2 (fun _ _ => 0)) (Covars3 (mkA3 1 1 1 (fun _ _ _ => 4))) 1 2) =
  let n := xdiv (Fin 1) (xsqrt (Fin ((2 * PI) ^ 2 * mdet 1 (fun _ _ => 4)))) in
  let l := [(n, (fun _ _ => / 4) : mat)] in
  let nth_of i := nth i l (Fin 0, fun _ _ => 0) in
  let norms := mkA1 1 (fun i => fst (nth_of i)) in
  let pnorms := mkA1 1 (fun i => xmul (at1 norms i) (Fin (at1 one_w i))) in
  Ok (mkNormed norms pnorms (mkA1 1 (fun i => xlog (at1 pnorms i))) (mkA3 1 2 2 (fun i => snd (nth_of i)))).
Proof.
  unfold calc_icovars_and_norms, calc_one, cov_at, assign_icov. cbn [x_ngauss x_ndim x_covars x_weights seq mapM d0 d1 d2 at3 Nat.ltb Nat.leb Nat.eqb bind e_inv e_det ext12 inv12].
  rewrite (Reqb_f 4 0) by lra. reflexivity.
Qed.
Lemma flat_accepted : snd (set_mixture ext12 empty_nd one_w flat_m flat_c) = Ok tt.
Proof. unfold set_mixture, flat_m, flat_c. cbn [means_shaped covars_shaped one_w len1 nc2 x_ngauss x_ndim]. fold one_w. rewrite flat_calc. reflexivity. Qed.
(** as probable as at the mean, however far away on the diagonal *)
Lemma flat_diagonal t : exists s' s'', get_prob1 flat_s (point 2 (fun j => if Nat.eqb j 0 then t else - t)) true None =
  Some (s', Ok (Fin (ln (/ (4 * PI))))) /\ get_prob1 flat_s (point 2 (fun _ => 0)) true None = Some (s'', Ok (Fin (ln (/ (4 * PI))))).
Proof.
  assert (forall v, v 0%nat + v 1%nat = 0 -> exists s', get_prob1 flat_s (point 2 v) true None = Some (s', Ok (Fin (ln (/ (4 * PI)))))) as G.
  { intros v Hv. unfold flat_s, set_mixture, flat_m, flat_c. cbn [means_shaped covars_shaped one_w len1 nc2 x_ngauss x_ndim]. fold one_w. rewrite flat_calc.
    cbv zeta. cbn [fst].
    match goal with |- context[Some (mkNormed ?a ?b ?c ?d)] => set (k := mkNormed a b c d) end.
    unfold get_prob1. cbn [n_norm n_mix n_scr x_means].
    destruct (kernel_prob_value k (mkA2 1 2 (fun _ _ => 0)) (point 2 v) (mkScr (zeros 1) (zeros 2)) true) as [sc' [E _]]; [reflexivity|cbn; lia|].
    rewrite E. eexists. do 3 f_equal. change (len1 (x_log_pnorms k)) with 1%nat.
    pose proof PI_RGT_0 as HPi.
    assert (0 < / (4 * PI)) as HPos by (apply Rinv_0_lt_compat; lra).
    rewrite (kernel_value_spec _ _ (fun _ => / (4 * PI))).
    - unfold sum_n. cbn. rewrite Rplus_0_r. rewrite Rltb_t by exact HPos. reflexivity.
    - intros; lra.
    - intros i Hi. replace i with 0%nat by lia. unfold lnp_of. rewrite (calc_chi2_fin 2 _ v) by (intros j _; cbn; f_equal; ring).
      unfold ln_of. rewrite Reqb_f by lra.
      replace (sum_n _ _) with 0.
      2:{ unfold sum_n. cbn. replace (v 1%nat) with (- v 0%nat) by lra. field. }
      unfold calc_lnp. subst k. cbn [x_log_pnorms at1 nth fst one_w].
      replace (xmul (xdiv (Fin 1) (xsqrt (Fin ((2 * PI) ^ 2 * mdet 1 (fun _ _ => 4))))) (Fin 1)) with (Fin (/ (4 * PI))).
      + cbn. rewrite Rltb_t by exact HPos. cbn. f_equal. ring.
      + replace ((2 * PI) ^ 2 * mdet 1 (fun _ _ => 4)) with ((4 * PI) * (4 * PI)) by (unfold mdet, sum_n; cbn; ring).
        cbn [xsqrt]. rewrite Rltb_f by nra. rewrite sqrt_square by lra. cbn [xdiv]. rewrite Reqb_f by lra. cbn. f_equal. field. lra. }
  destruct (G (fun j => if Nat.eqb j 0 then t else - t)) as [s' E]; [cbn; ring|].
  destruct (G (fun _ => 0)) as [s'' E']; [cbn; ring|]. eauto.
Qed.

(** ** sampling after the mixture was replaced *)
Definition smp_s : gmixnd := fst (snd (sample ext12 tt st_ok None)).
Definition smp_s2 : gmixnd := fst (set_mixture ext12 smp_s one_w (Means1 1 (fun _ => 5)) (Covars1 1 (fun _ => 1))).
Lemma smp_gmm : n_gmm smp_s = Some (gmm_of (x_1d 1 0)) /\ n_mix smp_s = Some (x_1d 1 0).
Proof.
  pose proof (coherent_1d empty_nd 1 0 Rlt_0_1) as [HM _ _ _ _]. fold st_ok in HM.
  assert (n_gmm st_ok = None) as HG.
  { unfold st_ok. pose proof (set_1d empty_nd 1 0 R1_neq_R0) as E. destruct (set_mixture_attr ext12 _ _ _ _ _ _ E) as [A _]. exact A. }
  unfold smp_s, sample. rewrite HG. unfold set_gmm. rewrite HM. cbn. auto.
Qed.
Lemma stale_sample : exists s', n_mix smp_s2 = Some (x_1d 1 5) /\ sample ext12 tt smp_s2 None = (tt, (s', Ok (SNum 0))).
Proof.
  destruct smp_gmm as [HG HM]. pose proof (set_1d smp_s 1 5 R1_neq_R0) as E.
  destruct (set_mixture_attr ext12 _ _ _ _ _ _ E) as [A B]. fold smp_s2 in A, B. cbn [means_shaped covars_shaped one_w len1 nc2] in B. fold one_w in B.
  eexists. split; [exact B|]. unfold sample. rewrite A, HG. cbn. rewrite B. reflexivity.
Qed.
