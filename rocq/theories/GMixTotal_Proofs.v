(** Proofs for C150 *)
From Coq Require Import Permutation.
From Verif Require Import Base Shape_Model Shape_Spec Shape_Proofs Moments_Model Moments_Spec Moments_Proofs GMix_Model GMix_Spec GMix_Proofs GMixTotal_Model GMixTotal_Spec ConvAlg_Proofs.
Local Open Scope R_scope.

(** ** positive mixtures *)
Lemma rsum_pos (f : gauss -> R) gm : Forall (fun g => 0 <= g_p g /\ 0 < f g) gm -> 0 < flux_of gm -> 0 < rsum (map (fun g => g_p g * f g) gm).
Proof.
  unfold flux_of. induction 1 as [|g l [P F] A IH]; cbn [map]; [rewrite rsum_nil; lra|]. rewrite !rsum_cons. intros S.
  assert (N : 0 <= rsum (map (fun g => g_p g * f g) l)).
  { clear IH S. induction A as [|h m [Q G] A IH]; cbn [map]; [rewrite rsum_nil; lra|]. rewrite rsum_cons. nra. }
  destruct (Rle_lt_or_eq_dec 0 (g_p g) P) as [L|E]; [nra|]. rewrite <- E in *. rewrite Rplus_0_l in S. specialize (IH S). lra.
Qed.
Lemma mean_pos f gm : Forall (fun g => 0 <= g_p g /\ 0 < f g) gm -> 0 < flux_of gm -> 0 < mean_of f gm.
Proof. intros A F. unfold mean_of. apply Rmult_lt_0_compat; [apply rsum_pos; assumption|apply Rinv_0_lt_compat, F]. Qed.
Lemma quad_pos m a b : posdef m -> (a <> 0 \/ b <> 0) -> 0 < a * a * xx m + 2 * a * b * xy m + b * b * yy m.
Proof.
  intros [X D] N. unfold det2 in D.
  assert (E : (a * a * xx m + 2 * a * b * xy m + b * b * yy m) * xx m = (a * xx m + b * xy m) * (a * xx m + b * xy m) + b * b * (xx m * yy m - xy m * xy m)) by ring.
  assert (0 < (a * xx m + b * xy m) * (a * xx m + b * xy m) + b * b * (xx m * yy m - xy m * xy m)).
  { destruct (Req_dec b 0) as [->|B].
    - destruct N as [A|[]]; [|reflexivity]. rewrite !Rmult_0_l, !Rplus_0_r. apply Rsqr_pos_lt. apply Rmult_integral_contrapositive. split; [exact A|lra].
    - apply Rplus_le_lt_0_compat; [apply Rle_0_sqr|]. apply Rmult_lt_0_compat; [apply Rsqr_pos_lt, B|exact D]. }
  rewrite <- E in H. destruct (Rlt_le_dec 0 (a * a * xx m + 2 * a * b * xy m + b * b * yy m)) as [L|L]; [exact L|]. exfalso. nra.
Qed.
Lemma quad_mean gm a b : let m := cov_of gm in
  a * a * xx m + 2 * a * b * xy m + b * b * yy m =
  mean_of (fun g => (a * a * g_icc g + 2 * a * b * g_irc g + b * b * g_irr g) + (a * (g_col g - col_of gm) + b * (g_row g - row_of gm)) ^ 2) gm.
Proof.
  cbv zeta. unfold cov_of, cov; cbn [xx xy yy]. rewrite <- !mean_scale, <- !mean_plus. apply mean_ext. intros x _. ring.
Qed.
Lemma total_posdef gm : positive_mixture gm -> posdef (cov_of gm).
Proof.
  intros [A F].
  assert (Q : forall a b, (a <> 0 \/ b <> 0) -> 0 < a * a * xx (cov_of gm) + 2 * a * b * xy (cov_of gm) + b * b * yy (cov_of gm)).
  { intros a b N. rewrite quad_mean. apply mean_pos; [|exact F]. revert A. apply Forall_impl. intros g [P D]. split; [exact P|].
    pose proof (quad_pos (gcov g) a b D N) as H. unfold gcov, cov in H; cbn [xx xy yy] in H. apply Rplus_lt_le_0_compat; [exact H|apply pow2_ge_0]. }
  assert (X : 0 < xx (cov_of gm)) by (pose proof (Q 1 0 (or_introl R1_neq_R0)); lra).
  split; [exact X|]. pose proof (Q (- xy (cov_of gm)) (xx (cov_of gm)) (or_intror (Rgt_not_eq _ _ X))) as H. unfold det2. nra.
Qed.
Theorem reported gm : positive_mixture gm -> exists e1 e2 g1 g2 T,
  gm_get_T gm = Some T /\ gm_get_sigma gm = Some (sqrt (T / 2)) /\ gm_get_e1e2T gm = Some (e1, e2, T) /\ gm_get_g1g2T gm = Some (Ok (g1, g2, T)) /\
  gm_get_e1e2sigma gm = Some (e1, e2, sqrt (T / 2)) /\ gm_get_g1g2sigma gm = Some (Ok (g1, g2, sqrt (T / 2))) /\
  0 < T /\ in_disk (e1, e2) /\ in_disk (g1, g2) /\ e_of_g (g1, g2) (e1, e2) /\ has_shape (cov_of gm) e1 e2 T.
Proof.
  intros H. pose proof (total_posdef gm H) as D. assert (F : flux_of gm <> 0) by (destruct H; lra).
  assert (P : 0 < trace2 (cov_of gm)) by (clear - D; destruct D as [Hx Hd]; unfold det2, trace2 in *; nra).
  destruct (e1e2T_get gm F ltac:(lra)) as (e1 & e2 & T & E & S). assert (ET : T = trace2 (cov_of gm)) by (destruct S; assumption).
  destruct (g1g2T_get gm F D) as (g1 & g2 & G & I & e & EG & S').
  assert (EE : e = (e1, e2)).
  { destruct e as [a b]. destruct S as (_ & S1 & S2), S' as (_ & S3 & S4). cbn [fst snd] in *. rewrite ET in S1, S2. f_equal; apply (Rmult_eq_reg_r (trace2 (cov_of gm))); lra. }
  subst e. exists e1, e2, g1, g2, T.
  assert (EC : e1e2_to_g1g2 e1 e2 = Ok (g1, g2)).
  { unfold gm_get_g1g2T in G. rewrite E in G. destruct (e1e2_to_g1g2 e1 e2) as [[x y]|]; cbn [bind] in G; [|discriminate]. injection G as <- <- _. reflexivity. }
  split; [rewrite ET; apply T_get, F|]. split; [rewrite ET; apply sigma_get; [exact F|lra]|]. split; [exact E|]. split; [rewrite ET; exact G|].
  split; [unfold gm_get_e1e2sigma; rewrite E, Rltb_f by lra; reflexivity|]. split; [unfold gm_get_g1g2sigma; rewrite E, EC, Rltb_f by lra; reflexivity|].
  split; [lra|]. split; [|split; [exact I|split; [exact EG|exact S]]].
  apply (posdef_iff_disk (yy (cov_of gm)) (xy (cov_of gm)) (xx (cov_of gm)) e1 e2 T); [|lra|]; unfold cov; destruct (cov_of gm); assumption.
Qed.

(** ** order *)
Lemma rsum_perm l l' : Permutation l l' -> rsum l = rsum l'.
Proof. induction 1; rewrite ?rsum_cons; lra. Qed.
Lemma sum_perm (f : gauss -> R) gm gm' : Permutation gm gm' -> rsum (map f gm) = rsum (map f gm').
Proof. intros P. apply rsum_perm, Permutation_map, P. Qed.
Lemma cen_perm gm gm' : Permutation gm gm' -> gm_get_cen gm = gm_get_cen gm'.
Proof. intros P. unfold gm_get_cen. rewrite !(sum_perm _ _ _ P). reflexivity. Qed.
Lemma e1e2T_perm gm gm' : Permutation gm gm' -> gm_get_e1e2T gm = gm_get_e1e2T gm'.
Proof. intros P. unfold gm_get_e1e2T. rewrite (cen_perm _ _ P). destruct (gm_get_cen gm') as [[r c]|]; [|reflexivity]. rewrite !(sum_perm _ _ _ P). reflexivity. Qed.
Theorem any_order gm gm' : Permutation gm gm' ->
  gm_get_flux gm = gm_get_flux gm' /\ gm_get_cen gm = gm_get_cen gm' /\ gm_get_T gm = gm_get_T gm' /\ gm_get_sigma gm = gm_get_sigma gm' /\
  gm_get_e1e2T gm = gm_get_e1e2T gm' /\ gm_get_g1g2T gm = gm_get_g1g2T gm' /\ gm_get_e1e2sigma gm = gm_get_e1e2sigma gm' /\ gm_get_g1g2sigma gm = gm_get_g1g2sigma gm'.
Proof.
  intros P. assert (T : gm_get_T gm = gm_get_T gm').
  { unfold gm_get_T. rewrite (cen_perm _ _ P). destruct (gm_get_cen gm') as [[r c]|]; [|reflexivity]. rewrite !(sum_perm _ _ _ P). reflexivity. }
  split; [exact (sum_perm _ _ _ P)|]. split; [exact (cen_perm _ _ P)|]. split; [exact T|]. split; [unfold gm_get_sigma; rewrite T; reflexivity|].
  unfold gm_get_g1g2T, gm_get_e1e2sigma, gm_get_g1g2sigma. rewrite (e1e2T_perm _ _ P). auto.
Qed.

(** ** shear *)
Lemma Forall2_impl {A B} (P Q : A -> B -> Prop) l m : (forall a b, P a b -> Q a b) -> Forall2 P l m -> Forall2 Q l m.
Proof. induction 2; constructor; auto. Qed.
Lemma cov_split gm : cov_of gm = add2 (mean_cov gm) (centre_cov gm).
Proof. unfold cov_of, add2, mean_cov, centre_cov, cov; cbn. rewrite !mean_plus. reflexivity. Qed.
Lemma mean2 (f f' : gauss -> R) gm gm' : flux_of gm' = flux_of gm -> Forall2 (fun g g' => g_p g' = g_p g /\ f' g' = f g) gm gm' -> mean_of f' gm' = mean_of f gm.
Proof.
  intros E F. unfold mean_of. rewrite E. f_equal. clear E. induction F as [|g g' l l' [A B] _ IH]; [reflexivity|]. cbn [map]. rewrite !rsum_cons, IH, A, B. reflexivity.
Qed.
Theorem shear_total gm s1 s2 : Forall (fun g => posdef (gcov g)) gm -> in_disk (s1, s2) ->
  exists gm', gmix_shear gm s1 s2 = Ok gm' /\ flux_of gm' = flux_of gm /\ row_of gm' = row_of gm /\ col_of gm' = col_of gm /\
    cov_of gm' = add2 (sheared s1 s2 (mean_cov gm)) (centre_cov gm).
Proof.
  intros P S. destruct (shear_spec gm s1 s2 P S) as (gm' & E & F). destruct (shear_keeps s1 s2 gm gm' P S E) as (FL & R1 & C1).
  exists gm'. split; [exact E|]. split; [exact FL|]. split; [exact R1|]. split; [exact C1|]. rewrite cov_split. f_equal.
  - assert (M : forall p, (forall m : sym2, exists a b c, (forall g, p (sheared s1 s2 (gcov g)) = a * g_icc g + b * g_irc g + c * g_irr g) /\ p (sheared s1 s2 m) = a * xx m + b * xy m + c * yy m) ->
      mean_of (fun g => p (gcov g)) gm' = p (sheared s1 s2 (mean_cov gm))).
    { intros p H. destruct (H (mean_cov gm)) as (a & b & c & H1 & ->). unfold mean_cov, cov; cbn [xx xy yy]. rewrite <- !mean_scale, <- !mean_plus.
      rewrite (mean2 (fun g => p (sheared s1 s2 (gcov g))) (fun g => p (gcov g)) gm gm' FL).
      - apply mean_ext. intros x _. apply H1.
      - revert F. clear. induction 1 as [|g g' l l' (A & _ & _ & D & _) _ IH]; constructor; [|exact IH]. rewrite D. auto. }
    assert (N : 1 - s1 * s1 - s2 * s2 <> 0) by (unfold in_disk, cmod2 in S; cbn in S; lra).
    pose proof (M xx) as M1. pose proof (M xy) as M2. pose proof (M yy) as M3. clear M. unfold gcov, cov in M1, M2, M3; cbn [xx xy yy] in M1, M2, M3.
    change (mean_cov gm') with (mkSym (mean_of (fun g => g_icc g) gm') (mean_of (fun g => g_irc g) gm') (mean_of (fun g => g_irr g) gm')). rewrite M1, M2, M3; [destruct (sheared s1 s2 (mean_cov gm)); reflexivity| | |]; intros m; unfold sheared, scale2, conj2; cbn [xx xy yy].
    + exists (/ (1 - s1 * s1 - s2 * s2) * (s2 * s2)), (/ (1 - s1 * s1 - s2 * s2) * (2 * s2 * (1 - s1))), (/ (1 - s1 * s1 - s2 * s2) * ((1 - s1) * (1 - s1))). split; [intros|]; ring.
    + exists (/ (1 - s1 * s1 - s2 * s2) * ((1 + s1) * s2)), (/ (1 - s1 * s1 - s2 * s2) * ((1 + s1) * (1 - s1) + s2 * s2)), (/ (1 - s1 * s1 - s2 * s2) * (s2 * (1 - s1))). split; [intros|]; ring.
    + exists (/ (1 - s1 * s1 - s2 * s2) * ((1 + s1) * (1 + s1))), (/ (1 - s1 * s1 - s2 * s2) * (2 * (1 + s1) * s2)), (/ (1 - s1 * s1 - s2 * s2) * (s2 * s2)). split; [intros|]; ring.
  - assert (FC : Forall2 (fun g g' => g_p g' = g_p g /\ g_row g' = g_row g /\ g_col g' = g_col g) gm gm') by (revert F; apply Forall2_impl; tauto).
    unfold centre_cov. rewrite R1, C1. f_equal; (apply mean2; [exact FL|]; revert FC; apply Forall2_impl; intros g g' (A & B & C); rewrite ?B, ?C; auto).
Qed.
Lemma centre_zero gm : same_centre gm -> flux_of gm <> 0 -> centre_cov gm = mkSym 0 0 0.
Proof.
  intros (r & c & A) F.
  assert (ER : row_of gm = r). { unfold row_of. rewrite (mean_ext g_row (fun _ => r)); [apply mean_const, F|]. intros x I. rewrite Forall_forall in A. apply A, I. }
  assert (EC : col_of gm = c). { unfold col_of. rewrite (mean_ext g_col (fun _ => c)); [apply mean_const, F|]. intros x I. rewrite Forall_forall in A. apply A, I. }
  unfold centre_cov, cov. rewrite ER, EC. rewrite Forall_forall in A.
  f_equal; (rewrite <- (mean_zero gm) at 1; apply mean_ext; intros x I; destruct (A x I) as [X Y]; rewrite ?X, ?Y; ring).
Qed.
Lemma shear_positive gm gm' s1 s2 : positive_mixture gm -> in_disk (s1, s2) -> gmix_shear gm s1 s2 = Ok gm' -> positive_mixture gm'.
Proof.
  intros [A F] S E. assert (P : Forall (fun g => posdef (gcov g)) gm) by (revert A; apply Forall_impl; tauto).
  destruct (shear_spec gm s1 s2 P S) as (x & E' & K). rewrite E in E'. injection E' as <-. destruct (shear_keeps s1 s2 gm gm' P S E) as (FL & _ & _).
  split; [|rewrite FL; exact F]. clear E P FL F. induction K as [|g g' l l' (B & _ & _ & D & _) K IH]; constructor; inversion A as [|? ? [Q1 Q2] A']; subst; [|apply IH, A'].
  rewrite B, D. split; [exact Q1|]. split; [|rewrite sheared_det by exact S; apply Q2].
  assert (W : 0 < 1 - s1 * s1 - s2 * s2) by (unfold in_disk, cmod2 in S; cbn in S; lra). unfold sheared, scale2, conj2; cbn [xx].
  apply Rmult_lt_0_compat; [apply Rinv_0_lt_compat, W|].
  pose proof (quad_pos (gcov g) (1 + s1) s2 Q2) as H. apply H. left. intros Z. nra.
Qed.
Lemma g1g2T_mom2g gm : positive_mixture gm -> gm_get_g1g2T gm = Some (mom2g (yy (cov_of gm)) (xy (cov_of gm)) (xx (cov_of gm))).
Proof.
  intros H. destruct (reported gm H) as (e1 & e2 & g1 & g2 & T & _ & _ & E & _ & _ & _ & P & _ & _ & _ & S1 & S2 & S3). unfold gm_get_g1g2T. rewrite E. f_equal.
  unfold mom2g, mom2e. unfold trace2 in S1. rewrite Reqb_f by lra. cbn [bind].
  replace ((xx (cov_of gm) - yy (cov_of gm)) / (yy (cov_of gm) + xx (cov_of gm))) with e1 by (rewrite <- S2, S1; field; lra).
  replace (2 * xy (cov_of gm) / (yy (cov_of gm) + xx (cov_of gm))) with e2 by (rewrite <- S3, S1; field; lra).
  replace T with (yy (cov_of gm) + xx (cov_of gm)) by lra. reflexivity.
Qed.
Lemma cov_eta m : cov (yy m) (xy m) (xx m) = m. Proof. destruct m; reflexivity. Qed.
Theorem shear_shape gm s1 s2 g1 g2 T : positive_mixture gm -> same_centre gm -> in_disk (s1, s2) -> gm_get_g1g2T gm = Some (Ok (g1, g2, T)) ->
  exists gm' z1 z2 T', gmix_shear gm s1 s2 = Ok gm' /\ shear_reduced g1 g2 s1 s2 = Ok (z1, z2) /\ gm_get_g1g2T gm' = Some (Ok (z1, z2, T')) /\
    cov_of gm' = sheared s1 s2 (cov_of gm).
Proof.
  intros H C S G. pose proof (total_posdef gm H) as D. assert (P : Forall (fun g => posdef (gcov g)) gm) by (destruct H as [A _]; revert A; apply Forall_impl; tauto).
  destruct (shear_total gm s1 s2 P S) as (gm' & E & FL & _ & _ & CV).
  assert (Z : centre_cov gm = mkSym 0 0 0) by (apply centre_zero; [exact C|destruct H; lra]).
  assert (CO : cov_of gm' = sheared s1 s2 (cov_of gm)).
  { rewrite CV, cov_split, Z. unfold add2, sheared, scale2, conj2; cbn. f_equal; ring. }
  rewrite (g1g2T_mom2g gm H) in G. assert (G1 : mom2g (yy (cov_of gm)) (xy (cov_of gm)) (xx (cov_of gm)) = Ok (g1, g2, T)) by congruence. clear G. rename G1 into G.
  assert (I : in_disk (g1, g2)).
  { destruct (mom2g_defined (yy (cov_of gm)) (xy (cov_of gm)) (xx (cov_of gm))) as (a & b & c & E1 & _ & I); [rewrite cov_eta; exact D|]. rewrite G in E1. injection E1 as <- <- <-. exact I. }
  destruct (shear_reduced g1 g2 s1 s2) as [[z1 z2]|] eqn:ES.
  2:{ exfalso. destruct (sheared_moments_eq (yy (cov_of gm)) (xy (cov_of gm)) (xx (cov_of gm)) s1 s2) as (a & b & c & EM & _); [rewrite cov_eta; exact D|exact S|].
      unfold get_sheared_moments in EM. rewrite G in EM. cbn [bind] in EM. unfold get_sheared_g1g2T in EM. rewrite ES in EM. cbn [bind] in EM. discriminate. }
  destruct (sheared_moments_shape (yy (cov_of gm)) (xy (cov_of gm)) (xx (cov_of gm)) s1 s2 g1 g2 T z1 z2) as (a & b & c & T' & EM & EG); [rewrite cov_eta; exact D|exact S|exact G|exact ES|].
  destruct (sheared_moments_eq (yy (cov_of gm)) (xy (cov_of gm)) (xx (cov_of gm)) s1 s2) as (a' & b' & c' & EM' & EC); [rewrite cov_eta; exact D|exact S|].
  rewrite EM in EM'. injection EM' as <- <- <-. rewrite cov_eta in EC.
  exists gm', z1, z2, T'. split; [exact E|]. split; [reflexivity|]. split; [|exact CO]. rewrite (g1g2T_mom2g gm' (shear_positive gm gm' s1 s2 H S E)).
  rewrite CO, <- EC. unfold cov; cbn [xx xy yy]. rewrite EG. reflexivity.
Qed.

(** ** centres are not sheared *)
Definition two : gmix := [gauss2d_set 1 0 1 1 0 1; gauss2d_set 1 0 (-1) 1 0 1].
Lemma two_positive : positive_mixture two.
Proof. split; [repeat constructor; unfold posdef, gcov, cov, det2; cbn; lra|unfold flux_of, two; cbn; lra]. Qed.
Lemma two_cov : mean_cov two = mkSym 1 0 1 /\ centre_cov two = mkSym 1 0 0.
Proof. unfold mean_cov, centre_cov, cov, row_of, col_of, mean_of, flux_of, two; cbn. split; f_equal; field. Qed.
Lemma mom2g_shape irr irc icc g1 g2 T : mom2g irr irc icc = Ok (g1, g2, T) -> exists e1 e2, e_of_g (g1, g2) (e1, e2) /\ has_shape (cov irr irc icc) e1 e2 T.
Proof.
  intros E. unfold mom2g in E. destruct (mom2e irr irc icc) as [[[e1 e2] t]|] eqn:M; cbn [bind] in E; [|discriminate].
  destruct (e1e2_to_g1g2 e1 e2) as [[x y]|] eqn:G; cbn [bind] in E; [|discriminate]. injection E as <- <- <-. exists e1, e2. split; [|apply (mom2e_has_shape _ _ _ _ _ _ M)].
  assert (D : in_disk (e1, e2)).
  { destruct (Rlt_dec (cmod2 (e1, e2)) 1) as [L|L]; [exact L|]. rewrite (e2g_raise e1 e2 L) in G. discriminate. }
  destruct (e2g_spec e1 e2 D) as ([p q] & E4 & E5 & E6). rewrite G in E4. injection E4 as <- <-. assumption.
Qed.
Theorem centres_stay : exists gm' g1 g2 T z1 z2 w1 w2 T', positive_mixture two /\ in_disk (1 / 2, 0) /\ gm_get_g1g2T two = Some (Ok (g1, g2, T)) /\
  gmix_shear two (1 / 2) 0 = Ok gm' /\ shear_reduced g1 g2 (1 / 2) 0 = Ok (z1, z2) /\ gm_get_g1g2T gm' = Some (Ok (w1, w2, T')) /\ (w1, w2) <> (z1, z2).
Proof.
  pose proof two_positive as H. assert (S : in_disk (1 / 2, 0)) by (unfold in_disk, cmod2; cbn; lra).
  assert (P : Forall (fun g => posdef (gcov g)) two) by (destruct H as [A _]; revert A; apply Forall_impl; tauto).
  destruct (shear_total two (1 / 2) 0 P S) as (gm' & E & FL & _ & _ & CV). destruct two_cov as [M Z].
  assert (CT : cov_of two = mkSym 2 0 1) by (rewrite cov_split, M, Z; unfold add2; cbn; f_equal; ring).
  assert (C' : cov_of gm' = mkSym 4 0 (1 / 3)) by (rewrite CV, M, Z; unfold add2, sheared, scale2, conj2; cbn; f_equal; field).
  pose proof (total_posdef two H) as D. rewrite CT in D.
  assert (D1 : posdef (cov 1 0 2)) by exact D.
  destruct (mom2g_defined 1 0 2 D1) as (g1 & g2 & T & G & _ & I).
  destruct (sheared_moments_eq 1 0 2 (1 / 2) 0 D1 S) as (a & b & c & EM & EC).
  destruct (shear_reduced g1 g2 (1 / 2) 0) as [[z1 z2]|] eqn:ES.
  2:{ exfalso. unfold get_sheared_moments in EM. rewrite G in EM. cbn [bind] in EM. unfold get_sheared_g1g2T in EM. rewrite ES in EM. cbn [bind] in EM. discriminate. }
  destruct (sheared_moments_shape 1 0 2 (1 / 2) 0 g1 g2 T z1 z2 D1 S G ES) as (a' & b' & c' & T1 & EM' & EG). rewrite EM in EM'. injection EM' as <- <- <-.
  pose proof (shear_positive two gm' (1 / 2) 0 H S E) as H'.
  destruct (reported gm' H') as (e1 & e2 & w1 & w2 & T' & _ & _ & _ & GW & _ & _ & _ & _ & _ & EW & SW).
  exists gm', g1, g2, T, z1, z2, w1, w2, T'. split; [exact H|]. split; [exact S|]. split; [rewrite (g1g2T_mom2g two H), CT; cbn [xx xy yy]; f_equal; exact G|].
  split; [exact E|]. split; [exact ES|]. split; [exact GW|]. intros Q. injection Q as -> ->.
  destruct (mom2g_shape _ _ _ _ _ _ EG) as (f1 & f2 & EZ & SZ). rewrite EC in SZ. rewrite C' in SW.
  unfold has_shape, trace2, sheared, scale2, conj2, cov in SZ, SW; cbn in SZ, SW.
  destruct EZ as [EZ _], EW as [EW _]; cbn [fst] in EZ, EW. assert (K : 0 < 1 + cmod2 (z1, z2)) by (unfold cmod2; cbn; nra).
  assert (e1 = f1) by (apply (Rmult_eq_reg_r (1 + cmod2 (z1, z2))); lra). subst f1. destruct SZ as (Z1 & Z2 & _), SW as (W1 & W2 & _).
  rewrite Z1 in Z2. rewrite W1 in W2. lra.
Qed.

(** ** flux and position *)
Lemma keep_cov g g' : setters_keep g g' -> gcov g' = gcov g.
Proof. intros (A & B & C & _). unfold gcov. rewrite A, B, C. reflexivity. Qed.
Theorem flux_position gm gm' : positive_mixture gm -> ((exists f, 0 < f /\ gm_set_flux gm f = Some gm') \/ (exists row col, gm_set_cen gm row col = Some gm')) ->
  positive_mixture gm' /\ gm_get_T gm' = gm_get_T gm /\ gm_get_e1e2T gm' = gm_get_e1e2T gm /\ gm_get_g1g2T gm' = gm_get_g1g2T gm.
Proof.
  intros H K. pose proof H as [A F]. assert (N : flux_of gm <> 0) by lra.
  assert (X : positive_mixture gm' /\ cov_of gm' = cov_of gm).
  { destruct K as [(f & P & E)|(r & c & E)].
    - destruct (set_flux_spec gm f N) as (x & E' & FL & CV & K). rewrite E in E'. injection E' as <-. split; [|apply CV; lra]. split; [|lra]. clear CV FL E N H.
      revert F K A. generalize (flux_of gm). intros F0 F K A. induction K as [|g g' l l' (P1 & _ & _ & K1 & _) K IH]; constructor; inversion A as [|? ? [Q1 Q2] A']; subst; [|apply IH, A'].
      split; [|rewrite (keep_cov _ _ K1); exact Q2]. destruct (Rle_lt_dec 0 (g_p g')) as [L|L]; [exact L|exfalso]. assert (0 <= g_p g * f) by (apply Rmult_le_pos; lra). assert (g_p g' * F0 < 0) by nra. lra.
    - destruct (set_cen_spec gm r c N) as (x & E' & _ & _ & FL & CV & K). rewrite E in E'. injection E' as <-. split; [|exact CV]. split; [|lra]. clear CV FL E N H.
      revert K A. generalize (r - row_of gm), (c - col_of gm). clear F. intros r0 c0 K. induction K as [|g g' l l' (P1 & _ & _ & K1 & _) K IH]; intros A; constructor; inversion A as [|? ? [Q1 Q2] A']; subst; [|apply IH, A'].
      rewrite P1, (keep_cov _ _ K1). auto. }
  destruct X as [P C]. split; [exact P|].
  destruct (reported gm H) as (e1 & e2 & g1 & g2 & T & R1 & _ & R2 & _ & _ & _ & R3 & _ & _ & _ & S1 & S2 & S3).
  destruct (reported gm' P) as (f1 & f2 & h1 & h2 & T' & R1' & _ & R2' & _ & _ & _ & R3' & _ & _ & _ & S1' & S2' & S3').
  rewrite C in S1', S2', S3'. assert (T' = T) by congruence. subst T'.
  assert (f1 = e1) by (apply (Rmult_eq_reg_r T); [congruence|lra]). assert (f2 = e2) by (apply (Rmult_eq_reg_r T); [congruence|lra]).
  split; [congruence|]. split; [congruence|]. rewrite (g1g2T_mom2g gm' P), (g1g2T_mom2g gm H), C. reflexivity.
Qed.
