From Coq Require Import String.
From Verif Require Import Base XReal Moments_Model Moments_Spec Shape_Spec Jacobian_Model Pixels_Model Pixels_Spec Pixels_Proofs GMix_Model GMix_Spec GMix_Proofs
  GMixObj_Proofs FastExp_Proofs Render_Model Render_Spec Render_Proofs WSums_Model WSums_Spec WSums_Proofs Flags_Model MomResult_Model MomResult_Spec MomResult_Proofs GaussMom_Model GaussMom_Spec.
Local Open Scope R_scope.

(** ** the weight *)
Lemma size_big fwhm : / 10 ^ 40 <= fwhm -> / 10 ^ 100 <= fwhm_to_T fwhm / 2.
Proof.
  intros H. assert (F : 1 < FWHM_FAC < 3) by (unfold FWHM_FAC; lra). unfold fwhm_to_T, fwhm_to_sigma.
  replace (2 * (fwhm / FWHM_FAC) ^ 2 / 2) with ((fwhm / FWHM_FAC) ^ 2) by (field; lra).
  apply Rle_trans with ((/ 10 ^ 40 / 3) ^ 2); [lra|]. apply pow_incr. split; [lra|].
  unfold Rdiv. apply Rmult_le_compat; try lra. apply Rinv_le_contravar; lra.
Qed.
Lemma fill_weight T : gmix_fill_gauss 1 [0; 0; 0; 0; T; 1] = Ok [gauss2d_set 1 0 0 (T/2) 0 (T/2)].
Proof.
  unfold gmix_fill_gauss. rewrite (fill_simple_eq 1 _ _ 0 0 0 0 T 1 0 0); [|reflexivity|reflexivity|exact g2e_zero].
  cbn. unfold coellip_gauss, gauss2d_set. do 3 f_equal; cbn; field.
Qed.
Lemma set_norm_weight T : / 10 ^ 100 <= T / 2 -> exists g, gauss2d_set_norm (gauss2d_set 1 0 0 (T/2) 0 (T/2)) = Ok g /\
  g_p g = 1 /\ g_row g = 0 /\ g_col g = 0 /\ g_irr g = T/2 /\ g_irc g = 0 /\ g_icc g = T/2 /\ g_det g = T/2 * (T/2) /\
  exists n, g_nrm g = Some n /\ n_norm n = / (PI * T).
Proof.
  intros H. assert (HT : 0 < T) by lra. assert (HD : / 10 ^ 200 <= T/2 * (T/2)).
  { apply Rle_trans with (/ 10 ^ 100 * / 10 ^ 100); [lra|]. apply Rmult_le_compat; lra. }
  unfold gauss2d_set_norm, GMIX_LOW_DETVAL, gauss2d_set. cbn [g_det g_irr g_icc]. cbv zeta. rewrite Rltb_f by lra. rewrite Rleb_f by lra.
  eexists. split; [reflexivity|]. cbn. do 6 (split; [reflexivity|]). split; [lra|]. eexists. split; [reflexivity|]. cbn.
  replace (T/2 * (T/2) - 0 * 0) with (T/2 * (T/2)) by ring. rewrite sqrt_square by lra. assert (X := PI_RGT_0). field. lra.
Qed.

(** a gaussian of unit peak *)
Definition is_weight (T : R) (w : gmix) : Prop := exists g, w = [g] /\ g_p g = PI * T /\ g_row g = 0 /\ g_col g = 0 /\ gcov g = mkSym (T/2) 0 (T/2) /\
  coherent g /\ g_norm_set g = false.
Lemma weight_made fwhm : / 10 ^ 40 <= fwhm -> exists w, set_mompars fwhm = Ok w /\ is_weight (fwhm_to_T fwhm) w.
Proof.
  intros H. apply size_big in H. unfold set_mompars. set (T := fwhm_to_T fwhm) in *. rewrite fill_weight. cbn [bind gmix_set_norms].
  destruct (set_norm_weight T H) as (g & E & P1 & P2 & P3 & P4 & P5 & P6 & P7 & n & En & Nn). rewrite E. cbn [bind]. rewrite En.
  assert (HT : 0 < T) by lra. assert (X := PI_RGT_0). assert (Y : 0 < PI * T) by (apply Rmult_lt_0_compat; lra).
  unfold gm_set_flux. cbn [map]. rewrite rsum_cons, rsum_nil, P1. unfold np_div. rewrite Reqb_f by lra. eexists. split; [reflexivity|].
  eexists. split; [reflexivity|]. cbn. rewrite Nn, P1. split; [field; lra|]. do 2 (split; [assumption|]). unfold gcov, coherent, det2. cbn. rewrite P4, P5, P6, P7.
  split; [reflexivity|]. split; [ring|reflexivity].
Qed.
Lemma weight_peak T w v u : 0 < T -> is_weight T w -> brightness w v u = exp (- (v * v + u * u) / T).
Proof.
  intros HT (g & -> & P1 & P2 & P3 & P4 & _). unfold brightness. cbn [map]. rewrite rsum_cons, rsum_nil, Rplus_0_r. unfold component. rewrite P1, P2, P3, P4.
  unfold maha, det2. cbn [xx xy yy]. replace (T/2 * (T/2) - 0 * 0) with (T/2 * (T/2)) by ring. rewrite sqrt_square by lra.
  assert (X := PI_RGT_0).
  replace (- ((T / 2 * (v - 0) ^ 2 - 2 * 0 * (v - 0) * (u - 0) + T / 2 * (u - 0) ^ 2) / (T / 2 * (T / 2))) / 2) with (- (v * v + u * u) / T) by (field; lra).
  generalize (exp (- (v * v + u * u) / T)). intros e. field. lra.
Qed.
Lemma weight_good T w : / 10 ^ 100 <= T / 2 -> is_weight T w -> good_gmix w /\ flux_of w <> 0 /\ trace2 (cov_of w) = T.
Proof.
  intros H (g & -> & P1 & P2 & P3 & P4 & C & Nf). assert (HT : 0 < T) by lra.
  assert (X := PI_RGT_0). assert (Y : 0 < PI * T) by (apply Rmult_lt_0_compat; lra). split; [split; [|split; [|split]]|split].
  - discriminate.
  - constructor; [exact C|constructor].
  - constructor; [|constructor]. unfold evaluable. rewrite P4. unfold det2, trace2. cbn. split; [|lra].
    apply Rle_trans with (/ 10 ^ 100 * / 10 ^ 100); [lra|]. replace (T/2 * (T/2) - 0 * 0) with (T/2 * (T/2)) by ring. apply Rmult_le_compat; lra.
  - intros g' rest E F. injection E as <- <-. congruence.
  - unfold flux_of. cbn [map]. rewrite rsum_cons, rsum_nil, P1. lra.
  - unfold gcov in P4. injection P4 as Q1 Q2 Q3.
    unfold cov_of, cov, trace2, row_of, col_of, mean_of, flux_of. cbn [map xx xy yy]. rewrite ?rsum_cons, ?rsum_nil, P1, P2, P3. cbn [xx yy]. rewrite ?Q1, ?Q3. field. lra.
Qed.

(** ** sums of the observation *)
Lemma used_near T g px : 0 < T -> g_row g = 0 -> g_col g = 0 -> used g (100 * sqrt (T / 2)) px = near T px.
Proof.
  intros HT A B. unfold used, near. apply filter_ext. intros p. unfold rad2, cmod2, offset. cbn [fst snd]. rewrite A, B.
  replace ((100 * sqrt (T / 2)) ^ 2) with (10000 * (T / 2)).
  2:{ rewrite <- (sqrt_sqrt (T/2)) at 1 by lra. ring. }
  unfold Rltb. replace ((px_u p - 0) * (px_u p - 0) + (px_v p - 0) * (px_v p - 0)) with (px_v p * px_v p + px_u p * px_u p) by ring. reflexivity.
Qed.
Lemma mfun_eq g k p : g_row g = 0 -> g_col g = 0 -> moment g k p = mfun k p.
Proof. intros A B. unfold mfun, moment, rad2, offset, gauss_zero. cbn [g_row g_col]. rewrite A, B. reflexivity. Qed.
Lemma near_in T px p : In p (near T px) -> In p px.
Proof. intros H. apply filter_In in H. apply H. Qed.
Lemma filter_id {A} f (l : list A) : (forall x, In x l -> f x = true) -> filter f l = l.
Proof. induction l as [|a l IH]; intros H; [reflexivity|]. cbn. rewrite H by (left; reflexivity). f_equal. apply IH. intros; apply H; right; assumption. Qed.

Lemma raw_sums T w j px higher : / 10 ^ 100 <= T / 2 -> is_weight T w -> pixels_of j px ->
  exists s, snd (get_weighted_sums w px None higher None) = Ok s /\ ws_npix s = length (near T px) /\
    ws_wsum s = get_area j * mnorm T px /\
    (forall k, (k < nmom higher)%nat -> ws_sums s k = get_area j * msum T px k) /\
    (forall k m, (k < nmom higher)%nat -> (m < nmom higher)%nat -> ws_cov s k m = get_area j ^ 2 * mcov T px k m).
Proof.
  intros H W P. assert (HT : 0 < T) by lra. destruct (weight_good T w H W) as (G & HF & Tr). assert (W' := W). destruct W' as (g & Ew & P1 & P2 & P3 & _).
  rewrite default_radius_good by (try assumption; lra). rewrite Tr.
  assert (Z : forall p, In p (used g (100 * sqrt (T / 2)) px) -> px_ierr p <> 0).
  { intros p I. rewrite (used_near T g px HT P2 P3) in I. apply near_in in I. unfold pixels_of in P. rewrite Forall_forall in P. apply P; exact I. }
  destruct (sums_fresh w g [] px (100 * sqrt (T / 2)) higher G Ew Z) as (gm' & s & E & _ & (I1 & I2 & I3 & I4) & _).
  rewrite E. exists s. rewrite (used_near T g px HT P2 P3) in *. split; [reflexivity|].
  assert (A : forall p, In p (near T px) -> pixel_model w p = get_area j * gauss_weight T p).
  { intros p I. unfold pixel_model, gauss_weight. rewrite (weight_peak T w _ _ HT W). apply near_in in I. unfold pixels_of in P. rewrite Forall_forall in P.
    destruct (P p I) as [-> _]. ring. }
  split; [rewrite I1; reflexivity|]. split; [|split].
  - rewrite I2. cbn [ws_wsum ws_sums wsums_zero]. rewrite Rplus_0_l. unfold mnorm. rewrite <- rsum_map_mult. apply rsum_map_ext. exact A.
  - intros k Hk. rewrite I3 by exact Hk. cbn [ws_wsum ws_sums wsums_zero]. rewrite Rplus_0_l. unfold msum. rewrite <- rsum_map_mult. apply rsum_map_ext. intros p I. rewrite A by exact I.
    rewrite (mfun_eq g k p P2 P3). ring.
  - intros k m Hk Hm. rewrite I4 by assumption. cbn [ws_cov wsums_zero]. rewrite Rplus_0_l. unfold mcov. rewrite <- rsum_map_mult. apply rsum_map_ext. intros p I. rewrite A by exact I.
    rewrite (mfun_eq g k p P2 P3), (mfun_eq g m p P2 P3). ring.
Qed.

(** ** errors of the sums *)
Lemma sums_err_is sums cov sn r : make_mom_result sums cov sn = Ok r ->
  m_sums_err r = (let diag := map (fun i => sm_at cov i i) (seq 0 (sm_n cov)) in if forallb (fun c => xgtb c (Fin 0)) diag then map xsqrt diag else repeat NaN 6) /\
  m_sums_norm r = (match sn with Some x => x | None => NaN end).
Proof.
  unfold make_mom_result. do 2 (destruct (_ && _); [discriminate|]).
  do 6 (destruct (vget _ _) as [?x|]; [|discriminate]; cbn [bind]). do 7 (destruct (mget _ _ _) as [?y|]; [|discriminate]; cbn [bind]).
  destruct (if xgtb _ _ then _ else _) as [[a b] c]. destruct (if xgtb _ _ && _ then _ else _) as [[[T Te] Tf]|]; [|discriminate]. cbn [bind].
  destruct (forallb _ _); cbv zeta.
  - match goal with |- context [bind ?X _] => destruct X as [[[[[e1 e2] ee] pp] ff]|]; [|discriminate] end. cbn [bind].
    destruct (add_moments_by_name _ _); [|discriminate]. cbn [bind]. intros E; injection E as <-. split; reflexivity.
  - match goal with |- context [bind ?X _] => destruct X as [[[[[e1 e2] ee] pp] ff]|]; [|discriminate] end. cbn [bind].
    destruct (add_moments_by_name _ _); [|discriminate]. cbn [bind]. intros E; injection E as <-. split; reflexivity.
Qed.

Section Go.
Variables (fwhm : R) (higher : bool) (j : jac) (px : list (pixel R)).
Hypothesis HF : / 10 ^ 40 <= fwhm.
Hypothesis HA : 0 < get_area j.
Hypothesis HP : pixels_of j px.
Let T := fwhm_to_T fwhm.
Let n := nmom higher.
Let A := get_area j.

Lemma go_raw : exists r, shapes_ok (map (fun k => Fin (A * msum T px k)) (seq 0 n)) (m_cov r) /\
  (forall k m, (k < n)%nat -> (m < n)%nat -> sm_at (m_cov r) k m = Fin (A ^ 2 * mcov T px k m)) /\ sm_n (m_cov r) = n /\
  make_mom_result (map (fun k => Fin (A * msum T px k)) (seq 0 n)) (m_cov r) (Some (Fin (A * mnorm T px))) = Ok r /\
  let q := mkGres (length (near T px)) (Fin (A * mnorm T px)) r in
  gaussmom fwhm higher (GObs px j) = Ok (if Z.eqb (m_flags r) 0 then scale_result (Fin (/ A)) q else q).
Proof.
  destruct (weight_made fwhm HF) as (w & Ew & W). assert (SB := size_big fwhm HF). fold T in W, SB.
  destruct (raw_sums T w j px higher SB W HP) as (s & Es & N & Nw & Ns & Nc). fold A in Nw, Ns, Nc. fold n in Ns, Nc.
  unfold gaussmom. rewrite Ew. cbn [bind measure_moments]. rewrite Es. cbn [bind]. unfold get_weighted_moments_stats.
  assert (Ln : (if higher then 17%nat else 6%nat) = n) by reflexivity. rewrite Ln.
  replace (map (fun i : nat => Fin (ws_sums s i)) (seq 0 n)) with (map (fun k => Fin (A * msum T px k)) (seq 0 n)).
  2:{ apply map_ext_in. intros k Ik. apply in_seq in Ik. rewrite Ns by lia. reflexivity. }
  set (cov := mkSmat n (fun i j0 => Fin (ws_cov s i j0))). rewrite Nw.
  assert (SH : shapes_ok (map (fun k => Fin (A * msum T px k)) (seq 0 n)) cov).
  { unfold shapes_ok. rewrite map_length, seq_length. cbn [sm_n cov]. unfold n, nmom. destruct higher; cbn; lia. }
  destruct (mom_result_full _ _ (Some (Fin (A * mnorm T px))) SH) as (r & Er & _ & Rc & _).
  rewrite Er. cbn [bind q_mom]. exists r. rewrite Rc. split; [exact SH|]. split; [intros k m Hk Hm; cbn [cov sm_at]; rewrite Nc by assumption; reflexivity|].
  split; [reflexivity|]. split; [exact Er|]. cbv zeta. rewrite N. destruct (Z.eqb (m_flags r) 0); cbn [negb]; [|reflexivity].
  do 3 f_equal. cbn [xdiv]. fold A. rewrite Reqb_f by (unfold A; lra). f_equal. unfold Rdiv. apply Rmult_1_l.
Qed.

Lemma nth_raw f k : (k < n)%nat -> nth k (map f (seq 0 n)) NaN = f k.
Proof. intros H. rewrite nth_indep with (d' := f 0%nat) by (rewrite map_length, seq_length; exact H). rewrite map_nth. f_equal. rewrite seq_nth; [reflexivity|exact H]. Qed.
Lemma six : (6 <= n)%nat. Proof. unfold n, nmom. destruct higher; lia. Qed.
Lemma A2 : 0 < A ^ 2. Proof. unfold A. apply pow_lt. exact HA. Qed.
Lemma pos_A x : 0 < A * x -> 0 < x. Proof. intros H. apply Rmult_lt_reg_l with A; [exact HA|]. lra. Qed.
Lemma pos_A2 x : 0 < A ^ 2 * x -> 0 < x. Proof. intros H. apply Rmult_lt_reg_l with (A ^ 2); [exact A2|]. lra. Qed.
Lemma sqrt_A2 x : sqrt (A ^ 2 * x) = A * sqrt x.
Proof. replace (A ^ 2) with (A * A) by ring. destruct (Rle_dec 0 x) as [H|H].
  - rewrite sqrt_mult; [rewrite sqrt_square by (unfold A in *; lra); reflexivity| |exact H]. assert (0 < A) by exact HA. nra.
  - rewrite (sqrt_neg_0 x) by lra. rewrite sqrt_neg_0; [ring|]. assert (X := A2). assert (0 < A * A) by (replace (A * A) with (A ^ 2) by ring; exact X). nra.
Qed.

(** everything reported, scaled or not *)
Lemma go_reports : exists q, gaussmom fwhm higher (GObs px j) = Ok q /\ q_npix q = length (near T px) /\
  reports (if Z.eqb (m_flags (q_mom q)) 0 then 1 else A) T px n (q_wsum q) (q_mom q).
Proof.
  destruct go_raw as (r & SH & CV & Nn & E & G). cbv zeta in G. destruct (mom_result_full _ _ (Some (Fin (A * mnorm T px))) SH) as (r' & E' & R1 & R2 & R3 & _).
  rewrite E in E'. injection E' as <-. destruct (sums_err_is _ _ _ _ E) as [_ SN].
  assert (S6 := six). rewrite nth_raw in R3 by lia. destruct (Z.eqb (m_flags r) 0) eqn:F; (eexists; split; [exact G|]).
  - cbn [q_mom q_npix q_wsum scale_result m_flags]. rewrite F. split; [reflexivity|]. unfold reports. cbn [m_sums_norm m_sums m_cov m_flux sm_n sm_at].
    rewrite SN, R1, R3. cbn [xmul]. assert (HA' : 0 < A) by exact HA.
    split; [f_equal; field; lra|]. split; [f_equal; field; lra|]. split; [rewrite map_map; apply map_ext; intros k; cbn [xmul]; f_equal; field; lra|].
    split; [exact Nn|]. split; [intros k m Hk Hm; rewrite CV by assumption; cbn [xmul]; f_equal; field; lra|]. f_equal; field; lra.
  - cbn [q_mom q_npix q_wsum]. rewrite F. split; [reflexivity|]. unfold reports. rewrite SN, R1, R3. repeat split; auto.
Qed.

(** when nothing is flagged *)
Lemma go_good q : gaussmom fwhm higher (GObs px j) = Ok q -> m_flags (q_mom q) = 0%Z ->
  let r := q_mom q in let S := msum T px in let V := mcov T px in
  measurable T px n /\ m_T_flags r = 0%Z /\ m_flux_flags r = 0%Z /\
  m_flux_err r = Fin (sqrt (V 5 5)%nat) /\ m_s2n r = Fin (S 5%nat / sqrt (V 5 5)%nat) /\
  m_T r = Fin (S 4%nat / S 5%nat) /\ m_e1 r = Fin (S 2%nat / S 4%nat) /\ m_e2 r = Fin (S 3%nat / S 4%nat) /\
  m_T_err r = Fin (sqrt (Rmax 0 (ratio_var (S 4%nat) (S 5%nat) (V 4 4)%nat (V 5 5)%nat (V 4 5)%nat))) /\
  m_e_err r = (Fin (sqrt (Rmax 0 (ratio_var (S 2%nat) (S 4%nat) (V 2 2)%nat (V 4 4)%nat (V 2 4)%nat))),
               Fin (sqrt (Rmax 0 (ratio_var (S 3%nat) (S 4%nat) (V 3 3)%nat (V 4 4)%nat (V 3 4)%nat)))) /\
  m_sums_err r = map (fun k => Fin (sqrt (V k k))) (seq 0 n) /\
  m_pars r = Some [Fin (get_area j * S 0%nat); Fin (get_area j * S 1%nat); m_e1 r; m_e2 r; m_T r; Fin (S 5%nat)].
Proof.
  intros Eq Fq. cbv zeta. destruct go_raw as (r & SH & CV & Nn & E & G). cbv zeta in G. rewrite Eq in G. injection G as G.
  assert (F0 : m_flags r = 0%Z).
  { destruct (Z.eqb (m_flags r) 0) eqn:F; [apply Z.eqb_eq; exact F|]. rewrite G in Fq. exact Fq. }
  rewrite F0 in G. cbn [Z.eqb] in G. rewrite G. assert (HA' : 0 < A) by exact HA.
  destruct (mom_result_full _ _ (Some (Fin (A * mnorm T px))) SH) as (r' & E' & R1 & R2 & R3 & TF & _).
  rewrite E in E'. injection E' as <-. rewrite F0 in TF. destruct (flags_zero _ _ _ TF) as (D & PF & PT & EE1 & EE2).
  assert (S6 := six). rewrite !nth_raw in * by lia. change (0 < A * msum T px 5) in PF.
  assert (HF5 : 0 < msum T px 5) by (apply pos_A; exact PF).
  cbn [xdiv] in PT. rewrite Reqb_f in PT by lra. change (0 < A * msum T px 4 / (A * msum T px 5)) in PT.
  assert (HT4 : 0 < A * msum T px 4). { apply Rmult_lt_reg_r with (/ (A * msum T px 5)); [apply Rinv_0_lt_compat; exact PF|]. rewrite Rmult_0_l. exact PT. }
  assert (HM4 : 0 < msum T px 4) by (apply pos_A; exact HT4).
  assert (DD : forall k, (k < n)%nat -> 0 < mcov T px k k).
  { intros k Hk. assert (X := D k). rewrite Nn in X. specialize (X Hk). rewrite CV in X by exact Hk. apply pos_A2. exact X. }
  assert (FC : forall i k, (i < sm_n (m_cov r))%nat -> (k < sm_n (m_cov r))%nat -> finite (sm_at (m_cov r) i k)).
  { rewrite Nn. intros i k Hi Hk. rewrite CV by assumption. eexists; reflexivity. }
  destruct (valid_moments _ (m_cov r) (Some (Fin (A * mnorm T px))) _ _ _ _ SH (nth_raw _ 2 ltac:(lia)) (nth_raw _ 3 ltac:(lia)) (nth_raw _ 4 ltac:(lia)) (nth_raw _ 5 ltac:(lia)) FC D PF HT4)
    as (r' & E' & V1 & V2 & V3 & V4 & V5 & V6 & V7 & V8 & V9 & V10 & V11 & V12).
  rewrite E in E'. injection E' as <-.
  assert (NZ : A * msum T px 2 <> 0 /\ A * msum T px 3 <> 0).
  { split; intros Z; [destruct (V12 (or_introl Z)) as [K _]|destruct (V12 (or_intror Z)) as [K _]]; rewrite F0 in K; discriminate K. }
  destruct (V11 (proj1 NZ) (proj2 NZ)) as [_ VE].
  rewrite !CV in * by lia. cbn [val] in *. rewrite sqrt_A2 in *.
  assert (RV : forall a b va vb c, 0 < b -> ratio_var (A * a) (A * b) (A ^ 2 * va) (A ^ 2 * vb) (A ^ 2 * c) = ratio_var a b va vb c).
  { intros. unfold ratio_var. field. lra. }
  rewrite !RV in * by assumption.
  cbn [q_mom scale_result m_T_flags m_flux_flags m_flux_err m_s2n m_T m_e1 m_e2 m_T_err m_e_err m_sums_err m_pars].
  split. { split; [exact DD|]. split; [exact HF5|]. split; [exact HM4|]. destruct NZ as [N2 N3]. split; intros Z; [apply N2|apply N3]; rewrite Z; ring. }
  assert (Q5 : 0 < sqrt (mcov T px 5 5)) by (apply sqrt_lt_R0, DD; lia).
  split; [exact V5|]. split; [exact V6|]. rewrite V7, V8, V2, V3, V4, V9, VE, V10. cbn [xmul].
  split; [f_equal; field; lra|]. split; [f_equal; field; split; lra|]. split; [f_equal; field; split; lra|]. split; [f_equal; field; split; lra|].
  split; [f_equal; field; split; lra|]. split; [reflexivity|]. split; [reflexivity|]. split.
  - destruct (sums_err_is _ _ _ _ E) as [SE _]. rewrite SE. cbv zeta. rewrite Nn.
    replace (forallb (fun c : xr => xgtb c (Fin 0)) (map (fun i : nat => sm_at (m_cov r) i i) (seq 0 n))) with true.
    + rewrite !map_map. apply map_ext_in. intros k Ik. apply in_seq in Ik. rewrite CV by lia. cbn [xsqrt].
      assert (X := DD k ltac:(lia)). assert (Y := A2). rewrite Rltb_f by nra. cbn [xmul]. rewrite sqrt_A2. f_equal. field. lra.
    + symmetry. apply forallb_forall. intros c Ic. apply in_map_iff in Ic. destruct Ic as (k & <- & Ik). apply in_seq in Ik. rewrite CV by lia.
      unfold xgtb. cbn. apply Rltb_t. assert (X := DD k ltac:(lia)). assert (Y := A2). apply Rmult_lt_0_compat; assumption.
  - unfold scale_par5. cbn [length seq combine map fst snd Nat.eqb xmul]. rewrite !nth_raw by lia. rewrite V2, V3, V4. cbn [xmul]. repeat f_equal. field. lra.
Qed.

(** exactly when nothing is flagged *)
Lemma go_flags q : gaussmom fwhm higher (GObs px j) = Ok q -> (m_flags (q_mom q) = 0%Z <-> measurable T px n).
Proof.
  intros Eq. split; [intros F; apply (go_good q Eq F)|]. intros (D & M5 & M4 & M2 & M3).
  destruct go_raw as (r & SH & CV & Nn & E & G). cbv zeta in G. rewrite Eq in G. injection G as G. assert (S6 := six). assert (HA' : 0 < A) by exact HA.
  assert (FC : forall i k, (i < sm_n (m_cov r))%nat -> (k < sm_n (m_cov r))%nat -> finite (sm_at (m_cov r) i k)).
  { rewrite Nn. intros i k Hi Hk. rewrite CV by assumption. eexists; reflexivity. }
  assert (DP : diag_positive (m_cov r)). { intros k Hk. rewrite Nn in Hk. rewrite CV by exact Hk. cbn. assert (Y := A2). apply Rmult_lt_0_compat; [exact Y|]. apply D; exact Hk. }
  assert (X4 : 0 < A * msum T px 4) by (apply Rmult_lt_0_compat; assumption). assert (X5 : 0 < A * msum T px 5) by (apply Rmult_lt_0_compat; assumption).
  destruct (valid_moments _ (m_cov r) (Some (Fin (A * mnorm T px))) _ _ _ _ SH (nth_raw _ 2 ltac:(lia)) (nth_raw _ 3 ltac:(lia)) (nth_raw _ 4 ltac:(lia)) (nth_raw _ 5 ltac:(lia)) FC DP X5 X4)
    as (r' & E' & _ & _ & _ & _ & _ & _ & _ & _ & _ & _ & V11 & _).
  rewrite E in E'. injection E' as <-.
  assert (N2 : A * msum T px 2 <> 0) by (apply Rmult_integral_contrapositive_currified; [lra|exact M2]).
  assert (N3 : A * msum T px 3 <> 0) by (apply Rmult_integral_contrapositive_currified; [lra|exact M3]).
  destruct (V11 N2 N3) as [F0 _]. rewrite G, F0. cbn [Z.eqb scale_result q_mom m_flags]. exact F0.
Qed.

(** the moments by name *)
Lemma go_named q : gaussmom fwhm higher (GObs px j) = Ok q -> 0 < msum T px 5 ->
  In ("MF"%string, (Fin (A * msum T px 5), Fin (A * sqrt (mcov T px 5 5)))) (m_named (q_mom q)).
Proof.
  intros Eq M5. destruct go_raw as (r & SH & CV & Nn & E & G). cbv zeta in G. rewrite Eq in G. injection G as G.
  destruct (mom_result_full _ _ (Some (Fin (A * mnorm T px))) SH) as (r' & E' & _ & _ & _ & _ & _ & _ & _ & _ & _ & N & _).
  rewrite E in E'. injection E' as <-. assert (S6 := six).
  assert (Nq : m_named (q_mom q) = m_named r) by (rewrite G; destruct (Z.eqb _ _); reflexivity).
  rewrite Nq, N. apply in_flat_map. exists ("MF"%string, 5%nat). split; [cbn; tauto|]. cbn [fst snd]. rewrite map_length, seq_length.
  destruct (Nat.ltb_spec 5 n); [|lia]. left. f_equal. unfold named_value, named_error. cbn [Nat.eqb]. rewrite nth_raw by lia. rewrite CV by lia. cbn [xsqrt].
  rewrite sqrt_A2. destruct (Rltb _ 0) eqn:X; [|reflexivity]. apply Rltb_true in X. exfalso.
  assert (0 <= mcov T px 5 5).
  { unfold mcov. apply rsum_nonneg. intros x Hx. apply in_map_iff in Hx. destruct Hx as (p & <- & _). change (mfun 5 p) with 1.
    assert (0 <= gauss_weight T p ^ 2) by (apply pow2_ge_0). assert (0 <= / px_ierr p ^ 2).
    { destruct (Req_dec (px_ierr p ^ 2) 0) as [->|Z]; [rewrite Rinv_0; lra|]. apply Rlt_le, Rinv_0_lt_compat. assert (0 <= px_ierr p ^ 2) by apply pow2_ge_0. lra. }
    nra. }
  assert (Y := A2). nra.
Qed.
End Go.

(** pixels of a real observation *)
Lemma made_pixels image weight j px : nrow weight = nrow image -> ncol weight = ncol image -> make_pixels image weight j true = Ok px -> pixels_of j px.
Proof.
  intros H1 H2 E. destruct (make_pixels_spec image weight j true H1 H2) as [(K & _)|(idx & l & K & U & _ & D & _)]; [congruence|].
  rewrite K in E. injection E as <-. assert (U' : forall rc, In rc idx -> at2 weight (fst rc) (snd rc) > 0) by (intros rc I; apply U in I; apply I; reflexivity).
  clear U K. unfold pixels_of. induction D as [|rc p idx l Hd D IH]; [constructor|]. constructor.
  - destruct rc as [r c]. destruct Hd as (_ & Ar & _ & Er). split; [rewrite Ar; reflexivity|]. rewrite Er. assert (X := U' (r, c) (or_introl eq_refl)). cbn in X. apply Rgt_not_eq, sqrt_lt_R0. rewrite Rmax_left by lra. exact X.
  - apply IH. intros; apply U'; right; assumption.
Qed.

(** ** half maximum *)
Lemma sq_bounds x a b a' b' : 0 <= a -> a <= x <= b -> a' <= a * a -> b * b <= b' -> a' <= x * x <= b'.
Proof. intros H0 [H1 H2] H3 H4. split; [apply Rle_trans with (a * a); [exact H3|]|apply Rle_trans with (b * b); [|exact H4]]; apply Rmult_le_compat; lra. Qed.
Lemma half_exp : Rabs (exp (- (FWHM_FAC * FWHM_FAC / 8)) - 1 / 2) <= / 10 ^ 9.
Proof.
  set (f := FWHM_FAC * FWHM_FAC / 128). replace (- (FWHM_FAC * FWHM_FAC / 8)) with (8 * (- f + - f)) by (unfold f; field).
  assert (B : 957603280691807 / 10 ^ 15 <= exp (- f) <= 957603280707047 / 10 ^ 15).
  { assert (Hf : -1/2 <= f <= 1/2) by (unfold f, FWHM_FAC; lra). destruct (taylor5 f Hf) as [L U].
    assert (TT : 1044273782418175487 / 10 ^ 18 <= T5 f <= 1044273782418175488 / 10 ^ 18) by (unfold T5, T4, T3, f, FWHM_FAC; split; lra).
    assert (D : 1733/1000 * f^6/720 <= 15911054 / 10 ^ 18) by (unfold f, FWHM_FAC; lra).
    assert (P := exp_pos (- f)). split.
    - apply Rmult_le_reg_r with (T5 f); [lra|]. apply Rle_trans with (957603280691807 / 10 ^ 15 * (1044273782418175488 / 10 ^ 18)); [apply Rmult_le_compat_l; lra|]. lra.
    - apply Rmult_le_reg_r with (T5 f); [lra|]. apply Rle_trans with (957603280707047 / 10 ^ 15 * (1044273782418175487 / 10 ^ 18)); [lra|apply Rmult_le_compat_l; lra]. }
  assert (DB : forall y, exp (2 * y) = exp y * exp y) by (intros y; rewrite <- exp_plus; f_equal; ring).
  replace (8 * (- f + - f)) with (2 * (2 * (2 * (2 * (- f))))) by ring. rewrite !DB. set (x := exp (- f)) in *.
  apply (sq_bounds _ _ _ (917004043191711 / 10 ^ 15) (917004043220900 / 10 ^ 15)) in B; [|lra|lra|lra].
  apply (sq_bounds _ _ _ (840896415229945 / 10 ^ 15) (840896415283479 / 10 ^ 15)) in B; [|lra|lra|lra].
  apply (sq_bounds _ _ _ (707106781146572 / 10 ^ 15) (707106781236606 / 10 ^ 15)) in B; [|lra|lra|lra].
  apply (sq_bounds _ _ _ (499999999943466 / 10 ^ 15) (500000000070794 / 10 ^ 15)) in B; [|lra|lra|lra].
  apply Rabs_le. lra.
Qed.
Lemma half_max fwhm p : 0 < fwhm -> px_v p * px_v p + px_u p * px_u p = (fwhm / 2) ^ 2 -> Rabs (gauss_weight (fwhm_to_T fwhm) p - 1 / 2) <= / 10 ^ 9.
Proof.
  intros H E. unfold gauss_weight. rewrite E. replace (- (fwhm / 2) ^ 2 / fwhm_to_T fwhm) with (- (FWHM_FAC * FWHM_FAC / 8)); [exact half_exp|].
  unfold fwhm_to_T, fwhm_to_sigma. assert (0 < FWHM_FAC) by (unfold FWHM_FAC; lra). field. lra.
Qed.
Lemma zero_fwhm higher obs : gaussmom 0 higher obs = Raise GMixRangeError.
Proof.
  unfold gaussmom, set_mompars. rewrite fill_weight. cbn [bind gmix_set_norms].
  unfold gauss2d_set_norm, GMIX_LOW_DETVAL, gauss2d_set. cbn [g_det].
  replace (fwhm_to_T 0) with 0 by (unfold fwhm_to_T, fwhm_to_sigma; unfold Rdiv; ring). rewrite Rltb_t by lra. reflexivity.
Qed.
Lemma no_lists fwhm higher obs : / 10 ^ 40 <= fwhm -> obs = GObsList \/ obs = GMultiBandObsList -> gaussmom fwhm higher obs = Raise AttributeError.
Proof.
  intros H O. destruct (weight_made fwhm H) as (w & E & W). unfold gaussmom. rewrite E. cbn [bind]. apply size_big in H.
  destruct (weight_good _ _ H W) as (G & _). destruct (norms_if_needed w G) as (gm' & E' & _). destruct O as [-> | ->]; cbn [measure_moments]; rewrite E'; reflexivity.
Qed.
