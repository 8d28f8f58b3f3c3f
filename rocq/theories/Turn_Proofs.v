From Coq Require Import Nsatz.
From Verif Require Import Base XReal Shape_Spec Moments_Model Moments_Spec Jacobian_Model Pixels_Model GMix_Model WSums_Model WSums_Spec Flags_Model MomResult_Model MomResult_Spec MomResult_Proofs
  GaussMom_Model GaussMom_Spec GaussMom_Proofs Motion_Spec Turn_Spec.
Local Open Scope R_scope.

(** ** complex powers *)
Definition spin (k : nat) (t : R) (z : C) : C := (spin_re k t (fst z) (snd z), spin_im k t (fst z) (snd z)).
Lemma spin_mul j k t z w : cmul (spin j t z) (spin k t w) = spin (j + k) t (cmul z w).
Proof.
  unfold cmul, spin, spin_re, spin_im. cbn [fst snd]. rewrite plus_INR. replace ((INR j + INR k) * t) with (INR j * t + INR k * t) by ring.
  rewrite cos_plus, sin_plus. f_equal; ring.
Qed.
Lemma spin_one t : spin 0 t cone = cone.
Proof. unfold spin, spin_re, spin_im, cone. cbn [fst snd INR]. rewrite Rmult_0_l, cos_0, sin_0. f_equal; ring. Qed.
Lemma spin_pow k t z : cpow (spin 1 t z) k = spin k t (cpow z k).
Proof. induction k as [|k IH]; cbn [cpow]; [symmetry; apply spin_one|]. rewrite IH, spin_mul. reflexivity. Qed.
Lemma spin_mod2 k t z : cmod2 (spin k t z) = cmod2 z.
Proof. unfold cmod2, spin, spin_re, spin_im. cbn [fst snd]. pose proof (sin2_cos2 (INR k * t)) as Q. unfold Rsqr in Q. nsatz. Qed.
Lemma spin_scale k t c z : spin k t (c * fst z, c * snd z) = (c * fst (spin k t z), c * snd (spin k t z)).
Proof. unfold spin, spin_re, spin_im. cbn [fst snd]. f_equal; ring. Qed.

Section T.
Variable t : R.
Definition turned_pix (p p' : pixel R) : Prop :=
  px_v p' = moved_v t 0 (px_v p) (px_u p) /\ px_u p' = moved_u t 0 (px_v p) (px_u p) /\ px_area p' = px_area p /\ px_val p' = px_val p /\ px_ierr p' = px_ierr p.
Lemma offset_turned p p' : turned_pix p p' -> offset gauss_zero p' = spin 1 t (offset gauss_zero p).
Proof.
  intros (E1 & E2 & _). unfold offset, spin, spin_re, spin_im. rewrite E1, E2. unfold moved_v, moved_u. cbn [fst snd gauss_zero g_col g_row INR]. rewrite !Rmult_1_l. f_equal; ring.
Qed.
Lemma dist_turned p p' : turned_pix p p' -> px_v p' * px_v p' + px_u p' * px_u p' = px_v p * px_v p + px_u p * px_u p.
Proof. intros (E1 & E2 & _). rewrite E1, E2. unfold moved_v, moved_u. pose proof (sin2_cos2 t) as Q. unfold Rsqr in Q. nsatz. Qed.
Lemma weight_turned T p p' : turned_pix p p' -> gauss_weight T p' = gauss_weight T p.
Proof. intros H. unfold gauss_weight. rewrite (dist_turned p p' H). reflexivity. Qed.
Lemma near_turned T px px' : Forall2 turned_pix px px' -> Forall2 turned_pix (near T px) (near T px').
Proof.
  induction 1 as [|p p' px px' H _ IH]; [constructor|]. cbn [near filter]. rewrite (dist_turned p p' H).
  destruct (Rlt_dec _ _); [constructor; [exact H|exact IH]|exact IH].
Qed.
Lemma rsum_rel {X} (f f' : X -> R) (P : X -> X -> Prop) l l' : (forall x x', P x x' -> f' x' = f x) -> Forall2 P l l' -> rsum (map f' l') = rsum (map f l).
Proof. intros H. induction 1 as [|x x' l l' Hx _ IH]; [reflexivity|]. cbn [map]. rewrite !rsum_cons, IH, (H _ _ Hx). reflexivity. Qed.
Lemma mfun_zero p p' : turned_pix p p' -> forall i, In i spin_zero -> mfun i p' = mfun i p.
Proof.
  intros H i I. assert (E : rad2 gauss_zero p' = rad2 gauss_zero p) by (unfold rad2; rewrite (offset_turned p p' H); apply spin_mod2).
  unfold spin_zero in I. cbn [In] in I. repeat (destruct I as [<-|I]; [unfold mfun, moment; cbv zeta; rewrite ?E; reflexivity|]). contradiction.
Qed.
Lemma mfun_pair p p' : turned_pix p p' -> forall x y k, In (x, y, k) spin_pairs ->
  (mfun x p', mfun y p') = spin k t (mfun x p, mfun y p).
Proof.
  intros H x y k I. assert (Z := offset_turned p p' H). assert (E : rad2 gauss_zero p' = rad2 gauss_zero p) by (unfold rad2; rewrite Z; apply spin_mod2).
  assert (O : offset gauss_zero p = (px_u p, px_v p)) by (unfold offset; cbn [gauss_zero g_col g_row]; f_equal; ring).
  assert (O' : offset gauss_zero p' = (px_u p', px_v p')) by (unfold offset; cbn [gauss_zero g_col g_row]; f_equal; ring).
  assert (PW : forall n, cpow (offset gauss_zero p') n = spin n t (cpow (offset gauss_zero p) n)) by (intros n; rewrite Z; apply spin_pow).
  unfold spin_pairs in I. cbn [In] in I. destruct I as [I|[I|[I|[I|[I|[I|[]]]]]]]; injection I as <- <- <-; unfold mfun, moment; cbv zeta; rewrite ?E, ?PW.
  - rewrite O, O' in Z. exact Z.
  - rewrite <- !surjective_pairing. reflexivity.
  - rewrite Z. rewrite <- spin_scale. reflexivity.
  - rewrite <- !surjective_pairing. reflexivity.
  - rewrite <- spin_scale. reflexivity.
  - rewrite <- !surjective_pairing. reflexivity.
Qed.
Lemma mfun_re p p' : turned_pix p p' -> forall x y k, In (x, y, k) spin_pairs -> mfun x p' = spin_re k t (mfun x p) (mfun y p).
Proof. intros H x y k I. exact (f_equal fst (mfun_pair p p' H x y k I)). Qed.
Lemma mfun_im p p' : turned_pix p p' -> forall x y k, In (x, y, k) spin_pairs -> mfun y p' = spin_im k t (mfun x p) (mfun y p).
Proof. intros H x y k I. exact (f_equal snd (mfun_pair p p' H x y k I)). Qed.

(** sums of linear combinations *)
Lemma rsum_lin {X} (f g : X -> R) a b l : rsum (map (fun x => a * f x + b * g x) l) = a * rsum (map f l) + b * rsum (map g l).
Proof. induction l as [|x l IH]; cbn [map]; rewrite ?rsum_nil, ?rsum_cons; [ring|]. rewrite IH. ring. Qed.
Variables (T : R) (px px' : list (pixel R)).
Hypothesis HX : Forall2 turned_pix px px'.
Lemma norm_turned : mnorm T px' = mnorm T px.
Proof. unfold mnorm. eapply rsum_rel; [|apply near_turned, HX]. intros p p' H. apply weight_turned, H. Qed.
Lemma near_count : length (near T px') = length (near T px).
Proof. induction (near_turned T px px' HX) as [|? ? ? ? _ _ IH]; [reflexivity|]. cbn [length]. rewrite IH. reflexivity. Qed.
Lemma msum_turned : sums_turned t (msum T px) (msum T px').
Proof.
  split.
  - intros i I. unfold msum. eapply rsum_rel; [|apply near_turned, HX]. intros p p' H. rewrite (weight_turned T p p' H), (mfun_zero p p' H i I). destruct H as (_ & _ & _ & -> & _). reflexivity.
  - intros x y k I. unfold msum, spin_re, spin_im. rewrite <- !rsum_lin. split.
    + eapply rsum_rel; [|apply near_turned, HX]. intros p p' H. cbv beta. rewrite (weight_turned T p p' H), (mfun_re p p' H x y k I). destruct H as (_ & _ & _ & -> & _). unfold spin_re. ring.
    + eapply rsum_rel; [|apply near_turned, HX]. intros p p' H. cbv beta. rewrite (weight_turned T p p' H), (mfun_im p p' H x y k I). destruct H as (_ & _ & _ & -> & _). unfold spin_im. ring.
Qed.
Lemma mcov_turned : covs_turned t (mcov T px) (mcov T px').
Proof.
  split.
  - intros i j I J. unfold mcov. eapply rsum_rel; [|apply near_turned, HX]. intros p p' H. rewrite (weight_turned T p p' H), (mfun_zero p p' H i I), (mfun_zero p p' H j J). destruct H as (_ & _ & _ & _ & ->). reflexivity.
  - intros x y k I. split.
    + intros i J. unfold mcov, spin_re, spin_im. rewrite <- !rsum_lin. split; (eapply rsum_rel; [|apply near_turned, HX]); intros p p' H; cbv beta;
        rewrite (weight_turned T p p' H), (mfun_zero p p' H i J), ?(mfun_re p p' H x y k I), ?(mfun_im p p' H x y k I); destruct H as (_ & _ & _ & _ & ->); unfold spin_re, spin_im; ring.
    + assert (A : forall l, rsum (map (fun p => gauss_weight T p ^ 2 * / px_ierr p ^ 2 * mfun x p * mfun x p) l) + rsum (map (fun p => gauss_weight T p ^ 2 * / px_ierr p ^ 2 * mfun y p * mfun y p) l)
         = rsum (map (fun p => gauss_weight T p ^ 2 * / px_ierr p ^ 2 * (mfun x p * mfun x p + mfun y p * mfun y p)) l)).
      { intros l. rewrite <- (Rmult_1_l (rsum (map (fun p => _ * mfun x p * mfun x p) l))), <- (Rmult_1_l (rsum (map (fun p => _ * mfun y p * mfun y p) l))), <- rsum_lin. f_equal. apply map_ext. intros p. ring. }
      unfold mcov. rewrite !A. eapply rsum_rel; [|apply near_turned, HX]. intros p p' H. cbv beta.
      assert (E : mfun x p' * mfun x p' + mfun y p' * mfun y p' = mfun x p * mfun x p + mfun y p * mfun y p).
      { pose proof (spin_mod2 k t (mfun x p, mfun y p)) as Q. rewrite <- (mfun_pair p p' H x y k I) in Q. exact Q. }
      rewrite (weight_turned T p p' H), E. destruct H as (_ & _ & _ & _ & ->). reflexivity.
Qed.
End T.

(** ** results *)
(** size, s2n and their flags depend on two sums and their covariance *)
Lemma same_parts sums sums' cov cov' sn sn' r r' : make_mom_result sums cov sn = Ok r -> make_mom_result sums' cov' sn' = Ok r' ->
  vget sums' 4 = vget sums 4 -> vget sums' 5 = vget sums 5 ->
  mget cov' 5 5 = mget cov 5 5 -> mget cov' 4 4 = mget cov 4 4 -> mget cov' 4 5 = mget cov 4 5 -> size_and_s2n_same r r' /\ m_flux_err r' = m_flux_err r.
Proof.
  intros E E' S4 S5 C55 C44 C45. unfold make_mom_result in E, E'. rewrite S4, S5, C55, C44, C45 in E'.
  do 2 (destruct (_ && _) in E; [discriminate|]). do 2 (destruct (_ && _) in E'; [discriminate|]).
  destruct (vget sums 0), (vget sums 1), (vget sums 2), (vget sums 3); try discriminate. destruct (vget sums 4) as [x4|]; [|discriminate]. destruct (vget sums 5) as [x5|]; [|discriminate].
  destruct (vget sums' 0), (vget sums' 1), (vget sums' 2), (vget sums' 3); try discriminate. cbn [bind] in E, E'.
  destruct (mget cov 5 5) as [y55|]; [|discriminate]. destruct (mget cov 4 4) as [y44|]; [|discriminate]. destruct (mget cov 4 5) as [y45|]; [|discriminate]. cbn [bind] in E, E'.
  do 4 (destruct (mget cov _ _); [|discriminate]; cbn [bind] in E). do 4 (destruct (mget cov' _ _); [|discriminate]; cbn [bind] in E').
  destruct (if xgtb y55 (Fin 0) then _ else _) as [[fe s2] ff].
  destruct (if xgtb y55 (Fin 0) && xgtb y44 (Fin 0) then _ else _) as [[[T Te] Tf]|]; [|discriminate]. cbn [bind] in E, E'.
  destruct (if forallb _ _ then _ else _) as [se fl] in E. destruct (if forallb _ _ then _ else _) as [se' fl'] in E'.
  match type of E with bind ?X _ = _ => destruct X as [[[[[? ?] ?] ?] ?]|]; [|discriminate] end. match type of E' with bind ?X _ = _ => destruct X as [[[[[? ?] ?] ?] ?]|]; [|discriminate] end.
  cbn [bind] in E, E'. destruct (add_moments_by_name sums cov); [|discriminate]. destruct (add_moments_by_name sums' cov'); [|discriminate]. cbn [bind] in E, E'.
  injection E as <-. injection E' as <-. unfold size_and_s2n_same. cbn. repeat split.
Qed.

(** total variance of the shape *)
Lemma Rmax_nonneg v : 0 <= v -> Rmax 0 v = v.
Proof. intros H. apply Rmax_right, H. Qed.
(** Cauchy-Schwarz for the covariances *)
Lemma cauchy T px k m : mcov T px k m * mcov T px k m <= mcov T px k k * mcov T px m m.
Proof.
  unfold mcov. generalize (near T px). intros l.
  assert (Q : forall p, 0 <= gauss_weight T p ^ 2 * / px_ierr p ^ 2).
  { intros p. apply Rmult_le_pos; [apply pow2_ge_0|]. destruct (Req_dec (px_ierr p ^ 2) 0) as [->|Z]; [rewrite Rinv_0; lra|]. apply Rlt_le, Rinv_0_lt_compat. assert (0 <= px_ierr p ^ 2) by apply pow2_ge_0. lra. }
  induction l as [|p l IH]; cbn [map]; rewrite ?rsum_nil, ?rsum_cons; [lra|].
  set (A := rsum (map (fun p0 => _ * mfun k p0 * mfun m p0) l)) in *. set (B := rsum (map (fun p0 => _ * mfun k p0 * mfun k p0) l)) in *. set (D := rsum (map (fun p0 => _ * mfun m p0 * mfun m p0) l)) in *.
  assert (PB : 0 <= B). { apply rsum_nonneg. intros x Hx. apply in_map_iff in Hx. destruct Hx as (p0 & <- & _). rewrite Rmult_assoc. apply Rmult_le_pos; [apply Q|]. pose proof (Rle_0_sqr (mfun k p0)) as S. exact S. }
  assert (PD : 0 <= D). { apply rsum_nonneg. intros x Hx. apply in_map_iff in Hx. destruct Hx as (p0 & <- & _). rewrite Rmult_assoc. apply Rmult_le_pos; [apply Q|]. pose proof (Rle_0_sqr (mfun m p0)) as S. exact S. }
  specialize (Q p). set (q := gauss_weight T p ^ 2 * / px_ierr p ^ 2) in *. set (x := mfun k p). set (y := mfun m p). clearbody A B D q x y.
  enough (2 * (A * x * y) <= B * y * y + D * x * x).
  { assert (0 <= q * (B * y * y + D * x * x - 2 * (A * x * y))) by (apply Rmult_le_pos; lra). nra. }
  destruct (Req_dec B 0) as [ZB|NB].
  - assert (A = 0) by (subst B; nra). subst A. rewrite ZB. assert (0 <= D * (x * x)) by (apply Rmult_le_pos; [exact PD|apply Rle_0_sqr]). nra.
  - assert (0 < B) by lra. apply Rmult_le_reg_l with B; [assumption|]. assert (0 <= (B * y - A * x) * (B * y - A * x)) by apply Rle_0_sqr.
    assert (0 <= (B * D - A * A) * (x * x)) by (apply Rmult_le_pos; [lra|apply Rle_0_sqr]). nra.
Qed.
Lemma spread_turned c s m2 m3 m4 v22 v33 v44 w2 w3 v22' v33' : c * c + s * s = 1 -> m4 <> 0 -> v22' + v33' = v22 + v33 ->
  ratio_var (c * m2 + s * m3) m4 v22' v44 (c * w2 + s * w3) + ratio_var (- s * m2 + c * m3) m4 v33' v44 (- s * w2 + c * w3)
  = ratio_var m2 m4 v22 v44 w2 + ratio_var m3 m4 v33 v44 w3.
Proof.
  intros C N V. assert (Q : forall a va w, ratio_var a m4 va v44 w = (va * m4 * m4 - 2 * w * a * m4 + v44 * a * a) / (m4 * m4 * m4 * m4)) by (intros; unfold ratio_var; field; exact N).
  rewrite !Q. unfold Rdiv. rewrite <- !Rmult_plus_distr_r. f_equal. nsatz.
Qed.

Section Go.
Variables (t fwhm : R) (higher : bool) (j j' : jac) (px px' : list (pixel R)).
Hypothesis HF : / 10 ^ 40 <= fwhm.
Hypothesis HA : 0 < get_area j.
Hypothesis HJ : get_area j' = get_area j.
Hypothesis HP : pixels_of j px.
Hypothesis HX : pix_moved t 0 0 px px'.
Let T := fwhm_to_T fwhm.
Let n := nmom higher.
Lemma pixels_of_turned : pixels_of j' px'.
Proof.
  clear HF HA T. unfold pixels_of in *. unfold pix_moved in HX. revert HP. generalize dependent px'. clear HX px'. induction px as [|p l IH]; intros l0 HX HP; inversion HX as [|? p' ? l' H R]; subst; [constructor|].
  apply Forall_cons_iff in HP. destruct HP as [[P1 P2] P3]. constructor; [|apply IH; assumption].
  destruct H as (_ & _ & A & _ & I). rewrite A, I, HJ. split; assumption.
Qed.
Lemma go_turned : exists q q', gaussmom fwhm higher (GObs px j) = Ok q /\ gaussmom fwhm higher (GObs px' j') = Ok q' /\ q_npix q' = q_npix q /\
  size_and_s2n_same (q_mom q) (q_mom q') /\ (m_flags (q_mom q) = 0%Z -> m_flags (q_mom q') = 0%Z -> result_turned t q q').
Proof.
  pose proof pixels_of_turned as HP'. assert (HA' : 0 < get_area j') by (rewrite HJ; exact HA).
  destruct (go_raw fwhm higher j px HF HA HP) as (r & SH & CV & Nn & E & G). destruct (go_raw fwhm higher j' px' HF HA' HP') as (r' & SH' & CV' & Nn' & E' & G'). cbv zeta in G, G'.
  rewrite HJ in SH', CV', E', G'. fold T in SH, SH', CV, CV', E, E', G, G'. pose proof (msum_turned t T px px' HX) as [S0 S1]. pose proof (mcov_turned t T px px' HX) as [V0 V1]. fold n in CV, CV', Nn, Nn', E, E', SH, SH'. assert (S6 : (6 <= n)%nat) by (unfold n, nmom; destruct higher; lia).
  assert (I4 : In 4%nat spin_zero) by (cbn; tauto). assert (I5 : In 5%nat spin_zero) by (cbn; tauto).
  assert (VG : forall P k, (k < n)%nat -> vget (map (fun k => Fin (get_area j * msum T P k)) (seq 0 n)) k = Ok (Fin (get_area j * msum T P k))).
  { intros P k Hk. rewrite vget_ok by (rewrite map_length, seq_length; exact Hk). f_equal. rewrite nth_indep with (d' := Fin (get_area j * msum T P 0%nat)) by (rewrite map_length, seq_length; exact Hk).
    rewrite (map_nth (fun k => Fin (get_area j * msum T P k))). rewrite seq_nth by exact Hk. reflexivity. }
  destruct (same_parts _ _ _ _ _ _ _ _ E E') as [SS FE].
  1,2: rewrite !VG by lia; rewrite S0 by assumption; reflexivity.
  1,2,3: rewrite !mget_ok by lia; rewrite CV, CV' by lia; rewrite V0 by assumption; reflexivity.
  exists (if Z.eqb (m_flags r) 0 then scale_result (Fin (/ get_area j)) (mkGres (length (near T px)) (Fin (get_area j * mnorm T px)) r) else mkGres (length (near T px)) (Fin (get_area j * mnorm T px)) r).
  exists (if Z.eqb (m_flags r') 0 then scale_result (Fin (/ get_area j)) (mkGres (length (near T px')) (Fin (get_area j * mnorm T px')) r') else mkGres (length (near T px')) (Fin (get_area j * mnorm T px')) r').
  split; [exact G|]. split; [exact G'|].
  split; [destruct (Z.eqb (m_flags r) 0), (Z.eqb (m_flags r') 0); cbn [q_npix scale_result]; apply (near_count t T px px' HX)|].
  split; [destruct (Z.eqb (m_flags r) 0), (Z.eqb (m_flags r') 0); exact SS|].
  set (q := if Z.eqb (m_flags r) 0 then _ else _). set (q' := if Z.eqb (m_flags r') 0 then _ else _). intros F F'.
  destruct (go_good fwhm higher j px HF HA HP q G F) as ((D & P5 & P4 & N2 & N3) & _ & _ & A1 & _ & _ & A2 & A3 & _ & A4 & _ & _).
  destruct (go_good fwhm higher j' px' HF HA' HP' q' G' F') as (_ & _ & _ & B1 & _ & _ & B2 & B3 & _ & B4 & _ & _).
  destruct (go_reports fwhm higher j px HF HA HP) as (q0 & Q0 & _ & RP). rewrite G in Q0. injection Q0 as Q0. change (q = q0) in Q0. subst q0.
  destruct (go_reports fwhm higher j' px' HF HA' HP') as (q0 & Q0 & _ & RP'). rewrite G' in Q0. injection Q0 as Q0. change (q' = q0) in Q0. subst q0.
  fold T in P5, P4, A1, A2, A3, A4, B1, B2, B3, B4, RP, RP'. rewrite F in RP. rewrite F' in RP'. cbn [Z.eqb] in RP, RP'. destruct RP as (R1 & R2 & _ & _ & _ & R3), RP' as (R1' & R2' & _ & _ & _ & R3').
  assert (I23 : In (2, 3, 2)%nat spin_pairs) by (cbn; tauto).
  destruct (S1 2%nat 3%nat 2%nat I23) as [T2 T3]. destruct (V1 2%nat 3%nat 2%nat I23) as [VT VS]. destruct (VT 4%nat I4) as [W2 W3]. rewrite ?(S0 4%nat I4), ?(S0 5%nat I5), ?(V0 5%nat 5%nat I5 I5) in B1, B2, B3, B4, R3'.
  unfold result_turned. rewrite R1, R1', R2, R2', R3, R3', A1, B1, A2, A3, B2, B3, A4, B4. rewrite (norm_turned t T px px' HX), ?(S0 4%nat I4), ?(S0 5%nat I5), ?(V0 5%nat 5%nat I5 I5), ?(V0 4%nat 4%nat I4 I4).
  split; [reflexivity|]. split; [reflexivity|]. split; [reflexivity|]. split; [reflexivity|].
  do 6 eexists. split; [reflexivity|]. split; [reflexivity|].
  split; [f_equal; rewrite T2; unfold spin_re, turned_1; replace (INR 2 * t) with (2 * t) by (cbn [INR]; ring); generalize (cos (2 * t)), (sin (2 * t)); intros; field; lra|].
  split; [f_equal; rewrite T3; unfold spin_im, turned_2; replace (INR 2 * t) with (2 * t) by (cbn [INR]; ring); generalize (cos (2 * t)), (sin (2 * t)); intros; field; lra|].
  split; [reflexivity|]. split; [reflexivity|].
  assert (NN : forall P k, 0 <= mcov T P k k).
  { intros P k. unfold mcov. apply rsum_nonneg. intros x Hx. apply in_map_iff in Hx. destruct Hx as (p & <- & _). rewrite Rmult_assoc. apply Rmult_le_pos; [|apply Rle_0_sqr]. apply Rmult_le_pos; [apply pow2_ge_0|].
    destruct (Req_dec (px_ierr p ^ 2) 0) as [->|Z]; [rewrite Rinv_0; lra|]. apply Rlt_le, Rinv_0_lt_compat. assert (0 <= px_ierr p ^ 2) by apply pow2_ge_0. lra. }
  assert (RN : forall P a k, 0 <= ratio_var a (msum T px 4) (mcov T P k k) (mcov T P 4 4) (mcov T P k 4)).
  { intros P a k. apply ratio_var_nonneg; [lra|apply NN|apply NN|apply cauchy]. }
  assert (RN' : forall a k, 0 <= ratio_var a (msum T px 4) (mcov T px' k k) (mcov T px 4 4) (mcov T px' k 4)).
  { intros a k. rewrite <- (V0 4%nat 4%nat I4 I4). apply RN. }
  rewrite !Rmax_nonneg by (apply RN || apply RN'). rewrite !pow2_sqrt by (apply RN || apply RN').
  rewrite T2, T3, W2, W3. unfold spin_re, spin_im. apply spread_turned; [|lra|exact VS].
  pose proof (sin2_cos2 (INR 2 * t)) as Q. unfold Rsqr in Q. lra.
Qed.
(** the test for a zero ellipticity component depends on the axes *)
Lemma flagged_turned : spin_re 2 t (msum T px 2) (msum T px 3) = 0 -> exists q', gaussmom fwhm higher (GObs px' j') = Ok q' /\ m_flags (q_mom q') <> 0%Z.
Proof.
  intros Z. pose proof pixels_of_turned as HP'. assert (HA' : 0 < get_area j') by (rewrite HJ; exact HA). pose proof (msum_turned t T px px' HX) as [_ S1].
  destruct (S1 2%nat 3%nat 2%nat ltac:(cbn; tauto)) as [T2 _].
  destruct (go_reports fwhm higher j' px' HF HA' HP') as (q' & G' & _). exists q'. split; [exact G'|]. intros F.
  apply (go_flags fwhm higher j' px' HF HA' HP' q' G') in F. destruct F as (_ & _ & _ & N2 & _). apply N2. fold T. rewrite T2. exact Z.
Qed.
End Go.
Lemma bad_angle x y : y <> 0 -> exists t, spin_re 2 t x y = 0.
Proof.
  intros N. exists (atan (- x / y) / 2). unfold spin_re. cbn [INR]. replace ((1 + 1) * (atan (- x / y) / 2)) with (atan (- x / y)) by field.
  assert (Q : sin (atan (- x / y)) = - x / y * cos (atan (- x / y))).
  { pose proof (atan_right_inv (- x / y)) as A. unfold tan in A. assert (cos (atan (- x / y)) <> 0) by (destruct (atan_bound (- x / y)); apply Rgt_not_eq, cos_gt_0; lra).
    rewrite <- A at 2. field. assumption. }
  rewrite Q. field. exact N.
Qed.
