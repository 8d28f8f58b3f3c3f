From Verif Require Import Base Shape_Model Shape_Spec Shape_Proofs Moments_Model Moments_Spec.

Lemma fac_pos : 0 < FWHM_FAC. Proof. unfold FWHM_FAC; lra. Qed.

(** ** C07 *)
Lemma fwhm_sigma_inv x :
  fwhm_to_sigma (sigma_to_fwhm x) = x /\ sigma_to_fwhm (fwhm_to_sigma x) = x.
Proof. unfold fwhm_to_sigma, sigma_to_fwhm. pose proof fac_pos. split; field; lra. Qed.

Lemma r50_sigma_inv x :
  r50_to_sigma (sigma_to_r50 x) = x /\ sigma_to_r50 (r50_to_sigma x) = x.
Proof.
  unfold r50_to_sigma, sigma_to_r50, fwhm_to_sigma, sigma_to_fwhm.
  pose proof fac_pos. split; field; lra.
Qed.

Lemma sqrt_half_sq s : 0 <= s -> sqrt (2 * s ^ 2 / 2) = s.
Proof. intros H. replace (2 * s^2 / 2) with (s*s) by field. apply sqrt_square; exact H. Qed.

Lemma T_fwhm_inv x : 0 <= x ->
  T_to_fwhm (fwhm_to_T x) = x /\ fwhm_to_T (T_to_fwhm x) = x /\
  T_to_r50 (r50_to_T x) = x /\ r50_to_T (T_to_r50 x) = x.
Proof.
  intros Hx. pose proof fac_pos as Hf.
  pose proof (Rinv_0_lt_compat _ Hf) as Hi.
  unfold T_to_fwhm, fwhm_to_T, T_to_r50, r50_to_T.
  pose proof (fwhm_sigma_inv) as E. pose proof r50_sigma_inv as E'.
  repeat split.
  - rewrite sqrt_half_sq; [apply E|]. unfold fwhm_to_sigma, Rdiv; nra.
  - rewrite (proj1 (E _)). replace (sqrt (x/2) ^ 2) with (sqrt (x/2) * sqrt (x/2)) by ring.
    rewrite sqrt_sqrt by lra. field.
  - rewrite sqrt_half_sq; [apply E'|]. unfold r50_to_sigma, fwhm_to_sigma, Rdiv; nra.
  - rewrite (proj1 (E' _)). replace (sqrt (x/2) ^ 2) with (sqrt (x/2) * sqrt (x/2)) by ring.
    rewrite sqrt_sqrt by lra. field.
Qed.

Lemma size_scaling k x :
  sigma_to_fwhm (k*x) = k * sigma_to_fwhm x /\ fwhm_to_sigma (k*x) = k * fwhm_to_sigma x /\
  r50_to_sigma (k*x) = k * r50_to_sigma x /\ sigma_to_r50 (k*x) = k * sigma_to_r50 x /\
  fwhm_to_T (k*x) = k^2 * fwhm_to_T x /\ r50_to_T (k*x) = k^2 * r50_to_T x /\
  (0 <= k -> T_to_fwhm (k^2*x) = k * T_to_fwhm x) /\
  (0 <= k -> T_to_r50 (k^2*x) = k * T_to_r50 x).
Proof.
  pose proof fac_pos as Hf.
  assert (Q : 0 <= k -> sqrt (k^2*x/2) = k * sqrt (x/2)).
  { intros Hk. replace (k^2*x/2) with ((k*k)*(x/2)) by field.
    rewrite sqrt_mult_alt by nra. rewrite sqrt_square by exact Hk. reflexivity. }
  unfold fwhm_to_T, r50_to_T, T_to_fwhm, T_to_r50, r50_to_sigma, sigma_to_r50, fwhm_to_sigma, sigma_to_fwhm.
  repeat split; try (field; lra); intros Hk; rewrite (Q Hk); field.
Qed.

Lemma size_meaning s : 0 <= s ->
  T_to_fwhm (2*s^2) = sigma_to_fwhm s /\ fwhm_to_T (sigma_to_fwhm s) = 2*s^2 /\
  T_to_r50 (2*s^2) = sigma_to_r50 s /\ r50_to_T (sigma_to_r50 s) = 2*s^2 /\
  sigma_to_r50 s = sigma_to_fwhm s / 2 /\ r50_to_sigma (sigma_to_fwhm s / 2) = s.
Proof.
  intros Hs. pose proof (fwhm_sigma_inv s) as [E1 E2]. pose proof (r50_sigma_inv s) as [E3 E4].
  unfold T_to_fwhm, fwhm_to_T, T_to_r50, r50_to_T.
  rewrite sqrt_half_sq by exact Hs. rewrite E1, E3. repeat split. exact E3.
Qed.

Lemma size_monotone x y : 0 <= x < y ->
  sigma_to_fwhm x < sigma_to_fwhm y /\ fwhm_to_sigma x < fwhm_to_sigma y /\
  r50_to_sigma x < r50_to_sigma y /\ sigma_to_r50 x < sigma_to_r50 y /\
  fwhm_to_T x < fwhm_to_T y /\ r50_to_T x < r50_to_T y /\
  T_to_fwhm x < T_to_fwhm y /\ T_to_r50 x < T_to_r50 y.
Proof.
  intros H. pose proof fac_pos as Hf. pose proof (Rinv_0_lt_compat _ Hf) as Hi.
  assert (Q : sqrt (x/2) < sqrt (y/2)) by (apply sqrt_lt_1_alt; lra).
  pose proof (sqrt_pos (x/2)).
  assert (A : forall a b, 0 <= a < b -> a * / FWHM_FAC < b * / FWHM_FAC) by (intros; nra).
  assert (A' : forall a, 0 <= a -> 0 <= a * / FWHM_FAC) by (intros; nra).
  pose proof (A x y H). pose proof (A' x ltac:(lra)).
  pose proof (A (2*x) (2*y) ltac:(lra)). pose proof (A' (2*x) ltac:(lra)).
  unfold fwhm_to_T, r50_to_T, T_to_fwhm, T_to_r50, r50_to_sigma, sigma_to_r50, fwhm_to_sigma, sigma_to_fwhm, Rdiv in *.
  repeat split; nra.
Qed.

(** ** C08 *)
Lemma mom2e_has_shape irr irc icc e1 e2 T :
  mom2e irr irc icc = Ok (e1,e2,T) -> has_shape (cov irr irc icc) e1 e2 T /\ T <> 0.
Proof.
  unfold mom2e, has_shape, trace2, cov; cbn [xx xy yy]. rcase; [discriminate|].
  intros E. injection E as <- <- <-. repeat split; try lra; field; lra.
Qed.

Lemma mom2e_raises irr irc icc :
  mom2e irr irc icc = Raise ZeroDivisionError <-> trace2 (cov irr irc icc) = 0.
Proof.
  unfold mom2e, trace2, cov; cbn. rcase; split; intros; try discriminate; auto; lra.
Qed.

Lemma e2mom_has_shape e1 e2 T irr irc icc :
  e2mom e1 e2 T = (irr,irc,icc) -> has_shape (cov irr irc icc) e1 e2 T.
Proof.
  unfold e2mom, has_shape, trace2, cov. intros E. injection E as <- <- <-. cbn. repeat split; field.
Qed.

Lemma mom2e_e2mom irr irc icc e1 e2 T :
  mom2e irr irc icc = Ok (e1,e2,T) -> e2mom e1 e2 T = (irr,irc,icc).
Proof.
  unfold mom2e, e2mom. rcase; [discriminate|]. intros E. injection E as <- <- <-.
  peq; field; lra.
Qed.

Lemma e2mom_mom2e e1 e2 T irr irc icc :
  T <> 0 -> e2mom e1 e2 T = (irr,irc,icc) -> mom2e irr irc icc = Ok (e1,e2,T).
Proof.
  unfold mom2e, e2mom. intros HT E. injection E as <- <- <-.
  replace ((1 - e1) * T / 2 + (1 + e1) * T / 2) with T by field.
  rewrite Reqb_f by exact HT. peq; try reflexivity; field; exact HT.
Qed.

Lemma posdef_iff_disk irr irc icc e1 e2 T :
  has_shape (cov irr irc icc) e1 e2 T -> 0 < T ->
  (posdef (cov irr irc icc) <-> in_disk (e1,e2)).
Proof.
  unfold has_shape, posdef, det2, trace2, cov, in_disk, cmod2; cbn [xx xy yy fst snd].
  intros (HT & H1 & H2) Tp.
  assert (D : 4 * (icc*irr - irc*irc) = T*T*(1-(e1*e1+e2*e2))).
  { transitivity (T*T - (e1*T)*(e1*T) - (e2*T)*(e2*T)); [rewrite H1, H2, HT; ring|ring]. }
  split.
  - intros [_ Hd]. assert (0 < T*T) by nra. nra.
  - intros Hd. assert (0 < T*T*(1-(e1*e1+e2*e2))).
    { apply Rmult_lt_0_compat; nra. }
    assert (0 < icc*irr) by nra. split; [|lra]. nra.
Qed.

(** g2mom through e2mom *)
Lemma g2mom_eq g1 g2 T :
  g2mom g1 g2 T = (let* (e1,e2) := g1g2_to_e1e2 g1 g2 in Ok (e2mom e1 e2 T)).
Proof. reflexivity. Qed.

Lemma mom2g_g2mom irr irc icc g1 g2 T :
  mom2g irr irc icc = Ok (g1,g2,T) -> g2mom g1 g2 T = Ok (irr,irc,icc).
Proof.
  unfold mom2g. destruct (mom2e irr irc icc) as [[[e1 e2] T']|] eqn:E; cbn [bind]; [|discriminate].
  destruct (e1e2_to_g1g2 e1 e2) as [[h1 h2]|] eqn:G; cbn [bind]; [|discriminate].
  intros H. injection H as <- <- <-. rewrite g2mom_eq.
  rewrite (e2g_g2e _ _ _ _ G). cbn [bind]. rewrite (mom2e_e2mom _ _ _ _ _ _ E). reflexivity.
Qed.

Lemma g2mom_mom2g g1 g2 T irr irc icc :
  T <> 0 -> g2mom g1 g2 T = Ok (irr,irc,icc) -> mom2g irr irc icc = Ok (g1,g2,T).
Proof.
  intros HT. rewrite g2mom_eq.
  destruct (g1g2_to_e1e2 g1 g2) as [[e1 e2]|] eqn:E; cbn [bind]; [|discriminate].
  intros H. unfold mom2g. destruct (e2mom e1 e2 T) as [[a b] c] eqn:M. injection H as <- <- <-.
  rewrite (e2mom_mom2e _ _ _ _ _ _ HT M). cbn [bind].
  rewrite (g2e_e2g _ _ _ _ E). reflexivity.
Qed.

Lemma g2mom_posdef g1 g2 T :
  0 < T -> in_disk (g1,g2) ->
  exists irr irc icc, g2mom g1 g2 T = Ok (irr,irc,icc) /\ posdef (cov irr irc icc) /\
     trace2 (cov irr irc icc) = T /\
     exists e1 e2, e_of_g (g1,g2) (e1,e2) /\ has_shape (cov irr irc icc) e1 e2 T.
Proof.
  intros HT Hd. destruct (g2e_spec _ _ Hd) as ([e1 e2] & E & S & De).
  rewrite g2mom_eq, E. cbn [bind]. destruct (e2mom e1 e2 T) as [[a b] c] eqn:M.
  exists a, b, c. pose proof (e2mom_has_shape _ _ _ _ _ _ M) as Hs.
  split; [reflexivity|]. split; [apply (posdef_iff_disk _ _ _ _ _ _ Hs HT); exact De|].
  split; [symmetry; apply Hs|]. exists e1, e2. auto.
Qed.

Lemma mom2g_defined irr irc icc :
  posdef (cov irr irc icc) -> exists g1 g2 T, mom2g irr irc icc = Ok (g1,g2,T) /\ 0 < T /\ in_disk (g1,g2).
Proof.
  intros Hp. assert (HT : 0 < irr + icc).
  { destruct Hp as [H1 H2]. unfold det2, cov in *; cbn in *.
    assert (0 < icc * irr) by nra. assert (0 < irr) by nra. lra. }
  assert (E : exists e1 e2, mom2e irr irc icc = Ok (e1,e2,irr+icc)).
  { unfold mom2e. rewrite Reqb_f by lra. eauto. }
  destruct E as (e1 & e2 & E). pose proof (mom2e_has_shape _ _ _ _ _ _ E) as [Hs _].
  assert (De : in_disk (e1,e2)) by (apply (posdef_iff_disk _ _ _ _ _ _ Hs HT); exact Hp).
  destruct (e2g_spec _ _ De) as ([g1 g2] & G & _ & Dg).
  exists g1, g2, (irr+icc). unfold mom2g. rewrite E; cbn [bind]. rewrite G. auto.
Qed.

Lemma moms_to_e1e2_spec M1 M2 T :
  (T <= 0 -> moms_to_e1e2 M1 M2 T = Raise GMixRangeError) /\
  (0 < T -> exists e1 e2, moms_to_e1e2 M1 M2 T = Ok (e1,e2) /\ e1 * T = M1 /\ e2 * T = M2).
Proof.
  unfold moms_to_e1e2. split; intros H.
  - rewrite Rleb_t by exact H. reflexivity.
  - rewrite Rleb_f by exact H. eexists _, _. split; [reflexivity|]. split; field; lra.
Qed.

Lemma moms_to_e1e2_arr_spec l :
  ((exists m, In m l /\ snd m <= 0) -> moms_to_e1e2_arr l = Raise GMixRangeError) /\
  ((forall m, In m l -> 0 < snd m) -> exists out, moms_to_e1e2_arr l = Ok out /\
     Forall2 (fun m e => moms_to_e1e2 (fst (fst m)) (snd (fst m)) (snd m) = Ok e) l out).
Proof.
  unfold moms_to_e1e2_arr. split.
  - intros (m & Hm & Hl).
    assert (E : existsb (fun m : R*R*R => Rleb (snd m) 0) l = true).
    { apply existsb_exists. exists m. rewrite Rleb_true. auto. }
    rewrite E. reflexivity.
  - intros H. destruct (existsb _ _) eqn:E.
    + exfalso. apply existsb_exists in E as (m & Hm & Hl). rewrite Rleb_true in Hl.
      specialize (H m Hm). lra.
    + eexists; split; [reflexivity|]. clear E. induction l as [|[[a b] c] l IH]; cbn [map]; constructor.
      * cbn [fst snd]. unfold moms_to_e1e2. rewrite Rleb_f; [reflexivity|].
        apply (H (a,b,c)). left; reflexivity.
      * apply IH. intros m Hm; apply H; right; exact Hm.
Qed.

(** ** C10 *)
Lemma gsq_eq g1 g2 : g1^2+g2^2 = cmod2 (g1,g2).
Proof. unfold cmod2; cbn; ring. Qed.

Lemma Tround_inv T g1 g2 : cmod2 (g1,g2) <> 1 -> get_T (get_Tround T g1 g2) g1 g2 = Ok T.
Proof.
  intros H. unfold get_T, get_Tround. rewrite gsq_eq.
  assert (0 <= cmod2 (g1,g2)) by (unfold cmod2; cbn; nra).
  rewrite Reqb_f by lra. f_equal. field. lra.
Qed.

Lemma T_Tround_inv Tr g1 g2 T : get_T Tr g1 g2 = Ok T -> get_Tround T g1 g2 = Tr.
Proof.
  unfold get_T, get_Tround. rewrite gsq_eq. rcase; [discriminate|].
  assert (0 <= cmod2 (g1,g2)) by (unfold cmod2; cbn; nra).
  intros E. injection E as <-. field. lra.
Qed.

Lemma Tround_le T g1 g2 : 0 < T -> in_disk (g1,g2) ->
  0 < get_Tround T g1 g2 <= T /\ (get_Tround T g1 g2 = T <-> (g1,g2) = czero).
Proof.
  intros HT Hd. unfold get_Tround. rewrite gsq_eq. unfold in_disk in Hd.
  set (p := cmod2 (g1,g2)) in *. assert (Hp : 0 <= p) by (unfold p, cmod2; cbn; nra).
  pose proof (Rinv_0_lt_compat (1+p) ltac:(lra)) as Hi.
  assert (E : T * (1-p)/(1+p) = T - 2*T*p/(1+p)) by (field; lra).
  assert (0 <= 2*T*p/(1+p)) by (unfold Rdiv; apply Rmult_le_pos; nra).
  split; [split|].
  - unfold Rdiv. apply Rmult_lt_0_compat; [nra|exact Hi].
  - lra.
  - rewrite pair0. rewrite E. split.
    + intros H0. assert (Z : 2*T*p/(1+p) = 0) by lra.
      unfold Rdiv in Z. apply Rmult_integral in Z as [Z|Z]; [|lra].
      apply sum_sq_0. change (p = 0). nra.
    + intros [-> ->]. assert (p = 0) by (unfold p, cmod2; cbn; ring). rewrite H0. field.
Qed.

Lemma round_factor_spec T g1 g2 : T * get_round_factor g1 g2 = get_Tround T g1 g2.
Proof. unfold get_round_factor, get_Tround, Rdiv. ring. Qed.

Lemma Tround_det irr irc icc g1 g2 T :
  posdef (cov irr irc icc) -> mom2g irr irc icc = Ok (g1,g2,T) ->
  get_Tround T g1 g2 = 2 * sqrt (det2 (cov irr irc icc)).
Proof.
  intros Hp H. destruct (mom2g_defined _ _ _ Hp) as (a & b & c & E & HT & Hd).
  rewrite H in E. injection E as <- <- <-.
  apply mom2g_g2mom in H. rewrite g2mom_eq in H.
  destruct (g2e_spec _ _ Hd) as ([e1 e2] & E & [S1 S2] & De). rewrite E in H. cbn [bind] in H.
  unfold e2mom in H. injection H as H1 H2 H3.
  unfold get_Tround. rewrite gsq_eq. unfold in_disk in Hd. cbn [fst snd] in S1, S2.
  set (p := cmod2 (g1,g2)) in *. assert (Hpp : 0 <= p) by (unfold p, cmod2; cbn; nra).
  assert (E1 : e1 = 2*g1/(1+p)) by (apply Rmult_eq_reg_r with (1+p); [rewrite S1; field; lra|lra]).
  assert (E2 : e2 = 2*g2/(1+p)) by (apply Rmult_eq_reg_r with (1+p); [rewrite S2; field; lra|lra]).
  assert (D : det2 (cov irr irc icc) = (T*(1-p)/(1+p)/2)*(T*(1-p)/(1+p)/2)).
  { unfold det2, cov; cbn [xx xy yy]. rewrite <- H1, <- H2, <- H3.
    transitivity (T*T/4*(1-(e1*e1+e2*e2))); [field|].
    replace (e1*e1+e2*e2) with (4*p/((1+p)*(1+p))).
    - field; lra.
    - rewrite E1, E2. unfold p at 1, cmod2; cbn [fst snd]. field. lra. }
  rewrite D, sqrt_square; [field; lra|].
  pose proof (Rinv_0_lt_compat (1+p) ltac:(lra)). unfold Rdiv.
  apply Rmult_le_pos; [|lra]. apply Rmult_le_pos; [nra|lra].
Qed.

(** ** C09 *)
Lemma shear_T g1 g2 s1 s2 z1 z2 T :
  in_disk (g1,g2) -> in_disk (s1,s2) -> 
  shear_reduced g1 g2 s1 s2 = Ok (z1,z2) ->
  let p := g1*g1+g2*g2 in let q := s1*s1+s2*s2 in
  exists Ts, get_T (get_Tround T g1 g2) z1 z2 = Ok Ts /\
   Ts = T/(1+p) * (1+p+q+p*q+4*(g1*s1+g2*s2)) / (1-q) /\
   2*z1/(1+(z1*z1+z2*z2)) * Ts = T/(1+p) * 2*((1+g1*s1+g2*s2)*(g1+s1)+(g2*s1-g1*s2)*(g2+s2)) / (1-q) /\
   2*z2/(1+(z1*z1+z2*z2)) * Ts = T/(1+p) * 2*((1+g1*s1+g2*s2)*(g2+s2)-(g2*s1-g1*s2)*(g1+s1)) / (1-q).
Proof.
  intros Hg Hs Hz p q.
  pose proof (shear_in_disk _ _ _ _ _ Hg Hs Hz) as Dz.
  pose proof (shear_modulus _ _ _ _ _ Hz) as HM.
  pose proof (denom_pos _ _ _ _ Hg Hs) as HA.
  set (A := 1+g1*s1+g2*s2) in *. set (B := g2*s1-g1*s2) in *.
  assert (DD : 0 < A*A+B*B) by (pose proof (sqr_le_0 B); nra).
  assert (HD : cmod2 (cadd cone (cmul (cconj (s1,s2)) (g1,g2))) = A*A+B*B).
  { unfold cmod2, cadd, cone, cmul, cconj, A, B; cbn [fst snd]; ring. }
  rewrite HD in HM. unfold in_disk, cmod2 in *; cbn [fst snd] in *. fold p in HM, Hg. fold q in HM, Hs.
  rewrite (shear_reduced_eq g1 g2 s1 s2) in Hz by (fold A B; lra). fold A in Hz. fold B in Hz.
  set (D := A*A+B*B) in *. injection Hz as Z1 Z2.
  set (r := z1*z1+z2*z2) in *.
  assert (Hp : 0 <= p) by (unfold p; nra). assert (Hr : 0 <= r) by (unfold r; nra).
  assert (Hq : 0 <= q) by (unfold q; nra).
  assert (R1 : 1 - r = (1-p)*(1-q)/D) by (apply Rmult_eq_reg_r with D; [rewrite HM; field; lra|lra]).
  assert (R2 : 1 + r = (2*D-(1-p)*(1-q))/D) by (replace (1+r) with (2-(1-r)) by ring; rewrite R1; field; lra).
  assert (HDq : 2*D - (1-p)*(1-q) = 1+p+q+p*q+4*(g1*s1+g2*s2)) by (unfold D, A, B, p, q; ring).
  unfold get_T, get_Tround. rewrite !gsq_eq. unfold cmod2; cbn [fst snd]. fold p r.
  rewrite Reqb_f by lra. eexists; split; [reflexivity|].
  assert (X : 2*D-(1-p)*(1-q) <> 0).
  { intros C. rewrite C in R2. unfold Rdiv in R2. lra. }
  rewrite R1, R2. split; [rewrite <- HDq; field; lra|].
  rewrite <- Z1, <- Z2. split; field; repeat split; lra.
Qed.

Lemma disk_nz s1 s2 : in_disk (s1,s2) -> 1 - s1*s1 - s2*s2 <> 0.
Proof. unfold in_disk, cmod2; cbn. lra. Qed.

Lemma sheared_moments_eq irr irc icc s1 s2 :
  posdef (cov irr irc icc) -> in_disk (s1,s2) ->
  exists a b c, get_sheared_moments irr irc icc s1 s2 = Ok (a,b,c) /\
    cov a b c = sheared s1 s2 (cov irr irc icc).
Proof.
  intros Hp Hs. destruct (mom2g_defined _ _ _ Hp) as (g1 & g2 & T & E & HT & Hg).
  unfold get_sheared_moments. rewrite E. cbn [bind].
  destruct (shear_total _ _ _ _ Hg Hs) as [[z1 z2] Hz].
  pose proof (shear_in_disk _ _ _ _ _ Hg Hs Hz) as Dz.
  destruct (shear_T _ _ _ _ _ _ T Hg Hs Hz) as (Ts & ETs & V0 & V1 & V2).
  unfold get_sheared_g1g2T. rewrite Hz. cbn [bind]. rewrite ETs. cbn [bind].
  rewrite g2mom_eq, (g2e_eq _ _ Dz). cbn [bind]. unfold e2mom.
  eexists _, _, _. split; [reflexivity|].
  apply mom2g_g2mom in E. rewrite g2mom_eq, (g2e_eq _ _ Hg) in E. cbn [bind] in E.
  unfold e2mom in E. injection E as <- <- <-.
  pose proof (disk_nz _ _ Hs) as Hq.
  unfold cov, sheared, scale2, conj2; cbn [xx xy yy].
  set (w := 2*z1/(1+(z1*z1+z2*z2))) in *. set (x := 2*z2/(1+(z1*z1+z2*z2))) in *.
  assert (0 < 1+(g1*g1+g2*g2)) by nra.
  f_equal.
  - replace ((1 + w) * Ts / 2) with ((Ts + w*Ts)/2) by field. rewrite V1, V0. field. lra.
  - replace (x * Ts / 2) with ((x*Ts)/2) by field. rewrite V2. field. lra.
  - replace ((1 - w) * Ts / 2) with ((Ts - w*Ts)/2) by field. rewrite V1, V0. field. lra.
Qed.

Lemma sheared_det s1 s2 m : in_disk (s1,s2) -> det2 (sheared s1 s2 m) = det2 m.
Proof.
  intros H. pose proof (disk_nz _ _ H). unfold det2, sheared, scale2, conj2; cbn [xx xy yy]. field. lra.
Qed.

Lemma sheared_M1M2T_eq M1 M2 T s1 s2 :
  0 < T -> M1*M1 + M2*M2 < T*T -> in_disk (s1,s2) ->
  exists M1s M2s Ts, get_sheared_M1M2T M1 M2 T s1 s2 = Ok (M1s,M2s,Ts) /\
    let m := sheared s1 s2 (mkSym ((T+M1)/2) (M2/2) ((T-M1)/2)) in
    M1s = xx m - yy m /\ M2s = 2 * xy m /\ Ts = xx m + yy m.
Proof.
  intros HT HM Hs. unfold get_sheared_M1M2T, moms_to_e1e2. rewrite Rleb_f by exact HT. cbn [bind].
  assert (De : in_disk (M1*(1/T), M2*(1/T))).
  { unfold in_disk, cmod2; cbn [fst snd]. apply Rmult_lt_reg_r with (T*T); [nra|].
    replace ((M1*(1/T)*(M1*(1/T))+M2*(1/T)*(M2*(1/T)))*(T*T)) with (M1*M1+M2*M2) by (field; lra). lra. }
  destruct (e2g_spec _ _ De) as ([g1 g2] & E & [S1 S2] & Hg). rewrite E; cbn [bind].
  destruct (shear_total _ _ _ _ Hg Hs) as [[z1 z2] Hz].
  pose proof (shear_in_disk _ _ _ _ _ Hg Hs Hz) as Dz.
  destruct (shear_T _ _ _ _ _ _ T Hg Hs Hz) as (Ts & ETs & V0 & V1 & V2).
  rewrite Hz; cbn [bind]. rewrite ETs; cbn [bind]. rewrite (g2e_eq _ _ Dz). cbn [bind].
  eexists _, _, _; split; [reflexivity|]. cbv zeta.
  cbn [fst snd] in S1, S2. unfold cmod2 in S1, S2; cbn [fst snd] in S1, S2.
  assert (Hpos : 0 < 1+(g1*g1+g2*g2)) by nra.
  assert (F1 : M1 = T * (2*g1/(1+(g1*g1+g2*g2)))).
  { apply Rmult_eq_reg_r with (1+(g1*g1+g2*g2)); [|lra].
    transitivity (T*(M1*(1/T)*(1+(g1*g1+g2*g2)))); [field; lra|]. rewrite S1. field. lra. }
  assert (F2 : M2 = T * (2*g2/(1+(g1*g1+g2*g2)))).
  { apply Rmult_eq_reg_r with (1+(g1*g1+g2*g2)); [|lra].
    transitivity (T*(M2*(1/T)*(1+(g1*g1+g2*g2)))); [field; lra|]. rewrite S2. field. lra. }
  pose proof (disk_nz _ _ Hs) as Hq.
  unfold sheared, scale2, conj2; cbn [xx xy yy].
  rewrite (Rmult_comm Ts), V1, (Rmult_comm Ts), V2, V0. clear S1 S2 De E HM V0 V1 V2 ETs Hz.
  rewrite F1, F2. repeat split; field; lra.
Qed.

Lemma sheared_moments_shape irr irc icc s1 s2 g1 g2 T z1 z2 :
  posdef (cov irr irc icc) -> in_disk (s1,s2) ->
  mom2g irr irc icc = Ok (g1,g2,T) -> shear_reduced g1 g2 s1 s2 = Ok (z1,z2) ->
  exists a b c Ts, get_sheared_moments irr irc icc s1 s2 = Ok (a,b,c) /\
     mom2g a b c = Ok (z1,z2,Ts).
Proof.
  intros Hp Hs E Hz.
  destruct (mom2g_defined _ _ _ Hp) as (g1' & g2' & T' & E' & HT & Hg).
  rewrite E in E'. injection E' as <- <- <-.
  destruct (shear_T _ _ _ _ _ _ T Hg Hs Hz) as (Ts & ETs & V0 & V1 & V2).
  pose proof (shear_in_disk _ _ _ _ _ Hg Hs Hz) as Dz.
  assert (HTs : Ts <> 0).
  { intros C. rewrite C in ETs. pose proof (T_Tround_inv _ _ _ _ ETs) as Z.
    pose proof (proj1 (Tround_le T g1 g2 HT Hg)) as [P _].
    rewrite <- Z in P. unfold get_Tround in P.
    replace (0*(1-(z1^2+z2^2))/(1+(z1^2+z2^2))) with 0 in P; [lra|]. unfold Rdiv; ring. }
  unfold get_sheared_moments. rewrite E; cbn [bind].
  unfold get_sheared_g1g2T. rewrite Hz. cbn [bind]. rewrite ETs. cbn [bind].
  destruct (g2mom z1 z2 Ts) as [[[a b] c]|x] eqn:M.
  - exists a, b, c, Ts. split; [reflexivity|]. apply g2mom_mom2g; assumption.
  - exfalso. rewrite g2mom_eq, (g2e_eq _ _ Dz) in M. discriminate.
Qed.

Lemma sheared_moments_zero irr irc icc :
  posdef (cov irr irc icc) -> get_sheared_moments irr irc icc 0 0 = Ok (irr,irc,icc).
Proof.
  intros Hp. destruct (sheared_moments_eq irr irc icc 0 0 Hp) as (a & b & c & E & H).
  - unfold in_disk, cmod2; cbn; lra.
  - rewrite E. unfold cov, sheared, scale2, conj2 in H; cbn [xx xy yy] in H.
    injection H as H1 H2 H3. f_equal. f_equal; [f_equal|]; [rewrite H3|rewrite H2|rewrite H1]; field.
Qed.
