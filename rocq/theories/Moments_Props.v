(** Properties C07-C10. *)
From Verif Require Import Base Shape_Model Shape_Spec Shape_Proofs Moments_Model Moments_Spec Moments_Proofs.

(** C07 *)
Theorem C07_sigma_inverses : forall x,
  (fwhm_to_sigma (sigma_to_fwhm x) = x /\ sigma_to_fwhm (fwhm_to_sigma x) = x) /\
  (r50_to_sigma (sigma_to_r50 x) = x /\ sigma_to_r50 (r50_to_sigma x) = x).
Proof. exact (fun x => conj (fwhm_sigma_inv x) (r50_sigma_inv x)). Qed.
Print Assumptions C07_sigma_inverses.

Theorem C07_T_inverses : forall x, 0 <= x ->
  T_to_fwhm (fwhm_to_T x) = x /\ fwhm_to_T (T_to_fwhm x) = x /\
  T_to_r50 (r50_to_T x) = x /\ r50_to_T (T_to_r50 x) = x.
Proof. exact T_fwhm_inv. Qed.
Print Assumptions C07_T_inverses.

(** T is 2 sigma^2, r50 is half the fwhm *)
Theorem C07_meaning : forall s, 0 <= s ->
  T_to_fwhm (2*s^2) = sigma_to_fwhm s /\ fwhm_to_T (sigma_to_fwhm s) = 2*s^2 /\
  T_to_r50 (2*s^2) = sigma_to_r50 s /\ r50_to_T (sigma_to_r50 s) = 2*s^2 /\
  sigma_to_r50 s = sigma_to_fwhm s / 2 /\ r50_to_sigma (sigma_to_fwhm s / 2) = s.
Proof. exact size_meaning. Qed.
Print Assumptions C07_meaning.

Theorem C07_scaling : forall k x,
  sigma_to_fwhm (k*x) = k * sigma_to_fwhm x /\ fwhm_to_sigma (k*x) = k * fwhm_to_sigma x /\
  r50_to_sigma (k*x) = k * r50_to_sigma x /\ sigma_to_r50 (k*x) = k * sigma_to_r50 x /\
  fwhm_to_T (k*x) = k^2 * fwhm_to_T x /\ r50_to_T (k*x) = k^2 * r50_to_T x /\
  (0 <= k -> T_to_fwhm (k^2*x) = k * T_to_fwhm x) /\
  (0 <= k -> T_to_r50 (k^2*x) = k * T_to_r50 x).
Proof. exact size_scaling. Qed.
Print Assumptions C07_scaling.

Theorem C07_order_preserving : forall x y, 0 <= x < y ->
  sigma_to_fwhm x < sigma_to_fwhm y /\ fwhm_to_sigma x < fwhm_to_sigma y /\
  r50_to_sigma x < r50_to_sigma y /\ sigma_to_r50 x < sigma_to_r50 y /\
  fwhm_to_T x < fwhm_to_T y /\ r50_to_T x < r50_to_T y /\
  T_to_fwhm x < T_to_fwhm y /\ T_to_r50 x < T_to_r50 y.
Proof. exact size_monotone. Qed.
Print Assumptions C07_order_preserving.

(** C08 *)
Theorem C08_mom2e_meaning : forall irr irc icc e1 e2 T,
  mom2e irr irc icc = Ok (e1,e2,T) -> has_shape (cov irr irc icc) e1 e2 T /\ T <> 0.
Proof. exact mom2e_has_shape. Qed.
Print Assumptions C08_mom2e_meaning.

Theorem C08_mom2e_raises : forall irr irc icc,
  mom2e irr irc icc = Raise ZeroDivisionError <-> trace2 (cov irr irc icc) = 0.
Proof. exact mom2e_raises. Qed.
Print Assumptions C08_mom2e_raises.

Theorem C08_e2mom_meaning : forall e1 e2 T irr irc icc,
  e2mom e1 e2 T = (irr,irc,icc) -> has_shape (cov irr irc icc) e1 e2 T.
Proof. exact e2mom_has_shape. Qed.
Print Assumptions C08_e2mom_meaning.

Theorem C08_roundtrip_e : forall e1 e2 T irr irc icc, T <> 0 ->
  (mom2e irr irc icc = Ok (e1,e2,T) <-> e2mom e1 e2 T = (irr,irc,icc)).
Proof. exact (fun e1 e2 T a b c H => conj (mom2e_e2mom a b c e1 e2 T) (e2mom_mom2e e1 e2 T a b c H)). Qed.
Print Assumptions C08_roundtrip_e.

Theorem C08_roundtrip_g : forall g1 g2 T irr irc icc, T <> 0 ->
  (mom2g irr irc icc = Ok (g1,g2,T) <-> g2mom g1 g2 T = Ok (irr,irc,icc)).
Proof. exact (fun g1 g2 T a b c H => conj (mom2g_g2mom a b c g1 g2 T) (g2mom_mom2g g1 g2 T a b c H)). Qed.
Print Assumptions C08_roundtrip_g.

Theorem C08_g2mom_positive_definite : forall g1 g2 T, 0 < T -> in_disk (g1,g2) ->
  exists irr irc icc, g2mom g1 g2 T = Ok (irr,irc,icc) /\ posdef (cov irr irc icc) /\
     trace2 (cov irr irc icc) = T /\
     exists e1 e2, e_of_g (g1,g2) (e1,e2) /\ has_shape (cov irr irc icc) e1 e2 T.
Proof. exact g2mom_posdef. Qed.
Print Assumptions C08_g2mom_positive_definite.

Theorem C08_positive_definite_iff_disk : forall irr irc icc e1 e2 T,
  has_shape (cov irr irc icc) e1 e2 T -> 0 < T ->
  (posdef (cov irr irc icc) <-> in_disk (e1,e2)).
Proof. exact posdef_iff_disk. Qed.
Print Assumptions C08_positive_definite_iff_disk.

Theorem C08_mom2g_defined : forall irr irc icc, posdef (cov irr irc icc) ->
  exists g1 g2 T, mom2g irr irc icc = Ok (g1,g2,T) /\ 0 < T /\ in_disk (g1,g2).
Proof. exact mom2g_defined. Qed.
Print Assumptions C08_mom2g_defined.

Theorem C08_nonpositive_T_raises : forall M1 M2 T,
  (T <= 0 -> moms_to_e1e2 M1 M2 T = Raise GMixRangeError) /\
  (0 < T -> exists e1 e2, moms_to_e1e2 M1 M2 T = Ok (e1,e2) /\ e1 * T = M1 /\ e2 * T = M2).
Proof. exact moms_to_e1e2_spec. Qed.
Print Assumptions C08_nonpositive_T_raises.

Theorem C08_nonpositive_T_raises_arrays : forall l,
  ((exists m, In m l /\ snd m <= 0) -> moms_to_e1e2_arr l = Raise GMixRangeError) /\
  ((forall m, In m l -> 0 < snd m) -> exists out, moms_to_e1e2_arr l = Ok out /\
     Forall2 (fun m e => moms_to_e1e2 (fst (fst m)) (snd (fst m)) (snd m) = Ok e) l out).
Proof. exact moms_to_e1e2_arr_spec. Qed.
Print Assumptions C08_nonpositive_T_raises_arrays.

Example C08_hypotheses_hold :
  in_disk (1/10, -2/10) /\ 0 < 4 /\ posdef (cov 2 (1/2) 3) /\
  has_shape (cov 2 (1/2) 3) (1/5) (1/5) 5.
Proof.
  unfold in_disk, cmod2, posdef, det2, has_shape, trace2, cov; cbn. repeat split; lra.
Qed.

(** C09 *)
Theorem C09_sheared_moments_matrix : forall irr irc icc s1 s2,
  posdef (cov irr irc icc) -> in_disk (s1,s2) ->
  exists a b c, get_sheared_moments irr irc icc s1 s2 = Ok (a,b,c) /\
    cov a b c = sheared s1 s2 (cov irr irc icc).
Proof. exact sheared_moments_eq. Qed.
Print Assumptions C09_sheared_moments_matrix.

Theorem C09_sheared_M1M2T_matrix : forall M1 M2 T s1 s2,
  0 < T -> M1*M1 + M2*M2 < T*T -> in_disk (s1,s2) ->
  exists M1s M2s Ts, get_sheared_M1M2T M1 M2 T s1 s2 = Ok (M1s,M2s,Ts) /\
    let m := sheared s1 s2 (mkSym ((T+M1)/2) (M2/2) ((T-M1)/2)) in
    M1s = xx m - yy m /\ M2s = 2 * xy m /\ Ts = xx m + yy m.
Proof. exact sheared_M1M2T_eq. Qed.
Print Assumptions C09_sheared_M1M2T_matrix.

Theorem C09_sheared_shape : forall irr irc icc s1 s2 g1 g2 T z1 z2,
  posdef (cov irr irc icc) -> in_disk (s1,s2) ->
  mom2g irr irc icc = Ok (g1,g2,T) -> shear_reduced g1 g2 s1 s2 = Ok (z1,z2) ->
  exists a b c Ts, get_sheared_moments irr irc icc s1 s2 = Ok (a,b,c) /\
     mom2g a b c = Ok (z1,z2,Ts).
Proof. exact sheared_moments_shape. Qed.
Print Assumptions C09_sheared_shape.

Theorem C09_determinant_preserved : forall s1 s2 m,
  in_disk (s1,s2) -> det2 (sheared s1 s2 m) = det2 m.
Proof. exact sheared_det. Qed.
Print Assumptions C09_determinant_preserved.

Theorem C09_zero_shear_identity : forall irr irc icc,
  posdef (cov irr irc icc) -> get_sheared_moments irr irc icc 0 0 = Ok (irr,irc,icc).
Proof. exact sheared_moments_zero. Qed.
Print Assumptions C09_zero_shear_identity.

Example C09_hypotheses_hold :
  posdef (cov 2 (1/2) 3) /\ in_disk (2/10, -3/10) /\ 1*1 + (1/2)*(1/2) < 5*5 /\
  exists g1 g2 T, mom2g 2 (1/2) 3 = Ok (g1,g2,T).
Proof.
  assert (P : posdef (cov 2 (1/2) 3)) by (unfold posdef, det2, cov; cbn; lra).
  repeat split; try apply P; try (unfold in_disk, cmod2; cbn; lra); try lra.
  destruct (mom2g_defined _ _ _ P) as (a & b & c & H & _). exists a, b, c. exact H.
Qed.

(** C10 *)
Theorem C10_T_of_Tround : forall T g1 g2,
  cmod2 (g1,g2) <> 1 -> get_T (get_Tround T g1 g2) g1 g2 = Ok T.
Proof. exact Tround_inv. Qed.
Print Assumptions C10_T_of_Tround.

Theorem C10_Tround_of_T : forall Tr g1 g2 T, get_T Tr g1 g2 = Ok T -> get_Tround T g1 g2 = Tr.
Proof. exact T_Tround_inv. Qed.
Print Assumptions C10_Tround_of_T.

Theorem C10_Tround_smaller : forall T g1 g2, 0 < T -> in_disk (g1,g2) ->
  0 < get_Tround T g1 g2 <= T /\ (get_Tround T g1 g2 = T <-> (g1,g2) = czero).
Proof. exact Tround_le. Qed.
Print Assumptions C10_Tround_smaller.

(** the round size is the size of the round object with the same area *)
Theorem C10_Tround_is_area : forall irr irc icc g1 g2 T,
  posdef (cov irr irc icc) -> mom2g irr irc icc = Ok (g1,g2,T) ->
  get_Tround T g1 g2 = 2 * sqrt (det2 (cov irr irc icc)).
Proof. exact Tround_det. Qed.
Print Assumptions C10_Tround_is_area.

Theorem C10_round_factor : forall T g1 g2, T * get_round_factor g1 g2 = get_Tround T g1 g2.
Proof. exact round_factor_spec. Qed.
Print Assumptions C10_round_factor.

Example C10_hypotheses_hold : cmod2 (1/2, 1/2) <> 1 /\ in_disk (1/2, 1/2) /\
  exists T, get_T 3 (1/2) (1/2) = Ok T.
Proof.
  split; [unfold cmod2; cbn; lra|]. split; [unfold in_disk, cmod2; cbn; lra|].
  unfold get_T. rewrite Reqb_f by lra. eauto.
Qed.
