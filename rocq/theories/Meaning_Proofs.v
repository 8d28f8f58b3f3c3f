From Verif Require Import Base Shape_Model Shape_Spec Shape_Proofs Moments_Model Moments_Spec Moments_Proofs
  GaussMom_Proofs Meaning_Spec.
Local Open Scope R_scope.

Lemma profile_derive s r : s <> 0 -> derivable_pt_lim (fun r => 1 - profile s r) r (r / (s * s) * profile s r).
Proof.
  intros H. unfold profile.
  replace (r / (s * s) * exp (- (r * r) / (2 * (s * s)))) with (0 - exp (- (r * r) / (2 * (s * s))) * (- (1 * r + r * 1) / (2 * (s * s)))) by (field; exact H).
  apply derivable_pt_lim_minus; [apply derivable_pt_lim_const|].
  apply (derivable_pt_lim_comp (fun r => - (r * r) / (2 * (s * s))) exp); [|apply derivable_pt_lim_exp].
  replace (- (1 * r + r * 1) / (2 * (s * s))) with ((/ (2 * (s * s))) * (- (1 * r + r * 1))) by (field; exact H).
  assert (E : forall f g x l, (forall x, f x = g x) -> derivable_pt_lim f x l -> derivable_pt_lim g x l).
  { intros f g x l E D eps P. destruct (D eps P) as [d Q]. exists d. intros h A B. rewrite <- !E. exact (Q h A B). }
  apply (E (mult_real_fct (/ (2 * (s * s))) (fun r => - (r * r)))).
  { intros x. unfold mult_real_fct. field. exact H. }
  apply derivable_pt_lim_scal. apply (derivable_pt_lim_opp (fun r => r * r)).
  apply (derivable_pt_lim_mult id id); apply derivable_pt_lim_id.
Qed.

Lemma enclosed_eq s F r : s <> 0 -> enclosed s F -> 0 <= r -> F r = 1 - profile s r.
Proof.
  intros H [Z D] [Hr|<-].
  2:{ rewrite Z. unfold profile. replace (- (0 * 0) / (2 * (s * s))) with 0 by (field; exact H). rewrite exp_0. lra. }
  assert (DD : forall c, 0 <= c <= r -> derivable_pt_lim (fun r => F r - (1 - profile s r)) c 0).
  { intros c [C _]. replace 0 with (2 * PI * c * (profile s c / (2 * PI * (s * s))) - c / (s * s) * profile s c).
    2:{ field. split; [exact H|]. apply PI_neq0. }
    apply derivable_pt_lim_minus; [exact (D c C)|exact (profile_derive s c H)]. }
  destruct (MVT_cor2 _ (fun _ => 0) 0 r Hr DD) as (c & E & _).
  rewrite Z in E. unfold profile in E at 2. replace (- (0 * 0) / (2 * (s * s))) with 0 in E by (field; exact H).
  rewrite exp_0 in E. lra.
Qed.

Lemma half_at_fwhm s : s <> 0 -> Rabs (profile s (sigma_to_fwhm s / 2) - 1 / 2 * profile s 0) <= / 10 ^ 9.
Proof.
  intros H. assert (Z : profile s 0 = 1).
  { unfold profile. replace (- (0 * 0) / (2 * (s * s))) with 0 by (field; exact H). apply exp_0. }
  rewrite Z, Rmult_1_r.
  assert (E : profile s (sigma_to_fwhm s / 2) = exp (- (FWHM_FAC * FWHM_FAC / 8))).
  { unfold profile, sigma_to_fwhm. f_equal. field. exact H. }
  rewrite E. exact half_exp.
Qed.

Lemma half_in_r50 s F : 0 < s -> enclosed s F -> Rabs (F (sigma_to_r50 s) - 1 / 2) <= / 10 ^ 9.
Proof.
  intros H E. destruct (size_meaning s (Rlt_le _ _ H)) as (_ & _ & _ & _ & R5 & _).
  assert (P : 0 <= sigma_to_r50 s).
  { rewrite R5. unfold sigma_to_fwhm. pose proof fac_pos. assert (0 < s * FWHM_FAC) by (apply Rmult_lt_0_compat; assumption). lra. }
  rewrite (enclosed_eq s F) by (try exact E; try exact P; lra).
  rewrite R5. pose proof (half_at_fwhm s) as A.
  assert (Z : profile s 0 = 1).
  { unfold profile. replace (- (0 * 0) / (2 * (s * s))) with 0 by (field; lra). apply exp_0. }
  rewrite Z in A. specialize (A ltac:(lra)).
  apply Rabs_le. revert A. unfold Rabs. destruct (Rcase_abs _); lra.
Qed.

Lemma enclosed_exists s : s <> 0 -> enclosed s (fun r => 1 - profile s r).
Proof.
  intros H. split.
  - unfold profile. replace (- (0 * 0) / (2 * (s * s))) with 0 by (field; exact H). rewrite exp_0. lra.
  - intros r _. replace (2 * PI * r * (profile s r / (2 * PI * (s * s)))) with (r / (s * s) * profile s r)
      by (field; split; [exact H|apply PI_neq0]). exact (profile_derive s r H).
Qed.

(** the turned object *)
Lemma e2g_turned e1 e2 g1 g2 t : e1e2_to_g1g2 e1 e2 = Ok (g1, g2) ->
  e1e2_to_g1g2 (fst (rotate_shape e1 e2 t)) (snd (rotate_shape e1 e2 t)) = Ok (rotate_shape g1 g2 t).
Proof.
  unfold e1e2_to_g1g2. pose proof (rotate_shape_mod e1 e2 t) as M. unfold cmod2 in M. cbn [fst snd] in M. rewrite M.
  set (e := sqrt (e1 * e1 + e2 * e2)). destruct (Rleb 1 e); [discriminate|].
  destruct (Reqb e 0).
  - intros H. injection H as <- <-. unfold rotate_shape. cbv zeta. f_equal. f_equal; ring.
  - cbv zeta. set (k := _ / e). intros H. injection H as <- <-. unfold rotate_shape. cbv zeta. cbn [fst snd]. f_equal. f_equal; ring.
Qed.
Lemma turned irr irc icc g1 g2 T t irr' irc' icc' :
  mom2g irr irc icc = Ok (g1, g2, T) ->
  cov irr' irc' icc' = conj2 (cos t) (sin t) (- sin t) (cos t) (cov irr irc icc) ->
  mom2g irr' irc' icc' = Ok (fst (rotate_shape g1 g2 t), snd (rotate_shape g1 g2 t), T).
Proof.
  unfold mom2g, mom2e, cov, conj2. cbn [xx xy yy]. intros H E. injection E as A B C.
  pose proof (sin2_cos2 t) as Q. unfold Rsqr in Q.
  assert (TT : irr' + icc' = irr + icc).
  { rewrite A, C. transitivity ((sin t * sin t + cos t * cos t) * (irr + icc)); [ring|rewrite Q; ring]. }
  rewrite TT. destruct (Reqb (irr + icc) 0) eqn:Z; [discriminate|]. apply Reqb_false in Z. cbn [bind] in *.
  destruct (e1e2_to_g1g2 ((icc - irr) / (irr + icc)) (2 * irc / (irr + icc))) as [[h1 h2]|x] eqn:G; cbn [bind] in H; [|discriminate].
  injection H as -> -> <-. apply (e2g_turned _ _ _ _ t) in G.
  assert (E1 : (icc' - irr') / (irr + icc) = fst (rotate_shape ((icc - irr) / (irr + icc)) (2 * irc / (irr + icc)) t)).
  { unfold rotate_shape. cbv zeta. cbn [fst]. rewrite cos_2a, sin_2a. rewrite A, C. field. exact Z. }
  assert (E2 : 2 * irc' / (irr + icc) = snd (rotate_shape ((icc - irr) / (irr + icc)) (2 * irc / (irr + icc)) t)).
  { unfold rotate_shape. cbv zeta. cbn [snd]. rewrite cos_2a, sin_2a. rewrite B. field. exact Z. }
  rewrite E1, E2, G. cbn [bind]. destruct (rotate_shape g1 g2 t). reflexivity.
Qed.
