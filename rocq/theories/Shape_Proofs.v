(** Lemmas about the shape model. *)
From Verif Require Import Base Shape_Model Shape_Spec.

Lemma sum_sq_0 a b : a * a + b * b = 0 -> a = 0 /\ b = 0.
Proof. intros H; split; nra. Qed.

(** ** shear_reduced and the Moebius map *)

Lemma shear_reduced_eq g1 g2 s1 s2 :
  let A := 1 + g1 * s1 + g2 * s2 in
  let B := g2 * s1 - g1 * s2 in
  A * A + B * B <> 0 ->
  shear_reduced g1 g2 s1 s2 =
  Ok ((A * (g1 + s1) + B * (g2 + s2)) / (A * A + B * B),
      (A * (g2 + s2) - B * (g1 + s1)) / (A * A + B * B)).
Proof.
  intros A B H. unfold shear_reduced. fold A. fold B.
  rewrite Reqb_f by exact H. f_equal. f_equal; field; exact H.
Qed.

Lemma shear_reduced_raise g1 g2 s1 s2 :
  let A := 1 + g1 * s1 + g2 * s2 in
  let B := g2 * s1 - g1 * s2 in
  A * A + B * B = 0 -> shear_reduced g1 g2 s1 s2 = Raise ZeroDivisionError.
Proof. intros A B H. unfold shear_reduced. fold A. fold B. rewrite Reqb_t by exact H. reflexivity. Qed.

Lemma denom_zero_iff (g1 g2 s1 s2 : R) :
  cadd cone (cmul (cconj (s1,s2)) (g1,g2)) = czero <->
  (1 + g1 * s1 + g2 * s2) * (1 + g1 * s1 + g2 * s2) +
  (g2 * s1 - g1 * s2) * (g2 * s1 - g1 * s2) = 0.
Proof.
  unfold cadd, cone, cmul, cconj, czero; cbn [fst snd]. split.
  - intros H; injection H as H1 H2. 
    replace (1 + g1*s1 + g2*s2) with 0 by lra. replace (g2*s1 - g1*s2) with 0 by lra. ring.
  - intros H. apply sum_sq_0 in H as [H1 H2]. f_equal; lra.
Qed.

Lemma shear_moebius_iff g1 g2 s1 s2 z :
  shear_reduced g1 g2 s1 s2 = Ok z <-> moebius (g1,g2) (s1,s2) z.
Proof.
  set (A := 1 + g1 * s1 + g2 * s2). set (B := g2 * s1 - g1 * s2).
  destruct (Req_dec (A * A + B * B) 0) as [H0|H0].
  - rewrite shear_reduced_raise by exact H0. split; [discriminate|].
    intros [Hn _]. exfalso. apply Hn. apply denom_zero_iff. exact H0.
  - rewrite shear_reduced_eq by exact H0. fold A. fold B. unfold moebius. split.
    + intros H. injection H as <-. split.
      * intros E. apply H0. apply denom_zero_iff in E. exact E.
      * unfold cmul, cadd, cone, cconj; cbn [fst snd].
        f_equal; unfold A, B in *; field; exact H0.
    + intros [_ Hm]. destruct z as [z1 z2].
      unfold cmul, cadd, cone, cconj in Hm; cbn [fst snd] in Hm.
      injection Hm as H1 H2. f_equal.
      assert (E1 : z1 * A - z2 * B = g1 + s1) by (unfold A, B; lra).
      assert (E2 : z1 * B + z2 * A = g2 + s2) by (unfold A, B; lra).
      rewrite <- E1, <- E2. f_equal; field; exact H0.
Qed.

Lemma shear_raises_iff g1 g2 s1 s2 :
  shear_reduced g1 g2 s1 s2 = Raise ZeroDivisionError <->
  cadd cone (cmul (cconj (s1,s2)) (g1,g2)) = czero.
Proof.
  rewrite denom_zero_iff. split.
  - intros H. destruct (Req_dec ((1 + g1 * s1 + g2 * s2) * (1 + g1 * s1 + g2 * s2) +
      (g2 * s1 - g1 * s2) * (g2 * s1 - g1 * s2)) 0) as [E|E]; [exact E|].
    rewrite shear_reduced_eq in H by exact E. discriminate.
  - apply shear_reduced_raise.
Qed.

Lemma shear_zero_id g1 g2 : shear_reduced g1 g2 0 0 = Ok (g1, g2).
Proof.
  apply shear_moebius_iff. unfold moebius, cadd, cmul, cone, cconj, czero; cbn [fst snd].
  split; [intros H; injection H; lra|]. f_equal; ring.
Qed.

Lemma denom_pos g1 g2 s1 s2 :
  in_disk (g1,g2) -> in_disk (s1,s2) ->
  0 < 1 + g1 * s1 + g2 * s2.
Proof.
  unfold in_disk, cmod2; cbn [fst snd]. intros Hg Hs.
  assert (H : (g1*s1+g2*s2)*(g1*s1+g2*s2) + (g2*s1-g1*s2)*(g2*s1-g1*s2)
              = (g1*g1+g2*g2)*(s1*s1+s2*s2)) by ring.
  assert (0 <= g1*g1+g2*g2) by nra. assert (0 <= s1*s1+s2*s2) by nra.
  assert ((g1*g1+g2*g2)*(s1*s1+s2*s2) < 1) by nra.
  pose proof (sqr_le_0 (g2*s1-g1*s2)). nra.
Qed.

Lemma shear_total g1 g2 s1 s2 :
  in_disk (g1,g2) -> in_disk (s1,s2) -> exists z, shear_reduced g1 g2 s1 s2 = Ok z.
Proof.
  intros Hg Hs. pose proof (denom_pos _ _ _ _ Hg Hs) as HA.
  eexists. apply shear_reduced_eq.
  pose proof (sqr_le_0 (g2 * s1 - g1 * s2)).
  pose proof (Rmult_lt_0_compat _ _ HA HA). lra.
Qed.

Lemma shear_modulus g1 g2 s1 s2 z :
  shear_reduced g1 g2 s1 s2 = Ok z ->
  (1 - cmod2 z) * cmod2 (cadd cone (cmul (cconj (s1,s2)) (g1,g2))) =
  (1 - cmod2 (g1,g2)) * (1 - cmod2 (s1,s2)).
Proof.
  intros H. apply shear_moebius_iff in H. destruct H as [_ H].
  destruct z as [z1 z2].
  unfold cmod2, cmul, cadd, cone, cconj in *; cbn [fst snd] in *.
  injection H as H1 H2.
  set (A := 1 + (s1 * g1 - - s2 * g2)) in *. set (B := 0 + (s1 * g2 + - s2 * g1)) in *.
  assert (E : (z1*z1+z2*z2)*(A*A+B*B) = (g1+s1)*(g1+s1) + (g2+s2)*(g2+s2)).
  { rewrite <- H1, <- H2. ring. }
  replace ((1 - (z1*z1+z2*z2))*(A*A+B*B)) with ((A*A+B*B) - (z1*z1+z2*z2)*(A*A+B*B)) by ring.
  rewrite E. unfold A, B. ring.
Qed.

Lemma shear_in_disk g1 g2 s1 s2 z :
  in_disk (g1,g2) -> in_disk (s1,s2) ->
  shear_reduced g1 g2 s1 s2 = Ok z -> in_disk z.
Proof.
  intros Hg Hs H. pose proof (shear_modulus _ _ _ _ _ H) as E.
  pose proof (denom_pos _ _ _ _ Hg Hs) as HA.
  unfold in_disk in *.
  set (D := cmod2 (cadd cone (cmul (cconj (s1,s2)) (g1,g2)))) in *.
  assert (HD : 0 < D).
  { unfold D, cmod2, cadd, cone, cmul, cconj; cbn [fst snd].
    pose proof (sqr_le_0 (0 + (s1 * g2 + - s2 * g1))). nra. }
  assert (0 < (1 - cmod2 (g1,g2)) * (1 - cmod2 (s1,s2))).
  { apply Rmult_lt_0_compat; lra. }
  nra.
Qed.

Lemma Shape_init_ok g1 g2 :
  in_disk (g1,g2) -> Shape_init g1 g2 = Ok (mkShape g1 g2 (sqrt (g1*g1+g2*g2))).
Proof.
  unfold in_disk, cmod2, Shape_init; cbn [fst snd]. intros H.
  rewrite Rleb_f; [reflexivity|]. apply sqrt_lt_1_iff; nra.
Qed.

Lemma Shape_init_raise g1 g2 :
  ~ in_disk (g1,g2) -> Shape_init g1 g2 = Raise GMixRangeError.
Proof.
  unfold in_disk, cmod2, Shape_init; cbn [fst snd]. intros H.
  rewrite Rleb_t; [reflexivity|].
  destruct (Rle_or_lt 1 (sqrt (g1*g1+g2*g2))) as [L|L]; [exact L|].
  exfalso; apply H; apply sqrt_lt_1_iff; [nra|exact L].
Qed.

Lemma Shape_init_inv g1 g2 s :
  Shape_init g1 g2 = Ok s ->
  in_disk (g1,g2) /\ sh_g1 s = g1 /\ sh_g2 s = g2 /\ sh_g s = sqrt (g1*g1+g2*g2).
Proof.
  intros H. destruct (Rlt_dec (cmod2 (g1,g2)) 1) as [D|D].
  - rewrite Shape_init_ok in H by exact D. injection H as <-. auto.
  - rewrite Shape_init_raise in H by exact D. discriminate.
Qed.

(** valid_shape is what the constructor returns *)
Lemma valid_init s : valid_shape s -> Shape_init (sh_g1 s) (sh_g2 s) = Ok s.
Proof.
  intros [D G]. rewrite Shape_init_ok by exact D. unfold cmod2 in G; cbn [fst snd] in G.
  rewrite <- G. destruct s; reflexivity.
Qed.
Lemma init_valid s : Shape_init (sh_g1 s) (sh_g2 s) = Ok s -> valid_shape s.
Proof. intros H. apply Shape_init_inv in H as (D & _ & _ & G). split; assumption. Qed.

Lemma valid_disk s : valid_shape s -> in_disk (sh_g1 s, sh_g2 s).
Proof. intros [H _]. exact H. Qed.

Lemma get_sheared_valid self s1 s2 :
  valid_shape self -> in_disk (s1,s2) ->
  exists s', Shape_get_sheared self (ByScalars s1 (Some s2)) = Ok s' /\
             valid_shape s' /\ sh_g s' < 1 /\
             shear_reduced (sh_g1 self) (sh_g2 self) s1 s2 = Ok (sh_g1 s', sh_g2 s').
Proof.
  intros Hv Hs. apply valid_disk in Hv.
  destruct (shear_total _ _ _ _ Hv Hs) as [[z1 z2] Hz].
  pose proof (shear_in_disk _ _ _ _ _ Hv Hs Hz) as Hd.
  unfold Shape_get_sheared, bind. rewrite Hz, Shape_init_ok by exact Hd.
  eexists; split; [reflexivity|]. cbn [sh_g1 sh_g2 sh_g]. repeat split.
  - exact Hd.
  - apply sqrt_lt_1_iff; [nra|]. exact Hd.
Qed.

Lemma get_sheared_by_shape self sh :
  Shape_get_sheared self (ByShape sh) =
  Shape_get_sheared self (ByScalars (sh_g1 sh) (Some (sh_g2 sh))).
Proof. reflexivity. Qed.

(** ** group laws *)

Lemma shear_undo g1 g2 s1 s2 z1 z2 :
  cmod2 (s1,s2) <> 1 ->
  shear_reduced g1 g2 s1 s2 = Ok (z1,z2) ->
  shear_reduced z1 z2 (-s1) (-s2) = Ok (g1,g2).
Proof.
  intros Hs H. apply shear_moebius_iff in H. apply shear_moebius_iff.
  destruct H as [Hn H].
  unfold moebius, cmod2, cadd, cmul, cone, cconj, czero in *; cbn [fst snd] in *.
  injection H as H1 H2.
  set (A := 1 + (s1 * g1 - - s2 * g2)) in *. set (B := 0 + (s1 * g2 + - s2 * g1)) in *.
  assert (HD : A*A+B*B <> 0).
  { intros E. apply sum_sq_0 in E as [E1 E2]. apply Hn. f_equal; assumption. }
  assert (Z1 : z1 = ((g1+s1)*A+(g2+s2)*B)/(A*A+B*B)).
  { rewrite <- H1, <- H2. field; exact HD. }
  assert (Z2 : z2 = ((g2+s2)*A-(g1+s1)*B)/(A*A+B*B)).
  { rewrite <- H1, <- H2. field; exact HD. }
  split.
  - intros E. injection E as E1 E2.
    assert (F1 : 1 - (s1*z1 + s2*z2) = (1 - (s1*s1+s2*s2)) * A / (A*A+B*B)).
    { rewrite Z1, Z2. apply Rmult_eq_reg_r with (A*A+B*B); [|exact HD].
      unfold Rdiv. rewrite Rmult_assoc, Rinv_l by exact HD.
      transitivity ((A*A+B*B) - s1*((g1+s1)*A+(g2+s2)*B) - s2*((g2+s2)*A-(g1+s1)*B)).
      - field; exact HD.
      - unfold A, B; ring. }
    assert (F2 : s1*z2 - s2*z1 = (1 - (s1*s1+s2*s2)) * B / (A*A+B*B)).
    { rewrite Z1, Z2. apply Rmult_eq_reg_r with (A*A+B*B); [|exact HD].
      unfold Rdiv. rewrite Rmult_assoc, Rinv_l by exact HD.
      transitivity (s1*((g2+s2)*A-(g1+s1)*B) - s2*((g1+s1)*A+(g2+s2)*B)).
      - field; exact HD.
      - unfold A, B; ring. }
    assert (G1 : (1 - (s1*s1+s2*s2)) * A / (A*A+B*B) = 0) by (rewrite <- F1; lra).
    assert (G2 : (1 - (s1*s1+s2*s2)) * B / (A*A+B*B) = 0) by (rewrite <- F2; lra).
    apply HD.
    assert (K1 : (1 - (s1*s1+s2*s2)) * A = 0).
    { unfold Rdiv in G1. apply Rmult_integral in G1 as [G|G]; [exact G|].
      exfalso; apply (Rinv_neq_0_compat _ HD); exact G. }
    assert (K2 : (1 - (s1*s1+s2*s2)) * B = 0).
    { unfold Rdiv in G2. apply Rmult_integral in G2 as [G|G]; [exact G|].
      exfalso; apply (Rinv_neq_0_compat _ HD); exact G. }
    apply Rmult_integral in K1 as [K|K1]; [exfalso; lra|].
    apply Rmult_integral in K2 as [K|K2]; [exfalso; lra|].
    rewrite K1, K2; ring.
  - f_equal.
    + rewrite Z1, Z2. apply Rmult_eq_reg_r with (A*A+B*B); [|exact HD].
      transitivity (g1 * (A*A+B*B) - (g1*s1 + g2*s2)*((g1+s1)*A+(g2+s2)*B)
                    - (g1*s2 - g2*s1)*((g2+s2)*A-(g1+s1)*B)).
      * field; exact HD.
      * transitivity (((g1+s1)*A+(g2+s2)*B) - s1 * (A*A+B*B)).
        -- unfold A, B; ring.
        -- field; exact HD.
    + rewrite Z1, Z2. apply Rmult_eq_reg_r with (A*A+B*B); [|exact HD].
      transitivity (g2 * (A*A+B*B) - (g2*s1 - g1*s2)*((g1+s1)*A+(g2+s2)*B)
                    - (g2*s2 + g1*s1)*((g2+s2)*A-(g1+s1)*B)).
      * field; exact HD.
      * transitivity (((g2+s2)*A-(g1+s1)*B) - s2 * (A*A+B*B)).
        -- unfold A, B; ring.
        -- field; exact HD.
Qed.

Lemma shear_modulus_sym g1 g2 s1 s2 z w :
  shear_reduced g1 g2 s1 s2 = Ok z -> shear_reduced s1 s2 g1 g2 = Ok w ->
  cmod2 z = cmod2 w.
Proof.
  intros Hz Hw. pose proof (shear_modulus _ _ _ _ _ Hz) as E1.
  pose proof (shear_modulus _ _ _ _ _ Hw) as E2.
  apply shear_moebius_iff in Hz. destruct Hz as [Hn _].
  assert (HD : cmod2 (cadd cone (cmul (cconj (s1,s2)) (g1,g2))) =
               cmod2 (cadd cone (cmul (cconj (g1,g2)) (s1,s2)))).
  { unfold cmod2, cadd, cone, cmul, cconj; cbn [fst snd]; ring. }
  rewrite <- HD in E2.
  assert (Hnz : cmod2 (cadd cone (cmul (cconj (s1,s2)) (g1,g2))) <> 0).
  { intros E. apply Hn. unfold cmod2 in E. apply sum_sq_0 in E as [Ea Eb].
    apply injective_projections; assumption. }
  assert (E : (1 - cmod2 z) * cmod2 (cadd cone (cmul (cconj (s1,s2)) (g1,g2))) =
              (1 - cmod2 w) * cmod2 (cadd cone (cmul (cconj (s1,s2)) (g1,g2)))).
  { rewrite E1, E2. ring. }
  apply Rmult_eq_reg_r in E; [lra|exact Hnz].
Qed.

Lemma shear_equivariant g s z u :
  cmod2 u = 1 ->
  moebius g s z -> moebius (cmul u g) (cmul u s) (cmul u z).
Proof.
  destruct g as [g1 g2], s as [s1 s2], z as [z1 z2], u as [u1 u2].
  unfold moebius, cmod2, cadd, cmul, cone, cconj, czero; cbn [fst snd].
  intros Hu [Hn H]. injection H as H1 H2.
  assert (D1 : 1 + ((u1*s1-u2*s2)*(u1*g1-u2*g2) - - (u1*s2+u2*s1)*(u1*g2+u2*g1))
               = 1 + (s1*g1 - - s2*g2)).
  { replace ((u1*s1-u2*s2)*(u1*g1-u2*g2) - - (u1*s2+u2*s1)*(u1*g2+u2*g1))
      with ((u1*u1+u2*u2)*(s1*g1+s2*g2)) by ring. rewrite Hu; ring. }
  assert (D2 : 0 + ((u1*s1-u2*s2)*(u1*g2+u2*g1) + - (u1*s2+u2*s1)*(u1*g1-u2*g2))
               = 0 + (s1*g2 + - s2*g1)).
  { replace ((u1*s1-u2*s2)*(u1*g2+u2*g1) + - (u1*s2+u2*s1)*(u1*g1-u2*g2))
      with ((u1*u1+u2*u2)*(s1*g2-s2*g1)) by ring. rewrite Hu; ring. }
  rewrite D1, D2. split; [exact Hn|].
  f_equal.
  - transitivity (u1*(z1*(1+(s1*g1- - s2*g2)) - z2*(0+(s1*g2+ - s2*g1)))
                  - u2*(z1*(0+(s1*g2+ - s2*g1)) + z2*(1+(s1*g1- - s2*g2)))); [ring|].
    rewrite H1, H2; ring.
  - transitivity (u1*(z1*(0+(s1*g2+ - s2*g1)) + z2*(1+(s1*g1- - s2*g2)))
                  + u2*(z1*(1+(s1*g1- - s2*g2)) - z2*(0+(s1*g2+ - s2*g1)))); [ring|].
    rewrite H1, H2; ring.
Qed.

Lemma shear_rotation_equivariant g1 g2 s1 s2 z1 z2 t :
  shear_reduced g1 g2 s1 s2 = Ok (z1,z2) ->
  let (g1',g2') := rotate_shape g1 g2 t in
  let (s1',s2') := rotate_shape s1 s2 t in
  shear_reduced g1' g2' s1' s2' = Ok (rotate_shape z1 z2 t).
Proof.
  intros H. apply shear_moebius_iff in H.
  apply (shear_equivariant _ _ _ (cos (2*t), - sin (2*t))) in H.
  2: { unfold cmod2; cbn [fst snd]. pose proof (sin2_cos2 (2*t)) as E. unfold Rsqr in E. lra. }
  unfold rotate_shape. apply shear_moebius_iff.
  unfold cmul in H; cbn [fst snd] in H.
  replace (g1 * cos (2*t) + g2 * sin (2*t)) with (cos (2*t) * g1 - - sin (2*t) * g2) by ring.
  replace (- g1 * sin (2*t) + g2 * cos (2*t)) with (cos (2*t) * g2 + - sin (2*t) * g1) by ring.
  replace (s1 * cos (2*t) + s2 * sin (2*t)) with (cos (2*t) * s1 - - sin (2*t) * s2) by ring.
  replace (- s1 * sin (2*t) + s2 * cos (2*t)) with (cos (2*t) * s2 + - sin (2*t) * s1) by ring.
  replace (z1 * cos (2*t) + z2 * sin (2*t)) with (cos (2*t) * z1 - - sin (2*t) * z2) by ring.
  replace (- z1 * sin (2*t) + z2 * cos (2*t)) with (cos (2*t) * z2 + - sin (2*t) * z1) by ring.
  exact H.
Qed.

(** ** rotation *)

Lemma rotate_shape_spec g1 g2 t :
  rotate_shape g1 g2 t = cmul (g1,g2) (cexp_i (- (2*t))).
Proof.
  unfold rotate_shape, cmul, cexp_i; cbn [fst snd]. rewrite cos_neg, sin_neg.
  f_equal; ring.
Qed.

Lemma rotate_shape_mod g1 g2 t : cmod2 (rotate_shape g1 g2 t) = cmod2 (g1,g2).
Proof.
  unfold rotate_shape, cmod2; cbn [fst snd].
  pose proof (sin2_cos2 (2*t)) as E. unfold Rsqr in E.
  transitivity ((g1*g1+g2*g2)*(sin (2*t)*sin (2*t) + cos (2*t)*cos (2*t))); [ring|].
  rewrite E; ring.
Qed.

Lemma get_rotated_eq self t :
  valid_shape self ->
  Shape_get_rotated self t =
  Ok (mkShape (fst (rotate_shape (sh_g1 self) (sh_g2 self) t))
              (snd (rotate_shape (sh_g1 self) (sh_g2 self) t)) (sh_g self)).
Proof.
  intros Hv. pose proof (valid_disk _ Hv) as Hd.
  apply valid_init, Shape_init_inv in Hv as (_ & _ & _ & Hg).
  unfold Shape_get_rotated, rotate_shape; cbn [fst snd].
  pose proof (rotate_shape_mod (sh_g1 self) (sh_g2 self) t) as E.
  unfold rotate_shape, cmod2 in E; cbn [fst snd] in E.
  rewrite Shape_init_ok.
  - f_equal. f_equal. rewrite E. symmetry; exact Hg.
  - unfold in_disk, cmod2 in *; cbn [fst snd] in *. rewrite E. exact Hd.
Qed.

Lemma rotate_inplace_eq self t :
  valid_shape self ->
  exists s', Shape_get_rotated self t = Ok s' /\ Shape_rotate self t = (s', Ok tt).
Proof.
  intros Hv. pose proof (get_rotated_eq self t Hv) as E.
  eexists; split; [exact E|].
  unfold Shape_get_rotated in E. unfold Shape_rotate, Shape_set_g1g2.
  unfold Shape_init in E.
  rcase; [discriminate|]. injection E as E. rewrite E. reflexivity.
Qed.

Lemma get_rotated_valid self t s' :
  valid_shape self -> Shape_get_rotated self t = Ok s' -> valid_shape s'.
Proof.
  intros _ H. unfold Shape_get_rotated in H.
  pose proof H as H'. apply Shape_init_inv in H as (_ & E1 & E2 & _).
  apply init_valid. rewrite E1, E2. exact H'.
Qed.

Lemma rotate_compose g1 g2 t u :
  let (h1,h2) := rotate_shape g1 g2 t in
  rotate_shape h1 h2 u = rotate_shape g1 g2 (t + u).
Proof.
  unfold rotate_shape. rewrite Rmult_plus_distr_l, cos_plus, sin_plus. f_equal; ring.
Qed.

Lemma rotate_zero g1 g2 : rotate_shape g1 g2 0 = (g1, g2).
Proof. unfold rotate_shape. rewrite Rmult_0_r, cos_0, sin_0. f_equal; ring. Qed.

Lemma rotate_pi g1 g2 : rotate_shape g1 g2 PI = (g1, g2).
Proof. unfold rotate_shape. rewrite cos_2PI, sin_2PI. f_equal; ring. Qed.

Lemma shape_ext (a b : shape) :
  sh_g1 a = sh_g1 b -> sh_g2 a = sh_g2 b -> sh_g a = sh_g b -> a = b.
Proof. destruct a, b; cbn; intros; subst; reflexivity. Qed.

Lemma valid_shape_ext a b :
  valid_shape a -> valid_shape b -> sh_g1 a = sh_g1 b -> sh_g2 a = sh_g2 b -> a = b.
Proof.
  intros Ha Hb E1 E2. apply shape_ext; auto.
  apply valid_init, Shape_init_inv in Ha as (_&_&_&Ea). apply valid_init, Shape_init_inv in Hb as (_&_&_&Eb).
  rewrite Ea, Eb, E1, E2. reflexivity.
Qed.

Lemma get_rotated_compose self t u a b :
  valid_shape self ->
  Shape_get_rotated self t = Ok a -> Shape_get_rotated a u = Ok b ->
  Shape_get_rotated self (t + u) = Ok b.
Proof.
  intros Hv Ha Hb.
  pose proof (get_rotated_valid _ _ _ Hv Ha) as Hva.
  rewrite get_rotated_eq in Ha by exact Hv. injection Ha as <-.
  rewrite get_rotated_eq in Hb by exact Hva. injection Hb as <-. cbn [sh_g1 sh_g2 sh_g].
  rewrite get_rotated_eq by exact Hv. f_equal.
  unfold rotate_shape; cbn [fst snd]. rewrite Rmult_plus_distr_l, cos_plus, sin_plus.
  f_equal; ring.
Qed.

(** ** hyperbolic functions *)

Lemma tanh_exp x : tanh x = (exp (2*x) - 1) / (exp (2*x) + 1).
Proof.
  unfold tanh, sinh, cosh. replace (2*x) with (x+x) by ring. rewrite exp_plus, exp_Ropp.
  pose proof (exp_pos x). field. split; nra.
Qed.

Lemma tanh_lt_1 x : tanh x < 1.
Proof.
  rewrite tanh_exp. pose proof (exp_pos (2*x)).
  apply Rmult_lt_reg_r with (exp (2*x) + 1); [lra|].
  unfold Rdiv. rewrite Rmult_assoc, Rinv_l by lra. lra.
Qed.

Lemma tanh_pos x : 0 < x -> 0 < tanh x.
Proof.
  intros Hx. rewrite tanh_exp. pose proof (exp_pos (2*x)).
  assert (1 < exp (2*x)). { rewrite <- exp_0. apply exp_increasing; lra. }
  apply Rmult_lt_0_compat; [lra|]. apply Rinv_0_lt_compat; lra.
Qed.

Lemma tanh_0' : tanh 0 = 0.
Proof. rewrite tanh_exp, Rmult_0_r, exp_0. field. Qed.

Lemma tanh_arctanh x : -1 < x < 1 -> tanh (arctanh x) = x.
Proof.
  intros Hx. rewrite tanh_exp. unfold arctanh.
  replace (2 * (/ 2 * ln ((1 + x) / (1 - x)))) with (ln ((1+x)/(1-x))) by field.
  rewrite exp_ln.
  - field. split; lra.
  - apply Rmult_lt_0_compat; [lra|]. apply Rinv_0_lt_compat; lra.
Qed.

Lemma arctanh_tanh x : arctanh (tanh x) = x.
Proof.
  unfold arctanh. rewrite tanh_exp. pose proof (exp_pos (2*x)).
  replace ((1 + (exp (2*x) - 1)/(exp (2*x)+1)) / (1 - (exp (2*x) - 1)/(exp (2*x)+1)))
    with (exp (2*x)).
  - rewrite ln_exp. field.
  - field. split; lra.
Qed.

Lemma arctanh_pos x : 0 < x < 1 -> 0 < arctanh x.
Proof.
  intros Hx. unfold arctanh. 
  assert (0 < ln ((1+x)/(1-x))).
  { rewrite <- ln_1. apply ln_increasing; [lra|].
    apply Rmult_lt_reg_r with (1-x); [lra|]. unfold Rdiv. rewrite Rmult_assoc, Rinv_l by lra. lra. }
  lra.
Qed.

Lemma tanh_2_arctanh g : -1 < g < 1 -> tanh (2 * arctanh g) = 2 * g / (1 + g*g).
Proof.
  intros Hg. rewrite tanh_exp. unfold arctanh.
  replace (2 * (2 * (/ 2 * ln ((1 + g) / (1 - g))))) with (ln ((1+g)/(1-g)) + ln ((1+g)/(1-g))) by field.
  rewrite exp_plus, exp_ln.
  - field. repeat split; nra.
  - apply Rmult_lt_0_compat; [lra|]. apply Rinv_0_lt_compat; lra.
Qed.

(** the half-angle map *)
Lemma half_arctanh e : 0 < e < 1 ->
  let g := tanh (/ 2 * arctanh e) in 0 < g < 1 /\ 2 * g / (1 + g * g) = e.
Proof.
  intros He g.
  assert (Hg : 0 < g < 1).
  { split; [apply tanh_pos; pose proof (arctanh_pos e He); lra | apply tanh_lt_1]. }
  split; [exact Hg|].
  rewrite <- tanh_2_arctanh by lra. unfold g. rewrite arctanh_tanh.
  replace (2 * (/ 2 * arctanh e)) with (arctanh e) by field.
  apply tanh_arctanh; lra.
Qed.

Lemma half_double g : 0 < g < 1 -> tanh (/ 2 * arctanh (2 * g / (1 + g*g))) = g.
Proof.
  intros Hg. rewrite <- tanh_2_arctanh by lra. rewrite arctanh_tanh.
  replace (/ 2 * (2 * arctanh g)) with (arctanh g) by field. apply tanh_arctanh; lra.
Qed.

(** ** moduli *)
Definition modl (a b : R) : R := sqrt (a*a+b*b).

Lemma modl_nonneg a b : 0 <= modl a b. Proof. apply sqrt_pos. Qed.
Lemma modl_sq a b : modl a b * modl a b = a*a+b*b.
Proof. apply sqrt_sqrt. nra. Qed.
Lemma modl_0 a b : modl a b = 0 <-> a = 0 /\ b = 0.
Proof.
  split.
  - intros H. pose proof (modl_sq a b) as E. rewrite H in E. apply sum_sq_0. lra.
  - intros [-> ->]. unfold modl. replace (0*0+0*0) with 0 by ring. apply sqrt_0.
Qed.
Lemma modl_scale k a b : 0 <= k -> modl (k*a) (k*b) = k * modl a b.
Proof.
  intros Hk. unfold modl. replace (k*a*(k*a)+k*b*(k*b)) with (k*k*(a*a+b*b)) by ring.
  rewrite sqrt_mult by nra. rewrite sqrt_square by exact Hk. reflexivity.
Qed.
Lemma modl_disk a b : in_disk (a,b) <-> modl a b < 1.
Proof. unfold in_disk, cmod2, modl; cbn [fst snd]. symmetry. apply sqrt_lt_1_iff. nra. Qed.

(** ** closed forms of the scalar conversions *)

Lemma g2e_eq g1 g2 : in_disk (g1,g2) ->
  g1g2_to_e1e2 g1 g2 = Ok (2*g1/(1+(g1*g1+g2*g2)), 2*g2/(1+(g1*g1+g2*g2))).
Proof.
  intros Hd. apply modl_disk in Hd. unfold g1g2_to_e1e2. fold (modl g1 g2).
  pose proof (modl_nonneg g1 g2) as Hn.
  rewrite Rleb_f by exact Hd.
  destruct (Reqb_spec (modl g1 g2) 0) as [E|E].
  - apply modl_0 in E as [-> ->]. f_equal. f_equal; field.
  - rewrite (Rleb_f 1) by apply tanh_lt_1.
    rewrite tanh_2_arctanh by lra. rewrite <- modl_sq.
    f_equal. f_equal; field; split; nra.
Qed.

Lemma g2e_raise g1 g2 : ~ in_disk (g1,g2) -> g1g2_to_e1e2 g1 g2 = Raise GMixRangeError.
Proof.
  intros Hd. rewrite modl_disk in Hd. unfold g1g2_to_e1e2. fold (modl g1 g2).
  rewrite Rleb_t by lra. reflexivity.
Qed.

Lemma e2g_cases e1 e2 : in_disk (e1,e2) ->
  (e1 = 0 /\ e2 = 0 /\ e1e2_to_g1g2 e1 e2 = Ok (0,0)) \/
  (exists g, 0 < g < 1 /\ 0 < modl e1 e2 < 1 /\ g = tanh (/ 2 * arctanh (modl e1 e2)) /\
     2*g/(1+g*g) = modl e1 e2 /\
     e1e2_to_g1g2 e1 e2 = Ok (g / modl e1 e2 * e1, g / modl e1 e2 * e2)).
Proof.
  intros Hd. apply modl_disk in Hd. unfold e1e2_to_g1g2. fold (modl e1 e2).
  pose proof (modl_nonneg e1 e2) as Hn.
  rewrite Rleb_f by exact Hd.
  destruct (Reqb_spec (modl e1 e2) 0) as [E|E].
  - left. apply modl_0 in E as [-> ->]. auto.
  - right. exists (tanh (/ 2 * arctanh (modl e1 e2))).
    pose proof (half_arctanh (modl e1 e2) ltac:(lra)) as [Ha Hb].
    rewrite (Rleb_f 1) by apply tanh_lt_1. repeat split; auto; lra.
Qed.

Lemma e2g_raise e1 e2 : ~ in_disk (e1,e2) -> e1e2_to_g1g2 e1 e2 = Raise GMixRangeError.
Proof.
  intros Hd. rewrite modl_disk in Hd. unfold e1e2_to_g1g2. fold (modl e1 e2).
  rewrite Rleb_t by lra. reflexivity.
Qed.

Lemma g2e_spec g1 g2 : in_disk (g1,g2) ->
  exists e, g1g2_to_e1e2 g1 g2 = Ok e /\ e_of_g (g1,g2) e /\ in_disk e.
Proof.
  intros Hd. eexists; split; [apply g2e_eq; exact Hd|].
  unfold e_of_g, in_disk, cmod2 in *; cbn [fst snd] in *.
  assert (0 < 1 + (g1*g1+g2*g2)) by nra.
  split; [split; field; lra|].
  set (q := g1*g1+g2*g2) in *.
  assert (0 <= q) by (unfold q; nra).
  replace (2*g1/(1+q)*(2*g1/(1+q))+2*g2/(1+q)*(2*g2/(1+q))) with (4*q/((1+q)*(1+q)))
    by (unfold q; field; fold q; lra).
  apply Rmult_lt_reg_r with ((1+q)*(1+q)); [nra|].
  unfold Rdiv. rewrite Rmult_assoc, Rinv_l by nra. nra.
Qed.

Lemma e2g_spec e1 e2 : in_disk (e1,e2) ->
  exists g, e1e2_to_g1g2 e1 e2 = Ok g /\ e_of_g g (e1,e2) /\ in_disk g.
Proof.
  intros Hd. destruct (e2g_cases _ _ Hd) as [(-> & -> & E)|(g & Hg & He & _ & Hge & E)].
  - exists (0,0). split; [exact E|]. unfold e_of_g, in_disk, cmod2; cbn; split; [split; ring|lra].
  - eexists; split; [exact E|].
    set (m := modl e1 e2) in *.
    pose proof (modl_sq e1 e2) as Hsq. fold m in Hsq.
    assert (Q : g/m*e1*(g/m*e1)+g/m*e2*(g/m*e2) = g*g).
    { replace (g/m*e1*(g/m*e1)+g/m*e2*(g/m*e2)) with (g*g/(m*m)*(e1*e1+e2*e2)) by (field; lra).
      rewrite <- Hsq. field; lra. }
    assert (Hk : m * (1+g*g) = 2*g) by (rewrite <- Hge; field; nra).
    unfold e_of_g, in_disk, cmod2; cbn [fst snd]. rewrite Q.
    split; [split|nra].
    + replace (2*(g/m*e1)) with (2*g/m*e1) by (field; lra). rewrite <- Hk. field; lra.
    + replace (2*(g/m*e2)) with (2*g/m*e2) by (field; lra). rewrite <- Hk. field; lra.
Qed.

Lemma e_of_g_inj g h e : in_disk g -> in_disk h -> e_of_g g e -> e_of_g h e -> g = h.
Proof.
  destruct g as [g1 g2], h as [h1 h2], e as [e1 e2].
  unfold in_disk, e_of_g, cmod2; cbn [fst snd].
  intros Hg Hh [A1 A2] [B1 B2].
  set (p := g1*g1+g2*g2) in *. set (q := h1*h1+h2*h2) in *.
  assert (Hp : 0 <= p) by (unfold p; nra). assert (Hq : 0 <= q) by (unfold q; nra).
  (* (1+p)^2 (e1^2+e2^2) = 4p *)
  assert (P : (1+p)*(1+p)*(e1*e1+e2*e2) = 4*p).
  { transitivity ((e1*(1+p))*(e1*(1+p))+(e2*(1+p))*(e2*(1+p))); [ring|].
    rewrite A1, A2. unfold p; ring. }
  assert (Q : (1+q)*(1+q)*(e1*e1+e2*e2) = 4*q).
  { transitivity ((e1*(1+q))*(e1*(1+q))+(e2*(1+q))*(e2*(1+q))); [ring|].
    rewrite B1, B2. unfold q; ring. }
  assert (K : p * ((1+q)*(1+q)) = q * ((1+p)*(1+p))).
  { assert (T : 4*p*((1+q)*(1+q)) = 4*q*((1+p)*(1+p))) by (rewrite <- P, <- Q; ring). lra. }
  assert (E : p = q).
  { assert (T : (p - q) * (1 - p*q) = 0) by (ring_simplify; ring_simplify in K; lra).
    apply Rmult_integral in T as [T|T]; [lra|]. exfalso. nra. }
  rewrite E in *. f_equal; lra.
Qed.

Lemma g2e_e2g g1 g2 e1 e2 :
  g1g2_to_e1e2 g1 g2 = Ok (e1,e2) -> e1e2_to_g1g2 e1 e2 = Ok (g1,g2).
Proof.
  intros H. destruct (Rlt_dec (cmod2 (g1,g2)) 1) as [D|D].
  - destruct (g2e_spec _ _ D) as (e & E & S & De). rewrite H in E. injection E as <-.
    destruct (e2g_spec _ _ De) as (g & E & Sg & Dg). rewrite E. f_equal.
    eapply e_of_g_inj; eauto.
  - rewrite g2e_raise in H by exact D. discriminate.
Qed.

Lemma e_of_g_fun g e f : e_of_g g e -> e_of_g g f -> e = f.
Proof.
  destruct g as [g1 g2], e as [e1 e2], f as [f1 f2]. unfold e_of_g, cmod2; cbn [fst snd].
  intros [A1 A2] [B1 B2]. assert (0 < 1+(g1*g1+g2*g2)) by nra.
  f_equal; apply Rmult_eq_reg_r with (1+(g1*g1+g2*g2)); lra.
Qed.

Lemma e2g_g2e e1 e2 g1 g2 :
  e1e2_to_g1g2 e1 e2 = Ok (g1,g2) -> g1g2_to_e1e2 g1 g2 = Ok (e1,e2).
Proof.
  intros H. destruct (Rlt_dec (cmod2 (e1,e2)) 1) as [D|D].
  - destruct (e2g_spec _ _ D) as (g & E & S & Dg). rewrite H in E. injection E as <-.
    destruct (g2e_spec _ _ Dg) as (e & E & Se & De). rewrite E. f_equal.
    eapply e_of_g_fun; eauto.
  - rewrite e2g_raise in H by exact D. discriminate.
Qed.

(** eta *)
Lemma g2eta_eq g1 g2 : in_disk (g1,g2) ->
  g1g2_to_eta1eta2 g1 g2 =
  Ok (if Reqb (modl g1 g2) 0 then (0,0)
      else (2 * arctanh (modl g1 g2) / modl g1 g2 * g1, 2 * arctanh (modl g1 g2) / modl g1 g2 * g2)).
Proof.
  intros Hd. apply modl_disk in Hd. unfold g1g2_to_eta1eta2. fold (modl g1 g2).
  rewrite Rleb_f by exact Hd. rcase; reflexivity.
Qed.

Lemma g2eta_raise g1 g2 : ~ in_disk (g1,g2) -> g1g2_to_eta1eta2 g1 g2 = Raise GMixRangeError.
Proof.
  intros Hd. rewrite modl_disk in Hd. unfold g1g2_to_eta1eta2. fold (modl g1 g2).
  rewrite Rleb_t by lra. reflexivity.
Qed.

Lemma eta2g_eq a b :
  eta1eta2_to_g1g2 a b =
  Ok (if Reqb (modl a b) 0 then (0,0)
      else (tanh (/ 2 * modl a b) / modl a b * a, tanh (/ 2 * modl a b) / modl a b * b)).
Proof.
  unfold eta1eta2_to_g1g2, unwrap1, eta1eta2_to_g1g2_arr. cbn [map existsb fst snd].
  fold (modl a b). rewrite Rleb_f by apply tanh_lt_1. cbn. rcase; reflexivity.
Qed.

Lemma pair0 (a b : R) : (a,b) = czero <-> a = 0 /\ b = 0.
Proof. unfold czero. split; [intros H; injection H; auto|intros [-> ->]; reflexivity]. Qed.

Lemma g2eta_spec g1 g2 : in_disk (g1,g2) ->
  exists eta, g1g2_to_eta1eta2 g1 g2 = Ok eta /\ eta_of_g (g1,g2) eta.
Proof.
  intros Hd. eexists; split; [apply g2eta_eq; exact Hd|]. apply modl_disk in Hd.
  pose proof (modl_nonneg g1 g2) as Hn.
  destruct (Reqb_spec (modl g1 g2) 0) as [E|E].
  - apply modl_0 in E as [-> ->]. unfold eta_of_g, cmod2; cbn [fst snd].
    replace (0*0+0*0) with 0 by ring. rewrite sqrt_0.
    replace (0/2) with 0 by field. rewrite tanh_0'. repeat split; auto.
    intros C; exfalso; apply C; reflexivity.
  - assert (Hp : 0 < modl g1 g2 < 1) by lra.
    pose proof (arctanh_pos _ Hp) as Ha.
    set (m := modl g1 g2) in *.
    assert (Hk : 0 < 2 * arctanh m / m).
    { apply Rmult_lt_0_compat; [lra|]. apply Rinv_0_lt_compat; lra. }
    unfold eta_of_g, cmod2; cbn [fst snd]. fold (modl g1 g2).
    fold (modl (2 * arctanh m / m * g1) (2 * arctanh m / m * g2)).
    rewrite modl_scale by lra. fold m.
    replace (2 * arctanh m / m * m / 2) with (arctanh m) by (field; lra).
    rewrite tanh_arctanh by lra. split; [reflexivity|]. split.
    + rewrite !pair0. split.
      * intros [-> ->]. split; ring.
      * intros [A B]. apply Rmult_integral in A as [A|A]; [lra|].
        apply Rmult_integral in B as [B|B]; [lra|]. auto.
    + intros _. exists (2 * arctanh m / m). cbn [fst snd]. auto.
Qed.

Lemma eta2g_spec a b :
  exists g, eta1eta2_to_g1g2 a b = Ok g /\ eta_of_g g (a,b) /\ in_disk g.
Proof.
  eexists; split; [apply eta2g_eq|].
  pose proof (modl_nonneg a b) as Hn.
  destruct (Reqb_spec (modl a b) 0) as [E|E].
  - apply modl_0 in E as [-> ->]. unfold eta_of_g, in_disk, cmod2; cbn [fst snd].
    replace (0*0+0*0) with 0 by ring. rewrite sqrt_0.
    replace (0/2) with 0 by field. rewrite tanh_0'. repeat split; auto; try lra.
    intros C; exfalso; apply C; reflexivity.
  - set (m := modl a b) in *. assert (Hm : 0 < m) by lra.
    pose proof (tanh_pos (/2 * m) ltac:(lra)) as Hp.
    assert (Hk : 0 < tanh (/2*m) / m).
    { apply Rmult_lt_0_compat; [lra|]. apply Rinv_0_lt_compat; lra. }
    assert (Em : modl (tanh (/2*m)/m*a) (tanh (/2*m)/m*b) = tanh (/2*m)).
    { rewrite modl_scale by lra. fold m. field; lra. }
    split.
    + unfold eta_of_g, cmod2; cbn [fst snd].
      fold (modl (tanh (/2*m)/m*a) (tanh (/2*m)/m*b)). fold (modl a b). fold m.
      rewrite Em. split; [f_equal; field|]. split.
      * rewrite !pair0. split.
        -- intros [A B]. apply Rmult_integral in A as [A|A]; [lra|].
           apply Rmult_integral in B as [B|B]; [lra|]. auto.
        -- intros [-> ->]. split; ring.
      * intros _. exists (/ (tanh (/2*m)/m)). split; [apply Rinv_0_lt_compat; exact Hk|].
        cbn [fst snd]. f_equal; field; repeat split; lra.
    + apply modl_disk. rewrite Em. apply tanh_lt_1.
Qed.

Lemma tanh_inj x y : tanh x = tanh y -> x = y.
Proof. intros H. rewrite <- (arctanh_tanh x), H. apply arctanh_tanh. Qed.

Lemma eta_of_g_fun g x y : eta_of_g g x -> eta_of_g g y -> x = y.
Proof.
  destruct g as [g1 g2], x as [x1 x2], y as [y1 y2].
  intros (X1 & X2 & X3) (Y1 & Y2 & Y3).
  destruct (Req_dec (modl g1 g2) 0) as [E|E].
  - apply modl_0 in E. apply pair0 in E.
    rewrite (proj1 X2 E), (proj1 Y2 E). reflexivity.
  - assert (N : (g1,g2) <> czero). { intros C. apply pair0 in C. apply E. apply modl_0. exact C. }
    destruct (X3 N) as (k & Hk & Ek). destruct (Y3 N) as (l & Hl & El).
    cbn [fst snd] in *. injection Ek as -> ->. injection El as -> ->.
    rewrite X1 in Y1. apply tanh_inj in Y1.
    unfold cmod2 in Y1; cbn [fst snd] in Y1.
    fold (modl (k*g1) (k*g2)) in Y1. fold (modl (l*g1) (l*g2)) in Y1.
    rewrite !modl_scale in Y1 by lra.
    assert (k = l).
    { apply Rmult_eq_reg_r with (modl g1 g2); [|exact E]. lra. }
    subst; reflexivity.
Qed.

Lemma eta_of_g_inj g h x : eta_of_g g x -> eta_of_g h x -> g = h.
Proof.
  destruct g as [g1 g2], h as [h1 h2], x as [x1 x2].
  intros (X1 & X2 & X3) (Y1 & Y2 & Y3).
  destruct (Req_dec (modl x1 x2) 0) as [E|E].
  - apply modl_0 in E. apply pair0 in E.
    rewrite (proj2 X2 E), (proj2 Y2 E). reflexivity.
  - assert (Nx : (x1,x2) <> czero). { intros C. apply pair0 in C. apply E. apply modl_0. exact C. }
    assert (Ng : (g1,g2) <> czero) by (intros C; apply Nx, X2; exact C).
    assert (Nh : (h1,h2) <> czero) by (intros C; apply Nx, Y2; exact C).
    destruct (X3 Ng) as (k & Hk & Ek). destruct (Y3 Nh) as (l & Hl & El).
    cbn [fst snd] in *. rewrite <- X1 in Y1.
    unfold cmod2 in Y1; cbn [fst snd] in Y1. fold (modl g1 g2) in Y1. fold (modl h1 h2) in Y1.
    injection Ek as K1 K2. injection El as L1 L2.
    assert (M : k * modl g1 g2 = l * modl h1 h2).
    { rewrite <- !modl_scale by lra. rewrite <- K1, <- K2, <- L1, <- L2. reflexivity. }
    rewrite Y1 in M.
    assert (modl g1 g2 <> 0).
    { intros C. apply modl_0 in C. apply pair0 in C. contradiction. }
    assert (k = l) by (apply Rmult_eq_reg_r with (modl g1 g2); [lra|assumption]).
    subst l. f_equal; apply Rmult_eq_reg_l with k; lra.
Qed.

Lemma g2eta_eta2g g1 g2 a b :
  g1g2_to_eta1eta2 g1 g2 = Ok (a,b) -> eta1eta2_to_g1g2 a b = Ok (g1,g2).
Proof.
  intros H. destruct (Rlt_dec (cmod2 (g1,g2)) 1) as [D|D].
  - destruct (g2eta_spec _ _ D) as (e & E & S). rewrite H in E. injection E as <-.
    destruct (eta2g_spec a b) as (g & E & Sg & Dg). rewrite E. f_equal.
    eapply eta_of_g_inj; eauto.
  - rewrite g2eta_raise in H by exact D. discriminate.
Qed.

Lemma eta2g_g2eta a b g1 g2 :
  eta1eta2_to_g1g2 a b = Ok (g1,g2) -> g1g2_to_eta1eta2 g1 g2 = Ok (a,b).
Proof.
  intros H. destruct (eta2g_spec a b) as (g & E & Sg & Dg). rewrite H in E. injection E as <-.
  destruct (g2eta_spec _ _ Dg) as (e & E & S). rewrite E. f_equal.
  eapply eta_of_g_fun; eauto.
Qed.

(** e -> eta agrees with e -> g -> eta *)
Lemma e2eta_via_g e1 e2 :
  e1e2_to_eta1eta2 e1 e2 =
  (let* (g1, g2) := e1e2_to_g1g2 e1 e2 in g1g2_to_eta1eta2 g1 g2).
Proof.
  destruct (Rlt_dec (cmod2 (e1,e2)) 1) as [D|D].
  - unfold e1e2_to_eta1eta2, unwrap1, e1e2_to_eta1eta2_arr. cbn [map existsb fst snd].
    fold (modl e1 e2). pose proof D as D'. apply (modl_disk e1 e2) in D'.
    rewrite Rleb_f by exact D'. cbn [orb bind].
    destruct (e2g_cases _ _ D) as [(-> & -> & E)|(g & Hg & He & Eg & Hge & E)]; rewrite E; cbn [bind].
    + replace (modl 0 0) with 0 by (symmetry; apply modl_0; auto).
      rewrite Rltb_f by lra. rewrite g2eta_eq.
      * replace (modl 0 0) with 0 by (symmetry; apply modl_0; auto). rewrite Reqb_t; reflexivity.
      * unfold in_disk, cmod2; cbn; lra.
    + rewrite Rltb_t by lra. set (m := modl e1 e2) in *.
      assert (Em : modl (g/m*e1) (g/m*e2) = g).
      { rewrite modl_scale. fold m. field; lra.
        apply Rmult_le_pos; [lra|]. apply Rlt_le, Rinv_0_lt_compat; lra. }
      rewrite g2eta_eq.
      * rewrite Em. rewrite Reqb_f by lra. rewrite Eg, arctanh_tanh.
        rewrite <- Eg. f_equal. f_equal; field; lra.
      * apply modl_disk. rewrite Em. lra.
  - rewrite e2g_raise by exact D. cbn [bind].
    unfold e1e2_to_eta1eta2, unwrap1, e1e2_to_eta1eta2_arr. cbn [map existsb fst snd].
    assert (D' : ~ modl e1 e2 < 1) by (intros C; apply D; apply (proj2 (modl_disk e1 e2)); exact C).
    fold (modl e1 e2). rewrite Rleb_t by lra. reflexivity.
Qed.

(** ** array branches agree with the scalar branch, up to the clip *)
Lemma existsb_mod (l : list (R*R)) :
  existsb (fun g => Rleb 1 g) (map (fun p => sqrt (fst p * fst p + snd p * snd p)) l) = true <->
  exists p, In p l /\ ~ in_disk p.
Proof.
  induction l as [|[a b] l IH]; cbn [map existsb fst snd].
  - split; [discriminate|]. intros (p & [] & _).
  - rewrite orb_true_iff, IH. fold (modl a b). rewrite Rleb_true. split.
    + intros [H|(p & Hp & Hd)].
      * exists (a,b). split; [left; reflexivity|]. rewrite modl_disk. lra.
      * exists p. split; [right; exact Hp|exact Hd].
    + intros (p & [<-|Hp] & Hd).
      * left. rewrite modl_disk in Hd. lra.
      * right. eauto.
Qed.

Lemma ome_eq : 1 - / 10000000000000000 = ONE_MINUS_EPS.
Proof. unfold ONE_MINUS_EPS; lra. Qed.

Lemma ome_pos : 0 < ONE_MINUS_EPS < 1. Proof. unfold ONE_MINUS_EPS; lra. Qed.

Lemma clip_mod m : 0 <= m -> clip m 0 ONE_MINUS_EPS = if Rleb m ONE_MINUS_EPS then m else ONE_MINUS_EPS.
Proof.
  intros H. unfold clip. rewrite Rmax_left by exact H. pose proof ome_pos.
  rcase; [apply Rmin_left|apply Rmin_right]; lra.
Qed.

Lemma clamp_scale m f a b : 0 < m -> 0 <= f -> m = modl a b ->
  clamp_mod (f/m*a, f/m*b) = (clip f 0 ONE_MINUS_EPS / m * a, clip f 0 ONE_MINUS_EPS / m * b).
Proof.
  intros Hm Hf E. unfold clamp_mod, cmod2; cbn [fst snd]; rewrite ome_eq.
  fold (modl (f/m*a) (f/m*b)). pose proof (Rinv_0_lt_compat _ Hm) as Hi.
  rewrite modl_scale by (apply Rmult_le_pos; lra). rewrite <- E.
  replace (f/m*m) with f by (field; lra).
  rewrite clip_mod by exact Hf. pose proof ome_pos.
  rcase; [reflexivity|]. f_equal; field; lra.
Qed.

Lemma g2e_arr_eq l :
  (forall p, In p l -> in_disk p) ->
  exists out, g1g2_to_e1e2_arr l = Ok out /\
    Forall2 (fun p q => exists e, g1g2_to_e1e2 (fst p) (snd p) = Ok e /\ q = clamp_mod e) l out.
Proof.
  intros H. unfold g1g2_to_e1e2_arr.
  destruct (existsb _ _) eqn:X; [exfalso; apply existsb_mod in X as (p & Hp & Hd); exact (Hd (H p Hp))|].
  eexists; split; [reflexivity|]. clear X.
  induction l as [|[a b] l IH]; cbn [map]; constructor.
  - cbn [fst snd]. fold (modl a b).
    pose proof (H (a,b) (or_introl eq_refl)) as Hd. apply modl_disk in Hd.
    unfold g1g2_to_e1e2. fold (modl a b). rewrite Rleb_f by exact Hd.
    pose proof (modl_nonneg a b).
    destruct (Reqb_spec (modl a b) 0) as [E|E]; cbn [negb].
    + exists (0,0). split; [reflexivity|]. unfold clamp_mod, cmod2; cbn [fst snd]; rewrite ome_eq.
      replace (0*0+0*0) with 0 by ring. rewrite sqrt_0. rewrite Rleb_t; [reflexivity|].
      pose proof ome_pos; lra.
    + rewrite (Rleb_f 1) by apply tanh_lt_1. eexists; split; [reflexivity|].
      symmetry. apply clamp_scale; [lra| |reflexivity].
      apply Rlt_le, tanh_pos. pose proof (arctanh_pos (modl a b) ltac:(lra)). lra.
  - apply IH. intros p Hp; apply H; right; exact Hp.
Qed.

Lemma e2g_arr_eq l :
  (forall p, In p l -> in_disk p) ->
  exists out, e1e2_to_g1g2_arr l = Ok out /\
    Forall2 (fun p q => exists e, e1e2_to_g1g2 (fst p) (snd p) = Ok e /\ q = clamp_mod e) l out.
Proof.
  intros H. unfold e1e2_to_g1g2_arr.
  destruct (existsb _ _) eqn:X; [exfalso; apply existsb_mod in X as (p & Hp & Hd); exact (Hd (H p Hp))|].
  eexists; split; [reflexivity|]. clear X.
  induction l as [|[a b] l IH]; cbn [map]; constructor.
  - cbn [fst snd]. fold (modl a b).
    pose proof (H (a,b) (or_introl eq_refl)) as Hd. apply modl_disk in Hd.
    unfold e1e2_to_g1g2. fold (modl a b). rewrite Rleb_f by exact Hd.
    pose proof (modl_nonneg a b).
    destruct (Reqb_spec (modl a b) 0) as [E|E]; cbn [negb].
    + exists (0,0). split; [reflexivity|]. unfold clamp_mod, cmod2; cbn [fst snd]; rewrite ome_eq.
      replace (0*0+0*0) with 0 by ring. rewrite sqrt_0. rewrite Rleb_t; [reflexivity|].
      pose proof ome_pos; lra.
    + rewrite (Rleb_f 1) by apply tanh_lt_1. eexists; split; [reflexivity|].
      symmetry. apply clamp_scale; [lra| |reflexivity].
      apply Rlt_le, tanh_pos. pose proof (arctanh_pos (modl a b) ltac:(lra)). lra.
  - apply IH. intros p Hp; apply H; right; exact Hp.
Qed.

Lemma g2eta_arr_eq l :
  (forall p, In p l -> in_disk p) ->
  exists out, g1g2_to_eta1eta2_arr l = Ok out /\
    Forall2 (fun p q => g1g2_to_eta1eta2 (fst p) (snd p) = Ok q) l out.
Proof.
  intros H. unfold g1g2_to_eta1eta2_arr.
  destruct (existsb _ _) eqn:X; [exfalso; apply existsb_mod in X as (p & Hp & Hd); exact (Hd (H p Hp))|].
  eexists; split; [reflexivity|]. clear X.
  induction l as [|[a b] l IH]; cbn [map]; constructor.
  - cbn [fst snd]. fold (modl a b).
    pose proof (H (a,b) (or_introl eq_refl)) as Hd. rewrite g2eta_eq by exact Hd.
    pose proof (modl_nonneg a b).
    destruct (Reqb_spec (modl a b) 0) as [E|E]; [rewrite Rltb_f by lra | rewrite Rltb_t by lra]; reflexivity.
  - apply IH. intros p Hp; apply H; right; exact Hp.
Qed.

Lemma e2eta_arr_eq l :
  (forall p, In p l -> in_disk p) ->
  exists out, e1e2_to_eta1eta2_arr l = Ok out /\
    Forall2 (fun p q => e1e2_to_eta1eta2 (fst p) (snd p) = Ok q) l out.
Proof.
  intros H. unfold e1e2_to_eta1eta2_arr.
  destruct (existsb _ _) eqn:X; [exfalso; apply existsb_mod in X as (p & Hp & Hd); exact (Hd (H p Hp))|].
  eexists; split; [reflexivity|]. clear X.
  induction l as [|[a b] l IH]; cbn [map]; constructor.
  - cbn [fst snd]. pose proof (H (a,b) (or_introl eq_refl)) as Hd. apply modl_disk in Hd.
    unfold e1e2_to_eta1eta2, unwrap1, e1e2_to_eta1eta2_arr. cbn [map existsb fst snd].
    fold (modl a b). rewrite Rleb_f by exact Hd. reflexivity.
  - apply IH. intros p Hp; apply H; right; exact Hp.
Qed.

Lemma eta2g_arr_eq l :
  exists out, eta1eta2_to_g1g2_arr l = Ok out /\
    Forall2 (fun p q => eta1eta2_to_g1g2 (fst p) (snd p) = Ok q) l out.
Proof.
  unfold eta1eta2_to_g1g2_arr.
  destruct (existsb _ _) eqn:X.
  - exfalso. apply existsb_exists in X as (x & Hx & Hr). apply in_map_iff in Hx as (p & <- & _).
    rewrite Rleb_true in Hr. pose proof (tanh_lt_1 (/ 2 * sqrt (fst p * fst p + snd p * snd p))). lra.
  - eexists; split; [reflexivity|]. clear X.
    induction l as [|[a b] l IH]; cbn [map]; constructor; [|exact IH].
    cbn [fst snd]. rewrite eta2g_eq. fold (modl a b). rcase; reflexivity.
Qed.

Lemma arr_raise l :
  (exists p, In p l /\ ~ in_disk p) ->
  g1g2_to_e1e2_arr l = Raise GMixRangeError /\ e1e2_to_g1g2_arr l = Raise GMixRangeError /\
  g1g2_to_eta1eta2_arr l = Raise GMixRangeError /\ e1e2_to_eta1eta2_arr l = Raise GMixRangeError.
Proof.
  intros H. apply existsb_mod in H.
  unfold g1g2_to_e1e2_arr, e1e2_to_g1g2_arr, g1g2_to_eta1eta2_arr, e1e2_to_eta1eta2_arr.
  rewrite H. auto.
Qed.

(** ** Jacobian determinant *)

Lemma derivable_pt_lim_local f g x l :
  (exists d, 0 < d /\ forall h, Rabs h < d -> f (x+h) = g (x+h)) ->
  derivable_pt_lim f x l -> derivable_pt_lim g x l.
Proof.
  intros (d & Hd & E) H eps Heps. destruct (H eps Heps) as [del Hdel].
  assert (Hm : 0 < Rmin d del) by (apply Rmin_pos; [exact Hd|apply cond_pos]).
  exists (mkposreal _ Hm). intros h Hh Hlt. cbn in Hlt.
  assert (E0 : f x = g x).
  { specialize (E 0). rewrite Rplus_0_r in E. apply E. rewrite Rabs_R0; exact Hd. }
  rewrite <- E0, <- E.
  - apply Hdel; [exact Hh|]. eapply Rlt_le_trans; [exact Hlt|apply Rmin_r].
  - eapply Rlt_le_trans; [exact Hlt|apply Rmin_l].
Qed.

Lemma derivable_pt_lim_lin a b x : derivable_pt_lim (fun t => a * t + b) x a.
Proof.
  assert (H : derivable_pt_lim (mult_real_fct a id + fct_cte b) x (a*1+0)).
  { apply derivable_pt_lim_plus; [apply derivable_pt_lim_scal, derivable_pt_lim_id
                                 |apply derivable_pt_lim_const]. }
  replace (a*1+0) with a in H by ring. exact H.
Qed.

(** a quadratic over a quadratic *)
Lemma derivable_quad a b c x : derivable_pt_lim (fun t => a*t*t + b*t + c) x (2*a*x + b).
Proof.
  assert (H : derivable_pt_lim (plus_fct (mult_fct (fun t => a*t+b) id) (fct_cte c)) x ((a * x + (a*x+b)*1) + 0)).
  { apply derivable_pt_lim_plus; [|apply derivable_pt_lim_const].
    apply (derivable_pt_lim_mult (fun t => a*t+b) id x a 1);
      [apply derivable_pt_lim_lin|apply derivable_pt_lim_id]. }
  replace (2*a*x+b) with ((a * x + (a*x+b)*1) + 0) by ring.
  eapply derivable_pt_lim_local; [|exact H]. exists 1; split; [lra|].
  intros h _. unfold plus_fct, mult_fct, fct_cte, id. ring.
Qed.

Lemma derivable_ratio a b c d e f x :
  d*x*x+e*x+f <> 0 ->
  derivable_pt_lim (fun t => (a*t*t+b*t+c)/(d*t*t+e*t+f)) x
   (((2*a*x+b)*(d*x*x+e*x+f) - (2*d*x+e)*(a*x*x+b*x+c))/((d*x*x+e*x+f)*(d*x*x+e*x+f))).
Proof.
  intros H.
  pose proof (derivable_pt_lim_div (fun t => a*t*t+b*t+c) (fun t => d*t*t+e*t+f) x _ _
     (derivable_quad a b c x) (derivable_quad d e f x) H) as D.
  exact D.
Qed.

(** the denominator does not vanish near the point *)
Lemma quad_local_nz d e f x :
  d*x*x+e*x+f <> 0 -> exists del, 0 < del /\ forall h, Rabs h < del -> d*(x+h)*(x+h)+e*(x+h)+f <> 0.
Proof.
  intros H.
  assert (Cc : continuity_pt (fun t => d*t*t+e*t+f) x).
  { apply derivable_continuous_pt. eexists. apply derivable_quad. }
  destruct (continuous_neq_0 (fun t => d*t*t+e*t+f) x Cc H) as [del Hdel].
  exists del. split; [apply cond_pos|exact Hdel].
Qed.

Lemma jacob_det g1 g2 s1 s2 J (f : R -> R -> R * R) :
  (forall a b z, shear_reduced a b s1 s2 = Ok z -> f a b = z) ->
  dgs_by_dgo_jacob g1 g2 s1 s2 = Ok J ->
  jacobian_det f g1 g2 J.
Proof.
  intros Hf HJ. unfold dgs_by_dgo_jacob in HJ.
  set (D := 1 + 2 * g1 * s1 + 2 * g2 * s2 + g1 ^ 2 * (s1 * s1 + s2 * s2) + g2 ^ 2 * (s1 * s1 + s2 * s2)) in *.
  destruct (Reqb_spec (D ^ 2) 0) as [E|E]; [discriminate|]. injection HJ as <-.
  assert (HD : D <> 0) by (intros C; apply E; rewrite C; ring).
  set (q := s1*s1+s2*s2) in *.
  (* value of f wherever the denominator is not zero *)
  assert (V : forall a b,
     1+2*a*s1+2*b*s2+a*a*q+b*b*q <> 0 ->
     f a b = (((1+a*s1+b*s2)*(a+s1)+(b*s1-a*s2)*(b+s2))/(1+2*a*s1+2*b*s2+a*a*q+b*b*q),
              ((1+a*s1+b*s2)*(b+s2)-(b*s1-a*s2)*(a+s1))/(1+2*a*s1+2*b*s2+a*a*q+b*b*q))).
  { intros a b Hn. apply Hf.
    assert (Q : (1+a*s1+b*s2)*(1+a*s1+b*s2)+(b*s1-a*s2)*(b*s1-a*s2) = 1+2*a*s1+2*b*s2+a*a*q+b*b*q)
      by (unfold q; ring).
    rewrite shear_reduced_eq; cbv zeta; rewrite Q; [reflexivity|exact Hn]. }
  assert (HD' : 1+2*g1*s1+2*g2*s2+g1*g1*q+g2*g2*q <> 0).
  { replace (1+2*g1*s1+2*g2*s2+g1*g1*q+g2*g2*q) with D by (unfold D; ring). exact HD. }
  assert (DX : q*g1*g1+2*s1*g1+(1+2*g2*s2+g2*g2*q) <> 0).
  { intros C; apply HD'. rewrite <- C; ring. }
  assert (DY : q*g2*g2+2*s2*g2+(1+2*g1*s1+g1*g1*q) <> 0).
  { intros C; apply HD'. rewrite <- C; ring. }
  unfold jacobian_det.
  (* numerators as polynomials of the moving coordinate *)
  exists (((2*s1*g1+(1+s1*s1-s2*s2))*(q*g1*g1+2*s1*g1+(1+2*g2*s2+g2*g2*q))
     - (2*q*g1+2*s1)*(s1*g1*g1+(1+s1*s1-s2*s2)*g1+(s1+s1*g2*g2+2*s1*s2*g2)))
     /((q*g1*g1+2*s1*g1+(1+2*g2*s2+g2*g2*q))*(q*g1*g1+2*s1*g1+(1+2*g2*s2+g2*g2*q)))).
  exists (((2*s1*g2+2*s1*s2)*(q*g2*g2+2*s2*g2+(1+2*g1*s1+g1*g1*q))
     - (2*q*g2+2*s2)*(s1*g2*g2+(2*s1*s2)*g2+(s1*g1*g1+(1+s1*s1-s2*s2)*g1+s1)))
     /((q*g2*g2+2*s2*g2+(1+2*g1*s1+g1*g1*q))*(q*g2*g2+2*s2*g2+(1+2*g1*s1+g1*g1*q)))).
  exists (((2*s2*g1+2*s1*s2)*(q*g1*g1+2*s1*g1+(1+2*g2*s2+g2*g2*q))
     - (2*q*g1+2*s1)*(s2*g1*g1+(2*s1*s2)*g1+(s2*g2*g2+(1+s2*s2-s1*s1)*g2+s2)))
     /((q*g1*g1+2*s1*g1+(1+2*g2*s2+g2*g2*q))*(q*g1*g1+2*s1*g1+(1+2*g2*s2+g2*g2*q)))).
  exists (((2*s2*g2+(1+s2*s2-s1*s1))*(q*g2*g2+2*s2*g2+(1+2*g1*s1+g1*g1*q))
     - (2*q*g2+2*s2)*(s2*g2*g2+(1+s2*s2-s1*s1)*g2+(s2+s2*g1*g1+2*s1*s2*g1)))
     /((q*g2*g2+2*s2*g2+(1+2*g1*s1+g1*g1*q))*(q*g2*g2+2*s2*g2+(1+2*g1*s1+g1*g1*q)))).
  destruct (quad_local_nz _ _ _ _ DX) as (dx & Hdx & NX).
  destruct (quad_local_nz _ _ _ _ DY) as (dy & Hdy & NY).
  repeat split.
  - eapply derivable_pt_lim_local; [|apply derivable_ratio; exact DX].
    exists dx. split; [exact Hdx|]. intros h Hh. specialize (NX h Hh).
    assert (N' : 1+2*(g1+h)*s1+2*g2*s2+(g1+h)*(g1+h)*q+g2*g2*q <> 0) by (intros C; apply NX; rewrite <- C; ring).
    rewrite V by exact N'. cbn [fst snd].
    replace (q*(g1+h)*(g1+h)+2*s1*(g1+h)+(1+2*g2*s2+g2*g2*q)) with
      (1+2*(g1+h)*s1+2*g2*s2+(g1+h)*(g1+h)*q+g2*g2*q) by ring.
    f_equal. ring.
  - eapply derivable_pt_lim_local; [|apply derivable_ratio; exact DY].
    exists dy. split; [exact Hdy|]. intros h Hh. specialize (NY h Hh).
    assert (N' : 1+2*g1*s1+2*(g2+h)*s2+g1*g1*q+(g2+h)*(g2+h)*q <> 0) by (intros C; apply NY; rewrite <- C; ring).
    rewrite V by exact N'. cbn [fst snd].
    replace (q*(g2+h)*(g2+h)+2*s2*(g2+h)+(1+2*g1*s1+g1*g1*q)) with
      (1+2*g1*s1+2*(g2+h)*s2+g1*g1*q+(g2+h)*(g2+h)*q) by ring.
    f_equal. ring.
  - eapply derivable_pt_lim_local; [|apply derivable_ratio; exact DX].
    exists dx. split; [exact Hdx|]. intros h Hh. specialize (NX h Hh).
    assert (N' : 1+2*(g1+h)*s1+2*g2*s2+(g1+h)*(g1+h)*q+g2*g2*q <> 0) by (intros C; apply NX; rewrite <- C; ring).
    rewrite V by exact N'. cbn [fst snd].
    replace (q*(g1+h)*(g1+h)+2*s1*(g1+h)+(1+2*g2*s2+g2*g2*q)) with
      (1+2*(g1+h)*s1+2*g2*s2+(g1+h)*(g1+h)*q+g2*g2*q) by ring.
    f_equal. ring.
  - eapply derivable_pt_lim_local; [|apply derivable_ratio; exact DY].
    exists dy. split; [exact Hdy|]. intros h Hh. specialize (NY h Hh).
    assert (N' : 1+2*g1*s1+2*(g2+h)*s2+g1*g1*q+(g2+h)*(g2+h)*q <> 0) by (intros C; apply NY; rewrite <- C; ring).
    rewrite V by exact N'. cbn [fst snd].
    replace (q*(g2+h)*(g2+h)+2*s2*(g2+h)+(1+2*g1*s1+g1*g1*q)) with
      (1+2*g1*s1+2*(g2+h)*s2+g1*g1*q+(g2+h)*(g2+h)*q) by ring.
    f_equal. ring.
  - replace (q*g1*g1+2*s1*g1+(1+2*g2*s2+g2*g2*q)) with D by (unfold D; ring).
    replace (q*g2*g2+2*s2*g2+(1+2*g1*s1+g1*g1*q)) with D by (unfold D; ring).
    assert (HD2 : D = 1+2*g1*s1+2*g2*s2+g1*g1*q+g2*g2*q) by (unfold D; ring).
    clearbody D. field_simplify_eq; [|exact HD]. subst D. unfold q. ring.
Qed.

Lemma jacob_defined g1 g2 s1 s2 :
  (exists J, dgs_by_dgo_jacob g1 g2 s1 s2 = Ok J) <->
  (exists z, shear_reduced g1 g2 s1 s2 = Ok z).
Proof.
  unfold dgs_by_dgo_jacob, shear_reduced.
  replace (1 + 2 * g1 * s1 + 2 * g2 * s2 + g1 ^ 2 * (s1 * s1 + s2 * s2) + g2 ^ 2 * (s1 * s1 + s2 * s2))
    with ((1+g1*s1+g2*s2)*(1+g1*s1+g2*s2)+(g2*s1-g1*s2)*(g2*s1-g1*s2)) by ring.
  set (D := (1+g1*s1+g2*s2)*(1+g1*s1+g2*s2)+(g2*s1-g1*s2)*(g2*s1-g1*s2)).
  destruct (Reqb_spec (D^2) 0) as [E|E], (Reqb_spec D 0) as [E'|E'].
  - split; intros [x H]; discriminate.
  - exfalso. apply E'. nra.
  - exfalso. apply E. rewrite E'. ring.
  - split; intros _; eexists; reflexivity.
Qed.

(** ** failed update *)
Lemma set_g1g2_ok self a b :
  in_disk (a,b) -> exists s', Shape_set_g1g2 self a b = (s', Ok tt) /\ Shape_init a b = Ok s'.
Proof.
  intros H. pose proof (Shape_init_ok _ _ H) as E.
  unfold Shape_set_g1g2, Shape_init in *. rcase; [discriminate|]. eexists; split; reflexivity.
Qed.

Lemma set_g1g2_raises_iff self a b :
  snd (Shape_set_g1g2 self a b) = Raise GMixRangeError <-> ~ in_disk (a,b).
Proof.
  rewrite modl_disk. unfold Shape_set_g1g2, modl. rcase; cbn [snd]; split; intros; try discriminate; auto; lra.
Qed.

Lemma set_g1g2_refuted :
  exists self a b self',
    valid_shape self /\ Shape_set_g1g2 self a b = (self', Raise GMixRangeError) /\ self' <> self
    /\ ~ valid_shape self' /\ sh_g1 self' = a /\ sh_g2 self' = b /\ sh_g self' = sh_g self.
Proof.
  exists (mkShape 0 0 0), 1, 0, (mkShape 1 0 0).
  assert (V : valid_shape (mkShape 0 0 0)).
  { apply init_valid; cbn [sh_g1 sh_g2]. rewrite Shape_init_ok.
    - replace (0*0+0*0) with 0 by ring. rewrite sqrt_0. reflexivity.
    - unfold in_disk, cmod2; cbn; lra. }
  split; [exact V|]. split; [|split; [|split; [|auto]]].
  - unfold Shape_set_g1g2; cbn [sh_g]. replace (1*1+0*0) with 1 by ring. rewrite sqrt_1.
    rewrite Rleb_t by lra. reflexivity.
  - intros H; injection H; lra.
  - intros H. destruct H as (D & _). unfold in_disk, cmod2 in D; cbn in D. lra.
Qed.

Lemma get_rotated_undo self t a :
  valid_shape self -> Shape_get_rotated self t = Ok a -> Shape_get_rotated a (-t) = Ok self.
Proof.
  intros Hv Ha. pose proof (get_rotated_valid _ _ _ Hv Ha) as Hva.
  pose proof (get_rotated_eq a (-t) Hva) as Hb.
  pose proof (get_rotated_compose _ _ _ _ _ Hv Ha Hb) as E.
  rewrite Hb. rewrite <- E. replace (t + - t) with 0 by ring.
  rewrite get_rotated_eq by exact Hv. rewrite rotate_zero. destruct self; reflexivity.
Qed.

Lemma copy_and_neg self : valid_shape self ->
  Shape_copy self = Ok self /\
  Shape_neg self = Ok (mkShape (- sh_g1 self) (- sh_g2 self) (sh_g self)).
Proof.
  intros Hv. split; [apply valid_init; exact Hv|]. unfold Shape_neg.
  pose proof (valid_disk _ Hv) as D. apply valid_init, Shape_init_inv in Hv as (_&_&_&E).
  rewrite Shape_init_ok.
  - rewrite E. f_equal. f_equal. f_equal. ring.
  - unfold in_disk, cmod2 in *; cbn [fst snd] in *. lra.
Qed.

Lemma scalar_raise x y : ~ in_disk (x,y) ->
  g1g2_to_e1e2 x y = Raise GMixRangeError /\ e1e2_to_g1g2 x y = Raise GMixRangeError /\
  g1g2_to_eta1eta2 x y = Raise GMixRangeError /\ e1e2_to_eta1eta2 x y = Raise GMixRangeError.
Proof.
  intros D. repeat split.
  - apply g2e_raise; exact D.
  - apply e2g_raise; exact D.
  - apply g2eta_raise; exact D.
  - rewrite e2eta_via_g, e2g_raise by exact D. reflexivity.
Qed.

Lemma clamp_meaning r :
  (sqrt (cmod2 r) <= 1 - / 10000000000000000 -> clamp_mod r = r) /\
  (in_disk r -> in_disk (clamp_mod r)) /\
  (r <> czero -> same_direction r (clamp_mod r)).
Proof.
  destruct r as [a b]. unfold clamp_mod, cmod2; cbn [fst snd]. rewrite ome_eq. fold (modl a b).
  pose proof (modl_nonneg a b) as Hn. pose proof ome_pos as Ho.
  split; [|split].
  - intros H. rewrite Rleb_t; [reflexivity|]. lra.
  - intros D. rcase; [exact D|]. apply modl_disk.
    assert (0 < modl a b) by lra.
    rewrite modl_scale.
    + replace (ONE_MINUS_EPS / modl a b * modl a b) with ONE_MINUS_EPS by (field; lra). lra.
    + apply Rmult_le_pos; [lra|]. apply Rlt_le, Rinv_0_lt_compat; lra.
  - intros N. rcase.
    + exists 1. cbn [fst snd]. split; [lra|f_equal; ring].
    + exists (ONE_MINUS_EPS / modl a b). split; [|reflexivity].
      apply Rmult_lt_0_compat; [lra|apply Rinv_0_lt_compat; lra].
Qed.
