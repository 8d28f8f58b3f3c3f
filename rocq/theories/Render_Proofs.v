From Verif Require Import Base Shape_Model Shape_Spec Moments_Model Moments_Spec Jacobian_Model Jacobian_Spec Pixels_Model Pixels_Spec Pixels_Proofs
  GMix_Model GMix_Spec GMix_Proofs FastExp_Model FastExp_Proofs Render_Model Render_Spec.

(** ** normalisation *)
Lemma low_pos : 0 < / 10 ^ 200.
Proof. apply Rinv_0_lt_compat. apply pow_lt. lra. Qed.

Lemma set_norm_ok g : coherent g -> evaluable g ->
  exists g', gauss2d_set_norm g = Ok g' /\ same_gauss g g' /\ norms_right g'.
Proof.
  intros Hc [H1 H2]. unfold gauss2d_set_norm, GMIX_LOW_DETVAL. rewrite <- Hc in H1.
  rewrite Rltb_f by exact H1. unfold trace2, gcov, cov in H2; cbn [xx yy] in H2.
  rewrite Rleb_f by lra. eexists; split; [reflexivity|].
  split; [unfold same_gauss; cbn; tauto|]. pose proof low_pos.
  assert (0 < sqrt (g_det g)) by (apply sqrt_lt_R0; lra). pose proof PI_RGT_0.
  split; [reflexivity|]. eexists; split; [reflexivity|]. cbn [g_irr g_irc g_icc g_det g_p n_drr n_drc n_dcc n_norm n_pnorm].
  repeat split; try (field; lra); field; repeat split; lra.
Qed.

Lemma set_norm_bad g : coherent g -> ~ evaluable g -> gauss2d_set_norm g = Raise GMixRangeError.
Proof.
  intros Hc H. unfold gauss2d_set_norm, GMIX_LOW_DETVAL. rcase; [reflexivity|]. rcase; [reflexivity|].
  exfalso. apply H. split; [rewrite <- Hc; assumption|]. unfold trace2, gcov, cov; cbn [xx yy]. lra.
Qed.

Lemma set_norms_ok gm : Forall coherent gm -> Forall evaluable gm ->
  exists gm', gmix_set_norms gm = (gm', Ok tt) /\ same_gmix gm gm' /\ Forall norms_right gm'.
Proof.
  induction gm as [|g gm IH]; intros Hc He; cbn [gmix_set_norms].
  - exists []. repeat split; constructor.
  - inversion Hc; inversion He; subst. destruct (set_norm_ok g) as (g' & E & S & N); auto. rewrite E.
    destruct IH as (gm' & E' & S' & N'); auto. rewrite E'. eexists; split; [reflexivity|]. split; constructor; auto.
Qed.
Lemma set_norms_bad gm : Forall coherent gm -> ~ Forall evaluable gm ->
  snd (gmix_set_norms gm) = Raise GMixRangeError.
Proof.
  induction gm as [|g gm IH]; intros Hc He; [exfalso; apply He; constructor|].
  inversion Hc; subst. cbn [gmix_set_norms].
  assert (D : evaluable g \/ ~ evaluable g).
  { unfold evaluable. destruct (Rle_dec (/ 10 ^ 200) (det2 (gcov g))); [|tauto]. destruct (Rlt_dec (/ 10 ^ 200) (trace2 (gcov g))); tauto. }
  destruct D as [Hg|Hg].
  - destruct (set_norm_ok g) as (g' & E & _ & _); auto. rewrite E.
    assert (~ Forall evaluable gm) by (intros K; apply He; constructor; auto).
    specialize (IH H2 H). destruct (gmix_set_norms gm). exact IH.
  - rewrite set_norm_bad by assumption. reflexivity.
Qed.

Lemma same_gauss_refl g : same_gauss g g. Proof. unfold same_gauss; tauto. Qed.
Lemma same_gmix_refl gm : same_gmix gm gm.
Proof. induction gm; constructor; auto using same_gauss_refl. Qed.

Lemma norms_if_needed gm : good_gmix gm ->
  exists gm', set_norms_if_needed gm = (gm', Ok tt) /\ same_gmix gm gm' /\ Forall norms_right gm'.
Proof.
  intros (Hn & Hc & He & Hk). unfold set_norms_if_needed. destruct gm as [|g gm]; [congruence|].
  destruct (g_norm_set g) eqn:E; cbn [negb].
  - exists (g :: gm). split; [reflexivity|]. split; [apply same_gmix_refl|]. apply (Hk g gm); auto.
  - apply set_norms_ok; assumption.
Qed.
Lemma norms_if_needed_bad gm : gm <> [] -> Forall coherent gm -> ~ Forall evaluable gm ->
  (forall g rest, gm = g :: rest -> g_norm_set g = false) ->
  snd (set_norms_if_needed gm) = Raise GMixRangeError.
Proof.
  intros Hn Hc He Hs. unfold set_norms_if_needed. destruct gm as [|g gm]; [congruence|].
  rewrite (Hs g gm) by reflexivity. cbn [negb]. apply set_norms_bad; assumption.
Qed.

(** ** evaluation of one component *)
Definition nondeg (g : gauss) := coherent g /\ 0 < g_det g.

Lemma same_transfer g g' : same_gauss g g' -> coherent g -> evaluable g -> coherent g' /\ 0 < g_det g' /\ (forall v u, component g' v u = component g v u) /\ g_p g' = g_p g /\ gcov g' = gcov g.
Proof.
  intros (E1 & E2 & E3 & E4 & E5 & E6 & E7) Hc He.
  assert (EG : gcov g' = gcov g) by (unfold gcov; congruence).
  unfold coherent. rewrite EG, <- E7. split; [exact Hc|]. split.
  - pose proof low_pos. destruct He. rewrite Hc. lra.
  - split; [|split; auto]. intros. unfold component. rewrite EG, <- E1, <- E2, <- E3. reflexivity.
Qed.

Lemma chi2_maha g n dv du : coherent g -> 0 < g_det g ->
  n_drr n = g_irr g / g_det g -> n_drc n = g_irc g / g_det g -> n_dcc n = g_icc g / g_det g ->
  gauss_chi2 n dv du = maha (gcov g) dv du.
Proof.
  intros Hc Hd A B C. unfold gauss_chi2, maha. rewrite A, B, C. rewrite <- Hc. unfold gcov, cov; cbn [xx xy yy]. field. lra.
Qed.
Lemma maha_nonneg g dv du : coherent g -> 0 < g_det g -> 0 < g_irr g + g_icc g -> 0 <= maha (gcov g) dv du.
Proof.
  intros Hc Hd HT. unfold maha. rewrite <- Hc.
  apply Rmult_le_pos; [|left; apply Rinv_0_lt_compat; exact Hd].
  unfold coherent, gcov, cov, det2 in *; cbn [xx xy yy] in *.
  set (a := g_icc g) in *. set (b := g_irc g) in *. set (c := g_irr g) in *.
  assert (0 < a * c) by nra. assert (0 < a) by nra. assert (0 < c) by nra.
  assert (0 <= a * (a * dv^2 - 2*b*dv*du + c*du^2)).
  { replace (a * (a * dv^2 - 2*b*dv*du + c*du^2)) with ((a*dv - b*du)^2 + (a*c - b*b)*du^2) by ring.
    pose proof (pow2_ge_0 (a*dv-b*du)). pose proof (pow2_ge_0 du).
    assert (0 <= (a*c-b*b)*du^2) by (apply Rmult_le_pos; lra). lra. }
  apply Rmult_le_reg_l with a; [assumption|]. rewrite Rmult_0_r. assumption.
Qed.

Lemma eval_exact g v u area : coherent g -> 0 < g_det g -> norms_right g ->
  gauss2d_eval_pixel g v u area = Some (component g v u * area).
Proof.
  intros Hc Hd (_ & n & En & A & B & C & D & F). unfold gauss2d_eval_pixel. rewrite En. cbv zeta.
  rewrite (chi2_maha g) by assumption. unfold component. rewrite F, <- Hc. do 2 f_equal.
  replace (- (5/10) * maha (gcov g) (v - g_row g) (u - g_col g)) with (- maha (gcov g) (v - g_row g) (u - g_col g) / 2) by field.
  field. assert (0 < sqrt (g_det g)) by (apply sqrt_lt_R0; exact Hd). pose proof PI_RGT_0. lra.
Qed.

Lemma exp_m125 : exp (-125/10) < 4/100000.
Proof.
  assert (H : 125/100 <= exp (1/4)).
  { pose proof (exp_ineq1 (1/4) ltac:(lra)). lra. }
  replace (-125/10) with (- (1/4 * 50)) by field. rewrite exp_Ropp.
  assert (E : exp (1/4 * 50) = exp (1/4) ^ 50).
  { replace 50 with (INR 50) by (cbn; ring). rewrite Rmult_comm. generalize 50%nat. intros k.
    induction k as [|k IH]; [cbn; rewrite Rmult_0_l; apply exp_0|]. rewrite S_INR, Rmult_plus_distr_r, exp_plus, IH.
    rewrite Rmult_1_l. cbn [pow]. ring. }
  rewrite E. assert (L : 25001 < exp (1/4) ^ 50).
  { apply Rlt_le_trans with ((125/100)^50); [lra|]. apply pow_incr. lra. }
  replace (4/100000) with (/ 25000) by field. apply Rinv_lt_contravar; lra.
Qed.

Lemma eval_fast g v u area : coherent g -> 0 < g_det g -> 0 < g_irr g + g_icc g -> norms_right g ->
  exists y, gauss2d_eval_pixel_fast g v u area = Ok y /\
    Rabs (y - component g v u * area) <= 4/100000 * (Rabs (g_p g) / (2 * PI * sqrt (det2 (gcov g)))) * Rabs area.
Proof.
  intros Hc Hd HT (_ & n & En & A & B & C & D & F). unfold gauss2d_eval_pixel_fast. rewrite En. cbv zeta.
  rewrite (chi2_maha g) by assumption. pose proof (maha_nonneg g (v - g_row g) (u - g_col g) Hc Hd HT) as M.
  set (t := maha (gcov g) (v - g_row g) (u - g_col g)) in *.
  assert (Hs : 0 < sqrt (g_det g)) by (apply sqrt_lt_R0; exact Hd). pose proof PI_RGT_0 as HPI.
  assert (HN : 0 < / (2 * PI * sqrt (g_det g))) by (apply Rinv_0_lt_compat; nra).
  assert (EC : component g v u = n_pnorm n * exp (- t / 2)).
  { unfold component. fold t. rewrite F, <- Hc. field. lra. }
  assert (EP : Rabs (g_p g) / (2 * PI * sqrt (det2 (gcov g))) = Rabs (n_pnorm n)).
  { rewrite F, <- Hc. unfold Rdiv. rewrite Rabs_mult. f_equal. rewrite Rabs_right; lra. }
  rewrite EC, EP. unfold FASTEXP_MAX_CHI2.
  destruct (Rltb_spec t 25) as [H25|H25].
  - rewrite (Rleb_t 0 t) by exact M. cbn [andb].
    destruct (fexp_spec (- (5/10) * t) ltac:(lra)) as (y & Ey & By). rewrite Ey. cbn [bind]. eexists; split; [reflexivity|].
    replace (- (5/10) * t) with (- t / 2) in By by field.
    assert (E1 : exp (- t / 2) <= 1).
    { destruct (Req_dec t 0) as [E0|]; [rewrite E0; replace (- 0 / 2) with 0 by field; rewrite exp_0; lra|]. rewrite <- exp_0. left. apply exp_increasing. lra. }
    replace (n_pnorm n * y * area - n_pnorm n * exp (- t / 2) * area) with (n_pnorm n * (y - exp (- t/2)) * area) by ring.
    rewrite !Rabs_mult. apply Rmult_le_compat_r; [apply Rabs_pos|]. rewrite (Rmult_comm (4/100000)).
    apply Rmult_le_compat_l; [apply Rabs_pos|]. pose proof (exp_pos (- t/2)). nra.
  - cbn [andb]. eexists; split; [reflexivity|].
    replace (0 - n_pnorm n * exp (- t / 2) * area) with (n_pnorm n * (- exp (- t/2)) * area) by ring.
    rewrite !Rabs_mult. apply Rmult_le_compat_r; [apply Rabs_pos|]. rewrite (Rmult_comm (4/100000)).
    apply Rmult_le_compat_l; [apply Rabs_pos|]. rewrite Rabs_Ropp, Rabs_right by (left; apply exp_pos).
    left. apply Rle_lt_trans with (exp (-125/10)); [|apply exp_m125].
    destruct (Req_dec t 25) as [->|]; [right; f_equal; field|]. left. apply exp_increasing. lra.
Qed.

(** ** mixtures *)
Lemma nan_fold gm v u area a : Forall (fun g => gauss2d_eval_pixel g v u area <> None) gm ->
  fold_left (fun m g => nan_add m (gauss2d_eval_pixel g v u area)) gm (Some a) =
  Some (a + rsum (map (fun g => match gauss2d_eval_pixel g v u area with Some x => x | None => 0 end) gm)).
Proof.
  intros H. revert a. induction H as [|g gm Hg H IH]; intros a; cbn [fold_left map].
  - rewrite rsum_nil, Rplus_0_r. reflexivity.
  - destruct (gauss2d_eval_pixel g v u area) as [x|] eqn:E; [|congruence]. cbn [nan_add]. rewrite IH, rsum_cons. f_equal. ring.
Qed.

Lemma good_parts gm gm' : Forall coherent gm -> Forall evaluable gm -> same_gmix gm gm' ->
  Forall (fun g => coherent g /\ 0 < g_det g /\ 0 < g_irr g + g_icc g) gm' /\
  (forall v u, brightness gm' v u = brightness gm v u) /\ peak gm' = peak gm.
Proof.
  intros Hc He S. induction S as [|a b la lb Hab S IH]; [repeat split; try constructor|].
  apply Forall_cons_iff in Hc. apply Forall_cons_iff in He. destruct Hc as [Ca Hc], He as [Ea He].
  destruct IH as (A & B & C); auto.
  destruct (same_transfer a b Hab) as (P & Q & R' & U & V); auto.
  split; [constructor; auto|].
  { split; [auto|]. split; [auto|]. destruct Ea as [_ Ea]. pose proof low_pos. rewrite <- V in Ea. unfold trace2, gcov, cov in Ea; cbn in Ea. lra. }
  split.
  - intros. unfold brightness in *; cbn [map]. rewrite !rsum_cons, R', B. reflexivity.
  - unfold peak in *; cbn [map]. rewrite !rsum_cons, C, U, V. reflexivity.
Qed.

Lemma eval_pixel_exact gm v u area :
  Forall (fun g => coherent g /\ 0 < g_det g /\ 0 < g_irr g + g_icc g) gm -> Forall norms_right gm ->
  gmix_eval_pixel gm v u area = Some (brightness gm v u * area).
Proof.
  intros H N. unfold gmix_eval_pixel. rewrite nan_fold.
  - f_equal. rewrite Rplus_0_l. unfold brightness. rewrite <- rsum_map_scale_r. apply rsum_map_ext.
    intros g Hg. rewrite Forall_forall in H, N. destruct (H g Hg) as (A & B & _). rewrite eval_exact; auto.
  - rewrite Forall_forall in *. intros g Hg. destruct (H g Hg) as (A & B & _). rewrite eval_exact; auto. discriminate.
Qed.

Lemma eval_pixel_fast gm v u area :
  Forall (fun g => coherent g /\ 0 < g_det g /\ 0 < g_irr g + g_icc g) gm -> Forall norms_right gm ->
  exists y, gmix_eval_pixel_fast gm v u area = Ok y /\
    Rabs (y - brightness gm v u * area) <= 4/100000 * peak gm * Rabs area.
Proof.
  intros H N. unfold gmix_eval_pixel_fast.
  assert (G : forall a, exists y, foldM (fun m g => let* x := gauss2d_eval_pixel_fast g v u area in Ok (m + x)) gm a = Ok y /\
     Rabs (y - (a + brightness gm v u * area)) <= 4/100000 * peak gm * Rabs area).
  { induction gm as [|g gm IH]; intros a; cbn [foldM].
    - exists a. split; [reflexivity|]. unfold brightness, peak; cbn [map]. rewrite !rsum_nil.
      replace (a - (a + 0 * area)) with 0 by ring. rewrite Rabs_R0. lra.
    - inversion H as [|? ? Hg H']; inversion N as [|? ? Ng N']; subst. destruct Hg as (A & B & C).
      destruct (eval_fast g v u area A B C Ng) as (x & Ex & Bx). rewrite Ex. cbn [bind].
      destruct (IH H' N' (a + x)) as (y & Ey & By). exists y. split; [exact Ey|].
      unfold brightness, peak in *; cbn [map]. rewrite !rsum_cons.
      set (b := rsum (map (fun g => component g v u) gm)) in *. set (pk := rsum (map _ gm)) in *.
      replace (y - (a + (component g v u + b) * area)) with ((y - (a + x + b * area)) + (x - component g v u * area)) by ring.
      eapply Rle_trans; [apply Rabs_triang|]. lra. }
  destruct (G 0) as (y & Ey & By). exists y. split; [exact Ey|]. rewrite Rplus_0_l in By. exact By.
Qed.

(** fast evaluation never fails, whatever the state of the mixture *)
Lemma fast_total gm v u area : exists y, gmix_eval_pixel_fast gm v u area = Ok y.
Proof.
  unfold gmix_eval_pixel_fast. generalize 0. induction gm as [|g gm IH]; intros a; cbn [foldM]; [eauto|].
  assert (exists x, gauss2d_eval_pixel_fast g v u area = Ok x) as [x ->].
  { unfold gauss2d_eval_pixel_fast. destruct (g_nrm g) as [n|]; [|eauto]. cbv zeta.
    set (t := gauss_chi2 _ _ _). unfold FASTEXP_MAX_CHI2. destruct (Rltb_spec t 25); cbn [andb]; [|eauto].
    destruct (Rleb_spec 0 t); [|eauto]. destruct (fexp_spec (- (5/10) * t) ltac:(lra)) as (y & -> & _). cbn [bind]. eauto. }
  cbn [bind]. apply IH.
Qed.
Definition fastval (gm : gmix) (v u area : R) : R :=
  match gmix_eval_pixel_fast gm v u area with Ok y => y | Raise _ => 0 end.
Lemma fastval_eq gm v u area : gmix_eval_pixel_fast gm v u area = Ok (fastval gm v u area).
Proof. unfold fastval. destruct (fast_total gm v u area) as [y ->]. reflexivity. Qed.

(** ** rendering *)
Lemma upd_length {A} (l : list A) i x : length (upd l i x) = length l.
Proof. revert i; induction l; intros [|i]; cbn; auto. Qed.

Lemma put_ok {A} (l : list A) i x : (i < length l)%nat -> put l i x = Ok (upd l i x).
Proof. intros H. unfold put. destruct (Nat.ltb_spec i (length l)); [reflexivity|lia]. Qed.

Lemma render_loop (f : coord -> option R) coords image :
  length coords = length image ->
  foldM (fun image icoord =>
      match nth_error coords icoord, nth_error image icoord with
      | Some c, Some old => put image icoord (nan_add old (f c))
      | _, _ => Raise OtherError
      end) (seq 0 (length coords)) image =
  Ok (map (fun ci => nan_add (snd ci) (f (fst ci))) (combine coords image)).
Proof.
  intros HL.
  assert (G : forall done todo cd ct, length cd = length done -> length ct = length todo ->
    foldM (fun image icoord =>
      match nth_error (cd ++ ct) icoord, nth_error image icoord with
      | Some c, Some old => put image icoord (nan_add old (f c))
      | _, _ => Raise OtherError
      end) (seq (length done) (length todo)) (done ++ todo) =
    Ok (done ++ map (fun ci => nan_add (snd ci) (f (fst ci))) (combine ct todo))).
  { intros done todo; revert done; induction todo as [|x todo IH]; intros done cd ct H1 H2.
    - destruct ct; [|discriminate]. cbn. rewrite app_nil_r. reflexivity.
    - destruct ct as [|c ct]; [discriminate|]. cbn [length seq foldM].
      rewrite (nth_error_app2 cd) by lia. rewrite (nth_error_app2 done) by lia.
      replace (length done - length cd)%nat with 0%nat by lia. rewrite Nat.sub_diag. cbn [nth_error bind].
      rewrite put_ok by (rewrite app_length; cbn; lia). cbn [bind].
      replace (upd (done ++ x :: todo) (length done) (nan_add x (f c))) with ((done ++ [nan_add x (f c)]) ++ todo).
      2:{ rewrite <- app_assoc. clear. induction done as [|d done IH]; [reflexivity|]. cbn. f_equal. exact IH. }
      specialize (IH (done ++ [nan_add x (f c)]) (cd ++ [c]) ct).
      assert (EL : length (done ++ [nan_add x (f c)]) = S (length done)) by (rewrite app_length; cbn; lia). rewrite EL in IH.
      rewrite <- !app_assoc in IH. cbn [app] in IH. rewrite <- app_assoc. cbn [app]. rewrite IH; [|rewrite app_length; cbn; lia|cbn in H2; lia].
      cbn [combine map]. reflexivity. }
  rewrite HL. exact (G [] image [] coords eq_refl HL).
Qed.

Lemma nth_error_combine {A B} (a : list A) (b : list B) i x y :
  nth_error a i = Some x -> nth_error b i = Some y -> nth_error (combine a b) i = Some (x, y).
Proof. revert b i; induction a; intros [|z b] [|i]; cbn; intros; try discriminate; [congruence|auto]. Qed.

(** image drawn with any per-coordinate function *)
Lemma make_image_gen gm nr nc j (fast : bool) (f : gmix -> coord -> option R) gm' :
  set_norms_if_needed gm = (gm', Ok tt) ->
  (forall c : coord, (if fast then let* y := gmix_eval_pixel_fast gm' (cd_v c) (cd_u c) (cd_area c) in Ok (Some y)
              else Ok (gmix_eval_pixel gm' (cd_v c) (cd_u c) (cd_area c))) = Ok (f gm' c)) ->
  exists im, make_image gm nr nc (Some j) fast = (gm', Ok im) /\ nrow im = nr /\ ncol im = nc /\
    forall r c, (r < nr)%nat -> (c < nc)%nat ->
      exists k, maps_to j (INR r) (INR c) (cd_v k) (cd_u k) /\ cd_area k = jscale j ^ 2 /\
        at2 im r c = nan_add (Some 0) (f gm' k).
Proof.
  intros Hs Hf. unfold make_image. destruct (make_coords_spec nr nc j) as (l & E & L & N). rewrite E.
  unfold render. rewrite Hs. cbn [bind].
  assert (RL : length l = length (repeat (Some 0 : option R) (nr * nc))) by (rewrite repeat_length; exact L).
  rewrite (foldM_ext _ (fun image icoord =>
      match nth_error l icoord, nth_error image icoord with
      | Some c, Some old => put image icoord (nan_add old (f gm' c))
      | _, _ => Raise OtherError
      end)).
  2:{ intros s i. destruct (nth_error l i) as [c|]; [|reflexivity]. destruct (nth_error s i); [|reflexivity]. rewrite Hf. reflexivity. }
  rewrite (render_loop (f gm') l _ RL). cbn [bind]. eexists; split; [reflexivity|]. split; [reflexivity|]. split; [reflexivity|].
  intros r c Hr Hc. destruct (N r c Hr Hc) as (k & Ek & M & AR). exists k. split; [exact M|]. split; [exact AR|].
  cbn [at2]. apply nth_error_nth. rewrite nth_error_map.
  rewrite (nth_error_combine l (repeat (Some 0) (nr * nc)) _ k (Some 0) Ek); [reflexivity|].
  rewrite nth_error_repeat; [reflexivity|]. nia.
Qed.

Lemma make_image_exact gm nr nc j : good_gmix gm ->
  exists gm' im, make_image gm nr nc (Some j) false = (gm', Ok im) /\ same_gmix gm gm' /\ good_gmix gm' /\
    nrow im = nr /\ ncol im = nc /\
    forall r c v u, (r < nr)%nat -> (c < nc)%nat -> maps_to j (INR r) (INR c) v u ->
      at2 im r c = Some (brightness gm v u * jscale j ^ 2).
Proof.
  intros H. destruct (norms_if_needed gm H) as (gm' & E & S & N).
  destruct H as (H0 & H1 & H2 & H3). destruct (good_parts gm gm' H1 H2 S) as (P & B & _).
  destruct (make_image_gen gm nr nc j false (fun _ k => Some (brightness gm (cd_v k) (cd_u k) * cd_area k)) gm' E) as (im & Ei & Nr & Nc & V).
  { intros c. rewrite eval_pixel_exact by assumption. rewrite B. reflexivity. }
  exists gm', im. split; [exact Ei|]. split; [exact S|]. split.
  { split. { destruct S; [congruence|discriminate]. }
    split. { eapply Forall_impl; [|exact P]. intros a Ha; apply Ha. }
    split. { clear - H2 S. induction S as [|a b la lb Hab S IH]; constructor; inversion H2; subst; auto.
             destruct Hab as (E1 & E2 & E3 & E4 & E5 & E6 & E7). unfold evaluable, gcov in *. rewrite <- E4, <- E5, <- E6. assumption. }
    intros g rest _ _. exact N. }
  split; [exact Nr|]. split; [exact Nc|]. intros r c v u Hr Hc [Mv Mu].
  destruct (V r c Hr Hc) as (k & [Mv' Mu'] & A & ->). cbn [nan_add]. rewrite A, Mv, Mu, Mv', Mu'. f_equal. ring.
Qed.

Lemma make_image_fast gm nr nc j : good_gmix gm ->
  exists gm' im, make_image gm nr nc (Some j) true = (gm', Ok im) /\ same_gmix gm gm' /\
    nrow im = nr /\ ncol im = nc /\
    forall r c v u, (r < nr)%nat -> (c < nc)%nat -> maps_to j (INR r) (INR c) v u ->
      exists y, at2 im r c = Some y /\
        Rabs (y - brightness gm v u * jscale j ^ 2) <= 4/100000 * peak gm * jscale j ^ 2.
Proof.
  intros H. destruct (norms_if_needed gm H) as (gm' & E & S & N).
  destruct H as (H0 & H1 & H2 & H3). destruct (good_parts gm gm' H1 H2 S) as (P & B & K).
  destruct (make_image_gen gm nr nc j true (fun gm' k => Some (fastval gm' (cd_v k) (cd_u k) (cd_area k))) gm' E) as (im & Ei & Nr & Nc & V).
  { intros c. rewrite fastval_eq. reflexivity. }
  exists gm', im. split; [exact Ei|]. split; [exact S|]. split; [exact Nr|]. split; [exact Nc|]. intros r c v u Hr Hc [Mv Mu].
  destruct (V r c Hr Hc) as (k & [Mv' Mu'] & A & ->). cbn [nan_add]. eexists; split; [reflexivity|].
  destruct (eval_pixel_fast gm' (cd_v k) (cd_u k) (cd_area k) P N) as (y & Ey & By).
  rewrite fastval_eq in Ey. injection Ey as Ey. rewrite <- Ey, B, K, A in By.
  assert (Ev : cd_v k = v) by congruence. assert (Eu : cd_u k = u) by congruence. rewrite A, Rplus_0_l, Ev, Eu. rewrite Ev, Eu in By. rewrite (Rabs_right (jscale j ^ 2)) in By by (apply Rle_ge, pow2_ge_0). exact By.
Qed.

Lemma default_jacobian_eq nr nc :
  exists j, default_jacobian nr nc = Ok j /\ jscale j = 1 /\
    forall r c, maps_to j (INR r) (INR c) (INR r - (INR nr - 1)/2) (INR c - (INR nc - 1)/2).
Proof.
  unfold default_jacobian, UnitJacobian_init, DiagonalJacobian_init. cbn. eexists; split; [reflexivity|].
  unfold finish_init; cbn [jscale]. split.
  - replace (1 * 1 - 0 * 0) with 1 by ring. rewrite Rabs_R1. apply sqrt_1.
  - intros. unfold maps_to; cbn. split; ring.
Qed.
Lemma make_image_default gm nr nc fast :
  exists j, make_image gm nr nc None fast = make_image gm nr nc (Some j) fast /\ jscale j = 1 /\
    forall r c, maps_to j (INR r) (INR c) (INR r - (INR nr - 1)/2) (INR c - (INR nc - 1)/2).
Proof.
  destruct (default_jacobian_eq nr nc) as (j & E & A & B). exists j. unfold make_image. rewrite E. auto.
Qed.
Lemma make_image_raises gm nr nc j fast : gm <> [] -> Forall coherent gm -> ~ Forall evaluable gm ->
  (forall g rest, gm = g :: rest -> g_norm_set g = false) ->
  snd (make_image gm nr nc (Some j) fast) = Raise GMixRangeError.
Proof.
  intros H1 H2 H3 H4. pose proof (norms_if_needed_bad gm H1 H2 H3 H4) as E.
  unfold make_image. destruct (make_coords_spec nr nc j) as (l & -> & _). unfold render.
  destruct (set_norms_if_needed gm) as [gm' r]. cbn in E. rewrite E. reflexivity.
Qed.

(** ** additivity, linearity *)
Lemma brightness_app a b v u : brightness (a ++ b) v u = brightness a v u + brightness b v u.
Proof. unfold brightness. rewrite map_app, rsum_app. reflexivity. Qed.
Lemma brightness_scale gm k v u : brightness (map (scale_gauss k) gm) v u = k * brightness gm v u.
Proof.
  unfold brightness. rewrite map_map, <- rsum_map_mult. apply rsum_map_ext. intros. unfold component, scale_gauss, gcov; cbn. unfold Rdiv. ring.
Qed.
Lemma maha_meaning m dv du : 0 < det2 m ->
  exists a b, xx m * a + xy m * b = du /\ xy m * a + yy m * b = dv /\ maha m dv du = a * du + b * dv.
Proof.
  intros H. exists ((yy m * du - xy m * dv) / det2 m), ((xx m * dv - xy m * du) / det2 m).
  unfold maha, det2 in *. repeat split; field; lra.
Qed.

(** ** likelihood *)
Lemma loglike_sum gm pixels :
  forall a b c n, foldM (loglike_body gm) pixels (a, b, c, n) =
  Ok (a + rsum (map (fun p => (fastval gm (px_v p) (px_u p) (px_area p) - px_val p)^2 * px_ierr p^2) pixels),
      b + rsum (map (fun p => px_val p * fastval gm (px_v p) (px_u p) (px_area p) * px_ierr p^2) pixels),
      c + rsum (map (fun p => fastval gm (px_v p) (px_u p) (px_area p) ^2 * px_ierr p^2) pixels),
      (n + length pixels)%nat).
Proof.
  induction pixels as [|p pixels IH]; intros; cbn [foldM map length].
  - rewrite !rsum_nil, !Rplus_0_r, Nat.add_0_r. reflexivity.
  - unfold loglike_body at 1. rewrite fastval_eq. cbn [bind]. rewrite IH, !rsum_cons. peq; (ring || lia).
Qed.

Lemma fdiff_loop gm' pixels : forall fdiff start k,
  (start + k + length pixels <= length fdiff)%nat ->
  exists fd, foldM (fun s p =>
      let '(fdiff, ipixel) := s in
      let* model_val := gmix_eval_pixel_fast gm' (px_v p) (px_u p) (px_area p) in
      let* fdiff' := put fdiff (start + ipixel) ((model_val - px_val p) * px_ierr p) in
      Ok (fdiff', S ipixel)) pixels (fdiff, k) = Ok (fd, (k + length pixels)%nat) /\
    fd = firstn (start + k) fdiff ++ map (fun p => (fastval gm' (px_v p) (px_u p) (px_area p) - px_val p) * px_ierr p) pixels
         ++ skipn (start + k + length pixels) fdiff.
Proof.
  induction pixels as [|p pixels IH]; intros fdiff start k H; cbn [foldM map length app].
  - exists fdiff. rewrite !Nat.add_0_r. split; [reflexivity|]. symmetry. apply firstn_skipn.
  - rewrite fastval_eq. cbn [bind]. cbn [length] in H.
    assert (Hk : (start + k < length fdiff)%nat) by lia. rewrite put_ok by exact Hk. cbn [bind].
    set (x := (fastval gm' (px_v p) (px_u p) (px_area p) - px_val p) * px_ierr p).
    destruct (IH (upd fdiff (start + k) x) start (S k)) as (fd & E & F); [rewrite upd_length; lia|].
    exists fd. split; [rewrite E; do 2 f_equal; lia|]. rewrite F. clear - Hk.
    replace (start + S k)%nat with (S (start + k)) by lia.
    replace (S (start + k) + length pixels)%nat with (start + k + S (length pixels))%nat by lia.
    assert (A : firstn (S (start + k)) (upd fdiff (start + k) x) = firstn (start + k) fdiff ++ [x]).
    { revert Hk. generalize (start + k)%nat. clear. intros i; revert fdiff; induction i as [|i IH]; intros [|y l] H; cbn in *; try lia; [reflexivity|].
      f_equal. apply IH. lia. }
    rewrite A, <- app_assoc. cbn [app]. do 3 f_equal.
    revert Hk. generalize (start + k)%nat (length pixels). clear. intros i n; revert fdiff; induction i as [|i IH]; intros [|y l] H; cbn in *; try lia; [reflexivity|]. apply IH. lia.
Qed.

(** all three functions, for a mixture in any state *)
Lemma likelihood_spec gm gm' pixels fdiff start :
  set_norms_if_needed gm = (gm', Ok tt) -> (start + length pixels <= length fdiff)%nat ->
  exists model : pixel R -> R,
    (forall p, gmix_eval_pixel_fast gm' (px_v p) (px_u p) (px_area p) = Ok (model p)) /\
    let resid p := (model p - px_val p) * px_ierr p in
    fill_fdiff gm pixels fdiff start = (gm', Ok (firstn start fdiff ++ map resid pixels ++ skipn (start + length pixels) fdiff)) /\
    get_loglike gm pixels =
      (gm', Ok (- rsum (map (fun p => resid p ^ 2) pixels) / 2,
                rsum (map (fun p => px_val p * model p * px_ierr p ^ 2) pixels),
                rsum (map (fun p => model p ^ 2 * px_ierr p ^ 2) pixels),
                length pixels)) /\
    get_model_s2n_sum gm pixels = (gm', Ok (rsum (map (fun p => model p ^ 2 * px_ierr p ^ 2) pixels))) /\
    get_model_s2n gm pixels = (gm', Ok (sqrt (rsum (map (fun p => model p ^ 2 * px_ierr p ^ 2) pixels)))).
Proof.
  intros Hs HL. exists (fun p => fastval gm' (px_v p) (px_u p) (px_area p)).
  split; [intros; apply fastval_eq|]. cbv zeta. unfold fill_fdiff, get_loglike, get_model_s2n, get_model_s2n_sum. rewrite Hs. cbn [bind].
  split. { destruct (fdiff_loop gm' pixels fdiff start 0) as (fd & E & F); [lia|]. rewrite E. cbn [bind]. rewrite F, Nat.add_0_r. reflexivity. }
  split. { rewrite loglike_sum. cbn [bind]. rewrite !Rplus_0_l, Nat.add_0_l. f_equal. f_equal. f_equal. f_equal. f_equal.
    rewrite (rsum_map_ext (fun p => (_ - px_val p)^2 * px_ierr p ^ 2) (fun p => ((fastval gm' (px_v p) (px_u p) (px_area p) - px_val p) * px_ierr p)^2)) by (intros; ring).
    field. }
  assert (G : forall a, foldM (fun s p =>
      let* model_val := gmix_eval_pixel_fast gm' (px_v p) (px_u p) (px_area p) in
      let ivar := px_ierr p * px_ierr p in
      Ok (s + model_val * model_val * ivar)) pixels a =
      Ok (a + rsum (map (fun p => fastval gm' (px_v p) (px_u p) (px_area p) ^2 * px_ierr p ^ 2) pixels))).
  { clear. induction pixels as [|p pixels IH]; intros a; cbn [foldM map]; [rewrite rsum_nil, Rplus_0_r; reflexivity|].
    rewrite fastval_eq. cbn [bind]. rewrite IH, rsum_cons. f_equal. ring. }
  rewrite G, Rplus_0_l. split; reflexivity.
Qed.

Lemma likelihood_good gm pixels fdiff start :
  good_gmix gm -> (start + length pixels <= length fdiff)%nat ->
  exists gm' model,
    same_gmix gm gm' /\
    (forall p, Rabs (model p - pixel_model gm p) <= 4/100000 * peak gm * Rabs (px_area p)) /\
    let resid p := (model p - px_val p) * px_ierr p in
    fill_fdiff gm pixels fdiff start = (gm', Ok (firstn start fdiff ++ map resid pixels ++ skipn (start + length pixels) fdiff)) /\
    get_loglike gm pixels =
      (gm', Ok (- rsum (map (fun p => resid p ^ 2) pixels) / 2,
                rsum (map (fun p => px_val p * model p * px_ierr p ^ 2) pixels),
                rsum (map (fun p => model p ^ 2 * px_ierr p ^ 2) pixels),
                length pixels)) /\
    get_model_s2n_sum gm pixels = (gm', Ok (rsum (map (fun p => model p ^ 2 * px_ierr p ^ 2) pixels))) /\
    get_model_s2n gm pixels = (gm', Ok (sqrt (rsum (map (fun p => model p ^ 2 * px_ierr p ^ 2) pixels)))).
Proof.
  intros H HL. destruct (norms_if_needed gm H) as (gm' & E & S & N).
  destruct (likelihood_spec gm gm' pixels fdiff start E HL) as (model & Hm & Rest).
  exists gm', model. split; [exact S|]. split; [|exact Rest].
  destruct H as (H0 & H1 & H2 & H3). destruct (good_parts gm gm' H1 H2 S) as (P & B & K).
  intros p. destruct (eval_pixel_fast gm' (px_v p) (px_u p) (px_area p) P N) as (y & Ey & By).
  rewrite Hm in Ey. injection Ey as <-. rewrite B, K in By. exact By.
Qed.

Lemma likelihood_raises gm pixels fdiff start e gm' :
  set_norms_if_needed gm = (gm', Raise e) ->
  fill_fdiff gm pixels fdiff start = (gm', Raise e) /\ get_loglike gm pixels = (gm', Raise e) /\
  get_model_s2n_sum gm pixels = (gm', Raise e) /\ get_model_s2n gm pixels = (gm', Raise e).
Proof. intros H. unfold fill_fdiff, get_loglike, get_model_s2n, get_model_s2n_sum. rewrite H. cbn [bind]. auto. Qed.

Lemma bad_gmix_raises gm pixels : gm <> [] -> Forall coherent gm -> ~ Forall evaluable gm ->
  (forall g rest, gm = g :: rest -> g_norm_set g = false) ->
  snd (get_loglike gm pixels) = Raise GMixRangeError.
Proof.
  intros H1 H2 H3 H4. pose proof (norms_if_needed_bad gm H1 H2 H3 H4) as E.
  unfold get_loglike. destruct (set_norms_if_needed gm) as [gm' r]. cbn in E. rewrite E. reflexivity.
Qed.

(** additivity over disjoint pixel sets; zero-weight pixels contribute nothing *)
Lemma loglike_app gm gm' a b la na da ca lb nb db cb :
  get_loglike gm a = (gm', Ok (la, na, da, ca)) -> get_loglike gm b = (gm', Ok (lb, nb, db, cb)) ->
  get_loglike gm (a ++ b) = (gm', Ok (la + lb, na + nb, da + db, (ca + cb)%nat)).
Proof.
  unfold get_loglike. destruct (set_norms_if_needed gm) as [g r]. destruct r as [[]|]; cbn [bind]; [|discriminate].
  rewrite !loglike_sum. cbn [bind]. intros Ea Eb. injection Ea as <- <- <- <- <-. injection Eb as <- <- <- <-.
  rewrite !map_app, !rsum_app, app_length. peq; cbn [pow]; (reflexivity || ring || lia).
Qed.
Lemma loglike_zero_weight gm gm' pixels l n d c :
  get_loglike gm pixels = (gm', Ok (l, n, d, c)) ->
  exists c', get_loglike gm (filter (fun p => negb (Reqb (px_ierr p) 0)) pixels) = (gm', Ok (l, n, d, c')).
Proof.
  unfold get_loglike. destruct (set_norms_if_needed gm) as [g r]. destruct r as [[]|]; cbn [bind]; [|discriminate].
  rewrite !loglike_sum. cbn [bind]. intros Ea. injection Ea as <- <- <- <- <-. eexists.
  assert (G : forall f : pixel R -> R, rsum (map (fun p => f p * px_ierr p ^ 2) (filter (fun p => negb (Reqb (px_ierr p) 0)) pixels)) =
     rsum (map (fun p => f p * px_ierr p ^ 2) pixels)).
  { intros f. clear. induction pixels as [|p pixels IH]; [reflexivity|]. cbn [filter]. destruct (Reqb_spec (px_ierr p) 0) as [E|E]; cbn [negb map].
    - rewrite IH, rsum_cons, E. ring.
    - rewrite !rsum_cons, IH. reflexivity. }
  rewrite !G. reflexivity.
Qed.

Lemma fdiff_too_short gm image_size pixels fdiff start :
  (length fdiff < start + image_size)%nat -> GMix_fill_fdiff gm image_size pixels fdiff start = (gm, Raise ValueError).
Proof. intros H. unfold GMix_fill_fdiff. destruct (Z.ltb_spec (Z.of_nat (length fdiff) - Z.of_nat start) (Z.of_nat image_size)); [reflexivity|lia]. Qed.
Lemma fdiff_long_enough gm image_size pixels fdiff start :
  (start + image_size <= length fdiff)%nat -> (length pixels <= image_size)%nat ->
  GMix_fill_fdiff gm image_size pixels fdiff start = fill_fdiff gm pixels fdiff start /\ (start + length pixels <= length fdiff)%nat.
Proof. intros H H2. unfold GMix_fill_fdiff. destruct (Z.ltb_spec (Z.of_nat (length fdiff) - Z.of_nat start) (Z.of_nat image_size)); [lia|]. split; [reflexivity|lia]. Qed.

(** ** how images combine *)
Lemma brightness_same a b v u : same_gmix a b -> brightness a v u = brightness b v u.
Proof.
  intros S. unfold brightness. induction S as [|x y la lb (E1 & E2 & E3 & E4 & E5 & E6 & E7) S IH]; [reflexivity|].
  cbn [map]. rewrite !rsum_cons, IH. f_equal. unfold component, gcov. congruence.
Qed.
Lemma image_additive a b ab nr nc j : good_gmix a -> good_gmix b -> good_gmix ab -> same_gmix ab (a ++ b) ->
  exists ia ib iab, snd (make_image a nr nc (Some j) false) = Ok ia /\ snd (make_image b nr nc (Some j) false) = Ok ib /\
    snd (make_image ab nr nc (Some j) false) = Ok iab /\
    forall r c, (r < nr)%nat -> (c < nc)%nat -> exists x y, at2 ia r c = Some x /\ at2 ib r c = Some y /\ at2 iab r c = Some (x + y).
Proof.
  intros Ha Hb Hab S.
  destruct (make_image_exact a nr nc j Ha) as (a' & ia & Ea & _ & _ & _ & _ & Va).
  destruct (make_image_exact b nr nc j Hb) as (b' & ib & Eb & _ & _ & _ & _ & Vb).
  destruct (make_image_exact ab nr nc j Hab) as (ab' & iab & Eab & _ & _ & _ & _ & Vab).
  exists ia, ib, iab. rewrite Ea, Eb, Eab. do 3 (split; [reflexivity|]). intros r c Hr Hc.
  eexists; eexists. split; [apply Va; auto; split; reflexivity|]. split; [apply Vb; auto; split; reflexivity|].
  rewrite Vab with (1 := Hr) (2 := Hc) (3 := conj eq_refl eq_refl).
  rewrite (brightness_same _ _ _ _ S), brightness_app. f_equal. ring.
Qed.
Lemma image_flux gm gm2 F nr nc j : good_gmix gm -> flux_of gm <> 0 -> gm_set_flux gm F = Some gm2 -> 
  exists i i2, snd (make_image gm nr nc (Some j) false) = Ok i /\ snd (make_image gm2 nr nc (Some j) false) = Ok i2 /\
    forall r c, (r < nr)%nat -> (c < nc)%nat -> exists x, at2 i r c = Some x /\ at2 i2 r c = Some (F / flux_of gm * x).
Proof.
  intros Ha HF E. unfold gm_set_flux in E.
  unfold np_div in E. fold (flux_of gm) in E. rewrite Reqb_f in E by exact HF. injection E as <-.
  set (rat := F / flux_of gm). assert (ER : rat = F / flux_of gm) by reflexivity.
  assert (G2 : good_gmix (map (scale_gauss rat) gm)).
  { destruct Ha as (A & B & C & D'). split; [destruct gm; [congruence|discriminate]|].
    split; [apply Forall_map; eapply Forall_impl; [|exact B]; intros g Hg; exact Hg|].
    split; [apply Forall_map; eapply Forall_impl; [|exact C]; intros g Hg; exact Hg|].
    intros g rest Eg. destruct gm as [|g0 gm]; [discriminate|]. cbn [map] in Eg. injection Eg as <- _. cbn. discriminate. }
  destruct (make_image_exact gm nr nc j Ha) as (a' & ia & Ea & _ & _ & _ & _ & Va).
  destruct (make_image_exact _ nr nc j G2) as (b' & ib & Eb & _ & _ & _ & _ & Vb).
  exists ia, ib. rewrite Ea, Eb. do 2 (split; [reflexivity|]). intros r c Hr Hc.
  eexists. split; [apply Va; auto; split; reflexivity|].
  rewrite Vb with (1 := Hr) (2 := Hc) (3 := conj eq_refl eq_refl). rewrite brightness_scale, ER. f_equal. ring.
Qed.

Lemma ex_good : good_gmix [gauss2d_set 1 0 0 4 1 3; gauss2d_set (-2) 1 1 1 0 1].
Proof.
  split; [discriminate|]. pose proof low_pos.
  assert (/ 10^200 < 1). { replace 1 with (/ 1) by apply Rinv_1. apply Rinv_lt_contravar; [rewrite Rmult_1_l; apply pow_lt; lra|]. apply Rlt_pow_R1; [lra|lia]. }
  split; [repeat constructor; unfold coherent, gcov, cov, det2, gauss2d_set; cbn; ring|].
  split; [repeat constructor; unfold evaluable, gcov, cov, det2, trace2, gauss2d_set; cbn [g_irr g_irc g_icc xx xy yy]; lra|].
  intros g rest E. injection E as <- _. discriminate.
Qed.
