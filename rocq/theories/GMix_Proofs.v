From Verif Require Import Base Shape_Model Shape_Spec Shape_Proofs Moments_Model Moments_Spec Moments_Proofs GMix_Model GMix_Spec.

(** ** sums *)
Lemma rsum_map_scale_r {A} (f : A -> R) k l : rsum (map (fun x => f x * k) l) = rsum (map f l) * k.
Proof. rewrite (rsum_map_ext _ (fun x => k * f x)) by (intros; ring). rewrite rsum_map_mult. ring. Qed.
Lemma rsum_map_minus {A} (f g : A -> R) l :
  rsum (map (fun x => f x - g x) l) = rsum (map f l) - rsum (map g l).
Proof. induction l as [|x l IH]; cbn [map]; rewrite ?rsum_nil, ?rsum_cons; [lra|rewrite IH; lra]. Qed.

Lemma rsum_flat_map {A B} (f : B -> R) (h : A -> list B) l :
  rsum (map f (flat_map h l)) = rsum (map (fun a => rsum (map f (h a))) l).
Proof. induction l as [|a l IH]; cbn [flat_map map]; [reflexivity|]. rewrite map_app, rsum_app, rsum_cons, IH. reflexivity. Qed.

Lemma mean_ext f g gm : (forall x, In x gm -> f x = g x) -> mean_of f gm = mean_of g gm.
Proof. intros H. unfold mean_of. f_equal. apply rsum_map_ext. intros x Hx. rewrite (H x Hx). reflexivity. Qed.
Lemma mean_plus f g gm : mean_of (fun x => f x + g x) gm = mean_of f gm + mean_of g gm.
Proof.
  unfold mean_of. rewrite (rsum_map_ext _ (fun x => g_p x * f x + g_p x * g x)) by (intros; ring).
  rewrite rsum_map_plus. unfold Rdiv. ring.
Qed.
Lemma mean_scale k f gm : mean_of (fun x => k * f x) gm = k * mean_of f gm.
Proof.
  unfold mean_of. rewrite (rsum_map_ext _ (fun x => k * (g_p x * f x))) by (intros; ring).
  rewrite rsum_map_mult. unfold Rdiv. ring.
Qed.
Lemma mean_const k gm : flux_of gm <> 0 -> mean_of (fun _ => k) gm = k.
Proof.
  intros H. unfold mean_of. rewrite rsum_map_scale_r.
  fold (flux_of gm). field. exact H.
Qed.

(** ** getters *)
Lemma flux_get gm : gm_get_flux gm = flux_of gm. Proof. reflexivity. Qed.

Lemma cen_get gm : flux_of gm <> 0 -> gm_get_cen gm = Some (row_of gm, col_of gm).
Proof.
  intros H. unfold gm_get_cen, np_div. fold (flux_of gm). rewrite Reqb_f by exact H.
  unfold row_of, col_of, mean_of. do 2 f_equal; f_equal; apply rsum_map_ext; intros; ring.
Qed.
Lemma cen_get_none gm : flux_of gm = 0 -> gm_get_cen gm = None.
Proof. intros H. unfold gm_get_cen, np_div. fold (flux_of gm). rewrite Reqb_t by exact H. reflexivity. Qed.

Lemma fold3 gm a b c :
  fold_left (fun s g => let '(row, col, psum) := s in
        (row + g_p g * g_row g, col + g_p g * g_col g, psum + g_p g)) gm (a, b, c) =
  (a + rsum (map (fun g => g_p g * g_row g) gm), b + rsum (map (fun g => g_p g * g_col g) gm), c + flux_of gm).
Proof.
  revert a b c; induction gm as [|g gm IH]; intros; cbn [fold_left map].
  - unfold flux_of; cbn [map]. rewrite !rsum_nil. peq; ring.
  - rewrite IH. unfold flux_of; cbn [map]. rewrite !rsum_cons. peq; ring.
Qed.

Lemma cen_nb gm :
  gmix_get_cen gm = if Reqb (flux_of gm) 0 then Raise ZeroDivisionError
                    else Ok (row_of gm, col_of gm, flux_of gm).
Proof.
  unfold gmix_get_cen. rewrite fold3. rewrite !Rplus_0_l. rcase; [reflexivity|]. reflexivity.
Qed.

Lemma mean_sum f gm : flux_of gm <> 0 ->
  rsum (map (fun g => g_p g * f g) gm) = flux_of gm * mean_of f gm.
Proof. intros H. unfold mean_of. field. exact H. Qed.

Lemma T_get gm : flux_of gm <> 0 -> gm_get_T gm = Some (trace2 (cov_of gm)).
Proof.
  intros H. unfold gm_get_T. rewrite cen_get by exact H. f_equal.
  unfold trace2, cov_of, cov, mean_of; cbn [xx yy]. fold (flux_of gm).
  set (r := row_of gm). set (c := col_of gm).
  rewrite (rsum_map_ext (fun g => (g_irr g + (g_row g - r)^2) * g_p g) (fun g => g_p g * (g_irr g + (g_row g - r)*(g_row g - r)))) by (intros; ring).
  rewrite (rsum_map_ext (fun g => (g_icc g + (g_col g - c)^2) * g_p g) (fun g => g_p g * (g_icc g + (g_col g - c)*(g_col g - c)))) by (intros; ring).
  field. exact H.
Qed.

Lemma e1e2T_get gm : flux_of gm <> 0 -> trace2 (cov_of gm) <> 0 ->
  exists e1 e2 T, gm_get_e1e2T gm = Some (e1, e2, T) /\ has_shape (cov_of gm) e1 e2 T.
Proof.
  intros H HT. unfold gm_get_e1e2T. rewrite cen_get by exact H.
  set (r := row_of gm). set (c := col_of gm).
  rewrite (rsum_map_ext (fun g => (g_irr g + (g_row g - r)^2) * g_p g) (fun g => g_p g * (g_irr g + (g_row g - r)*(g_row g - r)))) by (intros; ring).
  rewrite (rsum_map_ext (fun g => (g_icc g + (g_col g - c)^2) * g_p g) (fun g => g_p g * (g_icc g + (g_col g - c)*(g_col g - c)))) by (intros; ring).
  rewrite (rsum_map_ext (fun g => (g_irc g + (g_row g - r)*(g_col g - c)) * g_p g) (fun g => g_p g * (g_irc g + (g_row g - r)*(g_col g - c)))) by (intros; ring).
  rewrite !mean_sum by exact H. fold (flux_of gm).
  unfold trace2 in HT. 
  set (m := cov_of gm) in *.
  change (mean_of (fun g => g_irr g + (g_row g - r) * (g_row g - r)) gm) with (yy m).
  change (mean_of (fun g => g_icc g + (g_col g - c) * (g_col g - c)) gm) with (xx m).
  change (mean_of (fun g => g_irc g + (g_row g - r) * (g_col g - c)) gm) with (xy m).
  replace (flux_of gm * yy m * (1 / flux_of gm)) with (yy m) by (field; exact H).
  replace (flux_of gm * xx m * (1 / flux_of gm)) with (xx m) by (field; exact H).
  replace (flux_of gm * xy m * (1 / flux_of gm)) with (xy m) by (field; exact H).
  unfold np_div. rewrite Reqb_f by (rewrite Rplus_comm; exact HT).
  do 3 eexists. split; [reflexivity|]. unfold has_shape, trace2. repeat split; field; lra.
Qed.

Lemma fold4 gm r cc a b c d :
  fold_left (fun s g => let '(irr, irc, icc, psum) := s in
        let rowdiff := g_row g - r in
        let coldiff := g_col g - cc in
        (irr + g_p g * (g_irr g + rowdiff * rowdiff),
         irc + g_p g * (g_irc g + rowdiff * coldiff),
         icc + g_p g * (g_icc g + coldiff * coldiff),
         psum + g_p g)) gm (a, b, c, d) =
  (a + rsum (map (fun g => g_p g * (g_irr g + (g_row g - r) * (g_row g - r))) gm),
   b + rsum (map (fun g => g_p g * (g_irc g + (g_row g - r) * (g_col g - cc))) gm),
   c + rsum (map (fun g => g_p g * (g_icc g + (g_col g - cc) * (g_col g - cc))) gm), d + flux_of gm).
Proof.
  revert a b c d; induction gm as [|g gm IH]; intros; cbn [fold_left map].
  - unfold flux_of; cbn [map]. rewrite !rsum_nil. peq; ring.
  - rewrite IH. unfold flux_of; cbn [map]. rewrite !rsum_cons. peq; ring.
Qed.

Lemma e1e2T_nb gm :
  (flux_of gm = 0 -> gmix_get_e1e2T gm = Raise ZeroDivisionError) /\
  (flux_of gm <> 0 -> flux_of gm * trace2 (cov_of gm) <= 0 -> gmix_get_e1e2T gm = Raise GMixRangeError) /\
  (0 < flux_of gm * trace2 (cov_of gm) ->
     exists e1 e2 T, gmix_get_e1e2T gm = Ok (e1, e2, T) /\ has_shape (cov_of gm) e1 e2 T).
Proof.
  unfold gmix_get_e1e2T. rewrite cen_nb.
  assert (A : flux_of gm <> 0 -> forall r c, r = row_of gm -> c = col_of gm ->
    let m := cov_of gm in
    rsum (map (fun g => g_p g * (g_irr g + (g_row g - r) * (g_row g - r))) gm) = flux_of gm * yy m /\
    rsum (map (fun g => g_p g * (g_irc g + (g_row g - r) * (g_col g - c))) gm) = flux_of gm * xy m /\
    rsum (map (fun g => g_p g * (g_icc g + (g_col g - c) * (g_col g - c))) gm) = flux_of gm * xx m).
  { intros H r c -> ->. cbv zeta. rewrite !mean_sum by exact H. repeat split. }
  repeat split.
  - intros H. rewrite Reqb_t by exact H. reflexivity.
  - intros H Hle. rewrite Reqb_f by exact H. cbn [bind]. rewrite Reqb_f by exact H.
    rewrite fold4. destruct (A H _ _ eq_refl eq_refl) as (-> & -> & ->). rewrite !Rplus_0_l.
    rewrite Reqb_f by exact H. unfold trace2 in Hle. rewrite Rleb_t by lra. reflexivity.
  - intros Hp. assert (H : flux_of gm <> 0) by (intros E; rewrite E in Hp; lra).
    rewrite Reqb_f by exact H. cbn [bind]. rewrite Reqb_f by exact H.
    rewrite fold4. destruct (A H _ _ eq_refl eq_refl) as (-> & -> & ->). rewrite !Rplus_0_l.
    rewrite Reqb_f by exact H. unfold trace2 in Hp. rewrite Rleb_f by lra.
    do 3 eexists. split; [reflexivity|].
    assert (HT : xx (cov_of gm) + yy (cov_of gm) <> 0) by (intros E; rewrite E in Hp; lra).
    assert (HN : flux_of gm * yy (cov_of gm) + flux_of gm * xx (cov_of gm) <> 0) by (intros E; rewrite Rmult_plus_distr_l in Hp; lra).
    unfold has_shape, trace2. repeat split; field; auto.
Qed.

Lemma sigma_get gm : flux_of gm <> 0 -> 0 <= trace2 (cov_of gm) ->
  gm_get_sigma gm = Some (sqrt (trace2 (cov_of gm) / 2)).
Proof. intros H HT. unfold gm_get_sigma. rewrite T_get by exact H. rewrite Rltb_f by exact HT. reflexivity. Qed.

Lemma g1g2T_get gm : flux_of gm <> 0 -> posdef (cov_of gm) ->
  exists g1 g2, gm_get_g1g2T gm = Some (Ok (g1, g2, trace2 (cov_of gm))) /\
    in_disk (g1,g2) /\ exists e, e_of_g (g1,g2) e /\ has_shape (cov_of gm) (fst e) (snd e) (trace2 (cov_of gm)).
Proof.
  intros H Hp.
  assert (HT : 0 < trace2 (cov_of gm)).
  { destruct Hp as [Hx Hd]. unfold det2, trace2 in *. nra. }
  destruct (e1e2T_get gm H ltac:(lra)) as (e1 & e2 & T & E & HS).
  unfold gm_get_g1g2T. rewrite E.
  assert (ET : T = trace2 (cov_of gm)) by (destruct HS; assumption).
  assert (De : in_disk (e1,e2)).
  { destruct HS as (E1 & E2 & E3). destruct Hp as [Hx Hd]. unfold in_disk, cmod2; cbn [fst snd].
    unfold det2, trace2 in *. subst T. 
    apply Rmult_lt_reg_r with ((xx (cov_of gm) + yy (cov_of gm))*(xx (cov_of gm) + yy (cov_of gm))); [nra|].
    replace ((e1*e1+e2*e2)*((xx (cov_of gm) + yy (cov_of gm))*(xx (cov_of gm) + yy (cov_of gm)))) with
      ((e1 * (xx (cov_of gm) + yy (cov_of gm)))*(e1 * (xx (cov_of gm) + yy (cov_of gm))) +
       (e2 * (xx (cov_of gm) + yy (cov_of gm)))*(e2 * (xx (cov_of gm) + yy (cov_of gm)))) by ring.
    rewrite E2, E3. nra. }
  destruct (e2g_spec e1 e2 De) as ([g1 g2] & E4 & E5 & E6).
  rewrite E4. cbn [bind]. exists g1, g2. subst T. repeat split; auto.
  all: exists (e1,e2); split; auto.
Qed.

(** ** g -> e, numba version *)
Lemma g2e_nb g1 g2 : g1g2_to_e1e2_nb g1 g2 = g1g2_to_e1e2 g1 g2.
Proof.
  unfold g1g2_to_e1e2_nb, g1g2_to_e1e2.
  rewrite !(Rleb_f 1 (tanh _)) by apply tanh_lt_1. reflexivity.
Qed.

(** ** concentric, co-elliptical mixtures *)
Definition coellip_gauss row col e1 e2 (ft : R * R) : gauss :=
  gauss2d_set (fst ft) row col (/2 * snd ft * (1 - e1)) (/2 * snd ft * e2) (/2 * snd ft * (1 + e1)).

Lemma coellip_gauss_ok row col e1 e2 FT :
  coelliptical (map (coellip_gauss row col e1 e2) FT) row col e1 e2 FT.
Proof.
  induction FT as [|[F T] FT IH]; cbn [map]; constructor; auto.
  cbn. repeat split; unfold has_shape, coherent, det2, trace2, gcov, cov; cbn; ring || field || reflexivity.
Qed.

Lemma coelliptical_sums gm row col e1 e2 FT :
  coelliptical gm row col e1 e2 FT ->
  flux_of gm = rsum (map fst FT) /\
  (flux_of gm <> 0 -> row_of gm = row /\ col_of gm = col /\
     has_shape (cov_of gm) e1 e2 (rsum (map (fun ft => fst ft * snd ft) FT) / flux_of gm)).
Proof.
  intros H.
  assert (EF : flux_of gm = rsum (map fst FT)).
  { unfold flux_of. induction H as [|g ft gm FT (Hp & _) H IH]; cbn [map]; [reflexivity|]. rewrite !rsum_cons, IH, Hp; reflexivity. }
  split; [exact EF|]. intros Hn.
  assert (Hin : forall g, In g gm -> g_row g = row /\ g_col g = col /\ exists T, has_shape (gcov g) e1 e2 T).
  { clear EF Hn. induction H as [|g ft gm FT (Hp & Hr & Hc & Hs & _) H IH]; intros x Hx; [destruct Hx|].
    destruct Hx as [<-|Hx]; [eauto|apply IH; exact Hx]. }
  assert (Er : row_of gm = row).
  { unfold row_of. rewrite (mean_ext _ (fun _ => row)) by (intros g Hg; apply Hin; exact Hg). apply mean_const; exact Hn. }
  assert (Ec : col_of gm = col).
  { unfold col_of. rewrite (mean_ext _ (fun _ => col)) by (intros g Hg; apply Hin; exact Hg). apply mean_const; exact Hn. }
  split; [exact Er|]. split; [exact Ec|].
  assert (ET : mean_of (fun g => g_irr g + g_icc g) gm = rsum (map (fun ft => fst ft * snd ft) FT) / flux_of gm).
  { unfold mean_of. f_equal. clear -H. induction H as [|g ft gm FT (Hp & Hr & Hc & Hs & _) H IH]; cbn [map]; [reflexivity|].
    rewrite !rsum_cons, IH, Hp. destruct Hs as (-> & _). unfold trace2, gcov, cov; cbn. ring. }
  assert (Exx : xx (cov_of gm) = mean_of g_icc gm).
  { cbn. apply mean_ext. intros g Hg. rewrite Ec. destruct (Hin g Hg) as (_ & -> & _). ring. }
  assert (Eyy : yy (cov_of gm) = mean_of g_irr gm).
  { cbn. apply mean_ext. intros g Hg. rewrite Er. destruct (Hin g Hg) as (-> & _). ring. }
  assert (Exy : xy (cov_of gm) = mean_of g_irc gm).
  { cbn. apply mean_ext. intros g Hg. rewrite Er, Ec. destruct (Hin g Hg) as (-> & -> & _). ring. }
  unfold has_shape, trace2. rewrite Exx, Eyy, Exy, <- ET.
  split; [rewrite mean_plus; ring|].
  split.
  - rewrite <- mean_scale.
    rewrite (mean_ext _ (fun g => g_icc g + (-1) * g_irr g)).
    + rewrite mean_plus, mean_scale. ring.
    + intros g Hg. destruct (Hin g Hg) as (_ & _ & T & -> & H2 & H3). unfold trace2, gcov, cov in *; cbn in *.
      unfold has_shape in *. cbn in *. lra.
  - rewrite <- mean_scale. rewrite <- mean_scale.
    apply mean_ext. intros g Hg. destruct (Hin g Hg) as (_ & _ & T & ET' & H2 & H3). unfold trace2, gcov, cov in *; cbn in *. subst T. lra.
Qed.

(** ** filling *)
Lemma getp_nth l i : (i < length l)%nat -> getp l i = Ok (nth i l 0).
Proof. intros H. unfold getp. rewrite (nth_error_nth' l 0 H). reflexivity. Qed.

Lemma map_seq_combine {A} (h : R -> R -> A) a b :
  length a = length b ->
  map (fun i => h (nth i a 0) (nth i b 0)) (seq 0 (length a)) = map (fun ab => h (fst ab) (snd ab)) (combine a b).
Proof.
  revert b; induction a as [|x a IH]; intros [|y b] H; cbn in *; try discriminate; [reflexivity|].
  f_equal. rewrite <- seq_shift, map_map. cbn. apply IH. lia.
Qed.

Lemma in_disk_e g1 g2 : in_disk (g1,g2) ->
  exists e1 e2, g1g2_to_e1e2_nb g1 g2 = Ok (e1, e2) /\ e_of_g (g1,g2) (e1,e2) /\ in_disk (e1,e2).
Proof. intros H. rewrite g2e_nb. destruct (g2e_spec g1 g2 H) as ([e1 e2] & A). exists e1, e2. exact A. Qed.

Lemma fill_simple_eq n fvals pvals row col g1 g2 T flux e1 e2 :
  length fvals = n -> length pvals = n -> g1g2_to_e1e2_nb g1 g2 = Ok (e1,e2) ->
  gmix_fill_simple n fvals pvals [row;col;g1;g2;T;flux] =
  Ok (map (coellip_gauss row col e1 e2) (map (fun pf => (flux * fst pf, T * snd pf)) (combine pvals fvals))).
Proof.
  intros Hf Hp He. unfold gmix_fill_simple. cbn [getp nth_error bind]. rewrite He. cbn [bind].
  rewrite (mapM_of_forall _ (fun i => coellip_gauss row col e1 e2 (flux * nth i pvals 0, T * nth i fvals 0))).
  - f_equal. rewrite <- Hp. rewrite map_map.
    rewrite (map_seq_combine (fun p f => coellip_gauss row col e1 e2 (flux * p, T * f))) by congruence. reflexivity.
  - intros i Hi. apply in_seq in Hi. rewrite !getp_nth by lia. cbn [bind].
    unfold coellip_gauss; cbn [fst snd]. do 2 f_equal; ring.
Qed.

Lemma rsum_map_fst_scale k (l : list (R*R)) : rsum (map (fun pf => k * fst pf) l) = k * rsum (map fst l).
Proof. apply (rsum_map_mult fst). Qed.

Lemma combine_map_fst (a b : list R) : length a = length b -> map fst (combine a b) = a.
Proof. revert b; induction a as [|x a IH]; intros [|y b] H; cbn in *; try discriminate; [reflexivity|]. f_equal. apply IH; lia. Qed.

Lemma scaled_sums flux T pvals fvals :
  length pvals = length fvals ->
  let FT := map (fun pf => (flux * fst pf, T * snd pf)) (combine pvals fvals) in
  rsum (map fst FT) = flux * rsum pvals /\
  rsum (map (fun ft => fst ft * snd ft) FT) = flux * T * dot pvals fvals.
Proof.
  intros H FT. unfold FT. rewrite !map_map. cbn [fst snd]. split.
  - rewrite rsum_map_fst_scale, combine_map_fst by exact H. reflexivity.
  - unfold dot. rewrite <- rsum_map_mult. apply rsum_map_ext. intros; ring.
Qed.

Lemma profile_mixture gm row col e1 e2 flux T pvals fvals :
  length pvals = length fvals ->
  gm = map (coellip_gauss row col e1 e2) (map (fun pf => (flux * fst pf, T * snd pf)) (combine pvals fvals)) ->
  coelliptical gm row col e1 e2 (map (fun pf => (flux * fst pf, T * snd pf)) (combine pvals fvals)) /\
  length gm = length pvals /\
  flux_of gm = flux * rsum pvals /\
  (flux * rsum pvals <> 0 -> row_of gm = row /\ col_of gm = col /\
     has_shape (cov_of gm) e1 e2 (T * (dot pvals fvals / rsum pvals))).
Proof.
  intros HL ->. set (FT := map (fun pf => (flux * fst pf, T * snd pf)) (combine pvals fvals)).
  pose proof (coellip_gauss_ok row col e1 e2 FT) as HC.
  destruct (coelliptical_sums _ _ _ _ _ _ HC) as [EF HM].
  destruct (scaled_sums flux T pvals fvals HL) as [S1 S2]. fold FT in S1, S2.
  split; [exact HC|]. split; [unfold FT; rewrite !map_length, combine_length; lia|].
  split; [rewrite EF; exact S1|].
  intros Hn. rewrite EF, S1 in HM. destruct (HM Hn) as (A & B & C). split; [exact A|]. split; [exact B|].
  rewrite S2 in C. replace (T * (dot pvals fvals / rsum pvals)) with (flux * T * dot pvals fvals / (flux * rsum pvals)); [exact C|].
  field. split; intros E; apply Hn; rewrite E; ring.
Qed.

Lemma fill_simple_spec pvals fvals :
  length pvals = length fvals -> simple_claim (gmix_fill_simple (length pvals) fvals pvals) pvals fvals.
Proof.
  intros HL row col g1 g2 T flux Hd. destruct (in_disk_e g1 g2 Hd) as (e1 & e2 & He & Hs & _).
  eexists _, e1, e2. split; [exact (fill_simple_eq (length pvals) fvals pvals row col g1 g2 T flux e1 e2 (eq_sym HL) eq_refl He)|]. split; [exact Hs|].
  apply (profile_mixture _ row col e1 e2 flux T pvals fvals HL eq_refl).
Qed.

Lemma fill_simple_raises n fvals pvals row col g1 g2 T flux : ~ in_disk (g1,g2) ->
  gmix_fill_simple n fvals pvals [row;col;g1;g2;T;flux] = Raise GMixRangeError.
Proof.
  intros H. unfold gmix_fill_simple. cbn [getp nth_error bind]. rewrite g2e_nb, (g2e_raise _ _ H). reflexivity.
Qed.

(** the tabulated profiles are normalised *)
Ltac tab := unfold dot; cbn [combine map fst snd]; rewrite ?rsum_cons, ?rsum_nil.
Lemma tables_normalised :
  Rabs (rsum pvals_exp - 1) < / 10 ^ 15 /\ Rabs (dot pvals_exp fvals_exp - 1) < / 10 ^ 15 /\
  Rabs (rsum pvals_dev - 1) < / 10 ^ 15 /\ Rabs (dot pvals_dev fvals_dev - 1) < / 10 ^ 15 /\
  Rabs (rsum pvals_turb - 1) < / 10 ^ 15 /\ Rabs (dot pvals_turb fvals_turb - 1) < / 10 ^ 15 /\
  rsum pvals_gauss = 1 /\ dot pvals_gauss fvals_gauss = 1.
Proof.
  unfold pvals_exp, fvals_exp, pvals_dev, fvals_dev, pvals_turb, fvals_turb, pvals_gauss, fvals_gauss.
  repeat split; tab; try (apply Rabs_def1; lra); lra.
Qed.

(** ** composite models *)
Definition cmP (fracdev : R) := map (fun p => p * (1 - fracdev)) pvals_exp ++ map (fun p => p * fracdev) pvals_dev.
Definition cmF (TdByTe : R) := fvals_exp ++ map (fun f => f * TdByTe) fvals_dev.

Lemma cm_gauss_eq fracdev TdByTe row col e1 e2 T flux i : (i < 16)%nat ->
  cm_gauss fracdev TdByTe row col e1 e2 T flux i =
  Ok (coellip_gauss row col e1 e2 (flux * nth i (cmP fracdev) 0, T * nth i (cmF TdByTe) 0)).
Proof.
  intros Hi. unfold cm_gauss, coellip_gauss.
  do 16 (destruct i as [|i]; [cbn [Nat.ltb Nat.leb Nat.sub getp nth_error pvals_exp fvals_exp pvals_dev fvals_dev bind fst snd nth cmP cmF map app]; do 2 f_equal; ring|]).
  lia.
Qed.

Lemma cm_fill_eq fracdev TdByTe row col e1 e2 T flux :
  mapM (cm_gauss fracdev TdByTe row col e1 e2 T flux) (seq 0 16) =
  Ok (map (coellip_gauss row col e1 e2)
        (map (fun pf => (flux * fst pf, T * snd pf)) (combine (cmP fracdev) (cmF TdByTe)))).
Proof.
  rewrite (mapM_of_forall _ (fun i => coellip_gauss row col e1 e2 (flux * nth i (cmP fracdev) 0, T * nth i (cmF TdByTe) 0))).
  - reflexivity.
  - intros i Hi. apply in_seq in Hi. apply cm_gauss_eq. lia.
Qed.

Lemma foldM_dot (h : R -> R -> R) a b s :
  length a = length b ->
  foldM (fun s i => let* p := getp a i in let* f := getp b i in Ok (s + h p f)) (seq 0 (length a)) s =
  Ok (s + rsum (map (fun ab => h (fst ab) (snd ab)) (combine a b))).
Proof.
  intros HL. rewrite <- (map_seq_combine h a b HL).
  assert (G : forall l, (forall i, In i l -> (i < length a)%nat) -> forall s,
     foldM (fun s i => let* p := getp a i in let* f := getp b i in Ok (s + h p f)) l s =
     Ok (s + rsum (map (fun i => h (nth i a 0) (nth i b 0)) l))).
  { induction l as [|i l IH]; intros Hl s0; cbn [foldM map].
    - rewrite rsum_nil, Rplus_0_r; reflexivity.
    - assert (Hi : (i < length a)%nat) by (apply Hl; left; reflexivity).
      rewrite (getp_nth a) by exact Hi. rewrite (getp_nth b) by lia. cbn [bind].
      rewrite IH by (intros; apply Hl; right; assumption). rewrite rsum_cons. f_equal. ring. }
  apply G. intros i Hi. apply in_seq in Hi. lia.
Qed.

Lemma combine_app' {A B} (a a' : list A) (b b' : list B) : length a = length b ->
  combine (a ++ a') (b ++ b') = combine a b ++ combine a' b'.
Proof. revert b; induction a as [|x a IH]; intros [|y b] H; cbn in *; try discriminate; [reflexivity|]. f_equal. apply IH; lia. Qed.
Lemma combine_map2 (f g : R -> R) a b : combine (map f a) (map g b) = map (fun ab => (f (fst ab), g (snd ab))) (combine a b).
Proof. revert b; induction a as [|x a IH]; intros [|y b]; cbn; auto. f_equal. apply IH. Qed.

Lemma cm_dot fracdev TdByTe : dot (cmP fracdev) (cmF TdByTe) = cm_sum fracdev TdByTe.
Proof.
  unfold dot at 1, cmP, cmF. rewrite combine_app' by reflexivity. rewrite map_app, rsum_app. unfold cm_sum. f_equal.
  - rewrite <- (map_id fvals_exp) at 1. rewrite combine_map2, map_map. cbn [fst snd]. unfold dot.
    rewrite <- rsum_map_mult. apply rsum_map_ext; intros; ring.
  - rewrite combine_map2, map_map. cbn [fst snd]. unfold dot.
    rewrite <- rsum_map_mult. apply rsum_map_ext; intros; ring.
Qed.
Lemma cm_psum_eq fracdev : rsum (cmP fracdev) = cm_psum fracdev.
Proof.
  unfold cmP. rewrite rsum_app. rewrite !rsum_map_scale_r, !map_id. unfold cm_psum. ring.
Qed.

Lemma Tfactor_eq fracdev TdByTe :
  get_cm_Tfactor fracdev TdByTe =
  if Reqb (cm_sum fracdev TdByTe) 0 then Raise ZeroDivisionError else Ok (1 / cm_sum fracdev TdByTe).
Proof.
  unfold get_cm_Tfactor.
  change (seq 0 6) with (seq 0 (length pvals_exp)). change (seq 0 10) with (seq 0 (length pvals_dev)).
  rewrite (foldM_dot (fun p f => (p * (1 - fracdev)) * f) pvals_exp fvals_exp 0 eq_refl). cbn [bind].
  rewrite (foldM_dot (fun p f => (p * fracdev) * (f * TdByTe)) pvals_dev fvals_dev _ eq_refl). cbn [bind].
  rewrite Rplus_0_l.
  replace (rsum (map (fun ab => fst ab * (1 - fracdev) * snd ab) (combine pvals_exp fvals_exp)) +
     rsum (map (fun ab => fst ab * fracdev * (snd ab * TdByTe)) (combine pvals_dev fvals_dev))) with (cm_sum fracdev TdByTe); [reflexivity|].
  unfold cm_sum, dot. rewrite <- !rsum_map_mult. f_equal; apply rsum_map_ext; intros; ring.
Qed.

Lemma composite_mixture row col g1 g2 e1 e2 T fracdev TdByTe flux :
  g1g2_to_e1e2_nb g1 g2 = Ok (e1,e2) -> e_of_g (g1,g2) (e1,e2) -> cm_sum fracdev TdByTe <> 0 ->
  composite_claim (mapM (cm_gauss fracdev TdByTe row col e1 e2 (T * (1 / cm_sum fracdev TdByTe)) flux) (seq 0 16))
    row col g1 g2 T fracdev TdByTe flux.
Proof.
  intros He Hs Hn. rewrite cm_fill_eq. eexists _, e1, e2. split; [reflexivity|]. split; [exact Hs|].
  destruct (profile_mixture _ row col e1 e2 flux (T * (1 / cm_sum fracdev TdByTe)) (cmP fracdev) (cmF TdByTe) eq_refl eq_refl) as (HC & HL & HF & HM).
  split; [exact HL|]. split.
  - replace (map (fun pf => (flux * (1 - fracdev) * fst pf, T / cm_sum fracdev TdByTe * snd pf)) (combine pvals_exp fvals_exp) ++
       map (fun pf => (flux * fracdev * fst pf, T / cm_sum fracdev TdByTe * TdByTe * snd pf)) (combine pvals_dev fvals_dev))
     with (map (fun pf => (flux * fst pf, T * (1 / cm_sum fracdev TdByTe) * snd pf)) (combine (cmP fracdev) (cmF TdByTe))); [exact HC|].
    unfold cmP, cmF. rewrite combine_app' by reflexivity. rewrite map_app. f_equal.
    + rewrite <- (map_id fvals_exp) at 1. rewrite combine_map2, map_map. cbn [fst snd]. apply map_ext. intros [p f]; cbn. f_equal; unfold Rdiv; ring.
    + rewrite combine_map2, map_map. cbn [fst snd]. apply map_ext. intros [p f]; cbn. f_equal; unfold Rdiv; ring.
  - rewrite cm_psum_eq in HF, HM. split; [exact HF|]. intros Hf. destruct (HM Hf) as (A & B & C). split; [exact A|]. split; [exact B|].
    rewrite cm_dot in C. replace (T / cm_psum fracdev) with (T * (1 / cm_sum fracdev TdByTe) * (cm_sum fracdev TdByTe / cm_psum fracdev)); [exact C|].
    field. split; auto. intros E; apply Hf; rewrite E; ring.
Qed.

Lemma fill_bd_spec row col g1 g2 T lTrat fracdev flux :
  in_disk (g1,g2) -> cm_sum fracdev (Rpower 10 lTrat) <> 0 ->
  composite_claim (gmix_fill_bd [row;col;g1;g2;T;lTrat;fracdev;flux]) row col g1 g2 T fracdev (Rpower 10 lTrat) flux.
Proof.
  intros Hd Hn. destruct (in_disk_e g1 g2 Hd) as (e1 & e2 & He & Hs & _).
  unfold gmix_fill_bd. cbn [getp nth_error bind]. rewrite Tfactor_eq, Reqb_f by exact Hn. cbn [bind]. rewrite He. cbn [bind].
  apply composite_mixture; auto.
Qed.
Lemma fill_bdf_spec row col g1 g2 T fracdev flux :
  in_disk (g1,g2) -> cm_sum fracdev 1 <> 0 ->
  composite_claim (gmix_fill_bdf [row;col;g1;g2;T;fracdev;flux]) row col g1 g2 T fracdev 1 flux.
Proof.
  intros Hd Hn. destruct (in_disk_e g1 g2 Hd) as (e1 & e2 & He & Hs & _).
  unfold gmix_fill_bdf. cbn [getp nth_error bind]. rewrite Tfactor_eq, Reqb_f by exact Hn. cbn [bind]. rewrite He. cbn [bind].
  apply composite_mixture; auto.
Qed.
Lemma fill_cm_spec row col g1 g2 T fracdev TdByTe Tfactor flux :
  in_disk (g1,g2) -> get_cm_Tfactor fracdev TdByTe = Ok Tfactor ->
  composite_claim (gmix_fill_cm fracdev TdByTe Tfactor [row;col;g1;g2;T;flux]) row col g1 g2 T fracdev TdByTe flux.
Proof.
  intros Hd. rewrite Tfactor_eq. rcase; [discriminate|]. intros E; injection E as <-.
  destruct (in_disk_e g1 g2 Hd) as (e1 & e2 & He & Hs & _).
  unfold gmix_fill_cm. cbn [getp nth_error bind]. rewrite He. cbn [bind].
  apply composite_mixture; auto.
Qed.

(** physical values of fracdev and TdByTe never hit the error *)
Lemma cm_sum_pos fracdev TdByTe : 0 <= fracdev <= 1 -> 0 < TdByTe -> 0 < cm_sum fracdev TdByTe.
Proof.
  intros Hf Ht. unfold cm_sum. destruct tables_normalised as (_ & A & _ & B & _).
  apply Rabs_def2 in A, B. 
  assert (0 < dot pvals_exp fvals_exp) by lra. assert (0 < dot pvals_dev fvals_dev) by lra.
  assert (0 < TdByTe * dot pvals_dev fvals_dev) by nra.
  destruct (Rle_lt_dec fracdev (/2)); nra.
Qed.
Lemma cm_psum_near_1 fracdev : 0 <= fracdev <= 1 -> Rabs (cm_psum fracdev - 1) < / 10 ^ 15.
Proof.
  intros Hf. unfold cm_psum. destruct tables_normalised as (A & _ & B & _).
  apply Rabs_def2 in A, B.
  replace ((1 - fracdev) * rsum pvals_exp + fracdev * rsum pvals_dev - 1)
    with ((1 - fracdev) * (rsum pvals_exp - 1) + fracdev * (rsum pvals_dev - 1)) by ring.
  revert A B. generalize (rsum pvals_exp - 1) (rsum pvals_dev - 1) (/ 10 ^ 15). intros a b e A B.
  apply Rabs_def1; destruct (Rle_lt_dec fracdev (/2)); nra.
Qed.

(** ** coellip *)
Lemma nth_error_app_l {A} (a b : list A) i x : nth_error a i = Some x -> nth_error (a ++ b) i = Some x.
Proof. intros H. rewrite nth_error_app1; [exact H|]. apply nth_error_Some. congruence. Qed.

Lemma fill_coellip_spec row col g1 g2 Ts Fs :
  length Ts = length Fs -> in_disk (g1,g2) ->
  exists gm e1 e2, gmix_fill_coellip (length Ts) ([row;col;g1;g2] ++ Ts ++ Fs) = Ok gm /\
    e_of_g (g1,g2) (e1,e2) /\ coelliptical gm row col e1 e2 (combine Fs Ts) /\ length gm = length Ts /\
    flux_of gm = rsum Fs /\
    (rsum Fs <> 0 -> row_of gm = row /\ col_of gm = col /\ has_shape (cov_of gm) e1 e2 (dot Fs Ts / rsum Fs)).
Proof.
  intros HL Hd. destruct (in_disk_e g1 g2 Hd) as (e1 & e2 & He & Hs & _).
  unfold gmix_fill_coellip. cbn [app getp nth_error bind]. rewrite He. cbn [bind].
  rewrite (mapM_of_forall _ (fun i => coellip_gauss row col e1 e2 (nth i Fs 0, nth i Ts 0))).
  - eexists _, e1, e2. split; [reflexivity|]. split; [exact Hs|].
    replace (map (fun i => coellip_gauss row col e1 e2 (nth i Fs 0, nth i Ts 0)) (seq 0 (length Ts)))
      with (map (coellip_gauss row col e1 e2) (combine Fs Ts)).
    2:{ rewrite HL. rewrite (map_seq_combine (fun p f => coellip_gauss row col e1 e2 (p, f)) Fs Ts) by congruence.
        apply map_ext. intros []; reflexivity. }
    pose proof (coellip_gauss_ok row col e1 e2 (combine Fs Ts)) as HC.
    destruct (coelliptical_sums _ _ _ _ _ _ HC) as [EF HM].
    rewrite combine_map_fst in EF by congruence.
    split; [exact HC|]. split; [rewrite map_length, combine_length; lia|]. split; [exact EF|].
    rewrite EF in HM. exact HM.
  - intros i Hi. apply in_seq in Hi.
    replace (getp (row :: col :: g1 :: g2 :: Ts ++ Fs) (4 + i)) with (Ok (nth i Ts 0)).
    2:{ unfold getp. cbn [Nat.add nth_error]. rewrite nth_error_app1 by lia. rewrite (nth_error_nth' Ts 0) by lia. reflexivity. }
    replace (getp (row :: col :: g1 :: g2 :: Ts ++ Fs) (4 + length Ts + i)) with (Ok (nth i Fs 0)).
    2:{ unfold getp. cbn [Nat.add nth_error]. rewrite nth_error_app2 by lia.
        replace (length Ts + i - length Ts)%nat with i by lia. rewrite (nth_error_nth' Fs 0) by lia. reflexivity. }
    reflexivity.
Qed.

(** ** convolution *)
Lemma conv_flux_mean gm psf f :
  flux_of psf <> 0 ->
  let h := fun og pg => gauss2d_set (g_p og * g_p pg * (1 / flux_of psf))
            (g_row og + (g_row pg - row_of psf)) (g_col og + (g_col pg - col_of psf))
            (g_irr og + g_irr pg) (g_irc og + g_irc pg) (g_icc og + g_icc pg) in
  let conv := flat_map (fun og => map (h og) psf) gm in
  flux_of conv = flux_of gm /\
  mean_of f conv = mean_of (fun og => mean_of (fun pg => f (h og pg)) psf) gm.
Proof.
  intros Hp h conv.
  assert (EF : flux_of conv = flux_of gm).
  { unfold flux_of at 1, conv. rewrite rsum_flat_map. unfold flux_of at 1. apply rsum_map_ext. intros og _.
    rewrite map_map. unfold h, gauss2d_set; cbn [g_p].
    rewrite (rsum_map_ext _ (fun pg => (g_p og * (1 / flux_of psf)) * g_p pg)) by (intros; ring).
    rewrite rsum_map_mult. fold (flux_of psf). field. exact Hp. }
  split; [exact EF|]. unfold mean_of at 1. rewrite EF. unfold mean_of at 1. f_equal.
  unfold conv. rewrite rsum_flat_map. apply rsum_map_ext. intros og _. rewrite map_map.
  unfold mean_of. rewrite (rsum_map_ext _ (fun pg => (g_p og * (1 / flux_of psf)) * (g_p pg * f (h og pg))))
    by (intros; unfold h, gauss2d_set; cbn [g_p]; ring).
  rewrite rsum_map_mult. field. exact Hp.
Qed.

Lemma mean_dev gm f : flux_of gm <> 0 -> mean_of (fun x => f x - mean_of f gm) gm = 0.
Proof.
  intros H. rewrite (mean_ext _ (fun x => f x + (fun _ => - mean_of f gm) x)) by (intros; ring).
  rewrite mean_plus, mean_const by exact H. ring.
Qed.
Lemma mean_zero gm : mean_of (fun _ => 0) gm = 0.
Proof. rewrite (mean_ext _ (fun x => 0 * (fun _ => 0) x)) by (intros; ring). rewrite mean_scale. ring. Qed.
Lemma mean_add_const gm k f : flux_of gm <> 0 -> mean_of (fun x => k + f x) gm = k + mean_of f gm.
Proof. intros H. rewrite (mean_plus (fun _ => k)), mean_const by exact H. reflexivity. Qed.
Lemma mean_affine gm k f c : flux_of gm <> 0 -> mean_of (fun x => k + c * f x) gm = k + c * mean_of f gm.
Proof. intros H. rewrite mean_add_const by exact H. rewrite mean_scale. reflexivity. Qed.

(** E[(a + x - R)(b + y - C) + s] with x, y of zero mean *)
Lemma mean_bilinear gm (fx fy s : gauss -> R) a b s0 :
  flux_of gm <> 0 -> mean_of fx gm = 0 -> mean_of fy gm = 0 ->
  mean_of (fun g => (s0 + s g) + (a + fx g) * (b + fy g)) gm = (s0 + a * b) + mean_of (fun g => s g + fx g * fy g) gm.
Proof.
  intros Hf Hx Hy.
  rewrite (mean_ext _ (fun g => (s0 + a*b) + ((a * fy g + b * fx g) + (s g + fx g * fy g)))) by (intros; ring).
  rewrite mean_add_const by exact Hf. rewrite (mean_plus (fun g => a * fy g + b * fx g)).
  rewrite (mean_plus (fun g => a * fy g)). rewrite !mean_scale, Hx, Hy. ring.
Qed.

Lemma conv_spec gm psf :
  flux_of psf <> 0 ->
  exists conv, gmix_convolve gm psf = Ok conv /\
    length conv = (length gm * length psf)%nat /\
    (forall i j, (i < length gm)%nat -> (j < length psf)%nat ->
       exists a b g, nth_error gm i = Some a /\ nth_error psf j = Some b /\
         nth_error conv (i * length psf + j) = Some g /\
         g_p g = g_p a * (g_p b / flux_of psf) /\
         g_row g = g_row a + (g_row b - row_of psf) /\ g_col g = g_col a + (g_col b - col_of psf) /\
         gcov g = add2 (gcov a) (gcov b) /\ coherent g /\ g_norm_set g = false) /\
    flux_of conv = flux_of gm /\
    (flux_of gm <> 0 -> row_of conv = row_of gm /\ col_of conv = col_of gm /\
       cov_of conv = add2 (cov_of gm) (cov_of psf)).
Proof.
  intros Hp. unfold gmix_convolve. rewrite cen_nb, Reqb_f by exact Hp. cbn [bind].
  eexists. split; [reflexivity|].
  set (h := fun og pg => gauss2d_set (g_p og * g_p pg * (1 / flux_of psf))
            (g_row og + (g_row pg - row_of psf)) (g_col og + (g_col pg - col_of psf))
            (g_irr og + g_irr pg) (g_irc og + g_irc pg) (g_icc og + g_icc pg)).
  change (flat_map _ gm) with (flat_map (fun og => map (h og) psf) gm).
  split.
  { induction gm as [|g gm IH]; cbn [flat_map length]; [reflexivity|]. rewrite app_length, map_length, IH. lia. }
  split.
  { intros i j Hi Hj. revert i Hi. induction gm as [|g0 gm IH]; cbn [length]; intros i Hi; [lia|].
    destruct i as [|i].
    - destruct (nth_error psf j) as [b|] eqn:Eb; [|apply nth_error_None in Eb; lia].
      exists g0, b, (h g0 b). split; [reflexivity|]. split; [reflexivity|].
      split. { cbn [flat_map]. rewrite nth_error_app1 by (rewrite map_length; lia). cbn [Nat.mul Nat.add]. rewrite nth_error_map, Eb. reflexivity. }
      unfold h, gauss2d_set, coherent, gcov, cov, add2, det2; cbn [g_p g_row g_col g_irr g_irc g_icc g_det g_norm_set xx xy yy].
      split; [field; exact Hp|]. split; [reflexivity|]. split; [reflexivity|]. split; [reflexivity|]. split; [ring|reflexivity].
    - destruct (IH i) as (a & b & g & A & B & D & E); [lia|]. exists a, b, g. split; [exact A|]. split; [exact B|]. split; [|exact E].
      cbn [flat_map]. rewrite nth_error_app2 by (rewrite map_length; cbn; lia).
      rewrite map_length. rewrite <- D. f_equal. cbn; lia. }
  destruct (conv_flux_mean gm psf (fun _ => 0) Hp) as [EF _]. fold h in EF.
  split; [exact EF|]. intros Hg.
  assert (M : forall f, mean_of f (flat_map (fun og => map (h og) psf) gm) =
                        mean_of (fun og => mean_of (fun pg => f (h og pg)) psf) gm).
  { intros f. exact (proj2 (conv_flux_mean gm psf f Hp)). }
  assert (ER : row_of (flat_map (fun og => map (h og) psf) gm) = row_of gm).
  { unfold row_of at 1. rewrite M. unfold row_of. apply mean_ext. intros og _.
    unfold h, gauss2d_set; cbn [g_row]. rewrite mean_add_const by exact Hp. unfold row_of. rewrite mean_dev by exact Hp. ring. }
  assert (EC : col_of (flat_map (fun og => map (h og) psf) gm) = col_of gm).
  { unfold col_of at 1. rewrite M. unfold col_of. apply mean_ext. intros og _.
    unfold h, gauss2d_set; cbn [g_col]. rewrite mean_add_const by exact Hp. unfold col_of. rewrite mean_dev by exact Hp. ring. }
  split; [exact ER|]. split; [exact EC|].
  unfold cov_of at 1. rewrite !M, ER, EC. unfold h, gauss2d_set; cbn [g_row g_col g_irr g_irc g_icc].
  unfold cov_of, add2, cov; cbn [xx xy yy].
  assert (B : forall (s : gauss -> R) (fx fy : gauss -> R),
     mean_of (fun og => mean_of (fun pg => (s og + s pg) +
         (fx og + (fx pg - mean_of fx psf) - mean_of fx gm) * (fy og + (fy pg - mean_of fy psf) - mean_of fy gm)) psf) gm =
     mean_of (fun g => s g + (fx g - mean_of fx gm) * (fy g - mean_of fy gm)) gm +
     mean_of (fun g => s g + (fx g - mean_of fx psf) * (fy g - mean_of fy psf)) psf).
  { intros s fx fy.
    rewrite (mean_ext _ (fun og => (s og + (fx og - mean_of fx gm) * (fy og - mean_of fy gm)) +
       (fun _ => mean_of (fun g => s g + (fx g - mean_of fx psf) * (fy g - mean_of fy psf)) psf) og)).
    - rewrite mean_plus, mean_const by exact Hg. reflexivity.
    - intros og _. rewrite <- (mean_bilinear psf (fun g => fx g - mean_of fx psf) (fun g => fy g - mean_of fy psf) s) by (try apply mean_dev; exact Hp).
      apply mean_ext. intros; ring. }
  f_equal; apply B.
Qed.

Lemma conv_zero_psf gm psf : flux_of psf = 0 -> gmix_convolve gm psf = Raise ZeroDivisionError.
Proof. intros H. unfold gmix_convolve. rewrite cen_nb, Reqb_t by exact H. reflexivity. Qed.

(** ** setters *)
Lemma mean_map f k gm : (forall g, g_p (k g) = g_p g) -> mean_of f (map k gm) = mean_of (fun g => f (k g)) gm.
Proof.
  intros H. unfold mean_of, flux_of. rewrite !map_map. f_equal.
  - apply rsum_map_ext. intros; rewrite H; reflexivity.
  - apply rsum_map_ext. intros; apply H.
Qed.

Lemma set_cen_spec gm row col : flux_of gm <> 0 ->
  exists gm', gm_set_cen gm row col = Some gm' /\
    row_of gm' = row /\ col_of gm' = col /\ flux_of gm' = flux_of gm /\ cov_of gm' = cov_of gm /\
    Forall2 (fun g g' => g_p g' = g_p g /\ g_row g' - g_row g = row - row_of gm /\
               g_col g' - g_col g = col - col_of gm /\ setters_keep g g' /\
               g_norm_set g' = g_norm_set g /\ g_nrm g' = g_nrm g) gm gm'.
Proof.
  intros H. unfold gm_set_cen. rewrite cen_get by exact H. eexists. split; [reflexivity|].
  set (k := shift_gauss _ _). assert (K : forall g, g_p (k g) = g_p g) by reflexivity.
  assert (ER : row_of (map k gm) = row).
  { unfold row_of at 1. rewrite mean_map by exact K. unfold k, shift_gauss; cbn [g_row].
    rewrite (mean_plus g_row), mean_const by exact H. fold (row_of gm). ring. }
  assert (EC : col_of (map k gm) = col).
  { unfold col_of at 1. rewrite mean_map by exact K. unfold k, shift_gauss; cbn [g_col].
    rewrite (mean_plus g_col), mean_const by exact H. fold (col_of gm). ring. }
  split; [exact ER|]. split; [exact EC|]. split.
  { unfold flux_of. rewrite map_map. reflexivity. }
  split.
  { unfold cov_of. rewrite ER, EC, !mean_map by exact K. unfold k, shift_gauss; cbn [g_row g_col g_irr g_irc g_icc].
    f_equal; apply mean_ext; intros; ring. }
  clear ER EC. revert k K. generalize (row_of gm) (col_of gm). intros r0 c0 k K.
  clear H. induction gm as [|g gm IH]; cbn [map]; constructor; [|exact IH].
  unfold k, shift_gauss, setters_keep; cbn. repeat split; ring.
Qed.

Lemma set_cen_none gm row col : flux_of gm = 0 -> gm_set_cen gm row col = None.
Proof. intros H. unfold gm_set_cen. rewrite cen_get_none by exact H. reflexivity. Qed.

Lemma mean_scale_map f k r gm : r <> 0 -> (forall g, g_p (k g) = g_p g * r) -> (forall g, f (k g) = f g) ->
  mean_of f (map k gm) = mean_of f gm.
Proof.
  intros Hr H Hf. unfold mean_of, flux_of. rewrite !map_map.
  rewrite (rsum_map_ext (fun g => g_p (k g) * f (k g)) (fun g => (g_p g * f g) * r)) by (intros; rewrite H, Hf; ring).
  rewrite (rsum_map_ext (fun g => g_p (k g)) (fun g => g_p g * r)) by (intros; apply H).
  rewrite !rsum_map_scale_r. destruct (Req_dec (rsum (map g_p gm)) 0) as [E|E].
  - unfold Rdiv. rewrite E, Rmult_0_l, Rinv_0. ring.
  - field. split; assumption.
Qed.

Lemma set_flux_spec gm F : flux_of gm <> 0 ->
  exists gm', gm_set_flux gm F = Some gm' /\ flux_of gm' = F /\
    (F <> 0 -> row_of gm' = row_of gm /\ col_of gm' = col_of gm /\ cov_of gm' = cov_of gm) /\
    Forall2 (fun g g' => g_p g' * flux_of gm = g_p g * F /\ g_row g' = g_row g /\ g_col g' = g_col g /\
               setters_keep g g' /\ g_norm_set g' = false) gm gm'.
Proof.
  intros H. unfold gm_set_flux, np_div. fold (flux_of gm). rewrite Reqb_f by exact H. eexists. split; [reflexivity|].
  split.
  { unfold flux_of at 1. rewrite map_map. unfold scale_gauss; cbn [g_p]. rewrite rsum_map_scale_r. fold (flux_of gm). field. exact H. }
  split.
  { intros HF. assert (Hr : F / flux_of gm <> 0) by (unfold Rdiv; apply Rmult_integral_contrapositive_currified; [exact HF|apply Rinv_neq_0_compat; exact H]).
    assert (ER : row_of (map (scale_gauss (F / flux_of gm)) gm) = row_of gm) by (apply mean_scale_map with (F / flux_of gm); auto).
    assert (EC : col_of (map (scale_gauss (F / flux_of gm)) gm) = col_of gm) by (apply mean_scale_map with (F / flux_of gm); auto).
    split; [exact ER|]. split; [exact EC|]. unfold cov_of. rewrite ER, EC.
    f_equal; apply mean_scale_map with (F / flux_of gm); auto. }
  assert (G : forall r, r * flux_of gm = F -> forall l, Forall2 (fun g g' => g_p g' * flux_of gm = g_p g * F /\ g_row g' = g_row g /\ g_col g' = g_col g /\
               setters_keep g g' /\ g_norm_set g' = false) l (map (scale_gauss r) l)).
  { intros r Hr. induction l as [|g l IH]; cbn [map]; constructor; [|exact IH].
    unfold scale_gauss, setters_keep; cbn. rewrite <- Hr. repeat split; ring. }
  apply G. field. exact H.
Qed.
Lemma set_flux_none gm F : flux_of gm = 0 -> gm_set_flux gm F = None.
Proof. intros H. unfold gm_set_flux, np_div. fold (flux_of gm). rewrite Reqb_t by exact H. reflexivity. Qed.

Lemma Forall2_length' {A B} (P : A -> B -> Prop) a b : Forall2 P a b -> length a = length b.
Proof. induction 1; cbn; congruence. Qed.

Lemma setters_history l : forall gm,
  flux_of gm <> 0 -> (forall f, In (SetFlux f) l -> f <> 0) ->
  exists gm', fold_left run_setter l (Some gm) = Some gm' /\
    flux_of gm' = expect_flux (flux_of gm) l /\
    (row_of gm', col_of gm') = expect_cen (row_of gm, col_of gm) l /\
    cov_of gm' = cov_of gm /\ length gm' = length gm /\ Forall2 setters_keep gm gm'.
Proof.
  induction l as [|s l IH]; intros gm H HF; cbn [fold_left].
  - exists gm. repeat split. clear. induction gm; constructor; auto. unfold setters_keep; auto.
  - assert (HF' : forall f, In (SetFlux f) l -> f <> 0) by (intros f Hf; apply HF; right; exact Hf).
    destruct s as [f|r c]; cbn [run_setter].
    + assert (Hf : f <> 0) by (apply HF; left; reflexivity).
      destruct (set_flux_spec gm f H) as (gm1 & E1 & F1 & M1 & K1). rewrite E1. destruct (M1 Hf) as (R1 & C1 & V1).
      destruct (IH gm1) as (gm2 & E2 & F2 & C2 & V2 & L2 & K2); [rewrite F1; exact Hf|exact HF'|].
      exists gm2. split; [exact E2|]. rewrite F2, C2, V2, F1, R1, C1. cbn [expect_flux expect_cen fold_left].
      split; [reflexivity|]. split; [reflexivity|]. split; [exact V1|].
      split; [rewrite L2; symmetry; apply (Forall2_length' _ _ _ K1)|].
      clear - K1 K2. revert gm2 K2. induction K1 as [|a b la lb Hab K1 IH]; intros gm2 K2; inversion K2 as [|x y lx ly Hxy Hl]; subst; constructor; auto.
      destruct Hab as (_ & _ & _ & (A1 & A2 & A3 & A4) & _). destruct Hxy as (B1 & B2 & B3 & B4). unfold setters_keep.
      repeat split; congruence.
    + destruct (set_cen_spec gm r c H) as (gm1 & E1 & R1 & C1 & F1 & V1 & K1). rewrite E1.
      destruct (IH gm1) as (gm2 & E2 & F2 & C2 & V2 & L2 & K2); [rewrite F1; exact H|exact HF'|].
      exists gm2. split; [exact E2|]. rewrite F2, C2, V2, F1, R1, C1. cbn [expect_flux expect_cen fold_left].
      split; [reflexivity|]. split; [reflexivity|]. split; [exact V1|].
      split; [rewrite L2; symmetry; apply (Forall2_length' _ _ _ K1)|].
      clear - K1 K2. revert gm2 K2. induction K1 as [|a b la lb Hab K1 IH]; intros gm2 K2; inversion K2 as [|x y lx ly Hxy Hl]; subst; constructor; auto.
      destruct Hab as (_ & _ & _ & (A1 & A2 & A3 & A4) & _). destruct Hxy as (B1 & B2 & B3 & B4). unfold setters_keep.
      repeat split; congruence.
Qed.

(** ** shear *)
Lemma shear_spec gm s1 s2 :
  Forall (fun g => posdef (gcov g)) gm -> in_disk (s1,s2) ->
  exists gm', gmix_shear gm s1 s2 = Ok gm' /\
    Forall2 (fun g g' => g_p g' = g_p g /\ g_row g' = g_row g /\ g_col g' = g_col g /\
               gcov g' = sheared s1 s2 (gcov g) /\ coherent g' /\ g_norm_set g' = false) gm gm'.
Proof.
  intros H Hs. unfold gmix_shear. induction H as [|g gm Hg H IH]; cbn [mapM].
  - exists []. split; [reflexivity|constructor].
  - destruct IH as (gm' & E & F). destruct (sheared_moments_eq (g_irr g) (g_irc g) (g_icc g) s1 s2 Hg Hs) as (a & b & c & Es & Ec).
    unfold shear_gauss at 1. rewrite Es. cbn [bind]. rewrite E. cbn [bind]. eexists. split; [reflexivity|]. constructor; [|exact F].
    unfold coherent, gcov; cbn [g_p g_row g_col g_irr g_irc g_icc g_det g_norm_set]. rewrite Ec.
    repeat split. unfold gcov in *. rewrite <- Ec. unfold cov, det2; cbn [xx xy yy]. ring.
Qed.

(** ** full parameter vector *)
Definition gpars (g : gauss) := [g_p g; g_row g; g_col g; g_irr g; g_irc g; g_icc g].
Definition fresh (g : gauss) := gauss2d_set (g_p g) (g_row g) (g_col g) (g_irr g) (g_irc g) (g_icc g).

Lemma full_pars_length gm : length (gm_get_full_pars gm) = (6 * length gm)%nat.
Proof. unfold gm_get_full_pars. induction gm; cbn [flat_map length app]; [reflexivity|]. rewrite IHgm. lia. Qed.

Lemma full_getp gm i k g : nth_error gm i = Some g -> (k < 6)%nat ->
  getp (gm_get_full_pars gm) (i * 6 + k) = getp (gpars g) k.
Proof.
  revert i; induction gm as [|g0 gm IH]; intros i Hg Hk; [destruct i; discriminate|].
  destruct i as [|i].
  - injection Hg as ->. cbn [Nat.mul Nat.add]. unfold getp, gm_get_full_pars; cbn [flat_map].
    change ([g_p g; g_row g; g_col g; g_irr g; g_irc g; g_icc g]) with (gpars g).
    rewrite nth_error_app1 by (cbn; lia). reflexivity.
  - cbn in Hg. rewrite <- (IH i Hg Hk). unfold getp, gm_get_full_pars; cbn [flat_map].
    rewrite nth_error_app2 by (cbn; lia). replace (S i * 6 + k - _)%nat with (i * 6 + k)%nat by (cbn [length]; lia). reflexivity.
Qed.

Lemma map_nth_seq {A B} (f : A -> B) (l : list A) (d : A) : map (fun i => f (nth i l d)) (seq 0 (length l)) = map f l.
Proof.
  induction l as [|x l IH]; [reflexivity|]. cbn [length seq map]. rewrite <- seq_shift, map_map. cbn [nth]. f_equal. exact IH.
Qed.

Lemma fill_full_of_pars gm : gmix_fill_full (length gm) (gm_get_full_pars gm) = Ok (map fresh gm).
Proof.
  unfold gmix_fill_full. rewrite (mapM_of_forall _ (fun i => fresh (nth i gm gauss_zero))).
  - f_equal. apply (map_nth_seq fresh).
  - intros i Hi. apply in_seq in Hi. destruct (nth_error gm i) as [g|] eqn:E; [|apply nth_error_None in E; lia].
    rewrite !(full_getp gm i _ g E) by lia. rewrite (nth_error_nth gm i gauss_zero E). reflexivity.
Qed.

Lemma GMix_pars_of_full gm : GMix_pars (gm_get_full_pars gm) = Ok (map fresh gm).
Proof.
  unfold GMix_pars. rewrite full_pars_length.
  replace ((6 * length gm) mod 6)%nat with 0%nat by (rewrite Nat.mul_comm, Nat.mod_mul; lia).
  replace ((6 * length gm) / 6)%nat with (length gm) by (rewrite Nat.mul_comm, Nat.div_mul; lia).
  cbn [Nat.eqb negb]. apply fill_full_of_pars.
Qed.

Lemma pars_chunk n : forall pars, length pars = (6 * n)%nat ->
  exists gm, length gm = n /\ gm_get_full_pars gm = pars /\ Forall (fun g => g = fresh g) gm.
Proof.
  induction n as [|n IH]; intros pars H.
  - destruct pars; [|discriminate]. exists []. repeat split. constructor.
  - destruct pars as [|a [|b [|c [|d [|e [|f rest]]]]]]; cbn [length] in H; try lia.
    destruct (IH rest) as (gm & L & E & F); [lia|].
    exists (gauss2d_set a b c d e f :: gm). split; [cbn; lia|]. split; [|constructor; [reflexivity|exact F]].
    unfold gm_get_full_pars in *; cbn [flat_map]. rewrite E. reflexivity.
Qed.

Lemma full_pars_roundtrip pars : (length pars mod 6 = 0)%nat ->
  exists gm, GMix_pars pars = Ok gm /\ gm_get_full_pars gm = pars /\ (6 * length gm = length pars)%nat /\
    Forall (fun g => coherent g /\ g_norm_set g = false) gm.
Proof.
  intros H. pose proof (Nat.div_mod (length pars) 6 ltac:(lia)) as D. rewrite H, Nat.add_0_r in D.
  destruct (pars_chunk _ pars D) as (gm & L & E & F). exists gm. rewrite <- E at 1. rewrite GMix_pars_of_full.
  replace (map fresh gm) with gm.
  2:{ clear - F. induction F as [|g gm Hg F IH]; [reflexivity|]. cbn [map]. rewrite <- Hg, <- IH. reflexivity. }
  split; [reflexivity|]. split; [exact E|]. split; [lia|].
  eapply Forall_impl; [|exact F]. intros g ->. unfold coherent, fresh, gauss2d_set, gcov, cov, det2; cbn. split; [ring|reflexivity].
Qed.

Lemma full_pars_reject pars : (length pars mod 6 <> 0)%nat -> GMix_pars pars = Raise ValueError.
Proof. intros H. unfold GMix_pars. apply Nat.eqb_neq in H. rewrite H. reflexivity. Qed.

Lemma gauss_eq_iff a b : gauss_eq a b = true <-> same_gauss a b.
Proof.
  unfold gauss_eq, same_gauss. rewrite !andb_true_iff, !Reqb_true. tauto.
Qed.
Lemma gmix_eq_same_length a b : length a = length b -> exists r, gmix_eq a b = Ok r /\ (r = true <-> same_gmix a b).
Proof.
  intros H. unfold gmix_eq. apply Nat.eqb_eq in H as H'. rewrite H'. eexists; split; [reflexivity|].
  clear H'. revert b H. induction a as [|x a IH]; intros [|y b] H; cbn in H; try discriminate; cbn [all_eq].
  - split; [constructor|reflexivity].
  - rewrite andb_true_iff, gauss_eq_iff, IH by lia. split.
    + intros []; constructor; auto.
    + intros K; inversion K; auto.
Qed.
Lemma gmix_roundtrip gm : Forall coherent gm ->
  exists gm', GMix_pars (gm_get_full_pars gm) = Ok gm' /\ same_gmix gm gm' /\ gmix_eq gm gm' = Ok true.
Proof.
  intros H. rewrite GMix_pars_of_full. eexists. split; [reflexivity|].
  assert (S : same_gmix gm (map fresh gm)).
  { induction H as [|g gm Hg H IH]; constructor; auto. unfold same_gauss, fresh, gauss2d_set; cbn. repeat split.
    rewrite Hg. unfold gcov, cov, det2; cbn. ring. }
  split; [exact S|]. destruct (gmix_eq_same_length gm (map fresh gm)) as (r & E & I); [rewrite map_length; reflexivity|].
  rewrite E. f_equal. apply I. exact S.
Qed.

Lemma full_pars_concat gms : flat_map gm_get_full_pars gms = gm_get_full_pars (concat gms).
Proof. unfold gm_get_full_pars. induction gms; cbn [flat_map concat]; [reflexivity|]. rewrite IHgms, flat_map_app. reflexivity. Qed.

Lemma concat_spec gms : gms <> [] -> Forall (Forall coherent) gms ->
  exists gm, gmix_concat gms = Ok gm /\ same_gmix (concat gms) gm.
Proof.
  intros H F. unfold gmix_concat. destruct gms as [|g gms]; [congruence|]. cbn [length Nat.eqb].
  rewrite full_pars_concat. destruct (gmix_roundtrip (concat (g :: gms))) as (gm' & E & S & _).
  - apply Forall_concat. exact F.
  - exists gm'. auto.
Qed.

(** ** equality *)
Lemma gmix_eq_broadcast g n : gmix_eq [g] (repeat g n) = Ok true.
Proof.
  assert (G : gauss_eq g g = true) by (apply gauss_eq_iff; unfold same_gauss; tauto).
  unfold gmix_eq. destruct (Nat.eqb_spec (length [g]) (length (repeat g n))) as [E|E].
  - rewrite repeat_length in E. cbn in E. subst n. cbn. rewrite G. reflexivity.
  - f_equal. clear E. induction n; cbn; [reflexivity|]. rewrite G, IHn. reflexivity.
Qed.

(** ** collected statements *)
Lemma getters_spec gm : flux_of gm <> 0 ->
  gm_get_flux gm = flux_of gm /\ gm_get_cen gm = Some (row_of gm, col_of gm) /\
  gm_get_T gm = Some (trace2 (cov_of gm)) /\
  (0 <= trace2 (cov_of gm) -> gm_get_sigma gm = Some (sqrt (trace2 (cov_of gm) / 2))) /\
  (trace2 (cov_of gm) <> 0 -> exists e1 e2 T, gm_get_e1e2T gm = Some (e1, e2, T) /\ has_shape (cov_of gm) e1 e2 T).
Proof.
  intros H. split; [reflexivity|]. split; [apply cen_get; exact H|]. split; [apply T_get; exact H|].
  split; [apply sigma_get; exact H|apply e1e2T_get; exact H].
Qed.
Lemma composite_norm fracdev TdByTe : 0 <= fracdev <= 1 -> 0 < TdByTe ->
  0 < cm_sum fracdev TdByTe /\ Rabs (cm_psum fracdev - 1) < / 10 ^ 15 /\
  get_cm_Tfactor fracdev TdByTe = Ok (1 / cm_sum fracdev TdByTe).
Proof.
  intros H1 H2. pose proof (cm_sum_pos _ _ H1 H2). split; [assumption|]. split; [apply cm_psum_near_1; exact H1|].
  rewrite Tfactor_eq, Reqb_f by lra. reflexivity.
Qed.
Lemma bad_shape row col g1 g2 T flux fracdev TdByTe Tf lTrat n Ts :
  ~ in_disk (g1,g2) ->
  gmix_fill_gauss 1 [row;col;g1;g2;T;flux] = Raise GMixRangeError /\
  gmix_fill_exp 6 [row;col;g1;g2;T;flux] = Raise GMixRangeError /\
  gmix_fill_dev 10 [row;col;g1;g2;T;flux] = Raise GMixRangeError /\
  gmix_fill_turb 3 [row;col;g1;g2;T;flux] = Raise GMixRangeError /\
  gmix_fill_coellip n ([row;col;g1;g2] ++ Ts) = Raise GMixRangeError /\
  gmix_fill_cm fracdev TdByTe Tf [row;col;g1;g2;T;flux] = Raise GMixRangeError /\
  is_ok (gmix_fill_bd [row;col;g1;g2;T;lTrat;fracdev;flux]) = false /\
  is_ok (gmix_fill_bdf [row;col;g1;g2;T;fracdev;flux]) = false.
Proof.
  intros H. assert (E : g1g2_to_e1e2_nb g1 g2 = Raise GMixRangeError) by (rewrite g2e_nb; apply g2e_raise; exact H).
  split; [exact (fill_simple_raises 1 fvals_gauss pvals_gauss row col g1 g2 T flux H)|].
  split; [exact (fill_simple_raises 6 fvals_exp pvals_exp row col g1 g2 T flux H)|].
  split; [exact (fill_simple_raises 10 fvals_dev pvals_dev row col g1 g2 T flux H)|].
  split; [exact (fill_simple_raises 3 fvals_turb pvals_turb row col g1 g2 T flux H)|].
  split. { unfold gmix_fill_coellip. cbn [app getp nth_error bind]. rewrite E. reflexivity. }
  split. { unfold gmix_fill_cm. cbn [app getp nth_error bind]. rewrite E. reflexivity. }
  split.
  - unfold gmix_fill_bd. cbn [app getp nth_error bind]. destruct (get_cm_Tfactor _ _); cbn [bind]; [rewrite E|]; reflexivity.
  - unfold gmix_fill_bdf. cbn [app getp nth_error bind]. destruct (get_cm_Tfactor _ _); cbn [bind]; [rewrite E|]; reflexivity.
Qed.
Lemma full_layout gm i g : nth_error gm i = Some g ->
  length (gm_get_full_pars gm) = (6 * length gm)%nat /\
  nth_error (gm_get_full_pars gm) (i * 6 + 0) = Some (g_p g) /\
  nth_error (gm_get_full_pars gm) (i * 6 + 1) = Some (g_row g) /\
  nth_error (gm_get_full_pars gm) (i * 6 + 2) = Some (g_col g) /\
  nth_error (gm_get_full_pars gm) (i * 6 + 3) = Some (g_irr g) /\
  nth_error (gm_get_full_pars gm) (i * 6 + 4) = Some (g_irc g) /\
  nth_error (gm_get_full_pars gm) (i * 6 + 5) = Some (g_icc g).
Proof.
  intros H. split; [apply full_pars_length|].
  assert (G : forall k x, (k < 6)%nat -> nth_error (gpars g) k = Some x -> nth_error (gm_get_full_pars gm) (i * 6 + k) = Some x).
  { intros k x Hk E. pose proof (full_getp gm i k g H Hk) as P. unfold getp in P. rewrite E in P.
    destruct (nth_error (gm_get_full_pars gm) _); congruence. }
  repeat split; apply G; try lia; reflexivity.
Qed.
Lemma concat_empty gms : gms = [] -> gmix_concat gms = Raise ValueError.
Proof. intros ->. reflexivity. Qed.
Lemma gmix_eq_raises : exists a b, length a <> length b /\ gmix_eq a b = Raise ValueError.
Proof. exists (gmix_zeros 2), (gmix_zeros 3). split; [cbn; lia|reflexivity]. Qed.
