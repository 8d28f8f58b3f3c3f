From Coq Require Import Permutation.
From Verif Require Import Base XReal Jacobian_Model Pixels_Model GMix_Model GMixObj_Model
  Render_Model Flags_Model PSFFlux_Model PSFFlux_Spec PSFFlux_Proofs FluxRel_Spec.
From Verif Require LM_Model.
Local Open Scope R_scope.

(** ** the result in closed form *)
Definition xmodel (obs : list pobs) ts : R := over (fun t i w => t * i * w) obs ts.
Definition best (obs : list pobs) ts : R := xmodel obs ts / template_weight obs ts.
Definition dof_of (obs : list pobs) : R := if Nat.leb (n_weighted obs) 1 then / 1000000 else INR (n_weighted obs) - 1.
Definition closed (obs : list pobs) ts : pres :=
  if Reqb (template_weight obs ts) 0 then mkPres DIV_ZERO (Fin 0) (dof_of obs) (Fin LM_Model.PDEF) (Fin LM_Model.CDEF)
  else let c := chi2_at obs ts (best obs ts) in
       if Nat.eqb (n_kept obs) 1 then mkPres DIV_ZERO (Fin (c / dof_of obs)) (dof_of obs) (Fin (best obs ts)) (Fin LM_Model.CDEF)
       else mkPres 0%Z (Fin (c / dof_of obs)) (dof_of obs) (Fin (best obs ts)) (Fin (sqrt (c / template_weight obs ts / (INR (n_kept obs) - 1)))).
Lemma dof_of_pos obs : 0 < dof_of obs.
Proof.
  unfold dof_of. destruct (Nat.leb (n_weighted obs) 1) eqn:L; [lra|]. apply Nat.leb_gt in L. assert (H : (2 <= n_weighted obs)%nat) by lia. apply le_INR in H. cbn [INR] in H. lra.
Qed.
Lemma tw_nonneg obs ts : weights_ok obs -> 0 <= template_weight obs ts.
Proof. intros W. apply over_nonneg; [exact W|]. intros. apply Rmult_le_pos; [apply pow2_ge_0|assumption]. Qed.
Lemma chi2_nonneg obs ts f : weights_ok obs -> 0 <= chi2_at obs ts f.
Proof. intros W. apply over_nonneg; [exact W|]. intros. apply Rmult_le_pos; [apply pow2_ge_0|assumption]. Qed.
Lemma psfflux_closed do_psf np obs ts : templates do_psf np obs ts -> weights_ok obs -> stored obs ->
  psfflux_go do_psf np obs = Some (Ok (closed obs ts)).
Proof.
  intros T W St. destruct (init_ok do_psf np obs ts T St) as (ss & Ei & A). unfold psfflux_go. rewrite Ei. cbn [opt_bind].
  destruct (pass1_ok obs ss ts A 0 0) as (ss' & E1' & Y). unfold go. cbn [pf_obs pf_sources pf_totpix]. rewrite E1', !Rplus_0_l.
  assert (M : over (fun t _ w => t * t * w) obs ts = template_weight obs ts) by (apply over_ext; intros; ring). rewrite M.
  assert (Mp := tw_nonneg obs ts W).
  set (F := mkPfit obs ss' (n_kept obs)). assert (Dp := dof_pos F).
  assert (Dv : get_dof F = dof_of obs).
  { unfold get_dof, dof_of. cbn [F pf_obs]. rewrite fold_add. cbn [Nat.add]. fold (n_weighted obs). destruct (Nat.leb (n_weighted obs) 1) eqn:L.
    - apply Nat.leb_le, le_INR in L. cbn [INR] in L. rewrite Rleb_t by lra. reflexivity.
    - apply Nat.leb_gt in L. apply le_INR in L. cbn [INR] in L. rewrite Rleb_f by lra. reflexivity. }
  rewrite (Rltb_t _ _ Dp). rewrite Dv in *. unfold closed.
  destruct (Req_dec (template_weight obs ts) 0) as [Z|Z].
  - cbn [xeqb]. rewrite (Reqb_t _ _ Z). cbn [orb option_map snd Z.lor]. rewrite xdiv_fin by lra. replace (0 / dof_of obs) with 0 by (field; lra). reflexivity.
  - assert (Mq : 0 < template_weight obs ts) by lra. cbn [xeqb]. rewrite (Reqb_f _ _ Z).
    rewrite xdiv_fin by exact Z. change (over (fun t i w => t * i * w) obs ts / template_weight obs ts) with (best obs ts). set (f := best obs ts).
    rewrite (pass2_ok obs ss' ts Y f 0), Rplus_0_l. cbn [opt_bind orb].
    assert (C : over (fun t i w => (f * t - i) * (f * t - i) * w) obs ts = chi2_at obs ts f) by (apply over_ext; intros; ring). rewrite C.
    assert (Cp := chi2_nonneg obs ts f W).
    rewrite (xdiv_fin (chi2_at obs ts f) (dof_of obs)) by lra. rewrite (xdiv_fin (chi2_at obs ts f) (template_weight obs ts)) by lra. change (pf_totpix F) with (n_kept obs).
    assert (Np : n_kept obs <> 0%nat) by (intros N; apply Z; apply weight_needs_pixels; assumption).
    destruct (Nat.eqb (n_kept obs) 1) eqn:E1k; [reflexivity|].
    apply Nat.eqb_neq in E1k. assert (Kp : 1 <= INR (n_kept obs) - 1). { assert (2 <= n_kept obs)%nat by lia. apply le_INR in H. cbn [INR] in H. lra. }
    rewrite xdiv_fin by lra. set (arg := chi2_at obs ts f / template_weight obs ts / (INR (n_kept obs) - 1)).
    assert (Ap : 0 <= arg). { unfold arg, Rdiv. apply Rmult_le_pos; [apply Rmult_le_pos; [exact Cp|]|]; apply Rlt_le, Rinv_0_lt_compat; lra. }
    cbn [xleb]. rewrite Rleb_t by exact Ap. cbn [option_map snd xsqrt]. rewrite ?Rltb_f by lra. reflexivity.
Qed.

(** ** sums over related observations *)
Lemma over_map (g : pobs -> pobs) f f' obs ts : (forall o, po_nr (g o) = po_nr o /\ po_nc (g o) = po_nc o) ->
  (forall o r c t, f t (po_im (g o) r c) (po_wt (g o) r c) = f' t (po_im o r c) (po_wt o r c)) ->
  over f (map g obs) ts = over f' obs ts.
Proof.
  intros S H. revert ts. induction obs as [|o obs IH]; intros [|t ts]; cbn [map]; rewrite ?over_nil, ?over_nil_r, ?over_cons; try reflexivity.
  rewrite IH. destruct (S o) as [-> ->]. f_equal. f_equal. apply cells_ext. intros. apply H.
Qed.
Lemma over_scal a f obs ts : over (fun t i w => a * f t i w) obs ts = a * over f obs ts.
Proof.
  transitivity (over (fun t i w => a * f t i w + 0 * f t i w) obs ts); [apply over_ext; intros; ring|]. rewrite over_lin. ring.
Qed.
(** templates do not depend on the data *)
Definition same_sources (o o' : pobs) : Prop :=
  po_nr o' = po_nr o /\ po_nc o' = po_nc o /\ po_jac o' = po_jac o /\ po_pix o' = po_pix o /\ po_gmix o' = po_gmix o /\ po_template o' = po_template o /\ po_psf o' = po_psf o.
Lemma forall2_sources (P : pobs -> (nat -> nat -> R) -> Prop) obs obs' ts : (forall o o' t, same_sources o o' -> P o t -> P o' t) ->
  Forall2 same_sources obs obs' -> Forall2 P obs ts -> Forall2 P obs' ts.
Proof. intros H S. revert ts. induction S; intros ts F; inversion F; subst; constructor; eauto. Qed.
Lemma templates_sources do_psf np obs obs' ts : Forall2 same_sources obs obs' -> templates do_psf np obs ts -> templates do_psf np obs' ts.
Proof.
  intros S (N & T). split; [destruct S; [exact N|discriminate]|].
  destruct T as [T|(H & T)].
  - left. refine (forall2_sources _ _ _ _ _ S T). clear. intros [] [] t (E1 & E2 & E3 & E4 & E5 & E6 & E7). cbn in E1, E2, E3, E4, E5, E6, E7. subst. exact (fun x => x).
  - right. split. { destruct S as [|o o' l l' (E1 & E2 & E3 & E4 & E5 & E6 & E7) _]; [exact I|]. unfold chosen_gmix in *. rewrite E5, E7. exact H. }
    refine (forall2_sources _ _ _ _ _ S T). clear. intros [] [] t (E1 & E2 & E3 & E4 & E5 & E6 & E7). cbn in E1, E2, E3, E4, E5, E6, E7. subst. exact (fun x => x).
Qed.
Lemma stored_sources obs obs' : Forall2 same_sources obs obs' -> stored obs -> stored obs'.
Proof. induction 1 as [|o o' l l' (_ & _ & _ & E & _) _ IH]; intros St; [constructor|]. inversion St; subst. constructor; [congruence|apply IH; assumption]. Qed.
Lemma map_sources (g : pobs -> pobs) obs : (forall o, same_sources o (g o)) -> Forall2 same_sources obs (map g obs).
Proof. intros H. induction obs; cbn [map]; constructor; auto. Qed.
Lemma scale_sources ki kw o : same_sources o (scale_data ki kw o).
Proof. repeat split. Qed.
Lemma scale_weights ki kw obs : 0 < kw -> weights_ok obs -> weights_ok (map (scale_data ki kw) obs).
Proof.
  intros K. induction 1 as [|o obs H _ IH]; cbn [map]; constructor; [|exact IH]. intros r c. cbn [scale_data with_data po_wt]. apply Rmult_le_pos; [lra|apply H].
Qed.
Lemma filter_map_length {A} (p q : A -> bool) (f : A -> A) l : (forall x, p (f x) = q x) -> length (filter p (map f l)) = length (filter q l).
Proof. intros H. induction l as [|x l IH]; [reflexivity|]. cbn [map filter]. rewrite H. destruct (q x); cbn [length]; rewrite IH; reflexivity. Qed.
Lemma positive_scaled ki kw o : 0 < kw -> n_positive (scale_data ki kw o) = n_positive o.
Proof.
  intros K. unfold n_positive. cbn [scale_data with_data po_nr po_nc po_wt]. rewrite (cells_map (po_nr o) (po_nc o) (po_wt o) (fun x => kw * x)). apply filter_map_length.
  intros x. destruct (Rltb_spec 0 x) as [H|H].
  - apply Rltb_t. apply Rmult_lt_0_compat; lra.
  - apply Rltb_f. assert (H' : x <= 0) by lra. nra.
Qed.
Lemma kept_scaled ki kw o : 0 < kw -> kept_pixels (scale_data ki kw o) = kept_pixels o.
Proof. intros K. unfold kept_pixels. rewrite positive_scaled by exact K. reflexivity. Qed.
Lemma n_kept_scaled ki kw obs : 0 < kw -> n_kept (map (scale_data ki kw) obs) = n_kept obs.
Proof. intros K. unfold n_kept. rewrite map_map. f_equal. apply map_ext. intros. apply kept_scaled, K. Qed.
Lemma n_weighted_scaled ki kw obs : 0 < kw -> n_weighted (map (scale_data ki kw) obs) = n_weighted obs.
Proof. intros K. unfold n_weighted. rewrite map_map. f_equal. apply map_ext. intros. apply positive_scaled, K. Qed.

Section Scale.
Context (ki kw : R) (Kw : 0 < kw) (obs : list pobs) (ts : list (nat -> nat -> R)) (W : weights_ok obs).
Let obs' := map (scale_data ki kw) obs.
Lemma tw_scaled : template_weight obs' ts = kw * template_weight obs ts.
Proof. unfold template_weight. rewrite <- over_scal. apply over_map; [intros; split; reflexivity|]. intros. cbn [scale_data with_data po_im po_wt]. ring. Qed.
Lemma xm_scaled : xmodel obs' ts = ki * kw * xmodel obs ts.
Proof. unfold xmodel. rewrite <- over_scal. apply over_map; [intros; split; reflexivity|]. intros. cbn [scale_data with_data po_im po_wt]. ring. Qed.
Lemma chi2_scaled f : chi2_at obs' ts (ki * f) = ki ^ 2 * kw * chi2_at obs ts f.
Proof. unfold chi2_at. rewrite <- over_scal. apply over_map; [intros; split; reflexivity|]. intros. cbn [scale_data with_data po_im po_wt]. ring. Qed.
Lemma best_scaled : template_weight obs ts <> 0 -> best obs' ts = ki * best obs ts.
Proof using Kw. clear W. intros H. unfold best. rewrite tw_scaled, xm_scaled. field. split; [exact H|lra]. Qed.
Lemma closed_scaled :
  let r := closed obs ts in let r' := closed obs' ts in
  pr_flags r' = pr_flags r /\ pr_dof r' = pr_dof r /\
  (exists x, pr_chi2per r = Fin x /\ pr_chi2per r' = Fin (ki ^ 2 * kw * x)) /\
  (0 < template_weight obs ts -> exists f, pr_flux r = Fin f /\ pr_flux r' = Fin (ki * f)) /\
  (template_weight obs ts = 0 -> pr_flux r' = pr_flux r) /\
  (pr_flags r = 0%Z -> exists e, pr_flux_err r = Fin e /\ pr_flux_err r' = Fin (Rabs ki * e)) /\
  (pr_flags r <> 0%Z -> pr_flux_err r' = pr_flux_err r).
Proof using Kw W.
  cbn zeta. unfold closed. rewrite tw_scaled. unfold dof_of. unfold obs' at 2. rewrite n_weighted_scaled by exact Kw. fold (dof_of obs). fold (dof_of obs').
  assert (Ed : dof_of obs' = dof_of obs) by (unfold dof_of, obs'; rewrite n_weighted_scaled by exact Kw; reflexivity). rewrite Ed.
  assert (En : n_kept obs' = n_kept obs) by (unfold obs'; apply n_kept_scaled; exact Kw). rewrite En.
  assert (Dp := dof_of_pos obs). assert (Tp := tw_nonneg obs ts W).
  destruct (Req_dec (template_weight obs ts) 0) as [Z|Z].
  - rewrite (Reqb_t (template_weight obs ts) 0) by exact Z. rewrite Reqb_t by (rewrite Z; ring). cbn.
    split; [reflexivity|]. split; [reflexivity|]. split; [exists 0; split; [reflexivity|f_equal; ring]|]. split; [intros; lra|]. split; [reflexivity|]. split; [discriminate|reflexivity].
  - assert (Zp : 0 < template_weight obs ts) by lra. rewrite (Reqb_f (template_weight obs ts) 0) by exact Z. rewrite Reqb_f by (assert (0 < kw * template_weight obs ts) by (apply Rmult_lt_0_compat; lra); lra).
    cbn zeta. rewrite best_scaled by exact Z. rewrite chi2_scaled.
    destruct (Nat.eqb (n_kept obs) 1) eqn:E1; cbn [pr_flags pr_dof pr_chi2per pr_flux pr_flux_err].
    + split; [reflexivity|]. split; [reflexivity|]. split; [eexists; split; [reflexivity|f_equal; field; lra]|]. split; [intros; eexists; split; reflexivity|]. split; [intros; lra|]. split; [discriminate|reflexivity].
    + apply Nat.eqb_neq in E1. assert (Np : n_kept obs <> 0%nat) by (intros N; apply Z; apply weight_needs_pixels; assumption).
      assert (Kp : 1 <= INR (n_kept obs) - 1). { assert (2 <= n_kept obs)%nat by lia. apply le_INR in H. cbn [INR] in H. lra. }
      split; [reflexivity|]. split; [reflexivity|]. split; [eexists; split; [reflexivity|f_equal; field; lra]|]. split; [intros; eexists; split; reflexivity|]. split; [intros; lra|]. split; [|intros H; elim H; reflexivity].
      intros _. eexists. split; [reflexivity|]. f_equal. set (c := chi2_at obs ts (best obs ts)).
      replace (ki ^ 2 * kw * c / (kw * template_weight obs ts) / (INR (n_kept obs) - 1)) with (ki ^ 2 * (c / template_weight obs ts / (INR (n_kept obs) - 1))) by (field; repeat split; lra).
      rewrite sqrt_mult_alt by apply pow2_ge_0. f_equal. rewrite <- Rsqr_pow2. apply sqrt_Rsqr_abs.
Qed.
End Scale.

Lemma scaled_runs do_psf np obs ts ki kw : templates do_psf np obs ts -> weights_ok obs -> stored obs -> 0 < kw ->
  exists r r', psfflux_go do_psf np obs = Some (Ok r) /\ psfflux_go do_psf np (map (scale_data ki kw) obs) = Some (Ok r') /\
    pr_flags r' = pr_flags r /\ pr_dof r' = pr_dof r /\
    (exists x, pr_chi2per r = Fin x /\ pr_chi2per r' = Fin (ki ^ 2 * kw * x)) /\
    (0 < template_weight obs ts -> exists f, pr_flux r = Fin f /\ pr_flux r' = Fin (ki * f)) /\
    (template_weight obs ts = 0 -> pr_flux r' = pr_flux r) /\
    (pr_flags r = 0%Z -> exists e, pr_flux_err r = Fin e /\ pr_flux_err r' = Fin (Rabs ki * e)) /\
    (pr_flags r <> 0%Z -> pr_flux_err r' = pr_flux_err r).
Proof.
  intros T W St K. exists (closed obs ts), (closed (map (scale_data ki kw) obs) ts). split; [apply psfflux_closed; assumption|].
  split.
  - apply psfflux_closed; [apply (templates_sources _ _ obs)|apply scale_weights; assumption|apply (stored_sources obs)]; try assumption; apply map_sources; intros; apply scale_sources.
  - apply closed_scaled; assumption.
Qed.
Lemma units_runs do_psf np obs ts k : templates do_psf np obs ts -> weights_ok obs -> stored obs -> k <> 0 ->
  exists r r', psfflux_go do_psf np obs = Some (Ok r) /\ psfflux_go do_psf np (map (scale_data k (/ k ^ 2)) obs) = Some (Ok r') /\
    pr_flags r' = pr_flags r /\ pr_dof r' = pr_dof r /\ pr_chi2per r' = pr_chi2per r /\
    (0 < template_weight obs ts -> exists f, pr_flux r = Fin f /\ pr_flux r' = Fin (k * f)) /\
    (template_weight obs ts = 0 -> pr_flux r' = pr_flux r) /\
    (pr_flags r = 0%Z -> exists e, pr_flux_err r = Fin e /\ pr_flux_err r' = Fin (Rabs k * e)) /\
    (pr_flags r <> 0%Z -> pr_flux_err r' = pr_flux_err r).
Proof.
  intros T W St K. assert (K2 : 0 < k ^ 2) by (assert (0 < Rabs k) by (apply Rabs_pos_lt; exact K); assert (k ^ 2 = Rabs k ^ 2) by (rewrite <- !Rsqr_pow2; apply Rsqr_abs); nra).
  destruct (scaled_runs do_psf np obs ts k (/ k ^ 2) T W St) as (r & r' & E & E' & A & B & (x & C & C') & D); [apply Rinv_0_lt_compat; exact K2|].
  exists r, r'. repeat (split; [assumption|]). split; [|exact D]. rewrite C, C'. f_equal. field. exact K.
Qed.
Lemma weights_runs do_psf np obs ts c : templates do_psf np obs ts -> weights_ok obs -> stored obs -> 0 < c ->
  exists r r', psfflux_go do_psf np obs = Some (Ok r) /\ psfflux_go do_psf np (map (scale_data 1 c) obs) = Some (Ok r') /\
    pr_flags r' = pr_flags r /\ pr_dof r' = pr_dof r /\ pr_flux r' = pr_flux r /\ pr_flux_err r' = pr_flux_err r /\
    exists x, pr_chi2per r = Fin x /\ pr_chi2per r' = Fin (c * x).
Proof.
  intros T W St K. destruct (scaled_runs do_psf np obs ts 1 c T W St K) as (r & r' & E & E' & A & B & (x & C & C') & D & D0 & F & F0).
  exists r, r'. repeat (split; [assumption|]). split.
  - destruct (Rle_lt_or_eq_dec _ _ (tw_nonneg obs ts W)) as [P|P].
    + destruct (D P) as (f & -> & ->). f_equal. ring.
    + auto.
  - split.
    + destruct (Z.eq_dec (pr_flags r) 0) as [P|P]; [|auto]. destruct (F P) as (e & -> & ->). rewrite Rabs_R1. f_equal. ring.
    + exists x. split; [exact C|]. rewrite C'. f_equal. ring.
Qed.

(** ** linear in the image *)
Definition first_scene (p : pobs * (nat -> nat -> R)) : pobs := fst p.
Lemma over_scenes (g : pobs * (nat -> nat -> R) -> pobs) f (h : R -> R -> R -> R -> R) l ts :
  (forall p, po_nr (g p) = po_nr (fst p) /\ po_nc (g p) = po_nc (fst p)) ->
  (forall p r c t, f t (po_im (g p) r c) (po_wt (g p) r c) = h t (po_im (fst p) r c) (snd p r c) (po_wt (fst p) r c)) ->
  over f (map g l) ts = rsum (map (fun pt => rsum (cells (po_nr (fst (fst pt))) (po_nc (fst (fst pt)))
     (fun r c => h (snd pt r c) (po_im (fst (fst pt)) r c) (snd (fst pt) r c) (po_wt (fst (fst pt)) r c)))) (combine l ts)).
Proof.
  intros S H. revert ts. induction l as [|p l IH]; intros [|t ts]; cbn [map combine]; rewrite ?over_nil, ?over_nil_r, ?over_cons, ?rsum_nil, ?rsum_cons; try reflexivity.
  rewrite IH. destruct (S p) as [-> ->]. cbn [fst snd]. f_equal. f_equal. apply cells_ext. intros. apply H.
Qed.
Lemma linear_runs do_psf np l ts a b : templates do_psf np (map fst l) ts -> weights_ok (map fst l) -> stored (map fst l) ->
  0 < template_weight (map fst l) ts ->
  exists r1 r2 r3 f1 f2, psfflux_go do_psf np (map fst l) = Some (Ok r1) /\ psfflux_go do_psf np (map second_scene l) = Some (Ok r2) /\
    psfflux_go do_psf np (map (both_scenes a b) l) = Some (Ok r3) /\
    pr_flux r1 = Fin f1 /\ pr_flux r2 = Fin f2 /\ pr_flux r3 = Fin (a * f1 + b * f2) /\
    pr_dof r3 = pr_dof r1 /\ pr_flags r3 = pr_flags r1 /\ pr_flags r2 = pr_flags r1.
Proof.
  intros T W St P. set (o1 := map fst l) in *. set (o2 := map second_scene l). set (o3 := map (both_scenes a b) l).
  assert (S2 : Forall2 same_sources o1 o2) by (unfold o1, o2; clear; induction l; cbn [map]; constructor; [repeat split|assumption]).
  assert (S3 : Forall2 same_sources o1 o3) by (unfold o1, o3; clear; induction l; cbn [map]; constructor; [repeat split|assumption]).
  assert (W2 : weights_ok o2) by (unfold weights_ok, o2; apply Forall_map; unfold weights_ok, o1 in W; apply (proj1 (Forall_map _ _ _)) in W; exact W).
  assert (W3 : weights_ok o3) by (unfold weights_ok, o3; apply Forall_map; unfold weights_ok, o1 in W; apply (proj1 (Forall_map _ _ _)) in W; exact W).
  assert (P2 : template_weight o2 ts = template_weight o1 ts).
  { unfold template_weight, o1, o2. rewrite (over_scenes second_scene _ (fun t _ _ w => t ^ 2 * w)), (over_scenes fst _ (fun t _ _ w => t ^ 2 * w)); auto. }
  assert (P3 : template_weight o3 ts = template_weight o1 ts).
  { unfold template_weight, o1, o3. rewrite (over_scenes (both_scenes a b) _ (fun t _ _ w => t ^ 2 * w)), (over_scenes fst _ (fun t _ _ w => t ^ 2 * w)); auto. }
  assert (X : xmodel o3 ts = a * xmodel o1 ts + b * xmodel o2 ts).
  { unfold xmodel, o1, o2, o3. rewrite (over_scenes (both_scenes a b) _ (fun t i j w => t * (a * i + b * j) * w)), (over_scenes fst _ (fun t i _ w => t * i * w)), (over_scenes second_scene _ (fun t _ j w => t * j * w)) by auto.
    rewrite <- rsum_map_lin. f_equal. apply map_ext. intros pt. rewrite <- rsum_cells_lin. f_equal. apply cells_ext. intros. ring. }
  assert (N2 : n_kept o2 = n_kept o1) by (unfold n_kept, o1, o2; rewrite !map_map; reflexivity).
  assert (N3 : n_kept o3 = n_kept o1) by (unfold n_kept, o1, o3; rewrite !map_map; reflexivity).
  assert (M3 : n_weighted o3 = n_weighted o1) by (unfold n_weighted, o1, o3; rewrite !map_map; reflexivity).
  exists (closed o1 ts), (closed o2 ts), (closed o3 ts), (best o1 ts), (best o2 ts).
  split; [apply psfflux_closed; assumption|]. split; [apply psfflux_closed; [apply (templates_sources _ _ o1)|assumption|apply (stored_sources o1)]; assumption|].
  split; [apply psfflux_closed; [apply (templates_sources _ _ o1)|assumption|apply (stored_sources o1)]; assumption|].
  unfold closed, best, dof_of. rewrite P2, P3, N2, N3, M3, X. rewrite (Reqb_f (template_weight o1 ts) 0) by lra. cbn zeta.
  destruct (Nat.eqb (n_kept o1) 1); cbn [pr_flux pr_dof pr_flags]; (repeat (split; [try reflexivity; f_equal; field; lra|]); reflexivity).
Qed.

(** ** only the pixels with weight matter *)
Lemma rsum_app l l' : rsum (l ++ l') = rsum l + rsum l'.
Proof. induction l as [|x l IH]; cbn [app]; rewrite ?rsum_nil, ?rsum_cons; [ring|]. rewrite IH. ring. Qed.
Lemma rsum_perm l l' : Permutation l l' -> rsum l = rsum l'.
Proof. induction 1; rewrite ?rsum_cons; try lra; congruence. Qed.
Lemma rsum_filter {A} (f : A -> R) p l : (forall x, In x l -> p x = false -> f x = 0) -> rsum (map f (filter p l)) = rsum (map f l).
Proof.
  induction l as [|x l IH]; intros H; [reflexivity|]. cbn [filter map]. rewrite rsum_cons, <- IH by (intros; apply H; [right|]; assumption).
  destruct (p x) eqn:E; cbn [map]; rewrite ?rsum_cons; [reflexivity|]. rewrite (H x) by (auto; left; reflexivity). ring.
Qed.
Definition app3 (f : R -> R -> R -> R) (x : R * R * R) : R := f (fst (fst x)) (snd (fst x)) (snd x).
Definition triples (o : pobs) (t : nat -> nat -> R) : list (R * R * R) := cells (po_nr o) (po_nc o) (fun r c => (t r c, po_im o r c, po_wt o r c)).
Lemma over_triples f obs ts : over f obs ts = rsum (map (app3 f) (concat (map (fun ot => triples (fst ot) (snd ot)) (combine obs ts)))).
Proof.
  revert ts. induction obs as [|o obs IH]; intros [|t ts]; cbn [combine map concat]; rewrite ?over_nil, ?over_nil_r, ?over_cons; try reflexivity.
  rewrite map_app, rsum_app, IH. cbn [fst snd]. f_equal. unfold triples. rewrite <- cells_map. reflexivity.
Qed.
Lemma triples_weights obs ts x : weights_ok obs -> In x (concat (map (fun ot => triples (fst ot) (snd ot)) (combine obs ts))) -> 0 <= snd x.
Proof.
  intros W. revert ts. induction W as [|o obs H _ IH]; intros [|t ts]; cbn [combine map concat]; try (intros []).
  intros I. apply in_app_or in I. destruct I as [I|I]; [|eapply IH; exact I]. cbn [fst snd] in I. apply in_cells in I. destruct I as (r & c & ->). apply H.
Qed.
Lemma over_measured f obs ts : weights_ok obs -> (forall t i, f t i 0 = 0) -> over f obs ts = rsum (map (app3 f) (measured obs ts)).
Proof.
  intros W H. rewrite over_triples. unfold measured. symmetry. apply rsum_filter. intros x I E.
  assert (Z : snd x = 0) by (assert (A := triples_weights obs ts x W I); destruct (Rltb_spec 0 (snd x)); [discriminate|lra]). unfold app3. rewrite Z. apply H.
Qed.
Lemma weighted_measured obs ts : length obs = length ts -> n_weighted obs = length (measured obs ts).
Proof.
  revert ts. induction obs as [|o obs IH]; intros [|t ts] L; try discriminate; [reflexivity|]. injection L as L.
  unfold measured in *. cbn [combine map concat]. rewrite filter_app, app_length, <- IH by exact L. change (n_weighted (o :: obs)) with (n_positive o + n_weighted obs)%nat. f_equal.
  unfold n_positive. cbn [fst snd]. change (po_wt o) with (fun r c => snd (t r c, po_im o r c, po_wt o r c)) at 1. rewrite (cells_map (po_nr o) (po_nc o) (fun r c => (t r c, po_im o r c, po_wt o r c)) snd).
  generalize (cells (po_nr o) (po_nc o) (fun r c => (t r c, po_im o r c, po_wt o r c))). intros l. induction l as [|x l IHl]; [reflexivity|]. cbn [map filter]. destruct (Rltb 0 (snd x)); cbn [length]; rewrite IHl; reflexivity.
Qed.
Lemma F2_length {A B} (P : A -> B -> Prop) l l' : Forall2 P l l' -> length l = length l'.
Proof. induction 1; cbn [length]; congruence. Qed.
Lemma templates_length do_psf np obs ts : templates do_psf np obs ts -> length obs = length ts.
Proof. intros (_ & [T|(_ & T)]); exact (F2_length _ _ _ T). Qed.
Lemma closed_measured obs ts obs' ts' : weights_ok obs -> weights_ok obs' -> length obs = length ts -> length obs' = length ts' ->
  Permutation (measured obs ts) (measured obs' ts') -> n_kept obs = n_kept obs' -> closed obs ts = closed obs' ts'.
Proof.
  intros W W' L L' P N.
  assert (O : forall f, (forall t i, f t i 0 = 0) -> over f obs ts = over f obs' ts').
  { intros f H. rewrite !over_measured by assumption. apply rsum_perm, Permutation_map, P. }
  assert (M : n_weighted obs = n_weighted obs') by (rewrite (weighted_measured obs ts L), (weighted_measured obs' ts' L'); apply Permutation_length, P).
  unfold closed, best, xmodel, template_weight, chi2_at, dof_of. rewrite M, N, (O (fun t _ w => t ^ 2 * w)), (O (fun t i w => t * i * w)) by (intros; ring).
  cbn zeta. rewrite O by (intros; ring). reflexivity.
Qed.
Lemma measured_runs do_psf np obs ts do_psf' np' obs' ts' : templates do_psf np obs ts -> weights_ok obs -> stored obs ->
  templates do_psf' np' obs' ts' -> weights_ok obs' -> stored obs' ->
  Permutation (measured obs ts) (measured obs' ts') -> n_kept obs = n_kept obs' ->
  psfflux_go do_psf np obs = psfflux_go do_psf' np' obs'.
Proof.
  intros T W St T' W' St' P N. rewrite (psfflux_closed _ _ obs ts), (psfflux_closed _ _ obs' ts') by assumption. do 2 f_equal.
  apply closed_measured; eauto using templates_length.
Qed.
Lemma default_stored obs : default_pixels obs -> stored obs.
Proof. unfold default_pixels, stored. intros H. eapply Forall_impl; [|exact H]. cbn beta. intros o ->. discriminate. Qed.
Lemma measured_runs_default do_psf np obs ts do_psf' np' obs' ts' : templates do_psf np obs ts -> weights_ok obs -> default_pixels obs ->
  templates do_psf' np' obs' ts' -> weights_ok obs' -> default_pixels obs' ->
  Permutation (measured obs ts) (measured obs' ts') ->
  psfflux_go do_psf np obs = psfflux_go do_psf' np' obs'.
Proof.
  intros T W D T' W' D' P. eapply measured_runs; eauto using default_stored. rewrite !kept_default by assumption.
  rewrite (weighted_measured obs ts), (weighted_measured obs' ts') by eauto using templates_length. apply Permutation_length, P.
Qed.

(** ** order *)
Lemma Permutation_filter {A} (p : A -> bool) l l' : Permutation l l' -> Permutation (filter p l) (filter p l').
Proof.
  induction 1 as [|x l l' _ IH|x y l|l l' l'' _ IH1 _ IH2]; cbn [filter].
  - constructor.
  - destruct (p x); [constructor|]; exact IH.
  - destruct (p x), (p y); try apply Permutation_refl. apply perm_swap.
  - eapply Permutation_trans; eassumption.
Qed.
Lemma Permutation_concat {A} (l l' : list (list A)) : Permutation l l' -> Permutation (concat l) (concat l').
Proof.
  induction 1 as [|x l l' _ IH|x y l|l l' l'' _ IH1 _ IH2]; cbn [concat].
  - constructor.
  - apply Permutation_app_head, IH.
  - rewrite !app_assoc. apply Permutation_app_tail, Permutation_app_comm.
  - eapply Permutation_trans; eassumption.
Qed.
Lemma forall2_combine {A B} (P : A -> B -> Prop) l l' : Forall2 P l l' -> Forall (fun x => P (fst x) (snd x)) (combine l l') /\ map fst (combine l l') = l.
Proof. induction 1 as [|x y l l' H _ (IH & E)]; cbn [combine map]; [split; [constructor|reflexivity]|]. split; [constructor; assumption|]. cbn [fst]. rewrite E. reflexivity. Qed.
Lemma combine_forall2 {A B} (P : A -> B -> Prop) l : Forall (fun x => P (fst x) (snd x)) l -> Forall2 P (map fst l) (map snd l) /\ combine (map fst l) (map snd l) = l.
Proof. induction 1 as [|[x y] l H _ (IH & E)]; cbn [map combine]; [split; [constructor|reflexivity]|]. split; [constructor; assumption|]. cbn [fst snd]. rewrite E. reflexivity. Qed.
Lemma forall2_perm {A B} (P : A -> B -> Prop) l l' ts : Forall2 P l ts -> Permutation l l' ->
  exists ts', Forall2 P l' ts' /\ Permutation (combine l ts) (combine l' ts').
Proof.
  intros F Q. destruct (forall2_combine P l ts F) as (G & E). rewrite <- E in Q at 1. apply Permutation_sym in Q. apply Permutation_map_inv in Q. destruct Q as (m & -> & Q).
  exists (map snd m). destruct (combine_forall2 P m) as (H & ->); [|auto]. eapply Permutation_Forall; eassumption.
Qed.
Lemma order_runs do_psf np obs ts obs' : templates do_psf np obs ts -> weights_ok obs -> stored obs -> Permutation obs obs' ->
  Forall (fun o => chosen_gmix do_psf o <> None) obs \/ Forall (fun o => chosen_gmix do_psf o = None) obs ->
  psfflux_go do_psf np obs = psfflux_go do_psf np obs'.
Proof.
  intros T W St P K.
  assert (X : exists ts', templates do_psf np obs' ts' /\ Permutation (combine obs ts) (combine obs' ts')).
  { destruct T as (N & T). assert (N' : obs' <> []) by (intros ->; apply N; apply Permutation_nil; apply Permutation_sym; exact P).
    destruct T as [T|(H & T)].
    - destruct (forall2_perm _ _ _ _ T P) as (ts' & T' & Q). exists ts'. split; [split; [exact N'|left; exact T']|exact Q].
    - destruct (forall2_perm _ _ _ _ T P) as (ts' & T' & Q). exists ts'. split; [split; [exact N'|right; split; [|exact T']]|exact Q].
      destruct K as [K|K]; [exfalso; inversion K; subst; contradiction|]. assert (K' := Permutation_Forall P K). destruct obs'; [exact I|]. inversion K'; assumption. }
  destruct X as (ts' & T' & Q). eapply measured_runs; eauto.
  - exact (Permutation_Forall P W).
  - exact (Permutation_Forall P St).
  - apply Permutation_filter, Permutation_concat, Permutation_map, Q.
  - unfold n_kept. clear -P. induction P; cbn [map list_sum fold_right] in *; unfold list_sum in *; cbn [fold_right] in *; lia.
Qed.

(** ** noiseless images *)
Lemma over_two f g h obs ts : (forall o t, In (o, t) (combine obs ts) -> forall r c, (r < po_nr o)%nat -> (c < po_nc o)%nat -> f (t r c) (po_im o r c) (po_wt o r c) = h * g (t r c) (po_im o r c) (po_wt o r c)) ->
  over f obs ts = h * over g obs ts.
Proof.
  intros H. rewrite <- over_scal. revert ts H. induction obs as [|o obs IH]; intros [|t ts] H; rewrite ?over_nil, ?over_nil_r, ?over_cons; try reflexivity.
  rewrite IH by (intros; apply H; [right|..]; assumption). f_equal. f_equal. unfold cells. f_equal. apply map_ext_in. intros r R. apply map_ext_in. intros c C. apply in_seq in R, C. apply (H o t); [left; reflexivity|lia|lia].
Qed.
Lemma noiseless_runs do_psf np obs ts f : templates do_psf np obs ts -> weights_ok obs -> stored obs -> Forall2 (noiseless f) obs ts ->
  0 < template_weight obs ts ->
  exists r, psfflux_go do_psf np obs = Some (Ok r) /\ pr_flux r = Fin f /\ pr_chi2per r = Fin 0 /\
    (pr_flags r = 0%Z -> pr_flux_err r = Fin 0) /\ (n_kept obs <> 1%nat -> pr_flags r = 0%Z).
Proof.
  intros T W St N P. exists (closed obs ts). split; [apply psfflux_closed; assumption|].
  assert (I : forall o t, In (o, t) (combine obs ts) -> noiseless f o t) by (clear -N; induction N as [|o0 t0 l l' H _ IH]; [intros o t []|]; intros o t [E|I]; [injection E as <- <-; exact H|auto]).
  assert (X : xmodel obs ts = f * template_weight obs ts).
  { apply over_two. intros o t Hi r c Hr Hc. destruct (Req_dec (po_wt o r c) 0) as [->|Z]; [ring|]. rewrite (I o t Hi r c Hr Hc Z). ring. }
  assert (B : best obs ts = f) by (unfold best; rewrite X; field; lra).
  assert (C : chi2_at obs ts f = 0).
  { transitivity (0 * template_weight obs ts); [|ring]. apply over_two. intros o t Hi r c Hr Hc. destruct (Req_dec (po_wt o r c) 0) as [->|Z]; [ring|]. rewrite (I o t Hi r c Hr Hc Z). ring. }
  assert (Dp := dof_of_pos obs). unfold closed. rewrite Reqb_f by lra. cbn zeta. rewrite B, C. replace (0 / dof_of obs) with 0 by (field; lra).
  destruct (Nat.eqb (n_kept obs) 1) eqn:E; cbn [pr_flux pr_chi2per pr_flags pr_flux_err].
  - apply Nat.eqb_eq in E. split; [reflexivity|]. split; [reflexivity|]. split; [discriminate|contradiction].
  - split; [reflexivity|]. split; [reflexivity|]. split; [|reflexivity]. intros _. f_equal. replace (0 / template_weight obs ts / (INR (n_kept obs) - 1)) with 0 by (unfold Rdiv; ring). apply sqrt_0.
Qed.

(** ** the units of template images *)
Lemma template_units np obs ts k : k <> 0 -> Forall (fun o => po_gmix o = None) obs -> templates false np obs ts -> weights_ok obs -> stored obs ->
  psfflux_go false np (map (scale_template k) obs) = psfflux_go false np obs.
Proof.
  intros K G T W St.
  assert (T' : templates false np (map (scale_template k) obs) ts).
  { destruct T as (N & T). split; [destruct obs; [exact N|discriminate]|]. right. split; [inversion G; cbn; auto|].
    assert (T2 : Forall2 (array_template false true) obs ts).
    { destruct T as [T|(_ & T)]; [|exact T]. destruct T as [|o t obs ts (g & c & E & _) _]; [contradiction|]. inversion G; subst. cbn [chosen_gmix] in E. congruence. }
    clear -T2 K. cbn [normalised negb orb]. induction T2 as [|o t obs ts (a & x & E & Ea & Eb & Ex & S & Et) _ IH]; cbn [map]; constructor; [|exact IH].
    cbn [chosen_template] in E.
    assert (S' : rsum (cells (po_nr o) (po_nc o) (fun r c => x r c * k)) = rsum (cells (po_nr o) (po_nc o) x) * k).
    { transitivity (k * rsum (cells (po_nr o) (po_nc o) x) + 0 * rsum (cells (po_nr o) (po_nc o) x)); [|ring]. rewrite <- rsum_cells_lin. f_equal. apply cells_ext. intros. ring. }
    eexists. exists (fun r c => x r c * k). cbn [chosen_template scale_template po_template po_nr po_nc]. rewrite E. cbn [option_map]. split; [reflexivity|]. cbn [nrow ncol at2].
    split; [exact Ea|]. split; [exact Eb|]. split; [intros; rewrite Ex by assumption; reflexivity|]. rewrite S'. split; [apply Rmult_integral_contrapositive_currified; assumption|].
    intros. rewrite Et by assumption. field. auto. }
  rewrite (psfflux_closed _ _ _ _ T'), (psfflux_closed _ _ _ _ T); try assumption.
  - do 2 f_equal. unfold closed, best, xmodel, template_weight, chi2_at, dof_of. rewrite !(over_map (scale_template k) (fun t _ w => t ^ 2 * w) (fun t _ w => t ^ 2 * w)), !(over_map (scale_template k) (fun t i w => t * i * w) (fun t i w => t * i * w)) by (intros; repeat split; reflexivity).
    cbn zeta. rewrite (over_map (scale_template k) _ (fun t i w => (over (fun t i w => t * i * w) obs ts / over (fun t _ w => t ^ 2 * w) obs ts * t - i) ^ 2 * w)) by (intros; repeat split; reflexivity).
    replace (n_weighted (map (scale_template k) obs)) with (n_weighted obs) by (unfold n_weighted; rewrite map_map; reflexivity).
    replace (n_kept (map (scale_template k) obs)) with (n_kept obs) by (unfold n_kept; rewrite map_map; reflexivity). reflexivity.
  - unfold weights_ok in *. apply Forall_map. exact W.
  - unfold stored in *. apply Forall_map. exact St.
Qed.

(** ** the first observation decides between mixtures and template images *)
Definition ord_templ : arr2 xr := mkArr 1 1 (fun _ _ => Fin 1).
Definition ord_a : pobs := mkPobs 1 1 (fun _ _ => 3) (fun _ _ => 1) (mkJac 0 0 1 0 0 1 1 1) (Some true) (Some (mkObj KFull 1 6 [] [gauss2d_set 1 0 0 1 0 1])) (Some ord_templ) None.
Definition ord_b : pobs := mkPobs 1 1 (fun _ _ => 3) (fun _ _ => 1) (mkJac 0 0 1 0 0 1 1 1) (Some true) None (Some ord_templ) None.
Lemma order_raises : psfflux_go false true [ord_a; ord_b] = Some (Raise RuntimeError).
Proof.
  unfold psfflux_go, pfit_init. cbn [ord_a po_gmix po_template opt_bind opt_mapM]. unfold set_gmix at 1. cbn [ord_a po_gmix].
  assert (E : exists d, obj_copy (mkObj KFull 1 6 [] [gauss2d_set 1 0 0 1 0 1]) = Ok d /\ map g_p (o_data d) = [1]) by (eexists; split; reflexivity).
  destruct E as (d & E & P). rewrite E. cbn [opt_bind negb orb]. unfold obj_set_flux, gm_set_flux, np_div. rewrite P.
  rewrite Reqb_f by (cbn; lra). reflexivity.
Qed.
Lemma order_templates : templates false true [ord_b; ord_a] [fun _ _ => 1; fun _ _ => 1].
Proof.
  split; [discriminate|]. right. split; [reflexivity|].
  assert (S : rsum (cells 1 1 (fun _ _ : nat => 1)) = 1) by (cbn; lra).
  constructor; [|constructor; [|constructor]]; (exists ord_templ, (fun _ _ => 1); cbn [chosen_template ord_a ord_b po_template po_nr po_nc normalised negb orb]; rewrite S; repeat split; try reflexivity; intros; lra).
Qed.
Lemma order_weights : weights_ok [ord_b; ord_a].
Proof. repeat constructor; cbn; lra. Qed.
Lemma order_works : exists r, psfflux_go false true [ord_b; ord_a] = Some (Ok r) /\ pr_flags r = 0%Z /\ pr_flux r = Fin 3.
Proof.
  destruct (noiseless_runs false true [ord_b; ord_a] _ 3 order_templates order_weights) as (r & E & F & _ & _ & G).
  - repeat constructor; discriminate.
  - repeat constructor; intros r c _ _ _; cbn; lra.
  - unfold template_weight, over. cbn. lra.
  - exists r. split; [exact E|]. split; [|exact F]. apply G. unfold n_kept, kept_pixels, n_positive. cbn. rewrite !(Rltb_t 0 1) by lra. cbn. lia.
Qed.
