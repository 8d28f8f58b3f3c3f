From Verif Require Import Base XReal Jacobian_Model Jacobian_Spec Pixels_Model GMix_Model GMixObj_Model GMixObj_Proofs Render_Model Flags_Model PSFFlux_Model PSFFlux_Spec PSFFlux_Proofs
  GalsimPSFFlux_Model GalsimPSFFlux_Spec.
From Verif Require LM_Model.
Local Open Scope R_scope.

(** ** templates *)
Lemma world_of j n m r c u v : world (get_galsim_wcs j) (centre_offset n m j) (from_middle n c) (from_middle m r) u v <-> maps_to j (INR r) (INR c) v u.
Proof.
  unfold world, maps_to, get_galsim_wcs, centre_offset, from_middle. cbn [fst snd w_dudx w_dudy w_dvdx w_dvdy].
  replace (INR c - (INR n - 1) / 2 - (col0 j - (INR n - 1) / 2)) with (INR c - col0 j) by lra.
  replace (INR r - (INR m - 1) / 2 - (row0 j - (INR m - 1) / 2)) with (INR r - row0 j) by lra. split; intros [-> ->]; split; ring.
Qed.
Lemma wdet_of j : wdet (get_galsim_wcs j) = true_det j.
Proof. unfold wdet, true_det, get_galsim_wcs. cbn [w_dudx w_dudy w_dvdx w_dvdy]. ring. Qed.
Lemma normalised_at im : rsum (cells (nrow im) (ncol im) (at2 im)) <> 0 -> forall r c,
  at2 (normalised_image im) r c = Fin (at2 im r c / rsum (cells (nrow im) (ncol im) (at2 im))).
Proof.
  intros N r c. unfold normalised_image. cbn [scale_arr at2]. unfold arr_sum. cbn [nrow ncol at2].
  rewrite (cells_fin _ _ _ (at2 im)) by reflexivity. rewrite xdiv_fin by exact N. cbn [xmul]. f_equal. field. exact N.
Qed.

Section Galsim.
  Variable O : Type.
  Variable X : gpsf O.
  Variable prof : O -> R -> R -> R.
  Variable pix : O -> wcs -> R -> R -> R.
  Hypothesis L : lawful X prof pix.

  Lemma psf_model_on_sky o p : psf_model O X o = Ok p -> psf_on_sky prof o p.
  Proof.
    unfold psf_model. destruct (go_psf o) as [[im j]|] eqn:E; [|discriminate]. intros H. exists im, j. split; [exact E|]. intros N D r c v u Hr Hc M.
    rewrite <- wdet_of in *. eapply (law_interp X prof pix L _ _ _ _ H D r c); [exact Hr|exact Hc|apply normalised_at; exact N|]. apply world_of. exact M.
  Qed.
  (** an image of the right shape, with finite pixels *)
  Definition shows (o : pobs) (a : arr2 xr) (t : nat -> nat -> R) : Prop :=
    nrow a = po_nr o /\ ncol a = po_nc o /\ forall r c, (r < po_nr o)%nat -> (c < po_nc o)%nat -> at2 a r c = Fin (t r c).
  Lemma drawn_template m0 m o p a : psf_on_sky prof o p ->
    match m0, m with None, None => True | Some m0, Some m => gp_withflux X 1 m0 = Ok m | _, _ => False end ->
    template_image O X m (o, p) = Ok a -> exists t, galsim_template X prof pix m0 o t /\ shows (go_obs o) a t.
  Proof.
    intros P Hm H. unfold template_image in H. apply bind_ok in H. destruct H as (obj & Eo & H). unfold do_draw in H.
    destruct (gp_draw X obj _ _ _ _) as [a'|e] eqn:D; [|destruct e; discriminate]. injection H as ->.
    destruct (law_draw X prof pix L _ _ _ _ _ _ D) as (Rn & Cn & V).
    exists (fun r c => pix obj (get_galsim_wcs (po_jac (go_obs o)))
       (dudrow (po_jac (go_obs o)) * (INR r - row0 (po_jac (go_obs o))) + dudcol (po_jac (go_obs o)) * (INR c - col0 (po_jac (go_obs o))))
       (dvdrow (po_jac (go_obs o)) * (INR r - row0 (po_jac (go_obs o))) + dvdcol (po_jac (go_obs o)) * (INR c - col0 (po_jac (go_obs o))))).
    split.
    - exists p, obj. split; [exact P|]. split.
      + destruct m0 as [m0|], m as [m|]; try contradiction; [exists m; auto|congruence].
      + intros r c v u _ _ [-> ->]. reflexivity.
    - split; [exact Rn|]. split; [exact Cn|]. intros r c Hr Hc. apply V; [exact Hr|exact Hc|]. apply world_of. split; reflexivity.
  Qed.
End Galsim.

Inductive all_show : list pobs -> list (arr2 xr) -> list (nat -> nat -> R) -> Prop :=
| AS_nil : all_show [] [] []
| AS_cons o a t obs ss ts : shows o a t -> all_show obs ss ts -> all_show (o :: obs) (a :: ss) (t :: ts).

(** ** the passes *)
Definition entry (a : arr2 xr) : source := STempl a (Fin 1).
Lemma gpass1_ok obs al ts : all_show obs al ts -> forall a b,
  pass1 obs (map entry al) (Fin a) (Fin b) = Some (map entry al, Ok (Fin (a + over (fun t i w => t * i * w) obs ts), Fin (b + over (fun t _ w => t * t * w) obs ts))).
Proof.
  induction 1 as [|o im t obs ss ts (Rn & Cn & V) H IH]; intros a b.
  - cbn [pass1 map]. rewrite !over_nil, !Rplus_0_r. reflexivity.
  - cbn [pass1 map entry get_model bind].
    rewrite (sum_image_fin _ (fun t i w => t * i * w) o im t Rn Cn V) by (intros; reflexivity).
    rewrite (sum_image_fin _ (fun t i w => t * t * w) o im t Rn Cn V) by (intros; reflexivity). cbn [bind xadd].
    rewrite IH, !over_cons, !Rplus_assoc. reflexivity.
Qed.
Lemma gpass2_some obs al ts : all_show obs al ts -> forall f a, exists c, pass2 obs (map entry al) f a = Some (Ok c).
Proof.
  induction 1 as [|o im t obs ss ts (Rn & Cn & V) H IH]; intros f a; [eexists; reflexivity|]. cbn [pass2 map entry get_model bind]. unfold sum_image at 1.
  cbn [scale_arr nrow ncol]. rewrite Rn, Cn, !Nat.eqb_refl. cbn [andb]. apply IH.
Qed.
Lemma gpass2_ok obs al ts : all_show obs al ts -> Forall2 (fun o t => total o t <> 0) obs ts -> forall f a,
  pass2 obs (map entry al) (Fin f) (Fin a) = Some (Ok (Fin (a + over (fun t i w => (f * t - i) * (f * t - i) * w) obs (unit_templates obs ts)))).
Proof.
  induction 1 as [|o im t obs ss ts (Rn & Cn & V) H IH]; intros T f a.
  - cbn [pass2 map]. rewrite over_nil, Rplus_0_r. reflexivity.
  - inversion T as [|? ? ? ? T1 T2]; subst. cbn [pass2 map entry get_model bind].
    assert (S : arr_sum im = Fin (total o t)). { unfold arr_sum. rewrite Rn, Cn. apply cells_fin. exact V. }
    rewrite S. cbn [xmul]. rewrite xdiv_fin by exact T1.
    rewrite (sum_image_fin _ (fun t i w => (t - i) * (t - i) * w) o _ (fun r c => f * (t r c / total o t))).
    + cbn [xadd]. rewrite (IH T2). unfold unit_templates. cbn [combine map fst snd]. rewrite over_cons, Rplus_assoc. reflexivity.
    + exact Rn.
    + exact Cn.
    + intros r c Hr Hc. cbn [scale_arr at2]. rewrite (V r c Hr Hc). cbn [xmul]. f_equal. field. exact T1.
    + intros; reflexivity.
Qed.

Lemma dof_value obs ss n : get_dof (mkPfit obs ss n) = (if Nat.leb (n_weighted obs) 1 then / 1000000 else INR (n_weighted obs) - 1).
Proof.
  unfold get_dof. cbn [pf_obs]. rewrite fold_add. cbn [Nat.add]. fold (n_weighted obs). destruct (Nat.leb (n_weighted obs) 1) eqn:E.
  - apply Nat.leb_le, le_INR in E. cbn [INR] in E. rewrite Rleb_t by lra. reflexivity.
  - apply Nat.leb_gt in E. apply le_INR in E. cbn [INR] in E. rewrite Rleb_f by lra. reflexivity.
Qed.

Definition good_result (obs : list pobs) (ts : list (nat -> nat -> R)) (r : pres) : Prop :=
  pr_dof r = (if Nat.leb (n_weighted obs) 1 then / 1000000 else INR (n_weighted obs) - 1) /\
  (template_weight obs ts = 0 -> pr_flags r = DIV_ZERO /\ pr_flux r = Fin LM_Model.PDEF /\ pr_flux_err r = Fin LM_Model.CDEF) /\
  (0 < template_weight obs ts -> exists f, pr_flux r = Fin f /\ (forall f', f' <> f -> chi2_at obs ts f < chi2_at obs ts f') /\
    (Forall2 (fun o t => total o t <> 0) obs ts ->
      pr_chi2per r = Fin (chi2_at obs (unit_templates obs ts) f / pr_dof r) /\
      (n_kept obs = 1%nat -> pr_flags r = DIV_ZERO /\ pr_flux_err r = Fin LM_Model.CDEF) /\
      (n_kept obs <> 1%nat -> pr_flags r = 0%Z /\
         exists e, pr_flux_err r = Fin e /\ 0 <= e /\
           e ^ 2 * template_weight obs ts * (INR (n_kept obs) - 1) = chi2_at obs (unit_templates obs ts) f))).

Lemma galsim_go_ok obs al ts : all_show obs al ts -> weights_ok obs -> exists F r, go (mkPfit obs (map entry al) (n_kept obs)) = Some (F, Ok r) /\ good_result obs ts r.
Proof.
  intros A W. unfold go. cbn [pf_obs pf_sources pf_totpix]. rewrite (gpass1_ok obs al ts A), !Rplus_0_l.
  assert (M : over (fun t _ w => t * t * w) obs ts = template_weight obs ts) by (apply over_ext; intros; ring). rewrite M.
  assert (Mp : 0 <= template_weight obs ts). { apply over_nonneg; [exact W|]. intros. apply Rmult_le_pos; [apply pow2_ge_0|assumption]. }
  set (F := mkPfit obs (map entry al) (n_kept obs)). assert (Dp := dof_pos F). assert (Dv : get_dof F = _) by apply dof_value.
  rewrite (Rltb_t _ _ Dp).
  destruct (Req_dec (template_weight obs ts) 0) as [Z|Z].
  - assert (Zb : xeqb (Fin (template_weight obs ts)) (Fin 0) = true) by (cbn [xeqb]; apply Reqb_t; exact Z). rewrite Zb. cbn [orb Z.lor].
    eexists. eexists. split; [reflexivity|]. unfold good_result. cbn [pr_dof pr_flags pr_flux pr_flux_err pr_chi2per]. split; [exact Dv|]. split; [auto|]. intros; lra.
  - assert (Mq : 0 < template_weight obs ts) by lra. assert (Zb : xeqb (Fin (template_weight obs ts)) (Fin 0) = false) by (cbn [xeqb]; apply Reqb_f; exact Z). rewrite Zb.
    rewrite xdiv_fin by exact Z. set (f := over (fun t i w => t * i * w) obs ts / template_weight obs ts).
    destruct (gpass2_some obs al ts A (Fin f) (Fin 0)) as (c & Ec). rewrite Ec. cbn [opt_bind orb].
    assert (Opt : forall f', f' <> f -> chi2_at obs ts f < chi2_at obs ts f') by (apply optimum; [exact Mq|reflexivity]).
    assert (Np : n_kept obs <> 0%nat) by (intros N; apply Z; apply weight_needs_pixels; assumption).
    change (pf_totpix F) with (n_kept obs).
    match goal with |- context[let (_, _) := ?b in _] => destruct b as [fl er] eqn:B end.
    eexists. eexists. split; [reflexivity|]. unfold good_result. cbn [pr_dof pr_flags pr_flux pr_flux_err pr_chi2per]. split; [exact Dv|]. split; [intros; lra|]. intros _.
    exists f. split; [reflexivity|]. split; [exact Opt|]. intros T. rewrite (gpass2_ok obs al ts A T), Rplus_0_l in Ec. injection Ec as <-.
    set (us := unit_templates obs ts) in *.
    assert (C : over (fun t i w => (f * t - i) * (f * t - i) * w) obs us = chi2_at obs us f) by (apply over_ext; intros; ring). rewrite C in *.
    assert (Cp : 0 <= chi2_at obs us f). { apply over_nonneg; [exact W|]. intros. apply Rmult_le_pos; [apply pow2_ge_0|assumption]. }
    rewrite xdiv_fin by lra. split; [reflexivity|]. rewrite xdiv_fin in B by lra. split.
    + intros N1. rewrite N1 in B. cbn [Nat.eqb Z.lor] in B. injection B as <- <-. auto.
    + intros N1. assert (E1k : Nat.eqb (n_kept obs) 1 = false) by (apply Nat.eqb_neq; exact N1). rewrite E1k in B.
      assert (Kp : 1 <= INR (n_kept obs) - 1). { assert (K : (2 <= n_kept obs)%nat) by lia. apply le_INR in K. cbn [INR] in K. lra. }
      rewrite xdiv_fin in B by lra. set (arg := chi2_at obs us f / template_weight obs ts / (INR (n_kept obs) - 1)) in *.
      assert (Ap : 0 <= arg). { unfold arg, Rdiv. apply Rmult_le_pos; [apply Rmult_le_pos; [exact Cp|]|]; apply Rlt_le, Rinv_0_lt_compat; lra. }
      assert (Ab : xleb (Fin 0) (Fin arg) = true) by (cbn [xleb]; apply Rleb_t; exact Ap). rewrite Ab in B. injection B as <- <-. split; [reflexivity|].
      exists (sqrt arg). split; [cbn [xsqrt]; rewrite ?Rltb_f by lra; reflexivity|]. split; [apply sqrt_pos|]. rewrite pow2_sqrt by exact Ap. unfold arg. field. split; lra.
Qed.

(** ** the constructor *)
Lemma sizes_stored obs sz : mapM (fun o => pixels_size (go_obs o)) obs = Ok sz -> stored (map go_obs obs) /\ sz = map kept_pixels (map go_obs obs).
Proof.
  revert sz. induction obs as [|o obs IH]; intros sz E; [injection E as <-; split; constructor|]. cbn [mapM] in E. unfold pixels_size at 1 in E.
  destruct (mapM (fun o => pixels_size (go_obs o)) obs) as [s|] eqn:Es; [|destruct (po_pix (go_obs o)) as [[|]|]; discriminate]. destruct (IH s eq_refl) as [St ->].
  cbn [map]. destruct (po_pix (go_obs o)) as [[|]|] eqn:P; [| |discriminate]; cbn [bind] in E; injection E as <-; (split; [constructor; [congruence|exact St]|]); unfold kept_pixels at 2; rewrite P; reflexivity.
Qed.
Lemma drawn_all O X prof pix (L : @lawful O X prof pix) m0 m obs : 
  match m0, m with None, None => True | Some m0, Some m => gp_withflux X 1 m0 = Ok m | _, _ => False end ->
  forall ps al, mapM (psf_model O X) obs = Ok ps -> mapM (template_image O X m) (combine obs ps) = Ok al ->
  exists ts, Forall2 (galsim_template X prof pix m0) obs ts /\ all_show (map go_obs obs) al ts.
Proof.
  intros Hm. induction obs as [|o obs IH]; intros ps al Ep Ea.
  - injection Ep as <-. injection Ea as <-. exists []. split; constructor.
  - cbn [mapM] in Ep. apply bind_ok in Ep. destruct Ep as (p & E1 & Ep). apply bind_ok in Ep. destruct Ep as (ps' & E2 & Ep). injection Ep as <-.
    cbn [combine mapM] in Ea. apply bind_ok in Ea. destruct Ea as (a & E3 & Ea). apply bind_ok in Ea. destruct Ea as (al' & E4 & Ea). injection Ea as <-.
    destruct (IH ps' al' E2 E4) as (ts & F & S). destruct (drawn_template O X prof pix L m0 m o p a (psf_model_on_sky O X prof pix L o p E1) Hm E3) as (t & G & Sh).
    exists (t :: ts). cbn [map]. split; constructor; assumption.
Qed.

Lemma galsim_flux O X prof pix (L : @lawful O X prof pix) model inp r : galsim_psfflux_go O X model inp = Some (Ok r) ->
  weights_ok (map go_obs (observations inp)) ->
  stored (map go_obs (observations inp)) /\
  exists ts, Forall2 (galsim_template X prof pix model) (observations inp) ts /\ good_result (map go_obs (observations inp)) ts r.
Proof.
  unfold galsim_psfflux_go. destruct (galsim_pfit_init O X model inp) as [F|] eqn:E; [|discriminate]. cbn [opt_bind]. intros G W. unfold galsim_pfit_init in E.
  apply bind_ok in E. destruct E as (m & Em & E). apply bind_ok in E. destruct E as (obs & Eo & E). apply bind_ok in E. destruct E as (sz & Es & E).
  apply bind_ok in E. destruct E as (ps & Ep & E). apply bind_ok in E. destruct E as (al & Ea & E). injection E as <-.
  assert (Eobs : observations inp = obs) by (destruct inp; cbn in Eo |- *; congruence). rewrite Eobs in *. destruct (sizes_stored obs sz Es) as [St ->]. split; [exact St|].
  destruct (drawn_all O X prof pix L model m obs) with (ps := ps) (al := al) as (ts & FT & S); [|exact Ep|exact Ea|].
  - destruct model as [m0|]; [apply bind_ok in Em; destruct Em as (m1 & Em & E1); injection E1 as <-; exact Em|injection Em as <-; exact I].
  - exists ts. split; [exact FT|]. rewrite fold_add in G. cbn [Nat.add] in G. fold (n_kept (map go_obs obs)) in G. change (fun t => STempl t (Fin 1)) with entry in G.
    destruct (galsim_go_ok (map go_obs obs) al ts S W) as (F & r' & Eg & Gr). rewrite Eg in G. cbn [option_map snd] in G. injection G as <-. exact Gr.
Qed.

(** never left out of the model *)
Lemma galsim_some O X model inp : (forall p nx ny w off a, gp_draw X p nx ny w off = Ok a -> nrow a = ny /\ ncol a = nx) -> galsim_psfflux_go O X model inp <> None.
Proof.
  intros L. unfold galsim_psfflux_go. destruct (galsim_pfit_init O X model inp) as [F|] eqn:E; [|discriminate]. cbn [opt_bind].
  unfold galsim_pfit_init in E.
  apply bind_ok in E. destruct E as (m & Em & E). apply bind_ok in E. destruct E as (obs & Eo & E). apply bind_ok in E. destruct E as (sz & Es & E).
  apply bind_ok in E. destruct E as (ps & Ep & E). apply bind_ok in E. destruct E as (al & Ea & E). injection E as <-.
  assert (S : Forall2 (fun o a => nrow a = po_nr o /\ ncol a = po_nc o) (map go_obs obs) al).
  { clear Es Eo. revert ps al Ep Ea. induction obs as [|o obs IH]; intros ps al Ep Ea; [injection Ep as <-; injection Ea as <-; constructor|].
    cbn [mapM] in Ep. apply bind_ok in Ep. destruct Ep as (p & E1 & Ep). apply bind_ok in Ep. destruct Ep as (ps' & E2 & Ep). injection Ep as <-.
    cbn [combine mapM] in Ea. apply bind_ok in Ea. destruct Ea as (a & E3 & Ea). apply bind_ok in Ea. destruct Ea as (al' & E4 & Ea). injection Ea as <-.
    cbn [map]. constructor; [|exact (IH ps' al' E2 E4)]. unfold template_image in E3. apply bind_ok in E3. destruct E3 as (obj & _ & E3). unfold do_draw in E3.
    destruct (gp_draw X obj _ _ _ _) as [a'|e] eqn:D; [|destruct e; discriminate]. injection E3 as ->. exact (L _ _ _ _ _ _ D). }
  revert S. generalize (map go_obs obs) as ob. intros ob S. unfold go. cbn [pf_obs pf_sources pf_totpix].
  assert (P1 : forall x y, exists v, pass1 ob (map (fun t => STempl t (Fin 1)) al) x y = Some (map (fun t => STempl t (Fin 1)) al, Ok v)).
  { clear - S. induction S as [|o a ob al (Rn & Cn) _ IH]; intros x y; [eexists; reflexivity|]. cbn [map pass1 get_model bind]. unfold sum_image. rewrite Rn, Cn, !Nat.eqb_refl. cbn [andb bind].
    match goal with |- context[pass1 ob _ ?x ?y] => destruct (IH x y) as (v & ->) end. eexists; reflexivity. }
  assert (P2 : forall f x, exists v, pass2 ob (map (fun t => STempl t (Fin 1)) al) f x = Some (Ok v)).
  { clear - S. induction S as [|o a ob al (Rn & Cn) _ IH]; intros f x; [eexists; reflexivity|]. cbn [map pass2 get_model bind]. unfold sum_image at 1. cbn [scale_arr nrow ncol]. rewrite Rn, Cn, !Nat.eqb_refl. cbn [andb]. apply IH. }
  destruct (P1 (Fin 0) (Fin 0)) as ([xc ms] & ->). destruct (xeqb ms (Fin 0)).
  - cbn [orb]. destruct (if Rltb 0 _ then _ else _). discriminate.
  - destruct (P2 (xdiv xc ms) (Fin 0)) as (c & ->). cbn [opt_bind]. destruct (if Rltb 0 _ then _ else _). match goal with |- context[let (_, _) := ?b in _] => destruct b end. discriminate.
Qed.

(** with templates whose sums are one *)
Lemma unit_of_unit obs ts : Forall2 (fun o t => total o t = 1) obs ts -> forall f, chi2_at obs (unit_templates obs ts) f = chi2_at obs ts f.
Proof.
  intros H f. unfold chi2_at. induction H as [|o t obs ts T _ IH]; [reflexivity|]. unfold unit_templates in *. cbn [combine map fst snd]. rewrite !over_cons, IH. f_equal. f_equal.
  apply cells_ext. intros r c _ _. rewrite T. unfold Rdiv. rewrite Rinv_1, Rmult_1_r. reflexivity.
Qed.

(** ** an image in the frame of its psf *)
Lemma over_frame O X prof pix (H : at_centres prof pix) obs ts ts' : Forall2 same_frame obs ts ->
  Forall2 (@galsim_template O X prof pix None) obs ts' -> forall f, over f (map go_obs obs) ts' = over f (map go_obs obs) ts.
Proof.
  intros F. revert ts'. induction F as [|o t obs ts (im & Ei & Rn & Cn & D & N & V) _ IH]; intros ts' G f; inversion G as [|? t' ? ts2 Go G2]; subst; [reflexivity|].
  cbn [map]. rewrite !over_cons, (IH ts2 G2 f). f_equal. f_equal. apply cells_ext. intros r c Hr Hc. f_equal.
  destruct Go as (p & obj & (im2 & j2 & E2 & S) & -> & T). rewrite Ei in E2. injection E2 as <- <-.
  destruct (some_maps (po_jac (go_obs o)) (INR r) (INR c)) as (v & u & M). rewrite (T r c v u Hr Hc M), (H p), wdet_of, (V r c).
  apply (S N D r c v u); [rewrite Rn; exact Hr|rewrite Cn; exact Hc|exact M].
Qed.
Lemma frame_total o t : same_frame o t -> total (go_obs o) t = 1.
Proof.
  intros (im & _ & Rn & Cn & _ & N & V). unfold total. rewrite <- Rn, <- Cn. set (s := rsum (cells (nrow im) (ncol im) (at2 im))) in *.
  rewrite (cells_ext _ _ t (fun r c => at2 im r c * / s)) by (intros; apply V). rewrite rsum_cells_scale. fold s. field. exact N.
Qed.
Lemma frame_total' O X prof pix (H : at_centres prof pix) o t t' : same_frame o t -> @galsim_template O X prof pix None o t' -> total (go_obs o) t' = 1.
Proof.
  intros F G. rewrite <- (frame_total o t F). destruct F as (im & Ei & Rn & Cn & D & N & V). unfold total. f_equal. apply cells_ext. intros r c Hr Hc.
  destruct G as (p & obj & (im2 & j2 & E2 & S) & -> & T). rewrite Ei in E2. injection E2 as <- <-.
  destruct (some_maps (po_jac (go_obs o)) (INR r) (INR c)) as (v & u & M). rewrite (T r c v u Hr Hc M), (H p), wdet_of, (V r c).
  apply (S N D r c v u); [rewrite Rn; exact Hr|rewrite Cn; exact Hc|exact M].
Qed.
Lemma frame_flux O X prof pix (L : @lawful O X prof pix) (H : at_centres prof pix) inp ts r : galsim_psfflux_go O X None inp = Some (Ok r) ->
  weights_ok (map go_obs (observations inp)) -> Forall2 same_frame (observations inp) ts ->
  let obs := map go_obs (observations inp) in
  0 < template_weight obs ts -> exists f, pr_flux r = Fin f /\ (forall f', f' <> f -> chi2_at obs ts f < chi2_at obs ts f') /\
    pr_chi2per r = Fin (chi2_at obs ts f / pr_dof r) /\
    (n_kept obs <> 1%nat -> pr_flags r = 0%Z /\ exists e, pr_flux_err r = Fin e /\ 0 <= e /\ e ^ 2 * template_weight obs ts * (INR (n_kept obs) - 1) = chi2_at obs ts f).
Proof.
  intros E W F obs P. destruct (galsim_flux O X prof pix L None inp r E W) as (_ & ts' & G & _ & _ & Q). fold obs in Q.
  assert (Ov := over_frame O X prof pix H _ ts ts' F G). fold obs in Ov. assert (Tw : template_weight obs ts' = template_weight obs ts) by apply Ov.
  assert (Ch : forall f, chi2_at obs ts' f = chi2_at obs ts f) by (intros; apply Ov).
  destruct Q as (f & Ef & M & Q); [rewrite Tw; exact P|]. exists f. split; [exact Ef|]. split; [intros f' N; rewrite <- !Ch; exact (M f' N)|].
  assert (T1 : Forall2 (fun o t => total o t = 1) obs ts').
  { unfold obs. clear - H F G. revert ts' G. induction F as [|o t l ts Fo F IH]; intros ts' G; inversion G as [|? t' ? ts2 Go G2]; subst; cbn [map]; constructor; [exact (frame_total' O X prof pix H o t t' Fo Go)|exact (IH ts2 G2)]. }
  destruct Q as (C & _ & Q). { clear - T1. induction T1 as [|o t l ts E _ IH]; constructor; [rewrite E; exact R1_neq_R0|exact IH]. }
  rewrite (unit_of_unit _ _ T1), Ch in C. split; [exact C|]. intros N. destruct (Q N) as (Fl & e & Ee & Ep & Q'). split; [exact Fl|]. exists e. split; [exact Ee|]. split; [exact Ep|].
  rewrite Tw, (unit_of_unit _ _ T1), Ch in Q'. exact Q'.
Qed.

(** ** exceptions *)
Lemma mapM_not {A B} (e : exn) (f : A -> res B) l : (forall a, f a <> Raise e) -> mapM f l <> Raise e.
Proof. intros H. induction l as [|a l IH]; [discriminate|]. cbn [mapM]. specialize (H a). destruct (f a); cbn [bind]; [|congruence]. destruct (mapM f l); cbn [bind]; congruence. Qed.
Lemma bind_not {A B} (e : exn) (x : res A) (f : A -> res B) : x <> Raise e -> (forall a, x = Ok a -> f a <> Raise e) -> bind x f <> Raise e.
Proof. destruct x; cbn [bind]; intros H K; [apply K; reflexivity|congruence]. Qed.
Lemma draw_errors O (X : gpsf O) model inp : (forall p nx ny w off a, gp_draw X p nx ny w off = Ok a -> nrow a = ny /\ ncol a = nx) ->
  (forall im w off, gp_interp X im w off <> Raise RuntimeError) -> (forall x m, gp_withflux X x m <> Raise RuntimeError) -> (forall a b, gp_convolve X a b <> Raise RuntimeError) ->
  galsim_psfflux_go O X model inp <> Some (Raise RuntimeError).
Proof.
  intros Ld Hi Hw Hc. assert (I : galsim_pfit_init O X model inp <> Raise RuntimeError).
  { unfold galsim_pfit_init. apply bind_not; [destruct model; [apply bind_not; [apply Hw|discriminate]|discriminate]|]. intros m _.
    apply bind_not; [destruct inp; discriminate|]. intros obs _.
    apply bind_not; [apply mapM_not; intros o; unfold pixels_size; destruct (po_pix (go_obs o)) as [[|]|]; discriminate|]. intros sz _.
    apply bind_not; [apply mapM_not; intros o; unfold psf_model; destruct (go_psf o) as [[im j]|]; [apply Hi|discriminate]|]. intros ps _.
    apply bind_not; [|discriminate]. apply mapM_not. intros [o p]. unfold template_image. apply bind_not; [destruct m; [apply Hc|discriminate]|]. intros obj _. unfold do_draw.
    destruct (gp_draw X obj _ _ _ _) as [|e]; [discriminate|destruct e; discriminate]. }
  intros E. unfold galsim_psfflux_go in E. destruct (galsim_pfit_init O X model inp) as [F|e] eqn:Ei; cbn [opt_bind] in E; [|congruence]. clear I.
  unfold galsim_pfit_init in Ei.
  apply bind_ok in Ei. destruct Ei as (m & Em & Ei). apply bind_ok in Ei. destruct Ei as (obs & Eo & Ei). apply bind_ok in Ei. destruct Ei as (sz & Es & Ei).
  apply bind_ok in Ei. destruct Ei as (ps & Ep & Ei). apply bind_ok in Ei. destruct Ei as (al & Ea & Ei). injection Ei as <-.
  destruct (go _) as [[F' [r|e]]|] eqn:G; cbn [option_map snd] in E; try discriminate. injection E as ->. revert G. unfold go. cbn [pf_obs pf_sources pf_totpix].
  assert (P1 : forall ob l x y ss, pass1 ob (map (fun t => STempl t (Fin 1)) l) x y <> Some (ss, Raise RuntimeError)).
  { clear. intros ob. induction ob as [|o ob IH]; intros [|a l] x y ss; cbn [map pass1]; try discriminate. cbn [get_model bind]. unfold sum_image. destruct (_ && _); cbn [bind]; [|discriminate].
    specialize (IH l). destruct (pass1 ob _ _ _) as [[s1 r1]|] eqn:E1; [|discriminate]. intros E; injection E as <- ->. exact (IH _ _ _ E1). }
  assert (P2 : forall ob l f x, pass2 ob (map (fun t => STempl t (Fin 1)) l) f x <> Some (Raise RuntimeError)).
  { clear. intros ob. induction ob as [|o ob IH]; intros [|a l] f x; cbn [map pass2]; try discriminate. cbn [get_model bind]. unfold sum_image at 1. destruct (_ && _); [apply IH|discriminate]. }
  assert (Q1 : forall ob l x y ss r, pass1 ob (map (fun t => STempl t (Fin 1)) l) x y = Some (ss, r) -> ss = map (fun t => STempl t (Fin 1)) l).
  { clear. intros ob. induction ob as [|o ob IH]; intros [|a l] x y ss r; cbn [map pass1]; try (intros E; injection E as <- _; reflexivity). cbn [get_model bind]. destruct (let* _ := sum_image _ _ _ in _) as [[u v]|e]; [|intros E; injection E as <- _; reflexivity].
    destruct (pass1 ob _ _ _) as [[s1 r1]|] eqn:E1; [|discriminate]. intros E; injection E as <- _. f_equal. exact (IH _ _ _ _ _ E1). }
  destruct (pass1 _ _ _ _) as [[ss r]|] eqn:E1; [|discriminate]. assert (Ess := Q1 _ _ _ _ _ _ E1). subst ss. destruct r as [[xc ms]|e]; [|intros E; injection E as <- ->; exact (P1 _ _ _ _ _ E1)].
  destruct (xeqb ms (Fin 0)).
  - destruct (if Rltb 0 _ then _ else _). cbn [orb]. discriminate.
  - destruct (pass2 _ _ _ _) as [[c|e]|] eqn:E2; cbn [opt_bind]; [| |discriminate].
    + destruct (if Rltb 0 _ then _ else _). match goal with |- context[let (_, _) := ?b in _] => destruct b end. discriminate.
    + intros E; injection E as _ ->. exact (P2 _ _ _ _ E2).
Qed.
Lemma draw_fails O (X : gpsf O) o : po_pix (go_obs o) <> None -> go_psf o <> None ->
  (forall im w off, exists p, gp_interp X im w off = Ok p) -> (forall p nx ny w off, gp_draw X p nx ny w off = Raise RuntimeError) ->
  galsim_psfflux_go O X None (InObs o) = Some (Raise GMixRangeError).
Proof.
  intros Px Ps Hi Hd. unfold galsim_psfflux_go, galsim_pfit_init. cbn [bind mapM]. unfold pixels_size. destruct (po_pix (go_obs o)) as [b|]; [|congruence].
  assert (B : exists k, (match b with true => Ok (n_positive (go_obs o)) | false => Ok (po_nr (go_obs o) * po_nc (go_obs o))%nat end) = Ok k) by (destruct b; eexists; reflexivity). destruct B as (k & ->). cbn [bind].
  unfold psf_model. destruct (go_psf o) as [[im j]|]; [|congruence]. match goal with |- context[gp_interp X ?a ?b ?c] => destruct (Hi a b c) as (p & ->) end. cbn [bind combine mapM template_image]. unfold do_draw. rewrite Hd. reflexivity.
Qed.

(** ** a galsim that obeys the laws *)
Definition grid (x : R) : nat := Z.to_nat (up x - 1).
Lemma grid_at n x : x = INR n -> grid x = n.
Proof. intros ->. unfold grid. rewrite <- (tech_up (INR n) (Z.of_nat n + 1)); [|rewrite plus_IZR, <- INR_IZR_INZ; lra|rewrite plus_IZR, <- INR_IZR_INZ; lra]. rewrite Z.add_simpl_r. apply Nat2Z.id. Qed.
Definition finite_part (x : xr) : R := match x with Fin x => x | _ => 0 end.
Definition the_galsim : gpsf (R -> R -> R) := mkGpsf (R -> R -> R)
  (fun im w off => Ok (fun u v => finite_part (at2 im
      (grid ((w_dudx w * v - w_dvdx w * u) / wdet w + snd off + (INR (nrow im) - 1) / 2))
      (grid ((w_dvdy w * u - w_dudy w * v) / wdet w + fst off + (INR (ncol im) - 1) / 2))) / Rabs (wdet w)))
  (fun _ m => Ok m) (fun a b => Ok (fun u v => a u v * b u v))
  (fun p nx ny w off => Ok (mkArr ny nx (fun r c =>
      let x := from_middle nx c - fst off in let y := from_middle ny r - snd off in
      Fin (p (w_dudx w * x + w_dudy w * y) (w_dvdx w * x + w_dvdy w * y) * Rabs (wdet w))))).
Definition the_prof : (R -> R -> R) -> R -> R -> R := fun p => p.
Definition the_pix : (R -> R -> R) -> wcs -> R -> R -> R := fun p w u v => p u v * Rabs (wdet w).
Lemma the_galsim_lawful : lawful the_galsim the_prof the_pix.
Proof.
  constructor.
  - intros im w off p E D r c x u v Hr Hc Ex [-> ->]. injection E as <-. unfold the_prof. rewrite (grid_at r), (grid_at c).
    + rewrite Ex. cbn [finite_part]. field. apply Rabs_no_R0. exact D.
    + unfold from_middle, wdet in *. field. exact D.
    + unfold from_middle, wdet in *. field. exact D.
  - intros p nx ny w off a E. injection E as <-. split; [reflexivity|]. split; [reflexivity|]. intros r c u v _ _ [-> ->]. reflexivity.
Qed.
Lemma the_galsim_centres : at_centres the_prof the_pix.
Proof. intros p w u v. reflexivity. Qed.
Lemma the_galsim_returns l : Forall (fun o => po_pix (go_obs o) <> None /\ go_psf o <> None) l -> weights_ok (map go_obs l) -> exists r, galsim_psfflux_go _ the_galsim None (InList l) = Some (Ok r).
Proof.
  intros H W. unfold galsim_psfflux_go, galsim_pfit_init. cbn [bind].
  assert (A : exists sz, mapM (fun o => pixels_size (go_obs o)) l = Ok sz). { induction H as [|o l [P _] _ IH]; [eexists; reflexivity|]. inversion W; subst. destruct IH as (sz & E); [assumption|]. cbn [mapM]. rewrite E. unfold pixels_size. destruct (po_pix (go_obs o)) as [[|]|]; [eexists; reflexivity|eexists; reflexivity|congruence]. }
  assert (B : exists ps, mapM (psf_model _ the_galsim) l = Ok ps). { clear W A. induction H as [|o l [_ P] _ (ps & E)]; [eexists; reflexivity|]. cbn [mapM]. rewrite E. unfold psf_model. destruct (go_psf o) as [[im j]|]; [eexists; reflexivity|congruence]. }
  destruct A as (sz & Es). destruct B as (ps & Ep). rewrite Es, Ep. cbn [bind].
  assert (C : exists al, mapM (template_image _ the_galsim None) (combine l ps) = Ok al). { clear. generalize (combine l ps) as k. induction k as [|[o p] k (al & E)]; [eexists; reflexivity|]. cbn [mapM]. rewrite E. eexists. reflexivity. }
  destruct C as (al & Ea). rewrite Ea. cbn [bind opt_bind]. rewrite fold_add. cbn [Nat.add]. destruct (sizes_stored l sz Es) as [_ ->]. fold (n_kept (map go_obs l)).
  destruct (drawn_all _ _ _ _ the_galsim_lawful None None l I ps al Ep Ea) as (ts & _ & S). destruct (galsim_go_ok _ al ts S W) as (F & r & E & _). change (fun t => STempl t (Fin 1)) with entry. rewrite E. eexists. reflexivity.
Qed.

(** ** a psf image larger than the image *)
Definition cex_jac : jac := mkJac 0 0 1 0 0 1 1 1.
Definition cex_gobs : gobs := mkGobs (mkPobs 1 2 (fun _ _ => 2) (fun _ _ => 1) cex_jac (Some true) None None None)
  (Some (mkArr 1 3 (fun _ c => match c with 2%nat => 2 | _ => 1 end), cex_jac)).
Lemma cex_template t : galsim_template the_galsim the_prof the_pix None cex_gobs t -> t 0%nat 0%nat = / 4 /\ t 0%nat 1%nat = / 4.
Proof.
  intros (p & obj & (im & j & E & S) & -> & T). injection E as <- <-. cbn [nrow ncol at2] in S. 
  assert (N : rsum (cells 1 3 (fun _ c : nat => match c with 2%nat => 2 | _ => 1 end)) = 4) by (cbn; lra). rewrite N in S.
  assert (D : true_det cex_jac = 1) by (unfold true_det; cbn; lra). rewrite D, Rabs_R1 in S.
  assert (Q : forall c, (c < 2)%nat -> t 0%nat c = / 4).
  { intros c Hc. assert (M : maps_to cex_jac (INR 0) (INR c) 0 (INR c)) by (split; cbn; lra). rewrite (T 0%nat c 0 (INR c) ltac:(cbn; lia) Hc M). unfold the_pix. cbn [po_jac go_obs cex_gobs]. rewrite wdet_of, D, Rabs_R1.
    change (the_prof p (INR c) 0 * 1 = / 4). rewrite (S ltac:(lra) ltac:(lra) 0%nat c 0 (INR c) ltac:(lia) ltac:(lia) M). destruct c as [|[|c]]; [lra|lra|lia]. }
  split; apply Q; lia.
Qed.
Lemma perfect_image : exists r t, galsim_psfflux_go _ the_galsim None (InObs cex_gobs) = Some (Ok r) /\ galsim_template the_galsim the_prof the_pix None cex_gobs t /\
  (forall row col, (row < 1)%nat -> (col < 2)%nat -> po_im (go_obs cex_gobs) row col = 8 * t row col) /\
  pr_flags r = 0%Z /\ pr_flux r = Fin 8 /\ pr_chi2per r = Fin 8 /\ pr_flux_err r = Fin 8.
Proof.
  assert (W : weights_ok (map go_obs [cex_gobs])) by (constructor; [intros; cbn; lra|constructor]).
  destruct (the_galsim_returns [cex_gobs]) as (r & E); [constructor; [split; discriminate|constructor]|exact W|]. change (galsim_psfflux_go _ the_galsim None (InList [cex_gobs])) with (galsim_psfflux_go _ the_galsim None (InObs cex_gobs)) in E.
  destruct (galsim_flux _ _ _ _ the_galsim_lawful None (InObs cex_gobs) r E W) as (_ & ts & F & Dv & _ & Q). cbn [observations map] in *. inversion F as [|? t ? ? G F2]; subst. inversion F2; subst.
  exists r, t. split; [exact E|]. split; [exact G|]. destruct (cex_template t G) as [T0 T1].
  split. { intros row col Hr Hc. destruct row; [|lia]. destruct col as [|[|]]; [| |lia]; cbn; lra. }
  set (o := go_obs cex_gobs) in *.
  assert (Tw : template_weight [o] [t] = / 8) by (unfold template_weight, over; cbn; rewrite T0, T1; lra).
  assert (Ch : forall f, chi2_at [o] [t] f = 2 * (f / 4 - 2) ^ 2) by (intros f; unfold chi2_at, over; cbn; rewrite T0, T1; lra).
  assert (Tt : total o t = / 2) by (unfold total; cbn; rewrite T0, T1; lra).
  assert (Cu : forall f, chi2_at [o] (unit_templates [o] [t]) f = 2 * (f / 2 - 2) ^ 2). { intros f. unfold chi2_at, over, unit_templates. cbn [combine map fst snd]. rewrite Tt. cbn. rewrite T0, T1. field. }
  assert (Nw : n_weighted [o] = 2%nat). { unfold n_weighted, n_positive. cbn [map o cex_gobs go_obs po_nr po_nc po_wt cells seq concat app filter list_sum fold_right]. rewrite !(Rltb_t 0 1) by lra. reflexivity. }
  assert (Nk : n_kept [o] = 2%nat) by exact Nw.
  destruct Q as (f & Ef & M & Q); [rewrite Tw; lra|]. destruct Q as (C & _ & Q); [constructor; [rewrite Tt; lra|constructor]|]. destruct Q as (Fl & e & Ee & Ep & Q); [rewrite Nk; discriminate|].
  assert (f = 8). { destruct (Req_dec 8 f) as [<-|N]; [reflexivity|]. specialize (M 8 N). rewrite !Ch in M. assert (K := pow2_ge_0 (f / 4 - 2)). nra. } subst f.
  rewrite Nw in Dv. cbn [Nat.leb INR] in Dv. rewrite Cu in C, Q. rewrite Dv in C. split; [exact Fl|]. split; [exact Ef|]. split; [rewrite C; f_equal; field|]. rewrite Ee. f_equal. rewrite Tw, Nk in Q. cbn [INR] in Q. nra.
Qed.
