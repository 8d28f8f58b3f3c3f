From Verif Require Import Base XReal Jacobian_Model Jacobian_Spec Pixels_Model GMix_Model GMix_Spec GMix_Proofs GMixObj_Model GMixObj_Proofs
  Render_Model Render_Spec Render_Proofs Flags_Model PSFFlux_Model PSFFlux_Spec.
From Verif Require LM_Model.
Local Open Scope R_scope.

(** ** sums *)
Lemma xdiv_fin a b : b <> 0 -> xdiv (Fin a) (Fin b) = Fin (a / b).
Proof. intros H. unfold xdiv. rewrite ?Reqb_f by exact H. reflexivity. Qed.
Lemma np_sum_from l : forall a, fold_left xadd (map Fin l) (Fin a) = Fin (a + rsum l).
Proof. induction l as [|x l IH]; intros a; cbn [map fold_left xadd]; [rewrite rsum_nil, Rplus_0_r; reflexivity|]. rewrite IH, rsum_cons. f_equal; ring. Qed.
Lemma np_sum_fin l : np_sum (map Fin l) = Fin (rsum l).
Proof. unfold np_sum. rewrite np_sum_from, Rplus_0_l. reflexivity. Qed.
Lemma cells_ext {A} nr nc (f g : nat -> nat -> A) : (forall r c, (r < nr)%nat -> (c < nc)%nat -> f r c = g r c) -> cells nr nc f = cells nr nc g.
Proof.
  intros H. unfold cells. f_equal. apply map_ext_in. intros r Hr. apply in_seq in Hr. apply map_ext_in. intros c Hc. apply in_seq in Hc. apply H; lia.
Qed.
Lemma cells_map {A B} nr nc (f : nat -> nat -> A) (g : A -> B) : cells nr nc (fun r c => g (f r c)) = map g (cells nr nc f).
Proof. unfold cells. rewrite concat_map, map_map. f_equal. apply map_ext. intros r. rewrite map_map. reflexivity. Qed.
Lemma cells_fin nr nc f (x : nat -> nat -> R) : (forall r c, (r < nr)%nat -> (c < nc)%nat -> f r c = Fin (x r c)) ->
  np_sum (cells nr nc f) = Fin (rsum (cells nr nc x)).
Proof. intros H. rewrite (cells_ext nr nc f (fun r c => Fin (x r c)) H), (cells_map nr nc x Fin). apply np_sum_fin. Qed.
Lemma rsum_cells_scale nr nc x k : rsum (cells nr nc (fun r c => x r c * k)) = rsum (cells nr nc x) * k.
Proof. rewrite (cells_map nr nc x (fun v => v * k)). induction (cells nr nc x) as [|a l IH]; cbn [map]; rewrite ?rsum_nil, ?rsum_cons; [ring|]. rewrite IH. ring. Qed.

(** ** scaled mixtures *)
Definition scaled (k : R) (d e : gmix) : Prop :=
  Forall2 (fun g g' => g_p g' = g_p g * k /\ g_row g' = g_row g /\ g_col g' = g_col g /\ setters_keep g g') d e.
Lemma scaled_flux k d e : scaled k d e -> flux_of e = flux_of d * k.
Proof. unfold flux_of. induction 1 as [|g g' d e (P & _) _ IH]; cbn [map]; rewrite ?rsum_nil, ?rsum_cons; [ring|]. rewrite P, IH. ring. Qed.
Lemma gcov_keep g g' : setters_keep g g' -> gcov g' = gcov g.
Proof. intros (A & B & C & _). unfold gcov. rewrite A, B, C. reflexivity. Qed.
Lemma scaled_bright k d e v u : scaled k d e -> brightness e v u = brightness d v u * k.
Proof.
  unfold brightness. induction 1 as [|g g' d e (P & Q & S & T) _ IH]; cbn [map]; rewrite ?rsum_nil, ?rsum_cons; [ring|]. rewrite IH. unfold component at 1. rewrite P, Q, S, (gcov_keep _ _ T). unfold component at 2. unfold Rdiv. ring.
Qed.
Lemma scaled_trans k l a b c : scaled k a b -> scaled l b c -> scaled (k * l) a c.
Proof.
  intros H. revert c. induction H as [|g g' a b (P & Q & S & T) _ IH]; intros c K; inversion K as [|? h ? ? (P' & Q' & S' & T') K']; subst; constructor; [|apply IH; assumption].
  split; [rewrite P', P; ring|]. split; [congruence|]. split; [congruence|]. unfold setters_keep in *. intuition congruence.
Qed.
Lemma scaled_same d e : same_gmix d e -> scaled 1 d e.
Proof. induction 1 as [|g g' d e H _ IH]; constructor; auto. unfold same_gauss, setters_keep in *. destruct H as (->&->&->&->&->&->&->). repeat split; ring. Qed.
Lemma scaled_set k d : scaled k d (map (scale_gauss k) d).
Proof. induction d as [|g d IH]; cbn [map]; constructor; [|exact IH]. unfold setters_keep. cbn. auto 10. Qed.
Lemma set_flux_scaled d f : flux_of d <> 0 -> good_gmix d -> exists e, gm_set_flux d f = Some e /\ scaled (f / flux_of d) d e /\ good_gmix e.
Proof.
  intros N (G1 & G2 & G3 & G4). unfold gm_set_flux, np_div. fold (flux_of d). rewrite Reqb_f by exact N. eexists. split; [reflexivity|]. split; [apply scaled_set|].
  split; [destruct d; [congruence|discriminate]|]. split; [|split].
  - apply Forall_map. eapply Forall_impl; [|exact G2]. intros g C. exact C.
  - apply Forall_map. eapply Forall_impl; [|exact G3]. intros g C. exact C.
  - intros g rest E Hs. destruct d as [|g0 d]; [discriminate|]. cbn [map] in E. injection E as <- _. discriminate Hs.
Qed.

(** ** copies *)
Lemma finish_parts o p x : finish (obj__fill o p) = Ok x -> o_kind x = o_kind o /\ o_pars x = p.
Proof. unfold finish, obj__fill. destruct (fill_func _ _ p) as [d|]; [|discriminate]. intros E; injection E as <-. split; reflexivity. Qed.
Lemma copy_again g c d : obj_copy g = Ok c -> exists c', obj_copy (with_data c d) = Ok c' /\ (o_data c' = d \/ o_data c' = o_data c).
Proof.
  unfold obj_copy at 1. destruct (o_kind g) as [|m|f t tf|] eqn:K.
  - intros E; injection E as <-. eexists. split; [reflexivity|]. left. reflexivity.
  - intros E. exists c. split; [|right; reflexivity]. assert (E0 := E). unfold new_model in E. destruct m; try discriminate;
      unfold obj_fill in E; destruct (negb _) in E; try discriminate; apply finish_parts in E; destruct E as [Kc Pc];
      unfold obj_copy; cbn [with_data o_kind o_pars]; rewrite Kc, Pc; exact E0.
  - intros E. exists c. split; [|right; reflexivity]. assert (E0 := E). unfold new_cm in E. apply bind_ok in E. destruct E as (tf' & Et & E).
    unfold obj_fill in E. destruct (negb _) in E; try discriminate. apply finish_parts in E. destruct E as [Kc Pc].
    unfold obj_copy. cbn [with_data o_kind o_pars]. rewrite Kc, Pc. exact E0.
  - intros E. exists c. split; [|right; reflexivity]. assert (E0 := E). unfold new_coellip in E. destruct (negb _); [discriminate|]. destruct (Nat.ltb _ _); [discriminate|].
    apply finish_parts in E. destruct E as [Kc Pc]. unfold obj_copy. cbn [with_data o_kind o_pars]. rewrite Kc, Pc. exact E0.
Qed.

(** ** sources *)
(** entry [s] renders as [t], before and after the first pass *)
Definition renders (o : pobs) (s : source) (t : nat -> nat -> R) : Prop :=
  exists s' im, get_model o s None = Some (s', Ok im) /\ nrow im = po_nr o /\ ncol im = po_nc o /\
    (forall r c, (r < po_nr o)%nat -> (c < po_nc o)%nat -> at2 im r c = Fin (t r c)) /\
    forall f, exists s2 im2, get_model o s' (Some (Fin f)) = Some (s2, Ok im2) /\ nrow im2 = po_nr o /\ ncol im2 = po_nc o /\
      (forall r c, (r < po_nr o)%nat -> (c < po_nc o)%nat -> at2 im2 r c = Fin (f * t r c)).

Lemma some_maps j r c : exists v u, maps_to j r c v u.
Proof. eexists. eexists. split; reflexivity. Qed.
Lemma gmix_renders o g c d k t : obj_copy g = Ok c -> good_gmix (o_data c) -> flux_of (o_data c) <> 0 -> scaled k (o_data c) d -> good_gmix d -> k <> 0 ->
  (forall row col v u, (row < po_nr o)%nat -> (col < po_nc o)%nat -> maps_to (po_jac o) (INR row) (INR col) v u ->
     t row col = brightness (o_data c) v u * jscale (po_jac o) ^ 2 * k) ->
  renders o (SGmix (with_data c d) (rsum (map g_p d))) t.
Proof.
  intros Hc Gc Nc Sc Gd Nk Ht. destruct (make_image_exact d (po_nr o) (po_nc o) (po_jac o) Gd) as (d' & im & Ei & Sm & Gd' & Rn & Cn & V).
  unfold renders. cbn [get_model with_data o_data]. rewrite Ei. eexists. eexists. split; [reflexivity|]. cbn [nrow ncol at2]. split; [exact Rn|]. split; [exact Cn|]. split.
  - intros r cc Hr Hcc. destruct (some_maps (po_jac o) (INR r) (INR cc)) as (v & u & M). rewrite (V r cc v u Hr Hcc M), (Ht r cc v u Hr Hcc M). cbn [of_option].
    rewrite (scaled_bright _ _ _ v u Sc). f_equal. ring.
  - intros f. cbn [get_model]. change (with_data (with_data c d) d') with (with_data c d'). destruct (copy_again g c d' Hc) as (c' & Ec & Dc). rewrite Ec.
    assert (Sd : scaled (k * 1) (o_data c) d') by (eapply scaled_trans; [exact Sc|apply scaled_same; exact Sm]). rewrite Rmult_1_r in Sd.
    assert (X : exists q, q <> 0 /\ scaled q (o_data c) (o_data c') /\ good_gmix (o_data c')).
    { destruct Dc as [->| ->].
      - exists k. auto.
      - exists 1. split; [lra|]. split; [|exact Gc]. apply scaled_same. apply same_gmix_refl. }
    destruct X as (q & Nq & Sq & Gq). assert (Fq := scaled_flux _ _ _ Sq).
    assert (Nf : flux_of (o_data c') <> 0) by (rewrite Fq; intros Z; apply Rmult_integral in Z; destruct Z; contradiction).
    destruct (set_flux_scaled (o_data c') (f * rsum (map g_p d)) Nf Gq) as (e & Ee & Se & Ge). unfold obj_set_flux. rewrite Ee. cbn [with_data o_data].
    destruct (make_image_exact e (po_nr o) (po_nc o) (po_jac o) Ge) as (e' & im2 & Ei2 & _ & _ & Rn2 & Cn2 & V2). rewrite Ei2. cbn [snd bind].
    eexists. eexists. split; [reflexivity|]. cbn [nrow ncol at2]. split; [exact Rn2|]. split; [exact Cn2|]. intros r cc Hr Hcc.
    destruct (some_maps (po_jac o) (INR r) (INR cc)) as (v & u & M). rewrite (V2 r cc v u Hr Hcc M), (Ht r cc v u Hr Hcc M). cbn [of_option].
    rewrite (scaled_bright _ _ _ v u Se), (scaled_bright _ _ _ v u Sq). change (rsum (map g_p d)) with (flux_of d). rewrite (scaled_flux _ _ _ Sc), Fq. f_equal. field. auto.
Qed.
Lemma set_gmix_renders do_psf np o t : gmix_template do_psf (normalised do_psf np) o t ->
  exists s, set_gmix do_psf np o = Some (Ok s) /\ renders o s t.
Proof.
  intros (g & c & Hg & Hc & Gc & Nc & Ht). unfold set_gmix. fold (normalised do_psf np).
  assert (X : (if do_psf then match po_psf o with Some (Some g, _) => obj_copy g | _ => Raise RuntimeError end
            else match po_gmix o with Some g => obj_copy g | None => Raise RuntimeError end) = Ok c).
  { unfold chosen_gmix in Hg. destruct do_psf.
    - destruct (po_psf o) as [[g' t']|]; [|discriminate]. subst g'. exact Hc.
    - rewrite Hg. exact Hc. }
  rewrite X. cbn [opt_bind]. destruct (normalised do_psf np).
  - destruct (set_flux_scaled (o_data c) 1 Nc Gc) as (d & Ed & Sd & Gd). unfold obj_set_flux. rewrite Ed. cbn [opt_bind with_data o_data].
    eexists. split; [reflexivity|]. apply (gmix_renders o g c d (1 / flux_of (o_data c)) t Hc Gc Nc Sd Gd).
    + unfold Rdiv. rewrite Rmult_1_l. apply Rinv_neq_0_compat. exact Nc.
    + intros row col v u Hr Hcc M. rewrite (Ht row col v u Hr Hcc M). field. exact Nc.
  - cbn [opt_bind]. eexists. split; [reflexivity|].
    assert (W : with_data c (o_data c) = c) by (destruct c; reflexivity). rewrite <- W at 1.
    apply (gmix_renders o g c (o_data c) 1 t Hc Gc Nc (scaled_same _ _ (same_gmix_refl _)) Gc R1_neq_R0).
    intros row col v u Hr Hcc M. rewrite (Ht row col v u Hr Hcc M). field.
Qed.
Lemma set_template_renders do_psf np o t : array_template do_psf (normalised do_psf np) o t ->
  exists s, set_template do_psf np o = Some (Ok s) /\ renders o s t.
Proof.
  intros (a & x & Ha & Rn & Cn & V & Ns & Ht). unfold set_template. fold (normalised do_psf np).
  assert (X : (if do_psf then match po_psf o with Some (_, Some t) => Ok t | _ => Raise AttributeError end
           else match po_template o with Some t => Ok t | None => Raise AttributeError end) = Ok a).
  { unfold chosen_template in Ha. destruct do_psf.
    - destruct (po_psf o) as [[g' t']|]; [|discriminate]. subst t'. reflexivity.
    - rewrite Ha. reflexivity. }
  rewrite X. cbn [opt_bind]. assert (Sa : arr_sum a = Fin (rsum (cells (po_nr o) (po_nc o) x))).
  { unfold arr_sum. rewrite Rn, Cn. apply cells_fin. exact V. }
  rewrite Sa. set (q := rsum (cells (po_nr o) (po_nc o) x)) in *. destruct (normalised do_psf np).
  - assert (Q : xdiv (Fin 1) (Fin q) = Fin (1 / q)) by (apply xdiv_fin; exact Ns). rewrite Q. eexists. split; [reflexivity|].
    unfold renders. cbn [get_model]. eexists. eexists. split; [reflexivity|]. split; [exact Rn|]. split; [exact Cn|].
    assert (V1 : forall r c, (r < po_nr o)%nat -> (c < po_nc o)%nat -> at2 (scale_arr (Fin (1 / q)) a) r c = Fin (t r c)).
    { intros r c Hr Hc. cbn [scale_arr at2]. rewrite (V r c Hr Hc), (Ht r c Hr Hc). cbn [xmul]. f_equal. field. exact Ns. }
    split; [exact V1|]. intros f. eexists. eexists. split; [reflexivity|]. split; [exact Rn|]. split; [exact Cn|]. intros r c Hr Hc.
    assert (S1 : arr_sum (scale_arr (Fin (1 / q)) a) = Fin 1).
    { unfold arr_sum. change (nrow (scale_arr _ a)) with (nrow a). change (ncol (scale_arr _ a)) with (ncol a). rewrite Rn, Cn.
      rewrite (cells_fin _ _ _ (fun r c => x r c * (1 / q))).
      - rewrite rsum_cells_scale. fold q. f_equal. field. exact Ns.
      - intros r' c' Hr' Hc'. cbn [scale_arr at2]. rewrite (V r' c' Hr' Hc'). reflexivity. }
    rewrite S1. cbn [xmul]. rewrite xdiv_fin by lra. unfold scale_arr at 1. cbn [at2]. rewrite (V1 r c Hr Hc). cbn [xmul]. f_equal. field.
  - eexists. split; [reflexivity|]. unfold renders. cbn [get_model]. eexists. eexists. split; [reflexivity|]. split; [exact Rn|]. split; [exact Cn|].
    split; [intros r c Hr Hc; rewrite (V r c Hr Hc), (Ht r c Hr Hc); f_equal; field|]. intros f. eexists. eexists. split; [reflexivity|]. split; [exact Rn|]. split; [exact Cn|]. intros r c Hr Hc.
    rewrite Sa. fold q. cbn [xmul]. rewrite xdiv_fin by exact Ns. unfold scale_arr. cbn [at2]. rewrite (V r c Hr Hc), (Ht r c Hr Hc). cbn [xmul]. f_equal. field. exact Ns.
Qed.

(** ** the passes *)
Inductive all_render : list pobs -> list source -> list (nat -> nat -> R) -> Prop :=
| AR_nil : all_render [] [] []
| AR_cons o s t obs ss ts : renders o s t -> all_render obs ss ts -> all_render (o :: obs) (s :: ss) (t :: ts).
Definition ready (o : pobs) (s' : source) (t : nat -> nat -> R) : Prop :=
  forall f, exists s2 im2, get_model o s' (Some (Fin f)) = Some (s2, Ok im2) /\ nrow im2 = po_nr o /\ ncol im2 = po_nc o /\
      (forall r c, (r < po_nr o)%nat -> (c < po_nc o)%nat -> at2 im2 r c = Fin (f * t r c)).
Inductive all_ready : list pobs -> list source -> list (nat -> nat -> R) -> Prop :=
| AY_nil : all_ready [] [] []
| AY_cons o s t obs ss ts : ready o s t -> all_ready obs ss ts -> all_ready (o :: obs) (s :: ss) (t :: ts).

Lemma over_cons f o obs t ts : over f (o :: obs) (t :: ts) = rsum (cells (po_nr o) (po_nc o) (fun r c => f (t r c) (po_im o r c) (po_wt o r c))) + over f obs ts.
Proof. reflexivity. Qed.
Lemma over_nil f ts : over f [] ts = 0. Proof. reflexivity. Qed.
Lemma over_nil_r f obs : over f obs [] = 0. Proof. destruct obs; reflexivity. Qed.
Lemma sum_image_fin f g o im x : nrow im = po_nr o -> ncol im = po_nc o -> (forall r c, (r < po_nr o)%nat -> (c < po_nc o)%nat -> at2 im r c = Fin (x r c)) ->
  (forall a b w, f (Fin a) (Fin b) (Fin w) = Fin (g a b w)) ->
  sum_image f o im = Ok (Fin (rsum (cells (po_nr o) (po_nc o) (fun r c => g (x r c) (po_im o r c) (po_wt o r c))))).
Proof.
  intros Rn Cn V Hf. unfold sum_image. rewrite Rn, Cn, !Nat.eqb_refl. cbn [andb]. f_equal. apply cells_fin. intros r c Hr Hc. rewrite (V r c Hr Hc). apply Hf.
Qed.
Lemma pass1_ok obs ss ts : all_render obs ss ts -> forall a b, exists ss', 
  pass1 obs ss (Fin a) (Fin b) = Some (ss', Ok (Fin (a + over (fun t i w => t * i * w) obs ts), Fin (b + over (fun t _ w => t * t * w) obs ts))) /\
  all_ready obs ss' ts.
Proof.
  induction 1 as [|o s t obs ss ts R H IH]; intros a b.
  - exists []. cbn [pass1]. rewrite !over_nil, !Rplus_0_r. split; [reflexivity|constructor].
  - destruct R as (s' & im & Em & Rn & Cn & V & Y). cbn [pass1]. rewrite Em. cbn [bind].
    rewrite (sum_image_fin _ (fun t i w => t * i * w) o im t Rn Cn V) by (intros; reflexivity).
    rewrite (sum_image_fin _ (fun t i w => t * t * w) o im t Rn Cn V) by (intros; reflexivity). cbn [bind xadd].
    match goal with |- context[pass1 obs ss (Fin ?x) (Fin ?y)] => destruct (IH x y) as (ss' & E & A) end. rewrite E.
    exists (s' :: ss'). split; [|constructor; [exact Y|exact A]]. rewrite !over_cons, !Rplus_assoc. reflexivity.
Qed.
Lemma pass2_ok obs ss ts : all_ready obs ss ts -> forall f a,
  pass2 obs ss (Fin f) (Fin a) = Some (Ok (Fin (a + over (fun t i w => (f * t - i) * (f * t - i) * w) obs ts))).
Proof.
  induction 1 as [|o s t obs ss ts R H IH]; intros f a.
  - cbn [pass2]. rewrite over_nil, Rplus_0_r. reflexivity.
  - destruct (R f) as (s' & im & Em & Rn & Cn & V). cbn [pass2]. rewrite Em. cbn [bind].
    rewrite (sum_image_fin _ (fun t i w => (t - i) * (t - i) * w) o im (fun r c => f * t r c) Rn Cn V) by (intros; reflexivity). cbn [xadd].
    rewrite IH, over_cons, Rplus_assoc. reflexivity.
Qed.

(** ** algebra of the sums *)
Lemma over_ext f g obs ts : (forall t i w, f t i w = g t i w) -> over f obs ts = over g obs ts.
Proof. intros H. unfold over. f_equal. apply map_ext. intros [o t]. f_equal. apply cells_ext. intros. apply H. Qed.
Lemma rsum_map_lin {A} a b (f g : A -> R) l : rsum (map (fun x => a * f x + b * g x) l) = a * rsum (map f l) + b * rsum (map g l).
Proof. induction l as [|x l IH]; cbn [map]; rewrite ?rsum_nil, ?rsum_cons; [ring|]. rewrite IH. ring. Qed.
Lemma cells_pairs {A} nr nc (f : nat -> nat -> A) : cells nr nc f = map (fun rc => f (fst rc) (snd rc)) (cells nr nc pair).
Proof. rewrite <- cells_map. reflexivity. Qed.
Lemma rsum_cells_lin nr nc a b (f g : nat -> nat -> R) : rsum (cells nr nc (fun r c => a * f r c + b * g r c)) = a * rsum (cells nr nc f) + b * rsum (cells nr nc g).
Proof. rewrite (cells_pairs nr nc f), (cells_pairs nr nc g), cells_pairs. apply (rsum_map_lin a b (fun rc => f (fst rc) (snd rc)) (fun rc => g (fst rc) (snd rc))). Qed.
Lemma over_lin a b f g obs ts : over (fun t i w => a * f t i w + b * g t i w) obs ts = a * over f obs ts + b * over g obs ts.
Proof.
  unfold over. rewrite <- rsum_map_lin. f_equal. apply map_ext. intros [o t]. cbn [fst snd]. rewrite <- rsum_cells_lin. reflexivity.
Qed.
Lemma rsum_nonneg l : (forall x, In x l -> 0 <= x) -> 0 <= rsum l.
Proof. induction l as [|x l IH]; intros H; rewrite ?rsum_nil, ?rsum_cons; [lra|]. assert (0 <= x) by (apply H; left; reflexivity). assert (0 <= rsum l) by (apply IH; intros; apply H; right; assumption). lra. Qed.
Lemma in_cells {A} nr nc (f : nat -> nat -> A) x : In x (cells nr nc f) -> exists r c, x = f r c.
Proof. rewrite cells_pairs. intros H. apply in_map_iff in H. destruct H as ([r c] & <- & _). eauto. Qed.
Lemma over_nonneg f obs ts : weights_ok obs -> (forall t i w, 0 <= w -> 0 <= f t i w) -> 0 <= over f obs ts.
Proof.
  intros W H. revert ts. induction W as [|o obs Wo W IH]; intros [|t ts]; rewrite ?over_nil, ?over_nil_r, ?over_cons; try lra.
  assert (0 <= rsum (cells (po_nr o) (po_nc o) (fun r c => f (t r c) (po_im o r c) (po_wt o r c)))); [|specialize (IH ts); lra].
  apply rsum_nonneg. intros x Hx. apply in_cells in Hx. destruct Hx as (r & c & ->). apply H, Wo.
Qed.
Lemma chi2_quadratic obs ts f : chi2_at obs ts f = f * f * template_weight obs ts - 2 * f * over (fun t i w => t * i * w) obs ts + over (fun _ i w => i * i * w) obs ts.
Proof.
  unfold chi2_at, template_weight.
  rewrite (over_ext _ (fun t i w => 1 * (f * f * (t ^ 2 * w) + (- 2 * f) * (t * i * w)) + 1 * (i * i * w))) by (intros; ring).
  rewrite (over_lin 1 1), (over_lin (f * f) (- 2 * f)). ring.
Qed.
Lemma optimum obs ts f : 0 < template_weight obs ts -> f = over (fun t i w => t * i * w) obs ts / template_weight obs ts ->
  forall f', f' <> f -> chi2_at obs ts f < chi2_at obs ts f'.
Proof.
  intros M E f' N. rewrite !chi2_quadratic. set (m := template_weight obs ts) in *. set (x := over (fun t i w => t * i * w) obs ts) in *.
  assert (X : x = f * m) by (rewrite E; field; lra). rewrite X. assert (0 < m * (f' - f) ^ 2); [|nra]. apply Rmult_lt_0_compat; [exact M|]. assert (Q : f' - f <> 0) by lra. assert (Q2 := pow2_ge_0 (f' - f)). destruct (Req_dec ((f' - f) ^ 2) 0) as [K|K]; [|lra]. apply (pow_nonzero _ 2) in Q. contradiction.
Qed.

(** ** pixel counts *)
Lemma cells_length {A} nr nc (f : nat -> nat -> A) : length (cells nr nc f) = (nr * nc)%nat.
Proof. unfold cells. generalize 0%nat at 2. induction nr as [|nr IH]; intros s; cbn [seq map concat]; [reflexivity|]. rewrite app_length, map_length, seq_length, IH. reflexivity. Qed.
Lemma filter_le {A} (p : A -> bool) l : (length (filter p l) <= length l)%nat.
Proof. induction l as [|x l IH]; cbn [filter]; [lia|]. destruct (p x); cbn [length]; lia. Qed.
Lemma kept_enough o : (n_positive o <= kept_pixels o)%nat.
Proof. unfold kept_pixels. destruct (po_pix o) as [[|]|]; try lia. unfold n_positive. eapply Nat.le_trans; [apply filter_le|]. rewrite cells_length. lia. Qed.
Lemma weight_needs_pixels obs ts : weights_ok obs -> n_kept obs = 0%nat -> template_weight obs ts = 0.
Proof.
  unfold template_weight, n_kept. intros W. revert ts. induction W as [|o obs Wo W IH]; intros [|t ts] N; rewrite ?over_nil, ?over_nil_r, ?over_cons; try reflexivity.
  cbn [map list_sum fold_right] in N. rewrite (IH ts) by (unfold list_sum; lia). rewrite Rplus_0_r. assert (P := kept_enough o). assert (P0 : n_positive o = 0%nat) by lia. unfold n_positive in P0.
  rewrite cells_pairs in P0. rewrite cells_pairs. revert P0. induction (cells (po_nr o) (po_nc o) pair) as [|[r c] l IHl]; intros P0; [reflexivity|]. cbn [map fst snd] in *. rewrite rsum_cons.
  cbn [filter] in P0. destruct (Rltb 0 (po_wt o r c)) eqn:Z; [discriminate|]. rewrite (IHl P0). specialize (Wo r c). apply Rltb_false in Z. replace (po_wt o r c) with 0 by lra. ring.
Qed.
Lemma fold_add l : forall a, fold_left Nat.add l a = (a + list_sum l)%nat.
Proof. induction l as [|x l IH]; intros a; cbn [fold_left list_sum fold_right]; [lia|]. rewrite IH. unfold list_sum. lia. Qed.
Lemma sizes_ok obs : stored obs -> mapM pixels_size obs = Ok (map kept_pixels obs).
Proof.
  induction 1 as [|o obs P H IH]; [reflexivity|]. cbn [mapM map]. assert (X : pixels_size o = Ok (kept_pixels o)) by (unfold pixels_size, kept_pixels; destruct (po_pix o) as [[|]|]; congruence).
  rewrite X. cbn [bind]. rewrite IH. reflexivity.
Qed.

(** ** the fit *)
Lemma opt_mapM_renders f (P : pobs -> (nat -> nat -> R) -> Prop) (H : forall o t, P o t -> exists s, f o = Some (Ok s) /\ renders o s t) obs ts : Forall2 P obs ts ->
  exists ss, opt_mapM f obs = Some (Ok ss) /\ all_render obs ss ts.
Proof.
  induction 1 as [|o t obs ts Ho _ (ss & E & A)]; [exists []; split; [reflexivity|constructor]|]. destruct (H o t Ho) as (s & Es & Rs).
  exists (s :: ss). cbn [opt_mapM]. rewrite Es. cbn [opt_bind]. rewrite E. cbn [opt_bind]. split; [reflexivity|constructor; assumption].
Qed.
Lemma init_ok do_psf np obs ts : templates do_psf np obs ts -> stored obs ->
  exists ss, pfit_init obs do_psf np = Some (Ok (mkPfit obs ss (n_kept obs))) /\ all_render obs ss ts.
Proof.
  intros (Ne & T) St. destruct obs as [|o obs]; [congruence|].
  assert (X : exists set tobs, (if do_psf then match po_psf o with Some t => Ok t | None => Raise AttributeError end
                  else Ok (po_gmix o, po_template o)) = Ok tobs /\
     match tobs with (Some _, _) => Some set_gmix | (None, Some _) => Some set_template | (None, None) => None end = Some set /\
     exists ss, opt_mapM (set do_psf np) (o :: obs) = Some (Ok ss) /\ all_render (o :: obs) ss ts).
  { destruct T as [T|[N T]].
    - assert (T0 := T). inversion T0 as [|? t ? ? (g & c & Hg & _)]; subst. exists set_gmix.
      assert (Y : exists tobs, (if do_psf then match po_psf o with Some t => Ok t | None => Raise AttributeError end else Ok (po_gmix o, po_template o)) = Ok tobs /\ fst tobs = Some g).
      { unfold chosen_gmix in Hg. destruct do_psf; [destruct (po_psf o) as [[g' t']|]; [|discriminate]|]; eexists; (split; [reflexivity|exact Hg]). }
      destruct Y as ([g' t'] & Y & Z). cbn [fst] in Z. subst g'. exists (Some g, t'). split; [exact Y|]. split; [reflexivity|].
      eapply opt_mapM_renders; [|exact T]. intros o' t0. apply set_gmix_renders.
    - assert (T0 := T). inversion T0 as [|? t ? ? (a & x & Ha & _)]; subst. exists set_template.
      assert (Y : (if do_psf then match po_psf o with Some t => Ok t | None => Raise AttributeError end else Ok (po_gmix o, po_template o)) = Ok (None, Some a)).
      { unfold chosen_gmix in N. unfold chosen_template in Ha. destruct do_psf; [destruct (po_psf o) as [[g' t']|]; [|discriminate]|]; congruence. }
      exists (None, Some a). split; [exact Y|]. split; [reflexivity|].
      eapply opt_mapM_renders; [|exact T]. intros o' t0. apply set_template_renders. }
  destruct X as (set & tobs & E1' & E2' & ss & E3' & A). exists ss. split; [|exact A]. unfold pfit_init. rewrite E1'. cbn [opt_bind]. rewrite E2', E3'. cbn [opt_bind].
  rewrite (sizes_ok _ St), fold_add. reflexivity.
Qed.
Lemma dof_pos F : 0 < get_dof F.
Proof. unfold get_dof. rcase; [|lra]. apply Rinv_0_lt_compat. lra. Qed.

Lemma psfflux_ok do_psf np obs ts : templates do_psf np obs ts -> weights_ok obs -> stored obs ->
  exists r, psfflux_go do_psf np obs = Some (Ok r) /\
    pr_dof r = (if Nat.leb (n_weighted obs) 1 then / 1000000 else INR (n_weighted obs) - 1) /\ 0 < pr_dof r /\ 0 <= template_weight obs ts /\
    (template_weight obs ts = 0 -> pr_flags r = DIV_ZERO /\ pr_flux r = Fin LM_Model.PDEF /\ pr_flux_err r = Fin LM_Model.CDEF) /\
    (0 < template_weight obs ts -> exists f, pr_flux r = Fin f /\ (forall f', f' <> f -> chi2_at obs ts f < chi2_at obs ts f') /\
      pr_chi2per r = Fin (chi2_at obs ts f / pr_dof r) /\
      (n_kept obs = 1%nat -> pr_flags r = DIV_ZERO /\ pr_flux_err r = Fin LM_Model.CDEF) /\
      (n_kept obs <> 1%nat -> pr_flags r = 0%Z /\
        exists e, pr_flux_err r = Fin e /\ 0 <= e /\ e ^ 2 * template_weight obs ts * (INR (n_kept obs) - 1) = chi2_at obs ts f)).
Proof.
  intros T W St. destruct (init_ok do_psf np obs ts T St) as (ss & Ei & A). unfold psfflux_go. rewrite Ei. cbn [opt_bind].
  destruct (pass1_ok obs ss ts A 0 0) as (ss' & E1' & Y). unfold go. cbn [pf_obs pf_sources pf_totpix]. rewrite E1', !Rplus_0_l.
  assert (M : over (fun t _ w => t * t * w) obs ts = template_weight obs ts) by (apply over_ext; intros; ring). rewrite M.
  assert (Mp : 0 <= template_weight obs ts). { apply over_nonneg; [exact W|]. intros. apply Rmult_le_pos; [apply pow2_ge_0|assumption]. }
  set (F := mkPfit obs ss' (n_kept obs)). assert (Dp := dof_pos F).
  assert (Dv : get_dof F = (if Nat.leb (n_weighted obs) 1 then / 1000000 else INR (n_weighted obs) - 1)).
  { unfold get_dof. cbn [F pf_obs]. rewrite fold_add. cbn [Nat.add]. fold (n_weighted obs). destruct (Nat.leb (n_weighted obs) 1) eqn:L.
    - apply Nat.leb_le, le_INR in L. cbn [INR] in L. rewrite Rleb_t by lra. reflexivity.
    - apply Nat.leb_gt in L. apply le_INR in L. cbn [INR] in L. rewrite Rleb_f by lra. reflexivity. }
  rewrite (Rltb_t _ _ Dp).
  destruct (Req_dec (template_weight obs ts) 0) as [Z|Z].
  - assert (Zb : xeqb (Fin (template_weight obs ts)) (Fin 0) = true) by (cbn [xeqb]; apply Reqb_t; exact Z). rewrite Zb. cbn [orb option_map snd Z.lor].
    eexists. split; [reflexivity|]. cbn [pr_dof pr_flags pr_flux pr_flux_err pr_chi2per]. split; [exact Dv|]. split; [exact Dp|]. split; [exact Mp|]. split; [auto|]. intros; lra.
  - assert (Mq : 0 < template_weight obs ts) by lra. assert (Zb : xeqb (Fin (template_weight obs ts)) (Fin 0) = false) by (cbn [xeqb]; apply Reqb_f; exact Z). rewrite Zb.
    rewrite xdiv_fin by exact Z. set (f := over (fun t i w => t * i * w) obs ts / template_weight obs ts).
    rewrite (pass2_ok obs ss' ts Y f 0), Rplus_0_l. cbn [opt_bind orb].
    assert (C : over (fun t i w => (f * t - i) * (f * t - i) * w) obs ts = chi2_at obs ts f) by (apply over_ext; intros; ring). rewrite C.
    assert (Cp : 0 <= chi2_at obs ts f). { apply over_nonneg; [exact W|]. intros. apply Rmult_le_pos; [apply pow2_ge_0|assumption]. }
    rewrite (xdiv_fin (chi2_at obs ts f) (get_dof F)) by lra. rewrite (xdiv_fin (chi2_at obs ts f) (template_weight obs ts)) by lra. change (pf_totpix F) with (n_kept obs).
    assert (Np : n_kept obs <> 0%nat) by (intros N; apply Z; apply weight_needs_pixels; assumption).
    destruct (Nat.eqb (n_kept obs) 1) eqn:E1k.
    + apply Nat.eqb_eq in E1k. cbn [option_map snd Z.lor]. eexists. split; [reflexivity|]. cbn [pr_dof pr_flags pr_flux pr_flux_err pr_chi2per]. split; [exact Dv|]. split; [exact Dp|]. split; [exact Mp|]. split; [intros; lra|]. intros _.
      exists f. split; [reflexivity|]. split; [apply optimum; [exact Mq|reflexivity]|]. split; [reflexivity|]. split; [auto|]. intros N; contradiction.
    + apply Nat.eqb_neq in E1k. assert (Kp : 1 <= INR (n_kept obs) - 1). { assert (2 <= n_kept obs)%nat by lia. apply le_INR in H. cbn [INR] in H. lra. }
      rewrite xdiv_fin by lra. set (arg := chi2_at obs ts f / template_weight obs ts / (INR (n_kept obs) - 1)).
      assert (Ap : 0 <= arg). { unfold arg, Rdiv. apply Rmult_le_pos; [apply Rmult_le_pos; [exact Cp|]|]; apply Rlt_le, Rinv_0_lt_compat; lra. }
      assert (Ab : xleb (Fin 0) (Fin arg) = true) by (cbn [xleb]; apply Rleb_t; exact Ap). rewrite Ab. cbn [option_map snd].
      eexists. split; [reflexivity|]. cbn [pr_dof pr_flags pr_flux pr_flux_err pr_chi2per]. split; [exact Dv|]. split; [exact Dp|]. split; [exact Mp|]. split; [intros; lra|]. intros _.
      exists f. split; [reflexivity|]. split; [apply optimum; [exact Mq|reflexivity]|]. split; [reflexivity|]. split; [intros N; contradiction|]. intros _. split; [reflexivity|].
      exists (sqrt arg). split; [cbn [xsqrt]; rewrite ?Rltb_f by lra; reflexivity|]. split; [apply sqrt_pos|]. rewrite pow2_sqrt by exact Ap. unfold arg. field. split; lra.
Qed.

Lemma kept_default obs : default_pixels obs -> n_kept obs = n_weighted obs.
Proof. unfold n_kept, n_weighted, list_sum. induction 1 as [|o obs P _ IH]; [reflexivity|]. cbn [map fold_right]. rewrite IH. unfold kept_pixels. rewrite P. reflexivity. Qed.
Lemma default_stored obs : default_pixels obs -> stored obs.
Proof. intros H. eapply Forall_impl; [|exact H]. cbn. intros o ->. discriminate. Qed.
Lemma weight_needs_weighted obs ts : weights_ok obs -> n_weighted obs = 0%nat -> template_weight obs ts = 0.
Proof.
  intros W N. set (d := map (fun o => mkPobs (po_nr o) (po_nc o) (po_im o) (po_wt o) (po_jac o) (Some true) (po_gmix o) (po_template o) (po_psf o)) obs).
  transitivity (template_weight d ts).
  - unfold template_weight, over, d. clear. revert ts. induction obs as [|o obs IH]; intros [|t ts]; cbn [map combine]; try reflexivity. rewrite !rsum_cons, IH. reflexivity.
  - apply weight_needs_pixels.
    + unfold d. apply Forall_map. exact W.
    + rewrite <- N. unfold n_kept, n_weighted, d. rewrite map_map. reflexivity.
Qed.
Lemma no_information do_psf np obs ts : templates do_psf np obs ts -> weights_ok obs -> default_pixels obs ->
  template_weight obs ts = 0 \/ (n_weighted obs <= 1)%nat -> exists r, psfflux_go do_psf np obs = Some (Ok r) /\ pr_flags r = DIV_ZERO /\ pr_flux_err r = Fin LM_Model.CDEF.
Proof.
  intros T W D H. destruct (psfflux_ok do_psf np obs ts T W (default_stored _ D)) as (r & E & _ & _ & Mp & Z & P). exists r. split; [exact E|].
  destruct (Req_dec (template_weight obs ts) 0) as [Q|Q]; [destruct (Z Q) as (A & _ & B); auto|]. destruct H as [H|H]; [contradiction|].
  destruct P as (f & _ & _ & _ & P & _); [lra|]. apply P. rewrite (kept_default _ D). assert (n_weighted obs <> 0%nat) by (intros N; apply Q; apply weight_needs_weighted; assumption). lia.
Qed.

Lemma opt_mapM_each {A B} (f : A -> option (res B)) l r : opt_mapM f l = Some (Ok r) -> Forall (fun a => exists b, f a = Some (Ok b)) l.
Proof.
  revert r. induction l as [|a l IH]; intros r E; [constructor|]. cbn [opt_mapM] in E. destruct (f a) as [[b|]|] eqn:Ea; try discriminate. cbn [opt_bind] in E.
  destruct (opt_mapM f l) as [[bs|]|]; try discriminate. constructor; [eauto|]. eapply IH. reflexivity.
Qed.
Lemma sources_present do_psf np obs r : psfflux_go do_psf np obs = Some (Ok r) ->
  obs <> [] /\ stored obs /\
  (Forall (fun o => chosen_gmix do_psf o <> None) obs \/
   (match obs with [] => True | o :: _ => chosen_gmix do_psf o = None end) /\ Forall (fun o => chosen_template do_psf o <> None) obs).
Proof.
  unfold psfflux_go. destruct (pfit_init obs do_psf np) as [[F|]|] eqn:E; try discriminate. intros _. unfold pfit_init in E. destruct obs as [|o obs]; [discriminate|]. split; [discriminate|].
  match type of E with opt_bind (Some ?t) _ = _ => destruct t as [[g t']|] eqn:Et end; [|discriminate]. cbn [opt_bind] in E.
  assert (X : exists set, match g with Some _ => Some set_gmix | None => match t' with Some _ => Some set_template | None => None end end = Some set).
  { destruct g; [eauto|]. destruct t'; [eauto|discriminate]. }
  destruct X as (set & X). rewrite X in E. destruct (opt_mapM (set do_psf np) (o :: obs)) as [[ss|]|] eqn:Em; try discriminate. cbn [opt_bind] in E.
  destruct (mapM pixels_size (o :: obs)) as [sz|] eqn:Ez; [|discriminate]. split.
  - clear - Ez. revert sz Ez. generalize (o :: obs) as l. induction l as [|a l IH]; intros sz Ez; [constructor|]. cbn [mapM] in Ez. unfold pixels_size at 1 in Ez.
    destruct (po_pix a) eqn:P; [|discriminate]. constructor; [congruence|]. destruct b; cbn [bind] in Ez; destruct (mapM pixels_size l) as [s'|]; try discriminate; exact (IH _ eq_refl).
  - apply opt_mapM_each in Em. destruct g as [g|].
    + injection X as <-. left. eapply Forall_impl; [|exact Em]. cbn beta. intros a (b & Eb). unfold set_gmix in Eb. unfold chosen_gmix. destruct do_psf; [destruct (po_psf a) as [[[g'|] t'']|]|destruct (po_gmix a)]; discriminate.
    + destruct t'; [|discriminate]. injection X as <-. right. split; [unfold chosen_gmix; destruct do_psf; [destruct (po_psf o) as [[g' t'']|]|]; congruence|].
      eapply Forall_impl; [|exact Em]. cbn beta. intros b (c & Eb). unfold set_template in Eb. unfold chosen_template. destruct do_psf; [destruct (po_psf b) as [[g' [t''|]]|]|destruct (po_template b)]; discriminate.
Qed.

(** ** one pixel with weight, ignore_zero_weight=False *)
Definition cex_templ : arr2 xr := mkArr 1 2 (fun _ _ => Fin 1).
Definition cex_obs : pobs := mkPobs 1 2 (fun _ c => match c with O => 5 | _ => 7 end) (fun _ c => match c with O => 1 | _ => 0 end)
  (mkJac 0 0 1 0 0 1 1 1) (Some false) None (Some cex_templ) None.
Definition cex_t : nat -> nat -> R := fun _ _ => 1 / 2.
Lemma cex_templates : templates false true [cex_obs] [cex_t].
Proof.
  split; [discriminate|]. right. split; [reflexivity|]. constructor; [|constructor]. exists cex_templ, (fun _ _ => 1). split; [reflexivity|]. split; [reflexivity|]. split; [reflexivity|].
  assert (X : rsum (cells (po_nr cex_obs) (po_nc cex_obs) (fun _ _ : nat => 1)) = 2) by (cbn; lra). rewrite X. split; [reflexivity|]. split; [lra|]. reflexivity.
Qed.
Lemma cex_weights : weights_ok [cex_obs].
Proof. constructor; [|constructor]. intros r [|c]; cbn; lra. Qed.
Lemma cex_one : n_weighted [cex_obs] = 1%nat.
Proof. unfold n_weighted, n_positive. cbn [map cex_obs po_nr po_nc po_wt cells seq concat app filter list_sum fold_right]. rewrite (Rltb_t 0 1), (Rltb_f 0 0) by lra. reflexivity. Qed.
Lemma one_pixel : exists r, psfflux_go false true [cex_obs] = Some (Ok r) /\ pr_flags r = 0%Z /\ pr_flux_err r = Fin 0.
Proof.
  destruct (psfflux_ok false true [cex_obs] [cex_t] cex_templates cex_weights) as (r & E & _ & _ & _ & _ & P); [constructor; [discriminate|constructor]|]. exists r. split; [exact E|].
  assert (C : forall f, chi2_at [cex_obs] [cex_t] f = (f / 2 - 5) ^ 2) by (intros f; unfold chi2_at, over, cex_t; cbn; lra).
  assert (Tw : template_weight [cex_obs] [cex_t] = / 4) by (unfold template_weight, over, cex_t; cbn; lra).
  destruct P as (f & _ & M & _ & _ & P); [rewrite Tw; lra|]. destruct P as (A & e & B & Ep & Q); [discriminate|]. split; [exact A|]. rewrite B. f_equal.
  destruct (Req_dec 10 f) as [<-|N]; [|specialize (M 10 N); rewrite !C in M; assert (K := pow2_ge_0 (f / 2 - 5)); nra]. rewrite Tw, C in Q. change (INR (n_kept [cex_obs])) with (1 + 1) in Q. nra.
Qed.
