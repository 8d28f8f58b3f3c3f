(** Concrete fits with Fitter. *)
From Coq Require String.
From Verif Require Import Base XReal Flags_Model Jacobian_Model Pixels_Model GMix_Model GMix_Spec GMix_Proofs GMixObj_Model GMixObj_Proofs Render_Model Render_Spec
  Priors_Model Priors_Spec Priors_Proofs PriorsCex_Proofs Joint_Model Joint_Spec Joint_Proofs
  Fit_Model Fit_Spec Fit_Proofs Fit2_Proofs Fit3_Proofs Fit4_Proofs FitCex_Proofs LM_Model LM_Spec LM_Proofs LMCex_Proofs PriorFit_Model
  Fitter_Model Fitter_Spec Fitter_Proofs.
Import String.StringSyntax.
Local Open Scope R_scope.
Local Open Scope string_scope.
Local Open Scope list_scope.

(** a minimizer that stops where it starts, with the identity as its covariance *)
Definition w_cov (n : nat) : omat := mkArr n n (fun i j => Some (if Nat.eqb i j then 1 else 0)).
Definition w_leastsq (f : vec -> resx vec) (x : vec) (k : nat) : resx lmtup := OkX (mkTup x (Some (w_cov (length x))) 1 "converged" 1).
(** the eigenvalues of diagonal matrices *)
Definition diagonal (n : nat) (M : nat -> nat -> R) : bool :=
  forallb (fun i => forallb (fun j => (Nat.eqb i j || Reqb (M i j) 0)%bool) (seq 0 n)) (seq 0 n).
Definition w_eig (n : nat) (M : nat -> nat -> R) : option (list R) :=
  if diagonal n M then Some (map (fun i => M i i) (seq 0 n)) else None.
Definition w_inv (A : omat) : option omat := None.

Lemma diagonal_off n M i j : diagonal n M = true -> (i < n)%nat -> (j < n)%nat -> i <> j -> M i j = 0.
Proof.
  unfold diagonal. rewrite forallb_forall. intros H Hi Hj Hn. specialize (H i ltac:(apply in_seq; lia)). rewrite forallb_forall in H.
  specialize (H j ltac:(apply in_seq; lia)). apply Bool.orb_prop in H as [H|H]; [apply Nat.eqb_eq in H; lia|]. apply Reqb_true in H. exact H.
Qed.
Lemma rsum_one f i n : (i < n)%nat -> (forall j, (j < n)%nat -> j <> i -> f j = 0) -> rsum (map f (seq 0 n)) = f i.
Proof.
  revert i. induction n as [|n IH]; intros i Hi H; [lia|]. rewrite seq_S, map_app, rsum_app. cbn [map Nat.add]. rewrite rsum_cons. cbn [rsum fold_right].
  destruct (Nat.eq_dec i n) as [->|Hn].
  - assert (Z : rsum (map f (seq 0 n)) = 0).
    { clear IH Hi. assert (G : forall j, (j < n)%nat -> f j = 0) by (intros j Hj; apply H; lia). clear H. induction n as [|n IH]; [reflexivity|].
      rewrite seq_S, map_app, rsum_app. cbn [map Nat.add]. rewrite rsum_cons, IH, (G n) by (intros; try apply G; lia). cbn. ring. }
    rewrite Z. cbn. ring.
  - rewrite (IH i) by (intros; try apply H; lia). rewrite (H n) by lia. cbn. ring.
Qed.
Lemma w_eig_complete : eig_complete w_eig.
Proof.
  intros n M l H lam (v & (i & Hi & Hv) & Heq). unfold w_eig in H. destruct (diagonal n M) eqn:D; [|discriminate]. injection H as <-.
  apply in_map_iff. exists i. split; [|apply in_seq; lia]. specialize (Heq i Hi).
  rewrite (rsum_one (fun j => M i j * v j) i n Hi) in Heq.
  - apply (Rmult_eq_reg_r (v i)); [exact Heq|exact Hv].
  - intros j Hj Hn. rewrite (diagonal_off n M i j D Hi Hj) by congruence. ring.
Qed.
Lemma w_known : known_status w_leastsq.
Proof. intros f x k t H. injection H as <-. cbn. lia. Qed.
Lemma w_shapes : minimizer_shapes ex_lmdif w_leastsq w_inv.
Proof.
  split; [exact ex_keeps|]. split.
  - intros f x k t H. injection H as <-. cbn. split; [reflexivity|]. intros c Hc. injection Hc as <-. reflexivity.
  - intros A B H. discriminate.
Qed.

(** seven pixels at the centre of the gaussian *)
Definition obs7 : fobs := mkFobs (Some (repeat cpix 7)) None 7 1 gjac.
Definition F7 (prior : option jprior) : fit :=
  mkFit (FName Mgauss) [[obs7]] prior 7 6 (match prior with None => 0 | Some _ => 6 end) (7 + match prior with None => 0 | Some _ => 6 end)
    [repeat cpix 7] (match prior with None => None | Some p => jp_bounds p end) false [[(gobj, gobj)]].
Lemma F7_made prior : fit_init (FName Mgauss) [[obs7]] gpars prior = Ok (F7 prior).
Proof.
  unfold fit_init, setup_fit, init_gmix_all. cbn [concat app mapM obs_pixels obs7 fo_pixels bind length fold_left combine seq fst snd].
  unfold band_pars_of. assert (E : get_band_pars Mgauss gpars 0 = Ok gpars) by reflexivity. rewrite E. cbn [bind mapM]. unfold init_one, make_model. rewrite gobj_made. cbn [bind].
  change (has_psf_gmix _) with false. cbn [bind]. rewrite copy_gobj. destruct prior; reflexivity.
Qed.
Lemma F7_of prior : fit_of (FName Mgauss) [[obs7]] prior (F7 prior).
Proof. exists gpars, (F7 prior). split; [apply F7_made|constructor]. Qed.
Lemma F7_range prior : in_range (F7 prior) gpars [gobj].
Proof.
  split; [|constructor; [exact gdata_eval|constructor]]. unfold mixtures, positions, positions_from. cbn [F7 f_obs combine length seq map concat app fst snd mapM].
  unfold get_convolved_gmix, get_gmix, obs_at. cbn [F7 f_obs f_model nth_error]. unfold band_pars_of. assert (E : get_band_pars Mgauss gpars 0 = Ok gpars) by reflexivity. rewrite E. cbn [bind].
  unfold make_model. rewrite gobj_made. reflexivity.
Qed.
Lemma uniform7 : uniform_psf [[obs7]].
Proof. right. intros o [<-|[]]. reflexivity. Qed.

Lemma osum_some l : osum (map Some l) = Some (rsum l).
Proof.
  unfold osum. assert (G : forall a, fold_left oadd (map Some l) (Some a) = Some (a + rsum l)).
  { induction l as [|x l IH]; intros a; cbn [map fold_left]; [cbn; f_equal; ring|]. cbn [oadd oap2]. rewrite IH, rsum_cons. f_equal. ring. }
  rewrite G. f_equal. ring.
Qed.

(** the run on it *)
Lemma run7 prior k L (odd : vec -> resx vec) : prior_ok prior k -> (k <= match prior with None => 0 | Some _ => 6 end)%nat -> (prior <> None -> k = 5%nat) ->
  match prior with Some p => jp_bounds p | None => None end = None -> prior_value prior gpars = Ok L ->
  exists out, fitter_go ex_lmdif w_leastsq w_inv w_eig ex_msg odd (FName Mgauss) prior 0 [] [[obs7]] gpars = Some (OkX out) /\
    dget (ou_dict out) "flags" = Some (LInt 0) /\ dget (ou_dict out) "pars" = Some (LVec (map Some gpars)) /\ dget (ou_dict out) "pars_cov0" = Some (LMat (Some (w_cov 6))).
Proof.
  intros Hp Hk Hk5 Hb PV.
  destruct (layout (FName Mgauss) [[obs7]] prior (F7 prior) k (F7_of _) ltac:(discriminate) Hp Hk uniform7 gpars [gobj] L eq_refl (F7_range _) PV)
    as (models & pr & Hm & Lp & En & Ef & La & El).
  inversion Hm as [|g f gs fs Hg Hr]; subst. inversion Hr; subst.
  set (x := resid f cpix).
  assert (Eall : all_resid [f] (pixels_of [[obs7]]) = repeat x 7) by reflexivity. rewrite Eall in *.
  unfold fitter_go. rewrite F7_made. change (f_bounds (F7 prior)) with (match prior with None => None | Some p => jp_bounds p end). rewrite Hb. cbn [bounds_arg].
  change (f_n_prior (F7 prior)) with (match prior with None => 0%nat | Some _ => 6%nat end) at 1.
  assert (S : exists l, skipn (match prior with None => 0 | Some _ => 6 end) (map of_xr (pr ++ map Fin (repeat x 7) ++ repeat (Fin 0) (f_n_prior (F7 prior) - length pr))) = map Some l /\ 0 <= rsum (map (fun d => d * d) l)).
  { destruct prior as [p|].
    - pose proof (Hk5 ltac:(discriminate)) as Q5. exists (repeat x 6 ++ [0]). destruct pr as [|p1 [|p2 [|p3 [|p4 [|p5 [|]]]]]]; try discriminate. split; [reflexivity|]. cbn. nra.
    - exists (repeat x 7). cbn in Hk. assert (length pr = 0%nat) by lia. destruct pr; [|discriminate]. split; [reflexivity|]. cbn. nra. }
  destruct S as (l & Sl & Hl). set (S2 := rsum (map (fun d => d * d) l)) in *.
  set (fd := pr ++ map Fin (repeat x 7) ++ repeat (Fin 0) (f_n_prior (F7 prior) - length pr)) in *.
  assert (Lf : length (map of_xr fd) = (7 + match prior with None => 0 | Some _ => 6 end)%nat).
  { unfold fd. rewrite map_length, !app_length, map_length, !repeat_length. cbn [F7 f_n_prior]. lia. }
  set (pcov := mkArr 6 6 (fun i j => Some ((if Nat.eqb i j then 1 else 0) * S2)) : omat).
  set (d := full_dict 0 1 1 "converged" (map Some gpars) (map (fun _ => Some (sqrt S2)) (seq 0 6)) (Some (w_cov 6)) pcov).
  assert (ER : run_leastsq ex_lmdif w_leastsq w_inv w_eig ex_msg (fdiff_func odd (F7 prior)) (map Some gpars)
    (match prior with None => 0 | Some _ => 6 end) false None 0 = OkX d).
  { unfold run_leastsq, run_try. cbn [leastsqbound]. unfold w_leastsq. cbn [bindx tp_ier tp_cov tp_x tp_mesg tp_nfev Z.eqb Z.ltb Z.compare Pos.compare Pos.compare_cont].
    unfold fdiff_func at 1. rewrite all_some_map, Ef. cbn [bindx]. fold fd. rewrite Lf, Sl.
    assert (Ed : (Z.of_nat (7 + match prior with None => 0 | Some _ => 6 end) - Z.of_nat (match prior with None => 0 | Some _ => 6 end) - Z.of_nat (length (map Some gpars)) = 1)%Z) by (cbn [gpars map length]; lia).
    rewrite Ed. cbn [Z.eqb]. rewrite map_map. change (map (fun x0 : R => omul (Some x0) (Some x0)) l) with (map (fun x0 => Some (x0 * x0)) l).
    rewrite <- (map_map (fun x0 => x0 * x0) Some), osum_some. fold S2. unfold odiv. rewrite Reqb_f by lra.
    assert (Ep : mat_scale (w_cov (length (map Some gpars))) (Some (S2 / 1)) = pcov).
    { unfold mat_scale, w_cov, pcov. cbn [nrow ncol gpars map length at2 omul oap2]. unfold Rdiv. rewrite Rinv_1, Rmult_1_r. reflexivity. }
    rewrite Ep. 
    assert (T : test_cov w_eig pcov = 0%Z).
    { unfold test_cov, np_eig. cbn [pcov nrow ncol Nat.eqb negb]. change (forallb is_fin (all_cells pcov)) with true. cbn iota. unfold w_eig.
      assert (D : diagonal 6 (fun i j => oval (at2 pcov i j)) = true).
      { unfold diagonal. apply forallb_forall. intros i _. apply forallb_forall. intros j _. cbn [pcov at2 oval]. destruct (Nat.eqb i j); [reflexivity|]. cbn [orb]. apply Reqb_t. ring. }
      rewrite D. cbn [seq map existsb pcov at2 oval Nat.eqb odiag nrow ncol Nat.min oneg]. rewrite !Rltb_f by lra. reflexivity. }
    assert (Er : map (fun d => obind d osqrt) (odiag pcov) = map (fun _ => Some (sqrt S2)) (seq 0 6)).
    { unfold odiag. cbn [pcov nrow ncol Nat.min]. rewrite map_map. apply map_ext. intros i. unfold pcov. cbn [at2]. rewrite Nat.eqb_refl. cbn [obind]. unfold osqrt. rewrite Rltb_f by lra. f_equal. f_equal. ring. }
    rewrite T, Er. reflexivity. }
  rewrite ER. unfold finish_fit. cbn [after fold_left].
  change (kget d "flags") with (Some (LInt 0)). change (kget d "pars") with (Some (LVec (map Some gpars))).
  change (kget d "pars_err") with (Some (LVec (map Some (repeat (sqrt S2) 6)))). change (kget d "pars_cov") with (Some (LMat (Some pcov))). cbn iota. rewrite !all_some_map.
  unfold finite_mat. change (forallb is_fin (all_cells pcov)) with true. cbn iota.
  unfold set_fit_result. pose proof (lnprob_pure (F7 prior) gpars (md_ok _ _ _ _ (fit_made _ _ _ _ (F7_of prior)))) as (_ & (gm & Sg) & _).
  destruct (calc_lnprob (F7 prior) gpars) as [F rl]. cbn [fst snd] in *. rewrite El, Sg. cbn [bind].
  eexists. split; [reflexivity|]. split; [reflexivity|]. split; reflexivity.
Qed.

(** the library's prior for simple models, of parts without bounds *)
Definition free_normal : normal := mkNormal 0 1 (1 / 1) (1 / 1 ^ 2) None.
Lemma free_normal_made : normal_init 0 1 None = Ok free_normal.
Proof. unfold normal_init, py_inv. rewrite !Reqb_f by lra. reflexivity. Qed.
Definition free_simple : simplesep := mkSS the_cen (gba_obj the_ba) (normal_obj free_normal) [normal_obj free_normal] None.
Lemma free_simple_made : simple_init the_cen (gba_obj the_ba) (normal_obj free_normal) (FOne (normal_obj free_normal)) = Ok free_simple.
Proof. reflexivity. Qed.
Definition fprior : jprior := of_simple free_simple (ss_bounds free_simple).
Lemma fprior_consistent : consistent_prior fprior 5.
Proof. exact sprior_consistent. Qed.
Lemma fprior_value : jp_lnprob fprior (map Fin gpars) = Ok (Fin (- 17 / 2)).
Proof. exact sprior_value. Qed.
Lemma fprior_run odd : exists out, fitter_go ex_lmdif w_leastsq w_inv w_eig ex_msg odd (FName Mgauss) (Some fprior) 0 [] [[obs7]] gpars = Some (OkX out) /\
    dget (ou_dict out) "flags" = Some (LInt 0) /\ dget (ou_dict out) "pars" = Some (LVec (map Some gpars)) /\ dget (ou_dict out) "pars_cov0" = Some (LMat (Some (w_cov 6))).
Proof. apply (run7 (Some fprior) 5 (Fin (- 17 / 2))); [exact fprior_consistent|cbn; lia|reflexivity|reflexivity|exact fprior_value]. Qed.
Lemma noprior_run odd : exists out, fitter_go ex_lmdif w_leastsq w_inv w_eig ex_msg odd (FName Mgauss) None 0 [] [[obs7]] gpars = Some (OkX out) /\
    dget (ou_dict out) "flags" = Some (LInt 0) /\ dget (ou_dict out) "pars" = Some (LVec (map Some gpars)) /\ dget (ou_dict out) "pars_cov0" = Some (LMat (Some (w_cov 6))).
Proof. apply (run7 None 0 (Fin 0)); [reflexivity|cbn; lia|congruence|reflexivity|reflexivity]. Qed.

Lemma same_mixtures F G pars : f_model F = f_model G -> f_obs F = f_obs G -> mixtures F pars = mixtures G pars.
Proof. intros E1 E2. unfold mixtures, get_convolved_gmix, get_gmix, obs_at. rewrite E1, E2. reflexivity. Qed.
(** the covariance leaves out the first pixel *)
Lemma covariance_wrong : exists lmdif leastsq inv eig message odd m prior maxfev hist obs guess out pars ms models cov0 cov,
  known_status leastsq /\ eig_complete eig /\ minimizer_shapes lmdif leastsq inv /\ uniform_psf obs /\
  prior_ok (Some prior) (terms_of m (Some prior) (length obs)) /\
  fitter_go lmdif leastsq inv eig message odd m (Some prior) maxfev hist obs guess = Some (OkX out) /\
  dget (ou_dict out) "flags" = Some (LInt 0) /\ dget (ou_dict out) "pars" = Some (LVec (map Some pars)) /\
  in_range (ou_fit out) pars ms /\ Forall2 model_of ms models /\
  dget (ou_dict out) "pars_cov0" = Some (LMat (Some cov0)) /\ dget (ou_dict out) "pars_cov" = Some (LMat (Some cov)) /\
  let resid := all_resid models (pixels_of obs) in
  let dof := (Z.of_nat (length resid) - Z.of_nat (n_pars m obs))%Z in
  at2 cov0 0 0 = Some 1 /\ at2 cov 0 0 = Some (chi2 (tl resid) / IZR dof) /\ at2 cov 0 0 <> Some (chi2 resid / IZR dof).
Proof.
  destruct (fprior_run (fun _ => RaiseX ValueError false)) as (out & G & Fl & Pa & C0).
  destruct (good_fit _ _ _ _ _ _ (FName Mgauss) (Some fprior) 0%nat [] [[obs7]] gpars out w_known w_eig_complete w_shapes ltac:(discriminate) uniform7 ltac:(discriminate) fprior_consistent G Fl)
    as (pars & r & ms & models & L & cov0 & cov & P1 & Lp & _ & Ff & Rg & HM & _ & Lr & _ & _ & _ & _ & _ & _ & _ & _ & D0 & D1 & Cv & _).
  exists ex_lmdif, w_leastsq, w_inv, w_eig, ex_msg, (fun _ => RaiseX ValueError false), (FName Mgauss), fprior, 0%nat, [], [[obs7]], gpars, out, pars, ms, models, cov0, cov.
  split; [exact w_known|]. split; [exact w_eig_complete|]. split; [exact w_shapes|]. split; [exact uniform7|]. split; [exact fprior_consistent|]. split; [exact G|]. split; [exact Fl|].
  split; [exact P1|]. split; [exact Rg|]. split; [exact HM|]. split; [exact D0|]. split; [exact D1|]. cbv zeta.
  rewrite C0 in D0. injection D0 as <-. destruct (Cv 0%nat 0%nat ltac:(cbn; lia) ltac:(cbn; lia)) as (c & Q1 & Q2). cbn in Q1. injection Q1 as <-.
  cbn [used] in Q2. rewrite Rmult_1_l in Q2. split; [reflexivity|]. split; [exact Q2|].
  rewrite Pa in P1. injection P1 as P1. apply (map_some_inj gpars) in P1. subst pars.
  rewrite Q2. intros K. injection K as K.
  assert (Em : ms = [gobj]).
  { destruct Rg as [Rg _]. pose proof (fit_made _ _ _ _ Ff) as MD. rewrite (same_mixtures _ (F7 (Some fprior))), (proj1 (F7_range (Some fprior))) in Rg.
    - congruence. - rewrite (md_model _ _ _ _ MD). reflexivity. - rewrite (md_obs _ _ _ _ MD). reflexivity. }
  subst ms. inversion HM as [|g f gs fs Hg Hr]; subst. inversion Hr; subst. pose proof (model_centre gobj 2 f eq_refl ltac:(lra) Hg) as C.
  pose proof PI_RGT_0. assert (0 < / (2 * PI * 2)) by (apply Rinv_0_lt_compat; lra). apply Rabs_le_inv in C.
  change (all_resid [f] (pixels_of [[obs7]])) with (repeat (resid f cpix) 7) in K.
  assert (Hx : resid f cpix = f cpix) by (unfold resid; cbn; ring). rewrite Hx in K. unfold chi2 in K. cbn in K. nra.
Qed.

(** CoellipFitter with a prior that has bounds *)
Lemma coellip_fails lmdif leastsq inv eig message odd n cen g T Fl P : (1 <= n)%nat -> coellip_init n cen g T (FOne Fl) = Ok P ->
  p1_bounds T <> None \/ p1_bounds Fl <> None ->
  forall maxfev hist obs guess F, fit_init (FCoellip n) obs guess (Some (of_coellip P (ss_bounds (co_base P)))) = Ok F ->
    fitter_go lmdif leastsq inv eig message odd (FCoellip n) (Some (of_coellip P (ss_bounds (co_base P)))) maxfev hist obs guess = Some (RaiseX ValueError false).
Proof.
  intros Hn HP Hb maxfev hist obs guess F EF. destruct (coellip_bounds_wrong n cen g T Fl P Hn HP Hb) as (l & El & Ll & Hl & _).
  destruct (Hl 4%nat ltac:(nia)) as (lo & hi & H4).
  exact (nested_fails _ _ _ _ _ _ _ _ _ _ _ _ F l 4 lo hi EF El H4).
Qed.
Definition cpars : list R := [0;0;0;0;4;4;1;1].
Lemma cobj_made : exists o, new_coellip cpars = Ok o /\ obj_copy o = Ok o.
Proof.
  assert (E : exists gm, gmix_fill_coellip 2 cpars = Ok gm).
  { unfold gmix_fill_coellip, cpars. cbn [getp nth_error bind]. rewrite g2e_zero. cbn [bind seq mapM getp nth_error Nat.add]. eexists. reflexivity. }
  destruct E as (gm & E). exists (mkObj KCoellip 2 8 cpars gm).
  assert (N : new_coellip cpars = Ok (mkObj KCoellip 2 8 cpars gm)).
  { unfold new_coellip. change (length cpars) with 8%nat. cbn [Z.of_nat Nat.ltb Nat.leb]. change (negb _) with false. cbn iota.
    change ((8 - 4) / 2)%nat with 2%nat. unfold blank, finish, obj__fill. cbn [o_kind o_ngauss fill_func]. rewrite E. reflexivity. }
  split; [exact N|]. unfold obj_copy. cbn [o_kind o_pars]. exact N.
Qed.
Lemma coellip_init7 : exists F, fit_init (FCoellip 2) [[obs7]] cpars (Some (of_coellip the_coellip (ss_bounds (co_base the_coellip)))) = Ok F.
Proof.
  destruct cobj_made as (o & N & C).
  unfold fit_init, setup_fit, init_gmix_all. cbn [concat app mapM obs_pixels obs7 fo_pixels bind length fold_left combine seq fst snd Nat.eqb negb].
  unfold band_pars_of. cbn [bind mapM]. unfold init_one, make_model.
  change (negb (length cpars =? 4 + 2 * 2)%nat) with false. cbn iota. rewrite N. cbn [bind].
  change (has_psf_gmix _) with false. cbn [bind]. rewrite C. eexists. reflexivity.
Qed.
