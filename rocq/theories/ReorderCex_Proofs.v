(** Two bands in the two orders. *)
From Coq Require Import Permutation.
From Verif Require Import Base XReal Jacobian_Model Pixels_Model Shape_Spec Moments_Spec GMix_Model GMix_Spec GMix_Proofs GMixObj_Model Render_Model Render_Spec Priors_Model Joint_Model Fit_Model Fit_Spec
  Fit_Proofs FitCex_Proofs LayoutCex_Proofs Reorder_Spec Reorder_Proofs.
From Verif Require EMGo_Proofs.
Local Open Scope R_scope.

Definition fpars (f : R) : list R := [0;0;0;0;4;f].
Definition fdata (f : R) : gmix := [gauss2d_set f 0 0 2 0 2].
Lemma fill_f f : gmix_fill_gauss 1 (fpars f) = Ok (fdata f).
Proof.
  unfold gmix_fill_gauss, fpars. rewrite (fill_simple_eq 1 _ _ 0 0 0 0 4 f 0 0); [|reflexivity|reflexivity|exact EMGo_Proofs.g2e_zero].
  unfold pvals_gauss, fvals_gauss. cbn [combine map fst snd]. unfold coellip_gauss. cbn [fst snd]. unfold fdata. f_equal. f_equal.
  replace (f * 1) with f by ring. replace (/ 2 * (4 * 1) * (1 - 0)) with 2 by field. replace (/ 2 * (4 * 1) * 0) with 0 by ring.
  replace (/ 2 * (4 * 1) * (1 + 0)) with 2 by field. reflexivity.
Qed.
Definition fobj (f : R) : gmobj := mkObj (KModel Mgauss) 1 6 (fpars f) (fdata f).
Lemma fobj_made f : new_model Mgauss (fpars f) = Ok (fobj f).
Proof.
  unfold new_model, obj_fill, blank, finish, model_npars, model_ngauss. cbn [o_npars length Nat.eqb negb fpars].
  unfold obj__fill. cbn [o_kind o_ngauss fill_func]. fold (fpars f). rewrite fill_f. reflexivity.
Qed.
Definition obsA : fobs := mkFobs (Some [p0]) None 1 1 gjac.
Definition obsB : fobs := mkFobs (Some [p1]) None 1 1 gjac.
Definition two (a b : R) : list R := [0;0;0;0;4;a;b].
Lemma band0 a b : get_band_pars Mgauss (two a b) 0 = Ok (fpars a). Proof. reflexivity. Qed.
Lemma band1 a b : get_band_pars Mgauss (two a b) 1 = Ok (fpars b). Proof. reflexivity. Qed.
Lemma two_made x y px py a b : fo_pixels x = Some px -> fo_pixels y = Some py -> has_psf_gmix x = false ->
  exists F, fit_init (FName Mgauss) [[x]; [y]] (two a b) None = Ok F.
Proof.
  intros EX EY HX. unfold fit_init, setup_fit, init_gmix_all. cbn [concat app mapM]. unfold obs_pixels. rewrite EX, EY. cbn [bind length fold_left combine seq fst snd mapM].
  unfold band_pars_of. rewrite HX. rewrite band0. cbn [bind mapM]. unfold init_one, make_model. rewrite fobj_made. cbn [bind].
  assert (C : forall f, obj_copy (fobj f) = Ok (fobj f)) by (intros f; exact (fobj_made f)). rewrite C. cbn [bind]. rewrite band1. cbn [bind mapM]. rewrite fobj_made. cbn [bind]. rewrite C. cbn [bind].
  cbn. eexists. reflexivity.
Qed.
Lemma two_range x y F a b : has_psf_gmix x = false -> has_psf_gmix y = false -> fit_of (FName Mgauss) [[x]; [y]] None F -> in_range F (two a b) [fobj a; fobj b].
Proof.
  intros HX HY Ft. pose proof (Fit2_Proofs.fit_made _ _ _ _ Ft) as M. split.
  - unfold mixtures. rewrite (Fit2_Proofs.md_obs _ _ _ _ M). unfold positions, positions_from. cbn [combine length seq map concat app fst snd mapM].
    unfold get_convolved_gmix, get_gmix, obs_at. rewrite (Fit2_Proofs.md_obs _ _ _ _ M), (Fit2_Proofs.md_model _ _ _ _ M). cbn [nth_error]. unfold band_pars_of. rewrite band0, band1. cbn [bind].
    unfold make_model. rewrite !fobj_made. cbn [bind]. rewrite HX, HY. reflexivity.
  - assert (G : forall f, Forall evaluable (fdata f)).
    { intros f. constructor; [|constructor]. pose proof det_big. unfold evaluable, gcov, det2, trace2, gauss2d_set. cbn. lra. }
    constructor; [exact (G a)|]. constructor; [exact (G b)|constructor].
Qed.
Lemma reorder_hold : exists F F' ms, reordered (FName Mgauss) [[obsA]; [obsB]] (two 1 2) [[obsB]; [obsA]] (two 2 1) /\
  fit_init (FName Mgauss) [[obsA]; [obsB]] (two 1 2) None = Ok F /\ fit_of (FName Mgauss) [[obsA]; [obsB]] None F /\ fit_of (FName Mgauss) [[obsB]; [obsA]] None F' /\ uniform_psf [[obsA]; [obsB]] /\
  same_prior None None (two 1 2) (two 2 1) 0 /\ in_range F (two 1 2) ms /\ obsA <> obsB.
Proof.
  destruct (two_made obsA obsB _ _ 1 2 eq_refl eq_refl eq_refl) as [F E]. destruct (two_made obsB obsA _ _ 2 1 eq_refl eq_refl eq_refl) as [F' E'].
  assert (Ft : fit_of (FName Mgauss) [[obsA]; [obsB]] None F) by (exists (two 1 2), F; split; [exact E|constructor]).
  exists F, F', [fobj 1; fobj 2]. split; [|split; [exact E|split; [exact Ft|split; [exists (two 2 1), F'; split; [exact E'|constructor]|split]]]].
  - exists [0;0;0;0;4], [1;2], [2;1]. do 5 (split; [reflexivity|]). exists [(2, [obsB]); (1, [obsA])]. split; [apply perm_swap|].
    constructor; [split; [reflexivity|apply Permutation_refl]|]. constructor; [split; [reflexivity|apply Permutation_refl]|constructor].
  - right. intros o [<-|[<-|[]]]; reflexivity.
  - split; [|split].
    + split; [reflexivity|]. split; [reflexivity|]. split; [reflexivity|]. tauto.
    + apply (two_range obsA obsB); [reflexivity|reflexivity|exact Ft].
    + unfold obsA, obsB, p0, p1. intros H. injection H. intros. lra.
Qed.

(** the first observation decides whether psfs are used *)
Lemma order_matters : exists F, reordered (FName Mgauss) [[bare; with_psf]] gpars [[with_psf; bare]] gpars /\
  fit_init (FName Mgauss) [[bare; with_psf]] gpars None = Ok F /\ fit_init (FName Mgauss) [[with_psf; bare]] gpars None = Raise AttributeError.
Proof.
  exists F2. split; [|split; [exact F2_made|]].
  - exists [0;0;0;0;4], [1], [1]. do 5 (split; [reflexivity|]). exists [(1, [bare; with_psf])]. split; [apply Permutation_refl|]. constructor; [split; [reflexivity|apply perm_swap]|constructor].
  - unfold fit_init, setup_fit, init_gmix_all. cbn [concat app mapM obs_pixels bare with_psf fo_pixels bind length fold_left combine seq fst snd].
    unfold band_pars_of. assert (E : get_band_pars Mgauss gpars 0 = Ok gpars) by reflexivity. rewrite E. cbn [bind mapM]. unfold init_one, make_model. rewrite gobj_made. cbn [bind].
    change (has_psf_gmix _) with true. cbv iota. cbn [mapM]. assert (P : psf_gmix with_psf = Ok gobj) by exact copy_gobj. rewrite P. cbn [bind]. destruct conv_ok as (o & C & _). rewrite C. cbn [bind]. reflexivity.
Qed.
