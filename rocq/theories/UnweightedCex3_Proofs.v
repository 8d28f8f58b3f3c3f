(** A column of two pixels, the second without weight. *)
From Verif Require Import Base XReal Jacobian_Model Pixels_Model GMix_Model GMixObj_Model Priors_Model Joint_Model Fit_Model Fit_Spec Fit_Proofs FitCex_Proofs Units_Spec Unweighted_Spec Unweighted_Proofs.
Local Open Scope R_scope.

Definition wtA : arr2 R := mkArr 2 1 (fun r _ => match r with O => 1 | _ => 0 end).
Definition imA (x : R) : arr2 R := mkArr 2 1 (fun r _ => match r with O => 1 | _ => x end).
Lemma imA_alike x y : images_alike wtA (imA x) (imA y).
Proof. do 4 (split; [reflexivity|]). intros r c Hr _. cbn in *. destruct r as [|[|r]]; [reflexivity| |lia]. intros; lra. Qed.
Lemma pixels_A x j : exists p u v a e, make_pixels (imA x) wtA j false = Ok [p; mkPix u v a x e].
Proof.
  assert (T3 : Rltb 1 0 = false) by (apply Rltb_f; lra). assert (T4 : Rltb 0 0 = false) by (apply Rltb_f; lra).
  unfold make_pixels, make_pixels_gen, fill_pixels. cbn [ncol nrow at2 imA bind foldM seq]. unfold fill_body. cbn [ncol nrow at2 wtA imA andb].
  destruct (get_vu j (INR 0) (INR 0)) as [v u] eqn:E0. destruct (get_vu j (INR 1) (INR 0)) as [v' u'] eqn:E1. rewrite T3, T4. unfold zeros_pixels, put. cbn [Nat.mul Nat.add repeat length Nat.ltb Nat.leb bind upd foldM].
  cbn. do 5 eexists. reflexivity.
Qed.
Lemma fit_A px j : exists F, fit_of (FName Mgauss) [[mkFobs (Some px) None 2 1 j]] None F.
Proof.
  assert (X : exists F, fit_init (FName Mgauss) [[mkFobs (Some px) None 2 1 j]] gpars None = Ok F).
  { unfold fit_init, setup_fit, init_gmix_all. cbn [concat app mapM obs_pixels fo_pixels bind length fold_left combine seq fst snd].
    unfold band_pars_of. assert (E : get_band_pars Mgauss gpars 0 = Ok gpars) by reflexivity. rewrite E. cbn [bind mapM]. unfold init_one, make_model. rewrite gobj_made. cbn [bind].
    change (has_psf_gmix _) with false. cbn [bind]. rewrite copy_gobj. cbn [bind]. eexists; reflexivity. }
  destruct X as [F E]. exists F, gpars, F. split; [exact E|constructor].
Qed.
Lemma alike_hold : exists w im im' px px' F F', images_alike w im im' /\ im <> im' /\
  make_pixels im w gjac true = make_pixels im' w gjac true /\ make_pixels im w gjac false = Ok px /\ make_pixels im' w gjac false = Ok px' /\ px <> px' /\
  Forall2 pix_alike px px' /\
  fit_of (FName Mgauss) [[mkFobs (Some px) None 2 1 gjac]] None F /\ fit_of (FName Mgauss) [[mkFobs (Some px') None 2 1 gjac]] None F' /\
  Forall2 (Forall2 obs_alike) [[mkFobs (Some px) None 2 1 gjac]] [[mkFobs (Some px') None 2 1 gjac]].
Proof.
  destruct (pixels_A 3 gjac) as (p & u & v & a & e & E), (pixels_A 7 gjac) as (p' & u' & v' & a' & e' & E').
  pose proof (pixels_alike false wtA _ _ gjac (imA_alike 3 7)) as A. rewrite E, E' in A. cbn [same_outcome] in A.
  destruct (fit_A [p; mkPix u v a 3 e] gjac) as [F HF], (fit_A [p'; mkPix u' v' a' 7 e'] gjac) as [F' HF'].
  exists wtA, (imA 3), (imA 7). do 4 eexists. split; [apply imA_alike|]. split; [intros X; apply (f_equal (fun i => at2 i 1%nat 0%nat)) in X; cbn in X; lra|].
  split; [symmetry; apply pixels_same, imA_alike|]. split; [exact E|]. split; [exact E'|].
  split; [intros X; injection X; intros; lra|]. split; [exact A|]. split; [exact HF|]. split; [exact HF'|].
  constructor; [|constructor]. constructor; [|constructor]. split; [exact A|reflexivity].
Qed.
