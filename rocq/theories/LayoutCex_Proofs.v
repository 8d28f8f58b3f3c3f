(** A row of two pixels and its transposition. *)
From Coq Require Import Permutation.
From Verif Require Import Base XReal Jacobian_Model Jacobian_Spec Pixels_Model Pixels_Spec GMix_Model GMixObj_Model Priors_Model Joint_Model
  Fit_Model Fit_Spec Fit_Proofs FitCex_Proofs Units_Spec Layout_Spec Layout_Proofs Layout2_Proofs.
Local Open Scope R_scope.

Definition row2 : arr2 R := mkArr 2 1 (fun r _ => INR r).
Definition wts2 : arr2 R := mkArr 2 1 (fun _ _ => 1).
Definition p0 : pixel R := mkPix 0 0 1 0 1.
Definition p1 : pixel R := mkPix 0 1 1 1 1.
Lemma column2 f j : make_pixels (mkArr 2 1 f) (mkArr 2 1 (fun _ _ => 1)) j true =
  Ok [mkPix (snd (get_vu j 0 0)) (fst (get_vu j 0 0)) (jacobian_get_area j) (f 0%nat 0%nat) (sqrt 1); mkPix (snd (get_vu j 1 0)) (fst (get_vu j 1 0)) (jacobian_get_area j) (f 1%nat 0%nat) (sqrt 1)].
Proof.
  assert (T1 : Rltb 0 1 = true) by (apply Rltb_t; lra). assert (T2 : Rleb 1 0 = false) by (apply Rleb_f; lra). assert (T3 : Rltb 1 0 = false) by (apply Rltb_f; lra).
  unfold make_pixels, make_pixels_gen, fill_pixels, count_gt0. cbn [ncol nrow at2 seq fold_left]. rewrite T1. cbn [Nat.eqb bind foldM]. unfold fill_body. cbn [ncol nrow at2].
  rewrite T2, T3. cbn [andb orb negb bind foldM]. unfold zeros_pixels, put. cbn [repeat length Nat.ltb Nat.leb bind upd INR].
  destruct (get_vu j 0 0) as [v u] eqn:E0. destruct (get_vu j 1 0) as [v' u'] eqn:E1. cbn. rewrite ?E0, ?E1. cbn. reflexivity.
Qed.
Lemma relaid_hold : exists s F F', moved nothing row2 wts2 gjac (flip row2) (flip wts2) (flip_jac 2 gjac) s /\
  make_pixels row2 wts2 gjac true = Ok [p0; p1] /\ make_pixels (flip row2) (flip wts2) (flip_jac 2 gjac) true = Ok [p1; p0] /\ p0 <> p1 /\
  fit_of (FName Mgauss) [[mkFobs (Some [p0; p1]) None 2 1 gjac]] None F /\ fit_of (FName Mgauss) [[mkFobs (Some [p1; p0]) None 2 1 (flip_jac 2 gjac)]] None F' /\
  Forall2 (Forall2 relaid) [[mkFobs (Some [p0; p1]) None 2 1 gjac]] [[mkFobs (Some [p1; p0]) None 2 1 (flip_jac 2 gjac)]].
Proof.
  assert (G : forall px j, exists F, fit_of (FName Mgauss) [[mkFobs (Some px) None 2 1 j]] None F).
  { intros px j. assert (X : exists F, fit_init (FName Mgauss) [[mkFobs (Some px) None 2 1 j]] gpars None = Ok F).
    { unfold fit_init, setup_fit, init_gmix_all. cbn [concat app mapM obs_pixels fo_pixels bind length fold_left combine seq fst snd].
      unfold band_pars_of. assert (E : get_band_pars Mgauss gpars 0 = Ok gpars) by reflexivity. rewrite E. cbn [bind mapM]. unfold init_one, make_model. rewrite gobj_made. cbn [bind].
      change (has_psf_gmix _) with false. cbn [bind]. rewrite copy_gobj. cbn [bind]. eexists; reflexivity. }
    destruct X as [F E]. exists F, gpars, F. split; [exact E|constructor]. }
  destruct (G [p0; p1] gjac) as [F HF], (G [p1; p0] (flip_jac 2 gjac)) as [F' HF'].
  exists (fun rc => ((2 - 1 - fst rc)%nat, snd rc)), F, F'. split; [exact (flip_moved row2 wts2 gjac eq_refl eq_refl)|].
  assert (E : sqrt 1 = 1) by apply sqrt_1. assert (A : Rabs 1 = 1) by (apply Rabs_right; lra).
  split; [|split].
  - unfold row2, wts2. rewrite column2, E. unfold p0, p1, get_vu, jacobian_get_area, gjac. cbn. rewrite ?A. do 2 f_equal; [|f_equal]; f_equal; try ring; try (rewrite ?A; ring).
  - change (flip row2) with (mkArr 2 1 (fun r c => at2 row2 (2 - 1 - r)%nat c)). change (flip wts2) with (mkArr 2 1 (fun _ _ : nat => 1)). rewrite column2, E.
    unfold p0, p1, get_vu, jacobian_get_area, flip_jac, gjac. cbn. do 2 f_equal; [|f_equal]; f_equal; try ring; rewrite ?A; ring.
  - split; [unfold p0, p1; intros X; injection X; intros; lra|]. split; [exact HF|]. split; [exact HF'|].
    constructor; [|constructor]. constructor; [|constructor]. split; [cbn; apply perm_swap|reflexivity].
Qed.
