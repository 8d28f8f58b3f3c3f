(** Values of masked pixels do not matter. *)
From Verif Require Import Base Shape_Model Moments_Spec Jacobian_Model Pixels_Model GMix_Model GMix_Spec
  Render_Model Render_Spec Render_Proofs GaussAp_Proofs GMixObj_Model GMixObj_Spec GMixObj_Proofs Flags_Model GMix_Proofs
  EM_Model EM_Spec EM_Proofs EMIter_Proofs EMLoop_Proofs EMGo_Proofs.
Local Open Scope R_scope.

Lemma masked_same p1 p2 : Forall2 same_unmasked p1 p2 -> existsb masked p1 = existsb masked p2.
Proof.
  induction 1 as [|a b l l' (_ & _ & _ & E & _) _ IH]; [reflexivity|]. cbn [existsb]. rewrite IH. unfold masked. rewrite E. reflexivity.
Qed.
Lemma unmasked_eq p1 p2 : Forall2 same_unmasked p1 p2 -> existsb masked p1 = false -> p1 = p2.
Proof.
  induction 1 as [|[u1 v1 a1 x1 e1] [u2 v2 a2 x2 e2] l l' (E1 & E2 & E3 & E4 & E5) _ IH]; [reflexivity|].
  cbn [existsb px_u px_v px_area px_val px_ierr] in *. intros H. apply orb_false_iff in H. destruct H as [M H]. unfold masked, Rleb in M. cbn [px_ierr] in M.
  destruct (Rle_dec e1 0) as [L|L]; [discriminate|]. rewrite (IH H). subst. rewrite E5 by lra. reflexivity.
Qed.
Lemma fill_same conv p1 p2 sky : Forall2 same_unmasked p1 p2 ->
  fill_zero_weight_pixels conv p1 sky = fill_zero_weight_pixels conv p2 sky.
Proof.
  unfold fill_zero_weight_pixels.
  induction 1 as [|[u1 v1 a1 x1 e1] [u2 v2 a2 x2 e2] l l' (E1 & E2 & E3 & E4 & E5) _ IH]; [reflexivity|].
  cbn [mapM px_u px_v px_area px_val px_ierr] in *. rewrite IH. subst. unfold Rleb. destruct (Rle_dec e2 0) as [L|L]; [reflexivity|].
  rewrite E5 by lra. reflexivity.
Qed.
Lemma run_same k c p1 p2 gm psf conv : Forall2 same_unmasked p1 p2 ->
  em_run k c p1 gm psf conv (existsb masked p1) = em_run k c p2 gm psf conv (existsb masked p2).
Proof.
  intros F. rewrite (masked_same _ _ F). destruct (existsb masked p2) eqn:M.
  2:{ rewrite <- (masked_same _ _ F) in M. rewrite (unmasked_eq _ _ F M). reflexivity. }
  unfold em_run. destruct (gmix_set_norms conv) as [conv' [u|e]]; [|reflexivity]. cbn [bind].
  destruct (c_maxiter c) as [|n]; [reflexivity|]. cbn [em_loop]. unfold em_iter. cbn [e_conv e_pix e_sky e_gm e_last e_fdiff].
  rewrite (fill_same _ _ _ _ F). reflexivity.
Qed.

Lemma set_data_gm m1 m2 i d : em_gm m1 = em_gm m2 -> em_gm (set_data m1 i d) = em_gm (set_data m2 i d).
Proof. intros E. unfold set_data. rewrite E. destruct (read (em_gm m2) i); [reflexivity|exact E]. Qed.
Lemma new_obj_gm m1 m2 r : em_gm m1 = em_gm m2 ->
  match new_obj m1 r, new_obj m2 r with
  | Ok (a, i), Ok (b, j) => i = j /\ em_gm a = em_gm b /\ em_px a = em_px m1 /\ em_px b = em_px m2 /\ em_im a = em_im m1 /\ em_im b = em_im m2
  | Raise e, Raise e' => e = e'
  | _, _ => False
  end.
Proof. intros E. unfold new_obj. destruct r; cbn [bind]; [|reflexivity]. cbn [em_gm em_px em_im]. rewrite E. auto 10. Qed.
Lemma fit_agree f m1 m2 x1 x2 p1 p2 gm psf conv s : em_gm m1 = em_gm m2 ->
  nth_error (em_px m1) x1 = Some p1 -> nth_error (em_px m2) x2 = Some p2 -> Forall2 same_unmasked p1 p2 ->
  agree (em_fit f m1 x1 gm psf conv s) (em_fit f m2 x2 gm psf conv s).
Proof.
  intros E N1 N2 F. unfold em_fit. rewrite N1, N2, E.
  destruct (read (em_gm m2) gm) as [g|]; [|exact I]. destruct (read (em_gm m2) psf) as [p|]; [|exact I]. destruct (read (em_gm m2) conv) as [gc|]; [|exact I].
  cbv zeta. change (fun x : pixel R => Rleb (px_ierr x) 0) with masked. rewrite (run_same _ _ _ _ _ _ _ F).
  destruct (em_run _ _ _ _ _ _ _) as [out|e].
  2:{ destruct e; cbn [agree]; auto. }
  match goal with |- context [set_px ?m x1 (o_pix out)] => set (a := set_px m x1 (o_pix out)) end.
  match goal with |- context [set_px ?m x2 (o_pix out)] => set (b := set_px m x2 (o_pix out)) end.
  assert (AB : em_gm a = em_gm b) by (unfold a, b, set_px; cbn [em_gm]; apply set_data_gm, set_data_gm; exact E).
  clearbody a b.
  pose proof (new_obj_gm a b (new_full (gm_get_full_pars (o_gm out))) AB) as K.
  destruct (new_obj a _) as [[a2 i]|e], (new_obj b _) as [[b2 j]|e']; cbn [bind]; try contradiction; [|cbn [agree]; split; congruence].
  destruct K as (-> & AB2 & _).
  pose proof (new_obj_gm a2 b2 (new_full (gm_get_full_pars (o_conv out))) AB2) as K.
  destruct (new_obj a2 _) as [[a3 i3]|e], (new_obj b2 _) as [[b3 j3]|e']; cbn [bind]; try contradiction; [|cbn [agree]; split; congruence].
  destruct K as (-> & AB3 & _). cbn [agree]. auto.
Qed.
Lemma get_psf_gm m1 m2 o : em_gm m1 = em_gm m2 ->
  match get_psf m1 o, get_psf m2 o with
  | Some (Ok (a, i)), Some (Ok (b, j)) => i = j /\ em_gm a = em_gm b /\ em_px a = em_px m1 /\ em_px b = em_px m2
  | Some (Raise e), Some (Raise e') => e = e'
  | None, None => True
  | _, _ => False
  end.
Proof.
  intros E. unfold get_psf.
  assert (POINT : match new_obj m1 (new_model Mgauss [0; 0; 0; 0; 0; 1]), new_obj m2 (new_model Mgauss [0; 0; 0; 0; 0; 1]) with
     | Ok (a, i), Ok (b, j) => i = j /\ em_gm a = em_gm b /\ em_px a = em_px m1 /\ em_px b = em_px m2
     | Raise e, Raise e' => e = e' | _, _ => False end).
  { pose proof (new_obj_gm m1 m2 (new_model Mgauss [0; 0; 0; 0; 0; 1]) E) as K.
    destruct (new_obj m1 _) as [[a i]|e], (new_obj m2 _) as [[b j]|e']; try contradiction; [|exact K]. tauto. }
  destruct (eo_psf o) as [[g|]|].
  - rewrite E. destruct (read (em_gm m2) g) as [x|]; [|exact I].
    pose proof (new_obj_gm m1 m2 (obj_copy x) E) as K.
    destruct (new_obj m1 (obj_copy x)) as [[a i]|e], (new_obj m2 (obj_copy x)) as [[b j]|e']; try contradiction; [|exact K].
    destruct K as (-> & AB & P1 & P2 & _). unfold call_obj. rewrite AB. destruct (step (em_gm b) (OCall j (MSetFlux 1))) as [[h [u|e]]|]; cbn [bind em_gm em_px]; auto.
  - destruct (new_obj m1 _) as [[a i]|e], (new_obj m2 _) as [[b j]|e']; try contradiction; exact POINT.
  - destruct (new_obj m1 _) as [[a i]|e], (new_obj m2 _) as [[b j]|e']; try contradiction; exact POINT.
Qed.
Lemma go_agree f m1 m2 obs guess s p1 p2 : em_gm m1 = em_gm m2 ->
  nth_error (em_px m1) (eo_px obs) = Some p1 -> nth_error (em_px m2) (eo_px obs) = Some p2 -> Forall2 same_unmasked p1 p2 ->
  agree (em_go f m1 obs guess (Some s)) (em_go f m2 obs guess (Some s)).
Proof.
  intros E N1 N2 F. unfold em_go. pose proof (get_psf_gm m1 m2 obs E) as K.
  destruct (get_psf m1 obs) as [[[a i]|e]|], (get_psf m2 obs) as [[[b j]|e']|]; try contradiction; [|cbn [agree]; split; congruence|exact I].
  destruct K as (-> & AB & P1 & P2). rewrite AB. destruct (read (em_gm b) guess) as [g|]; [|exact I]. destruct (read (em_gm b) j) as [p|]; [|exact I].
  pose proof (new_obj_gm a b (obj_copy g) AB) as K.
  destruct (new_obj a _) as [[a2 i2]|e], (new_obj b _) as [[b2 j2]|e']; try contradiction; [|cbn [agree]; split; congruence].
  destruct K as (-> & AB2 & P12 & P22 & _). rewrite AB2. destruct (read (em_gm b2) j2) as [g2|]; [|exact I].
  pose proof (new_obj_gm a2 b2 (obj_convolve g2 p) AB2) as K.
  destruct (new_obj a2 _) as [[a3 i3]|e], (new_obj b2 _) as [[b3 j3]|e']; try contradiction; [|cbn [agree]; split; congruence].
  destruct K as (-> & AB3 & P13 & P23 & _).
  rewrite P13, P12, P1, P23, P22, P2, N1, N2. apply (fit_agree f _ _ _ _ p1 p2); [exact AB3| | |exact F]; cbn [em_px]; rewrite nth_error_app2, Nat.sub_diag by lia; reflexivity.
Qed.
