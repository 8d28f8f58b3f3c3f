From Verif Require Import Base XReal Jacobian_Model Pixels_Model GMix_Model Render_Model EM_Model Units_Spec Units_Proofs Noise_Spec NoiseFit_Proofs.
Local Open Scope R_scope.

Section EM.
Variable k : R.
Hypothesis K : 0 < k.
Lemma ierr_sign x : Rleb (x / k) 0 = Rleb x 0.
Proof. pose proof (Rinv_0_lt_compat k K). unfold Rdiv. destruct (Rleb_spec x 0); [apply Rleb_t|apply Rleb_f]; nra. Qed.
Lemma fill_noise conv sky px px' : noisier k px px' -> same_outcome (noisier k) (fill_zero_weight_pixels conv px sky) (fill_zero_weight_pixels conv px' sky).
Proof.
  unfold fill_zero_weight_pixels. induction 1 as [|p p' l l' (E1 & E2 & E3 & E4 & E5) _ IH]; cbn [mapM]; [constructor|].
  rewrite E1, E2, E3, E5, ierr_sign.
  apply same_bind with (P := fun p p' => px_v p' = px_v p /\ px_u p' = px_u p /\ px_area p' = px_area p /\ px_val p' = px_val p /\ px_ierr p' = px_ierr p / k).
  - destruct (Rleb (px_ierr p) 0); [|cbn; auto]. destruct (gmix_eval_pixel_fast _ _ _ _); cbn [bind same_outcome]; [|reflexivity]. cbn. auto.
  - intros x x' HX. apply same_bind with (1 := IH). intros y y' HY. constructor; assumption.
Qed.
Lemma scratch_noise kd p p' conv n tau : px_v p' = px_v p -> px_u p' = px_u p -> px_area p' = px_area p ->
  do_scratch_sums kd p' conv n tau = do_scratch_sums kd p conv n tau.
Proof.
  intros E1 E2 E3. unfold do_scratch_sums.
  assert (S : forall st gt, scratch_gauss kd p' st gt = scratch_gauss kd p st gt) by (intros [[s g] t] [a b]; unfold scratch_gauss; rewrite E1, E2, E3; reflexivity).
  assert (F : forall l st, foldM (scratch_gauss kd p') l st = foldM (scratch_gauss kd p) l st) by (induction l as [|a l IH]; intros st; cbn [foldM]; [reflexivity|]; rewrite S; destruct (scratch_gauss kd p st a); [apply IH|reflexivity]).
  assert (G : forall l st, foldM (fun st ii => let '(scr, gsum, tlogL) := st in let* (s, g, t) := foldM (scratch_gauss kd p') (chunk n ii (combine conv tau)) (scr0, gsum, tlogL) in Ok (scr ++ [s], g, t)) l st
    = foldM (fun st ii => let '(scr, gsum, tlogL) := st in let* (s, g, t) := foldM (scratch_gauss kd p) (chunk n ii (combine conv tau)) (scr0, gsum, tlogL) in Ok (scr ++ [s], g, t)) l st).
  { induction l as [|a l IH]; intros [[x y] z]; cbn [foldM]; [reflexivity|]. rewrite F. destruct (foldM (scratch_gauss kd p) _ _) as [[[? ?] ?]|]; cbn [bind]; [apply IH|reflexivity]. }
  rewrite G. reflexivity.
Qed.

Definition em_noise (s s' : em_state) : Prop :=
  e_gm s' = e_gm s /\ e_conv s' = e_conv s /\ noisier k (e_pix s) (e_pix s') /\ e_sky s' = e_sky s /\ e_last s' = e_last s /\ e_fdiff s' = e_fdiff s.
Lemma pixel_noise kd conv n tau sky px px' : noisier k px px' -> forall st,
  foldM (em_pixel kd conv n tau sky) px' st = foldM (em_pixel kd conv n tau sky) px st.
Proof.
  induction 1 as [|p p' l l' (E1 & E2 & E3 & E4 & _) _ IH]; intros st; cbn [foldM]; [reflexivity|].
  assert (E : em_pixel kd conv n tau sky st p' = em_pixel kd conv n tau sky st p).
  { destruct st as [[a b] c]. unfold em_pixel. rewrite (scratch_noise kd p p' conv n tau E1 E2 E3), E4. reflexivity. }
  rewrite E. destruct (em_pixel kd conv n tau sky st p); [apply IH|reflexivity].
Qed.
Lemma em_iter_noise kd c psf fill i s s' : em_noise s s' ->
  same_outcome (fun x x' => em_noise (fst x) (fst x') /\ snd x' = snd x) (em_iter kd c psf fill i s) (em_iter kd c psf fill i s').
Proof.
  intros (A & B & C & D & E & F). unfold em_iter. rewrite A, B, D, E, F. cbv zeta.
  apply same_bind with (P := noisier k).
  { destruct fill; [apply fill_noise, C|exact C]. }
  intros px px' P. rewrite (pixel_noise kd _ _ _ _ px px' P).
  destruct (foldM _ px _) as [[[l el] ss]|]; cbn [bind]; [|reflexivity].
  destruct (gmix_set_from_sums _ _ _ _) as [[gm conv]|]; cbn [bind]; [|reflexivity].
  rewrite (noisier_len k _ _ P).
  match goal with |- context [bind (if c_vary_sky c then ?x else ?y) _] => destruct (if c_vary_sky c then x else y) as [sky|] end; cbn [bind]; [|reflexivity].
  match goal with |- context [bind (if Nat.leb (c_miniter c) (S i) then ?x else ?y) _] => destruct (if Nat.leb (c_miniter c) (S i) then x else y) as [[fd stop]|] end; cbn [bind]; [|reflexivity].
  cbn. unfold em_noise; cbn. auto 10.
Qed.
Lemma em_loop_noise kd c psf fill n : forall i s s', em_noise s s' ->
  same_outcome (fun x x' => em_noise (fst x) (fst x') /\ snd x' = snd x) (em_loop kd c psf fill n i s) (em_loop kd c psf fill n i s').
Proof.
  induction n as [|n IH]; intros i s s' H; cbn [em_loop]; [split; [exact H|reflexivity]|].
  apply same_bind with (1 := em_iter_noise kd c psf fill i s s' H). intros [t b] [t' b'] [A B]. cbn [fst snd] in A, B. subst b'.
  destruct b; [split; [exact A|reflexivity]|apply IH, A].
Qed.
Theorem em_run_noise kd c px px' gm psf conv fill : noisier k px px' ->
  same_outcome (em_same_mixture k) (em_run kd c px gm psf conv fill) (em_run kd c px' gm psf conv fill).
Proof.
  intros H. unfold em_run. destruct (gmix_set_norms conv) as [conv' [u|e]]; cbn [bind]; [|reflexivity]. cbv zeta.
  eapply same_bind; [apply em_loop_noise; repeat split; exact H|]. intros [s n] [s' n'] [(A & B & C & D & E & F) G]. cbn [fst snd] in *. subst n'. rewrite A, B, D, F.
  destruct n; [reflexivity|]. destruct (e_fdiff s); [|reflexivity]. cbn. unfold em_same_mixture; cbn. auto 10.
Qed.
End EM.
