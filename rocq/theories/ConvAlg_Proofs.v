From Coq Require Import Permutation.
From Verif Require Import Base Shape_Spec Moments_Model Moments_Spec Moments_Proofs GMix_Model GMix_Spec GMix_Proofs GMixObj_Model.
Local Open Scope R_scope.

Definition cg (f r c : R) (og pg : gauss) : gauss :=
  gauss2d_set (g_p og * g_p pg * (1 / f)) (g_row og + (g_row pg - r)) (g_col og + (g_col pg - c))
    (g_irr og + g_irr pg) (g_irc og + g_irc pg) (g_icc og + g_icc pg).
Lemma conv_eq gm psf : flux_of psf <> 0 ->
  gmix_convolve gm psf = Ok (flat_map (fun og => map (cg (flux_of psf) (row_of psf) (col_of psf) og) psf) gm).
Proof. intros H. unfold gmix_convolve. rewrite cen_nb, Reqb_f by exact H. reflexivity. Qed.
Lemma conv_flux gm psf c : flux_of psf <> 0 -> gmix_convolve gm psf = Ok c ->
  flux_of c = flux_of gm /\ (flux_of gm <> 0 -> row_of c = row_of gm /\ col_of c = col_of gm).
Proof.
  intros H E. destruct (conv_spec gm psf H) as (c' & E' & _ & _ & F & G). rewrite E in E'. injection E' as <-.
  split; [exact F|]. intros N. destruct (G N) as (A & B & _). auto.
Qed.
Lemma flat_map_flat {A B C} (f : B -> list C) (g : A -> list B) l : flat_map f (flat_map g l) = flat_map (fun x => flat_map f (g x)) l.
Proof. induction l; cbn [flat_map]; [reflexivity|]. rewrite flat_map_app, IHl. reflexivity. Qed.
Lemma flat_map_mapl {A B C} (f : B -> list C) (g : A -> B) l : flat_map f (map g l) = flat_map (fun x => f (g x)) l.
Proof. induction l; cbn [flat_map map]; [reflexivity|]. rewrite IHl. reflexivity. Qed.
Lemma map_flat_map {A B C} (f : B -> C) (g : A -> list B) l : map f (flat_map g l) = flat_map (fun x => map f (g x)) l.
Proof. induction l; cbn [flat_map]; [reflexivity|]. rewrite map_app, IHl. reflexivity. Qed.
Lemma flat_map_exts {A B} (f g : A -> list B) l : (forall x, In x l -> f x = g x) -> flat_map f l = flat_map g l.
Proof. induction l; intros H; cbn [flat_map]; [reflexivity|]. rewrite H by (left; reflexivity). rewrite IHl; [reflexivity|]. intros; apply H; right; assumption. Qed.
Lemma gset_eq p p' r r' c c' a a' b b' d d' : p = p' -> r = r' -> c = c' -> a = a' -> b = b' -> d = d' -> gauss2d_set p r c a b d = gauss2d_set p' r' c' a' b' d'.
Proof. congruence. Qed.

Lemma conv_assoc a b c : (let* ab := gmix_convolve a b in gmix_convolve ab c) = (let* bc := gmix_convolve b c in gmix_convolve a bc).
Proof.
  destruct (Req_dec (flux_of c) 0) as [C|C].
  { rewrite (conv_zero_psf b c C). cbn [bind]. destruct (Req_dec (flux_of b) 0) as [B|B]; [rewrite (conv_zero_psf a b B); reflexivity|].
    rewrite (conv_eq a b B). cbn [bind]. apply conv_zero_psf, C. }
  pose proof (conv_eq b c C) as EB. destruct (conv_flux b c _ C EB) as [F G]. rewrite EB. cbn [bind].
  destruct (Req_dec (flux_of b) 0) as [B|B]. { rewrite (conv_zero_psf a b B). cbn [bind]. rewrite conv_zero_psf by (rewrite F; exact B). reflexivity. }
  rewrite (conv_eq a b B). cbn [bind]. rewrite (conv_eq _ c C), conv_eq by (rewrite F; exact B). destruct (G B) as [R1 R2]. rewrite F, R1, R2. f_equal.
  rewrite flat_map_flat. apply flat_map_exts. intros x _. rewrite flat_map_mapl, map_flat_map. apply flat_map_exts. intros y _. rewrite map_map. apply map_ext. intros z.
  unfold cg; cbn [g_p g_row g_col g_irr g_irc g_icc gauss2d_set]. apply gset_eq; ring.
Qed.
Theorem obj_assoc a b c : (let* ab := obj_convolve a b in obj_convolve ab c) = (let* bc := obj_convolve b c in obj_convolve a bc).
Proof.
  pose proof (conv_assoc (o_data a) (o_data b) (o_data c)) as H. unfold obj_convolve.
  destruct (gmix_convolve (o_data a) (o_data b)) as [ab|e1]; destruct (gmix_convolve (o_data b) (o_data c)) as [bc|e2]; cbn [bind] in *;
    cbn [o_data o_ngauss with_data new_full_ngauss blank].
  - rewrite H, Nat.mul_assoc. reflexivity.
  - rewrite H. reflexivity.
  - rewrite <- H. reflexivity.
  - congruence.
Qed.

(** the flux and the centre of the second mixture do not matter *)
Lemma set_flux_inv gm f gm' : gm_set_flux gm f = Some gm' -> flux_of gm <> 0 /\ gm' = map (scale_gauss (f / flux_of gm)) gm.
Proof. unfold gm_set_flux, np_div. fold (flux_of gm). destruct (Reqb_spec (flux_of gm) 0); [discriminate|]. intros E. injection E as <-. auto. Qed.
Lemma set_cen_inv gm r c gm' : gm_set_cen gm r c = Some gm' -> flux_of gm <> 0 /\ gm' = map (shift_gauss (r - row_of gm) (c - col_of gm)) gm.
Proof.
  unfold gm_set_cen, gm_get_cen, np_div. fold (flux_of gm). destruct (Reqb_spec (flux_of gm) 0); [discriminate|]. intros E. injection E as <-. split; [assumption|].
  unfold row_of, col_of, mean_of. rewrite (rsum_map_ext (fun g => g_row g * g_p g) (fun g => g_p g * g_row g)) by (intros; ring).
  rewrite (rsum_map_ext (fun g => g_col g * g_p g) (fun g => g_p g * g_col g)) by (intros; ring). reflexivity.
Qed.
Lemma psf_flux gm psf psf' f : f <> 0 -> gm_set_flux psf f = Some psf' -> gmix_convolve gm psf' = gmix_convolve gm psf.
Proof.
  intros N E. destruct (set_flux_inv _ _ _ E) as [P ->]. set (k := f / flux_of psf).
  assert (K : k <> 0) by (unfold k, Rdiv; apply Rmult_integral_contrapositive_currified; [exact N|apply Rinv_neq_0_compat, P]).
  assert (F : flux_of (map (scale_gauss k) psf) = k * flux_of psf).
  { unfold flux_of. rewrite map_map, <- rsum_map_mult. apply rsum_map_ext. intros; cbn; ring. }
  assert (M : forall h, (forall g, h (scale_gauss k g) = h g) -> mean_of h (map (scale_gauss k) psf) = mean_of h psf).
  { intros h H. unfold mean_of. rewrite F, map_map. rewrite (rsum_map_ext _ (fun g => k * (g_p g * h g))) by (intros x _; rewrite H; cbn; ring). rewrite rsum_map_mult. field. split; assumption. }
  rewrite !conv_eq; [|exact P|rewrite F; apply Rmult_integral_contrapositive_currified; assumption].
  unfold row_of, col_of. rewrite F, !M by reflexivity. f_equal. apply flat_map_exts. intros x _. rewrite map_map. apply map_ext. intros y. unfold cg; cbn [scale_gauss g_p g_row g_col g_irr g_irc g_icc].
  apply gset_eq; try reflexivity. field. split; assumption.
Qed.
Lemma psf_centre gm psf psf' r c : gm_set_cen psf r c = Some psf' -> gmix_convolve gm psf' = gmix_convolve gm psf.
Proof.
  intros E. destruct (set_cen_inv _ _ _ _ E) as [P ->]. set (dr := r - row_of psf). set (dc := c - col_of psf).
  assert (F : flux_of (map (shift_gauss dr dc) psf) = flux_of psf) by (unfold flux_of; rewrite map_map; reflexivity).
  assert (M : row_of (map (shift_gauss dr dc) psf) = dr + row_of psf /\ col_of (map (shift_gauss dr dc) psf) = dc + col_of psf).
  { unfold row_of, col_of. rewrite !mean_map by reflexivity. split; rewrite <- mean_add_const by exact P; apply mean_ext; intros; cbn; ring. }
  destruct M as [M1 M2]. rewrite !conv_eq; [|exact P|rewrite F; exact P]. rewrite F, M1, M2. f_equal. apply flat_map_exts. intros x _. rewrite map_map. apply map_ext. intros y.
  unfold cg; cbn [shift_gauss g_p g_row g_col g_irr g_irc g_icc]. apply gset_eq; try reflexivity; ring.
Qed.
(** those of the first are the flux and centre of the result *)
Lemma obj_flux gm gm' f psf c : gm_set_flux gm f = Some gm' -> gmix_convolve gm psf = Ok c ->
  exists c', gmix_convolve gm' psf = Ok c' /\ gm_set_flux c f = Some c'.
Proof.
  intros E EC. destruct (set_flux_inv _ _ _ E) as [P ->].
  destruct (Req_dec (flux_of psf) 0) as [Z|Z]; [rewrite conv_zero_psf in EC by exact Z; discriminate|].
  destruct (conv_flux _ _ _ Z EC) as [F _]. rewrite conv_eq in EC by exact Z. injection EC as <-. rewrite conv_eq by exact Z. eexists. split; [reflexivity|].
  unfold gm_set_flux, np_div. fold (flux_of (flat_map (fun og => map (cg (flux_of psf) (row_of psf) (col_of psf) og) psf) gm)). rewrite F, Reqb_f by exact P. f_equal.
  rewrite map_flat_map, flat_map_mapl. apply flat_map_exts. intros x _. rewrite map_map. apply map_ext. intros y. unfold cg, scale_gauss, gauss2d_set; cbn. f_equal. ring.
Qed.
Lemma obj_centre gm gm' u v psf c : gm_set_cen gm u v = Some gm' -> gmix_convolve gm psf = Ok c ->
  exists c', gmix_convolve gm' psf = Ok c' /\ gm_set_cen c u v = Some c'.
Proof.
  intros E EC. destruct (set_cen_inv _ _ _ _ E) as [P ->].
  destruct (Req_dec (flux_of psf) 0) as [Z|Z]; [rewrite conv_zero_psf in EC by exact Z; discriminate|].
  destruct (conv_flux _ _ _ Z EC) as [F G]. destruct (G P) as [R1 R2].
  assert (S : gm_set_cen c u v = Some (map (shift_gauss (u - row_of gm) (v - col_of gm)) c)).
  { unfold gm_set_cen, gm_get_cen, np_div. fold (flux_of c). rewrite Reqb_f by (rewrite F; exact P). f_equal. rewrite <- R1, <- R2. unfold row_of, col_of, mean_of.
    rewrite (rsum_map_ext (fun g => g_row g * g_p g) (fun g => g_p g * g_row g)) by (intros; ring).
    rewrite (rsum_map_ext (fun g => g_col g * g_p g) (fun g => g_p g * g_col g)) by (intros; ring). reflexivity. }
  rewrite S. rewrite conv_eq in EC by exact Z. injection EC as <-. rewrite conv_eq by exact Z. eexists. split; [reflexivity|]. f_equal.
  rewrite map_flat_map, flat_map_mapl. apply flat_map_exts. intros x _. rewrite map_map. apply map_ext. intros y. unfold cg, shift_gauss, gauss2d_set; cbn. f_equal; ring.
Qed.

(** exchanging the two *)
Lemma perm_flat_cons {A B} (x : A -> B) (f : A -> list B) l : Permutation (flat_map (fun a => x a :: f a) l) (map x l ++ flat_map f l).
Proof.
  induction l as [|a l IH]; cbn [flat_map map app]; [constructor|]. constructor.
  eapply Permutation_trans; [apply Permutation_app_head, IH|]. rewrite !app_assoc. apply Permutation_app_tail, Permutation_app_comm.
Qed.
Lemma perm_product {A B C} (h : A -> B -> C) (l : list A) (m : list B) : Permutation (flat_map (fun a => map (h a) m) l) (flat_map (fun b => map (fun a => h a b) l) m).
Proof.
  induction m as [|b m IH]; cbn [flat_map map].
  - induction l; cbn; [constructor|assumption].
  - eapply Permutation_trans; [apply (perm_flat_cons (fun a => h a b) (fun a => map (h a) m))|]. apply Permutation_app_head, IH.
Qed.
Theorem conv_exchange a b : flux_of a = flux_of b -> row_of a = row_of b -> col_of a = col_of b -> flux_of b <> 0 ->
  exists x y, gmix_convolve a b = Ok x /\ gmix_convolve b a = Ok y /\ Permutation x y.
Proof.
  intros F R1 C1 P. rewrite !conv_eq by congruence. do 2 eexists. split; [reflexivity|]. split; [reflexivity|].
  rewrite F, R1, C1. eapply Permutation_trans; [apply perm_product|].
  assert (E : flat_map (fun p => map (fun o => cg (flux_of b) (row_of b) (col_of b) o p) a) b = flat_map (fun o => map (cg (flux_of b) (row_of b) (col_of b) o) a) b); [|rewrite E; apply Permutation_refl].
  apply flat_map_exts. intros x _. apply map_ext. intros y. unfold cg. apply gset_eq; ring.
Qed.

(** a point *)
Theorem conv_point gm f r c : f <> 0 -> gmix_convolve gm [gauss2d_set f r c 0 0 0] =
  Ok (map (fun g => gauss2d_set (g_p g) (g_row g) (g_col g) (g_irr g) (g_irc g) (g_icc g)) gm).
Proof.
  intros N. assert (F : flux_of [gauss2d_set f r c 0 0 0] = f) by (unfold flux_of; cbn; ring).
  rewrite conv_eq by (rewrite F; exact N). f_equal. rewrite F. unfold row_of, col_of, mean_of. rewrite F. cbn [map rsum fold_right g_p g_row g_col gauss2d_set].
  induction gm as [|g gm IH]; [reflexivity|]. cbn [flat_map map app]. f_equal; [|exact IH]. unfold cg; cbn [g_p g_row g_col g_irr g_irc g_icc gauss2d_set]. 
  apply gset_eq; try ring; unfold rsum; cbn; field; exact N.
Qed.

(** shear *)
Lemma sheared_add s1 s2 m n : sheared s1 s2 (add2 m n) = add2 (sheared s1 s2 m) (sheared s1 s2 n).
Proof. unfold sheared, scale2, conj2, add2; cbn. f_equal; ring. Qed.
Lemma posdef_add m n : posdef m -> posdef n -> posdef (add2 m n).
Proof.
  destruct m as [a b c], n as [d e f]. unfold posdef, add2, det2; cbn. intros [A D] [A' D']. split; [lra|].
  (* a f + c d - 2 b e > 0, from b^2 < a c and e^2 < d f *)
  assert (C : 0 < c) by nra. assert (F : 0 < f) by nra.
  assert (X : 0 < a * d * (a * f + c * d - 2 * b * e)).
  { replace (a * d * (a * f + c * d - 2 * b * e)) with (a ^ 2 * (d * f - e * e) + d ^ 2 * (a * c - b * b) + (a * e - d * b) ^ 2) by ring.
    assert (0 < a ^ 2 * (d * f - e * e)) by (apply Rmult_lt_0_compat; [nra|lra]). assert (0 < d ^ 2 * (a * c - b * b)) by (apply Rmult_lt_0_compat; [nra|lra]).
    pose proof (pow2_ge_0 (a * e - d * b)). lra. }
  assert (Y : 0 < a * f + c * d - 2 * b * e). { apply (Rmult_lt_reg_l (a * d)); [apply Rmult_lt_0_compat; assumption|]. lra. }
  nra.
Qed.

Lemma shear_one s1 s2 g : posdef (gcov g) -> in_disk (s1, s2) ->
  exists g', shear_gauss s1 s2 g = Ok g' /\ g_p g' = g_p g /\ g_row g' = g_row g /\ g_col g' = g_col g /\ gcov g' = sheared s1 s2 (gcov g) /\
    g' = mkGauss (g_p g) (g_row g) (g_col g) (g_irr g') (g_irc g') (g_icc g') (g_irr g' * g_icc g' - g_irc g' * g_irc g') false (g_nrm g).
Proof.
  intros P S. destruct (sheared_moments_eq (g_irr g) (g_irc g) (g_icc g) s1 s2 P S) as (a & b & c & E & C).
  unfold shear_gauss. rewrite E. cbn [bind]. eexists. split; [reflexivity|]. cbn. repeat (split; [reflexivity|]). split; [exact C|reflexivity].
Qed.
Lemma shear_cg s1 s2 f r c o p o' p' : posdef (gcov o) -> posdef (gcov p) -> in_disk (s1, s2) -> shear_gauss s1 s2 o = Ok o' -> shear_gauss s1 s2 p = Ok p' ->
  shear_gauss s1 s2 (cg f r c o p) = Ok (cg f r c o' p').
Proof.
  intros PO PP S EO EP. destruct (shear_one s1 s2 o PO S) as (o1 & E1 & A1 & A2 & A3 & A4 & _). rewrite EO in E1. injection E1 as <-.
  destruct (shear_one s1 s2 p PP S) as (p1 & E1 & B1 & B2 & B3 & B4 & _). rewrite EP in E1. injection E1 as <-.
  assert (GC : gcov (cg f r c o p) = add2 (gcov o) (gcov p)) by reflexivity.
  destruct (shear_one s1 s2 (cg f r c o p)) as (x & E & D1 & D2 & D3 & D4 & D5); [rewrite GC; apply posdef_add; assumption|exact S|].
  rewrite E. f_equal. rewrite D5. rewrite GC, sheared_add, <- A4, <- B4 in D4. unfold gcov, cov, add2 in D4; cbn in D4. injection D4 as X1 X2 X3. rewrite X1, X2, X3.
  unfold cg, gauss2d_set; cbn. rewrite A1, A2, A3, B1, B2, B3. reflexivity.
Qed.
Lemma mapM_app {A B} (f : A -> res B) l m x y : mapM f l = Ok x -> mapM f m = Ok y -> mapM f (l ++ m) = Ok (x ++ y).
Proof.
  revert x. induction l as [|a l IH]; intros x; cbn [mapM app]; [intros E; injection E as <-; auto|]. destruct (f a); cbn [bind]; [|discriminate].
  destruct (mapM f l) as [z|]; cbn [bind]; [|discriminate]. intros E M. injection E as <-. rewrite (IH z eq_refl M). reflexivity.
Qed.
Lemma shear_keeps s1 s2 gm gm' : Forall (fun g => posdef (gcov g)) gm -> in_disk (s1, s2) -> gmix_shear gm s1 s2 = Ok gm' ->
  flux_of gm' = flux_of gm /\ row_of gm' = row_of gm /\ col_of gm' = col_of gm.
Proof.
  intros P S E. destruct (shear_spec gm s1 s2 P S) as (x & E' & F). rewrite E in E'. injection E' as <-. clear E P.
  assert (H : flux_of gm' = flux_of gm /\ rsum (map (fun g => g_p g * g_row g) gm') = rsum (map (fun g => g_p g * g_row g) gm) /\
              rsum (map (fun g => g_p g * g_col g) gm') = rsum (map (fun g => g_p g * g_col g) gm)).
  { unfold flux_of. induction F as [|g g' l l' (A & B & C & _) _ (I1 & I2 & I3)]; [auto|]. cbn [map]. rewrite !rsum_cons, I1, I2, I3, A, B, C. auto. }
  destruct H as (A & B & C). unfold row_of, col_of, mean_of. rewrite A, B, C. auto.
Qed.
Theorem conv_shear gm psf s1 s2 : Forall (fun g => posdef (gcov g)) gm -> Forall (fun g => posdef (gcov g)) psf -> in_disk (s1, s2) -> flux_of psf <> 0 ->
  exists gm' psf' c c', gmix_shear gm s1 s2 = Ok gm' /\ gmix_shear psf s1 s2 = Ok psf' /\ gmix_convolve gm psf = Ok c /\
    gmix_convolve gm' psf' = Ok c' /\ gmix_shear c s1 s2 = Ok c'.
Proof.
  intros PG PP S Z. destruct (shear_spec gm s1 s2 PG S) as (gm' & EG & _). destruct (shear_spec psf s1 s2 PP S) as (psf' & EP & _).
  destruct (shear_keeps _ _ _ _ PP S EP) as (F & R1 & C1). do 4 eexists. split; [exact EG|]. split; [exact EP|]. split; [apply conv_eq, Z|].
  split; [apply conv_eq; rewrite F; exact Z|]. rewrite F, R1, C1. generalize (flux_of psf), (row_of psf), (col_of psf). intros f r c.
  unfold gmix_shear in *.
  assert (IN : forall o o', posdef (gcov o) -> shear_gauss s1 s2 o = Ok o' -> mapM (shear_gauss s1 s2) (map (cg f r c o) psf) = Ok (map (cg f r c o') psf')).
  { intros o o' PO EO. revert psf' EP F R1 C1. clear Z. induction PP as [|p psf Hp PP IH]; intros psf' EP _ _ _; cbn [mapM map] in *; [injection EP as <-; reflexivity|].
    destruct (shear_gauss s1 s2 p) as [p'|] eqn:Ep; cbn [bind] in EP; [|discriminate]. destruct (mapM (shear_gauss s1 s2) psf) as [q|] eqn:Eq; cbn [bind] in EP; [|discriminate]. injection EP as <-.
    rewrite (shear_cg s1 s2 f r c o p o' p' PO Hp S EO Ep). cbn [bind map]. destruct (shear_keeps s1 s2 psf q PP S Eq) as (X & Y & W). rewrite (IH q eq_refl X Y W). reflexivity. }
  clear F R1 C1 EP. revert gm' EG. induction PG as [|o gm Ho PG IH]; intros gm' EG; cbn [mapM flat_map] in *; [injection EG as <-; reflexivity|].
  destruct (shear_gauss s1 s2 o) as [o'|] eqn:Eo; cbn [bind] in EG; [|discriminate]. destruct (mapM (shear_gauss s1 s2) gm) as [q|] eqn:Eq; cbn [bind] in EG; [|discriminate]. injection EG as <-.
  cbn [flat_map]. apply mapM_app; [apply IN; assumption|apply IH; reflexivity].
Qed.
