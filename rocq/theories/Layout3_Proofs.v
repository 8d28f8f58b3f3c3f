From Coq Require Import Permutation Sorted.
From Verif Require Import Base XReal Jacobian_Model Jacobian_Spec Pixels_Model Pixels_Spec Pixels_Proofs GMix_Model GMixObj_Model EM_Model
  Units_Spec Units_Proofs Layout_Spec Layout_Proofs Layout2_Proofs.
Local Open Scope R_scope.

(** ** EM with its own choice of the sky *)
Lemma in_arr_list im x : In x (arr_list im) <-> exists rc, inside im rc /\ x = at2 im (fst rc) (snd rc).
Proof.
  unfold arr_list. rewrite in_flat_map. split.
  - intros (r & Hr & H). apply in_map_iff in H. destruct H as (c & <- & Hc). apply in_seq in Hr, Hc. exists (r, c). unfold inside. cbn. split; [lia|reflexivity].
  - intros ([r c] & [Hr Hc] & ->). cbn in *. exists r. split; [apply in_seq; lia|]. apply in_map_iff. exists c. split; [reflexivity|]. apply in_seq; lia.
Qed.
Lemma fold_min l : forall x, (forall y, In y (x :: l) -> fold_left Rmin l x <= y) /\ In (fold_left Rmin l x) (x :: l).
Proof.
  induction l as [|z l IH]; intros x; cbn [fold_left]; [split; [intros y [->|[]]; lra|left; reflexivity]|].
  destruct (IH (Rmin x z)) as [A B]. split.
  - intros y [->|[->|Y]]; [pose proof (A _ (or_introl eq_refl)); pose proof (Rmin_l y z); lra|pose proof (A _ (or_introl eq_refl)); pose proof (Rmin_r x y); lra|apply A; right; exact Y].
  - destruct B as [B|B]; [|right; right; exact B]. rewrite <- B. unfold Rmin. destruct (Rle_dec x z); [left; reflexivity|right; left; reflexivity].
Qed.
Lemma fold_max l : forall x, (forall y, In y (x :: l) -> y <= fold_left Rmax l x) /\ In (fold_left Rmax l x) (x :: l).
Proof.
  induction l as [|z l IH]; intros x; cbn [fold_left]; [split; [intros y [->|[]]; lra|left; reflexivity]|].
  destruct (IH (Rmax x z)) as [A B]. split.
  - intros y [->|[->|Y]]; [pose proof (A _ (or_introl eq_refl)); pose proof (Rmax_l y z); lra|pose proof (A _ (or_introl eq_refl)); pose proof (Rmax_r x y); lra|apply A; right; exact Y].
  - destruct B as [B|B]; [|right; right; exact B]. rewrite <- B. unfold Rmax. destruct (Rle_dec x z); [right; left; reflexivity|left; reflexivity].
Qed.
Lemma extremes im im' : (forall x, In x (arr_list im') <-> In x (arr_list im)) -> arr_min im' = arr_min im /\ arr_max im' = arr_max im.
Proof.
  unfold arr_min, arr_max. destruct (arr_list im) as [|x l], (arr_list im') as [|x' l']; intros H; try (split; reflexivity).
  - exfalso. apply (H x'). left; reflexivity.
  - exfalso. apply (H x). left; reflexivity.
  - destruct (fold_min l x) as [A B], (fold_min l' x') as [A' B'], (fold_max l x) as [C D], (fold_max l' x') as [C' D'].
    apply H in B', D'. pose proof (A _ B'). pose proof (C _ D'). assert (K1 : fold_left Rmin l' x' <= fold_left Rmin l x) by (apply A', H, B). assert (K2 : fold_left Rmax l x <= fold_left Rmax l' x') by (apply C', H, D).
    split; f_equal; lra.
Qed.
Lemma ones_moved im im' j j' s : moved nothing im (ones im) j im' (ones im') j' s -> forall b, moved nothing (mkArr (nrow im) (ncol im) (fun r c => at2 im r c + b)) (ones (mkArr (nrow im) (ncol im) (fun r c => at2 im r c + b))) j
  (mkArr (nrow im') (ncol im') (fun r c => at2 im' r c + b)) (ones (mkArr (nrow im') (ncol im') (fun r c => at2 im' r c + b))) j' s.
Proof.
  intros [A1 A2 A3 A4 A5 A6 A7 A8] b. constructor; unfold inside, ones in *; cbn [nrow ncol at2] in *; auto. intros rc I. rewrite (A4 rc I). reflexivity.
Qed.
Lemma prep_relaid im im' j j' s : moved nothing im (ones im) j im' (ones im') j' s ->
  same_outcome (fun x x' => snd x' = snd x /\ x = (mkArr (nrow im) (ncol im) (fun r c => at2 im r c + snd x), snd x) /\ x' = (mkArr (nrow im') (ncol im') (fun r c => at2 im' r c + snd x), snd x)) (prep_image im) (prep_image im').
Proof.
  intros M. destruct (extremes im im') as [E1 E2].
  { intros x. rewrite !in_arr_list. split.
    - intros (rc & I & ->). destruct (mv_rest _ _ _ _ _ _ _ _ M rc I) as [(a & Ia & ->)|[]]. exists a. split; [exact Ia|]. apply (mv_val _ _ _ _ _ _ _ _ M a Ia).
    - intros (rc & I & ->). exists (s rc). split; [apply (mv_inside _ _ _ _ _ _ _ _ M rc I)|]. symmetry. apply (mv_val _ _ _ _ _ _ _ _ M rc I). }
  unfold prep_image. rewrite E1, E2. destruct (arr_min im); cbn [bind]; [|reflexivity]. destruct (arr_max im); cbn [bind]; [|reflexivity]. cbn. auto.
Qed.
Lemma em_go_none f m m' o o' guess im im' s : relaid_mem m m' -> length (em_px m') = length (em_px m) -> eo_psf o' = eo_psf o ->
  nth_error (em_im m) (eo_image o) = Some im -> nth_error (em_im m') (eo_image o') = Some im' -> moved nothing im (ones im) (eo_jac o) im' (ones im') (eo_jac o') s ->
  relaid_run (em_go f m o guess None) (em_go f m' o' guess None).
Proof.
  intros R LM EP N N' M. unfold em_go at 1 2. unfold prep_obs. rewrite N, N'. cbv zeta. pose proof (prep_relaid im im' _ _ s M) as P.
  destruct (prep_image im) as [[a sk]|e], (prep_image im') as [[a' sk']|e']; cbn in P; try contradiction; cbn [bind].
  2:{ subst e'. split; [exact R|reflexivity]. }
  destruct P as (-> & E & E'). injection E as ->. injection E' as ->.
  pose proof (pixels_moved true nothing _ _ _ _ _ _ s (ones_moved im im' _ _ s M sk) ltac:(intros w [])) as Q.
  match type of Q with same_outcome _ ?r ?r' => destruct r as [px|e], r' as [px'|e'] end; cbn in Q; try contradiction; cbn [bind].
  2:{ subst e'. split; [exact R|reflexivity]. }
  match goal with |- relaid_run (match get_psf ?x ?y with _ => _ end) (match get_psf ?x' ?y' with _ => _ end) =>
    pose proof (em_go_relaid f x x' y y' guess sk) as G end.
  unfold em_go in G. apply G.
  - split; [exact (proj1 R)|]. cbn [em_px]. apply Forall2_app; [exact (proj2 R)|]. constructor; [exact Q|constructor].
  - exact EP.
  - exact LM.
Qed.

(** ** zero-weight borders are not ignored by EM *)
Lemma ones_length im j : (0 < nrow im * ncol im)%nat -> exists l, make_pixels im (ones im) j true = Ok l /\ length l = (nrow im * ncol im)%nat.
Proof.
  intros H. destruct (make_pixels_spec im (ones im) j true eq_refl eq_refl) as [(_ & _ & N)|(idx & l & E & I & S & D & _)].
  - exfalso. apply (N (0%nat, 0%nat)). split; [unfold inside; cbn; nia|]. intros _. cbn. lra.
  - exists l. split; [exact E|]. rewrite <- (FitUnits3_Proofs.Forall2_length _ _ _ D).
    assert (P : Permutation idx (list_prod (seq 0 (nrow im)) (seq 0 (ncol im)))).
    { apply NoDup_Permutation; [exact (before_nodup _ S)| |].
      - apply before_nodup. apply positions_sorted_gen.
      - intros rc. rewrite in_positions, I. unfold inside. cbn. split; [tauto|]. intros Q. split; [exact Q|]. intros _. lra. }
    rewrite (Permutation_length P), prod_length, !seq_length. reflexivity.
Qed.
Lemma border_counts : exists im w j s m o m' o',
  moved no_weight im w j (pad 0 0 0 1 0 im) (pad 0 0 0 1 0 w) (pad_jac 0 0 j) s /\
  same_outcome (@Permutation (pixel R)) (make_pixels im w j true) (make_pixels (pad 0 0 0 1 0 im) (pad 0 0 0 1 0 w) (pad_jac 0 0 j) true) /\
  nth_error (em_im m) (eo_image o) = Some im /\ eo_jac o = j /\ nth_error (em_im m') (eo_image o') = Some (pad 0 0 0 1 0 im) /\ eo_jac o' = pad_jac 0 0 j /\
  exists m1 o1 s1 m2 o2 s2 px px', prep_obs m o = Some (Ok (m1, o1, s1)) /\ prep_obs m' o' = Some (Ok (m2, o2, s2)) /\
    nth_error (em_px m1) (eo_px o1) = Some px /\ nth_error (em_px m2) (eo_px o2) = Some px' /\ (length px < length px')%nat.
Proof.
  set (im := mkArr 1 1 (fun _ _ : nat => 5)). set (w := mkArr 1 1 (fun _ _ : nat => 1)). set (j := mkJac 0 0 1 0 0 1 1 1).
  assert (M : moved no_weight im w j (pad 0 0 0 1 0 im) (pad 0 0 0 1 0 w) (pad_jac 0 0 j) (fun rc => ((0 + fst rc)%nat, (0 + snd rc)%nat))) by (apply pad_moved; [reflexivity|reflexivity|lra]).
  exists im, w, j, (fun rc => ((0 + fst rc)%nat, (0 + snd rc)%nat)), (mkEm (mkHeap [] [] []) [] [im]), (mkEo 0 w j 0 None), (mkEm (mkHeap [] [] []) [] [pad 0 0 0 1 0 im]), (mkEo 0 (pad 0 0 0 1 0 w) (pad_jac 0 0 j) 0 None).
  split; [exact M|]. split; [apply (pixels_moved true no_weight _ _ _ _ _ _ _ M); intros x H; split; [reflexivity|exact H]|]. do 4 (split; [reflexivity|]).
  unfold prep_obs. cbn [nth_error em_im eo_image eo_jac em_px em_gm eo_psf length app].
  assert (G : forall a j0, (0 < nrow a * ncol a)%nat -> exists b sk px, prep_image a = Ok (b, sk) /\ make_pixels b (ones b) j0 true = Ok px /\ length px = (nrow a * ncol a)%nat).
  { intros a j0 H. destruct (arr_list a) as [|x l] eqn:L.
    - exfalso. assert (X : In (at2 a 0 0) (arr_list a)) by (apply in_arr_list; exists (0%nat, 0%nat); split; [unfold inside; cbn; nia|reflexivity]). rewrite L in X. destruct X.
    - unfold prep_image, arr_min, arr_max. rewrite L. cbn [bind]. cbv zeta. do 2 eexists. 
      match goal with |- context [Ok (?b, _) = _] => destruct (ones_length b j0 H) as (px & E1 & E2) end. exists px. split; [reflexivity|]. split; [exact E1|exact E2]. }
  destruct (G im j ltac:(cbn; lia)) as (b & sk & px & E1 & E2 & E3), (G (pad 0 0 0 1 0 im) (pad_jac 0 0 j) ltac:(cbn; lia)) as (b' & sk' & px' & E1' & E2' & E3').
  rewrite E1, E1'. cbn [bind]. rewrite E2, E2'. cbn [bind]. do 6 eexists. exists px, px'. split; [reflexivity|]. split; [reflexivity|]. cbn [em_px eo_px nth_error]. 
  split; [reflexivity|]. split; [reflexivity|]. rewrite E3, E3'. cbn. lia.
Qed.
