(** The data of a fit by EM in other units. *)
From Verif Require Import Base Shape_Model Moments_Spec Jacobian_Model Pixels_Model GMix_Model GMix_Spec GMixObj_Model EM_Model EM_Spec
  Units_Spec Units_Proofs UnitsPP_Proofs UnitsEM_Spec.
Local Open Scope R_scope.

Section Pix.
Variable k : R.
Hypothesis K : 0 < k.
Lemma pt_length l l' : Forall2 (pix_times k) l l' -> List.length l' = List.length l.
Proof. induction 1; cbn; congruence. Qed.
Lemma upd_pt l l' i p p' : Forall2 (pix_times k) l l' -> pix_times k p p' -> Forall2 (pix_times k) (upd l i p) (upd l' i p').
Proof. intros H. revert i. induction H as [|a a' l l' HA H IH]; intros [|i] HP; cbn; constructor; auto. Qed.
Lemma zeros_pt n : Forall2 (pix_times k) (zeros_pixels R 0 n) (zeros_pixels R 0 n).
Proof. unfold zeros_pixels. induction n; cbn [repeat]; constructor; [|exact IHn]. unfold pix_times; cbn. repeat split; lra. Qed.
Lemma pixels_values im im' w j ig : image_times k im im' ->
  same_outcome (Forall2 (pix_times k)) (make_pixels im w j ig) (make_pixels im' w j ig).
Proof.
  intros (N1 & M1 & HI). unfold make_pixels, make_pixels_gen. rewrite N1, M1.
  match goal with |- context [bind ?x _] => destruct x as [n|e] end; cbn [bind]; [|reflexivity].
  unfold fill_pixels. rewrite N1, M1.
  apply same_bind with (P := fun x x' => Forall2 (pix_times k) (fst x) (fst x') /\ snd x' = snd x).
  2:{ intros [l i] [l' i'] [A B]. cbn [fst snd] in A, B. subst i'. rewrite (pt_length _ _ A). destruct (Nat.eqb _ _); [exact A|reflexivity]. }
  apply same_foldM with (E := fun a b : nat => b = a /\ (a < nrow im)%nat); [apply seq_range| |split; [apply zeros_pt|reflexivity]].
  intros s s' r r' HS [-> Hr].
  apply same_foldM with (E := fun a b : nat => b = a /\ (a < ncol im)%nat); [apply seq_range| |exact HS].
  clear s s' HS. intros [l i] [l' i'] c c' [A B] [-> Hc]. cbn [fst snd] in A, B. subst i'. unfold fill_body.
  destruct (_ && _)%bool; [split; [exact A|reflexivity]|].
  destruct (get_vu j (INR r) (INR c)) as [v u].
  apply same_bind with (P := Forall2 (pix_times k)).
  - unfold put. rewrite (pt_length _ _ A). destruct (Nat.ltb _ _); [|reflexivity]. apply upd_pt; [exact A|].
    unfold pix_times; cbn [px_v px_u px_area px_val px_ierr]. rewrite HI by assumption. repeat split; auto.
  - intros a a' H. split; [exact H|reflexivity].
Qed.
Lemma arr_times im im' : image_times k im im' -> arr_list im' = map (Rmult k) (arr_list im).
Proof.
  intros (N & M & H). unfold arr_list. rewrite N, M.
  assert (G : forall l, (forall r, In r l -> (r < nrow im)%nat) ->
    flat_map (fun r => map (at2 im' r) (seq 0 (ncol im))) l = map (Rmult k) (flat_map (fun r => map (at2 im r) (seq 0 (ncol im))) l)).
  { induction l as [|r l IH]; intros Hl; [reflexivity|]. cbn [flat_map]. rewrite map_app, map_map, IH by (intros; apply Hl; right; assumption). f_equal.
    apply map_ext_in. intros c Hc. apply in_seq in Hc. apply H; [apply Hl; left; reflexivity|lia]. }
  apply G. intros r Hr. apply in_seq in Hr. lia.
Qed.
Lemma min_times l x : fold_left Rmin (map (Rmult k) l) (k * x) = k * fold_left Rmin l x.
Proof.
  revert x. induction l as [|a l IH]; intros x; cbn [map fold_left]; [reflexivity|]. rewrite <- IH. f_equal.
  unfold Rmin. destruct (Rle_dec x a), (Rle_dec (k * x) (k * a)); nra.
Qed.
Lemma max_times l x : fold_left Rmax (map (Rmult k) l) (k * x) = k * fold_left Rmax l x.
Proof.
  revert x. induction l as [|a l IH]; intros x; cbn [map fold_left]; [reflexivity|]. rewrite <- IH. f_equal.
  unfold Rmax. destruct (Rle_dec x a), (Rle_dec (k * x) (k * a)); nra.
Qed.
Lemma prep_times im0 im0' : image_times k im0 im0' ->
  same_outcome (fun a a' => image_times k (fst a) (fst a') /\ snd a' = k * snd a) (prep_image im0) (prep_image im0').
Proof.
  intros T. unfold prep_image, arr_min, arr_max. rewrite (arr_times _ _ T). destruct (arr_list im0) as [|x l]; [reflexivity|]. cbn [map bind same_outcome fst snd].
  rewrite min_times, max_times. destruct T as (N & M & H). split; [|ring]. split; [exact N|]. split; [exact M|]. cbn [nrow ncol at2]. intros r c Hr Hc. rewrite H by assumption. ring.
Qed.
(** the data made from an image *)
Lemma prepared m obs m2 obs2 im0 im0' px s : nth_error (em_im m) (eo_image obs) = Some im0 -> nth_error (em_im m2) (eo_image obs2) = Some im0' ->
  image_times k im0 im0' -> eo_jac obs2 = eo_jac obs -> data_given m obs None px s ->
  exists px', data_given m2 obs2 None px' (k * s) /\ Forall2 (pix_times k) px px'.
Proof.
  intros A A' T J (im1 & im & B & C & D). assert (im1 = im0) by congruence. subst im1. pose proof (prep_times _ _ T) as PT. rewrite C in PT.
  destruct (prep_image im0') as [[im' s']|e] eqn:C'; [|contradiction]. cbn [same_outcome fst snd] in PT. destruct PT as [TI ->].
  pose proof (pixels_values im im' (mkArr (nrow im) (ncol im) (fun _ _ => 1)) (eo_jac obs) true TI) as PV. rewrite D in PV.
  destruct (make_pixels im' _ _ _) as [px'|e] eqn:D'; [|contradiction]. exists px'. split; [|exact PV].
  exists im0', im'. split; [exact A'|]. split; [exact C'|]. rewrite J. destruct TI as (-> & -> & _). exact D'.
Qed.
Lemma pixels_given px px' : other_units k px px' -> Forall2 (pix_times k) px px'.
Proof.
  intros H. unfold other_units in H. induction H as [|p p' l l' (A & B & C & D & E) _ IH]; constructor; [|exact IH]. repeat split; auto.
  all: rewrite E; unfold Rdiv; pose proof (Rinv_0_lt_compat k K); intros; nra.
Qed.
End Pix.
