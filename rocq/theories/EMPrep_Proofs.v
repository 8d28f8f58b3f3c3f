(** prep_image *)
From Verif Require Import Base Shape_Model Moments_Spec Jacobian_Model Pixels_Model GMix_Model GMix_Spec FastExp_Model
  Render_Model Render_Spec GMixObj_Model EM_Model EM_Spec.
Local Open Scope R_scope.

Lemma fold_min l : forall x, (fold_left Rmin l x = x \/ In (fold_left Rmin l x) l) /\ fold_left Rmin l x <= x /\ forall y, In y l -> fold_left Rmin l x <= y.
Proof.
  induction l as [|a l IH]; intros x; cbn [fold_left].
  - split; [auto|]. split; [lra|]. intros y [].
  - destruct (IH (Rmin x a)) as (A & B & C). pose proof (Rmin_l x a). pose proof (Rmin_r x a). split.
    + destruct A as [A|A]; [|right; right; exact A]. rewrite A. unfold Rmin. destruct (Rle_dec x a); [left; reflexivity|right; left; reflexivity].
    + split; [lra|]. intros y [<-|Hy]; [lra|apply C; exact Hy].
Qed.
Lemma fold_max l : forall x, (fold_left Rmax l x = x \/ In (fold_left Rmax l x) l) /\ x <= fold_left Rmax l x /\ forall y, In y l -> y <= fold_left Rmax l x.
Proof.
  induction l as [|a l IH]; intros x; cbn [fold_left].
  - split; [auto|]. split; [lra|]. intros y [].
  - destruct (IH (Rmax x a)) as (A & B & C). pose proof (Rmax_l x a). pose proof (Rmax_r x a). split.
    + destruct A as [A|A]; [|right; right; exact A]. rewrite A. unfold Rmax. destruct (Rle_dec x a); [right; left; reflexivity|left; reflexivity].
    + split; [lra|]. intros y [<-|Hy]; [lra|apply C; exact Hy].
Qed.
Lemma in_arr im x : In x (arr_list im) <-> exists r c, in_image im r c /\ x = at2 im r c.
Proof.
  unfold arr_list, in_image. rewrite in_flat_map. split.
  - intros (r & Hr & H). apply in_map_iff in H. destruct H as (c & <- & Hc). apply in_seq in Hr, Hc. exists r, c. split; [lia|reflexivity].
  - intros (r & c & [Hr Hc] & ->). exists r. split; [apply in_seq; lia|]. apply in_map_iff. exists c. split; [reflexivity|]. apply in_seq. lia.
Qed.
Lemma arr_empty im : arr_list im = [] <-> (nrow im = 0 \/ ncol im = 0)%nat.
Proof.
  split.
  - intros E. destruct (nrow im) as [|n] eqn:Er; [auto|]. destruct (ncol im) as [|k] eqn:Ec; [auto|]. exfalso.
    assert (H : In (at2 im 0 0) (arr_list im)) by (apply in_arr; exists 0%nat, 0%nat; split; [split; lia|reflexivity]). rewrite E in H. exact H.
  - intros H. destruct (arr_list im) as [|x l] eqn:E; [reflexivity|exfalso]. assert (K : In x (arr_list im)) by (rewrite E; left; reflexivity).
    apply in_arr in K. destruct K as (r & c & [A B] & _). lia.
Qed.
Theorem prep_spec im0 : (0 < nrow im0)%nat -> (0 < ncol im0)%nat ->
  exists im s r0 c0 r1 c1, prep_image im0 = Ok (im, s) /\ nrow im = nrow im0 /\ ncol im = ncol im0 /\
    (forall r c, at2 im r c = at2 im0 r c + s) /\
    in_image im0 r0 c0 /\ in_image im0 r1 c1 /\
    (forall r c, in_image im0 r c -> at2 im0 r0 c0 <= at2 im0 r c <= at2 im0 r1 c1) /\
    at2 im r0 c0 = / 1000 * (at2 im r1 c1 + - at2 im r0 c0).
Proof.
  intros Hr Hc. unfold prep_image, arr_min, arr_max. destruct (arr_list im0) as [|x l] eqn:E.
  { exfalso. apply arr_empty in E. lia. }
  cbn [bind]. destruct (fold_min l x) as (A1 & A2 & A3). destruct (fold_max l x) as (B1 & B2 & B3).
  assert (M1 : In (fold_left Rmin l x) (arr_list im0)) by (rewrite E; destruct A1 as [->|A1]; [left; reflexivity|right; exact A1]).
  assert (M2 : In (fold_left Rmax l x) (arr_list im0)) by (rewrite E; destruct B1 as [->|B1]; [left; reflexivity|right; exact B1]).
  apply in_arr in M1, M2. destruct M1 as (r0 & c0 & I0 & E0). destruct M2 as (r1 & c1 & I1 & E1).
  do 2 eexists. exists r0, c0, r1, c1. split; [reflexivity|]. cbn [nrow ncol at2]. split; [reflexivity|]. split; [reflexivity|]. split; [reflexivity|].
  split; [exact I0|]. split; [exact I1|]. rewrite <- E0, <- E1. split.
  - intros r c H. assert (K : In (at2 im0 r c) (x :: l)) by (rewrite <- E; apply in_arr; eauto).
    destruct K as [<-|K]; [split; assumption|]. split; [apply A3|apply B3]; exact K.
  - ring.
Qed.
Theorem prep_positive im0 im s : prep_image im0 = Ok (im, s) ->
  (exists r c r' c', in_image im0 r c /\ in_image im0 r' c' /\ at2 im0 r c <> at2 im0 r' c') ->
  forall r c, in_image im r c -> 0 < at2 im r c.
Proof.
  intros E (r2 & c2 & r3 & c3 & H2 & H3 & NE) r c H.
  destruct (prep_spec im0) as (im' & s' & r0 & c0 & r1 & c1 & E' & N1 & N2 & AT & I0 & I1 & B & MN); [destruct H2; lia|destruct H2; lia|].
  rewrite E in E'. injection E' as <- <-. assert (I : in_image im0 r c) by (unfold in_image in *; rewrite <- N1, <- N2; exact H).
  pose proof (B _ _ H2). pose proof (B _ _ H3). pose proof (B _ _ I). rewrite !AT in MN. rewrite AT.
  assert (at2 im0 r0 c0 < at2 im0 r1 c1).
  { destruct (Rtotal_order (at2 im0 r2 c2) (at2 im0 r3 c3)) as [L|[L|L]]; lra. }
  lra.
Qed.
Theorem prep_constant im0 v : (0 < nrow im0)%nat -> (0 < ncol im0)%nat -> (forall r c, in_image im0 r c -> at2 im0 r c = v) ->
  exists im, prep_image im0 = Ok (im, - v) /\ forall r c, in_image im r c -> at2 im r c = 0.
Proof.
  intros Hr Hc H. destruct (prep_spec im0 Hr Hc) as (im & s & r0 & c0 & r1 & c1 & E' & N1 & N2 & AT & I0 & I1 & B & MN).
  rewrite !AT, (H _ _ I0), (H _ _ I1) in MN. assert (s = - v) by lra. subst s. exists im. split; [exact E'|].
  intros r c I. rewrite AT, H; [lra|]. unfold in_image in *. rewrite <- N1, <- N2. exact I.
Qed.
Theorem prep_empty im0 : (nrow im0 = 0 \/ ncol im0 = 0)%nat -> prep_image im0 = Raise ValueError.
Proof. intros H. apply arr_empty in H. unfold prep_image, arr_min. rewrite H. reflexivity. Qed.
