From Verif Require Import Base Flags_Model Pixels_Model LM_Model LM_Spec LM_Proofs LMDer_Model LMDer_Spec.
Local Open Scope R_scope.

(** ** the conversions on finite vectors *)
Definition ext1 (b : bound) (v : R) : R :=
  match b with
  | (None, None) => v
  | (Some lower, None) => lower - 1 + sqrt (v * v + 1)
  | (None, Some upper) => upper + 1 - sqrt (v * v + 1)
  | (Some lower, Some upper) => lower + ((upper - lower) / 2) * (sin v + 1)
  end.
Definition slope1 (b : bound) (v : R) : R := match grad_one (Some v) b with Some g => g | None => 0 end.
Lemma ext1_eq b v : i2e_lam b (Some v) = Some (ext1 b v).
Proof. destruct b as [[l|] [u|]]; reflexivity. Qed.
Lemma slope_eq b v : grad_one (Some v) b = Some (slope1 b v).
Proof. unfold slope1. destruct (grad_correct b v) as (g & f & E & _). rewrite E. reflexivity. Qed.
Lemma slope_lim b v : derivable_pt_lim (ext1 b) v (slope1 b v).
Proof.
  unfold slope1. destruct (grad_correct b v) as (g & f & E & EF & D). rewrite E.
  assert (X : forall t, f t = ext1 b t) by (intros t; pose proof (EF t) as Y; rewrite ext1_eq in Y; congruence).
  intros eps He. destruct (D eps He) as [d Hd]. exists d. intros h H1 H2. rewrite <- !X. exact (Hd h H1 H2).
Qed.
Definition ext (bounds : list bound) (x : list R) : list R := map (fun p => ext1 (fst p) (snd p)) (combine bounds x).
Lemma ext_length bounds x : length x = length bounds -> length (ext bounds x) = length bounds.
Proof. intros H. unfold ext. rewrite map_length, combine_length. lia. Qed.
Lemma i2e_ext bounds x : length x = length bounds -> convert_i2e bounds (map Some x) = OkX (map Some (ext bounds x)).
Proof.
  intros H. unfold convert_i2e, assign_all, zip_with.
  assert (E : map (fun p : bound * option R => i2e_lam (fst p) (snd p)) (combine bounds (map Some x)) = map Some (ext bounds x)).
  { unfold ext. clear H. revert x. induction bounds as [|b bs IH]; intros [|v x]; cbn [map combine fst snd]; try reflexivity. rewrite ext1_eq, IH. reflexivity. }
  rewrite E, !map_length, ext_length by exact H. rewrite H, Nat.eqb_refl. reflexivity.
Qed.
Lemma grad_slopes bounds x : length x = length bounds -> i2e_grad (map Some x) bounds = map Some (map (fun p => slope1 (fst p) (snd p)) (combine bounds x)).
Proof.
  intros H. unfold i2e_grad. rewrite map_length, H, Nat.sub_diag. cbn [repeat]. rewrite app_nil_r. unfold zip_with.
  clear H. revert x. induction bounds as [|b bs IH]; intros [|v x]; cbn [map combine fst snd]; try reflexivity. rewrite slope_eq, IH. reflexivity.
Qed.
Lemma slope_nth bounds x i : length x = length bounds -> (i < length bounds)%nat ->
  nth i (map Some (map (fun p => slope1 (fst p) (snd p)) (combine bounds x))) None = Some (slope1 (nth i bounds (None, None)) (nth i x 0)).
Proof.
  revert x i. induction bounds as [|b bs IH]; intros [|v x] i H Hi; cbn in H, Hi; try lia. destruct i as [|i]; cbn [combine map nth fst snd]; [reflexivity|]. apply IH; lia.
Qed.
Lemma set_length x i t : length (set_nth x i t) = length x.
Proof. revert i; induction x as [|a x IH]; intros [|i]; cbn; try reflexivity; f_equal; apply IH. Qed.
Lemma ext_set bounds x i t : length x = length bounds -> (i < length bounds)%nat ->
  ext bounds (set_nth x i t) = set_nth (ext bounds x) i (ext1 (nth i bounds (None, None)) t).
Proof.
  unfold ext. revert x i. induction bounds as [|b bs IH]; intros [|v x] i H Hi; cbn in H, Hi; try lia. destruct i as [|i]; cbn [set_nth combine map nth fst snd]; [reflexivity|]. f_equal. apply IH; lia.
Qed.
Lemma ext_nth bounds x i : length x = length bounds -> (i < length bounds)%nat -> nth i (ext bounds x) 0 = ext1 (nth i bounds (None, None)) (nth i x 0).
Proof.
  unfold ext. revert x i. induction bounds as [|b bs IH]; intros [|v x] i H Hi; cbn in H, Hi; try lia. destruct i as [|i]; cbn [combine map nth fst snd]; [reflexivity|]. apply IH; lia.
Qed.
(** the chain rule *)
Lemma partial_ext bounds f j i x d : length x = length bounds -> (i < length bounds)%nat -> partial f j i (ext bounds x) d ->
  partial (fun y => f (ext bounds y)) j i x (d * slope1 (nth i bounds (None, None)) (nth i x 0)).
Proof.
  intros H Hi P. unfold partial in *. rewrite ext_nth in P by assumption.
  pose proof (derivable_pt_lim_comp (ext1 (nth i bounds (None, None))) (fun s => nth j (f (set_nth (ext bounds x) i s)) 0) (nth i x 0) _ _ (slope_lim _ _) P) as C.
  intros eps He. destruct (C eps He) as [dl Hd]. exists dl. intros h H1 H2. specialize (Hd h H1 H2). unfold comp in Hd. rewrite !ext_set by assumption. exact Hd.
Qed.

Lemma chain_rows bounds m f Dfun x J : length x = length bounds -> Dfun (map Some (ext bounds x)) = OkX J -> jacobian_rows (length bounds) m f (ext bounds x) J ->
  exists K, wDfun bounds 0 Dfun (map Some x) = OkX K /\ jacobian_rows (length bounds) m (fun y => f (ext bounds y)) x K.
Proof.
  intros H E (R1 & R2 & R3). unfold wDfun. rewrite i2e_ext by exact H. cbn [bindx]. rewrite E. cbn [bindx Nat.eqb]. unfold times_cols.
  rewrite grad_slopes by exact H. rewrite !map_length, combine_length, R2. replace (Nat.min (length bounds) (length x)) with (length bounds) by lia. rewrite Nat.eqb_refl.
  eexists. split; [reflexivity|]. split; [exact R1|]. split; [reflexivity|]. intros j i Hj Hi. destruct (R3 j i Hj Hi) as (d & Ed & Pd). cbn [at2].
  rewrite Ed, slope_nth by assumption. eexists. split; [reflexivity|]. apply partial_ext; assumption.
Qed.
Lemma chain_cols bounds m f Dfun x J : length x = length bounds -> Dfun (map Some (ext bounds x)) = OkX J -> jacobian_cols (length bounds) m f (ext bounds x) J ->
  exists K, wDfun bounds 1 Dfun (map Some x) = OkX K /\ jacobian_cols (length bounds) m (fun y => f (ext bounds y)) x K.
Proof.
  intros H E (R1 & R2 & R3). unfold wDfun. rewrite i2e_ext by exact H. cbn [bindx]. rewrite E. cbn [bindx Nat.eqb]. unfold times_rows.
  rewrite grad_slopes by exact H. rewrite !map_length, combine_length, R1. replace (Nat.min (length bounds) (length x)) with (length bounds) by lia. rewrite Nat.eqb_refl.
  eexists. split; [reflexivity|]. split; [reflexivity|]. split; [exact R2|]. intros j i Hj Hi. destruct (R3 j i Hj Hi) as (d & Ed & Pd). cbn [at2].
  rewrite Ed, slope_nth by assumption. eexists. split; [reflexivity|]. apply partial_ext; assumption.
Qed.

(** ** the solver sees the same problem with its derivatives *)
Section Fit.
Variables (lmder : (vec -> resx vec) -> (vec -> resx omat) -> vec -> nat -> nat -> resx lmret)
  (leastsq_d : (vec -> resx vec) -> vec -> (vec -> resx omat) -> nat -> nat -> resx lmtup)
  (leastsq : (vec -> resx vec) -> vec -> nat -> resx lmtup) (inv : omat -> option omat) (message : Z -> String.string).
Lemma as_without func x0 bounds Dfun cd maxfev tup : leastsqbound_d lmder leastsq_d inv message func x0 (Some bounds) Dfun cd maxfev = OkX tup ->
  leastsqbound (fun wfunc i0 _ => lmder wfunc (wDfun bounds cd Dfun) i0 cd (if Nat.eqb maxfev 0 then (100 * (length x0 + 1))%nat else maxfev)) leastsq inv message func x0 (Some bounds) maxfev = OkX tup.
Proof.
  unfold leastsqbound_d, leastsqbound. destruct (convert_e2i bounds x0); cbn [bindx]; [|discriminate]. destruct (negb _); [discriminate|].
  destruct (func x0); cbn [bindx]; [|discriminate]. destruct (_ <? _)%nat; [discriminate|]. destruct (Dfun x0); cbn [bindx]; [|discriminate]. destruct (check_shape _ _); cbn [bindx]; [|discriminate].
  intros H. exact H.
Qed.
End Fit.

Lemma chain cd bounds m func f Dfun : cd = 0%nat \/ cd = 1%nat -> computes (length bounds) m func f ->
  (forall x, length x = length bounds -> exists J, Dfun (map Some x) = OkX J /\
     (if negb (Nat.eqb cd 0) then jacobian_cols (length bounds) m f x J else jacobian_rows (length bounds) m f x J)) ->
  with_derivatives (negb (Nat.eqb cd 0)) (length bounds) m (fun x => bindx (convert_i2e bounds x) func) (wDfun bounds cd Dfun).
Proof.
  intros Hcd C D. exists (fun y => f (ext bounds y)). split.
  - intros x Hx. destruct (C (ext bounds x) (ext_length _ _ Hx)) as [L E]. split; [exact L|]. rewrite i2e_ext by exact Hx. exact E.
  - intros x Hx. destruct (D (ext bounds x) (ext_length _ _ Hx)) as (J & EJ & PJ). destruct Hcd as [-> | ->]; cbn [Nat.eqb negb] in *.
    + apply (chain_rows bounds m f Dfun x J); assumption.
    + apply (chain_cols bounds m f Dfun x J); assumption.
Qed.
Lemma wrapped cd bounds m func Dfun : cd = 0%nat \/ cd = 1%nat -> with_derivatives (negb (Nat.eqb cd 0)) (length bounds) m func Dfun ->
  with_derivatives (negb (Nat.eqb cd 0)) (length bounds) m (fun x => bindx (convert_i2e bounds x) func) (wDfun bounds cd Dfun).
Proof. intros H (f & C & D). exact (chain cd bounds m func f Dfun H C D). Qed.

Lemma solver_problem lmder lmder' leastsq inv message func x0 bounds m Dfun cd maxfev : cd = 0%nat \/ cd = 1%nat ->
  with_derivatives (negb (Nat.eqb cd 0)) (length bounds) m func Dfun ->
  (forall w wD i k, length i = length bounds -> with_derivatives (negb (Nat.eqb cd 0)) (length bounds) m w wD -> lmder w wD i cd k = lmder' w wD i cd k) ->
  leastsqbound_d lmder leastsq inv message func x0 (Some bounds) Dfun cd maxfev = leastsqbound_d lmder' leastsq inv message func x0 (Some bounds) Dfun cd maxfev.
Proof.
  intros Hcd W A. unfold leastsqbound_d. destruct (Nat.eq_dec (length bounds) (length x0)) as [Hl|Hl].
  2:{ destruct (convert_e2i bounds x0); [|reflexivity]. cbn [bindx]. apply Nat.eqb_neq in Hl. rewrite Hl. reflexivity. }
  rewrite convert_e2i_ok by now symmetry. cbn [bindx]. destruct (negb (length bounds =? length x0)%nat); [reflexivity|].
  destruct (func x0) as [f0|]; [|reflexivity]. cbn [bindx]. destruct (length f0 <? length x0)%nat; [reflexivity|].
  destruct (Dfun x0); cbn [bindx]; [|reflexivity]. destruct (check_shape _ _); cbn [bindx]; [|reflexivity].
  rewrite A; [reflexivity|rewrite zip_with_length, <- Hl; apply Nat.min_id|exact (wrapped cd bounds m func Dfun Hcd W)].
Qed.
Lemma d_inside lmder leastsq inv message func x0 bounds Dfun cd maxfev tup : d_keeps_length lmder -> Forall consistent bounds ->
  leastsqbound_d lmder leastsq inv message func x0 (Some bounds) Dfun cd maxfev = OkX tup -> inside bounds (tp_x tup).
Proof.
  intros K C H. apply (as_without lmder leastsq (fun _ x _ => RaiseX ValueError false) inv message) in H. apply fit_inside in H; [exact H| |exact C].
  intros f i k r E. exact (K _ _ _ _ _ _ E).
Qed.
Lemma d_evaluations lmder leastsq inv message func func' x0 bounds Dfun Dfun' cd maxfev : d_black_box lmder -> Forall consistent bounds ->
  func x0 = func' x0 -> Dfun x0 = Dfun' x0 -> (forall x, inside bounds x -> func x = func' x) -> (forall x, inside bounds x -> Dfun x = Dfun' x) ->
  leastsqbound_d lmder leastsq inv message func x0 (Some bounds) Dfun cd maxfev = leastsqbound_d lmder leastsq inv message func' x0 (Some bounds) Dfun' cd maxfev.
Proof.
  intros B C H0 D0 Hf HD. unfold leastsqbound_d. destruct (Nat.eq_dec (length bounds) (length x0)) as [Hl|Hl].
  2:{ destruct (convert_e2i bounds x0); [|reflexivity]. cbn [bindx]. apply Nat.eqb_neq in Hl. rewrite Hl. reflexivity. }
  rewrite convert_e2i_ok by now symmetry. cbn [bindx]. destruct (negb (length bounds =? length x0)%nat); [reflexivity|]. rewrite H0, D0.
  destruct (func' x0) as [f0|]; [|reflexivity]. cbn [bindx]. destruct (length f0 <? length x0)%nat; [reflexivity|].
  destruct (Dfun' x0); cbn [bindx]; [|reflexivity]. destruct (check_shape _ _); cbn [bindx]; [|reflexivity].
  erewrite B; [reflexivity| |]; intros x Hx; rewrite zip_with_length, <- Hl, Nat.min_id in Hx; unfold wDfun; cbn beta zeta; rewrite convert_i2e_ok by exact Hx; cbn [bindx].
  - apply Hf. apply zip_inside; assumption.
  - rewrite HD by (apply zip_inside; assumption). reflexivity.
Qed.
Lemma d_covariance lmder leastsq inv message func x0 bounds Dfun cd maxfev tup C :
  inv_correct inv -> inv_extensional inv ->
  (forall f D i c k r, lmder f D i c k = OkX r -> minpack_output (length i) r) ->
  leastsqbound_d lmder leastsq inv message func x0 (Some bounds) Dfun cd maxfev = OkX tup -> tp_cov tup = Some C ->
  let n := length x0 in
  exists f D i k ret, lmder f D i cd k = OkX ret /\ (1 <= rt_info ret <= 4)%Z /\
  forall (xs : list R) (fj : nat -> nat -> R) (d : nat -> R),
  rt_x ret = map Some xs ->
  (forall j i, (j < n)%nat -> (i < n)%nat -> rt_fjac ret j i = Some (fj j i)) ->
  (forall k, (k < n)%nat -> d k <> 0 /\ exists h, (forall v, i2e_lam (nth k bounds (None, None)) (Some v) = Some (h v)) /\ derivable_pt_lim h (nth k xs 0) (d k)) ->
  exists I : nat -> nat -> R,
    (forall i j, (i < n)%nat -> (j < n)%nat -> at2 C i j = Some (d i * I i j * d j)) /\
    (forall i k, (i < n)%nat -> (k < n)%nat -> rsum (map (fun j => I i j * gauss_newton n fj (rt_ipvt ret) j k) (seq 0 n)) = if Nat.eqb i k then 1 else 0).
Proof.
  intros I1 I2 M H HC n. apply (as_without lmder leastsq (fun _ x _ => RaiseX ValueError false) inv message) in H.
  eapply external_cov in H; [|exact I1|exact I2| |exact HC]; [|intros f i k r E; exact (M _ _ _ _ _ _ E)].
  destruct H as (f & i & k & ret & E & HI & HE). exists f, (wDfun bounds cd Dfun), i. eexists. exists ret. split; [exact E|]. split; [exact HI|exact HE].
Qed.
Lemma wrong_shape lmder leastsq inv message func x0 bounds Dfun cd maxfev f0 J0 : (2 <= length bounds)%nat -> length x0 = length bounds ->
  func x0 = OkX f0 -> (length bounds <= length f0)%nat -> Dfun x0 = OkX J0 ->
  (nrow J0, ncol J0) <> (if Nat.eqb cd 0 then (length f0, length bounds) else (length bounds, length f0)) ->
  leastsqbound_d lmder leastsq inv message func x0 (Some bounds) Dfun cd maxfev = RaiseX TypeError false.
Proof.
  intros H2 Hl Ef Hm ED HS. unfold leastsqbound_d. rewrite convert_e2i_ok by exact Hl. cbn [bindx]. rewrite Hl, Nat.eqb_refl. cbn [negb]. rewrite Ef. cbn [bindx].
  destruct (Nat.ltb_spec (length f0) (length bounds)); [lia|]. rewrite ED. cbn [bindx]. unfold check_shape.
  destruct (Nat.eqb_spec cd 0) as [Hc|Hc]; cbn [fst snd]; destruct (Nat.eqb_spec (nrow J0) (if Nat.eqb cd 0 then length f0 else length bounds)) as [E1|E1];
    destruct (Nat.eqb_spec (ncol J0) (if Nat.eqb cd 0 then length bounds else length f0)) as [E2|E2]; subst;
    repeat match goal with |- context [Nat.eqb ?a ?b] => destruct (Nat.eqb_spec a b) end; cbn [andb bindx]; try reflexivity; try lia; exfalso; apply HS; congruence.
Qed.

(** ** the example *)
Lemma two_computes : computes 2 2 two_func two_values.
Proof. intros [|a [|b [|]]] H; cbn in H; try lia. split; reflexivity. Qed.
Lemma two_partial j i x : length x = 2%nat -> (j < 2)%nat -> (i < 2)%nat -> partial two_values j i x (match i, j with 0%nat, _ => 1 | _, 0%nat => 0 | _, _ => 1 end).
Proof.
  intros Hx Hj Hi. destruct x as [|a [|b [|]]]; cbn in Hx; try lia. unfold partial.
  destruct i as [|[|]]; [| |lia]; destruct j as [|[|]]; try lia; cbn [set_nth two_values nth].
  - apply derivable_pt_lim_id.
  - replace 1 with (1 + 0) by ring. apply (derivable_pt_lim_plus (fun t => t) (fun _ => b)); [apply derivable_pt_lim_id|apply derivable_pt_lim_const].
  - apply (derivable_pt_lim_const a).
  - replace 1 with (0 + 1) by ring. apply (derivable_pt_lim_plus (fun _ => a) (fun t => t)); [apply derivable_pt_lim_const|apply derivable_pt_lim_id].
Qed.
Lemma two_down_ok : with_derivatives true 2 2 two_func two_down.
Proof.
  exists two_values. split; [exact two_computes|]. intros x Hx. eexists. split; [reflexivity|]. split; [reflexivity|]. split; [reflexivity|]. intros j i Hj Hi.
  eexists. split; [reflexivity|]. apply two_partial; assumption.
Qed.
Lemma two_across_ok : with_derivatives false 2 2 two_func two_across.
Proof.
  exists two_values. split; [exact two_computes|]. intros x Hx. eexists. split; [reflexivity|]. split; [reflexivity|]. split; [reflexivity|]. intros j i Hj Hi.
  eexists. split; [reflexivity|]. apply two_partial; assumption.
Qed.
Lemma partial_unique f j i x d d' : partial f j i x d -> partial f j i x d' -> d = d'.
Proof. unfold partial. apply uniqueness_limite. Qed.
Lemma computes_ext n m w f f' x : computes n m w f -> computes n m w f' -> length x = n -> f x = f' x.
Proof. intros A B H. destruct (A x H) as [_ E]. destruct (B x H) as [_ E']. rewrite E in E'. injection E' as E'. revert E'. generalize (f x) (f' x). induction l as [|a l IH]; intros [|b l'] H1; cbn in H1; try discriminate; [reflexivity|]. injection H1 as -> H1. f_equal. apply IH, H1. Qed.
Lemma partial_ext2 f f' j i x d : (forall y, length y = length x -> f y = f' y) -> partial f j i x d -> partial f' j i x d.
Proof.
  intros E P. unfold partial in *. intros eps He. destruct (P eps He) as [dl Hd]. exists dl. intros h H1 H2. specialize (Hd h H1 H2). rewrite <- !E by apply set_length. exact Hd.
Qed.
Lemma two_nonzero cd : (2 <= cd)%nat -> ~ with_derivatives true 2 2 (fun x => bindx (convert_i2e two_bounds x) two_func) (wDfun two_bounds cd two_down).
Proof.
  intros Hc (f & C & D). destruct (D [0; 0] eq_refl) as (J & EJ & _ & _ & HJ).
  destruct (wrapped 1 two_bounds 2 two_func two_down (or_intror eq_refl) two_down_ok) as (f' & C' & D').
  destruct (D' [0; 0] eq_refl) as (J' & EJ' & _ & _ & HJ').
  destruct (HJ 1%nat 0%nat) as (d & Ed & Pd); [lia|lia|]. destruct (HJ' 1%nat 0%nat) as (d' & Ed' & Pd'); [cbn; lia|cbn; lia|].
  assert (X : d = d').
  { apply (partial_unique f' 1 0 [0; 0]); [|exact Pd']. apply (partial_ext2 f); [|exact Pd]. intros y Hy. exact (computes_ext 2 2 _ f f' y C C' Hy). }
  assert (A : d = 1).
  { revert EJ Ed. unfold wDfun. rewrite i2e_ext by reflexivity. cbn [bindx two_down]. destruct (Nat.eqb_spec cd 1); [lia|]. unfold times_cols. rewrite grad_slopes by reflexivity.
    cbn [two_bounds combine map length ncol Nat.eqb fst snd]. intros E. injection E as <-. cbn [at2 nth]. unfold slope1. cbn [grad_one omul]. unfold omul, obind. intros [= <-]. ring. }
  assert (B : d' = 0).
  { revert EJ' Ed'. unfold wDfun. rewrite i2e_ext by reflexivity. cbn [bindx two_down Nat.eqb]. unfold times_rows. rewrite grad_slopes by reflexivity.
    cbn [two_bounds combine map length nrow Nat.eqb fst snd]. intros E. injection E as <-. cbn [at2 nth]. unfold slope1. cbn [grad_one]. unfold obind.
    rewrite !Rmult_0_l, Rplus_0_l, sqrt_1. unfold odiv, omul, obind. destruct (Reqb_spec 1 0); [lra|]. intros [= <-]. lra. }
  lra.
Qed.
Lemma stay_keeps : d_keeps_length stay.
Proof. intros f D i c k r H. unfold stay in H. apply bindx_ok in H as [a [_ H]]. apply bindx_ok in H as [b [_ H]]. injection H as <-. reflexivity. Qed.
Lemma stay_black_box : d_black_box stay.
Proof. intros f f' D D' i c k H1 H2. unfold stay. rewrite (H1 i eq_refl), (H2 i eq_refl). reflexivity. Qed.
Lemma two_consistent : Forall consistent two_bounds.
Proof.
  unfold two_bounds. apply Forall_cons; [exists 0; split; cbn; intros ? [= <-]; lra|]. apply Forall_cons; [exists 0; split; cbn; intros ? [=]|]. constructor.
Qed.
Lemma two_run leastsq inv message : exists tup, leastsqbound_d stay leastsq inv message two_func [Some 1; Some 2] (Some two_bounds) two_across 0 0 = OkX tup.
Proof.
  unfold leastsqbound_d. rewrite convert_e2i_ok by reflexivity.
  assert (L : exists a b, zip_with e2i_lam two_bounds [Some 1; Some 2] = [a; b]) by (do 2 eexists; reflexivity). destruct L as (a & b & ->).
  cbn [bindx two_bounds length Nat.eqb negb two_func nth]. unfold two_across at 1. cbn [bindx Nat.ltb Nat.leb length]. unfold check_shape. cbn [nrow ncol fst snd Nat.eqb andb bindx].
  unfold stay. rewrite convert_i2e_ok by reflexivity. cbn [bindx two_func]. unfold wDfun. rewrite convert_i2e_ok by reflexivity. cbn [bindx two_across Nat.eqb]. unfold times_cols.
  cbn [i2e_grad two_bounds zip_with combine map length Nat.sub repeat app ncol Nat.eqb bindx rt_x rt_info rt_ipvt seq]. cbn [Z.leb Z.compare Pos.compare Pos.compare_cont andb negb].
  rewrite convert_i2e_ok by reflexivity. cbn. eexists. reflexivity.
Qed.
