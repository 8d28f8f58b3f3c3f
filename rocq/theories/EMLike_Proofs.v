(** The iterations of EM raise the likelihood. *)
From Verif Require Import Base Moments_Spec Pixels_Model GMix_Model GMix_Spec Render_Spec Render_Proofs FastExp_Model FastExp_Proofs GMixObj_Model EM_Model EM_Spec EM_Proofs EMResult_Proofs.
From Coq Require Import Psatz.
Local Open Scope R_scope.

(** ** sums *)
Lemma rsum_le {A} (f g : A -> R) l : (forall x, In x l -> f x <= g x) -> rsum (map f l) <= rsum (map g l).
Proof.
  induction l as [|x l IH]; intros H; [cbn; lra|]. cbn [map]. rewrite !rsum_cons. pose proof (H x (or_introl eq_refl)).
  assert (rsum (map f l) <= rsum (map g l)) by (apply IH; intros; apply H; right; assumption). lra.
Qed.
Lemma rsum_swap {A B} (f : A -> B -> R) la lb : rsum (map (fun a => rsum (map (fun b => f a b) lb)) la) = rsum (map (fun b => rsum (map (fun a => f a b) la)) lb).
Proof.
  induction la as [|a la IH]; [cbn [map]; rewrite rsum_nil, rsum_zero; reflexivity|]. cbn [map]. rewrite rsum_cons, IH, <- rsum_map_plus. reflexivity.
Qed.
Lemma rsum_flat {A B} (f : A -> list B) (F : B -> R) l : rsum (map F (flat_map f l)) = rsum (map (fun a => rsum (map F (f a))) l).
Proof. induction l as [|a l IH]; [reflexivity|]. cbn [flat_map map]. rewrite map_app, rsum_app, rsum_cons, IH. reflexivity. Qed.
Lemma pos_exists {A} (f : A -> R) l : 0 < rsum (map f l) -> exists x, In x l /\ 0 < f x.
Proof.
  induction l as [|x l IH]; cbn [map]; rewrite ?rsum_nil, ?rsum_cons; intros H; [lra|]. destruct (Rlt_le_dec 0 (f x)) as [P|P]; [exists x; split; [left; reflexivity|exact P]|].
  destruct IH as (y & Y1 & Y2); [lra|]. exists y. split; [right; exact Y1|exact Y2].
Qed.
Lemma rsum_mem {A} (f : A -> R) l x : (forall y, In y l -> 0 <= f y) -> In x l -> f x <= rsum (map f l).
Proof.
  induction l as [|y l IH]; intros H I; [destruct I|]. cbn [map]. rewrite rsum_cons. pose proof (H y (or_introl eq_refl)).
  assert (0 <= rsum (map f l)) by (apply rsum_nonneg; intros z Hz; apply in_map_iff in Hz; destruct Hz as (w & <- & Hw); apply H; right; exact Hw).
  destruct I as [<-|I]; [lra|]. pose proof (IH (fun z Hz => H z (or_intror Hz)) I). lra.
Qed.
Lemma ln_le_sub x : 0 < x -> ln x <= x - 1.
Proof.
  intros H. rewrite <- (ln_exp (x - 1)). destruct (Req_dec x 1) as [->|N].
  - right. f_equal. replace (1 - 1) with 0 by ring. rewrite exp_0. reflexivity.
  - left. apply ln_increasing; [exact H|]. pose proof (exp_ineq1 (x - 1) ltac:(lra)). lra.
Qed.
Lemma ln_mono x y : 0 < x -> x <= y -> ln x <= ln y.
Proof. intros H [L| ->]; [left; apply ln_increasing; assumption|right; reflexivity]. Qed.

(** ** the bound behind EM: one pixel *)
Lemma jensen {A} (l : list A) (a d L : A -> R) (s s' Ls t m v : R) : 0 <= v -> 0 < t -> t = rsum (map a l) + s -> m = rsum (map d l) + s' ->
  (forall c, In c l -> 0 <= a c /\ 0 <= d c /\ (0 < v -> 0 < a c -> 0 < d c /\ L c <= ln (d c / a c))) ->
  0 <= s -> 0 <= s' -> (0 < v -> 0 < s -> 0 < s' /\ Ls <= ln (s' / s)) ->
  rsum (map (fun c => a c / t * v * L c) l) + s / t * v * Ls + v * ln t <= v * ln m.
Proof.
  intros V T Et Em H S S' HS. destruct V as [V|<-].
  2:{ rewrite (rsum_map_ext _ (fun _ => 0)) by (intros; ring). rewrite rsum_zero. lra. }
  assert (D0 : 0 <= rsum (map d l)) by (apply rsum_nonneg; intros z Hz; apply in_map_iff in Hz; destruct Hz as (w & <- & Hw); apply H; exact Hw).
  assert (M : 0 < m).
  { destruct (Rlt_le_dec 0 s) as [P|P]; [destruct (HS V P); lra|]. destruct (pos_exists a l) as (c & C1 & C2); [lra|].
    destruct (H c C1) as (_ & _ & Q). destruct (Q V C2) as (Q1 & _). pose proof (rsum_mem d l c (fun y Hy => proj1 (proj2 (H y Hy))) C1). lra. }
  assert (Q : forall x x' w, 0 <= x -> 0 <= x' -> (0 < x -> 0 < x' /\ w <= ln (x' / x)) -> x / t * v * (w + (ln t - ln m)) <= v * (x' / m - x / t)).
  { intros x x' w X X' W. destruct X as [X|<-].
    - destruct (W X) as (X1 & W1). assert (P : 0 < x / t * v) by (apply Rmult_lt_0_compat; [apply Rdiv_lt_0_compat; assumption|assumption]).
      assert (B : ln (x' / x) + (ln t - ln m) <= x' * t / (x * m) - 1).
      { replace (ln (x' / x) + (ln t - ln m)) with (ln (x' * t / (x * m))); [apply ln_le_sub; apply Rdiv_lt_0_compat; nra|].
        unfold Rdiv. rewrite !ln_mult, !ln_Rinv, ln_mult by (try apply Rinv_0_lt_compat; nra). ring. }
      apply Rle_trans with (x / t * v * (x' * t / (x * m) - 1)); [apply Rmult_le_compat_l; lra|]. right. field. lra.
    - replace (0 / t) with 0 by (field; lra). rewrite !Rmult_0_l, Rminus_0_r. apply Rmult_le_pos; [lra|]. apply Rmult_le_pos; [exact X'|]. left. apply Rinv_0_lt_compat; exact M. }
  assert (SUM : rsum (map (fun c => a c / t * v * (L c + (ln t - ln m))) l) <= v * (rsum (map d l) / m - rsum (map a l) / t)).
  { apply Rle_trans with (rsum (map (fun c => v * (d c / m - a c / t)) l)).
    - apply rsum_le. intros c Hc. destruct (H c Hc) as (H1 & H2 & H3). apply Q; [assumption|assumption|]. intros P. apply H3; assumption.
    - right. rewrite rsum_map_mult. f_equal. unfold Rminus, Rdiv. rewrite rsum_map_plus. f_equal.
      + rewrite (rsum_map_ext _ (fun c => / m * d c)) by (intros; ring). rewrite rsum_map_mult. ring.
      + rewrite (rsum_map_ext _ (fun c => (- / t) * a c)) by (intros; ring). rewrite rsum_map_mult. ring. }
  pose proof (Q s s' Ls S S' (HS V)) as SK.
  assert (E : rsum (map (fun c => a c / t * v * (L c + (ln t - ln m))) l) = rsum (map (fun c => a c / t * v * L c) l) + rsum (map a l) / t * v * (ln t - ln m)).
  { rewrite (rsum_map_ext _ (fun c => a c / t * v * L c + (/ t * v * (ln t - ln m)) * a c)) by (intros; unfold Rdiv; ring). rewrite rsum_map_plus, rsum_map_mult. unfold Rdiv. ring. }
  rewrite E in SUM. assert (T1 : rsum (map a l) / t + s / t = 1) by (rewrite Et; field; lra). assert (M1 : rsum (map d l) / m + s' / m = 1) by (rewrite Em; field; lra).
  replace (rsum (map a l) / t) with (1 - s / t) in SUM by lra. replace (rsum (map d l) / m) with (1 - s' / m) in SUM by lra. nra.
Qed.
(** fluxes: x = new value maximises A ln p - p *)
Lemma flux_gain p A : 0 <= p -> 0 <= A -> (p = 0 -> A = 0) -> A - p <= A * ln (A / p).
Proof.
  intros P [A1| <-] Z; [|lra]. destruct P as [P|<-]; [|specialize (Z eq_refl); lra].
  pose proof (ln_le_sub (p / A) ltac:(apply Rdiv_lt_0_compat; assumption)) as B.
  assert (E : ln (A / p) = - ln (p / A)). { unfold Rdiv. rewrite !ln_mult, !ln_Rinv by (try apply Rinv_0_lt_compat; assumption). ring. }
  rewrite E. assert (A * (p / A) = p) by (field; lra). nra.
Qed.

(** ** covariance matrices *)
Definition quad (m : sym2) (a b c : R) : R := (xx m * a - 2 * xy m * b + yy m * c) / det2 m.
Lemma maha_quad m x y : maha m x y = quad m (x * x) (x * y) (y * y).
Proof. unfold maha, quad. f_equal. ring. Qed.
Lemma ev_pos h : evaluable h -> 0 < det2 (gcov h) /\ 0 < xx (gcov h) /\ 0 < yy (gcov h).
Proof.
  intros (E1 & E2). pose proof low_pos as L. unfold det2, trace2 in *. set (a := xx (gcov h)) in *. set (b := yy (gcov h)) in *. set (c := xy (gcov h)) in *.
  assert (0 < a * b - c * c) by lra. assert (0 < a + b) by lra. repeat split; [assumption| |]; nra.
Qed.
Lemma quad_nonneg m x y : 0 < det2 m -> 0 < xx m -> 0 <= quad m (x * x) (x * y) (y * y).
Proof.
  intros D X. unfold quad. apply Rmult_le_pos; [|left; apply Rinv_0_lt_compat; exact D].
  apply Rmult_le_reg_l with (xx m); [exact X|]. rewrite Rmult_0_r.
  replace (xx m * (xx m * (x * x) - 2 * xy m * (x * y) + yy m * (y * y))) with ((xx m * x - xy m * y) * (xx m * x - xy m * y) + det2 m * (y * y)) by (unfold det2; ring).
  pose proof (Rle_0_sqr (xx m * x - xy m * y)) as S1. pose proof (Rle_0_sqr y) as S2. unfold Rsqr in *. pose proof (Rmult_le_pos (det2 m) (y * y) ltac:(lra) S2). lra.
Qed.
Lemma quad_self m : det2 m <> 0 -> quad m (yy m) (xy m) (xx m) = 2.
Proof. intros D. unfold quad, det2 in *. field. exact D. Qed.
(** gain by taking the second moments as covariance *)
Lemma cov_gain m s : 0 < det2 m -> 0 < xx m -> 0 < det2 s -> 0 < xx s -> 0 < yy s -> ln (det2 s / det2 m) <= quad m (yy s) (xy s) (xx s) - 2.
Proof.
  intros D X D' X' Y'. set (q := quad m (yy s) (xy s) (xx s)).
  assert (Q : q * det2 m = xx m * yy s - 2 * xy m * xy s + yy m * xx s) by (unfold q, quad; field; lra).
  assert (SQ : 4 * det2 m * det2 s <= (q * det2 m) * (q * det2 m)).
  { rewrite Q. assert (E : (xx m * yy s - 2 * xy m * xy s + yy m * xx s) * (xx m * yy s - 2 * xy m * xy s + yy m * xx s) - 4 * det2 m * det2 s =
      (det2 m * xx s / xx m - (xx m * yy s - 2 * xy m * xy s + xy m * xy m * xx s / xx m)) ^ 2 + 4 * det2 m * (xy s - xy m * xx s / xx m) ^ 2) by (unfold det2; field; lra).
    assert (0 <= (xy s - xy m * xx s / xx m) ^ 2) by apply pow2_ge_0. pose proof (pow2_ge_0 (det2 m * xx s / xx m - (xx m * yy s - 2 * xy m * xy s + xy m * xy m * xx s / xx m))). nra. }
  assert (P : 0 < q * det2 m).
  { rewrite Q. apply Rmult_lt_reg_l with (xx m * xx s); [nra|]. rewrite Rmult_0_r. unfold det2 in *.
    replace (xx m * xx s * (xx m * yy s - 2 * xy m * xy s + yy m * xx s)) with ((xx m * xy s - xy m * xx s) * (xx m * xy s - xy m * xx s) + xx m * xx m * (xx s * yy s - xy s * xy s) + xx s * xx s * (xx m * yy m - xy m * xy m)) by ring.
    assert (0 < xx m * xx m * (xx s * yy s - xy s * xy s)) by (apply Rmult_lt_0_compat; [nra|assumption]). assert (0 < xx s * xx s * (xx m * yy m - xy m * xy m)) by (apply Rmult_lt_0_compat; [nra|assumption]).
    pose proof (Rle_0_sqr (xx m * xy s - xy m * xx s)) as S1. unfold Rsqr in S1. lra. }
  assert (Qp : 0 < q) by nra. assert (R1 : 0 < det2 s / det2 m) by (apply Rdiv_lt_0_compat; assumption).
  assert (R2 : det2 s / det2 m <= (q / 2) * (q / 2)).
  { apply Rmult_le_reg_r with (4 * det2 m * det2 m); [nra|]. replace (det2 s / det2 m * (4 * det2 m * det2 m)) with (4 * det2 m * det2 s) by (field; lra). nra. }
  apply Rle_trans with (ln ((q / 2) * (q / 2))); [apply ln_mono; assumption|]. rewrite ln_mult by lra. pose proof (ln_le_sub (q / 2) ltac:(lra)). lra.
Qed.

(** ** second moments of weighted pixels *)
Section Moments.
Variables (px : list (pixel R)) (w : pixel R -> R) (row col row' col' : R) (M M' : sym2).
Let A := rsum (map w px).
Let mv := rsum (map (fun p => px_v p * w p) px) / A.
Let mu := rsum (map (fun p => px_u p * w p) px) / A.
Let svv := rsum (map (fun p => (px_v p - row) * (px_v p - row) * w p) px) / A.
Let svu := rsum (map (fun p => (px_v p - row) * (px_u p - col) * w p) px) / A.
Let suu := rsum (map (fun p => (px_u p - col) * (px_u p - col) * w p) px) / A.
Hypothesis A0 : A <> 0.
Lemma sum_maha m : rsum (map (fun p => w p * maha m (px_v p - row) (px_u p - col)) px) = A * quad m svv svu suu.
Proof.
  unfold svv, svu, suu, quad.
  rewrite (rsum_map_ext _ (fun p => xx m / det2 m * ((px_v p - row) * (px_v p - row) * w p) + (- (2 * xy m / det2 m) * ((px_v p - row) * (px_u p - col) * w p) + yy m / det2 m * ((px_u p - col) * (px_u p - col) * w p))))
    by (intros p _; rewrite maha_quad; unfold quad, Rdiv; ring).
  rewrite !rsum_map_plus, !rsum_map_mult. unfold Rdiv.
  transitivity (A * / A * (xx m * / det2 m * rsum (map (fun x => (px_v x - row) * (px_v x - row) * w x) px) + (- (2 * xy m * / det2 m) * rsum (map (fun x => (px_v x - row) * (px_u x - col) * w x) px) + yy m * / det2 m * rsum (map (fun x => (px_u x - col) * (px_u x - col) * w x) px)))); [rewrite Rinv_r by exact A0; ring|ring].
Qed.
Lemma sum_maha_mean m : rsum (map (fun p => w p * maha m (px_v p - mv) (px_u p - mu)) px) = A * quad m svv svu suu - A * quad m ((mv - row) * (mv - row)) ((mv - row) * (mu - col)) ((mu - col) * (mu - col)).
Proof.
  rewrite <- sum_maha.
  assert (E1 : rsum (map (fun p => (px_v p - row) * w p) px) = A * (mv - row)).
  { rewrite (rsum_map_ext _ (fun p => px_v p * w p + - row * w p)) by (intros; ring). rewrite rsum_map_plus, rsum_map_mult. fold A. unfold mv. field. exact A0. }
  assert (E2 : rsum (map (fun p => (px_u p - col) * w p) px) = A * (mu - col)).
  { rewrite (rsum_map_ext _ (fun p => px_u p * w p + - col * w p)) by (intros; ring). rewrite rsum_map_plus, rsum_map_mult. fold A. unfold mu. field. exact A0. }
  set (dv := mv - row) in *. set (du := mu - col) in *.
  rewrite (rsum_map_ext _ (fun p => w p * maha m (px_v p - row) (px_u p - col) +
     (- (2 * (xx m * dv - xy m * du) / det2 m) * ((px_v p - row) * w p) + (- (2 * (yy m * du - xy m * dv) / det2 m) * ((px_u p - col) * w p) + quad m (dv * dv) (dv * du) (du * du) * w p))))
    by (intros p _; rewrite !maha_quad; unfold quad, Rdiv, dv, du; ring).
  rewrite !rsum_map_plus, !rsum_map_mult, E1, E2. fold A. unfold quad, Rdiv. ring.
Qed.
End Moments.

(** ** gaussians in pixels *)
Definition eps : R := 4 / 100000.
Lemma ln_sqrt x : 0 < x -> ln (sqrt x) = / 2 * ln x.
Proof. intros H. rewrite <- (sqrt_sqrt x) at 2 by lra. rewrite ln_mult by (apply sqrt_lt_R0; exact H). field. Qed.
Definition exact_pixel (h : gauss) (p : pixel R) : R := component h (px_v p) (px_u p) * px_area p.
Lemma exact_form h p : 0 < det2 (gcov h) -> exact_pixel h p = g_p h * (exp (- dist2 h p / 2) * px_area p / (2 * PI * sqrt (det2 (gcov h)))).
Proof. intros D. unfold exact_pixel, component. fold (dist2 h p). field. split; [apply Rgt_not_eq, sqrt_lt_R0; exact D|apply PI_neq0]. Qed.
Lemma shape_pos h p : 0 < det2 (gcov h) -> 0 < px_area p -> 0 < exp (- dist2 h p / 2) * px_area p / (2 * PI * sqrt (det2 (gcov h))).
Proof.
  intros D A. apply Rdiv_lt_0_compat; [apply Rmult_lt_0_compat; [apply exp_pos|exact A]|]. pose proof PI_RGT_0. pose proof (sqrt_lt_R0 _ D). nra.
Qed.
Lemma ln_exact h p : 0 < g_p h -> 0 < det2 (gcov h) -> 0 < px_area p ->
  ln (exact_pixel h p) = ln (g_p h) - dist2 h p / 2 - / 2 * ln (det2 (gcov h)) + (ln (px_area p) - ln (2 * PI)).
Proof.
  intros G D A. rewrite exact_form by exact D. pose proof (shape_pos h p D A) as S. pose proof PI_RGT_0 as P. pose proof (sqrt_lt_R0 _ D) as Q. pose proof (exp_pos (- dist2 h p / 2)) as X.
  rewrite ln_mult by assumption. unfold Rdiv at 1. assert (0 < 2 * PI) by lra. assert (0 < 2 * PI * sqrt (det2 (gcov h))) by nra.
  rewrite ln_mult; [|nra|apply Rinv_0_lt_compat; assumption]. rewrite ln_Rinv by assumption. rewrite !ln_mult by assumption. rewrite ln_exp, ln_sqrt by exact D. field.
Qed.
Lemma dist_nonneg h p : evaluable h -> 0 <= dist2 h p.
Proof. intros E. destruct (ev_pos h E) as (D & X & _). unfold dist2. rewrite maha_quad. apply quad_nonneg; assumption. Qed.
(** the drawn value, relative to the exact one *)
Lemma drawn_exact h p : evaluable h -> 0 <= g_p h -> 0 < px_area p -> dist2 h p < 25 ->
  (1 - eps) * exact_pixel h p <= in_pixel h p <= (1 + eps) * exact_pixel h p.
Proof.
  intros E G A L. pose proof (dist_nonneg h p E) as D0. destruct (ev_pos h E) as (D & _). rewrite exact_form by exact D.
  unfold in_pixel. destruct (Rlt_dec (dist2 h p) 25) as [_|]; [|contradiction]. pose proof (sqrt_lt_R0 _ D) as Q. pose proof PI_RGT_0 as P.
  destruct (fexp_spec (- (5/10) * dist2 h p) ltac:(lra)) as (y & Ey & B). unfold fast_exp. rewrite Ey.
  replace (- (5 / 10) * dist2 h p) with (- dist2 h p / 2) in B by field. apply Rabs_def2 in B. set (e := exp (- dist2 h p / 2)) in *.
  set (c := g_p h * px_area p / (2 * PI * sqrt (det2 (gcov h)))).
  assert (C : 0 <= c) by (unfold c; apply Rmult_le_pos; [nra|left; apply Rinv_0_lt_compat; nra]).
  replace (g_p h / (2 * PI * sqrt (det2 (gcov h))) * y * px_area p) with (c * y) by (unfold c; field; split; lra).
  replace (g_p h * (e * px_area p / (2 * PI * sqrt (det2 (gcov h))))) with (c * e) by (unfold c; field; split; lra).
  unfold eps. split; nra.
Qed.
Lemma drawn_nonneg h p : evaluable h -> 0 <= g_p h -> 0 < px_area p -> 0 <= in_pixel h p.
Proof.
  intros E G A. destruct (Rlt_le_dec (dist2 h p) 25) as [L|L].
  - pose proof (drawn_exact h p E G A L) as (B & _). destruct (ev_pos h E) as (D & _). rewrite exact_form in B by exact D. pose proof (shape_pos h p D A). unfold eps in B.
    eapply Rle_trans; [|exact B]. apply Rmult_le_pos; [lra|]. apply Rmult_le_pos; lra.
  - unfold in_pixel. destruct (Rlt_dec (dist2 h p) 25); lra.
Qed.
Lemma exact_nonneg h p : evaluable h -> 0 <= g_p h -> 0 < px_area p -> 0 <= exact_pixel h p.
Proof. intros E G A. destruct (ev_pos h E) as (D & _). rewrite exact_form by exact D. pose proof (shape_pos h p D A). apply Rmult_le_pos; lra. Qed.
Lemma drawn_pos h p : evaluable h -> 0 <= g_p h -> 0 < px_area p -> 0 < in_pixel h p -> 0 < g_p h /\ dist2 h p < 25.
Proof.
  intros E [G|G] A I; unfold in_pixel in I; destruct (Rlt_dec (dist2 h p) 25); try lra. rewrite <- G in I. unfold Rdiv in I. rewrite !Rmult_0_l in I. lra.
Qed.

(** ** one iteration *)
Lemma in_forall2 {A B} (Q : A -> B -> Prop) l m x y : Forall2 Q l m -> In (x, y) (combine l m) -> Q x y.
Proof. induction 1; cbn; intros I; [destruct I|]. destruct I as [E|I]; [injection E as -> ->; assumption|auto]. Qed.
Lemma f2_len {A B} (Q : A -> B -> Prop) l m : Forall2 Q l m -> length l = length m.
Proof. induction 1; cbn; congruence. Qed.
Definition pairs (gm gm' psf : gmix) : list (gauss * gauss * gauss) := flat_map (fun gg => map (pair gg) psf) (combine gm gm').
Lemma views_pairs psf gm gm' : length gm = length gm' -> views psf gm = map (fun c => seen psf (fst (fst c)) (snd c)) (pairs gm gm' psf) /\
  views psf gm' = map (fun c => seen psf (snd (fst c)) (snd c)) (pairs gm gm' psf).
Proof.
  revert gm'. induction gm as [|g gm IH]; intros [|g' gm'] L; try discriminate; [split; reflexivity|]. injection L as L. destruct (IH gm' L) as (I1 & I2).
  unfold views, pairs in *. cbn [flat_map combine]. rewrite !map_app, I1, I2, !map_map. split; reflexivity.
Qed.
Lemma single_flux psf q : psf = [q] -> flux_of psf = g_p q. Proof. intros ->. unfold flux_of. cbn. ring. Qed.
Lemma single_psf psf q : psf = [q] -> 0 < g_p q -> row_of psf = g_row q /\ col_of psf = g_col q /\ yy (cov_of psf) = g_irr q /\ xy (cov_of psf) = g_irc q /\ xx (cov_of psf) = g_icc q.
Proof.
  intros E Q. pose proof (single_flux psf q E) as F.
  assert (M : forall f, mean_of f psf = f q) by (intros f; unfold mean_of; rewrite F, E; cbn [map]; rewrite rsum_cons, rsum_nil; field; lra).
  unfold row_of, col_of, cov_of, cov. cbn [xx xy yy]. rewrite !M. unfold row_of, col_of. rewrite !M. repeat split; ring.
Qed.

Lemma full_sum psf gm p : full_model psf gm p = rsum (map (fun h => exact_pixel h p) (views psf gm)).
Proof.
  unfold full_model, pixel_model, brightness. rewrite Rmult_comm, <- rsum_map_mult. apply rsum_map_ext. intros h _. unfold exact_pixel. ring.
Qed.
Lemma positive_kept irr irc icc a b c : 0 <= irr -> 0 <= icc -> / 10 ^ 200 <= irr * icc - irc * irc -> positive_cov irr irc icc (a, b, c) -> a = irr /\ b = irc /\ c = icc.
Proof.
  intros A B C. unfold positive_cov. destruct (Rlt_dec irr 0) as [L|_]; [exfalso; exact (Rlt_not_le _ _ L A)|]. destruct (Rlt_dec icc 0) as [L|_]; [exfalso; exact (Rlt_not_le _ _ L B)|].
  destruct (Rlt_dec (irr * icc - irc * irc) (/ 10 ^ 200)) as [L|_]; [exfalso; exact (Rlt_not_le _ _ L C)|]. intros H. injection H as -> -> ->. auto.
Qed.

Section Climb.
Variables (k : em_kind) (psf : gmix) (vs : bool) (s s' : em).
Hypothesis ST : em_step k psf vs s s'.
Hypothesis EV : Forall evaluable (views psf (m_gm s)).
Hypothesis EV' : Forall evaluable (views psf (m_gm s')).
Hypothesis PX : Forall (fun p => 0 < px_area p /\ 0 <= px_val p /\ 0 < px_ierr p) (m_pix s).
Hypothesis SK : 0 <= m_sky s.
Hypothesis GP : Forall (fun g => 0 <= g_p g) (m_gm s).
Hypothesis PN : psf <> [].
Hypothesis PP : Forall (fun q => 0 < g_p q) psf.

Let px := m_pix s.
Let l2 := combine (m_gm s) (m_gm s').
Let t (p : pixel R) := total psf s p.

Lemma st_filled : filled psf s = px.
Proof.
  unfold filled, px. pose proof PX as Q. revert Q. generalize (m_pix s) as l. induction l as [|p l IH]; intros Q; [reflexivity|]. inversion Q as [|? ? (_ & _ & Q1) Q2]; subst. cbn [map].
  destruct (Rle_dec (px_ierr p) 0); [lra|]. f_equal. apply IH. exact Q2.
Qed.
Lemma st_F2 : Forall2 (fun g g' => g_p g' = att_flux psf s g /\ new_cen k psf s g g' /\ new_cov k psf s g g') (m_gm s) (m_gm s').
Proof. apply ST. Qed.
Lemma st_len : length (m_gm s) = length (m_gm s').
Proof. exact (f2_len _ _ _ st_F2). Qed.
Lemma st_psf : 0 < flux_of psf.
Proof.
  unfold flux_of. apply rsum_pos; [destruct psf; [contradiction|discriminate]|]. intros x Hx. apply in_map_iff in Hx. destruct Hx as (q & <- & Hq).
  exact (proj1 (Forall_forall _ _) PP q Hq).
Qed.
Lemma st_ev g q : In g (m_gm s) -> In q psf -> evaluable (seen psf g q).
Proof. intros G Q. apply (proj1 (Forall_forall _ _) EV). unfold views. apply in_flat_map. exists g. split; [exact G|]. apply in_map. exact Q. Qed.
Lemma st_ev' g q : In g (m_gm s') -> In q psf -> evaluable (seen psf g q).
Proof. intros G Q. apply (proj1 (Forall_forall _ _) EV'). unfold views. apply in_flat_map. exists g. split; [exact G|]. apply in_map. exact Q. Qed.
Lemma st_gp g q : In q psf -> g_p (seen psf g q) = g_p g * (g_p q / flux_of psf) /\ 0 < g_p q / flux_of psf.
Proof.
  intros Q. pose proof st_psf. pose proof (proj1 (Forall_forall _ _) PP q Q). cbn [seen gauss2d_set g_p]. split; [field; lra|apply Rdiv_lt_0_compat; assumption].
Qed.
Lemma st_gp0 g q : In g (m_gm s) -> In q psf -> 0 <= g_p (seen psf g q).
Proof. intros G Q. destruct (st_gp g q Q) as (-> & W). pose proof (proj1 (Forall_forall _ _) GP g G). cbn in *. nra. Qed.
Lemma st_px p : In p px -> 0 < px_area p /\ 0 <= px_val p.
Proof. intros H. destruct (proj1 (Forall_forall _ _) PX p H) as (A & B & _). split; assumption. Qed.
Lemma st_a g q p : In g (m_gm s) -> In q psf -> In p px -> 0 <= in_pixel (seen psf g q) p.
Proof. intros G Q P. apply drawn_nonneg; [apply st_ev; assumption|apply st_gp0; assumption|apply st_px; exact P]. Qed.
Lemma st_model p : In p px -> 0 <= model psf (m_gm s) p.
Proof.
  intros P. unfold model. apply rsum_nonneg. intros x Hx. apply in_map_iff in Hx. destruct Hx as (h & <- & Hh). unfold views in Hh. apply in_flat_map in Hh.
  destruct Hh as (g & G & Hh). apply in_map_iff in Hh. destruct Hh as (q & <- & Q). apply st_a; assumption.
Qed.
Lemma st_t p : In p px -> 0 < t p.
Proof.
  intros P. unfold t. assert (total psf s p <> 0) by (apply ST; rewrite st_filled; exact P). pose proof (st_model p P). unfold total in *. destruct (Rlt_le_dec 0 (model psf (m_gm s) p + m_sky s)); [assumption|lra].
Qed.
Lemma st_share g q p : In g (m_gm s) -> In q psf -> In p px -> 0 <= share psf s (seen psf g q) p.
Proof.
  intros G Q P. unfold share. apply Rmult_le_pos; [|apply st_px; exact P]. apply Rmult_le_pos; [apply st_a; assumption|]. left. apply Rinv_0_lt_compat. exact (st_t p P).
Qed.
Lemma st_flux g : att_flux psf s g = rsum (map (fun q => rsum (map (fun p => share psf s (seen psf g q) p) px)) psf).
Proof.
  unfold att_flux, attributed. rewrite st_filled. rewrite (rsum_map_ext _ (fun p => rsum (map (fun q => share psf s (seen psf g q) p) psf))) by (intros; apply rsum_map_ext; intros; ring).
  apply rsum_swap.
Qed.
Lemma st_pair g g' : In (g, g') l2 -> In g (m_gm s) /\ In g' (m_gm s') /\ g_p g' = att_flux psf s g /\ new_cen k psf s g g' /\ new_cov k psf s g g'.
Proof. intros H. pose proof (in_combine_l _ _ _ _ H). pose proof (in_combine_r _ _ _ _ H). pose proof (in_forall2 _ _ _ _ _ st_F2 H). auto. Qed.
Lemma st_flux_ge g q p : In g (m_gm s) -> In q psf -> In p px -> share psf s (seen psf g q) p <= att_flux psf s g.
Proof.
  intros G Q P. rewrite st_flux.
  apply Rle_trans with (rsum (map (fun p => share psf s (seen psf g q) p) px)).
  - apply (rsum_mem (fun p => share psf s (seen psf g q) p)); [intros y Hy; apply st_share; assumption|exact P].
  - apply (rsum_mem (fun q => rsum (map (fun p => share psf s (seen psf g q) p) px))); [|exact Q]. intros q' Q'. apply rsum_nonneg. intros x Hx. apply in_map_iff in Hx.
    destruct Hx as (p' & <- & P'). apply st_share; assumption.
Qed.
Lemma st_flux0 g : In g (m_gm s) -> 0 <= att_flux psf s g.
Proof.
  intros G. rewrite st_flux. apply rsum_nonneg. intros x Hx. apply in_map_iff in Hx. destruct Hx as (q & <- & Q). apply rsum_nonneg. intros x Hx. apply in_map_iff in Hx.
  destruct Hx as (p & <- & P). apply st_share; assumption.
Qed.
Lemma st_zero g : g_p g = 0 -> att_flux psf s g = 0.
Proof.
  intros Z. rewrite st_flux. rewrite (rsum_map_ext _ (fun _ => 0)); [apply rsum_zero|]. intros q Q. rewrite (rsum_map_ext _ (fun _ => 0)); [apply rsum_zero|]. intros p _.
  unfold share, in_pixel. destruct (st_gp g q Q) as (E & _). rewrite E, Z. destruct (Rlt_dec _ _); unfold Rdiv; ring.
Qed.
Lemma st_sky' : 0 <= m_sky s'.
Proof.
  pose proof ST as (_ & _ & _ & V). revert V. generalize vs as b. intros [|] V; [|rewrite V; exact SK]. destruct V as (N & ->). apply Rmult_le_pos.
  - unfold sky_flux. rewrite st_filled. apply rsum_nonneg. intros x Hx. apply in_map_iff in Hx. destruct Hx as (p & <- & P). apply Rmult_le_pos; [|apply st_px; exact P].
    apply Rmult_le_pos; [exact SK|]. left. apply Rinv_0_lt_compat. exact (st_t p P).
  - left. apply Rinv_0_lt_compat, lt_0_INR. destruct (m_pix s); [contradiction|cbn; lia].
Qed.

(** log of new over old gaussian, the flux aside *)
Definition gain (g g' q : gauss) (p : pixel R) : R :=
  - / 2 * ln (det2 (gcov (seen psf g' q)) / det2 (gcov (seen psf g q))) - / 2 * (dist2 (seen psf g' q) p - dist2 (seen psf g q) p).
Lemma st_ratio g g' q p : In (g, g') l2 -> In q psf -> In p px -> 0 < px_val p -> 0 < in_pixel (seen psf g q) p ->
  0 < exact_pixel (seen psf g' q) p /\ ln (g_p g' / g_p g) + gain g g' q p - ln (1 + eps) <= ln (exact_pixel (seen psf g' q) p / in_pixel (seen psf g q) p).
Proof.
  intros I Q P V A. destruct (st_pair g g' I) as (G & G' & F & _). set (h := seen psf g q) in *. set (h' := seen psf g' q) in *.
  pose proof (st_ev g q G Q) as E. pose proof (st_ev' g' q G' Q) as E'. destruct (st_px p P) as (Ar & _).
  destruct (drawn_pos h p E (st_gp0 g q G Q) Ar A) as (Hp & L). destruct (st_gp g q Q) as (W & W1). destruct (st_gp g' q Q) as (W' & _). fold h in W. fold h' in W'.
  assert (Gp : 0 < g_p g) by (pose proof (proj1 (Forall_forall _ _) GP g G); cbn in *; rewrite W in Hp; nra).
  assert (Gp' : 0 < g_p g').
  { rewrite F. apply Rlt_le_trans with (share psf s h p); [|apply st_flux_ge; assumption]. unfold share. apply Rmult_lt_0_compat; [|exact V]. apply Rdiv_lt_0_compat; [exact A|exact (st_t p P)]. }
  destruct (ev_pos h E) as (D & _). destruct (ev_pos h' E') as (D' & _).
  assert (Hp' : 0 < g_p h') by (rewrite W'; nra).
  assert (X' : 0 < exact_pixel h' p) by (rewrite exact_form by exact D'; apply Rmult_lt_0_compat; [exact Hp'|apply shape_pos; assumption]).
  assert (X : 0 < exact_pixel h p) by (rewrite exact_form by exact D; apply Rmult_lt_0_compat; [exact Hp|apply shape_pos; assumption]).
  split; [exact X'|]. destruct (drawn_exact h p E (Rlt_le _ _ Hp) Ar L) as (_ & B).
  assert (LA : ln (in_pixel h p) <= ln (1 + eps) + ln (exact_pixel h p)).
  { rewrite <- ln_mult by (unfold eps; lra). apply ln_mono; assumption. }
  unfold Rdiv at 2. rewrite (ln_mult (exact_pixel h' p)) by (try apply Rinv_0_lt_compat; assumption). rewrite ln_Rinv by exact A.
  rewrite ln_exact by assumption. rewrite ln_exact in LA by assumption. unfold gain. fold h h'. unfold Rdiv at 1 2. rewrite !ln_mult, !ln_Rinv by (try apply Rinv_0_lt_compat; assumption).
  rewrite W, W' in *. rewrite ln_mult in LA by assumption. rewrite (ln_mult (g_p g')) by assumption. lra.
Qed.
(** the new shapes fit better *)
Hypothesis KK : k = FluxOnly \/ length psf = 1%nat.
Hypothesis NC : no_correction k psf s.
Lemma st_gain g g' : In (g, g') l2 -> 0 <= rsum (map (fun q => rsum (map (fun p => share psf s (seen psf g q) p * gain g g' q p) px)) psf).
Proof.
  intros I. destruct (st_pair g g' I) as (G & G' & F & C & V).
  assert (FO : k = FluxOnly -> forall q p, In q psf -> gain g g' q p = 0).
  { intros K q p Q. unfold new_cen, new_cov in *. rewrite K in C, V. cbn in C, V. destruct C as (C1 & C2). destruct V as (V1 & V2 & V3).
    unfold gain. assert (EG : gcov (seen psf g' q) = gcov (seen psf g q)) by (unfold gcov, seen; cbn [gauss2d_set g_irr g_irc g_icc]; rewrite V1, V2, V3; reflexivity).
    assert (ED : dist2 (seen psf g' q) p = dist2 (seen psf g q) p) by (unfold dist2; rewrite EG; unfold seen; cbn [gauss2d_set g_row g_col]; rewrite C1, C2; reflexivity).
    rewrite ED, EG. destruct (ev_pos _ (st_ev g q G Q)) as (D & _). unfold Rdiv. rewrite Rinv_r by lra. rewrite ln_1. ring. }
  destruct KK as [K|K].
  { rewrite (rsum_map_ext _ (fun _ => 0)); [rewrite rsum_zero; lra|]. intros q Q. rewrite (rsum_map_ext _ (fun _ => 0)); [apply rsum_zero|]. intros p _. rewrite (FO K q p Q). ring. }
  assert (EX : exists q0, psf = [q0]). { revert K. generalize psf as l. intros [|a [|b l]] H; try discriminate. exists a. reflexivity. }
  destruct EX as (q0 & EP). clear FO.
  assert (Q : In q0 psf) by (rewrite EP; left; reflexivity). pose proof (proj1 (Forall_forall _ _) PP q0 Q) as Qp. cbn in Qp.
  destruct (single_psf psf q0 EP Qp) as (R1 & R2 & R3 & R4 & R5).
  assert (SUM : forall F : gauss -> R, rsum (map F psf) = F q0) by (intros F0; rewrite EP; cbn [map]; rewrite rsum_cons, rsum_nil; ring).
  rewrite SUM. set (h := seen psf g q0) in *. set (h' := seen psf g' q0) in *. set (w := share psf s h).
  pose proof (st_ev g q0 G Q) as E. pose proof (st_ev' g' q0 G' Q) as E'. fold h in E. fold h' in E'. destruct (ev_pos h E) as (D & X & Y). destruct (ev_pos h' E') as (D' & X' & Y').
  assert (A : att_flux psf s g = rsum (map w px)) by (rewrite st_flux, SUM; reflexivity).
  assert (AM : forall x, att_mean psf s g x = rsum (map (fun p => x h p * w p) px) / rsum (map w px)).
  { intros x. unfold att_mean. rewrite A. f_equal. unfold attributed. rewrite st_filled. apply rsum_map_ext. intros p _. rewrite SUM. reflexivity. }
  destruct (Req_dec (rsum (map w px)) 0) as [Z|NZ].
  { rewrite (rsum_map_ext _ (fun _ => 0)); [rewrite rsum_zero; lra|]. intros p P. assert (Wp : w p = 0).
    { pose proof (st_share g q0 p G Q P) as L0. pose proof (st_flux_ge g q0 p G Q P) as L. rewrite A, Z in L. fold h in L, L0. unfold w. apply Rle_antisym; assumption. }
    fold (w p). rewrite Wp. ring. }
  assert (Apos : 0 < rsum (map w px)) by (pose proof (st_flux0 g G); lra).
  assert (Er : g_row h = g_row g) by (unfold h, seen; cbn [gauss2d_set g_row]; lra). assert (Ec : g_col h = g_col g) by (unfold h, seen; cbn [gauss2d_set g_col]; lra).
  assert (Er' : g_row h' = g_row g') by (unfold h', seen; cbn [gauss2d_set g_row]; lra). assert (Ec' : g_col h' = g_col g') by (unfold h', seen; cbn [gauss2d_set g_col]; lra).
  set (svv := rsum (map (fun p => (px_v p - g_row h) * (px_v p - g_row h) * w p) px) / rsum (map w px)).
  set (svu := rsum (map (fun p => (px_v p - g_row h) * (px_u p - g_col h) * w p) px) / rsum (map w px)).
  set (suu := rsum (map (fun p => (px_u p - g_col h) * (px_u p - g_col h) * w p) px) / rsum (map w px)).
  assert (OLD : rsum (map (fun p => w p * dist2 h p) px) = rsum (map w px) * quad (gcov h) svv svu suu) by (apply sum_maha; exact NZ).
  (* the new distances are not larger than those from the old centre *)
  assert (NEW : rsum (map (fun p => w p * dist2 h' p) px) <= rsum (map w px) * quad (gcov h') svv svu suu).
  { unfold new_cen in C. destruct (tracks_cen k).
    - destruct C as (_ & C1 & C2). rewrite AM in C1, C2. unfold dist2. rewrite Er', Ec', C1, C2.
      rewrite (sum_maha_mean px w (g_row h) (g_col h) NZ (gcov h')). fold svv svu suu.
      pose proof (quad_nonneg (gcov h') (rsum (map (fun p => px_v p * w p) px) / rsum (map w px) - g_row h) (rsum (map (fun p => px_u p * w p) px) / rsum (map w px) - g_col h) D' X') as QN. nra.
    - destruct C as (C1 & C2). right. pose proof (sum_maha px w (g_row h) (g_col h) NZ (gcov h')) as SM. fold svv svu suu in SM. rewrite <- SM. apply rsum_map_ext. intros p _. unfold dist2. rewrite Er', Ec', C1, C2, Er, Ec. reflexivity. }
  assert (EQ : rsum (map (fun p => w p * gain g g' q0 p) px) = - / 2 * (rsum (map w px) * ln (det2 (gcov h') / det2 (gcov h))) - / 2 * (rsum (map (fun p => w p * dist2 h' p) px) - rsum (map (fun p => w p * dist2 h p) px))).
  { rewrite (rsum_map_ext _ (fun p => (- / 2 * ln (det2 (gcov h') / det2 (gcov h))) * w p + (- / 2 * (w p * dist2 h' p) + / 2 * (w p * dist2 h p)))) by (intros p _; unfold gain; fold h h'; ring).
    rewrite !rsum_map_plus, !rsum_map_mult. ring. }
  fold w. rewrite EQ, OLD. unfold new_cov in V. destruct (tracks_cov k) eqn:TC.
  - destruct V as (_ & V). destruct (NC TC g G) as (N1 & N2 & N3). cbv zeta in N1, N2, N3.
    assert (Mvv : att_mean psf s g (fun h p => (px_v p - g_row h) * (px_v p - g_row h)) = svv) by apply AM.
    assert (Mvu : att_mean psf s g (fun h p => (px_v p - g_row h) * (px_u p - g_col h)) = svu) by apply AM.
    assert (Muu : att_mean psf s g (fun h p => (px_u p - g_col h) * (px_u p - g_col h)) = suu) by apply AM.
    destruct (positive_kept _ _ _ _ _ _ N1 N2 N3 V) as (V1 & V2 & V3). rewrite Mvv in V1. rewrite Mvu in V2. rewrite Muu in V3.
    rewrite R3 in V1. rewrite R4 in V2. rewrite R5 in V3.
    assert (M : yy (gcov h') = svv /\ xy (gcov h') = svu /\ xx (gcov h') = suu) by (unfold gcov, cov, h', seen; cbn [gauss2d_set g_irr g_irc g_icc yy xy xx]; repeat split; lra).
    destruct M as (M1 & M2 & M3). pose proof (cov_gain (gcov h) (gcov h') D X D' X' Y') as CG. rewrite <- M1, <- M2, <- M3 in NEW |- *. rewrite (quad_self (gcov h')) in NEW by lra. nra.
  - destruct V as (V1 & V2 & V3). assert (EG : gcov h' = gcov h) by (unfold gcov, h', h, seen; cbn [gauss2d_set g_irr g_irc g_icc]; rewrite V1, V2, V3; reflexivity).
    rewrite EG in *. unfold Rdiv. rewrite Rinv_r by lra. rewrite ln_1. lra.
Qed.

Let n := INR (length (m_pix s)).
Let vals := rsum (map (@px_val R) px).
Lemma st_sky_gain : m_sky s' = m_sky s \/ (0 < n /\ n * m_sky s' = rsum (map (fun p => m_sky s / t p * px_val p) px)).
Proof.
  pose proof ST as (_ & _ & _ & V). revert V. generalize vs as b. intros [|] V; [|left; exact V]. right. destruct V as (N & E).
  assert (NP : 0 < n) by (unfold n; apply lt_0_INR; destruct (m_pix s); [contradiction|cbn; lia]). split; [exact NP|].
  rewrite E. fold n. unfold sky_flux. rewrite st_filled. unfold t. field. lra.
Qed.
Lemma st_sky_pos p : In p px -> 0 < px_val p -> 0 < m_sky s -> 0 < m_sky s'.
Proof.
  intros P V S. destruct st_sky_gain as [->|(N & E)]; [exact S|].
  assert (0 < n * m_sky s'); [|nra]. rewrite E. apply Rlt_le_trans with (m_sky s / t p * px_val p).
  - apply Rmult_lt_0_compat; [apply Rdiv_lt_0_compat; [exact S|exact (st_t p P)]|exact V].
  - apply (rsum_mem (fun p => m_sky s / t p * px_val p)); [|exact P]. intros y Y. apply Rmult_le_pos; [|apply st_px; exact Y]. apply Rmult_le_pos; [exact SK|left; apply Rinv_0_lt_compat; exact (st_t y Y)].
Qed.
Lemma st_sky_climb : n * m_sky s' - n * m_sky s <= rsum (map (fun p => m_sky s / t p * px_val p * ln (m_sky s' / m_sky s)) px).
Proof.
  assert (NN : 0 <= n) by apply pos_INR.
  rewrite (rsum_map_ext _ (fun p => ln (m_sky s' / m_sky s) * (m_sky s / t p * px_val p))) by (intros; ring). rewrite rsum_map_mult.
  destruct (Req_dec (m_sky s) 0) as [Z|NZ].
  { assert (E : rsum (map (fun p => m_sky s / t p * px_val p) px) = 0) by (rewrite (rsum_map_ext _ (fun _ => 0)); [apply rsum_zero|intros; rewrite Z; unfold Rdiv; ring]).
    destruct st_sky_gain as [->|(N & E')]; [rewrite E; lra|]. rewrite E in *. rewrite Z. lra. }
  destruct st_sky_gain as [->|(N & <-)].
  { unfold Rdiv. rewrite Rinv_r by exact NZ. rewrite ln_1. lra. }
  pose proof (flux_gain (n * m_sky s) (n * m_sky s') ltac:(nra) ltac:(pose proof st_sky'; nra) ltac:(intros Q; exfalso; nra)) as FG.
  replace (n * m_sky s' / (n * m_sky s)) with (m_sky s' / m_sky s) in FG by (field; lra). lra.
Qed.
Definition att_model (p : pixel R) : R := rsum (map (fun c => in_pixel (seen psf (fst (fst c)) (snd c)) p) (pairs (m_gm s) (m_gm s') psf)).
Lemma st_total p : t p = att_model p + m_sky s.
Proof.
  unfold t, total, model, att_model. destruct (views_pairs psf _ _ st_len) as (-> & _). rewrite map_map. reflexivity.
Qed.
Lemma st_full p : full_model psf (m_gm s') p = rsum (map (fun c => exact_pixel (seen psf (snd (fst c)) (snd c)) p) (pairs (m_gm s) (m_gm s') psf)).
Proof. rewrite full_sum. destruct (views_pairs psf _ _ st_len) as (_ & ->). rewrite map_map. reflexivity. Qed.
Lemma in_pairs g g' q : In (g, g', q) (pairs (m_gm s) (m_gm s') psf) -> In (g, g') l2 /\ In q psf.
Proof.
  unfold pairs. rewrite in_flat_map. intros (gg & I & H). apply in_map_iff in H. destruct H as (q' & E & Q). injection E as -> ->. split; assumption.
Qed.
Lemma fluxes' : rsum (map (fun gg => att_flux psf s (fst gg)) l2) = flux_of (m_gm s') /\ rsum (map (fun gg => g_p (fst gg)) l2) = flux_of (m_gm s).
Proof.
  assert (Q : forall a b, Forall2 (fun g g' => g_p g' = att_flux psf s g /\ new_cen k psf s g g' /\ new_cov k psf s g g') a b -> rsum (map (fun gg => att_flux psf s (fst gg)) (combine a b)) = rsum (map g_p b) /\ rsum (map (fun gg => g_p (fst gg)) (combine a b)) = rsum (map g_p a)); [|exact (Q _ _ st_F2)].
  intros a b F. induction F as [|g g' a b (H & _) F IH]; [split; reflexivity|]. cbn [combine map fst]. rewrite !rsum_cons. destruct IH as (IH1 & IH2). split; [rewrite IH1, H|rewrite IH2]; reflexivity.
Qed.
Lemma flux_bound : flux_of (m_gm s') <= vals.
Proof.
  destruct fluxes' as (<- & _). rewrite (rsum_map_ext _ (fun gg => rsum (map (fun p => rsum (map (fun q => in_pixel (seen psf (fst gg) q) p / t p * px_val p) psf)) px))).
  2:{ intros gg _. rewrite st_flux. rewrite rsum_swap. reflexivity. }
  rewrite rsum_swap. apply rsum_le. intros p P. destruct (st_px p P) as (_ & V). pose proof (st_t p P) as T.
  apply Rle_trans with (att_model p * (px_val p / t p)).
  - right. unfold att_model, pairs. rewrite rsum_flat. rewrite Rmult_comm, <- rsum_map_mult. apply rsum_map_ext. intros gg _. rewrite map_map. cbn [fst snd]. rewrite <- rsum_map_mult. apply rsum_map_ext. intros q _. unfold Rdiv. ring.
  - pose proof (st_total p) as E. replace (att_model p) with (t p - m_sky s) by lra. assert (0 <= px_val p / t p) by (apply Rmult_le_pos; [exact V|left; apply Rinv_0_lt_compat; exact T]).
    assert (t p * (px_val p / t p) = px_val p) by (field; lra). nra.
Qed.
Lemma ln_eps : ln (1 + eps) <= eps. Proof. pose proof (ln_le_sub (1 + eps) ltac:(unfold eps; lra)). lra. Qed.
Lemma climb : drawn_likelihood psf s - eps * vals <= likelihood psf s'.
Proof.
  pose proof ST as (_ & _ & PS & _). rewrite st_filled in PS. unfold likelihood, drawn_likelihood, poisson, all_counts. rewrite PS. fold px. fold t.
  set (L := fun (c : gauss * gauss * gauss) p => ln (g_p (snd (fst c)) / g_p (fst (fst c))) + gain (fst (fst c)) (snd (fst c)) (snd c) p - ln (1 + eps)).
  set (cs := pairs (m_gm s) (m_gm s') psf).
  assert (J : rsum (map (fun p => rsum (map (fun c => in_pixel (seen psf (fst (fst c)) (snd c)) p / t p * px_val p * L c p) cs) + m_sky s / t p * px_val p * ln (m_sky s' / m_sky s) + px_val p * ln (t p)) px)
              <= rsum (map (fun p => px_val p * ln (full_model psf (m_gm s') p + m_sky s')) px)).
  { apply rsum_le. intros p P. destruct (st_px p P) as (A & V).
    apply (jensen cs (fun c => in_pixel (seen psf (fst (fst c)) (snd c)) p) (fun c => exact_pixel (seen psf (snd (fst c)) (snd c)) p) (fun c => L c p) (m_sky s) (m_sky s') (ln (m_sky s' / m_sky s)) (t p) _ (px_val p)).
    - exact V.
    - exact (st_t p P).
    - exact (st_total p).
    - rewrite st_full. reflexivity.
    - intros [[g g'] q] C. cbn [fst snd]. destruct (in_pairs g g' q C) as (I & Q). destruct (st_pair g g' I) as (G & G' & F & _). split; [apply st_a; assumption|]. split.
      + apply exact_nonneg; [apply st_ev'; assumption| |exact A]. destruct (st_gp g' q Q) as (-> & W). rewrite F. pose proof (st_flux0 g G). nra.
      + intros V0 A0. apply st_ratio; assumption.
    - exact SK.
    - exact st_sky'.
    - intros V0 S0. split; [exact (st_sky_pos p P V0 S0)|right; reflexivity]. }
  rewrite !rsum_map_plus in J. pose proof st_sky_climb as SC.
  assert (FL : flux_of (m_gm s') - flux_of (m_gm s) - eps * flux_of (m_gm s') <= rsum (map (fun p => rsum (map (fun c => in_pixel (seen psf (fst (fst c)) (snd c)) p / t p * px_val p * L c p) cs)) px)).
  { rewrite rsum_swap. unfold cs, pairs. rewrite rsum_flat. destruct fluxes' as (F1 & F2). rewrite <- F1, <- F2. fold l2.
    apply Rle_trans with (rsum (map (fun gg => att_flux psf s (fst gg) + (- 1 * g_p (fst gg) + - eps * att_flux psf s (fst gg))) l2)).
    - rewrite !rsum_map_plus, !rsum_map_mult. lra.
    - apply rsum_le. intros [g g'] I. cbn [fst]. rewrite map_map. cbn [fst snd]. destruct (st_pair g g' I) as (G & G' & F & _).
      apply Rle_trans with (ln (g_p g' / g_p g) * att_flux psf s g + (rsum (map (fun q => rsum (map (fun p => share psf s (seen psf g q) p * gain g g' q p) px)) psf) + - ln (1 + eps) * att_flux psf s g)).
      + pose proof (st_gain g g' I) as SG. pose proof (st_flux0 g G) as A0. pose proof (flux_gain (g_p g) (att_flux psf s g) (proj1 (Forall_forall _ _) GP g G) A0 (st_zero g)) as FG. rewrite F. pose proof ln_eps. nra.
      + right. rewrite st_flux, <- !rsum_map_mult, <- !rsum_map_plus. apply rsum_map_ext. intros q _. rewrite <- !rsum_map_mult, <- !rsum_map_plus. apply rsum_map_ext. intros p _. unfold share, L. cbn [fst snd]. fold (t p). ring. }
  pose proof flux_bound as FB. change (INR (length px)) with n. assert (eps * flux_of (m_gm s') <= eps * vals) by (apply Rmult_le_compat_l; [unfold eps; lra|exact FB]).
  change (fun x : pixel R => px_val x * ln (t x)) with (fun p : pixel R => px_val p * ln (total psf s p)) in J. lra.
Qed.
(** the drawn and the exact likelihood *)
Lemma likelihood_drawn eta : 0 <= eta < 1 -> (forall p, In p px -> cut_light psf (m_gm s) p <= eta * (full_model psf (m_gm s) p + m_sky s)) ->
  likelihood psf s + (ln (1 - eps) + ln (1 - eta)) * vals <= drawn_likelihood psf s.
Proof.
  intros ET C. unfold likelihood, drawn_likelihood, poisson. fold px. fold t.
  assert (J : rsum (map (fun p => px_val p * ln (full_model psf (m_gm s) p + m_sky s) + (ln (1 - eps) + ln (1 - eta)) * px_val p) px) <= rsum (map (fun p => px_val p * ln (t p)) px)); [|rewrite rsum_map_plus, rsum_map_mult in J; change (fun p : pixel R => px_val p * ln (t p)) with (fun p : pixel R => px_val p * ln (total psf s p)) in J; fold vals in J; lra].
  apply rsum_le. intros p P. destruct (st_px p P) as (A & V). specialize (C p P). pose proof (st_t p P) as T.
  assert (B : (1 - eps) * (full_model psf (m_gm s) p - cut_light psf (m_gm s) p) <= model psf (m_gm s) p <= (1 + eps) * full_model psf (m_gm s) p).
  { rewrite full_sum. unfold cut_light, model.
    assert (B0 : forall h, In h (views psf (m_gm s)) -> (1 - eps) * (exact_pixel h p - (if Rlt_dec (dist2 h p) 25 then 0 else exact_pixel h p)) <= in_pixel h p <= (1 + eps) * exact_pixel h p).
    { intros h Hh. unfold views in Hh. apply in_flat_map in Hh. destruct Hh as (g & G & Hh). apply in_map_iff in Hh. destruct Hh as (q & <- & Q).
      pose proof (st_ev g q G Q) as E. pose proof (st_gp0 g q G Q) as Gp. pose proof (exact_nonneg _ p E Gp A) as X. destruct (Rlt_dec (dist2 (seen psf g q) p) 25) as [D|D].
      - destruct (drawn_exact _ p E Gp A D). lra.
      - pose proof (drawn_nonneg _ p E Gp A) as I0. unfold in_pixel at 2. unfold in_pixel in I0. destruct (Rlt_dec (dist2 (seen psf g q) p) 25); [contradiction|]. unfold in_pixel. destruct (Rlt_dec (dist2 (seen psf g q) p) 25); [contradiction|]. unfold eps. lra. }
    split.
    - apply Rle_trans with (rsum (map (fun h => (1 - eps) * (exact_pixel h p - (if Rlt_dec (dist2 h p) 25 then 0 else exact_pixel h p))) (views psf (m_gm s)))); [|apply rsum_le; intros h Hh; apply B0; exact Hh].
      right. rewrite rsum_map_mult. f_equal. rewrite (rsum_map_ext (fun h => exact_pixel h p - (if Rlt_dec (dist2 h p) 25 then 0 else exact_pixel h p)) (fun h => exact_pixel h p + -1 * (if Rlt_dec (dist2 h p) 25 then 0 else exact_pixel h p))) by (intros; ring).
      rewrite rsum_map_plus, rsum_map_mult. unfold exact_pixel. ring.
    - rewrite <- rsum_map_mult. apply rsum_le. intros h Hh. apply B0. exact Hh. }
  assert (Fm : 0 < full_model psf (m_gm s) p + m_sky s).
  { unfold t, total in T. destruct (Rlt_le_dec 0 (full_model psf (m_gm s) p + m_sky s)) as [|Q]; [assumption|exfalso]. unfold eps in B. lra. }
  assert (LB : (1 - eps) * (1 - eta) * (full_model psf (m_gm s) p + m_sky s) <= t p).
  { unfold t, total. destruct B as (B & _). set (F := full_model psf (m_gm s) p) in *. set (S := m_sky s) in *. set (M := model psf (m_gm s) p) in *. set (Cu := cut_light psf (m_gm s) p) in *.
    assert (D : (1 - eps) * (F - eta * (F + S)) <= (1 - eps) * (F - Cu)) by (apply Rmult_le_compat_l; [unfold eps; lra|lra]).
    assert (D2 : (1 - eps) * S <= S) by (unfold eps; lra). replace ((1 - eps) * (1 - eta) * (F + S)) with ((1 - eps) * (F - eta * (F + S)) + (1 - eps) * S) by ring. lra. }
  assert (E0 : 0 < 1 - eps) by (unfold eps; lra). assert (E1 : 0 < 1 - eta) by lra.
  assert (LL : ln (1 - eps) + ln (1 - eta) + ln (full_model psf (m_gm s) p + m_sky s) <= ln (t p)).
  { rewrite <- !ln_mult by (try apply Rmult_lt_0_compat; assumption). apply ln_mono; [|exact LB]. repeat apply Rmult_lt_0_compat; assumption. }
  nra.
Qed.
End Climb.

(** ** runs *)
Definition sane (px : list (pixel R)) (t : em) : Prop := m_pix t = px /\ 0 <= m_sky t /\ Forall (fun g => 0 <= g_p g) (m_gm t).
Lemma run_sane f m obs guess sky px s G P h : ran f m obs guess sky px s G P h -> counts_given px s G P -> forall i t, nth_error h i = Some t -> sane px t.
Proof.
  intros (_ & _ & _ & R) (PX & S & GP & PN & PP). pose proof R as (_ & HS & EV).
  induction i as [|i IH]; intros t T.
  - destruct R as (R0 & _). rewrite R0 in T. injection T as <-. split; [reflexivity|]. split; assumption.
  - destruct (run_prev _ _ _ _ _ _ _ R T) as (t0 & T0 & ST). destruct (IH t0 T0) as (E1 & E2 & E3). rewrite <- E1 in PX.
    pose proof (EV t0 (nth_error_In _ _ T0)) as EV0. pose proof (EV t (nth_error_In _ _ T)) as EV1.
    split; [|split].
    + pose proof ST as (_ & _ & -> & _). rewrite (st_filled P t0 PX). exact E1.
    + exact (st_sky' (f_kind f) P (f_vary_sky f) t0 t ST EV0 EV1 PX E2 E3 PN PP).
    + apply Forall_forall. intros g' G'. pose proof ST as (_ & F & _).
      assert (Q : exists g, In g (m_gm t0) /\ g_p g' = att_flux P t0 g).
      { clear - F G'. induction F as [|x y l l' (H & _) _ IHF]; [destruct G'|]. destruct G' as [<-|G']; [exists x; split; [left; reflexivity|exact H]|]. destruct (IHF G') as (g & I & E). exists g. split; [right; exact I|exact E]. }
      destruct Q as (g & I & ->). exact (st_flux0 (f_kind f) P (f_vary_sky f) t0 t ST EV0 EV1 PX E2 E3 PN PP g I).
Qed.
Lemma c121_drawn f m obs guess sky px s G P h i t t' : ran f m obs guess sky px s G P h -> counts_given px s G P ->
  f_kind f = FluxOnly \/ length P = 1%nat -> nth_error h i = Some t -> nth_error h (S i) = Some t' -> no_correction (f_kind f) P t ->
  drawn_likelihood P t - 4 / 100000 * rsum (map px_val px) <= likelihood P t'.
Proof.
  intros R C K T T' NC. destruct (run_sane _ _ _ _ _ _ _ _ _ _ R C i t T) as (E1 & E2 & E3). destruct C as (PX & S & GP & PN & PP). destruct R as (_ & _ & _ & (_ & HS & EV)).
  rewrite <- E1 in PX |- *. exact (climb (f_kind f) P (f_vary_sky f) t t' (HS i t t' T T') (EV t (nth_error_In _ _ T)) (EV t' (nth_error_In _ _ T')) PX E2 E3 PN PP K NC).
Qed.
Lemma c121_exact f m obs guess sky px s G P h i t t' eta : ran f m obs guess sky px s G P h -> counts_given px s G P ->
  f_kind f = FluxOnly \/ length P = 1%nat -> nth_error h i = Some t -> nth_error h (S i) = Some t' -> no_correction (f_kind f) P t ->
  0 <= eta < 1 -> (forall p, In p px -> cut_light P (m_gm t) p <= eta * (full_model P (m_gm t) p + m_sky t)) ->
  likelihood P t - (/ 10000 - ln (1 - eta)) * rsum (map px_val px) <= likelihood P t'.
Proof.
  intros R C K T T' NC ET CL. pose proof (c121_drawn _ _ _ _ _ _ _ _ _ _ _ _ _ R C K T T' NC) as D.
  destruct (run_sane _ _ _ _ _ _ _ _ _ _ R C i t T) as (E1 & E2 & E3). destruct C as (PX & S & GP & PN & PP). destruct R as (_ & _ & _ & (_ & HS & EV)).
  rewrite <- E1 in PX, CL, D |- *.
  pose proof (likelihood_drawn (f_kind f) P (f_vary_sky f) t t' (HS i t t' T T') (EV t (nth_error_In _ _ T)) (EV t' (nth_error_In _ _ T')) PX E2 E3 PN PP eta ET CL) as L.
  assert (LE : - (6 / 100000) <= ln (1 - eps)).
  { pose proof (ln_le_sub (/ (1 - eps)) ltac:(apply Rinv_0_lt_compat; unfold eps; lra)) as B. rewrite ln_Rinv in B by (unfold eps; lra).
    assert (/ (1 - eps) <= 1 + 6 / 100000); [|lra]. apply Rmult_le_reg_l with (1 - eps); [unfold eps; lra|]. rewrite Rinv_r by (unfold eps; lra). unfold eps. lra. }
  assert (V : 0 <= rsum (map px_val (m_pix t))).
  { apply rsum_nonneg. intros x Hx. apply in_map_iff in Hx. destruct Hx as (p & <- & Hp). apply (proj1 (Forall_forall _ _) PX p Hp). }
  set (v := rsum (map px_val (m_pix t))) in *. nra.
Qed.
Lemma c121_run f m obs guess sky px s G P h eta n t : ran f m obs guess sky px s G P h -> counts_given px s G P ->
  f_kind f = FluxOnly \/ length P = 1%nat -> 0 <= eta < 1 -> nth_error h n = Some t ->
  (forall j u, (j < n)%nat -> nth_error h j = Some u -> no_correction (f_kind f) P u /\
     forall p, In p px -> cut_light P (m_gm u) p <= eta * (full_model P (m_gm u) p + m_sky u)) ->
  likelihood P (mkEM G px s) - INR n * (/ 10000 - ln (1 - eta)) * rsum (map px_val px) <= likelihood P t.
Proof.
  intros R C K ET. revert t. induction n as [|n IH]; intros t T H.
  - destruct R as (_ & _ & _ & (R0 & _)). rewrite R0 in T. injection T as <-. cbn [INR]. lra.
  - pose proof R as (_ & _ & _ & RR). destruct (run_prev _ _ _ _ _ _ _ RR T) as (u & U & _). destruct (H n u ltac:(lia) U) as (NC & CL).
    pose proof (c121_exact _ _ _ _ _ _ _ _ _ _ _ _ _ _ R C K U T NC ET CL) as E. specialize (IH u U ltac:(intros j w J W; apply (H j w); [lia|exact W])). rewrite S_INR. lra.
Qed.
