From Verif Require Import Base XReal Pixels_Model Jacobian_Model Jacobian_Spec GMix_Model GMix_Spec GMix_Proofs FastExp_Model Render_Model GMixObj_Model GMixObj_Proofs
  EM_Model EM_Spec EM_Proofs EMIter_Proofs EMLoop_Proofs EMGo_Proofs Units_Spec Units_Proofs FitUnits_Proofs Motion_Spec Motion_Proofs MotionCex_Proofs EMTurn_Spec.
From Coq Require Import Nsatz.
Local Open Scope R_scope.

Lemma F2_firstn {A B} (P : A -> B -> Prop) l l' : Forall2 P l l' -> forall n, Forall2 P (firstn n l) (firstn n l').
Proof. induction 1; intros [|n]; cbn [firstn]; constructor; auto. Qed.
Lemma F2_skipn {A B} (P : A -> B -> Prop) l l' : Forall2 P l l' -> forall n, Forall2 P (skipn n l) (skipn n l').
Proof. induction 1; intros [|n]; cbn [skipn]; try constructor; auto. Qed.
Lemma F2_len {A B} (P : A -> B -> Prop) l l' : Forall2 P l l' -> length l' = length l.
Proof. induction 1; cbn; auto. Qed.
Lemma F2_combine {A B C D} (P : A -> B -> Prop) (Q : C -> D -> Prop) l l' : Forall2 P l l' -> forall m m', Forall2 Q m m' ->
  Forall2 (fun x y => P (fst x) (fst y) /\ Q (snd x) (snd y)) (combine l m) (combine l' m').
Proof. induction 1; intros m m' H2; [constructor|]. destruct H2; cbn [combine]; constructor; auto. Qed.
Lemma F2_impl {A B} (P Q : A -> B -> Prop) l l' : (forall x y, P x y -> Q x y) -> Forall2 P l l' -> Forall2 Q l l'.
Proof. intros H; induction 1; constructor; auto. Qed.
Lemma F2_repeat {A} (P : A -> A -> Prop) x n : P x x -> Forall2 P (repeat x n) (repeat x n).
Proof. intros; induction n; cbn; constructor; auto. Qed.

Section T.
Variables t a b : R.
Notation c := (cos t).
Notation s := (sin t).
Notation GM := (gauss_moved 1 t a b).
Notation READY := (mready t a b).
Definition pm (p p' : pixel R) : Prop := px_v p' = moved_v t a (px_v p) (px_u p) /\ px_u p' = moved_u t b (px_v p) (px_u p) /\ px_area p' = px_area p /\
                       px_val p' = px_val p /\ px_ierr p' = px_ierr p.
(** a symmetric matrix is turned *)
Definition mat (rr rc cc rr' rc' cc' : R) : Prop :=
  rr' + cc' = rr + cc /\ cc' - rr' = turned_1 t (cc - rr) (2 * rc) /\ 2 * rc' = turned_2 t (cc - rr) (2 * rc).
Lemma mat_det rr rc cc rr' rc' cc' : mat rr rc cc rr' rc' cc' -> rr' * cc' - rc' ^ 2 = rr * cc - rc ^ 2.
Proof. intros (A & B & C). pose proof (turned_det t _ _ _ _ _ _ A B C). nra. Qed.
Lemma mat_add x y rr rc cc rr' rc' cc' RR RC CC RR' RC' CC' : mat rr rc cc rr' rc' cc' -> mat RR RC CC RR' RC' CC' ->
  mat (x * rr + y * RR) (x * rc + y * RC) (x * cc + y * CC) (x * rr' + y * RR') (x * rc' + y * RC') (x * cc' + y * CC').
Proof.
  unfold mat, turned_1, turned_2. intros (A & B & C) (D & E & F). split; [nra|]. split.
  - replace (x * cc' + y * CC' - (x * rr' + y * RR')) with (x * (cc' - rr') + y * (CC' - RR')) by ring. rewrite B, E. ring.
  - replace (2 * (x * rc' + y * RC')) with (x * (2 * rc') + y * (2 * RC')) by ring. rewrite C, F. ring.
Qed.
Lemma mat_outer dv du : mat (dv * dv) (du * dv) (du * du) ((c * dv - s * du) * (c * dv - s * du)) ((s * dv + c * du) * (c * dv - s * du)) ((s * dv + c * du) * (s * dv + c * du)).
Proof. unfold mat, turned_1, turned_2. rewrite cos_2, sin_2. pose proof (cs1 t). repeat split; nsatz. Qed.
Lemma mat_round x : mat x 0 x x 0 x.
Proof. unfold mat, turned_1, turned_2. repeat split; ring. Qed.

(** ** the corrections of the covariance *)
Lemma fix_moved rr rc cc rr' rc' cc' : mat rr rc cc rr' rc' cc' -> sin (2 * t) = 0 \/ rc ^ 2 <= rr * cc ->
  let '(x, y, z) := fix_cov rr rc cc in let '(x', y', z') := fix_cov rr' rc' cc' in mat x y z x' y' z'.
Proof.
  intros M H. pose proof (mat_det _ _ _ _ _ _ M) as D. pose proof M as (M1 & M2 & M3).
  assert (N : (Rltb rr' 0 || Rltb cc' 0)%bool = (Rltb rr 0 || Rltb cc 0)%bool).
  { destruct H as [H|H].
    - pose proof (cs2 t) as C2. rewrite H in C2. unfold turned_1 in M2. rewrite H in M2.
      assert (cos (2 * t) = 1 \/ cos (2 * t) = -1) as [E|E] by (assert ((cos (2 * t) - 1) * (cos (2 * t) + 1) = 0) as Z by lra; apply Rmult_integral in Z; lra); rewrite E in M2.
      + replace rr' with rr by lra. replace cc' with cc by lra. reflexivity.
      + replace rr' with cc by lra. replace cc' with rr by lra. apply Bool.orb_comm.
    - assert (P : 0 <= rr * cc) by (pose proof (pow2_ge_0 rc); lra). assert (P' : 0 <= rr' * cc') by (pose proof (pow2_ge_0 rc'); lra).
      destruct (Rltb_spec rr' 0), (Rltb_spec cc' 0), (Rltb_spec rr 0), (Rltb_spec cc 0); cbn [orb]; try reflexivity; exfalso; nra. }
  unfold fix_cov. cbv zeta. rewrite N. destruct (Rltb rr 0 || Rltb cc 0)%bool; cbv iota beta.
  - destruct (Rltb _ GMIX_LOW_DETVAL); apply mat_round.
  - rewrite D. destruct (Rltb _ GMIX_LOW_DETVAL); [|exact M]. rewrite M1. apply mat_round.
Qed.

(** ** one gaussian in one pixel *)
Lemma chi2_same g g' p p' : READY g g' -> pm p p' -> em_chi2 g' (px_v p') (px_u p') = em_chi2 g (px_v p) (px_u p).
Proof.
  intros [(E1 & E2 & E3 & _) N] (P1 & P2 & _). unfold em_chi2. unfold nrm_moved in N. destruct (g_nrm g) as [n|], (g_nrm g') as [n'|]; try contradiction.
  destruct N as (N1 & N2 & N3 & _). destruct (offset_moved t a b (px_v p) (px_u p) (g_row g) (g_col g)) as [O1 O2]. rewrite <- P1, <- E2 in O1. rewrite <- P2, <- E3 in O2.
  pose proof (chi2_moved t n n' _ _ _ _ N1 N2 N3 O1 O2) as X. f_equal. cbv zeta. unfold gauss_chi2 in X. lra.
Qed.
Lemma val_same g g' p p' : READY g g' -> pm p p' -> em_val g' (px_v p') (px_u p') (px_area p') = em_val g (px_v p) (px_u p) (px_area p).
Proof.
  intros G P. unfold em_val. rewrite (chi2_same _ _ _ _ G P). destruct P as (_ & _ & -> & _). destruct G as [_ N]. unfold nrm_moved in N.
  destruct (g_nrm g) as [n|], (g_nrm g') as [n'|]; try contradiction. destruct N as (_ & _ & _ & _ & ->). reflexivity.
Qed.

(** ** sums *)
Section K.
Variable k : em_kind.
Definition SR (x x' : scr) : Prop := s_gi x' = s_gi x /\
  (tracks_cen k = true -> s_tv x' = c * s_tv x - s * s_tu x + a * s_gi x /\ s_tu x' = s * s_tv x + c * s_tu x + b * s_gi x) /\
  (tracks_cov k = true -> mat (s_tv2 x) (s_tuv x) (s_tu2 x) (s_tv2 x') (s_tuv x') (s_tu2 x')).
Definition AR (x x' : sums) : Prop := a_pnew x' = a_pnew x /\
  (tracks_cen k = true -> a_v x' = c * a_v x - s * a_u x + a * a_pnew x /\ a_u x' = s * a_v x + c * a_u x + b * a_pnew x) /\
  (tracks_cov k = true -> mat (a_v2 x) (a_uv x) (a_u2 x) (a_v2 x') (a_uv x') (a_u2 x')).
Lemma scr0_moved : SR scr0 scr0.
Proof. unfold SR, scr0. cbn. split; [reflexivity|]. split; intros _; [split; ring|apply mat_round]. Qed.
Lemma sums0_moved : AR sums0 sums0.
Proof. unfold AR, sums0. cbn. split; [reflexivity|]. split; intros _; [split; ring|apply mat_round]. Qed.
Definition gt_moved (x x' : gauss * (option R * option R)) : Prop := READY (fst x) (fst x') /\ snd x' = snd x.
Definition st3 (x x' : scr * R * option R) : Prop := SR (fst (fst x)) (fst (fst x')) /\ snd (fst x') = snd (fst x) /\ snd x' = snd x.
Lemma scratch_gauss_moved p p' st st' x x' : pm p p' -> st3 st st' -> gt_moved x x' -> same_outcome st3 (scratch_gauss k p st x) (scratch_gauss k p' st' x').
Proof.
  destruct st as [[z gs] L], st' as [[z' gs'] L'], x as [g ta], x' as [g' ta']. intros P (S1 & S2 & S3) [G T]. cbn [fst snd] in *. subst gs' L' ta'.
  unfold scratch_gauss. cbv zeta. eapply same_bind; [apply same_eq; apply val_same; eassumption|]. intros w ? ->. cbn [same_outcome]. unfold st3. cbn [fst snd].
  rewrite (chi2_same _ _ _ _ G P). split; [|split; reflexivity]. destruct S1 as (A & B & C). destruct P as (P1 & P2 & _). destruct G as [(_ & G2 & G3 & _) _].
  destruct (offset_moved t a b (px_v p) (px_u p) (g_row g) (g_col g)) as [O1 O2]. rewrite <- P1, <- G2 in O1. rewrite <- P2, <- G3 in O2.
  unfold SR. cbn [s_gi s_tv s_tu s_tv2 s_tuv s_tu2]. split; [rewrite A; reflexivity|]. split; intros K; rewrite K.
  - destruct (B K) as [B1 B2]. rewrite B1, B2, P1, P2. unfold moved_v, moved_u. split; ring.
  - rewrite O1, O2. pose proof (mat_add 1 w _ _ _ _ _ _ _ _ _ _ _ _ (C K) (mat_outer (px_v p - g_row g) (px_u p - g_col g))) as M. rewrite !Rmult_1_l in M.
    rewrite !(Rmult_comm _ w). exact M.
Qed.
Definition st4 (x x' : list scr * R * option R) : Prop := Forall2 SR (fst (fst x)) (fst (fst x')) /\ snd (fst x') = snd (fst x) /\ snd x' = snd x.
Lemma tau_same conv conv' : Forall2 READY conv conv' -> set_logtau_logdet conv' = set_logtau_logdet conv.
Proof.
  unfold set_logtau_logdet. induction 1 as [|g g' l l' [(E1 & _ & _ & _ & _ & _ & E7) _] _ IH]; cbn [map]; [reflexivity|]. rewrite E1, E7, Rmult_1_l, IH. reflexivity.
Qed.
Lemma scratch_moved p p' conv conv' n tau : pm p p' -> Forall2 READY conv conv' -> same_outcome st4 (do_scratch_sums k p conv n tau) (do_scratch_sums k p' conv' n tau).
Proof.
  intros P C. unfold do_scratch_sums. destruct (Nat.eqb n 0); [reflexivity|]. cbv zeta. rewrite (F2_len _ _ _ C).
  eapply same_bind with (P := st4).
  - apply same_foldM with (E := eq); [apply Forall2_diag| |split; [constructor|split; reflexivity]].
    intros [[l g] L] [[l' g'] L'] i ? (H1 & H2 & H3) <-. cbn [fst snd] in *. subst g' L'.
    eapply same_bind with (P := st3).
    + apply same_foldM with (E := gt_moved).
      * unfold chunk. apply F2_firstn, F2_skipn. eapply F2_impl; [|apply (F2_combine _ eq _ _ C tau tau (Forall2_diag tau))].
        intros x y [X Y]. split; [exact X|symmetry; exact Y].
      * intros. apply scratch_gauss_moved; assumption.
      * split; [apply scr0_moved|split; reflexivity].
    + intros [[z g2] L2] [[z' g2'] L2'] (Z1 & Z2 & Z3). cbn [fst snd] in *. subst g2' L2'. cbn [same_outcome]. split; [|split; reflexivity].
      cbn [fst snd]. apply Forall2_app; [exact H1|constructor; [exact Z1|constructor]].
  - intros [[l g] L] [[l' g'] L'] (H1 & H2 & H3). cbn [fst snd] in *. subst g' L'. cbn [same_outcome]. split; [exact H1|split; reflexivity].
Qed.
Lemma do_sums_moved l l' z z' v g : Forall2 AR l l' -> Forall2 SR z z' -> Forall2 AR (do_sums l z v g) (do_sums l' z' v g).
Proof.
  intros H1 H2. unfold do_sums. cbv zeta. eapply map_units; [apply (F2_combine _ _ _ _ H1 _ _ H2)|]. intros [x y] [x' y'] [X Y]. cbn [fst snd] in X, Y.
  destruct X as (A & B & C). destruct Y as (D & E & F). unfold AR. cbn [a_pnew a_v a_u a_v2 a_uv a_u2]. split; [rewrite A, D; reflexivity|]. split; intros K.
  - destruct (B K) as [-> ->], (E K) as [-> ->]. split; ring.
  - pose proof (mat_add 1 (v / g) _ _ _ _ _ _ _ _ _ _ _ _ (C K) (F K)) as M. rewrite !Rmult_1_l in M. rewrite !(Rmult_comm _ (v / g)). exact M.
Qed.
Definition st5 (x x' : list sums * option R * R) : Prop := Forall2 AR (fst (fst x)) (fst (fst x')) /\ snd (fst x') = snd (fst x) /\ snd x' = snd x.
Lemma em_pixel_moved conv conv' n tau sky st st' p p' : Forall2 READY conv conv' -> st5 st st' -> pm p p' ->
  same_outcome st5 (em_pixel k conv n tau sky st p) (em_pixel k conv' n tau sky st' p').
Proof.
  destruct st as [[l L] ss], st' as [[l' L'] ss']. intros C (H1 & H2 & H3) P. cbn [fst snd] in *. subst L' ss'. unfold em_pixel.
  eapply same_bind; [apply (scratch_moved p p' conv conv' n tau P C)|]. intros [[z g] T] [[z' g'] T'] (Z1 & Z2 & Z3). cbn [fst snd] in *. subst g' T'. cbv zeta.
  destruct (Reqb (g + sky) 0); [reflexivity|]. destruct P as (_ & _ & _ & -> & _). cbn [same_outcome]. split; [|split; reflexivity]. apply do_sums_moved; assumption.
Qed.

(** ** the new mixture *)
Lemma moms_moved q a' b' psf psf' : q <> 0 -> Forall2 (gauss_moved q t a' b') psf psf' ->
  same_outcome (fun x x' => let '(_, _, rr, rc, cc, _) := x in let '(_, _, rr', rc', cc', _) := x' in mat rr rc cc rr' rc' cc') (gmix_get_moms psf) (gmix_get_moms psf').
Proof.
  intros Q H. unfold gmix_get_moms. eapply same_bind; [apply (cen_moved t q a' b' psf psf' Q H)|]. intros [[row col] p] ? [-> NZ]. cbv beta iota.
  match goal with |- context [fold_left ?f psf (0, 0, 0)] => set (F := f) end. match goal with |- context [fold_left ?f psf' (0, 0, 0)] => set (F' := f) end.
  assert (X : forall x x', (let '(rr, rc, cc) := x in let '(rr', rc', cc') := x' in mat (q * rr) (q * rc) (q * cc) rr' rc' cc') ->
    let '(rr, rc, cc) := fold_left F psf x in let '(rr', rc', cc') := fold_left F' psf' x' in mat (q * rr) (q * rc) (q * cc) rr' rc' cc').
  { induction H as [|g g' l l' G _ IH]; intros x x' HX; [exact HX|]. cbn [fold_left]. apply IH.
    destruct x as [[rr rc] cc], x' as [[rr' rc'] cc']. destruct G as (G1 & G2 & G3 & G4 & G5 & G6 & _). unfold F, F'.
    destruct (offset_moved t a' b' (g_row g) (g_col g) row col) as [O1 O2]. rewrite G1, G2, G3, O1, O2.
    pose proof (mat_add 1 1 _ _ _ _ _ _ _ _ _ _ _ _ (conj G4 (conj G5 G6)) (mat_outer (g_row g - row) (g_col g - col))) as M1.
    pose proof (mat_add 1 (q * g_p g) _ _ _ _ _ _ _ _ _ _ _ _ HX M1) as M2. rewrite !Rmult_1_l in M2.
    replace (q * (rr + g_p g * (g_irr g + (g_row g - row) ^ 2))) with (q * rr + q * g_p g * (g_irr g + (g_row g - row) * (g_row g - row))) by ring.
    replace (q * (rc + g_p g * (g_irc g + (g_row g - row) * (g_col g - col)))) with (q * rc + q * g_p g * (g_irc g + (g_col g - col) * (g_row g - row))) by ring.
    replace (q * (cc + g_p g * (g_icc g + (g_col g - col) ^ 2))) with (q * cc + q * g_p g * (g_icc g + (g_col g - col) * (g_col g - col))) by ring.
    rewrite <- !Rsqr_pow2. unfold Rsqr.
    rewrite (Rmult_comm (c * (g_row g - row) - s * (g_col g - col)) (s * (g_row g - row) + c * (g_col g - col))). exact M2. }
  specialize (X (0, 0, 0) (0, 0, 0)). cbv beta iota in X. rewrite !Rmult_0_r in X. specialize (X (mat_round 0)).
  destruct (fold_left F psf (0, 0, 0)) as [[rr rc] cc]. destruct (fold_left F' psf' (0, 0, 0)) as [[rr' rc'] cc'].
  rewrite Reqb_f by exact NZ. rewrite Reqb_f by (apply Rmult_integral_contrapositive_currified; assumption). cbn [same_outcome].
  pose proof (mat_add (/ (q * p)) 0 _ _ _ _ _ _ _ _ _ _ _ _ X (mat_round 0)) as M. rewrite !Rmult_0_r, !Rplus_0_r in M. unfold Rdiv.
  rewrite (Rmult_comm rr' (/ (q * p))), (Rmult_comm rc' (/ (q * p))), (Rmult_comm cc' (/ (q * p))).
  replace (rr * / p) with (/ (q * p) * (q * rr)) by (field; auto). replace (rc * / p) with (/ (q * p) * (q * rc)) by (field; auto).
  replace (cc * / p) with (/ (q * p) * (q * cc)) by (field; auto). exact M.
Qed.
Definition pc_moved (x x' : R * R * R) : Prop := tracks_cov k = true -> let '(rr, rc, cc) := x in let '(rr', rc', cc') := x' in mat rr rc cc rr' rc' cc'.
Lemma set_gauss_moved pc pc' g g' l l' : pc_moved pc pc' -> GM g g' -> AR l l' -> (tracks_cov k = true -> sin (2 * t) = 0 \/ definite pc l) ->
  same_outcome GM (set_gauss k pc g l) (set_gauss k pc' g' l').
Proof.
  destruct pc as [[prr prc] pcc], pc' as [[prr' prc'] pcc']. intros PC G (A1 & A2 & A3) D. pose proof G as (G1 & G2 & G3 & G4 & G5 & G6 & _).
  unfold set_gauss. cbv zeta. rewrite A1.
  assert (FIX : tracks_cov k = true -> a_pnew l <> 0 ->
    let '(x, y, z) := fix_cov (a_v2 l * (1 / a_pnew l) - prr) (a_uv l * (1 / a_pnew l) - prc) (a_u2 l * (1 / a_pnew l) - pcc) in
    let '(x', y', z') := fix_cov (a_v2 l' * (1 / a_pnew l) - prr') (a_uv l' * (1 / a_pnew l) - prc') (a_u2 l' * (1 / a_pnew l) - pcc') in mat x y z x' y' z').
  { intros K NZ. apply fix_moved.
    - pose proof (mat_add (1 / a_pnew l) (-1) _ _ _ _ _ _ _ _ _ _ _ _ (A3 K) (PC K)) as M.
      assert (SH : forall x y, x * (1 / a_pnew l) - y = 1 / a_pnew l * x + -1 * y) by (intros; ring). rewrite !SH. exact M.
    - destruct (D K) as [Z|Z]; [left; exact Z|right]. specialize (Z NZ). unfold Rdiv in *. rewrite !Rmult_1_l. lra. }
  assert (CEN : tracks_cen k = true -> a_pnew l <> 0 -> a_v l' * (1 / a_pnew l) = moved_v t a (a_v l * (1 / a_pnew l)) (a_u l * (1 / a_pnew l)) /\
    a_u l' * (1 / a_pnew l) = moved_u t b (a_v l * (1 / a_pnew l)) (a_u l * (1 / a_pnew l))).
  { intros K NZ. destruct (A2 K) as [-> ->]. unfold moved_v, moved_u. split; field; exact NZ. }
  destruct k; cbn [tracks_cov tracks_cen] in *.
  - destruct (Reqb_spec (a_pnew l) 0) as [Z|Z]; [reflexivity|]. specialize (FIX eq_refl Z). destruct (CEN eq_refl Z) as [C1 C2].
    destruct (fix_cov _ _ _) as [[x y] z]. destruct (fix_cov _ _ _) as [[x' y'] z']. destruct FIX as (F1 & F2 & F3). cbn [same_outcome].
    eapply set_moved; [reflexivity|ring|exact C1|exact C2|exact F1|exact F2|exact F3].
  - destruct (Reqb_spec (a_pnew l) 0) as [Z|Z]; [reflexivity|]. specialize (FIX eq_refl Z).
    destruct (fix_cov _ _ _) as [[x y] z]. destruct (fix_cov _ _ _) as [[x' y'] z']. destruct FIX as (F1 & F2 & F3). cbn [same_outcome].
    eapply set_moved; [reflexivity|ring|exact G2|exact G3|exact F1|exact F2|exact F3].
  - destruct (Reqb_spec (a_pnew l) 0) as [Z|Z]; [reflexivity|]. destruct (CEN eq_refl Z) as [C1 C2]. cbn [same_outcome].
    destruct (fix_cov _ _ _) as [[? ?] ?]. destruct (fix_cov _ _ _) as [[? ?] ?].
    eapply set_moved; [reflexivity|ring|exact C1|exact C2|exact G4|exact G5|exact G6].
  - cbn [same_outcome]. eapply set_moved; [reflexivity|ring|exact G2|exact G3|exact G4|exact G5|exact G6].
Qed.
Lemma mapM_gauss pc pc' gm gm' l l' : pc_moved pc pc' -> Forall2 GM gm gm' -> Forall2 AR l l' ->
  (tracks_cov k = true -> sin (2 * t) = 0 \/ Forall (definite pc) l) ->
  same_outcome (Forall2 GM) (mapM (fun x : gauss * sums => let (g, y) := x in set_gauss k pc g y) (combine gm l))
                            (mapM (fun x : gauss * sums => let (g, y) := x in set_gauss k pc' g y) (combine gm' l')).
Proof.
  intros PC G. revert l l'. induction G as [|g g' gm gm' G _ IH]; intros l l' A D; [constructor|]. destruct A as [|x x' l l' A1 A2]; [constructor|].
  cbn [combine mapM]. eapply same_bind.
  - apply set_gauss_moved; [exact PC|exact G|exact A1|]. intros K. destruct (D K) as [Z|Z]; [left; exact Z|right; inversion Z; assumption].
  - intros y y' Y. eapply same_bind; [apply IH; [exact A2|]|].
    + intros K. destruct (D K) as [Z|Z]; [left; exact Z|right; inversion Z; assumption].
    + intros w w' W. constructor; assumption.
Qed.
Lemma norms_same {X} w w' (f : list gauss -> res X) (f' : list gauss -> res X) (P : X -> X -> Prop) : Forall2 GM w w' ->
  (forall v v', Forall2 READY v v' -> same_outcome P (f v) (f' v')) ->
  same_outcome P (let (v, r) := gmix_set_norms w in let* _ := r in f v) (let (v, r) := gmix_set_norms w' in let* _ := r in f' v).
Proof.
  intros W H. destruct (set_norms_moved t a b w w' W) as [E R]. destruct (gmix_set_norms w) as [v r], (gmix_set_norms w') as [v' r']. cbn [fst snd] in *.
  destruct r as [[]|e], r' as [[]|e']; cbn in E; try contradiction; cbn [bind]; [|exact E]. apply H. apply R. reflexivity.
Qed.
Variables (q a' b' : R).
Lemma set_from_sums_moved psf psf' gm gm' l l' : q <> 0 -> Forall2 (gauss_moved q t a' b') psf psf' -> Forall2 GM gm gm' -> Forall2 AR l l' ->
  (tracks_cov k = true -> sin (2 * t) = 0 \/ forall row col irr irc icc p, gmix_get_moms psf = Ok (row, col, irr, irc, icc, p) -> Forall (definite (irr, irc, icc)) l) ->
  same_outcome (fun x x' => Forall2 GM (fst x) (fst x') /\ Forall2 READY (snd x) (snd x')) (gmix_set_from_sums k gm psf l) (gmix_set_from_sums k gm' psf' l').
Proof.
  intros Q P G A D. unfold gmix_set_from_sums.
  eapply same_bind with (P := fun pc pc' => pc_moved pc pc' /\ (tracks_cov k = true -> sin (2 * t) = 0 \/ Forall (definite pc) l)).
  - assert (X : tracks_cov k = true -> same_outcome (fun pc pc' => pc_moved pc pc' /\ (tracks_cov k = true -> sin (2 * t) = 0 \/ Forall (definite pc) l))
      (let* (_, _, irr, irc, icc, _) := gmix_get_moms psf in Ok (irr, irc, icc)) (let* (_, _, irr, irc, icc, _) := gmix_get_moms psf' in Ok (irr, irc, icc))).
    { intros K. pose proof (moms_moved q a' b' psf psf' Q P) as M. specialize (D K).
      destruct (gmix_get_moms psf) as [[[[[[r0 c0] rr] rc] cc] p0]|e], (gmix_get_moms psf') as [[[[[[r0' c0'] rr'] rc'] cc'] p0']|e']; cbn in M; try contradiction; cbn; [|exact M].
      split; [intros _; exact M|]. intros _. destruct D as [Z|Z]; [left; exact Z|right]. eapply Z. reflexivity. }
    unfold pc_moved in X |- *. clear D A. destruct k; try (apply X; reflexivity); cbn; split; intros ?; discriminate.
  - intros pc pc' [PC DD]. eapply same_bind; [apply (mapM_gauss pc pc' gm gm' l l' PC G A DD)|]. intros w w' W.
    eapply same_bind; [apply (convolve_moved t a b q a' b' w w' psf psf' Q W P)|]. intros v v' V.
    apply norms_same; [exact V|]. intros z z' Z. cbn [same_outcome]. split; assumption.
Qed.
Lemma fill_pix_moved conv conv' px px' sky : Forall2 READY conv conv' -> Forall2 pm px px' ->
  same_outcome (Forall2 pm) (fill_zero_weight_pixels conv px sky) (fill_zero_weight_pixels conv' px' sky).
Proof.
  intros C P. unfold fill_zero_weight_pixels. eapply mapM_same2; [exact P|]. intros p p' X. pose proof X as (X1 & X2 & X3 & X4 & X5). rewrite X5.
  destruct (Rleb (px_ierr p) 0); [|exact X]. rewrite X1, X2, X3, (eval_moved t a b conv conv' _ _ _ C). eapply same_bind; [apply same_refl|]. intros v ? <-. cbn [same_outcome].
  unfold pm. cbn [px_v px_u px_area px_val px_ierr]. auto.
Qed.

(** ** passes *)
Definition ST (x x' : em_state) : Prop := Forall2 GM (e_gm x) (e_gm x') /\ Forall2 READY (e_conv x) (e_conv x') /\ Forall2 pm (e_pix x) (e_pix x') /\
  e_sky x' = e_sky x /\ e_last x' = e_last x /\ e_fdiff x' = e_fdiff x.
Lemma flux_same gm gm' : Forall2 GM gm gm' -> map g_p gm' = map g_p gm.
Proof. induction 1 as [|g g' l l' (E & _) _ IH]; cbn [map]; [reflexivity|]. rewrite E, Rmult_1_l, IH. reflexivity. Qed.
Variables psf psf' : gmix.
Hypothesis Q : q <> 0.
Hypothesis P : Forall2 (gauss_moved q t a' b') psf psf'.
Lemma iter_moved cf fill i st st' : ST st st' -> (tracks_cov k = true -> sin (2 * t) = 0 \/ pass_definite k psf fill st) ->
  same_outcome (fun x x' => ST (fst x) (fst x') /\ snd x' = snd x) (em_iter k cf psf fill i st) (em_iter k cf psf' fill i st').
Proof.
  intros (S1 & S2 & S3 & S4 & S5 & S6) D. unfold em_iter. cbv zeta. rewrite (tau_same _ _ S2), S4, S5, S6, (F2_len _ _ _ P), (F2_len _ _ _ S1).
  assert (F : same_outcome (fun x x' => Forall2 pm x x' /\ (if fill then fill_zero_weight_pixels (e_conv st) (e_pix st) (e_sky st) else Ok (e_pix st)) = Ok x)
    (if fill then fill_zero_weight_pixels (e_conv st) (e_pix st) (e_sky st) else Ok (e_pix st)) (if fill then fill_zero_weight_pixels (e_conv st') (e_pix st') (e_sky st) else Ok (e_pix st'))).
  { destruct fill; [|split; [exact S3|reflexivity]]. pose proof (fill_pix_moved _ _ _ _ (e_sky st) S2 S3) as X.
    destruct (fill_zero_weight_pixels (e_conv st) (e_pix st) (e_sky st)), (fill_zero_weight_pixels (e_conv st') (e_pix st') (e_sky st)); cbn in *; auto. }
  eapply same_bind; [exact F|]. intros pix pix' [PX EP]. clear F.
  set (fo := foldM (em_pixel k (e_conv st) (length psf) (set_logtau_logdet (e_conv st)) (e_sky st)) pix (repeat sums0 (length (e_gm st)), Some 0, 0)).
  assert (FO : same_outcome (fun x x' => st5 x x' /\ fo = Ok x) fo
     (foldM (em_pixel k (e_conv st') (length psf) (set_logtau_logdet (e_conv st)) (e_sky st)) pix' (repeat sums0 (length (e_gm st)), Some 0, 0))).
  { assert (X : same_outcome st5 fo (foldM (em_pixel k (e_conv st') (length psf) (set_logtau_logdet (e_conv st)) (e_sky st)) pix' (repeat sums0 (length (e_gm st)), Some 0, 0))).
    { apply same_foldM with (E := pm); [exact PX| |split; [apply F2_repeat, sums0_moved|split; reflexivity]]. intros. apply em_pixel_moved; assumption. }
    destruct fo; [|exact X]. destruct (foldM _ pix' _); cbn in *; auto. }
  eapply same_bind; [exact FO|]. intros [[l L] ss] [[l' L'] ss'] [(H1 & H2 & H3) EF]. cbn [fst snd] in H1, H2, H3. subst L' ss'. clear FO.
  eapply same_bind; [apply (set_from_sums_moved psf psf' (e_gm st) (e_gm st') l l' Q P S1 H1)|].
  - intros K. destruct (D K) as [Z|Z]; [left; exact Z|right]. intros. eapply Z; eassumption.
  - intros [g v] [g' v'] [G V]. cbn [fst snd] in G, V. rewrite (F2_len _ _ _ PX), (flux_same _ _ G).
    eapply same_bind; [apply same_refl|]. intros sky ? <-. eapply same_bind; [apply same_refl|]. intros [fd stop] ? <-. cbn [same_outcome fst snd].
    split; [|reflexivity]. unfold ST. cbn [e_gm e_conv e_pix e_sky e_last e_fdiff]. repeat (split; [assumption || reflexivity|]). reflexivity.
Qed.
Lemma loop_moved cf fill n : forall i st st', ST st st' -> (tracks_cov k = true -> sin (2 * t) = 0 \/ passes_definite k cf psf fill n i st) ->
  same_outcome (fun x x' => ST (fst x) (fst x') /\ snd x' = snd x) (em_loop k cf psf fill n i st) (em_loop k cf psf' fill n i st').
Proof.
  induction n as [|n IH]; intros i st st' S D; cbn [em_loop]; [split; [exact S|reflexivity]|].
  pose proof (iter_moved cf fill i st st' S) as I. cbn [passes_definite] in D.
  assert (D1 : tracks_cov k = true -> sin (2 * t) = 0 \/ pass_definite k psf fill st) by (intros K; destruct (D K) as [Z|[Z _]]; [left|right]; exact Z).
  specialize (I D1). destruct (em_iter k cf psf fill i st) as [[x stop]|e], (em_iter k cf psf' fill i st') as [[x' stop']|e']; cbn in I; try contradiction; cbn [bind]; [|exact I].
  destruct I as [I1 ->]. destruct stop; [split; [exact I1|reflexivity]|]. apply IH; [exact I1|]. intros K. destruct (D K) as [Z|[_ Z]]; [left|right]; exact Z.
Qed.
Lemma run_moved cf fill px px' gm gm' conv conv' : pix_moved t a b px px' -> Forall2 GM gm gm' -> Forall2 GM conv conv' ->
  corrections_turn k t (run_definite k cf px gm psf conv fill) ->
  same_outcome (out_moved t a b) (em_run k cf px gm psf conv fill) (em_run k cf px' gm' psf' conv' fill).
Proof.
  intros PX G C D. unfold em_run. unfold run_definite in D. destruct (set_norms_moved t a b conv conv' C) as [E R].
  destruct (gmix_set_norms conv) as [v r], (gmix_set_norms conv') as [v' r']. cbn [fst snd] in *.
  destruct r as [[]|e], r' as [[]|e']; cbn in E; try contradiction; cbn [bind]; [|exact E]. specialize (R eq_refl). cbv zeta. rewrite (flux_same _ _ G).
  set (last := match k with FluxOnly => _ | _ => _ end).
  eapply same_bind; [apply (loop_moved cf fill (c_maxiter cf) 0 (mkSt gm v px (c_sky cf) last None) (mkSt gm' v' px' (c_sky cf) last None))|].
  - unfold ST. cbn [e_gm e_conv e_pix e_sky e_last e_fdiff]. repeat (split; [assumption || reflexivity|]). reflexivity.
  - intros K. destruct D as [D|[D|[D|D]]]; [rewrite D in K; discriminate|rewrite D in K; discriminate|left; exact D|right; apply D; reflexivity].
  - intros [st n] [st' n'] [(S1 & S2 & S3 & S4 & S5 & S6) N]. cbn [fst snd] in *. subst n'. rewrite S6, S4.
    destruct n; [reflexivity|]. destruct (e_fdiff st); [|reflexivity]. cbn [same_outcome]. unfold out_moved. cbn [o_numiter o_fdiff o_sky o_pix o_gm o_conv].
    split; [reflexivity|]. split; [reflexivity|]. split; [reflexivity|]. split; [exact S3|]. split.
    + eapply map_units; [exact S1|]. intros x x' X. exact X.
    + eapply F2_impl; [|exact S2]. intros x x' X. apply X.
Qed.
End K.
End T.
