From Coq Require Import String.
From Verif Require Import Base XReal Pixels_Model Jacobian_Model Moments_Model GMix_Model Render_Model WSums_Model WSums_Proofs Flags_Model MomResult_Model GaussMom_Model GMixObj_Model Admom_Model
  Units_Spec Units_Proofs Noise_Spec.
Local Open Scope R_scope.

(** ** arithmetic *)
Lemma xdiv_times_r k a b : 0 < k -> xdiv a (times k b) = times (/ k) (xdiv a b).
Proof.
  intros K. pose proof (Rinv_0_lt_compat k K) as KI. rewrite (times_cases k K), (times_cases _ KI).
  destruct a, b; unfold xdiv; try reflexivity.
  - rewrite (Reqb_scale k K). destruct (Reqb_spec r0 0).
    + destruct (rsgn r); reflexivity.
    + f_equal. field. split; [assumption|lra].
  - f_equal; ring.
  - f_equal; ring.
  - rewrite (Reqb_scale k K), (rsgn_scale k K). destruct (Reqb r 0); destruct (rsgn r); reflexivity.
  - rewrite (Reqb_scale k K), (rsgn_scale k K). destruct (Reqb r 0); destruct (rsgn r); reflexivity.
Qed.
Lemma xneg_times k x : 0 < k -> xneg (times k x) = times k (xneg x).
Proof. intros K. rewrite !(times_cases k K). destruct x; cbn [xneg]; try reflexivity. f_equal; ring. Qed.
Lemma xsub_times k a b : 0 < k -> xsub (times k a) (times k b) = times k (xsub a b).
Proof. intros K. unfold xsub. rewrite xneg_times, xadd_times by exact K. reflexivity. Qed.
Lemma xclip_times k x : 0 < k -> xclip0 (times k x) = times k (xclip0 x).
Proof.
  intros K. unfold xclip0. rewrite !(times_cases k K). destruct x; cbn [xltb]; try reflexivity.
  - destruct (Rltb_spec r 0); [rewrite Rltb_t by nra|rewrite Rltb_f by nra]; [f_equal; ring|reflexivity].
  - f_equal; ring.
Qed.
Lemma isfinite_times k x : 0 < k -> isfinite (times k x) = isfinite x.
Proof. intros K. rewrite (times_cases k K). destruct x; reflexivity. Qed.
Lemma ratio_error_noise k a b va vb c : 0 < k ->
  get_ratio_error a b (times (k ^ 2) va) (times (k ^ 2) vb) (times (k ^ 2) c) = rmap (times k) (get_ratio_error a b va vb c).
Proof.
  intros H. pose proof (sq_pos k H) as H2. unfold get_ratio_error, get_ratio_var.
  destruct (xeqb b (Fin 0)); [reflexivity|]. cbn [bind rmap].
  rewrite !xmul_times_r, !xdiv_times_l, !xadd_times, !xsub_times, !xmul_times_r, xclip_times, xsqrt_times by assumption. reflexivity.
Qed.

(** ** the moments result *)
Section Mom.
Variable k : R.
Hypothesis K : 0 < k.
Variable low : nat.
Hypothesis Hlow : (low <= 2)%nat.
Variable sums : list xr.
Variables cov cov' : smat.
Hypothesis Hn : sm_n cov' = sm_n cov.
Hypothesis Hc : forall i j, (low <= i < sm_n cov)%nat -> (low <= j < sm_n cov)%nat -> sm_at cov' i j = times (k ^ 2) (sm_at cov i j).
Hypothesis Hl : forall i, (i < low)%nat -> nth i sums NaN = NaN /\ xgtb (sm_at cov' i i) (Fin 0) = xgtb (sm_at cov i i) (Fin 0).

Let g := fun ne : string * (xr * xr) => (fst ne, (fst (snd ne), times k (snd (snd ne)))).

Lemma named_noise : same_outcome (fun a b => b = map g a) (add_moments_by_name sums cov) (add_moments_by_name sums cov').
Proof.
  unfold add_moments_by_name. rewrite (mget_scaled k low Hlow cov cov' Hn Hc) by lia.
  destruct (vget sums 5) as [fs|e] eqn:E5; cbn [rmap bind same_outcome]; [|reflexivity].
  destruct (mget cov 5 5) as [c55|e] eqn:Ec; cbn [rmap bind same_outcome]; [|reflexivity].
  apply same_foldM with (E := eq); [apply Forall2_diag| |reflexivity].
  intros s s' [name ind] a' -> <-.
  destruct (Z.of_nat ind >? Z.of_nat (List.length sums) - 1)%Z; [reflexivity|].
  destruct (String.eqb name "MF" || String.eqb name "M00")%bool eqn:EN.
  - cbn [same_outcome]. rewrite map_app. cbn [map]. unfold g at 3. cbn [fst snd]. rewrite xsqrt_times by exact K. reflexivity.
  - destruct (xgtb fs (Fin 0)) eqn:EF.
    2:{ cbn [same_outcome]. rewrite map_app. reflexivity. }
    destruct (vget sums ind) as [x|e] eqn:Ex; cbn [rmap bind same_outcome]; [|reflexivity].
    destruct (Nat.lt_ge_cases ind low) as [Hi|Hi].
    + assert (x = NaN) as ->.
      { destruct (Hl ind Hi) as [Hx _]. unfold vget in Ex. destruct (nth_error sums ind) eqn:En; [|discriminate].
        apply nth_error_nth with (d := NaN) in En. congruence. }
      assert (M : forall i j, (exists z z', mget cov i j = Ok z /\ mget cov' i j = Ok z') \/ (mget cov i j = Raise IndexError /\ mget cov' i j = Raise IndexError)).
      { intros i j. unfold mget. rewrite Hn. destruct (_ && _)%bool; [left|right]; eauto. }
      destruct (M ind ind) as [(z & z' & -> & ->)|[-> ->]]; cbn [bind same_outcome]; [|reflexivity].
      destruct (M ind 5%nat) as [(y & y' & -> & ->)|[-> ->]]; cbn [bind same_outcome]; [|reflexivity].
      unfold get_ratio_error, get_ratio_var. destruct (xeqb fs (Fin 0)); [reflexivity|]. cbn [bind same_outcome].
      rewrite map_app. reflexivity.
    + rewrite !(mget_scaled k low Hlow cov cov' Hn Hc) by lia. destruct (mget cov ind ind) as [y|]; cbn [rmap bind same_outcome]; [|reflexivity].
      destruct (mget cov ind 5) as [z|]; cbn [rmap bind same_outcome]; [|reflexivity].
      rewrite ratio_error_noise by exact K.
      destruct (get_ratio_error x fs y c55 z); cbn [rmap bind same_outcome]; [|reflexivity].
      rewrite map_app. reflexivity.
Qed.

Lemma mom_noise norm : same_outcome (errors_times low k) (make_mom_result sums cov norm) (make_mom_result sums cov' norm).
Proof.
  pose proof (sq_pos k K) as K2. unfold make_mom_result. rewrite Hn.
  destruct (_ && _)%bool; [reflexivity|]. destruct (negb (Nat.eqb (sm_n cov) 6) && _)%bool; [reflexivity|].
  destruct (vget sums 0) as [sv|]; cbn [rmap bind]; [|reflexivity].
  destruct (vget sums 1) as [su|]; cbn [rmap bind]; [|reflexivity].
  destruct (vget sums 2) as [s1|]; cbn [rmap bind]; [|reflexivity].
  destruct (vget sums 3) as [s2|]; cbn [rmap bind]; [|reflexivity].
  destruct (vget sums 4) as [sT|]; cbn [rmap bind]; [|reflexivity].
  destruct (vget sums 5) as [sF|] eqn:E5; cbn [rmap bind]; [|reflexivity].
  rewrite !(mget_scaled k low Hlow cov cov' Hn Hc) by lia.
  destruct (mget cov 5 5) as [cFF|]; cbn [rmap bind]; [|reflexivity].
  destruct (mget cov 4 4) as [cTT|]; cbn [rmap bind]; [|reflexivity].
  destruct (mget cov 4 5) as [cTF|]; cbn [rmap bind]; [|reflexivity].
  destruct (mget cov 2 2) as [c11|]; cbn [rmap bind]; [|reflexivity].
  destruct (mget cov 3 3) as [c22|]; cbn [rmap bind]; [|reflexivity].
  destruct (mget cov 2 4) as [c1T|]; cbn [rmap bind]; [|reflexivity].
  destruct (mget cov 3 4) as [c2T|]; cbn [rmap bind]; [|reflexivity].
  rewrite !xgtb_times, !ratio_error_noise by assumption. rewrite !xsqrt_times, !xdiv_times_r by exact K.
  rewrite (diag_flag k K low Hlow sums cov cov' Hn Hc Hl).
  pose proof named_noise as HN. pose proof (errs_scaled k K low Hlow cov cov' Hn Hc) as HE.
  assert (FIN : forall fl fe T Te s2n e1 e2 ee ee' errs errs' pars ff tf,
    (forall i, (low <= i)%nat -> nth i errs' NaN = times k (nth i errs NaN)) ->
    ee' = (times k (fst ee), times k (snd ee)) ->
    same_outcome (errors_times low k)
      (let* named := add_moments_by_name sums cov in
       Ok (mkMom fl sF sums cov (match norm with Some x => x | None => NaN end) ff tf fe T Te s2n e1 e2 ee errs pars named))
      (let* named := add_moments_by_name sums cov' in
       Ok (mkMom fl sF sums cov' (match norm with Some x => x | None => NaN end) ff tf (times k fe) T (times k Te) (times (/ k) s2n) e1 e2 ee' errs' pars named))).
  { intros. apply same_bind with (1 := HN). intros a a' ->. cbn [same_outcome]. unfold errors_times; cbn [m_flags m_flux m_sums m_cov m_sums_norm m_flux_flags m_T_flags m_flux_err m_T m_T_err m_s2n m_e1 m_e2 m_e_err m_sums_err m_pars m_named].
    repeat (split; [first [reflexivity|assumption]|]). reflexivity. }
  destruct (xgtb cFF (Fin 0)); destruct (xgtb cTT (Fin 0)); cbn [andb];
  destruct (xgtb sF (Fin 0));
  try (destruct (get_ratio_error sT sF cTT cFF cTF) as [err|e]; cbn [rmap bind]; [|reflexivity]);
  cbn [bind]; destruct (forallb _ _); cbn [Z.eqb bind];
  try (destruct (xgtb (xdiv sT sF) (Fin 0)); cbn [bind]);
  try (apply (FIN _ _ _ _ NaN); [first [exact HE|intros; apply nan_errs]|reflexivity]);
  try (apply (FIN _ _ _ NaN); [first [exact HE|intros; apply nan_errs]|reflexivity]);
  try (apply (FIN _ NaN _ NaN NaN); [first [exact HE|intros; apply nan_errs]|reflexivity]);
  try (apply FIN; [first [exact HE|intros; apply nan_errs]|reflexivity]).
  all: try (destruct (get_ratio_error s1 sT c11 cTT c1T) as [err1|e]; cbn [rmap bind]; [|reflexivity];
    destruct (get_ratio_error s2 sT c22 cTT c2T) as [err2|e]; cbn [rmap bind]; [|reflexivity];
    rewrite !isfinite_times by exact K;
    destruct (isfinite err1 && isfinite err2)%bool; cbn [bind];
      [apply FIN; [exact HE|reflexivity]|apply FIN; [exact HE|reflexivity]]).
Qed.
End Mom.

(** ** weighted sums *)
Section Sums.
Variable k : R.
Hypothesis K : 0 < k.
Variables px px' : list (pixel R).
Hypothesis U : noisier k px px'.

Lemma acc_noise n F w x y s s' : x * x <> 0 -> cov_times n k s s' ->
  cov_times n k (accumulate n F w (w * y) (w * w) (1 / (x * x)) s) (accumulate n F w (w * y) (w * w) (1 / (x / k * (x / k))) s').
Proof.
  intros X (A & B & C & D).
  destruct (accumulate_spec n F w (w * y) (w * w) (1 / (x * x)) s) as (A1 & B1 & C1 & D1).
  destruct (accumulate_spec n F w (w * y) (w * w) (1 / (x / k * (x / k))) s') as (A2 & B2 & C2 & D2).
  unfold cov_times. rewrite A1, A2, B1, B2, A, B. split; [reflexivity|]. split; [reflexivity|]. split.
  - intros i Hi. rewrite C1, C2, C by exact Hi. ring.
  - intros i j Hi Hj. rewrite D1, D2, D by assumption. field. split; [intros ->; apply X; ring|intro; lra].
Qed.
Lemma zero_cov n : cov_times n k wsums_zero wsums_zero.
Proof. repeat split; intros; cbn; ring. Qed.

Lemma wsums_noise (higher : bool) wt v u m s s' : cov_times (if higher then 17 else 6) k s s' ->
  same_outcome (cov_times (if higher then 17 else 6) k) (foldM (wsums_body higher wt v u m) px s) (foldM (wsums_body higher wt v u m) px' s').
Proof.
  apply same_foldM with (1 := U). clear s s'. intros s s' p p' HS HP.
  unfold wsums_body. destruct HP as (-> & -> & -> & -> & ->). destruct (Rltb _ _); [|exact HS].
  destruct (gmix_eval_pixel _ _ _ _) as [w|]; [|reflexivity].
  rewrite (ierr_test k K). destruct (Reqb_spec (px_ierr p * px_ierr p) 0); [reflexivity|].
  cbn [same_outcome]. apply acc_noise; assumption.
Qed.
Lemma get_weighted_sums_noise wt (higher : bool) :
  same_outcome (cov_times (if higher then 17 else 6) k) (snd (get_weighted_sums wt px None higher None)) (snd (get_weighted_sums wt px' None higher None)).
Proof.
  unfold get_weighted_sums. destruct (set_norms_if_needed wt) as [wt' [u|e]]; cbn [snd bind]; [|reflexivity].
  destruct (gm_get_sigma wt'); [|apply zero_cov]. unfold nb_weighted_sums. destruct wt'; [reflexivity|]. apply wsums_noise, zero_cov.
Qed.

Lemma stats_noise (higher : bool) s s' : cov_times (if higher then 17 else 6) k s s' ->
  same_outcome (gaussmom_errors_times k) (get_weighted_moments_stats higher s) (get_weighted_moments_stats higher s').
Proof.
  intros (A & B & C & D). unfold get_weighted_moments_stats. rewrite A, B.
  set (n := if higher then 17%nat else 6%nat) in *.
  assert (E : map (fun i => Fin (ws_sums s' i)) (seq 0 n) = map (fun i => Fin (ws_sums s i)) (seq 0 n)).
  { apply map_ext_in. intros i Hi. apply in_seq in Hi. rewrite C by lia. reflexivity. }
  rewrite E. apply same_bind with (P := errors_times 0 k).
  - apply mom_noise; [exact K|lia|reflexivity| |intros; lia]. cbn [sm_n sm_at]. intros i j Hi Hj. rewrite D by lia. reflexivity.
  - intros m m' H. cbn. unfold gaussmom_errors_times; cbn. auto.
Qed.

Lemma result_noise fac q q' : gaussmom_errors_times k q q' -> gaussmom_errors_times k (scale_result fac q) (scale_result fac q').
Proof.
  intros (A & B & F1 & F2 & F3 & F4 & F5 & F6 & F7 & F8 & F9 & F10 & F11 & F12 & F13 & F14 & F15 & F16 & F17 & F18).
  unfold gaussmom_errors_times, scale_result; cbn [q_npix q_wsum q_mom]. rewrite A, B. split; [reflexivity|]. split; [reflexivity|].
  unfold errors_times; cbn [m_flags m_flux m_sums m_cov m_sums_norm m_flux_flags m_T_flags m_flux_err m_T m_T_err m_s2n m_e1 m_e2 m_e_err m_sums_err m_pars m_named sm_n sm_at].
  rewrite F1, F2, F3, F4, F5, F6, F7, F8, F9, F10, F11, F12, F13, F14, F15.
  repeat (split; [reflexivity|]).
  split; [apply xmul_times_l, K|]. repeat (split; [reflexivity|]).
  split. { intros i j Hi Hj. rewrite F16 by assumption. apply xmul_times_l, sq_pos, K. }
  split; [|exact F18]. intros i Hi. rewrite !nth_map_nan by reflexivity. rewrite F17 by assumption. apply xmul_times_l, K.
Qed.
Theorem gaussmom_noise fwhm higher j : same_outcome (gaussmom_errors_times k) (gaussmom fwhm higher (GObs px j)) (gaussmom fwhm higher (GObs px' j)).
Proof.
  unfold gaussmom. destruct (set_mompars fwhm) as [wt|e]; cbn [bind]; [|reflexivity]. unfold measure_moments.
  apply same_bind with (1 := get_weighted_sums_noise wt higher). intros s s' HS.
  apply same_bind with (1 := stats_noise higher s s' HS). intros q q' HQ. pose proof HQ as (_ & _ & -> & _).
  destruct (negb _); cbn [same_outcome]; [exact HQ|]. apply result_noise, HQ.
Qed.
End Sums.

(** ** adaptive moments *)
Section Adaptive.
Variable k : R.
Hypothesis K : 0 < k.
Variables px px' : list (pixel R).
Hypothesis U : noisier k px px'.

Lemma censums_noise wt s s' : cov_times 7 k s s' ->
  same_outcome (cov_times 7 k) (foldM (censums_body wt) px s) (foldM (censums_body wt) px' s').
Proof.
  apply same_foldM with (1 := U). clear s s'. intros s s' p p' (A & B & C & D) HP.
  unfold censums_body. destruct HP as (-> & -> & -> & -> & _).
  destruct (gmix_eval_pixel_fast _ _ _ _) as [w|e]; cbn [bind]; [|reflexivity]. cbn [same_outcome].
  unfold cov_times; cbn [ws_npix ws_wsum ws_sums ws_cov]. rewrite A, B. split; [reflexivity|]. split; [reflexivity|]. split; [|exact D].
  intros i Hi. unfold fset. do 6 (destruct i as [|i]; [cbn; rewrite C by lia; ring|]). cbn. apply C. lia.
Qed.
Lemma momsums_noise wt g s s' : cov_times 7 k s s' ->
  same_outcome (cov_times 7 k) (foldM (momsums_body wt g) px s) (foldM (momsums_body wt g) px' s').
Proof.
  apply same_foldM with (1 := U). clear s s'. intros s s' p p' HS HP.
  unfold momsums_body. destruct HP as (-> & -> & -> & -> & ->).
  destruct (gmix_eval_pixel_fast _ _ _ _) as [w|e]; cbn [bind]; [|reflexivity].
  rewrite (ierr_test k K). destruct (Reqb_spec (px_ierr p * px_ierr p) 0); [reflexivity|].
  destruct (g_nrm g); [|reflexivity]. cbn [same_outcome]. apply (acc_noise k K); assumption.
Qed.

Definition noise_rec (r r' : am_rec) : Prop :=
  ar_flags r' = ar_flags r /\ ar_numiter r' = ar_numiter r /\ ar_pars r' = ar_pars r /\ ar_rho4 r' = ar_rho4 r /\ cov_times 7 k (ar_ws r) (ar_ws r').
Definition noise_state (s s' : am_state) : Prop := as_wt s' = as_wt s /\ as_old s' = as_old s /\ noise_rec (as_rec s) (as_rec s').
Definition noise_step {A} (x x' : am_state * res A) : Prop := noise_state (fst x) (fst x') /\ snd x' = snd x.

Lemma stop_noise wt r r' old f : noise_rec r r' -> noise_step (stop_with wt r old f) (stop_with wt r' old f).
Proof. intros (A & B & C & D & E). unfold noise_step, noise_state, noise_rec, stop_with; cbn. auto 10. Qed.
Lemma with_ws_noise r r' w w' : noise_rec r r' -> cov_times 7 k w w' -> noise_rec (with_ws r w) (with_ws r' w').
Proof. intros (A & B & C & D & E) H. unfold noise_rec, with_ws; cbn. auto 10. Qed.

Lemma iter_noise c row col s s' : noise_state s s' -> noise_step (am_iter c row col px s) (am_iter c row col px' s').
Proof.
  intros HS. pose proof HS as (W & O & R). unfold am_iter. rewrite W, O.
  destruct (as_wt s) as [|g0 wt0] eqn:EW. { split; [exact HS|reflexivity]. }
  destruct (Rltb (g_det g0) GMIX_LOW_DETVAL); [apply stop_noise, R|].
  destruct (gmix_set_norms (g0 :: wt0)) as [[|g1 rest] [u|e]].
  1: { split; [exact HS|reflexivity]. }
  1, 3: split; [split; [reflexivity|]; split; [reflexivity|exact R]|reflexivity].
  pose proof (censums_noise (g1 :: rest) wsums_zero wsums_zero (zero_cov k 7)) as HC.
  destruct (foldM (censums_body (g1 :: rest)) px wsums_zero) as [w|e], (foldM (censums_body (g1 :: rest)) px' wsums_zero) as [w'|e']; cbn [same_outcome] in HC; try contradiction.
  2: { subst e'. split; [split; [reflexivity|]; split; [reflexivity|exact R]|reflexivity]. }
  pose proof (with_ws_noise _ _ _ _ R HC) as R1. pose proof HC as (_ & _ & C & _).
  rewrite !C by lia. destruct (Rleb_spec (ws_sums w 5) 0) as [|P5]; [apply stop_noise, R1|].
  set (g2 := set_cen0 g1 _ _).
  destruct (_ || _)%bool; [apply stop_noise, R1|].
  pose proof (momsums_noise (g2 :: rest) g2 wsums_zero wsums_zero (zero_cov k 7)) as HM.
  destruct (foldM (momsums_body (g2 :: rest) g2) px wsums_zero) as [v|e], (foldM (momsums_body (g2 :: rest) g2) px' wsums_zero) as [v'|e']; cbn [same_outcome] in HM; try contradiction.
  2: { subst e'. split; [split; [reflexivity|]; split; [reflexivity|exact R1]|reflexivity]. }
  pose proof (with_ws_noise _ _ _ _ R1 HM) as R2. pose proof HM as (_ & _ & M & _).
  rewrite !M by lia. destruct (Rleb_spec (ws_sums v 5) 0) as [|Q5]; [apply stop_noise, R2|].
  destruct (Rleb _ 0); [apply stop_noise, R2|].
  match goal with |- context [if ?b then _ else _] => destruct b end.
  { destruct R2 as (A & B & _ & _ & _). split; [split; [reflexivity|]; split; [reflexivity|]|reflexivity]. unfold noise_rec; cbn. cbn in A, B. auto 10. }
  destruct (ac_cenonly c). { split; [split; [reflexivity|]; split; [reflexivity|exact R2]|reflexivity]. }
  destruct (deweight_moments _ _ _ _). { split; [split; [reflexivity|]; split; [reflexivity|exact R2]|reflexivity]. }
  apply stop_noise, R2.
Qed.
Lemma loop_noise c row col n : forall i s s', noise_state s s' -> noise_step (am_loop c row col px n i s) (am_loop c row col px' n i s').
Proof.
  induction n as [|n IH]; intros i s s' H; cbn [am_loop]. { split; [exact H|reflexivity]. }
  destruct (iter_noise c row col s s' H) as [A B].
  destruct (am_iter c row col px s) as [s1 r1], (am_iter c row col px' s') as [s2 r2]. cbn [fst snd] in A, B. subst r2.
  destruct r1 as [[|]|e]; [split; [exact A|reflexivity]|apply IH, A|split; [exact A|reflexivity]].
Qed.
Lemma admom_noise c wt r r' : noise_rec r r' ->
  let x := admom c wt px r in let x' := admom c wt px' r' in
  fst (fst x') = fst (fst x) /\ snd x' = snd x /\ noise_rec (snd (fst x)) (snd (fst x')).
Proof.
  intros H. unfold admom. destruct wt as [|g wt]; [cbn; auto|].
  assert (H0 : noise_state (mkAs (g :: wt) r None) (mkAs (g :: wt) r' None)) by (split; [reflexivity|]; split; [reflexivity|exact H]).
  destruct (loop_noise c (g_row g) (g_col g) (ac_maxiter c) 0 _ _ H0) as [A B].
  destruct (am_loop c (g_row g) (g_col g) px (ac_maxiter c) 0 _) as [s1 r1], (am_loop c (g_row g) (g_col g) px' (ac_maxiter c) 0 _) as [s2 r2].
  cbn [fst snd] in A, B. subst r2. destruct A as (W & _ & R).
  destruct r1 as [[|i]|e]; cbn [fst snd]; [auto| |auto]. split; [exact W|]. split; [reflexivity|].
  destruct R as (R1 & R2 & R3 & R4 & R5). unfold noise_rec; cbn. rewrite R1. auto 10.
Qed.

Lemma result_am_noise r r' area norm : noise_rec r r' -> same_outcome (adaptive_errors_times k) (get_result r area norm) (get_result r' area norm).
Proof.
  intros (A & B & C & D & HS). pose proof HS as (_ & W & S & V). pose proof (sq_pos k K) as K2.
  unfold get_result. cbv zeta. rewrite A, B, C, D, W.
  assert (VX : forall i j, (i < 7)%nat -> (j < 7)%nat -> Fin (ws_cov (ar_ws r') i j) = times (k ^ 2) (Fin (ws_cov (ar_ws r) i j))) by (intros i j Hi Hj; rewrite V by assumption; reflexivity).
  rewrite !S, !VX by lia. rewrite !ratio_error_noise, !xgtb_times by assumption. rewrite xsqrt_times by exact K.
  rewrite !(xdiv_times_l k K). rewrite !xdiv_times_r by exact K.
  assert (EV : forallb (fun i => xgtb (Fin (ws_cov (ar_ws r') i i)) (Fin 0)) (seq 2 5) = forallb (fun i => xgtb (Fin (ws_cov (ar_ws r) i i)) (Fin 0)) (seq 2 5)).
  { cbn [seq forallb]. rewrite !VX by lia. rewrite !xgtb_times by assumption. reflexivity. }
  rewrite EV. clear EV.
  set (mean := if Z.eqb (ar_flags r) 0 then xdiv (Fin (ws_sums (ar_ws r) 5)) (Fin (ws_wsum (ar_ws r))) else NaN).
  set (pars := if Z.eqb (ar_flags r) 0 then set5 (ar_pars r) mean else ar_pars r).
  set (T := if Z.eqb (ar_flags r) 0 then xnth (ar_pars r) 4 else NaN).
  assert (GEN : forall (p p' : xr * xr * xr * Z) (q q' : res (xr * Z)) (u u' : res (xr * xr * Z)) (m m' : res (xr * xr * xr * xr * Z)),
    p' = (let '(fx, fxe, s2n, ff) := p in (fx, times k fxe, times (/ k) s2n, ff)) ->
    q' = rmap (fun x => (times k (fst x), snd x)) q ->
    u' = rmap (fun x => (fst (fst x), times k (snd (fst x)), snd x)) u ->
    m' = rmap (fun x => let '(e1, e2, e1e, e2e, fl) := x in (e1, e2, times k e1e, times k e2e, fl)) m ->
    same_outcome (adaptive_errors_times k)
      (let '(fx, fxe, s2n, ff) := p in
       let* (Te, tf) := q in let* (r4, r4e, rf) := u in let* (e1, e2, e1e, e2e, fl) := m in
       Ok (mkAd fl (ar_numiter r) (ar_ws r) pars ff tf rf fx mean fxe s2n T Te r4 r4e e1 e2 e1e e2e))
      (let '(fx, fxe, s2n, ff) := p' in
       let* (Te, tf) := q' in let* (r4, r4e, rf) := u' in let* (e1, e2, e1e, e2e, fl) := m' in
       Ok (mkAd fl (ar_numiter r) (ar_ws r') pars ff tf rf fx mean fxe s2n T Te r4 r4e e1 e2 e1e e2e))).
  { intros [[[fx fxe] s2n] ff] p' q q' u u' m m' -> -> -> ->. destruct q as [[Te tf]|]; cbn [rmap bind fst snd]; [|reflexivity].
    destruct u as [[[r4 r4e] rf]|]; cbn [rmap bind fst snd]; [|reflexivity]. destruct m as [[[[[e1 e2] e1e] e2e] fl]|]; cbn [rmap bind]; [|reflexivity].
    cbn [same_outcome]. unfold adaptive_errors_times; cbn [d_flags d_numiter d_ws d_pars d_flux_flags d_T_flags d_rho4_flags d_flux d_flux_mean d_flux_err d_s2n d_T d_T_err d_rho4 d_rho4_err d_e1 d_e2 d_e1err d_e2err].
    repeat (split; [reflexivity|]). exact HS. }
  apply GEN.
  - destruct (Z.eqb (ar_flags r) 0); [|reflexivity]. destruct (xltb _ T); [|reflexivity]. destruct (xgtb _ _); reflexivity.
  - destruct (Z.eqb (ar_flags r) 0); [|reflexivity]. destruct (_ && _)%bool; [|reflexivity]. destruct (xgtb _ _); [|reflexivity].
    destruct (get_ratio_error _ _ _ _ _); cbn [rmap bind fst snd]; [|reflexivity]. rewrite xmul_times_r by exact K. reflexivity.
  - destruct (Z.eqb (ar_flags r) 0); [|reflexivity]. destruct (_ && _)%bool; [|reflexivity]. destruct (xgtb _ _); [|reflexivity].
    destruct (get_ratio_error _ _ _ _ _); cbn [rmap bind fst snd]; [|reflexivity]. rewrite xmul_times_r by exact K. reflexivity.
  - destruct (Z.eqb (if forallb _ _ then _ else _) 0); [|reflexivity]. destruct (xgtb _ _); [|reflexivity]. destruct (xgtb T _); [|reflexivity].
    destruct (get_ratio_error _ _ _ _ _) as [x|]; cbn [rmap bind]; [|reflexivity].
    destruct (get_ratio_error _ _ _ _ _) as [y|]; cbn [rmap bind]; [|reflexivity].
    rewrite !xmul_times_r, !isfinite_times by exact K. destruct (_ || _)%bool; reflexivity.
Qed.
Theorem am_run_noise c j wt :
  let x := am_run c (mkAo px j) wt in let x' := am_run c (mkAo px' j) wt in
  fst x' = fst x /\ same_outcome (adaptive_errors_times k) (snd x) (snd x').
Proof.
  unfold am_run. cbn [ao_pix ao_jac].
  assert (R0 : noise_rec am_rec0 am_rec0) by (repeat split; intros; cbn; ring).
  destruct (admom_noise c wt am_rec0 am_rec0 R0) as (A & B & C).
  destruct (admom c wt px am_rec0) as [[wt1 r1] e1], (admom c wt px' am_rec0) as [[wt2 r2] e2]. cbn [fst snd] in A, B, C. subst wt2 e2.
  assert (C' : noise_rec (mkAr GMIX_RANGE_ERROR (ar_numiter r1) (ar_ws r1) (ar_pars r1) (ar_rho4 r1)) (mkAr GMIX_RANGE_ERROR (ar_numiter r2) (ar_ws r2) (ar_pars r2) (ar_rho4 r2))).
  { destruct C as (C1 & C2 & C3 & C4 & C5). unfold noise_rec; cbn. auto 10. }
  destruct e1 as [u|e]; [|destruct e]; cbn [fst snd]; split; try reflexivity;
    (destruct (norm0 wt1); cbn [bind]; [apply result_am_noise; assumption|reflexivity]).
Qed.
Theorem am_go_noise c h j guess : same_run (adaptive_errors_times k) (am_go c h (mkAo px j) guess) (am_go c h (mkAo px' j) guess).
Proof.
  unfold am_go. destruct guess as [i|T u1 u2 u3 u4 u5].
  - destruct (read h i) as [g|]; [|exact I]. destruct (am_run_noise c j (o_data g)) as [A B].
    destruct (am_run c (mkAo px j) (o_data g)) as [d r], (am_run c (mkAo px' j) (o_data g)) as [d' r']. cbn [fst snd] in A, B. subst d'. split; [reflexivity|exact B].
  - cbn [same_run]. split; [reflexivity|]. unfold generate_guess. cbn [ao_jac]. destruct (new_model _ _); cbn [bind]; [|reflexivity]. apply am_run_noise.
Qed.
Lemma get_gmix_noise d d' : adaptive_errors_times k d d' -> am_get_gmix d' = am_get_gmix d.
Proof.
  intros H. unfold adaptive_errors_times in H. destruct H as (F & H). do 10 (destruct H as (_ & H)). destruct H as (P & _).
  unfold am_get_gmix. rewrite F, P. reflexivity.
Qed.
Definition noise_last (x x' : option am_dict) : Prop := match x, x' with Some d, Some d' => adaptive_errors_times k d d' | None, None => True | _, _ => False end.
Lemma cen_loop_noise c j many w n : forall draws h last last', noise_last last last' ->
  same_run noise_last (cen_loop c (mkAo px j) many w n draws h last) (cen_loop c (mkAo px' j) many w n draws h last').
Proof.
  induction n as [|n IH]; intros draws h last last' HL; cbn [cen_loop]. { split; [reflexivity|exact HL]. }
  pose proof (am_go_noise c h j (GObj w)) as HG.
  destruct (am_go c h (mkAo px j) (GObj w)) as [[h1 r1]|], (am_go c h (mkAo px' j) (GObj w)) as [[h2 r2]|]; cbn [same_run] in HG; try contradiction; [|exact I].
  destruct HG as [-> HG]. destruct r1 as [d|e], r2 as [d'|e']; cbn [same_outcome] in HG; try contradiction. 2:{ subst. split; reflexivity. }
  pose proof HG as (-> & _). destruct (Z.eqb (d_flags d) 0). { split; [reflexivity|exact HG]. }
  destruct many; [|apply IH, HG]. destruct draws as [|[u1 u2] draws]; [exact I|]. cbn [ao_jac].
  destruct (step _ _) as [[h2 [x|e]]|]; [apply IH, HG|split; reflexivity|exact I].
Qed.
Theorem find_cen_noise c h j w ntry rng :
  same_run (fun x x' => adaptive_errors_times k (fst x) (fst x') /\ snd x' = snd x)
    (find_cen_admom c h (mkAo px j) w ntry rng) (find_cen_admom c h (mkAo px' j) w ntry rng).
Proof.
  unfold find_cen_admom. destruct (_ && _)%bool; [split; reflexivity|].
  destruct (cen_weight h w) as [[g|e]|]; [|split; reflexivity|exact I].
  match goal with |- context [cen_loop ?c _ ?m ?w ?n ?dr ?h None] => pose proof (cen_loop_noise c j m w n dr h None None I) as H;
    destruct (cen_loop c (mkAo px j) m w n dr h None) as [[h1 r1]|], (cen_loop c (mkAo px' j) m w n dr h None) as [[h2 r2]|] end;
    cbn [same_run] in H; try contradiction; [|exact I].
  destruct H as [-> H]. destruct r1 as [[d|]|e], r2 as [[d'|]|e']; cbn [same_outcome noise_last] in H; try contradiction; try (subst; split; reflexivity).
  split; [reflexivity|]. pose proof H as (-> & _). rewrite (get_gmix_noise d d' H).
  destruct (Z.eqb _ 0); [|split; [exact H|reflexivity]].
  destruct (am_get_gmix d) as [g1|e]; cbn [bind]; [|reflexivity]. destruct (gm_get_cen _) as [[a b]|]; split; auto.
Qed.
End Adaptive.
