From Coq Require Import String.
From Verif Require Import Base XReal Pixels_Model Jacobian_Model Moments_Model GMix_Model Render_Model WSums_Model WSums_Proofs Flags_Model MomResult_Model GaussMom_Model GMixObj_Model Admom_Model
  Units_Spec.
Local Open Scope R_scope.

(** ** outcomes *)
Lemma same_bind {A A' B B'} (P : A -> A' -> Prop) (Q : B -> B' -> Prop) r r' f f' :
  same_outcome P r r' -> (forall a a', P a a' -> same_outcome Q (f a) (f' a')) -> same_outcome Q (bind r f) (bind r' f').
Proof. destruct r, r'; cbn; intros H K; auto; contradiction. Qed.
Lemma same_eq {A} (r r' : res A) : r' = r -> same_outcome (fun a b => b = a) r r'.
Proof. intros ->. destruct r; cbn; reflexivity. Qed.
Lemma same_foldM {A A' S S'} (E : A -> A' -> Prop) (P : S -> S' -> Prop) (f : S -> A -> res S) (f' : S' -> A' -> res S') l l' :
  Forall2 E l l' -> (forall s s' a a', P s s' -> E a a' -> same_outcome P (f s a) (f' s' a')) ->
  forall s s', P s s' -> same_outcome P (foldM f l s) (foldM f' l' s').
Proof.
  intros H K. induction H as [|a a' l l' HE H IH]; intros s s' HP; cbn [foldM]; [exact HP|].
  apply same_bind with (P := P); [apply K; assumption|]. intros; apply IH; assumption.
Qed.
Lemma Forall2_diag {A} (l : list A) : Forall2 eq l l.
Proof. induction l; constructor; auto. Qed.

(** ** arithmetic *)
Section Scale.
Variable k : R.
Hypothesis K : 0 < k.

Lemma rsgn_pos : rsgn k = SPos.
Proof. unfold rsgn. rewrite Rltb_t by exact K. reflexivity. Qed.
Lemma rsgn_scale x : rsgn (k * x) = rsgn x.
Proof.
  unfold rsgn. destruct (Rltb_spec 0 x).
  - rewrite Rltb_t by nra. reflexivity.
  - rewrite Rltb_f by nra. destruct (Rltb_spec x 0); [rewrite Rltb_t by nra|rewrite Rltb_f by nra]; reflexivity.
Qed.
Lemma Reqb_scale x : Reqb (k * x) 0 = Reqb x 0.
Proof. destruct (Reqb_spec x 0); [subst; rewrite Rmult_0_r; apply Reqb_t; reflexivity|]. apply Reqb_f. nra. Qed.
Lemma Rltb0_scale x : Rltb 0 (k * x) = Rltb 0 x.
Proof. destruct (Rltb_spec 0 x); [apply Rltb_t|apply Rltb_f]; nra. Qed.
Lemma Rleb0_scale x : Rleb (k * x) 0 = Rleb x 0.
Proof. destruct (Rleb_spec x 0); [apply Rleb_t|apply Rleb_f]; nra. Qed.
Lemma times_inf : times k PInf = PInf /\ times k NInf = NInf.
Proof. unfold times, xmul. cbn [xsgn]. rewrite rsgn_pos. split; reflexivity. Qed.
Lemma times_cases x : times k x = match x with Fin r => Fin (k * r) | y => y end.
Proof. destruct x; try apply times_inf; reflexivity. Qed.
Lemma xsgn_times x : xsgn (times k x) = xsgn x.
Proof. rewrite times_cases. destruct x; cbn [xsgn]; try reflexivity. apply rsgn_scale. Qed.
Lemma xgtb_times x : xgtb (times k x) (Fin 0) = xgtb x (Fin 0).
Proof. rewrite times_cases. destruct x; unfold xgtb, xltb; try reflexivity. apply Rltb0_scale. Qed.
Lemma xeqb_times x : xeqb (times k x) (Fin 0) = xeqb x (Fin 0).
Proof. rewrite times_cases. destruct x; unfold xeqb; try reflexivity. apply Reqb_scale. Qed.
Lemma xdiv_times a b : xdiv (times k a) (times k b) = xdiv a b.
Proof.
  rewrite !times_cases. destruct a, b; unfold xdiv; try reflexivity.
  - rewrite Reqb_scale, rsgn_scale. destruct (Reqb_spec r0 0); [reflexivity|]. f_equal. field. split; [assumption|lra].
  - rewrite Reqb_scale, rsgn_scale. reflexivity.
  - rewrite Reqb_scale, rsgn_scale. reflexivity.
Qed.
Lemma xdiv_times_l a b : xdiv (times k a) b = times k (xdiv a b).
Proof.
  rewrite !times_cases. destruct a, b; unfold xdiv; try reflexivity.
  - destruct (Reqb_spec r0 0); [|f_equal; field; assumption]. rewrite rsgn_scale. destruct (rsgn r); reflexivity.
  - f_equal; ring.
  - f_equal; ring.
  - destruct (Reqb r 0); destruct (rsgn r); reflexivity.
  - destruct (Reqb r 0); destruct (rsgn r); reflexivity.
Qed.
Lemma xadd_times a b : xadd (times k a) (times k b) = times k (xadd a b).
Proof. rewrite !times_cases. destruct a, b; cbn [xadd]; try reflexivity. f_equal; ring. Qed.
Lemma xmul_times_r a b : xmul a (times k b) = times k (xmul a b).
Proof.
  rewrite !times_cases. destruct a, b; unfold xmul; try reflexivity.
  - f_equal; ring.
  - cbn [xsgn]. destruct (rsgn r); reflexivity.
  - cbn [xsgn]. destruct (rsgn r); reflexivity.
  - cbn [xsgn]. rewrite rsgn_scale. destruct (rsgn r); reflexivity.
  - cbn [xsgn]. rewrite rsgn_scale. destruct (rsgn r); reflexivity.
Qed.
Lemma xmul_comm a b : xmul a b = xmul b a.
Proof. destruct a, b; unfold xmul; cbn [xsgn]; try reflexivity; try (f_equal; ring); destruct (rsgn r); reflexivity. Qed.
Lemma xmul_times_l a b : xmul (times k a) b = times k (xmul a b).
Proof. rewrite xmul_comm, xmul_times_r, xmul_comm. reflexivity. Qed.
End Scale.

Lemma sq_pos k : 0 < k -> 0 < k ^ 2. Proof. intros; nra. Qed.
Lemma times_times k l x : 0 < k -> 0 < l -> times k (times l x) = times (k * l) x.
Proof. intros A B. rewrite !times_cases by (try apply Rmult_lt_0_compat; assumption). destruct x; try reflexivity. f_equal; ring. Qed.
Lemma xmul_times_2 k a b : 0 < k -> xmul (times k a) (times k b) = times (k ^ 2) (xmul a b).
Proof. intros H. rewrite xmul_times_l, xmul_times_r, times_times by assumption. f_equal. ring. Qed.
Lemma xsqrt_times k x : 0 < k -> xsqrt (times (k ^ 2) x) = times k (xsqrt x).
Proof.
  intros H. rewrite !times_cases by (try apply sq_pos; assumption). destruct x; try reflexivity. unfold xsqrt.
  pose proof (sq_pos k H). destruct (Rltb_spec r 0) as [L|L]; [rewrite Rltb_t by (revert H0 L; generalize (k^2); intros; nra); reflexivity|]. rewrite Rltb_f by (revert H0 L; generalize (k^2); intros; nra). f_equal.
  rewrite sqrt_mult by nra. f_equal. apply sqrt_pow2. lra.
Qed.
Lemma ratio_error_times k a b va vb c : 0 < k ->
  get_ratio_error (times k a) (times k b) (times (k ^ 2) va) (times (k ^ 2) vb) (times (k ^ 2) c) = get_ratio_error a b va vb c.
Proof.
  intros H. pose proof (sq_pos k H) as H2. unfold get_ratio_error, get_ratio_var.
  rewrite xeqb_times by exact H. destruct (xeqb b (Fin 0)); [reflexivity|]. cbn [bind].
  rewrite xdiv_times by exact H. rewrite !xmul_times_2, xmul_times_r, !xdiv_times by assumption. reflexivity.
Qed.
Lemma ratio_error_nan b va vb c va' vb' c' : xgtb b (Fin 0) = true -> get_ratio_error NaN b va vb c = get_ratio_error NaN b va' vb' c'.
Proof.
  intros H. unfold get_ratio_error, get_ratio_var. destruct (xeqb b (Fin 0)); [reflexivity|]. reflexivity.
Qed.

(** ** the moments result *)
Lemma vget_map f l i : vget (map f l) i = rmap f (vget l i).
Proof. unfold vget. rewrite nth_error_map. destruct (nth_error l i); reflexivity. Qed.

Lemma nth_map_seq {A} (f : nat -> A) d n i : nth i (map f (seq 0 n)) d = if Nat.ltb i n then f i else d.
Proof.
  destruct (Nat.ltb_spec i n).
  - rewrite nth_indep with (d' := f 0%nat) by (rewrite map_length, seq_length; lia). rewrite map_nth, seq_nth by lia. reflexivity.
  - apply nth_overflow. rewrite map_length, seq_length. lia.
Qed.


Section Mom.
Variable k : R.
Hypothesis K : 0 < k.
Variable low : nat.
Hypothesis Hlow : (low <= 2)%nat.
Variable sums : list xr.
Variables cov cov' : smat.
Hypothesis Hn : sm_n cov' = sm_n cov.
Hypothesis Hc : forall i j, (low <= i < sm_n cov)%nat -> (low <= j < sm_n cov)%nat -> sm_at cov' i j = times (k ^ 2) (sm_at cov i j).
Hypothesis Hl : forall i, (i < low)%nat -> nth i sums NaN = NaN /\ xgtb (sm_at cov' i i) (Fin 0) = xgtb (sm_at cov i i) (Fin 0).

Let g := fun ne : string * (xr * xr) => if String.eqb (fst ne) "MF" || String.eqb (fst ne) "M00"
                              then (fst ne, (times k (fst (snd ne)), times k (snd (snd ne)))) else ne.

Lemma mget_scaled i j : (low <= i)%nat -> (low <= j)%nat -> mget cov' i j = rmap (times (k ^ 2)) (mget cov i j).
Proof.
  intros A B. unfold mget. rewrite Hn. destruct (Nat.ltb_spec i (sm_n cov)), (Nat.ltb_spec j (sm_n cov)); cbn [andb rmap]; try reflexivity.
  rewrite Hc by lia. reflexivity.
Qed.

Lemma named_scaled : same_outcome (fun a b => b = map g a) (add_moments_by_name sums cov) (add_moments_by_name (map (times k) sums) cov').
Proof.
  unfold add_moments_by_name. rewrite vget_map, mget_scaled by lia.
  destruct (vget sums 5) as [fs|e] eqn:E5; cbn [rmap bind same_outcome]; [|reflexivity].
  destruct (mget cov 5 5) as [c55|e] eqn:Ec; cbn [rmap bind same_outcome]; [|reflexivity].
  apply same_foldM with (E := eq); [apply Forall2_diag| |reflexivity].
  intros s s' [name ind] a' -> <-. rewrite map_length.
  destruct (Z.of_nat ind >? Z.of_nat (List.length sums) - 1)%Z; [reflexivity|].
  destruct (String.eqb name "MF" || String.eqb name "M00")%bool eqn:EN.
  - cbn [same_outcome]. rewrite map_app. cbn [map]. unfold g at 3. cbn [fst snd]. rewrite EN, xsqrt_times by exact K. reflexivity.
  - rewrite xgtb_times by exact K. destruct (xgtb fs (Fin 0)) eqn:EF.
    2:{ cbn [same_outcome]. rewrite map_app. cbn [map]. unfold g at 3. cbn [fst snd]. rewrite EN. reflexivity. }
    rewrite vget_map. destruct (vget sums ind) as [x|e] eqn:Ex; cbn [rmap bind same_outcome]; [|reflexivity].
    destruct (Nat.lt_ge_cases ind low) as [Hi|Hi].
    + assert (x = NaN) as ->.
      { destruct (Hl ind Hi) as [Hx _]. unfold vget in Ex. destruct (nth_error sums ind) eqn:En; [|discriminate].
        apply nth_error_nth with (d := NaN) in En. congruence. }
      assert (M : forall i j, (exists z z', mget cov i j = Ok z /\ mget cov' i j = Ok z') \/ (mget cov i j = Raise IndexError /\ mget cov' i j = Raise IndexError)).
      { intros i j. unfold mget. rewrite Hn. destruct (_ && _)%bool; [left|right]; eauto. }
      destruct (M ind ind) as [(z & z' & -> & ->)|[-> ->]]; cbn [bind same_outcome]; [|reflexivity].
      destruct (M ind 5%nat) as [(y & y' & -> & ->)|[-> ->]]; cbn [bind same_outcome]; [|reflexivity].
      assert (EF' : xgtb (times k fs) (Fin 0) = true) by (rewrite xgtb_times by exact K; exact EF).
      unfold get_ratio_error, get_ratio_var. rewrite xeqb_times by exact K.
      change (times k NaN) with NaN. destruct (xeqb fs (Fin 0)); [reflexivity|]. cbn [bind same_outcome].
      rewrite map_app. cbn [map]. unfold g at 3. cbn [fst snd]. rewrite EN. reflexivity.
    + rewrite !mget_scaled by lia. destruct (mget cov ind ind) as [y|]; cbn [rmap bind same_outcome]; [|reflexivity].
      destruct (mget cov ind 5) as [z|]; cbn [rmap bind same_outcome]; [|reflexivity].
      rewrite ratio_error_times, xdiv_times by exact K.
      destruct (get_ratio_error x fs y c55 z); cbn [bind same_outcome]; [|reflexivity].
      rewrite map_app. cbn [map]. unfold g at 3. cbn [fst snd]. rewrite EN. reflexivity.
Qed.

Lemma diag_flag : forallb (fun c => xgtb c (Fin 0)) (map (fun i => sm_at cov' i i) (seq 0 (sm_n cov))) =
  forallb (fun c => xgtb c (Fin 0)) (map (fun i => sm_at cov i i) (seq 0 (sm_n cov))).
Proof.
  assert (H : forall l, (forall i, In i l -> (i < sm_n cov)%nat) ->
    forallb (fun c => xgtb c (Fin 0)) (map (fun i => sm_at cov' i i) l) = forallb (fun c => xgtb c (Fin 0)) (map (fun i => sm_at cov i i) l)).
  { induction l as [|i l IH]; intros Hi; cbn [map forallb]; [reflexivity|]. rewrite IH by (intros; apply Hi; right; assumption). f_equal.
    assert (i < sm_n cov)%nat by (apply Hi; left; reflexivity).
    destruct (Nat.lt_ge_cases i low); [apply Hl; assumption|]. rewrite Hc by lia. apply xgtb_times. apply sq_pos, K. }
  apply H. intros i. rewrite in_seq. lia.
Qed.
Lemma errs_scaled i : (low <= i)%nat ->
  nth i (map xsqrt (map (fun i => sm_at cov' i i) (seq 0 (sm_n cov)))) NaN = times k (nth i (map xsqrt (map (fun i => sm_at cov i i) (seq 0 (sm_n cov)))) NaN).
Proof.
  intros H. rewrite !map_map, !nth_map_seq. destruct (Nat.ltb_spec i (sm_n cov)); [|reflexivity].
  rewrite Hc by lia. apply xsqrt_times, K.
Qed.
Lemma nan_errs i : nth i (repeat NaN 6) NaN = times k (nth i (repeat NaN 6) NaN).
Proof. do 6 (destruct i as [|i]; [reflexivity|]). destruct i; reflexivity. Qed.

Lemma mom_scaled norm : same_outcome (same_moments low k) (make_mom_result sums cov norm) (make_mom_result (map (times k) sums) cov' norm).
Proof.
  pose proof (sq_pos k K) as K2. unfold make_mom_result. rewrite map_length, Hn.
  destruct (_ && _)%bool; [reflexivity|]. destruct (negb (Nat.eqb (sm_n cov) 6) && _)%bool; [reflexivity|].
  rewrite !vget_map.
  destruct (vget sums 0) as [sv|]; cbn [rmap bind]; [|reflexivity].
  destruct (vget sums 1) as [su|]; cbn [rmap bind]; [|reflexivity].
  destruct (vget sums 2) as [s1|]; cbn [rmap bind]; [|reflexivity].
  destruct (vget sums 3) as [s2|]; cbn [rmap bind]; [|reflexivity].
  destruct (vget sums 4) as [sT|]; cbn [rmap bind]; [|reflexivity].
  destruct (vget sums 5) as [sF|] eqn:E5; cbn [rmap bind]; [|reflexivity].
  rewrite !mget_scaled by lia.
  destruct (mget cov 5 5) as [cFF|]; cbn [rmap bind]; [|reflexivity].
  destruct (mget cov 4 4) as [cTT|]; cbn [rmap bind]; [|reflexivity].
  destruct (mget cov 4 5) as [cTF|]; cbn [rmap bind]; [|reflexivity].
  destruct (mget cov 2 2) as [c11|]; cbn [rmap bind]; [|reflexivity].
  destruct (mget cov 3 3) as [c22|]; cbn [rmap bind]; [|reflexivity].
  destruct (mget cov 2 4) as [c1T|]; cbn [rmap bind]; [|reflexivity].
  destruct (mget cov 3 4) as [c2T|]; cbn [rmap bind]; [|reflexivity].
  rewrite !xgtb_times, !ratio_error_times by assumption. rewrite !xsqrt_times by exact K. rewrite !xdiv_times by exact K.
  rewrite diag_flag.
  pose proof named_scaled as HN.
  assert (FIN : forall fl fe T Te s2n e1 e2 ee errs errs' pars pars' ff tf,
    (forall i, (low <= i)%nat -> nth i errs' NaN = times k (nth i errs NaN)) ->
    pars' = option_map (pars_in_units k) pars ->
    same_outcome (same_moments low k)
      (let* named := add_moments_by_name sums cov in
       Ok (mkMom fl sF sums cov (match norm with Some x => x | None => NaN end) ff tf fe T Te s2n e1 e2 ee errs pars named))
      (let* named := add_moments_by_name (map (times k) sums) cov' in
       Ok (mkMom fl (times k sF) (map (times k) sums) cov' (match norm with Some x => x | None => NaN end) ff tf (times k fe) T Te s2n e1 e2 ee errs' pars' named))).
  { intros. apply same_bind with (1 := HN). intros a a' ->. cbn [same_outcome]. unfold same_moments; cbn [m_flags m_flux m_sums m_cov m_sums_norm m_flux_flags m_T_flags m_flux_err m_T m_T_err m_s2n m_e1 m_e2 m_e_err m_sums_err m_pars m_named].
    repeat (split; [first [reflexivity|assumption]|]). reflexivity. }
  change NaN with (times k NaN) at 1.
  destruct (xgtb cFF (Fin 0)); destruct (xgtb cTT (Fin 0)); cbn [andb];
  destruct (xgtb sF (Fin 0));
  try (destruct (get_ratio_error sT sF cTT cFF cTF) as [err|e]; cbn [bind]; [|reflexivity]);
  cbn [bind]; destruct (forallb _ _); cbn [Z.eqb bind];
  try (destruct (xgtb (xdiv sT sF) (Fin 0)); cbn [bind]);
  try (apply (FIN _ NaN); [first [exact errs_scaled|intros; apply nan_errs]|reflexivity]);
  try (apply FIN; [first [exact errs_scaled|intros; apply nan_errs]|reflexivity]).
  all: try (destruct (get_ratio_error s1 sT c11 cTT c1T) as [err1|e]; cbn [bind]; [|reflexivity];
    destruct (get_ratio_error s2 sT c22 cTT c2T) as [err2|e]; cbn [bind]; [|reflexivity];
    destruct (isfinite err1 && isfinite err2)%bool; cbn [bind]; apply FIN; [exact errs_scaled|reflexivity|exact errs_scaled|reflexivity]).
Qed.
End Mom.

(** ** weighted sums *)
Section Sums.
Variable k : R.
Hypothesis K : 0 < k.
Variables px px' : list (pixel R).
Hypothesis U : other_units k px px'.

Lemma ierr_test x : Reqb (x / k * (x / k)) 0 = Reqb (x * x) 0.
Proof.
  destruct (Reqb_spec (x * x) 0) as [H|H].
  - assert (x = 0) as -> by nra. apply Reqb_t. unfold Rdiv. ring.
  - apply Reqb_f. intros E. apply H. apply Rmult_eq_reg_r with (/ k * / k); [|apply Rmult_integral_contrapositive_currified; apply Rinv_neq_0_compat; intro; lra].
    rewrite Rmult_0_l, <- E. unfold Rdiv. ring.
Qed.
Lemma acc_scaled n F w x y s s' : x * x <> 0 -> same_sums n k s s' ->
  same_sums n k (accumulate n F w (w * y) (w * w) (1 / (x * x)) s) (accumulate n F w (w * (k * y)) (w * w) (1 / (x / k * (x / k))) s').
Proof.
  intros X (A & B & C & D).
  destruct (accumulate_spec n F w (w * y) (w * w) (1 / (x * x)) s) as (A1 & B1 & C1 & D1).
  destruct (accumulate_spec n F w (w * (k * y)) (w * w) (1 / (x / k * (x / k))) s') as (A2 & B2 & C2 & D2).
  unfold same_sums. rewrite A1, A2, B1, B2, A, B. split; [reflexivity|]. split; [reflexivity|]. split.
  - intros i Hi. rewrite C1, C2, C by exact Hi. ring.
  - intros i j Hi Hj. rewrite D1, D2, D by assumption. field. split; [intros ->; apply X; ring|intro; lra].
Qed.
Lemma zero_sums n : same_sums n k wsums_zero wsums_zero.
Proof. repeat split; intros; cbn; ring. Qed.

Lemma wsums_scaled (higher : bool) wt v u m s s' : same_sums (if higher then 17 else 6) k s s' ->
  same_outcome (same_sums (if higher then 17 else 6) k) (foldM (wsums_body higher wt v u m) px s) (foldM (wsums_body higher wt v u m) px' s').
Proof.
  apply same_foldM with (1 := U). clear s s'. intros s s' p p' HS HP.
  unfold wsums_body. destruct HP as (-> & -> & -> & -> & ->). destruct (Rltb _ _); [|exact HS].
  destruct (gmix_eval_pixel _ _ _ _) as [w|]; [|reflexivity].
  rewrite ierr_test. destruct (Reqb_spec (px_ierr p * px_ierr p) 0); [reflexivity|].
  cbn [same_outcome]. apply acc_scaled; assumption.
Qed.
Lemma get_weighted_sums_scaled wt (higher : bool) :
  same_outcome (same_sums (if higher then 17 else 6) k) (snd (get_weighted_sums wt px None higher None)) (snd (get_weighted_sums wt px' None higher None)).
Proof.
  unfold get_weighted_sums. destruct (set_norms_if_needed wt) as [wt' [u|e]]; cbn [snd bind]; [|reflexivity].
  destruct (gm_get_sigma wt'); [|apply zero_sums]. unfold nb_weighted_sums. destruct wt'; [reflexivity|]. apply wsums_scaled, zero_sums.
Qed.

Lemma stats_scaled (higher : bool) s s' : same_sums (if higher then 17 else 6) k s s' ->
  same_outcome (same_gaussmom k) (get_weighted_moments_stats higher s) (get_weighted_moments_stats higher s').
Proof.
  intros (A & B & C & D). unfold get_weighted_moments_stats. rewrite A, B.
  set (n := if higher then 17%nat else 6%nat) in *.
  assert (E : map (fun i => Fin (ws_sums s' i)) (seq 0 n) = map (times k) (map (fun i => Fin (ws_sums s i)) (seq 0 n))).
  { rewrite map_map. apply map_ext_in. intros i Hi. apply in_seq in Hi. rewrite C by lia. reflexivity. }
  rewrite E. apply same_bind with (P := same_moments 0 k).
  - apply mom_scaled; [exact K|lia|reflexivity| |intros; lia]. cbn [sm_n sm_at]. intros i j Hi Hj. rewrite D by lia. reflexivity.
  - intros m m' H. cbn. unfold same_gaussmom; cbn. auto.
Qed.

Lemma nth_map_nan f l i : f NaN = NaN -> nth i (map f l) NaN = f (nth i l NaN).
Proof. intros H. rewrite <- H at 1. apply map_nth. Qed.
Lemma par5_scaled fac p : scale_par5 fac (pars_in_units k p) = pars_in_units k (scale_par5 fac p).
Proof.
  destruct p as [|a [|b [|c [|d [|e [|f [|g p]]]]]]]; try reflexivity. unfold scale_par5. cbn [pars_in_units List.length seq combine map fst snd Nat.eqb]. rewrite xmul_times_l by exact K. reflexivity.
Qed.
Lemma result_scaled fac q q' : same_gaussmom k q q' -> same_gaussmom k (scale_result fac q) (scale_result fac q').
Proof.
  intros (A & B & F1 & F2 & F3 & F4 & F5 & F6 & F7 & F8 & F9 & F10 & F11 & F12 & F13 & F14 & F15 & F16 & F17 & F18).
  unfold same_gaussmom, scale_result; cbn [q_npix q_wsum q_mom]. rewrite A, B. split; [reflexivity|]. split; [reflexivity|].
  unfold same_moments; cbn [m_flags m_flux m_sums m_cov m_sums_norm m_flux_flags m_T_flags m_flux_err m_T m_T_err m_s2n m_e1 m_e2 m_e_err m_sums_err m_pars m_named sm_n sm_at].
  rewrite F1, F2, F3, F4, F5, F6, F7, F8, F9, F10, F11, F12, F13, F14, F17.
  repeat (split; [reflexivity|]).
  split; [apply xmul_times_l, K|]. split; [apply xmul_times_l, K|].
  split. { rewrite !map_map. apply map_ext. intros. apply xmul_times_l, K. }
  split; [reflexivity|]. split; [reflexivity|].
  split. { intros i j Hi Hj. rewrite F15 by assumption. apply xmul_times_l, sq_pos, K. }
  split. { intros i Hi. rewrite !nth_map_nan by reflexivity. rewrite F16 by assumption. apply xmul_times_l, K. }
  split; [|exact F18]. destruct (m_pars (q_mom q)) as [p|]; cbn [option_map]; [|reflexivity]. f_equal. apply par5_scaled.
Qed.
Theorem gaussmom_scaled fwhm higher j : same_outcome (same_gaussmom k) (gaussmom fwhm higher (GObs px j)) (gaussmom fwhm higher (GObs px' j)).
Proof.
  unfold gaussmom. destruct (set_mompars fwhm) as [wt|e]; cbn [bind]; [|reflexivity]. unfold measure_moments.
  apply same_bind with (1 := get_weighted_sums_scaled wt higher). intros s s' HS.
  apply same_bind with (1 := stats_scaled higher s s' HS). intros q q' HQ. pose proof HQ as (_ & _ & -> & _).
  destruct (negb _); cbn [same_outcome]; [exact HQ|]. apply result_scaled, HQ.
Qed.
End Sums.

(** ** adaptive moments *)
Section Adaptive.
Variable k : R.
Hypothesis K : 0 < k.
Variables px px' : list (pixel R).
Hypothesis U : other_units k px px'.

Lemma censums_scaled wt s s' : same_sums 7 k s s' ->
  same_outcome (same_sums 7 k) (foldM (censums_body wt) px s) (foldM (censums_body wt) px' s').
Proof.
  apply same_foldM with (1 := U). clear s s'. intros s s' p p' (A & B & C & D) HP.
  unfold censums_body. destruct HP as (-> & -> & -> & -> & _).
  destruct (gmix_eval_pixel_fast _ _ _ _) as [w|e]; cbn [bind]; [|reflexivity]. cbn [same_outcome].
  unfold same_sums; cbn [ws_npix ws_wsum ws_sums ws_cov]. rewrite A, B. split; [reflexivity|]. split; [reflexivity|]. split; [|exact D].
  intros i Hi. unfold fset. do 6 (destruct i as [|i]; [cbn; rewrite C by lia; ring|]). cbn. apply C. lia.
Qed.
Lemma momsums_scaled wt g s s' : same_sums 7 k s s' ->
  same_outcome (same_sums 7 k) (foldM (momsums_body wt g) px s) (foldM (momsums_body wt g) px' s').
Proof.
  apply same_foldM with (1 := U). clear s s'. intros s s' p p' HS HP.
  unfold momsums_body. destruct HP as (-> & -> & -> & -> & ->).
  destruct (gmix_eval_pixel_fast _ _ _ _) as [w|e]; cbn [bind]; [|reflexivity].
  rewrite (ierr_test k K). destruct (Reqb_spec (px_ierr p * px_ierr p) 0); [reflexivity|].
  destruct (g_nrm g); [|reflexivity]. cbn [same_outcome]. apply acc_scaled; assumption.
Qed.

Definition same_rec (r r' : am_rec) : Prop :=
  ar_flags r' = ar_flags r /\ ar_numiter r' = ar_numiter r /\ ar_pars r' = ar_pars r /\ ar_rho4 r' = ar_rho4 r /\ same_sums 7 k (ar_ws r) (ar_ws r').
Definition same_state (s s' : am_state) : Prop := as_wt s' = as_wt s /\ as_old s' = as_old s /\ same_rec (as_rec s) (as_rec s').
Definition same_step {A} (x x' : am_state * res A) : Prop := same_state (fst x) (fst x') /\ snd x' = snd x.

Lemma stop_scaled wt r r' old f : same_rec r r' -> same_step (stop_with wt r old f) (stop_with wt r' old f).
Proof. intros (A & B & C & D & E). unfold same_step, same_state, same_rec, stop_with; cbn. auto 10. Qed.
Lemma with_ws_scaled r r' w w' : same_rec r r' -> same_sums 7 k w w' -> same_rec (with_ws r w) (with_ws r' w').
Proof. intros (A & B & C & D & E) H. unfold same_rec, with_ws; cbn. auto 10. Qed.

Lemma iter_scaled c row col s s' : same_state s s' -> same_step (am_iter c row col px s) (am_iter c row col px' s').
Proof.
  intros HS. pose proof HS as (W & O & R). unfold am_iter. rewrite W, O.
  destruct (as_wt s) as [|g0 wt0] eqn:EW. { split; [exact HS|reflexivity]. }
  destruct (Rltb (g_det g0) GMIX_LOW_DETVAL); [apply stop_scaled, R|].
  destruct (gmix_set_norms (g0 :: wt0)) as [[|g1 rest] [u|e]].
  1: { split; [exact HS|reflexivity]. }
  1, 3: split; [split; [reflexivity|]; split; [reflexivity|exact R]|reflexivity].
  pose proof (censums_scaled (g1 :: rest) wsums_zero wsums_zero (zero_sums k 7)) as HC.
  destruct (foldM (censums_body (g1 :: rest)) px wsums_zero) as [w|e], (foldM (censums_body (g1 :: rest)) px' wsums_zero) as [w'|e']; cbn [same_outcome] in HC; try contradiction.
  2: { subst e'. split; [split; [reflexivity|]; split; [reflexivity|exact R]|reflexivity]. }
  pose proof (with_ws_scaled _ _ _ _ R HC) as R1. pose proof HC as (_ & _ & C & _).
  rewrite !C by lia. rewrite (Rleb0_scale k K). destruct (Rleb_spec (ws_sums w 5) 0) as [|P5]; [apply stop_scaled, R1|].
  assert (Q : forall a, k * a / (k * ws_sums w 5) = a / ws_sums w 5) by (intros; field; split; lra).
  rewrite !Q. set (g2 := set_cen0 g1 _ _).
  destruct (_ || _)%bool; [apply stop_scaled, R1|].
  pose proof (momsums_scaled (g2 :: rest) g2 wsums_zero wsums_zero (zero_sums k 7)) as HM.
  destruct (foldM (momsums_body (g2 :: rest) g2) px wsums_zero) as [v|e], (foldM (momsums_body (g2 :: rest) g2) px' wsums_zero) as [v'|e']; cbn [same_outcome] in HM; try contradiction.
  2: { subst e'. split; [split; [reflexivity|]; split; [reflexivity|exact R1]|reflexivity]. }
  pose proof (with_ws_scaled _ _ _ _ R1 HM) as R2. pose proof HM as (_ & _ & M & _).
  rewrite !M by lia. rewrite (Rleb0_scale k K). destruct (Rleb_spec (ws_sums v 5) 0) as [|Q5]; [apply stop_scaled, R2|].
  assert (Q2 : forall a, k * a * (1 / (k * ws_sums v 5)) = a * (1 / ws_sums v 5)) by (intros; field; split; lra).
  assert (Q3 : forall a, k * a / (k * ws_sums v 5) = a / ws_sums v 5) by (intros; field; split; lra).
  rewrite !Q2, !Q3. destruct (Rleb _ 0); [apply stop_scaled, R2|].
  match goal with |- context [if ?b then _ else _] => destruct b end.
  { destruct R2 as (A & B & _ & _ & _). split; [split; [reflexivity|]; split; [reflexivity|]|reflexivity]. unfold same_rec; cbn. cbn in A, B. auto 10. }
  destruct (ac_cenonly c). { split; [split; [reflexivity|]; split; [reflexivity|exact R2]|reflexivity]. }
  destruct (deweight_moments _ _ _ _). { split; [split; [reflexivity|]; split; [reflexivity|exact R2]|reflexivity]. }
  apply stop_scaled, R2.
Qed.
Lemma loop_scaled c row col n : forall i s s', same_state s s' -> same_step (am_loop c row col px n i s) (am_loop c row col px' n i s').
Proof.
  induction n as [|n IH]; intros i s s' H; cbn [am_loop]. { split; [exact H|reflexivity]. }
  destruct (iter_scaled c row col s s' H) as [A B].
  destruct (am_iter c row col px s) as [s1 r1], (am_iter c row col px' s') as [s2 r2]. cbn [fst snd] in A, B. subst r2.
  destruct r1 as [[|]|e]; [split; [exact A|reflexivity]|apply IH, A|split; [exact A|reflexivity]].
Qed.
Lemma admom_scaled c wt r r' : same_rec r r' ->
  let x := admom c wt px r in let x' := admom c wt px' r' in
  fst (fst x') = fst (fst x) /\ snd x' = snd x /\ same_rec (snd (fst x)) (snd (fst x')).
Proof.
  intros H. unfold admom. destruct wt as [|g wt]; [cbn; auto|].
  assert (H0 : same_state (mkAs (g :: wt) r None) (mkAs (g :: wt) r' None)) by (split; [reflexivity|]; split; [reflexivity|exact H]).
  destruct (loop_scaled c (g_row g) (g_col g) (ac_maxiter c) 0 _ _ H0) as [A B].
  destruct (am_loop c (g_row g) (g_col g) px (ac_maxiter c) 0 _) as [s1 r1], (am_loop c (g_row g) (g_col g) px' (ac_maxiter c) 0 _) as [s2 r2].
  cbn [fst snd] in A, B. subst r2. destruct A as (W & _ & R).
  destruct r1 as [[|i]|e]; cbn [fst snd]; [auto| |auto]. split; [exact W|]. split; [reflexivity|].
  destruct R as (R1 & R2 & R3 & R4 & R5). unfold same_rec; cbn. rewrite R1. auto 10.
Qed.

Lemma set5_first l x y : firstn 5 (set5 l x) = firstn 5 (set5 l y) /\ List.length (set5 l x) = List.length (set5 l y).
Proof. destruct l as [|a [|b [|c [|d [|e [|f l]]]]]]; cbn; auto. Qed.
Lemma set5_nth l x : nth 5 (set5 l (times k x)) NaN = times k (nth 5 (set5 l x) NaN).
Proof. destruct l as [|a [|b [|c [|d [|e [|f l]]]]]]; reflexivity. Qed.
Lemma set5_small l x i : (i < 5)%nat -> xnth (set5 l x) i = xnth l i.
Proof. intros H. destruct l as [|a [|b [|c [|d [|e [|f l]]]]]]; cbn [set5]; try reflexivity. do 5 (destruct i as [|i]; [reflexivity|]). lia. Qed.

Lemma result_am r r' area norm : same_rec r r' -> same_outcome (same_adaptive k) (get_result r area norm) (get_result r' area norm).
Proof.
  intros (A & B & C & D & HS). pose proof HS as (_ & W & S & V). pose proof (sq_pos k K) as K2.
  unfold get_result. cbv zeta. rewrite A, B, C, D, W.
  assert (SX : forall i, (i < 7)%nat -> Fin (ws_sums (ar_ws r') i) = times k (Fin (ws_sums (ar_ws r) i))) by (intros i Hi; rewrite S by exact Hi; reflexivity).
  assert (VX : forall i j, (i < 7)%nat -> (j < 7)%nat -> Fin (ws_cov (ar_ws r') i j) = times (k ^ 2) (Fin (ws_cov (ar_ws r) i j))) by (intros i j Hi Hj; rewrite V by assumption; reflexivity).
  rewrite !SX, !VX by lia. rewrite !ratio_error_times, !xgtb_times by assumption. rewrite xsqrt_times by exact K. rewrite !xdiv_times by exact K.
  rewrite !(fun a => xdiv_times_l k K a (Fin (ws_wsum (ar_ws r)))).
  rewrite !(fun a => xdiv_times_l k K a (xmul (xmul (Fin area) norm) (Fin (ws_wsum (ar_ws r))))). rewrite !xdiv_times by exact K.
  assert (EV : forallb (fun i => xgtb (Fin (ws_cov (ar_ws r') i i)) (Fin 0)) (seq 2 5) = forallb (fun i => xgtb (Fin (ws_cov (ar_ws r) i i)) (Fin 0)) (seq 2 5)).
  { cbn [seq forallb]. rewrite !VX by lia. rewrite !xgtb_times by assumption. reflexivity. }
  rewrite EV. clear EV.
  set (mean := xdiv (Fin (ws_sums (ar_ws r) 5)) (Fin (ws_wsum (ar_ws r)))).
  set (X5 := Fin (ws_sums (ar_ws r) 5)) in *. set (fn := xmul (xmul (Fin area) norm) (Fin (ws_wsum (ar_ws r)))).
  destruct (Z.eqb_spec (ar_flags r) 0) as [Z0|Z0].
  2:{ cbn [bind]. set (fl := if forallb _ _ then _ else _). assert (F0 : (fl =? 0)%Z = false).
      { apply Z.eqb_neq. unfold fl. destruct (forallb _ _); [exact Z0|]. intros E. apply Z.lor_eq_0_iff in E. tauto. }
      rewrite F0. cbn [bind same_outcome]. unfold same_adaptive; cbn [d_flags d_numiter d_ws d_pars d_flux_flags d_T_flags d_rho4_flags d_flux d_flux_mean d_flux_err d_s2n d_T d_T_err d_rho4 d_rho4_err d_e1 d_e2 d_e1err d_e2err].
      repeat (split; [reflexivity|]). split; [exact HS|]. split; [reflexivity|]. split; [reflexivity|]. intros E. rewrite E in F0. discriminate. }
  set (T := xnth (ar_pars r) 4).
  assert (FIN : forall fl ff tf rf s2n Te r4 r4e e1 e2 e1e e2e fx fxe,
    same_outcome (same_adaptive k)
      (Ok (mkAd fl (ar_numiter r) (ar_ws r) (set5 (ar_pars r) mean) ff tf rf fx mean fxe s2n T Te r4 r4e e1 e2 e1e e2e))
      (Ok (mkAd fl (ar_numiter r) (ar_ws r') (set5 (ar_pars r) (times k mean)) ff tf rf (times k fx) (times k mean) (times k fxe) s2n T Te r4 r4e e1 e2 e1e e2e))).
  { intros. cbn [same_outcome]. unfold same_adaptive; cbn [d_flags d_numiter d_ws d_pars d_flux_flags d_T_flags d_rho4_flags d_flux d_flux_mean d_flux_err d_s2n d_T d_T_err d_rho4 d_rho4_err d_e1 d_e2 d_e1err d_e2err].
    repeat (split; [reflexivity|]). split; [exact HS|]. destruct (set5_first (ar_pars r) (times k mean) mean) as [P1 P2].
    split; [exact P1|]. split; [exact P2|]. intros _. apply set5_nth. }
  assert (GEN : forall (p p' : xr * xr * xr * Z) (q : res (xr * Z)) (q' : res (xr * xr * Z)) (m : res (xr * xr * xr * xr * Z)),
    p' = (let '(fx, fxe, s2n, ff) := p in (times k fx, times k fxe, s2n, ff)) ->
    same_outcome (same_adaptive k)
      (let '(fx, fxe, s2n, ff) := p in
       let* (Te, tf) := q in let* (r4, r4e, rf) := q' in let* (e1, e2, e1e, e2e, fl) := m in
       Ok (mkAd fl (ar_numiter r) (ar_ws r) (set5 (ar_pars r) mean) ff tf rf fx mean fxe s2n T Te r4 r4e e1 e2 e1e e2e))
      (let '(fx, fxe, s2n, ff) := p' in
       let* (Te, tf) := q in let* (r4, r4e, rf) := q' in let* (e1, e2, e1e, e2e, fl) := m in
       Ok (mkAd fl (ar_numiter r) (ar_ws r') (set5 (ar_pars r) (times k mean)) ff tf rf fx (times k mean) fxe s2n T Te r4 r4e e1 e2 e1e e2e))).
  { intros [[[fx fxe] s2n] ff] p' q q' m ->. destruct q as [[Te tf]|]; cbn [bind]; [|reflexivity].
    destruct q' as [[[r4 r4e] rf]|]; cbn [bind]; [|reflexivity]. destruct m as [[[[[e1 e2] e1e] e2e] fl]|]; cbn [bind]; [|reflexivity]. apply FIN. }
  rewrite !(set5_small (ar_pars r)) by lia.
  apply GEN. destruct (xltb _ T); [|reflexivity]. destruct (xgtb _ _); reflexivity.
Qed.
Theorem am_run_scaled c j wt :
  let x := am_run c (mkAo px j) wt in let x' := am_run c (mkAo px' j) wt in
  fst x' = fst x /\ same_outcome (same_adaptive k) (snd x) (snd x').
Proof.
  unfold am_run. cbn [ao_pix ao_jac].
  assert (R0 : same_rec am_rec0 am_rec0) by (repeat split; intros; cbn; ring).
  destruct (admom_scaled c wt am_rec0 am_rec0 R0) as (A & B & C).
  destruct (admom c wt px am_rec0) as [[wt1 r1] e1], (admom c wt px' am_rec0) as [[wt2 r2] e2]. cbn [fst snd] in A, B, C. subst wt2 e2.
  assert (C' : same_rec (mkAr GMIX_RANGE_ERROR (ar_numiter r1) (ar_ws r1) (ar_pars r1) (ar_rho4 r1)) (mkAr GMIX_RANGE_ERROR (ar_numiter r2) (ar_ws r2) (ar_pars r2) (ar_rho4 r2))).
  { destruct C as (C1 & C2 & C3 & C4 & C5). unfold same_rec; cbn. auto 10. }
  destruct e1 as [u|e]; [|destruct e]; cbn [fst snd]; split; try reflexivity;
    (destruct (norm0 wt1); cbn [bind]; [apply result_am; assumption|reflexivity]).
Qed.
Theorem am_go_scaled c h j guess : same_run (same_adaptive k) (am_go c h (mkAo px j) guess) (am_go c h (mkAo px' j) guess).
Proof.
  unfold am_go. destruct guess as [i|T u1 u2 u3 u4 u5].
  - destruct (read h i) as [g|]; [|exact I]. destruct (am_run_scaled c j (o_data g)) as [A B].
    destruct (am_run c (mkAo px j) (o_data g)) as [d r], (am_run c (mkAo px' j) (o_data g)) as [d' r']. cbn [fst snd] in A, B. subst d'. split; [reflexivity|exact B].
  - cbn [same_run]. split; [reflexivity|]. unfold generate_guess. cbn [ao_jac]. destruct (new_model _ _); cbn [bind]; [|reflexivity]. apply am_run_scaled.
Qed.
Lemma get_gmix_scaled d d' : same_adaptive k d d' -> am_get_gmix d' = am_get_gmix d.
Proof.
  intros H. unfold same_adaptive in H. destruct H as (F & H). do 16 (destruct H as (_ & H)). destruct H as (_ & P1 & P2 & _).
  unfold am_get_gmix. rewrite F. destruct (negb _); [reflexivity|].
  destruct (d_pars d) as [|a [|b [|c [|e [|f [|g [|x l]]]]]]], (d_pars d') as [|a' [|b' [|c' [|e' [|f' [|g' [|x' l']]]]]]]; cbn in P1, P2; try discriminate; try reflexivity;
  try (injection P1; intros; subst; reflexivity).
Qed.
Definition same_last (x x' : option am_dict) : Prop := match x, x' with Some d, Some d' => same_adaptive k d d' | None, None => True | _, _ => False end.
Lemma cen_loop_scaled c j many w n : forall draws h last last', same_last last last' ->
  same_run same_last (cen_loop c (mkAo px j) many w n draws h last) (cen_loop c (mkAo px' j) many w n draws h last').
Proof.
  induction n as [|n IH]; intros draws h last last' HL; cbn [cen_loop]. { split; [reflexivity|exact HL]. }
  pose proof (am_go_scaled c h j (GObj w)) as HG.
  destruct (am_go c h (mkAo px j) (GObj w)) as [[h1 r1]|], (am_go c h (mkAo px' j) (GObj w)) as [[h2 r2]|]; cbn [same_run] in HG; try contradiction; [|exact I].
  destruct HG as [-> HG]. destruct r1 as [d|e], r2 as [d'|e']; cbn [same_outcome] in HG; try contradiction. 2:{ subst. split; reflexivity. }
  pose proof HG as (-> & _). destruct (Z.eqb (d_flags d) 0). { split; [reflexivity|exact HG]. }
  destruct many; [|apply IH, HG]. destruct draws as [|[u1 u2] draws]; [exact I|]. cbn [ao_jac].
  destruct (step _ _) as [[h2 [x|e]]|]; [apply IH, HG|split; reflexivity|exact I].
Qed.
Theorem find_cen_scaled c h j w ntry rng :
  same_run (fun x x' => same_adaptive k (fst x) (fst x') /\ snd x' = snd x)
    (find_cen_admom c h (mkAo px j) w ntry rng) (find_cen_admom c h (mkAo px' j) w ntry rng).
Proof.
  unfold find_cen_admom. destruct (_ && _)%bool; [split; reflexivity|].
  destruct (cen_weight h w) as [[g|e]|]; [|split; reflexivity|exact I].
  match goal with |- context [cen_loop ?c _ ?m ?w ?n ?dr ?h None] => pose proof (cen_loop_scaled c j m w n dr h None None I) as H;
    destruct (cen_loop c (mkAo px j) m w n dr h None) as [[h1 r1]|], (cen_loop c (mkAo px' j) m w n dr h None) as [[h2 r2]|] end;
    cbn [same_run] in H; try contradiction; [|exact I].
  destruct H as [-> H]. destruct r1 as [[d|]|e], r2 as [[d'|]|e']; cbn [same_outcome same_last] in H; try contradiction; try (subst; split; reflexivity).
  split; [reflexivity|]. pose proof H as (-> & _). rewrite (get_gmix_scaled d d' H).
  destruct (Z.eqb _ 0); [|split; [exact H|reflexivity]].
  destruct (am_get_gmix d) as [g1|e]; cbn [bind]; [|reflexivity]. destruct (gm_get_cen _) as [[a b]|]; split; auto.
Qed.
End Adaptive.
