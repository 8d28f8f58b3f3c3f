From Coq Require Import String.
From Verif Require Import Base XReal Pixels_Model Jacobian_Model Moments_Model GMix_Model Render_Model WSums_Model WSums_Proofs Flags_Model MomResult_Model GaussMom_Model GMixObj_Model Admom_Model
  Units_Spec Units_Proofs Coords_Spec.
Local Open Scope R_scope.

Lemma times_fin k x : times k (Fin x) = Fin (k * x). Proof. reflexivity. Qed.
Lemma times_nan k : times k NaN = NaN. Proof. reflexivity. Qed.
Lemma sq_lt k x : 0 < k -> Rltb 0 (k * x) = Rltb 0 x.
Proof. intros K. apply Rltb0_scale. exact K. Qed.

(** ** errors of ratios *)
Lemma ratio_zero b va vb c : b <> 0 -> get_ratio_error (Fin 0) (Fin b) (Fin va) (Fin vb) (Fin c) = Ok NaN.
Proof.
  intros B. unfold get_ratio_error, get_ratio_var. cbn [xeqb]. rewrite Reqb_f by exact B. cbn [bind]. f_equal.
  assert (D : forall x y, Reqb x 0 = true -> xdiv (Fin y) (Fin x) = inf_of (rsgn y) SPos) by (intros x y H; cbn [xdiv]; rewrite H; reflexivity).
  assert (Z0 : forall x, Reqb (0 * x) 0 = true) by (intros; apply Reqb_t; ring).
  cbn [xmul]. rewrite (D (0 * 0) va) by apply Z0. rewrite (D (0 * b) (2 * c)) by apply Z0.
  cbn [xdiv]. rewrite Reqb_f by exact B. rewrite Reqb_f by nra. cbn [xmul].
  assert (RZ : rsgn (0 / b * (0 / b)) = SZero). { replace (0 / b * (0 / b)) with 0 by (field; exact B). unfold rsgn. rewrite Rltb_f by lra. reflexivity. }
  destruct (rsgn va), (rsgn (2 * c)); cbn [inf_of xadd xsub xneg xmul xsgn]; rewrite ?RZ; reflexivity.
Qed.
Lemma ratio_fin a b va vb c : a <> 0 -> b <> 0 -> get_ratio_error (Fin a) (Fin b) (Fin va) (Fin vb) (Fin c) =
  Ok (Fin (sqrt (let v := (a / b) ^ 2 * (va / a ^ 2 + vb / b ^ 2 - 2 * c / (a * b)) in if Rltb v 0 then 0 else v))).
Proof.
  intros A B. unfold get_ratio_error, get_ratio_var. cbn [xeqb]. rewrite Reqb_f by exact B. cbn [bind xmul xdiv].
  rewrite !Reqb_f by (first [exact B|nra]). cbn [xadd xsub xneg xmul]. cbv zeta. f_equal.
  replace (a / b * (a / b) * (va / (a * a) + vb / (b * b) + - (2 * c / (a * b)))) with ((a / b) ^ 2 * (va / a ^ 2 + vb / b ^ 2 - 2 * c / (a * b))) by (field; auto).
  unfold xclip0. cbn [xltb]. destruct (Rltb_spec ((a / b) ^ 2 * (va / a ^ 2 + vb / b ^ 2 - 2 * c / (a * b))) 0); cbn [xsqrt]; rewrite Rltb_f by lra; reflexivity.
Qed.
Lemma ratio_coords la lb a b va vb c : la <> 0 -> lb <> 0 ->
  get_ratio_error (Fin (la * a)) (Fin (lb * b)) (Fin (la * la * va)) (Fin (lb * lb * vb)) (Fin (la * lb * c)) =
  rmap (times (Rabs (la / lb))) (get_ratio_error (Fin a) (Fin b) (Fin va) (Fin vb) (Fin c)).
Proof.
  intros LA LB. destruct (Req_dec b 0) as [->|B].
  { unfold get_ratio_error, get_ratio_var. cbn [xeqb]. rewrite Rmult_0_r, Reqb_t by reflexivity. reflexivity. }
  assert (LBB : lb * b <> 0) by (apply Rmult_integral_contrapositive; auto).
  destruct (Req_dec a 0) as [->|A]; [rewrite Rmult_0_r, !ratio_zero by assumption; reflexivity|].
  assert (LAA : la * a <> 0) by (apply Rmult_integral_contrapositive; auto).
  rewrite !ratio_fin by assumption. cbn [rmap bind]. rewrite times_fin. f_equal. f_equal. cbv zeta.
  set (v := (a / b) ^ 2 * _). replace ((la * a / (lb * b)) ^ 2 * _) with ((la / lb) ^ 2 * v) by (unfold v; field; auto).
  assert (Q : 0 < (la / lb) ^ 2). { rewrite <- Rsqr_pow2. apply Rsqr_pos_lt. unfold Rdiv. apply Rmult_integral_contrapositive. split; [exact LA|apply Rinv_neq_0_compat; exact LB]. }
  replace (Rltb ((la / lb) ^ 2 * v) 0) with (Rltb v 0).
  2:{ destruct (Rltb_spec v 0); symmetry; [apply Rltb_t|apply Rltb_f]; nra. }
  destruct (Rltb_spec v 0) as [N|N]; [rewrite sqrt_0; ring|].
  rewrite sqrt_mult by (lra || (left; exact Q)). f_equal. rewrite <- Rsqr_pow2. apply sqrt_Rsqr_abs.
Qed.

Lemma vget_seq S n i : vget (map (fun i => Fin (S i)) (seq 0 n)) i = if Nat.ltb i n then Ok (Fin (S i)) else Raise IndexError.
Proof.
  unfold vget. rewrite nth_error_map. destruct (Nat.ltb_spec i n).
  - rewrite nth_error_nth' with (d := 0%nat) by (rewrite seq_length; lia). rewrite seq_nth by lia. reflexivity.
  - rewrite (proj2 (nth_error_None _ _)) by (rewrite seq_length; lia). reflexivity.
Qed.
Lemma sqrt_coords k x : k <> 0 -> xsqrt (Fin (k * k * x)) = times (Rabs k) (xsqrt (Fin x)).
Proof.
  intros N. replace (Fin (k * k * x)) with (times (Rabs k ^ 2) (Fin x)); [apply xsqrt_times, Rabs_pos_lt, N|].
  rewrite times_fin. f_equal. f_equal. rewrite <- Rsqr_pow2, <- Rsqr_abs. reflexivity.
Qed.

Section Mom.
Variables a f : R.
Hypothesis A : a <> 0.
Hypothesis FF : f * f = 1.
Let l i := a ^ 2 * factor a f i.
Lemma a2 : 0 < a ^ 2. Proof. rewrite <- Rsqr_pow2. apply Rsqr_pos_lt, A. Qed.
Lemma f0 : f <> 0. Proof. clear A. intros E. rewrite E in FF. lra. Qed.
Lemma fabs : Rabs f = 1.
Proof. apply Rsqr_inj; [apply Rabs_pos|lra|]. rewrite <- Rsqr_abs. unfold Rsqr. rewrite FF. ring. Qed.
Lemma factor0 i : factor a f i <> 0.
Proof. unfold factor. apply Rmult_integral_contrapositive. split; [destruct (odd_u i); [apply f0|lra]|apply pow_nonzero, A]. Qed.
Lemma factor5 : factor a f 5 = 1. Proof. unfold factor. cbn. ring. Qed.
Lemma factor4 : factor a f 4 = a ^ 2. Proof. unfold factor. cbn. ring. Qed.
Lemma factor2 : factor a f 2 = a ^ 2. Proof. unfold factor. cbn. ring. Qed.
Lemma factor3 : factor a f 3 = f * a ^ 2. Proof. unfold factor. cbn. ring. Qed.
Lemma l0 i : l i <> 0. Proof. apply Rmult_integral_contrapositive. split; [pose proof a2; lra|apply factor0]. Qed.

Variable n : nat.
Variables S S' : nat -> R.
Variables C C' : nat -> nat -> R.
Hypothesis HS : forall i, (i < n)%nat -> S' i = l i * S i.
Hypothesis HC : forall i j, (i < n)%nat -> (j < n)%nat -> C' i j = l i * l j * C i j.
Notation sums T := (map (fun i => Fin (T i)) (seq 0 n)).
Notation cov D := (mkSmat n (fun i j => Fin (D i j))).

Lemma mget_seq D i j : mget (cov D) i j = if Nat.ltb i n && Nat.ltb j n then Ok (Fin (D i j)) else Raise IndexError.
Proof. reflexivity. Qed.

Lemma named_coords : same_outcome (Forall2 (fun x x' => exists i, In (fst x, i) MOMENTS_NAME_MAP /\ fst x' = fst x /\
     let l := if Nat.eqb i 5 then a ^ 2 else factor a f i in
     snd x' = (times l (fst (snd x)), times (Rabs l) (snd (snd x))))) (add_moments_by_name (sums S) (cov C)) (add_moments_by_name (sums S') (cov C')).
Proof.
  pose proof a2 as A2. unfold add_moments_by_name. rewrite !vget_seq, !mget_seq. destruct (Nat.ltb_spec 5 n) as [H5|H5]; cbn [bind andb]; [|reflexivity].
  rewrite (HS 5 H5), (HC 5 5 H5 H5).
  apply same_foldM with (E := fun x x' => x' = x /\ In x MOMENTS_NAME_MAP /\ ((snd x =? 5)%nat = (String.eqb (fst x) "MF" || String.eqb (fst x) "M00")%bool)).
  - unfold MOMENTS_NAME_MAP. repeat (apply Forall2_cons; [split; [reflexivity|split; [cbn [In]; tauto|reflexivity]]|]). constructor.
  - intros s s' [name i] x' HP (-> & HI & H). cbn [fst snd] in H. rewrite !map_length, !seq_length.
    destruct (Z.of_nat i >? Z.of_nat n - 1)%Z eqn:EI; [exact HP|].
    assert (Hi : (i < n)%nat). { rewrite Z.gtb_ltb in EI. apply Z.ltb_ge in EI. lia. }
    rewrite <- H. assert (L5 : l 5 = a ^ 2) by (unfold l; rewrite factor5; ring). destruct (Nat.eqb i 5) eqn:E5.
    + cbn [same_outcome]. apply Forall2_app; [exact HP|]. constructor; [|constructor]. exists i. cbn [fst snd]. split; [exact HI|split; [reflexivity|]].
      rewrite E5. rewrite L5, sqrt_coords by lra. reflexivity.
    + assert (GG : xgtb (Fin (l 5 * S 5%nat)) (Fin 0) = xgtb (Fin (S 5%nat)) (Fin 0)) by (rewrite L5; apply Rltb0_scale; exact A2).
      rewrite GG. unfold xgtb, xltb. destruct (Rltb_spec 0 (S 5%nat)) as [F5|F5].
      2:{ cbn [same_outcome]. apply Forall2_app; [exact HP|]. constructor; [|constructor]. exists i. cbn [fst snd]. rewrite E5. auto. }
      rewrite !vget_seq, !mget_seq. rewrite (proj2 (Nat.ltb_lt i n)), (proj2 (Nat.ltb_lt 5 n)) by lia. cbn [bind andb].
      rewrite HS, !HC by assumption. rewrite ratio_coords by apply l0.
      destruct (get_ratio_error _ _ _ _ _) as [x|]; cbn [rmap bind same_outcome]; [|reflexivity].
      apply Forall2_app; [exact HP|]. constructor; [|constructor]. exists i. cbn [fst snd]. rewrite E5. split; [exact HI|split; [reflexivity|]].
      assert (Q : l i / l 5 = factor a f i) by (rewrite L5; unfold l; field; exact A). cbv zeta. rewrite Q. f_equal.
      unfold xdiv. rewrite !Reqb_f by (try nra; pose proof (l0 5); apply Rmult_integral_contrapositive; split; lra). rewrite times_fin. f_equal.
      rewrite <- Q. field. split; [lra|apply l0].
  - constructor.
Qed.

Lemma diag_coords : forallb (fun c => xgtb c (Fin 0)) (map (fun i => Fin (C' i i)) (seq 0 n)) = forallb (fun c => xgtb c (Fin 0)) (map (fun i => Fin (C i i)) (seq 0 n)).
Proof.
  assert (H : forall L, (forall i, In i L -> (i < n)%nat) ->
    forallb (fun c => xgtb c (Fin 0)) (map (fun i => Fin (C' i i)) L) = forallb (fun c => xgtb c (Fin 0)) (map (fun i => Fin (C i i)) L)).
  { induction L as [|i L IH]; intros Hi; cbn [map forallb]; [reflexivity|]. rewrite IH by (intros; apply Hi; right; assumption). f_equal.
    unfold xgtb, xltb. rewrite HC by (apply Hi; left; reflexivity). apply Rltb0_scale. apply Rsqr_pos_lt, l0. }
  apply H. intros i. rewrite in_seq. lia.
Qed.

Hypothesis Hn : n = 6%nat \/ n = 17%nat.
Variables W W' : R.
Hypothesis HW : W' = a ^ 2 * W.
Lemma mom_coords : same_outcome (coords_moments (a ^ 2) a f) (make_mom_result (sums S) (cov C) (Some (Fin W))) (make_mom_result (sums S') (cov C') (Some (Fin W'))).
Proof.
  pose proof a2 as A2. pose proof f0 as F0.
  unfold make_mom_result. rewrite !map_length, !seq_length. cbn [sm_n sm_at].
  destruct (_ && _)%bool; [reflexivity|].
  assert (N : forall i, (i < 6)%nat -> (i < n)%nat) by (intros; lia).
  rewrite !vget_seq, !mget_seq.
  repeat match goal with |- context [Nat.ltb ?i n] => rewrite (proj2 (Nat.ltb_lt i n)) by (apply N; lia) end. cbn [andb bind].
  rewrite diag_coords. rewrite !HS, !HC by (apply N; lia).
  assert (L5 : l 5 = a ^ 2) by (unfold l; rewrite factor5; ring).
  assert (L4 : l 4 = a ^ 2 * a ^ 2) by (unfold l; rewrite factor4; ring).
  assert (L45 : l 4 / l 5 = a ^ 2) by (rewrite L4, L5; field; exact A).
  assert (L24 : l 2 / l 4 = 1) by (unfold l; rewrite factor4, factor2; field; exact A).
  assert (L34 : l 3 / l 4 = f) by (unfold l; rewrite factor4, factor3; field; exact A).
  rewrite !ratio_coords by apply l0. rewrite L24, L34, L45. rewrite fabs, Rabs_R1, (Rabs_right (a ^ 2)) by lra.
  pose proof named_coords as HN.
  set (sn := add_moments_by_name (sums S) (cov C)) in *. set (sn' := add_moments_by_name (sums S') (cov C')) in *.
  assert (FIN : forall fl fe fe' T T' Te Te' s2n s2n' e1 e1' e2 e2' ee ee' errs errs' pars pars' ff tf fl',
    fl' = fl -> fe' = times (a ^ 2) fe -> T' = times (a ^ 2) T -> Te' = times (a ^ 2) Te -> s2n' = s2n -> e1' = e1 -> e2' = times f e2 -> ee' = ee ->
    (forall i, nth i errs' NaN = times (a ^ 2 * Rabs (factor a f i)) (nth i errs NaN)) ->
    coords_pars (a ^ 2) a f pars pars' ->
    same_outcome (coords_moments (a ^ 2) a f)
      (let* named := sn in Ok (mkMom fl (Fin (S 5%nat)) (sums S) (cov C) (Fin W) ff tf fe T Te s2n e1 e2 ee errs pars named))
      (let* named := sn' in Ok (mkMom fl' (Fin (l 5 * S 5%nat)) (sums S') (cov C') (Fin W') ff tf fe' T' Te' s2n' e1' e2' ee' errs' pars' named))).
  { intros * -> -> -> -> -> -> -> -> H9 H10. apply same_bind with (1 := HN). intros x x' HX. cbn [same_outcome]. unfold coords_moments; cbn [m_flags m_flux m_sums m_cov m_sums_norm m_flux_flags m_T_flags m_flux_err m_T m_T_err m_s2n m_e1 m_e2 m_e_err m_sums_err m_pars m_named sm_n sm_at].
    repeat (split; [first [reflexivity|assumption|rewrite L5; reflexivity|rewrite HW; reflexivity|rewrite !map_length; reflexivity]|]).
    split; [|split; [|split; [assumption|split; [exact H10|exact HX]]]].
    - intros i. rewrite !nth_map_seq. destruct (Nat.ltb_spec i n); [|reflexivity]. rewrite HS by assumption. reflexivity.
    - intros i j Hi Hj. rewrite HC by assumption. reflexivity. }
  assert (NANS : forall i, nth i (repeat NaN 6) NaN = times (a ^ 2 * Rabs (factor a f i)) (nth i (repeat NaN 6) NaN)).
  { intros i. do 6 (destruct i as [|i]; [reflexivity|]). destruct i; reflexivity. }
  assert (ERRS : forall i, nth i (map xsqrt (map (fun i => Fin (C' i i)) (seq 0 n))) NaN = times (a ^ 2 * Rabs (factor a f i)) (nth i (map xsqrt (map (fun i => Fin (C i i)) (seq 0 n))) NaN)).
  { intros i. rewrite !map_map, !nth_map_seq. destruct (Nat.ltb_spec i n); [|reflexivity]. rewrite HC, sqrt_coords by (assumption || apply l0).
    unfold l. rewrite Rabs_mult, (Rabs_right (a ^ 2)) by lra. reflexivity. }
  assert (G5 : xgtb (Fin (l 5 * l 5 * C 5%nat 5%nat)) (Fin 0) = xgtb (Fin (C 5%nat 5%nat)) (Fin 0)) by (apply Rltb0_scale, Rsqr_pos_lt, l0).
  assert (G4 : xgtb (Fin (l 4 * l 4 * C 4%nat 4%nat)) (Fin 0) = xgtb (Fin (C 4%nat 4%nat)) (Fin 0)) by (apply Rltb0_scale, Rsqr_pos_lt, l0).
  assert (GF : xgtb (Fin (l 5 * S 5%nat)) (Fin 0) = xgtb (Fin (S 5%nat)) (Fin 0)) by (rewrite L5; apply Rltb0_scale; exact A2).
  rewrite G5, G4, GF.
  assert (FE : xsqrt (Fin (l 5 * l 5 * C 5%nat 5%nat)) = times (a ^ 2) (xsqrt (Fin (C 5%nat 5%nat)))).
  { rewrite sqrt_coords by apply l0. rewrite L5, Rabs_right by lra. reflexivity. }
  assert (SN : xdiv (Fin (l 5 * S 5%nat)) (xsqrt (Fin (l 5 * l 5 * C 5%nat 5%nat))) = xdiv (Fin (S 5%nat)) (xsqrt (Fin (C 5%nat 5%nat)))).
  { rewrite FE, L5. change (Fin (a ^ 2 * S 5%nat)) with (times (a ^ 2) (Fin (S 5%nat))). apply xdiv_times, A2. }
  rewrite SN, FE.
  assert (DT : forall i, xgtb (Fin (S 5%nat)) (Fin 0) = true -> xdiv (Fin (l i * S i)) (Fin (l 5 * S 5%nat)) = times (l i / l 5) (xdiv (Fin (S i)) (Fin (S 5%nat)))).
  { intros i H. unfold xgtb, xltb in H. destruct (Rltb_spec 0 (S 5%nat)) as [P|]; [|discriminate]. unfold xdiv.
    assert (S5 : S 5%nat <> 0) by lra. rewrite (Reqb_f _ _ S5), (Reqb_f (l 5 * S 5%nat)) by (apply Rmult_integral_contrapositive; split; [apply l0|lra]). rewrite times_fin. f_equal. field. split; [lra|apply l0]. }
  assert (TT : forall x, xgtb (times (a ^ 2) x) (Fin 0) = xgtb x (Fin 0)) by (intros; apply xgtb_times, A2).
  cbv beta zeta iota. 
  destruct (xgtb (Fin (C 5%nat 5%nat)) (Fin 0)) eqn:E5; cbn [andb].
  2:{ cbn [bind]. replace (forallb _ _) with false.
      - cbn [Z.lor Z.eqb NONPOS_VAR]. cbn [bind]. apply FIN; try reflexivity; try exact I. exact NANS.
      - symmetry. apply Bool.not_true_is_false. rewrite forallb_forall. intros H. specialize (H (Fin (C 5%nat 5%nat))). rewrite E5 in H. discriminate H.
        apply in_map_iff. exists 5%nat. split; [reflexivity|]. apply in_seq. specialize (N 5%nat). lia. }
  destruct (xgtb (Fin (C 4%nat 4%nat)) (Fin 0)) eqn:E4.
  2:{ cbn [bind]. replace (forallb _ _) with false.
      - cbn [Z.lor Z.eqb NONPOS_VAR]. cbn [bind]. apply FIN; try reflexivity; try exact I. exact NANS.
      - symmetry. apply Bool.not_true_is_false. rewrite forallb_forall. intros H. specialize (H (Fin (C 4%nat 4%nat))). rewrite E4 in H. discriminate H.
        apply in_map_iff. exists 4%nat. split; [reflexivity|]. apply in_seq. specialize (N 4%nat). lia. }
  destruct (xgtb (Fin (S 5%nat)) (Fin 0)) eqn:EF.
  2:{ cbn [bind]. destruct (forallb _ _); cbn [Z.eqb bind]; apply FIN; try reflexivity; try exact I; assumption. }
  rewrite DT, L45 by reflexivity.
  destruct (get_ratio_error (Fin (S 4%nat)) (Fin (S 5%nat)) _ _ _) as [Te|]; cbn [rmap bind]; [|reflexivity].
  destruct (forallb _ _); cbn [Z.eqb bind].
  2:{ apply FIN; try reflexivity; try exact I. exact NANS. }
  rewrite TT. destruct (xgtb (xdiv (Fin (S 4%nat)) (Fin (S 5%nat))) (Fin 0)) eqn:ET; cbn [bind].
  2:{ apply FIN; try reflexivity; try exact I. exact ERRS. }
  assert (S4 : S 4%nat <> 0).
  { intros Z. rewrite Z in ET. unfold xgtb, xltb in EF. destruct (Rltb_spec 0 (S 5%nat)) as [P|]; [|discriminate]. unfold xdiv in ET. rewrite Reqb_f in ET by lra.
    unfold xgtb, xltb in ET. rewrite Rltb_f in ET by (unfold Rdiv; rewrite Rmult_0_l; lra). discriminate. }
  assert (DD : forall i, xdiv (Fin (l i * S i)) (Fin (l 4 * S 4%nat)) = times (l i / l 4) (xdiv (Fin (S i)) (Fin (S 4%nat)))).
  { intros i. unfold xdiv. rewrite (Reqb_f _ _ S4), (Reqb_f (l 4 * S 4%nat)) by (apply Rmult_integral_contrapositive; split; [apply l0|lra]). rewrite times_fin. f_equal. field. split; [lra|apply l0]. }
  rewrite !DD, L24, L34.
  assert (T1 : forall x, times 1 (Fin x) = Fin x) by (intros; rewrite times_fin; f_equal; ring).
  assert (ONE : forall r, rmap (times 1) (get_ratio_error r (Fin (S 4%nat)) (Fin (C 2%nat 2%nat)) (Fin (C 4%nat 4%nat)) (Fin (C 2%nat 4%nat))) = get_ratio_error r (Fin (S 4%nat)) (Fin (C 2%nat 2%nat)) (Fin (C 4%nat 4%nat)) (Fin (C 2%nat 4%nat))).
  { intros. destruct (get_ratio_error _ _ _ _ _) as [x|]; cbn [rmap bind]; [|reflexivity]. rewrite times_cases by lra. destruct x; try reflexivity. f_equal. f_equal. ring. }
  assert (ONE' : forall r, rmap (times 1) (get_ratio_error r (Fin (S 4%nat)) (Fin (C 3%nat 3%nat)) (Fin (C 4%nat 4%nat)) (Fin (C 3%nat 4%nat))) = get_ratio_error r (Fin (S 4%nat)) (Fin (C 3%nat 3%nat)) (Fin (C 4%nat 4%nat)) (Fin (C 3%nat 4%nat))).
  { intros. destruct (get_ratio_error _ _ _ _ _) as [x|]; cbn [rmap bind]; [|reflexivity]. rewrite times_cases by lra. destruct x; try reflexivity. f_equal. f_equal. ring. }
  rewrite ONE, ONE'.
  destruct (get_ratio_error (Fin (S 2%nat)) _ _ _ _) as [r1|]; cbn [bind]; [|reflexivity].
  destruct (get_ratio_error (Fin (S 3%nat)) _ _ _ _) as [r2|]; cbn [bind]; [|reflexivity].
  assert (E1 : times 1 (xdiv (Fin (S 2%nat)) (Fin (S 4%nat))) = xdiv (Fin (S 2%nat)) (Fin (S 4%nat))).
  { unfold xdiv. rewrite Reqb_f by exact S4. apply T1. }
  rewrite E1.
  destruct (isfinite r1 && isfinite r2)%bool; cbn [bind]; (apply FIN; [reflexivity|reflexivity|reflexivity|reflexivity|reflexivity|reflexivity|reflexivity|reflexivity|exact ERRS|]);
    cbn [coords_pars]; rewrite L5, !times_fin; unfold l, factor; cbn [odd_u existsb Nat.eqb orb degree nth]; repeat f_equal; ring.
Qed.
End Mom.
