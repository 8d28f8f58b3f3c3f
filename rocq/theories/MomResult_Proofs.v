From Coq Require Import String.
From Verif Require Import Base XReal Moments_Model Moments_Spec Moments_Proofs Flags_Model MomResult_Model MomResult_Spec.
Local Open Scope R_scope.

Lemma xgtb_pos x : xgtb x (Fin 0) = true <-> positive x.
Proof.
  unfold xgtb, xltb, positive. destruct x; try (split; (congruence || tauto)).
  destruct (Rltb_spec 0 r); split; intros; try congruence; lra.
Qed.
Lemma xgtb_npos x : xgtb x (Fin 0) = false <-> ~ positive x.
Proof. rewrite <- xgtb_pos. destruct (xgtb x (Fin 0)); split; congruence. Qed.

(** ** ratios *)
Lemma ratio_var_ok a b va vb c : a <> 0 -> b <> 0 ->
  get_ratio_var (Fin a) (Fin b) (Fin va) (Fin vb) (Fin c) = Ok (Fin (ratio_var a b va vb c)).
Proof.
  intros Ha Hb. unfold get_ratio_var, xeqb. rewrite Reqb_f by exact Hb. unfold xdiv, xmul, xsub, xadd, xneg. rewrite !Reqb_f by (try apply Rmult_integral_contrapositive; auto).
  do 2 f_equal. unfold ratio_var. field. auto.
Qed.
Lemma ratio_var_zero_denominator a va vb c : get_ratio_var a (Fin 0) va vb c = Raise ValueError.
Proof. unfold get_ratio_var, xeqb. rewrite Reqb_t by reflexivity. reflexivity. Qed.
Lemma xclip_fin v : xclip0 (Fin v) = Fin (Rmax 0 v).
Proof.
  unfold xclip0, xltb. destruct (Rltb_spec v 0); [rewrite Rmax_left by lra|rewrite Rmax_right by lra]; reflexivity.
Qed.
Lemma ratio_error_ok a b va vb c : a <> 0 -> b <> 0 ->
  get_ratio_error (Fin a) (Fin b) (Fin va) (Fin vb) (Fin c) = Ok (Fin (sqrt (Rmax 0 (ratio_var a b va vb c)))).
Proof.
  intros Ha Hb. unfold get_ratio_error. rewrite ratio_var_ok by assumption. cbn [bind]. rewrite xclip_fin. unfold xsqrt.
  rewrite Rltb_f by apply Rmax_l. reflexivity.
Qed.
Lemma ratio_var_nonneg a b va vb c : b <> 0 -> 0 <= va -> 0 <= vb -> c * c <= va * vb -> 0 <= ratio_var a b va vb c.
Proof.
  intros Hb Ha Hvb Hc. unfold ratio_var. set (x := 1 / b). set (y := - a / (b * b)).
  replace (x * (va * x + c * y) + y * (c * x + vb * y)) with (va * (x * x) + 2 * c * (x * y) + vb * (y * y)) by ring.
  destruct (Rle_lt_or_eq_dec 0 va Ha) as [P|<-].
  - assert (0 <= va * (va * (x * x) + 2 * c * (x * y) + vb * (y * y))).
    { replace (va * (va * (x * x) + 2 * c * (x * y) + vb * (y * y))) with ((va * x + c * y) * (va * x + c * y) + (va * vb - c * c) * (y * y)) by ring.
      assert (0 <= (va * x + c * y) * (va * x + c * y)) by apply Rle_0_sqr.
      assert (0 <= (va * vb - c * c) * (y * y)) by (apply Rmult_le_pos; [lra|apply Rle_0_sqr]). lra. }
    apply Rmult_le_reg_l with va; [exact P|]. rewrite Rmult_0_r. assumption.
  - assert (c = 0) by nra. subst c. assert (0 <= vb * (y * y)) by (apply Rmult_le_pos; [exact Hvb|apply Rle_0_sqr]). lra.
Qed.
(** the exceptional numerator *)
Lemma xmul_0_l x : ~ finite x -> xmul (Fin 0) x = NaN.
Proof.
  intros H. assert (Z : rsgn 0 = SZero) by (unfold rsgn; rewrite !Rltb_f by lra; reflexivity).
  destruct x as [r| | |]; [exfalso; apply H; exists r; reflexivity|..]; cbn; rewrite ?Z; reflexivity.
Qed.
Lemma xdiv_by_0 x : ~ finite (xdiv x (Fin 0)).
Proof.
  intros [r E]. destruct x as [x| | |]; cbn in E; try discriminate; rewrite ?Reqb_t in E by reflexivity; try discriminate.
  destruct (rsgn x); discriminate.
Qed.
Lemma ratio_error_0 b va vb c : b <> 0 -> get_ratio_error (Fin 0) (Fin b) va vb c = Ok NaN.
Proof.
  intros Hb. unfold get_ratio_error, get_ratio_var, xeqb. rewrite Reqb_f by exact Hb. cbn [bind].
  assert (E1 : xdiv (Fin 0) (Fin b) = Fin 0) by (cbn; rewrite Reqb_f by exact Hb; f_equal; field; exact Hb).
  rewrite E1. replace (xmul (Fin 0) (Fin 0)) with (Fin 0) by (cbn; f_equal; ring). rewrite xmul_0_l; [reflexivity|].
  assert (N := xdiv_by_0 va). intros [r K]. apply N. revert K.
  generalize (xdiv va (Fin 0)) (xdiv vb (xmul (Fin b) (Fin b))) (xdiv (xmul (Fin 2) c) (xmul (Fin 0) (Fin b))).
  intros x y z K. destruct x, y, z; cbn in K; try discriminate; eexists; reflexivity.
Qed.

(** ** element access *)
Lemma vget_ok v i : (i < length v)%nat -> vget v i = Ok (nth i v NaN).
Proof. intros H. unfold vget. rewrite (nth_error_nth' v NaN H). reflexivity. Qed.
Lemma mget_ok m i j : (i < sm_n m)%nat -> (j < sm_n m)%nat -> mget m i j = Ok (sm_at m i j).
Proof. intros H K. unfold mget. apply Nat.ltb_lt in H. apply Nat.ltb_lt in K. rewrite H, K. reflexivity. Qed.
Lemma shapes_six sums cov : shapes_ok sums cov -> (6 <= length sums)%nat /\ (6 <= sm_n cov)%nat.
Proof. intros (A & B & C). lia. Qed.
Lemma shapes_checks sums cov : shapes_ok sums cov ->
  negb (Nat.eqb (length sums) 6) && negb (Nat.eqb (length sums) 17) = false /\
  negb (Nat.eqb (sm_n cov) 6) && negb (Nat.eqb (sm_n cov) 17) = false.
Proof. intros ([->| ->] & [->| ->] & _); split; reflexivity. Qed.

Lemma ratio_error_total a b va vb c : xeqb b (Fin 0) = false -> exists e, get_ratio_error a b va vb c = Ok e.
Proof. intros H. unfold get_ratio_error, get_ratio_var. rewrite H. cbn [bind]. eexists. reflexivity. Qed.
Lemma pos_nonzero x : positive x -> xeqb x (Fin 0) = false.
Proof. destruct x; cbn; intros; try tauto. apply Reqb_f. lra. Qed.
Lemma pos_div_num x y : positive y -> positive (xdiv x y) -> xeqb x (Fin 0) = false.
Proof.
  destruct x as [x| | |]; cbn; try reflexivity; intros Hy H. destruct (Reqb_spec x 0); [|reflexivity]. subst x.
  destruct y as [y| | |]; cbn in *; try tauto; [|lra]. rewrite Reqb_f in H by lra. cbn in H. unfold Rdiv in H. rewrite Rmult_0_l in H. lra.
Qed.

(** ** named moments *)
Lemma foldM_app {A B} (f : list B -> A -> res (list B)) (h : A -> list B) l :
  (forall acc a, In a l -> f acc a = Ok (acc ++ h a)) -> forall acc, foldM f l acc = Ok (acc ++ flat_map h l).
Proof.
  induction l as [|a l IH]; intros H acc; cbn [foldM flat_map]; [rewrite app_nil_r; reflexivity|].
  rewrite H by (left; reflexivity). cbn [bind]. rewrite IH by (intros; apply H; right; assumption). rewrite app_assoc. reflexivity.
Qed.
Definition err_of (r : res xr) : xr := match r with Ok x => x | Raise _ => NaN end.
Definition named_error (sums : list xr) (cov : smat) (ind : nat) : xr :=
  if Nat.eqb ind 5 then xsqrt (sm_at cov 5 5)
  else if xgtb (nth 5 sums NaN) (Fin 0) then
    err_of (get_ratio_error (nth ind sums NaN) (nth 5 sums NaN) (sm_at cov ind ind) (sm_at cov 5 5) (sm_at cov ind 5)) else NaN.
Lemma named_ok sums cov : shapes_ok sums cov ->
  add_moments_by_name sums cov = Ok (flat_map (fun ni => if Nat.ltb (snd ni) (length sums) then [(fst ni, (named_value sums (snd ni), named_error sums cov (snd ni)))] else [])
    MOMENTS_NAME_MAP).
Proof.
  intros H. destruct (shapes_six _ _ H) as [L6 N6]. destruct H as (_ & _ & LE).
  unfold add_moments_by_name. rewrite vget_ok by lia. cbn [bind]. rewrite mget_ok by lia. cbn [bind].
  match goal with |- foldM ?f _ _ = Ok (flat_map ?h _) => rewrite (foldM_app f h); [reflexivity|] end.
  intros acc [name ind] Hin. cbn [fst snd].
  assert (I5 : (String.eqb name "MF" || String.eqb name "M00")%bool = Nat.eqb ind 5).
  { unfold MOMENTS_NAME_MAP in Hin. cbn [In] in Hin. repeat (destruct Hin as [Hin|Hin]; [injection Hin; intros; subst; reflexivity|]). contradiction. }
  rewrite I5. destruct (Nat.ltb_spec ind (length sums)) as [Li|Li].
  2:{ assert (Z.gtb (Z.of_nat ind) (Z.of_nat (length sums) - 1) = true) as -> by lia. rewrite app_nil_r. reflexivity. }
  assert (Z.gtb (Z.of_nat ind) (Z.of_nat (length sums) - 1) = false) as -> by lia.
  unfold named_value, named_error. destruct (Nat.eqb_spec ind 5) as [->|N5]; [reflexivity|].
  destruct (xgtb (nth 5 sums NaN) (Fin 0)) eqn:G; [|reflexivity].
  rewrite vget_ok by lia. cbn [bind]. rewrite !mget_ok by lia. cbn [bind].
  destruct (ratio_error_total (nth ind sums NaN) (nth 5 sums NaN) (sm_at cov ind ind) (sm_at cov 5 5) (sm_at cov ind 5)) as [e E];
    [apply pos_nonzero, xgtb_pos, G|]. rewrite E. reflexivity.
Qed.

(** ** the flags *)
Lemma diag_pos_iff cov : forallb (fun c => xgtb c (Fin 0)) (map (fun i => sm_at cov i i) (seq 0 (sm_n cov))) = true <-> diag_positive cov.
Proof.
  rewrite forallb_forall. unfold diag_positive. split.
  - intros H i Hi. apply xgtb_pos, H. apply in_map_iff. exists i. split; [reflexivity|]. apply in_seq. lia.
  - intros H x Hx. apply in_map_iff in Hx. destruct Hx as (i & <- & Hi). apply in_seq in Hi. apply xgtb_pos, H. lia.
Qed.

(** everything at once: a result exists, with these fields *)
Lemma mom_result_full sums cov sn : shapes_ok sums cov ->
  exists r, make_mom_result sums cov sn = Ok r /\
    m_sums r = sums /\ m_cov r = cov /\ m_flux r = nth 5 sums NaN /\
    total_flag sums cov r (m_flags r) /\ T_flag sums cov (m_T_flags r) /\ flux_flag cov (m_flux_flags r) /\
    (positive (sm_at cov 5 5) -> m_flux_err r = xsqrt (sm_at cov 5 5) /\ m_s2n r = xdiv (nth 5 sums NaN) (xsqrt (sm_at cov 5 5))) /\
    (m_T_flags r = 0%Z -> m_T r = xdiv (nth 4 sums NaN) (nth 5 sums NaN) /\
       get_ratio_error (nth 4 sums NaN) (nth 5 sums NaN) (sm_at cov 4 4) (sm_at cov 5 5) (sm_at cov 4 5) = Ok (m_T_err r)) /\
    (diag_positive cov -> positive (nth 5 sums NaN) -> positive (xdiv (nth 4 sums NaN) (nth 5 sums NaN)) ->
       m_e1 r = xdiv (nth 2 sums NaN) (nth 4 sums NaN) /\ m_e2 r = xdiv (nth 3 sums NaN) (nth 4 sums NaN) /\
       exists a b, get_ratio_error (nth 2 sums NaN) (nth 4 sums NaN) (sm_at cov 2 2) (sm_at cov 4 4) (sm_at cov 2 4) = Ok a /\
         get_ratio_error (nth 3 sums NaN) (nth 4 sums NaN) (sm_at cov 3 3) (sm_at cov 4 4) (sm_at cov 3 4) = Ok b /\
         m_e_err r = (if isfinite a && isfinite b then (a, b) else (NaN, NaN)) /\
         m_pars r = Some [nth 0 sums NaN; nth 1 sums NaN; m_e1 r; m_e2 r; m_T r; nth 5 sums NaN]) /\
    m_named r = flat_map (fun ni => if Nat.ltb (snd ni) (length sums) then [(fst ni, (named_value sums (snd ni), named_error sums cov (snd ni)))] else [])
      MOMENTS_NAME_MAP /\
    (m_flags r <> 0%Z -> m_flags r <> NONPOS_SHAPE_VAR -> m_e1 r = NaN /\ m_e2 r = NaN /\ m_e_err r = (NaN, NaN) /\ m_pars r = None) /\
    (m_T_flags r <> 0%Z -> m_T r = NaN /\ m_T_err r = NaN) /\
    (m_flux_flags r <> 0%Z -> m_flux_err r = NaN /\ m_s2n r = NaN).
Proof.
  intros H. assert (N := named_ok sums cov H). destruct (shapes_checks _ _ H) as [S1 S2]. destruct (shapes_six _ _ H) as [L6 N6].
  unfold make_mom_result. rewrite S1, S2. rewrite !vget_ok by lia. cbn [bind]. rewrite !mget_ok by lia. cbn [bind]. rewrite N. clear N S1 S2.
  generalize (flat_map (fun ni : string * nat => if (snd ni <? length sums)%nat then [(fst ni, (named_value sums (snd ni), named_error sums cov (snd ni)))] else [])
    MOMENTS_NAME_MAP). intros named.
  generalize dependent (nth 0 sums NaN). intros sv. generalize dependent (nth 1 sums NaN). intros su.
  remember (nth 2 sums NaN) as s1. remember (nth 3 sums NaN) as s2. remember (nth 4 sums NaN) as sT. remember (nth 5 sums NaN) as sF.
  remember (map xsqrt (map (fun i : nat => sm_at cov i i) (seq 0 (sm_n cov)))) as es.
  destruct (forallb (fun c : xr => xgtb c (Fin 0)) (map (fun i : nat => sm_at cov i i) (seq 0 (sm_n cov)))) eqn:D.
  - rewrite diag_pos_iff in D. assert (P55 := D 5%nat ltac:(lia)). assert (P44 := D 4%nat ltac:(lia)).
    rewrite (proj2 (xgtb_pos _) P55), (proj2 (xgtb_pos _) P44). cbn [andb Z.eqb Z.lor].
    destruct (xgtb sF (Fin 0)) eqn:F.
    + apply xgtb_pos in F.
      destruct (ratio_error_total sT sF (sm_at cov 4 4) (sm_at cov 5 5) (sm_at cov 4 5) (pos_nonzero _ F)) as [eT ET]. rewrite ET. cbn [bind].
      destruct (xgtb (xdiv sT sF) (Fin 0)) eqn:T.
      * apply xgtb_pos in T. assert (NZ := pos_div_num _ _ F T).
        destruct (ratio_error_total s1 sT (sm_at cov 2 2) (sm_at cov 4 4) (sm_at cov 2 4) NZ) as [a Ea].
        destruct (ratio_error_total s2 sT (sm_at cov 3 3) (sm_at cov 4 4) (sm_at cov 3 4) NZ) as [b Eb]. rewrite Ea, Eb. cbn [bind].
        destruct (isfinite a && isfinite b) eqn:Fab.
        -- apply andb_prop in Fab. destruct Fab as [Fa Fb]. destruct a as [a| | |]; try discriminate. destruct b as [b| | |]; try discriminate.
           cbn [bind]. eexists. split; [reflexivity|]. cbn. rewrite <- ?HeqsT, <- ?HeqsF.
           repeat split; try (intros; congruence); auto; try (rewrite <- ?HeqsF, <- ?HeqsT; assumption).
           all: try (constructor; rewrite <- ?HeqsF, <- ?HeqsT; auto; try (eexists; reflexivity)).
           exists (Fin a), (Fin b). repeat split; auto.
        -- cbn [bind]. eexists. split; [reflexivity|]. cbn. rewrite <- ?HeqsT, <- ?HeqsF.
           repeat split; try (intros; congruence); auto.
           all: try (constructor; rewrite <- ?HeqsF, <- ?HeqsT; auto; try (eexists; reflexivity)).
           exists a, b. rewrite Fab. repeat split; auto.
      * apply xgtb_npos in T. cbn [bind]. eexists. split; [reflexivity|]. cbn. rewrite <- ?HeqsT, <- ?HeqsF.
        repeat split; try (intros; congruence); try (intros; contradiction); auto.
        all: try (constructor; rewrite <- ?HeqsF, <- ?HeqsT; auto; try (eexists; reflexivity)).
    + apply xgtb_npos in F. cbn [bind]. assert (G : xgtb NaN (Fin 0) = false) by reflexivity.
      eexists. split; [reflexivity|]. cbn. rewrite <- ?HeqsT, <- ?HeqsF.
      repeat split; try (intros; congruence); try (intros; contradiction); auto; try (intros K; discriminate K).
      all: try (constructor; rewrite <- ?HeqsF, <- ?HeqsT; auto; try (eexists; reflexivity)).
  - assert (D' : ~ diag_positive cov) by (rewrite <- diag_pos_iff, D; discriminate).
    cbn [Z.eqb Z.lor].
    destruct (xgtb (sm_at cov 5 5) (Fin 0)) eqn:P55.
    + apply xgtb_pos in P55. destruct (xgtb (sm_at cov 4 4) (Fin 0)) eqn:P44; cbn [andb].
      * apply xgtb_pos in P44. destruct (xgtb sF (Fin 0)) eqn:F.
        -- apply xgtb_pos in F. destruct (ratio_error_total sT sF (sm_at cov 4 4) (sm_at cov 5 5) (sm_at cov 4 5) (pos_nonzero _ F)) as [eT ET]. rewrite ET. cbn [bind].
           eexists. split; [reflexivity|]. cbn. rewrite <- ?HeqsT, <- ?HeqsF.
           repeat split; try (intros; congruence); try (intros; contradiction); auto; try (intros K; discriminate K).
           all: try (constructor; rewrite <- ?HeqsF, <- ?HeqsT; auto; try (eexists; reflexivity)).
        -- apply xgtb_npos in F. cbn [bind]. eexists. split; [reflexivity|]. cbn. rewrite <- ?HeqsT, <- ?HeqsF.
           repeat split; try (intros; congruence); try (intros; contradiction); auto; try (intros K; discriminate K).
           all: try (constructor; rewrite <- ?HeqsF, <- ?HeqsT; auto; try (eexists; reflexivity)).
      * apply xgtb_npos in P44. cbn [bind]. eexists. split; [reflexivity|]. cbn. rewrite <- ?HeqsT, <- ?HeqsF.
        repeat split; try (intros; congruence); try (intros; contradiction); auto; try (intros K; discriminate K).
        all: try (constructor; rewrite <- ?HeqsF, <- ?HeqsT; auto; try (eexists; reflexivity); tauto).
    + apply xgtb_npos in P55. cbn [andb bind]. eexists. split; [reflexivity|]. cbn. rewrite <- ?HeqsT, <- ?HeqsF.
      repeat split; try (intros; congruence); try (intros; contradiction); auto; try (intros K; discriminate K).
      all: try (constructor; rewrite <- ?HeqsF, <- ?HeqsT; auto; try (eexists; reflexivity); tauto).
Qed.

(** ** a result without flags is a good measurement *)
Lemma pos_fin x : positive x -> noinf x -> exists r, x = Fin r /\ 0 < r.
Proof. destruct x; cbn; intros; try tauto. eauto. Qed.
Lemma noinf_nth sums i : Forall noinf sums -> noinf (nth i sums NaN).
Proof.
  intros H. destruct (Nat.lt_ge_cases i (length sums)) as [L|L].
  - rewrite Forall_forall in H. apply H, nth_In, L.
  - rewrite nth_overflow by exact L. exact I.
Qed.
Lemma ratio_err_nan_num b va vb c e : get_ratio_error NaN b va vb c = Ok e -> ~ finite e.
Proof.
  unfold get_ratio_error, get_ratio_var. destruct (xeqb b (Fin 0)); [discriminate|]. cbn [bind].
  assert (xdiv NaN b = NaN) as -> by (destruct b; reflexivity). cbn. intros E [r K]. injection E as <-. discriminate K.
Qed.
Lemma finite_isfin x : finite x -> isfinite x = true.
Proof. intros [r ->]. reflexivity. Qed.
Lemma NZ_flags : NONPOS_VAR <> 0%Z /\ NONPOS_FLUX <> 0%Z /\ NONPOS_SIZE <> 0%Z /\ NONPOS_SHAPE_VAR <> 0%Z.
Proof. repeat split; discriminate. Qed.

Lemma flags_zero sums cov r : total_flag sums cov r 0 ->
  diag_positive cov /\ positive (nth 5 sums NaN) /\ positive (xdiv (nth 4 sums NaN) (nth 5 sums NaN)) /\ finite (fst (m_e_err r)) /\ finite (snd (m_e_err r)).
Proof. intros H. inversion H. auto. Qed.
Lemma T_flag_pos sums cov z : T_flag sums cov z -> positive (sm_at cov 5 5) -> positive (sm_at cov 4 4) -> positive (nth 5 sums NaN) -> z = 0%Z.
Proof. intros H. inversion H; tauto. Qed.
Lemma flux_flag_pos cov z : flux_flag cov z -> positive (sm_at cov 5 5) -> z = 0%Z.
Proof. intros H. inversion H; tauto. Qed.

Lemma good_result sums cov sn r : shapes_ok sums cov -> make_mom_result sums cov sn = Ok r ->
  Forall noinf sums -> (forall i j, (i < sm_n cov)%nat -> (j < sm_n cov)%nat -> noinf (sm_at cov i j)) -> isnan (sm_at cov 4 5) = false ->
  m_flags r = 0%Z ->
  exists F T e1 e2 d1 d2 s dT dF, m_flux r = Fin F /\ 0 < F /\ m_T r = Fin T /\ 0 < T /\ diag_positive cov /\
    m_flux_flags r = 0%Z /\ m_T_flags r = 0%Z /\ m_flux_err r = Fin dF /\ m_s2n r = Fin s /\ 0 < s /\ m_T_err r = Fin dT /\ m_e1 r = Fin e1 /\ m_e2 r = Fin e2 /\
    m_e_err r = (Fin d1, Fin d2) /\ 0 <= d1 /\ 0 <= d2 /\ 0 <= dT /\ 0 < dF /\
    m_pars r = Some [nth 0 sums NaN; nth 1 sums NaN; Fin e1; Fin e2; Fin T; Fin F].
Proof.
  intros Hs Hr Fs Fc NT Hz. destruct (mom_result_full sums cov sn Hs) as (r' & Hr' & _ & _ & Hfl & Htot & HT & HF & A1 & A2 & A3 & _).
  rewrite Hr in Hr'. injection Hr' as <-. rewrite Hz in Htot. destruct (flags_zero _ _ _ Htot) as (D & PF & PT & E1 & E2).
  destruct (shapes_six _ _ Hs) as [L6 N6]. assert (P5 := D 5%nat ltac:(lia)). assert (P4 := D 4%nat ltac:(lia)).
  assert (TF0 := T_flag_pos _ _ _ HT P5 P4 PF). assert (FF0 := flux_flag_pos _ _ HF P5).
  destruct (A1 P5) as [B1 B2]. destruct (A2 TF0) as [B3 B4]. destruct (A3 D PF PT) as (C1 & C2 & a & b & Ga & Gb & Ce & Cp). clear A1 A2 A3.
  destruct (pos_fin _ PF (noinf_nth _ 5 Fs)) as (F & EF & HFp). rewrite EF in *.
  assert (N4 := noinf_nth _ 4 Fs). destruct (nth 4 sums NaN) as [sT| | |]; try contradiction.
  assert (ET : xdiv (Fin sT) (Fin F) = Fin (sT / F)) by (cbn; rewrite Reqb_f by lra; reflexivity). rewrite ET in *. cbn in PT.
  assert (HsT : 0 < sT). { apply Rmult_lt_reg_r with (/ F); [apply Rinv_0_lt_compat; exact HFp|]. rewrite Rmult_0_l. exact PT. }
  destruct (pos_fin _ P5 (Fc 5%nat 5%nat ltac:(lia) ltac:(lia))) as (c5 & E5 & H5). destruct (pos_fin _ P4 (Fc 4%nat 4%nat ltac:(lia) ltac:(lia))) as (c4 & E4 & H4).
  rewrite E5, E4 in *. assert (N45 := Fc 4%nat 5%nat ltac:(lia) ltac:(lia)). destruct (sm_at cov 4 5) as [c45| | |]; try contradiction; try discriminate.
  rewrite ratio_error_ok in B4 by lra. injection B4 as B4. symmetry in B4.
  assert (Q5 : xsqrt (Fin c5) = Fin (sqrt c5)) by (cbn; rewrite Rltb_f by lra; reflexivity). rewrite Q5 in *.
  assert (S5 : 0 < sqrt c5) by (apply sqrt_lt_R0; exact H5).
  assert (Q6 : xdiv (Fin F) (Fin (sqrt c5)) = Fin (F / sqrt c5)) by (cbn; rewrite Reqb_f by lra; reflexivity). rewrite Q6 in *.
  destruct (isfinite a && isfinite b) eqn:Fab.
  2:{ rewrite Ce in E1. destruct E1 as [x K]. discriminate K. }
  apply andb_prop in Fab. destruct Fab as [Fa Fb]. destruct a as [a| | |]; try discriminate. destruct b as [b| | |]; try discriminate.
  assert (X : forall i err cii ciT, get_ratio_error (nth i sums NaN) (Fin sT) cii (Fin c4) ciT = Ok (Fin err) -> exists m, nth i sums NaN = Fin m /\ 0 <= err).
  { intros i err cii ciT G. assert (Ni := noinf_nth _ i Fs). destruct (nth i sums NaN) as [m| | |]; try contradiction.
    - exists m. split; [reflexivity|]. revert G. unfold get_ratio_error. destruct (get_ratio_var _ _ _ _ _) as [v|]; [|discriminate]. cbn [bind].
      destruct v as [v| | |]; [rewrite xclip_fin; unfold xsqrt; rewrite Rltb_f by apply Rmax_l|..]; cbn; intros K; try discriminate K; rewrite ?Rltb_f in K by lra; injection K as <-; apply sqrt_pos.
    - exfalso. apply (ratio_err_nan_num _ _ _ _ _ G). exists err. reflexivity. }
  destruct (X _ _ _ _ Ga) as (m1 & M1 & Ha). destruct (X _ _ _ _ Gb) as (m2 & M2 & Hb). clear X.
  rewrite M1 in C1. rewrite M2 in C2. cbn in C1, C2. rewrite Reqb_f in C1, C2 by lra.
  exists F, (sT / F), (m1 / sT), (m2 / sT), a, b, (F / sqrt c5), (sqrt (Rmax 0 (ratio_var sT F c4 c5 c45))), (sqrt c5).
  repeat split; auto; try (rewrite Hfl; reflexivity); try (apply sqrt_pos).
  - apply Rdiv_lt_0_compat; assumption.
  - rewrite Cp, C1, C2, B3. reflexivity.
Qed.

(** a missing T-flux covariance goes unnoticed *)
Lemma ratio_error_nan_cov a b va vb : xeqb b (Fin 0) = false -> get_ratio_error a b va vb NaN = Ok NaN.
Proof.
  intros H. unfold get_ratio_error, get_ratio_var. rewrite H. cbn [bind].
  assert (A : forall z, xdiv (xmul (Fin 2) NaN) z = NaN) by (intros []; reflexivity). rewrite A.
  assert (B : forall z, xsub z NaN = NaN) by (intros []; reflexivity). rewrite B.
  assert (C : forall z, xmul z NaN = NaN) by (intros []; reflexivity). rewrite C. reflexivity.
Qed.
Lemma nan_cov_unnoticed sums cov sn r : shapes_ok sums cov -> make_mom_result sums cov sn = Ok r -> sm_at cov 4 5 = NaN ->
  diag_positive cov -> positive (nth 5 sums NaN) -> m_T_flags r = 0%Z /\ m_T_err r = NaN.
Proof.
  intros Hs Hr HN D PF. destruct (mom_result_full sums cov sn Hs) as (r' & Hr' & _ & _ & Hfl & Htot & HT & HF & A1 & A2 & _).
  rewrite Hr in Hr'. injection Hr' as <-. destruct (shapes_six _ _ Hs) as [L6 N6].
  assert (TF0 := T_flag_pos _ _ _ HT (D 5%nat ltac:(lia)) (D 4%nat ltac:(lia)) PF). split; [exact TF0|].
  destruct (A2 TF0) as [_ B]. rewrite HN, ratio_error_nan_cov in B by (apply pos_nonzero, PF). injection B as <-. reflexivity.
Qed.

(** ** valid finite moments *)
Lemma valid_moments sums cov sn m1 m2 mT mF : shapes_ok sums cov ->
  nth 2 sums NaN = Fin m1 -> nth 3 sums NaN = Fin m2 -> nth 4 sums NaN = Fin mT -> nth 5 sums NaN = Fin mF ->
  (forall i j, (i < sm_n cov)%nat -> (j < sm_n cov)%nat -> finite (sm_at cov i j)) ->
  diag_positive cov -> 0 < mF -> 0 < mT ->
  exists r, make_mom_result sums cov sn = Ok r /\
    m_flux r = Fin mF /\ m_T r = Fin (mT / mF) /\ m_e1 r = Fin (m1 / mT) /\ m_e2 r = Fin (m2 / mT) /\
    m_T_flags r = 0%Z /\ m_flux_flags r = 0%Z /\
    m_flux_err r = Fin (sqrt (val (sm_at cov 5 5))) /\ m_s2n r = Fin (mF / sqrt (val (sm_at cov 5 5))) /\
    m_T_err r = Fin (sqrt (Rmax 0 (ratio_var mT mF (val (sm_at cov 4 4)) (val (sm_at cov 5 5)) (val (sm_at cov 4 5))))) /\
    m_pars r = Some [nth 0 sums NaN; nth 1 sums NaN; m_e1 r; m_e2 r; m_T r; nth 5 sums NaN] /\
    (m1 <> 0 -> m2 <> 0 -> m_flags r = 0%Z /\
       m_e_err r = (Fin (sqrt (Rmax 0 (ratio_var m1 mT (val (sm_at cov 2 2)) (val (sm_at cov 4 4)) (val (sm_at cov 2 4))))),
                    Fin (sqrt (Rmax 0 (ratio_var m2 mT (val (sm_at cov 3 3)) (val (sm_at cov 4 4)) (val (sm_at cov 3 4))))))) /\
    (m1 = 0 \/ m2 = 0 -> m_flags r = NONPOS_SHAPE_VAR /\ m_e_err r = (NaN, NaN)).
Proof.
  intros Hs E1 E2 E4 E5 Fc D HF HT. destruct (mom_result_full sums cov sn Hs) as (r & Hr & _ & _ & Hfl & Htot & HTf & HFf & A1 & A2 & A3 & _).
  destruct (shapes_six _ _ Hs) as [L6 N6]. exists r. split; [exact Hr|]. rewrite Hfl.
  assert (X : forall i j, (i < 6)%nat -> (j < 6)%nat -> sm_at cov i j = Fin (val (sm_at cov i j))) by (intros i j Hi Hj; destruct (Fc i j ltac:(lia) ltac:(lia)) as [x ->]; reflexivity).
  assert (P5 := D 5%nat ltac:(lia)). assert (P4 := D 4%nat ltac:(lia)).
  rewrite E2, E4, E5 in *. rewrite E1 in *.
  assert (DT : xdiv (Fin mT) (Fin mF) = Fin (mT / mF)) by (cbn; rewrite Reqb_f by lra; reflexivity).
  assert (PF : positive (Fin mF)) by exact HF. assert (PT : positive (xdiv (Fin mT) (Fin mF))) by (rewrite DT; apply Rdiv_lt_0_compat; assumption).
  assert (TF0 : m_T_flags r = 0%Z) by (apply (T_flag_pos _ _ _ HTf P5 P4); rewrite E5; exact PF). assert (FF0 := flux_flag_pos _ _ HFf P5).
  destruct (A1 P5) as [B1 B2]. destruct (A2 TF0) as [B3 B4]. destruct (A3 D PF PT) as (C1 & C2 & a & b & Ga & Gb & Ce & Cp). clear A1 A2 A3.
  rewrite DT in *. rewrite (X 5 5)%nat, (X 4 4)%nat in * by lia. cbn [val] in *.
  rewrite (X 4 5)%nat, ratio_error_ok in B4 by (lia || lra). injection B4 as B4. cbn in P5.
  assert (Q5 : xsqrt (Fin (val (sm_at cov 5 5))) = Fin (sqrt (val (sm_at cov 5 5)))) by (cbn; rewrite Rltb_f by lra; reflexivity). rewrite Q5 in *.
  assert (S5 : 0 < sqrt (val (sm_at cov 5 5))) by (apply sqrt_lt_R0; exact P5).
  cbn in C1, C2, B2. rewrite Reqb_f in C1, C2, B2 by lra.
  rewrite (X 2 2)%nat, (X 2 4)%nat in Ga by lia. rewrite (X 3 3)%nat, (X 3 4)%nat in Gb by lia.
  repeat split; auto; try (match goal with H : _ = _ \/ _ = _ |- _ => destruct H end).
  - rewrite ratio_error_ok in Ga, Gb by lra. injection Ga as Ga. injection Gb as Gb. subst a b. cbn [isfinite andb] in Ce.
    inversion Htot as [Q|Q1 Q2|Q1 Q2 Q3|Q1 Q2 Q3 Q4|]; [contradiction|rewrite E5 in Q2; contradiction|rewrite E4, E5, DT in Q3; contradiction| |reflexivity].
    rewrite Ce in Q4. discriminate Q4.
  - rewrite ratio_error_ok in Ga, Gb by lra. injection Ga as Ga. injection Gb as Gb. subst a b. cbn [isfinite andb] in Ce. exact Ce.
  - subst m1. rewrite ratio_error_0 in Ga by lra. injection Ga as <-. cbn [isfinite andb] in Ce.
    inversion Htot as [Q|Q1 Q2|Q1 Q2 Q3|Q1 Q2 Q3 Q4|Q1 Q2 Q3 Q4 Q5']; [contradiction|rewrite E5 in Q2; contradiction|rewrite E4, E5, DT in Q3; contradiction|reflexivity|].
    rewrite Ce in Q4. destruct Q4 as [x Q4]. discriminate Q4.
  - subst m2. rewrite ratio_error_0 in Gb by lra. injection Gb as <-. rewrite andb_false_r in Ce.
    inversion Htot as [Q|Q1 Q2|Q1 Q2 Q3|Q1 Q2 Q3 Q4|Q1 Q2 Q3 Q4 Q5']; [contradiction|rewrite E5 in Q2; contradiction|rewrite E4, E5, DT in Q3; contradiction|reflexivity|].
    rewrite Ce in Q4. destruct Q4 as [x Q4]. discriminate Q4.
  - subst m1. rewrite ratio_error_0 in Ga by lra. injection Ga as <-. exact Ce.
  - subst m2. rewrite ratio_error_0 in Gb by lra. injection Gb as <-. rewrite andb_false_r in Ce. exact Ce.
Qed.

(** ** regularised shapes *)
Lemma xsum_fin l : xsum (map Fin l) = Fin (fold_left Rplus l 0).
Proof.
  unfold xsum. generalize 0. induction l as [|x l IH]; intros a; [reflexivity|]. cbn [map fold_left]. cbn [xadd]. apply IH.
Qed.
Definition am (t : R) (i j : nat) : R := if Nat.eqb i 4 && Nat.eqb j 5 then t else if Nat.eqb i j then 1 else 0.
Lemma amat_fin t i j : amat t i j = Fin (am t i j).
Proof. unfold amat, am. destruct (Nat.eqb i 4 && Nat.eqb j 5); [reflexivity|]. destruct (Nat.eqb i j); reflexivity. Qed.
Lemma dot6_fin (a b : nat -> xr) (x y : nat -> R) : (forall k, (k < 6)%nat -> a k = Fin (x k)) -> (forall k, (k < 6)%nat -> b k = Fin (y k)) ->
  xsum (map (fun k => xmul (a k) (b k)) (seq 0 6)) = Fin (x 0%nat * y 0%nat + x 1%nat * y 1%nat + x 2%nat * y 2%nat + x 3%nat * y 3%nat + x 4%nat * y 4%nat + x 5%nat * y 5%nat).
Proof.
  intros Ha Hb. cbn [seq map]. rewrite !Ha, !Hb by lia. unfold xsum. cbn [fold_left xmul xadd]. f_equal. ring.
Qed.
Definition regc (t : R) (c : nat -> nat -> R) (i j : nat) : R :=
  c i j + (if Nat.eqb j 4 then t * c i 5%nat else 0) + (if Nat.eqb i 4 then t * (c 5%nat j + (if Nat.eqb j 4 then t * c 5%nat 5%nat else 0)) else 0).
Lemma reg_cov_fin t (cov : nat -> nat -> xr) (c : nat -> nat -> R) i j : (forall i j, (i < 6)%nat -> (j < 6)%nat -> cov i j = Fin (c i j)) -> (i < 6)%nat -> (j < 6)%nat ->
  xdot_mm (amat t) (xdot_mm cov (fun i j => amat t j i)) i j = Fin (regc t c i j).
Proof.
  intros H Hi Hj. unfold xdot_mm.
  rewrite (dot6_fin _ _ (fun k => am t i k) (fun k => c k 0%nat * am t j 0%nat + c k 1%nat * am t j 1%nat + c k 2%nat * am t j 2%nat + c k 3%nat * am t j 3%nat + c k 4%nat * am t j 4%nat + c k 5%nat * am t j 5%nat)).
  - f_equal. unfold regc, am.
    destruct i as [|[|[|[|[|[|i]]]]]]; try lia; destruct j as [|[|[|[|[|[|j]]]]]]; try lia; cbn [Nat.eqb andb]; ring.
  - intros k _. apply amat_fin.
  - intros k Hk. apply (dot6_fin _ _ (fun l => c k l) (fun l => am t j l)).
    + intros l Hl. apply H; assumption.
    + intros l Hl. apply amat_fin.
Qed.
Lemma reg_sums_fin t v u m1 m2 mT mF :
  let raw i := nth i [v; u; Fin m1; Fin m2; Fin mT; Fin mF] NaN in
  let filled i := if (Nat.eqb i 0 || Nat.eqb i 1) && isnan (raw i) then Fin 0 else raw i in
  let reg i := if (Nat.eqb i 0 || Nat.eqb i 1) && isnan (raw i) then NaN else xdot_mv (amat t) filled i in
  noinf v -> noinf u ->
  map reg (seq 0 6) = [v; u; Fin m1; Fin m2; Fin (mT + t * mF); Fin mF].
Proof.
  intros raw filled reg Hv Hu.
  set (vv := match v with Fin x => x | _ => 0 end). set (uu := match u with Fin x => x | _ => 0 end).
  assert (Hf : forall k, (k < 6)%nat -> filled k = Fin (nth k [vv; uu; m1; m2; mT; mF] 0)).
  { intros k Hk. unfold filled, raw. destruct k as [|[|[|[|[|[|k]]]]]]; try lia; cbn; try reflexivity.
    - destruct v; try contradiction; reflexivity.
    - destruct u; try contradiction; reflexivity. }
  assert (Hd : forall i, (i < 6)%nat -> xdot_mv (amat t) filled i = Fin (nth i [vv; uu; m1; m2; mT + t * mF; mF] 0)).
  { intros i Hi. unfold xdot_mv. rewrite (dot6_fin _ _ (am t i) (fun k => nth k [vv; uu; m1; m2; mT; mF] 0)); [|intros; apply amat_fin|exact Hf].
    f_equal. unfold am. destruct i as [|[|[|[|[|[|i]]]]]]; try lia; cbn [Nat.eqb andb nth]; ring. }
  cbn [seq map]. unfold reg. rewrite !Hd by lia. cbn. unfold vv, uu. destruct v; try contradiction; destruct u; try contradiction; reflexivity.
Qed.

Lemma fwhm_T_pos f : 0 < f -> 0 < fwhm_to_T f.
Proof.
  intros H. unfold fwhm_to_T, fwhm_to_sigma, FWHM_FAC.
  assert (0 < f / (23548200450309493 / 10000000000000000)) by (apply Rdiv_lt_0_compat; lra). nra.
Qed.

Lemma regularised sums cov sn r f : six_sums sums -> finite_cov cov -> make_mom_result sums cov sn = Ok r -> 0 < f ->
  exists r', regularize_mom_shapes r f = Ok r' /\
    m_flux r' = m_flux r /\ m_flux_err r' = m_flux_err r /\ m_s2n r' = m_s2n r /\ m_flux_flags r' = m_flux_flags r /\
    m_T r' = m_T r /\ m_T_err r' = m_T_err r /\ m_T_flags r' = m_T_flags r /\
    (exists fl, m_flags r' = Z.lor fl (m_flags r)) /\
    (m_flags r = 0%Z -> TF_block_ok cov ->
       exists T e1 e2 e1' e2', m_T r = Fin T /\ 0 < T /\ m_e1 r = Fin e1 /\ m_e2 r = Fin e2 /\ m_e1 r' = Fin e1' /\ m_e2 r' = Fin e2' /\
         e1' * (T + fwhm_to_T f) = e1 * T /\ e2' * (T + fwhm_to_T f) = e2 * T /\ m_flags r' = 0%Z /\ e1 <> 0 /\ e2 <> 0 /\
         exists v u fl, m_pars r' = Some [v; u; Fin e1'; Fin e2'; Fin (T + fwhm_to_T f); fl]).
Proof.
  intros (v & u & m1 & m2 & mT & mF & -> & Hv & Hu) (HN & Hc) Hr Hf.
  assert (Hs : shapes_ok [v; u; Fin m1; Fin m2; Fin mT; Fin mF] cov) by (unfold shapes_ok; rewrite HN; cbn; lia).
  destruct (mom_result_full _ cov sn Hs) as (r0 & Hr0 & Es & Ec & Hfl & Htot & HTf & HFf & A1 & A2 & A3 & _ & _ & A4 & A5).
  rewrite Hr in Hr0. injection Hr0 as <-.
  set (t := fwhm_to_T f). assert (Ht : 0 < t) by (apply fwhm_T_pos; exact Hf).
  set (c := fun i j => val (sm_at cov i j)).
  assert (Hcov : forall i j, (i < 6)%nat -> (j < 6)%nat -> sm_at cov i j = Fin (c i j)) by (intros i j Hi Hj; unfold c; destruct (Hc i j Hi Hj) as [x ->]; reflexivity).
  set (sums' := [v; u; Fin m1; Fin m2; Fin (mT + t * mF); Fin mF]).
  set (cov' := mkSmat 6 (xdot_mm (amat t) (xdot_mm (sm_at cov) (fun i j => amat t j i)))).
  assert (Hcov' : forall i j, (i < 6)%nat -> (j < 6)%nat -> sm_at cov' i j = Fin (regc t c i j)) by (intros i j Hi Hj; unfold cov'; cbn [sm_at]; apply reg_cov_fin; assumption).
  assert (Hs' : shapes_ok sums' cov') by (unfold shapes_ok; cbn; lia).
  destruct (mom_result_full sums' cov' None Hs') as (m & Hm & Es' & Ec' & Hfl' & Htot' & HTf' & HFf' & A1' & A2' & A3' & _ & _ & _ & A5').
  assert (ER : regularize_mom_shapes r f = Ok (mkMom (Z.lor (m_flags m) (m_flags r)) (m_flux m) (m_sums m) (m_cov m) (m_sums_norm m)
        (m_flux_flags m) (m_T_flags r) (m_flux_err m) (m_T r) (m_T_err r) (m_s2n m) (m_e1 m) (m_e2 m)
        (m_e_err m) (m_sums_err m) (m_pars m) (m_named m))).
  { unfold regularize_mom_shapes. rewrite Rltb_t by exact Hf. cbn [negb]. rewrite Es, Ec, HN. cbn [length Nat.eqb negb].
    rewrite (reg_sums_fin (fwhm_to_T f) v u m1 m2 mT mF Hv Hu). fold t. fold cov'. fold sums'. rewrite Hm. reflexivity. }
  eexists. split; [exact ER|]. cbn [m_flux m_flux_err m_s2n m_flux_flags m_T m_T_err m_T_flags m_flags m_e1 m_e2 m_pars].
  assert (E55 : sm_at cov' 5 5 = sm_at cov 5 5). { rewrite Hcov', Hcov by lia. f_equal. unfold regc. cbn [Nat.eqb]. ring. }
  assert (EF : flux_flag cov (m_flux_flags m)). { destruct HFf'; constructor; rewrite <- E55; assumption. }
  assert (EFF : m_flux_flags m = m_flux_flags r).
  { destruct EF as [Q|Q]; destruct HFf as [Q'|Q']; try tauto; reflexivity. }
  split; [rewrite Hfl, Hfl'; reflexivity|].
  assert (EE : m_flux_err m = m_flux_err r /\ m_s2n m = m_s2n r).
  { rewrite E55 in A1'. destruct (xgtb (sm_at cov 5 5) (Fin 0)) eqn:P.
    - apply xgtb_pos in P. destruct (A1 P) as [-> ->]. destruct (A1' P) as [-> ->]. split; reflexivity.
    - apply xgtb_npos in P.
      assert (K : m_flux_flags r <> 0%Z) by (inversion HFf; [discriminate|contradiction]).
      destruct (A5 K) as [-> ->]. rewrite EFF in A5'. destruct (A5' K) as [-> ->]. split; reflexivity. }
  destruct EE as [EE1 EE2]. split; [exact EE1|]. split; [exact EE2|]. split; [exact EFF|]. repeat (split; [reflexivity|]).
  split; [exists (m_flags m); reflexivity|]. intros Hz (a & b & cc & K44 & K55 & K45 & K54 & Pa & Pb & Pd).
  rewrite Hz in Htot. destruct (flags_zero _ _ _ Htot) as (D & PF & PT & F1 & F2). cbn [nth] in *.
  assert (TF0 : m_T_flags r = 0%Z) by (apply (T_flag_pos _ _ _ HTf); [apply D; lia|apply D; lia|exact PF]).
  destruct (A2 TF0) as [B3 _]. destruct (A3 D PF PT) as (C1 & C2 & ea & eb & Ga & Gb & Ce & Cp).
  cbn in PF. assert (ET : xdiv (Fin mT) (Fin mF) = Fin (mT / mF)) by (cbn; rewrite Reqb_f by lra; reflexivity). rewrite ET in *. cbn in PT.
  assert (PmT : 0 < mT). { apply Rmult_lt_reg_r with (/ mF); [apply Rinv_0_lt_compat; exact PF|]. rewrite Rmult_0_l. exact PT. }
  assert (N1 : m1 <> 0). { intros ->. rewrite ratio_error_0 in Ga by lra. injection Ga as <-. cbn in Ce. rewrite Ce in F1. destruct F1 as [x F1]. discriminate F1. }
  assert (N2 : m2 <> 0). { intros ->. rewrite ratio_error_0 in Gb by lra. injection Gb as <-. rewrite andb_false_r in Ce. rewrite Ce in F1. destruct F1 as [x F1]. discriminate F1. }
  cbn in C1, C2. rewrite Reqb_f in C1, C2 by lra.
  assert (Pt : 0 < t * mF) by (apply Rmult_lt_0_compat; assumption).
  assert (D' : diag_positive cov').
  { intros i Hi. cbn [sm_n cov'] in Hi. rewrite Hcov' by assumption. cbn [positive]. unfold regc. destruct (Nat.eqb_spec i 4) as [->|Ni].
    - assert (c 4%nat 4%nat = a) as -> by (unfold c; rewrite K44; reflexivity). assert (c 4%nat 5%nat = cc) as -> by (unfold c; rewrite K45; reflexivity).
      assert (c 5%nat 4%nat = cc) as -> by (unfold c; rewrite K54; reflexivity). assert (c 5%nat 5%nat = b) as -> by (unfold c; rewrite K55; reflexivity).
      apply Rmult_lt_reg_l with b; [exact Pb|]. rewrite Rmult_0_r.
      replace (b * (a + t * cc + t * (cc + t * b))) with ((t * b + cc) * (t * b + cc) + (a * b - cc * cc)) by ring.
      assert (0 <= (t * b + cc) * (t * b + cc)) by apply Rle_0_sqr. lra.
    - assert (Q := D i ltac:(lia)). rewrite Hcov in Q by assumption. cbn in Q. lra. }
  destruct (valid_moments sums' cov' None m1 m2 (mT + t * mF) mF Hs') as (m' & Hm' & V1 & V2 & V3 & V4 & V5 & V6 & V7 & V8 & V9 & V10 & V11 & _); try reflexivity; try lra; try assumption.
  { intros i j Hi Hj. rewrite Hcov' by assumption. eexists. reflexivity. }
  rewrite Hm in Hm'. injection Hm' as <-. destruct (V11 N1 N2) as [Z0 _].
  exists (mT / mF), (m1 / mT), (m2 / mT), (m1 / (mT + t * mF)), (m2 / (mT + t * mF)).
  assert (Q1 : forall x, x / (mT + t * mF) * (mT / mF + t) = x / mT * (mT / mF)) by (intros x; field; lra).
  repeat split; auto.
  - rewrite Hz, Z0. reflexivity.
  - intros K. apply N1. apply Rmult_eq_reg_r with (/ mT); [|apply Rinv_neq_0_compat; lra]. rewrite Rmult_0_l. exact K.
  - intros K. apply N2. apply Rmult_eq_reg_r with (/ mT); [|apply Rinv_neq_0_compat; lra]. rewrite Rmult_0_l. exact K.
  - exists v, u, (Fin mF). rewrite V10, V3, V4, V2. cbn [nth sums']. unfold sums'. cbn [nth]. do 5 f_equal. replace ((mT + t * mF) / mF) with (mT / mF + t) by (field; lra). reflexivity.
Qed.

Lemma damped e T t x : 0 < T -> 0 < t -> e <> 0 -> x * (T + t) = e * T -> Rabs x < Rabs e.
Proof.
  intros HT Ht He E. assert (K : Rabs x * (T + t) = Rabs e * T).
  { rewrite <- (Rabs_pos_eq (T + t)) by lra. rewrite <- Rabs_mult, E, Rabs_mult, (Rabs_pos_eq T) by lra. reflexivity. }
  assert (0 < Rabs e) by (apply Rabs_pos_lt; exact He). assert (0 <= Rabs x) by apply Rabs_pos.
  apply Rnot_le_lt. intros L. assert (Rabs e * (T + t) <= Rabs x * (T + t)) by (apply Rmult_le_compat_r; lra). nra.
Qed.
Lemma regularise_nonpos r f : f <= 0 -> regularize_mom_shapes r f = Ok r.
Proof. intros H. unfold regularize_mom_shapes. rewrite Rltb_f by lra. reflexivity. Qed.
Lemma regularise_17 r f : 0 < f -> length (m_sums r) <> 6%nat -> regularize_mom_shapes r f = Raise ValueError.
Proof. intros H N. unfold regularize_mom_shapes. rewrite Rltb_t by exact H. cbn [negb]. apply Nat.eqb_neq in N. rewrite N. reflexivity. Qed.

(** ** samples *)
Lemma eye_diag : diag_positive eye6.
Proof. intros i _. cbn. rewrite Nat.eqb_refl. cbn. lra. Qed.
Lemma eye_nan_diag : diag_positive eye6_nan.
Proof. intros i _. cbn. rewrite Nat.eqb_refl. cbn. lra. Qed.
Lemma eye_finite : forall i j, finite (sm_at eye6 i j).
Proof. intros i j. cbn. destruct (Nat.eqb i j); eexists; reflexivity. Qed.
Lemma eye_shapes m1 m2 : shapes_ok [NaN; NaN; Fin m1; Fin m2; Fin 2; Fin 1] eye6.
Proof. unfold shapes_ok. cbn. lia. Qed.
Lemma eye_TF : TF_block_ok eye6.
Proof. exists 1, 1, 0. cbn. repeat split; try reflexivity; lra. Qed.
Lemma round_flagged : exists r, make_mom_result [Fin 0; Fin 0; Fin 0; Fin 0; Fin 2; Fin 1] eye6 None = Ok r /\ m_flags r = NONPOS_SHAPE_VAR.
Proof.
  destruct (valid_moments [Fin 0; Fin 0; Fin 0; Fin 0; Fin 2; Fin 1] eye6 None 0 0 2 1) as (r & Hr & _ & _ & _ & _ & _ & _ & _ & _ & _ & _ & _ & Z); try reflexivity; try lra.
  - unfold shapes_ok; cbn; lia.
  - intros; apply eye_finite.
  - apply eye_diag.
  - exists r. split; [exact Hr|]. apply Z. left. reflexivity.
Qed.
Lemma good_sample : exists r, make_mom_result [NaN; NaN; Fin 1; Fin 1; Fin 2; Fin 1] eye6 None = Ok r /\ m_flags r = 0%Z.
Proof.
  destruct (valid_moments [NaN; NaN; Fin 1; Fin 1; Fin 2; Fin 1] eye6 None 1 1 2 1) as (r & Hr & _ & _ & _ & _ & _ & _ & _ & _ & _ & _ & Z & _); try reflexivity; try lra.
  - apply eye_shapes.
  - intros; apply eye_finite.
  - apply eye_diag.
  - exists r. split; [exact Hr|]. apply Z; lra.
Qed.
Lemma nan_cov_sample : exists r, make_mom_result [NaN; NaN; Fin 1; Fin 1; Fin 2; Fin 1] eye6_nan None = Ok r /\ m_flags r = 0%Z /\ m_T_flags r = 0%Z /\ m_T_err r = NaN.
Proof.
  assert (Hs : shapes_ok [NaN; NaN; Fin 1; Fin 1; Fin 2; Fin 1] eye6_nan) by (unfold shapes_ok; cbn; lia).
  destruct (mom_result_full _ _ None Hs) as (r & Hr & _ & _ & _ & Htot & _ & _ & _ & _ & A3 & _). exists r. split; [exact Hr|].
  assert (PF : positive (nth 5 [NaN; NaN; Fin 1; Fin 1; Fin 2; Fin 1] NaN)) by (cbn; lra).
  assert (PT : positive (xdiv (nth 4 [NaN; NaN; Fin 1; Fin 1; Fin 2; Fin 1] NaN) (nth 5 [NaN; NaN; Fin 1; Fin 1; Fin 2; Fin 1] NaN))) by (cbn; rewrite Reqb_f by lra; cbn; lra).
  split; [|apply (nan_cov_unnoticed _ _ _ _ Hs Hr); [reflexivity|apply eye_nan_diag|exact PF]].
  destruct (A3 eye_nan_diag PF PT) as (_ & _ & a & b & Ga & Gb & Ce & _). cbn [nth] in *. cbn [eye6_nan sm_at Nat.eqb andb] in Ga, Gb.
  rewrite ratio_error_ok in Ga, Gb by lra. injection Ga as <-. injection Gb as <-. cbn [isfinite andb] in Ce.
  inversion Htot as [Q|Q1 Q2|Q1 Q2 Q3|Q1 Q2 Q3 Q4|]; [destruct (Q eye_nan_diag)|contradiction|contradiction| |reflexivity]. rewrite Ce in Q4. discriminate Q4.
Qed.
Lemma wrong_sizes sums cov sn : length sums <> 6%nat /\ length sums <> 17%nat \/ sm_n cov <> 6%nat /\ sm_n cov <> 17%nat -> make_mom_result sums cov sn = Raise ValueError.
Proof.
  intros H. unfold make_mom_result. rewrite <- !Nat.eqb_neq in H.
  destruct H as [[-> ->]|[A B]]; [reflexivity|]. destruct (negb _ && negb _); [reflexivity|]. rewrite A, B. reflexivity.
Qed.
Lemma named_in sums cov sn r name ind : shapes_ok sums cov -> make_mom_result sums cov sn = Ok r -> In (name, ind) MOMENTS_NAME_MAP ->
  (exists err, In (name, (named_value sums ind, err)) (m_named r)) <-> (ind < length sums)%nat.
Proof.
  intros Hs Hr Hin. destruct (mom_result_full sums cov sn Hs) as (r' & Hr' & _ & _ & _ & _ & _ & _ & _ & _ & _ & EN & _). rewrite Hr in Hr'. injection Hr' as <-. rewrite EN.
  split.
  - intros [err K]. apply in_flat_map in K. destruct K as ([n i] & Hni & K). cbn [fst snd] in K. destruct (Nat.ltb_spec i (length sums)) as [L|L]; [|destruct K].
    destruct K as [K|[]]. injection K as En _ _. subst n.
    enough (i = ind) by (subst; exact L).
    clear - Hin Hni. unfold MOMENTS_NAME_MAP in *. cbn [In] in *.
    repeat (destruct Hin as [Hin|Hin]; [injection Hin; intros; subst; clear Hin; repeat (destruct Hni as [Hni|Hni]; [injection Hni; intros; congruence|]); destruct Hni|]). destruct Hin.
  - intros L. eexists. apply in_flat_map. exists (name, ind). split; [exact Hin|]. cbn [fst snd]. apply Nat.ltb_lt in L. rewrite L. left. reflexivity.
Qed.
Lemma reg_flags_kept sums cov sn r f : six_sums sums -> finite_cov cov -> make_mom_result sums cov sn = Ok r -> 0 < f ->
  exists r', regularize_mom_shapes r f = Ok r' /\
    m_flux r' = m_flux r /\ m_flux_err r' = m_flux_err r /\ m_s2n r' = m_s2n r /\ m_flux_flags r' = m_flux_flags r /\
    m_T r' = m_T r /\ m_T_err r' = m_T_err r /\ m_T_flags r' = m_T_flags r /\
    (m_flags r' = 0%Z -> m_flags r = 0%Z).
Proof.
  intros A B C D. destruct (regularised sums cov sn r f A B C D) as (r' & H & H1 & H2 & H3 & H4 & H5 & H6 & H7 & [fl E] & _). exists r'.
  repeat (split; [assumption|]). intros K. rewrite E in K. apply Z.lor_eq_0_iff in K. apply K.
Qed.
Lemma reg_damps sums cov sn r f : six_sums sums -> finite_cov cov -> TF_block_ok cov -> make_mom_result sums cov sn = Ok r -> 0 < f -> m_flags r = 0%Z ->
  exists r' T e1 e2 e1' e2', regularize_mom_shapes r f = Ok r' /\ m_flags r' = 0%Z /\
    m_T r' = Fin T /\ m_e1 r = Fin e1 /\ m_e2 r = Fin e2 /\ m_e1 r' = Fin e1' /\ m_e2 r' = Fin e2' /\
    Rabs e1' < Rabs e1 /\ Rabs e2' < Rabs e2 /\ e1' * (T + fwhm_to_T f) = e1 * T /\ e2' * (T + fwhm_to_T f) = e2 * T.
Proof.
  intros A B TB C D Z. destruct (regularised sums cov sn r f A B C D) as (r' & H & H1 & H2 & H3 & H4 & H5 & H6 & H7 & _ & K).
  destruct (K Z TB) as (T & e1 & e2 & e1' & e2' & K1 & K2 & K3 & K4 & K5 & K6 & K7 & K8 & K9 & K10 & K11 & _).
  exists r', T, e1, e2, e1', e2'. repeat split; auto; [congruence| |].
  - apply (damped e1 T (fwhm_to_T f) e1'); auto. apply fwhm_T_pos, D.
  - apply (damped e2 T (fwhm_to_T f) e2'); auto. apply fwhm_T_pos, D.
Qed.
Lemma reg_pars_size sums cov sn r f : six_sums sums -> finite_cov cov -> TF_block_ok cov -> make_mom_result sums cov sn = Ok r -> 0 < f -> m_flags r = 0%Z ->
  exists r' T v u a b fl, regularize_mom_shapes r f = Ok r' /\ m_T r' = Fin T /\ m_T r = Fin T /\
    m_pars r' = Some [v; u; a; b; Fin (T + fwhm_to_T f); fl] /\ T + fwhm_to_T f <> T.
Proof.
  intros A B TB C D Z. destruct (regularised sums cov sn r f A B C D) as (r' & H & H1 & H2 & H3 & H4 & H5 & H6 & H7 & _ & K).
  destruct (K Z TB) as (T & e1 & e2 & e1' & e2' & K1 & K2 & K3 & K4 & K5 & K6 & K7 & K8 & K9 & K10 & K11 & v & u & fl & K12).
  exists r', T, v, u, (Fin e1'), (Fin e2'), fl. repeat split; auto; [congruence|]. assert (P := fwhm_T_pos f D). lra.
Qed.
Lemma reg_sample : six_sums [NaN; NaN; Fin 1; Fin 1; Fin 2; Fin 1] /\ finite_cov eye6.
Proof.
  split; [exists NaN, NaN, 1, 1, 2, 1; repeat split|]. split; [reflexivity|]. intros; apply eye_finite.
Qed.
