From Verif Require Import Base XReal Pixels_Model Priors_Model Priors_Spec Priors_Proofs PriorSample_Model PriorSample_Spec PriorSample_Proofs Joint_Model Joint_Spec Joint_Proofs
  Guessers_Model Guessers_Spec Guessers_Proofs.
Local Open Scope R_scope.

(** ** The separable priors of the library only draw what they allow *)
Definition sep_lnprob (cen : cenprior) (g : p2obj) (ps : list p1obj) (pars : list xr) : res xr :=
  add_terms ([on2 (fun x y => Ok (cen_lnprob_scalar cen x y)) pars 0 1; on2 (p2_lnprob g) pars 2 3] ++ enum_from (fun p i => on1 (p1_lnprob p) pars i) 4 ps).
Lemma enum_cons {A B} (f : A -> nat -> B) a l start : enum_from f start (a :: l) = f a start :: enum_from f (S start) l.
Proof.
  unfold enum_from. cbn [length seq combine map fst snd]. rewrite Nat.add_0_r. f_equal. rewrite <- seq_shift. generalize (seq 0 (length l)) as s. induction l as [|b l IH]; intros [|i s]; cbn [combine map]; try reflexivity.
  cbn [fst snd]. f_equal; [f_equal; lia|apply IH].
Qed.
Lemma simple_sep P pars : simple_lnprob P pars = sep_lnprob (ss_cen P) (ss_g P) ([ss_T P] ++ ss_F P) pars.
Proof. unfold simple_lnprob, sep_lnprob. cbn [app]. rewrite enum_cons. reflexivity. Qed.
Lemma bdf_sep P pars : bdf_lnprob P pars = sep_lnprob (bf_cen P) (bf_g P) ([bf_T P; bf_fracdev P] ++ bf_F P) pars.
Proof. unfold bdf_lnprob, sep_lnprob. cbn [app]. rewrite !enum_cons. reflexivity. Qed.
Lemma bd_sep P pars : bd_lnprob P pars = sep_lnprob (bd_cen P) (bd_g P) ([bd_T P; bd_logTratio P; bd_fracdev P] ++ bd_F P) pars.
Proof. unfold bd_lnprob, sep_lnprob. cbn [app]. rewrite !enum_cons. reflexivity. Qed.
Lemma spergel_sep P pars : spergel_lnprob P pars = sep_lnprob (sp_cen P) (sp_g P) ([sp_r50 P; sp_nu P] ++ sp_F P) pars.
Proof. unfold spergel_lnprob, sep_lnprob. cbn [app]. rewrite !enum_cons. reflexivity. Qed.

(** sums *)
Definition low (v : xr) : Prop := v = NInf \/ exists r, v = Fin r.
Definition clean_term (t : res xr) : Prop := forall v, t = Ok v -> low v.
Lemma fold_low vs : forall v, low v -> Forall low vs -> low (fold_left xadd vs v) /\ ((exists r, fold_left xadd vs v = Fin r) <-> (exists r, v = Fin r) /\ Forall (fun u => exists r, u = Fin r) vs).
Proof.
  induction vs as [|u vs IH]; intros v Hv Hs; cbn [fold_left].
  - split; [exact Hv|]. split; [intros H; auto|intros [H _]; exact H].
  - inversion Hs as [|? ? Hu Hs']; subst. assert (Hl : low (xadd v u)). { destruct Hv as [->|[r ->]], Hu as [->|[q ->]]; cbn; [left|left|left|right]; eauto. }
    destruct (IH (xadd v u) Hl Hs') as [A B]. split; [exact A|]. rewrite B. split.
    + intros [[r Hr] F]. destruct Hv as [->|[a ->]], Hu as [->|[b ->]]; cbn in Hr; try discriminate. eauto.
    + intros [[r ->] F]. inversion F as [|? ? [q ->] F']; subst. cbn. eauto.
Qed.
Lemma add_low t ts : Forall clean_term (t :: ts) -> clean_term (add_terms (t :: ts)) /\ ((exists r, add_terms (t :: ts) = Ok (Fin r)) <-> Forall (fun t => exists r, t = Ok (Fin r)) (t :: ts)).
Proof.
  intros H. unfold add_terms.
  assert (A : forall l, Forall clean_term l -> (exists e, mapM (fun t : res xr => t) l = Raise e /\ ~ Forall (fun t => exists r, t = Ok (Fin r)) l) \/
     (exists vs, mapM (fun t => t) l = Ok vs /\ length vs = length l /\ Forall low vs /\ (Forall (fun u => exists r, u = Fin r) vs <-> Forall (fun t => exists r, t = Ok (Fin r)) l))).
  { clear. induction 1 as [|t l Ht _ IH]; [right; exists []; split; [reflexivity|]; split; [reflexivity|]; split; [constructor|split; constructor]|]. cbn [mapM]. destruct t as [v|e]; cbn [bind].
    - destruct IH as [(e & -> & N)|(vs & -> & L & Fl & I)]; cbn [bind].
      + left. exists e. split; [reflexivity|]. intros K. inversion K; subst. contradiction.
      + right. exists (v :: vs). split; [reflexivity|]. split; [cbn; congruence|]. split; [constructor; [apply Ht; reflexivity|exact Fl]|]. split; intros K; inversion K as [|? ? [r Hr] K']; subst.
        * constructor; [eauto|apply I; exact K'].
        * constructor; [injection Hr as ->; eauto|apply I; exact K'].
    - left. exists e. split; [reflexivity|]. intros K. inversion K as [|? ? [r Hr] _]; subst. discriminate. }
  destruct (A _ H) as [(e & -> & N)|(vs & -> & L & Fl & I)]; cbn [bind].
  - split; [intros v K; discriminate|]. split; [intros [r K]; discriminate|contradiction].
  - destruct vs as [|v vs]; [discriminate|]. inversion Fl as [|? ? Fv Fs]; subst. destruct (fold_low vs v Fv Fs) as [B C]. split; [intros u [= <-]; exact B|]. rewrite <- I. split.
    + intros [r [= K]]. destruct C as [C _]. destruct C as [C1 C2]; [eauto|]. constructor; assumption.
    + intros K. inversion K as [|? ? K1 K2]; subst. destruct C as [_ C]. destruct C as [r Hr]; [split; assumption|]. exists r. congruence.
Qed.

Section Sep.
Variable W : Type.
Variables (cen : cenprior) (g : p2obj) (ps : list p1obj).
Variables (lnprob : list xr -> res xr) (scen sg : sampler2 W) (mid Fs : list (sampler1 W)).
Hypothesis Hln : forall pars, lnprob pars = sep_lnprob cen g ps pars.
Hypothesis Cg : clean2 g.
Hypothesis Cp : Forall clean1 ps.
Local Notation P := (sep_jp lnprob scen sg mid Fs).
Lemma cen_fin x y : exists r, cen_lnprob_scalar cen (Fin x) (Fin y) = Fin r.
Proof. unfold cen_lnprob_scalar. cbn. eexists. reflexivity. Qed.
Lemma item_fin pars i : Joint_Model.item (map Fin pars) i = match nth_error pars i with Some x => Ok (Fin x) | None => Raise IndexError end.
Proof. unfold Joint_Model.item. rewrite nth_error_map. destruct (nth_error pars i); reflexivity. Qed.
Lemma enum_clean pars l : Forall clean1 l -> forall k, Forall clean_term (enum_from (fun p i => on1 (p1_lnprob p) (map Fin pars) i) k l).
Proof.
  induction 1 as [|p l Hp _ IH]; intros k; [constructor|]. rewrite enum_cons. constructor; [|apply IH].
  intros v. unfold on1. rewrite item_fin. destruct (nth_error pars k) as [x|]; cbn [bind]; [|discriminate]. apply Hp.
Qed.
Lemma terms_clean pars : Forall clean_term ([on2 (fun x y => Ok (cen_lnprob_scalar cen x y)) (map Fin pars) 0 1; on2 (p2_lnprob g) (map Fin pars) 2 3] ++ enum_from (fun p i => on1 (p1_lnprob p) (map Fin pars) i) 4 ps).
Proof.
  cbn [app]. constructor; [|constructor].
  - intros v. unfold on2. rewrite !item_fin. destruct (nth_error pars 0) as [x|]; cbn [bind]; [|discriminate]. destruct (nth_error pars 1) as [y|]; cbn [bind]; [|discriminate]. intros [= <-]. right. apply cen_fin.
  - intros v. unfold on2. rewrite !item_fin. destruct (nth_error pars 2) as [x|]; cbn [bind]; [|discriminate]. destruct (nth_error pars 3) as [y|]; cbn [bind]; [|discriminate]. apply Cg.
  - apply enum_clean. exact Cp.
Qed.
Definition fits (pars : list R) : Prop := (exists x0 x1 x2 x3, nth_error pars 0 = Some x0 /\ nth_error pars 1 = Some x1 /\ nth_error pars 2 = Some x2 /\ nth_error pars 3 = Some x3 /\ possible2 g x2 x3) /\
  forall i p, nth_error ps i = Some p -> exists x, nth_error pars (4 + i) = Some x /\ possible1 p x.
Lemma enum_terms pars : forall k l, Forall (fun t => exists r, t = Ok (Fin r)) (enum_from (fun p i => on1 (p1_lnprob p) (map Fin pars) i) k l) <->
  forall i p, nth_error l i = Some p -> exists x, nth_error pars (k + i) = Some x /\ possible1 p x.
Proof.
  intros k l. revert k. induction l as [|q l IH]; intros k; [split; [intros _ [|i] p; discriminate|constructor]|]. rewrite enum_cons. split.
  - intros F. inversion F as [|? ? [r Hr] F']; subst. intros [|i] p E.
    + cbn in E. injection E as <-. rewrite Nat.add_0_r. unfold on1 in Hr. rewrite item_fin in Hr. destruct (nth_error pars k) as [x|]; cbn [bind] in Hr; [|discriminate]. exists x. split; [reflexivity|]. exists r. exact Hr.
    + cbn in E. replace (k + S i)%nat with (S k + i)%nat by lia. apply (proj1 (IH (S k)) F' i p E).
  - intros H. constructor.
    + destruct (H 0%nat q eq_refl) as (x & E & r & Hr). rewrite Nat.add_0_r in E. exists r. unfold on1. rewrite item_fin, E. exact Hr.
    + apply IH. intros i p E. replace (S k + i)%nat with (k + S i)%nat by lia. apply H. exact E.
Qed.
Lemma allowed_fits pars : allowed P pars <-> fits pars.
Proof.
  assert (A : allowed P pars <-> exists r, sep_lnprob cen g ps (map Fin pars) = Ok (Fin r)).
  { unfold allowed. cbn [sep_jp jp_lnprob]. rewrite Hln. destruct (add_low _ _ (terms_clean pars)) as [B _]. fold (sep_lnprob cen g ps (map Fin pars)) in B. split.
    - intros (v & E & L). destruct (B v E) as [->|[r ->]]; [discriminate|eauto].
    - intros (r & E). exists (Fin r). split; [exact E|reflexivity]. }
  rewrite A. destruct (add_low _ _ (terms_clean pars)) as [_ B]. fold (sep_lnprob cen g ps (map Fin pars)) in B. change (_ ++ enum_from _ 4 ps) with ([on2 (fun x y => Ok (cen_lnprob_scalar cen x y)) (map Fin pars) 0 1; on2 (p2_lnprob g) (map Fin pars) 2 3] ++ enum_from (fun p i => on1 (p1_lnprob p) (map Fin pars) i) 4 ps) in B.
  unfold sep_lnprob at 1. cbn [app] in *. rewrite B. unfold fits. split.
  - intros F. inversion F as [|? ? [r0 H0] F1]; subst. inversion F1 as [|? ? [r1 H1] F2]; subst. split; [|apply (enum_terms pars 4 ps); exact F2].
    unfold on2 in H0, H1. rewrite !item_fin in H0, H1. destruct (nth_error pars 0) as [x0|]; cbn [bind] in H0; [|discriminate]. destruct (nth_error pars 1) as [x1|]; cbn [bind] in H0; [|discriminate].
    destruct (nth_error pars 2) as [x2|]; cbn [bind] in H1; [|discriminate]. destruct (nth_error pars 3) as [x3|]; cbn [bind] in H1; [|discriminate]. exists x0, x1, x2, x3. repeat (split; [reflexivity|]). exists r1. exact H1.
  - intros [(x0 & x1 & x2 & x3 & E0 & E1 & E2 & E3 & r & Hr) H]. constructor; [|constructor; [|apply (enum_terms pars 4 ps); exact H]].
    + destruct (cen_fin x0 x1) as [r' Hr']. exists r'. unfold on2. rewrite !item_fin, E0, E1. cbn [bind]. rewrite Hr'. reflexivity.
    + exists r. unfold on2. rewrite !item_fin, E2, E3. exact Hr.
Qed.
Lemma sep_proper : proper P.
Proof.
  intros pars. cbn [sep_jp jp_lnprob]. rewrite Hln. destruct (add_low _ _ (terms_clean pars)) as [B _]. intros K. destruct (B NaN K) as [E|[r E]]; discriminate.
Qed.
Lemma sep_separable : separable P.
Proof.
  intros a b L. rewrite !allowed_fits. intros [(x0 & x1 & x2 & x3 & E0 & E1 & E2 & E3 & Hg) _] [_ Hb]. assert (La : (4 <= length a)%nat).
  { assert (K : nth_error a 3 <> None) by congruence. apply nth_error_Some in K. lia. }
  assert (Lf : length (firstn 4 a) = 4%nat) by (rewrite firstn_length; lia).
  split.
  - exists x0, x1, x2, x3. destruct a as [|a0 [|a1 [|a2 [|a3 a]]]]; try (cbn in La; lia). cbn in *. auto.
  - intros i p E. destruct (Hb i p E) as (x & Ex & Px). exists x. split; [|exact Px]. rewrite nth_error_app2 by lia. rewrite Lf. replace (4 + i - 4)%nat with i by lia.
    destruct b as [|b0 [|b1 [|b2 [|b3 b]]]]; try (cbn in L; lia). exact Ex.
Qed.
Hypothesis Dc : draws_pairs scen.
Hypothesis Dg : draws2 g sg.
Hypothesis Dp : Forall2 draws1 ps (mid ++ Fs).
Lemma drawn_possible : forall qs ss w n vs w', Forall2 (@draws1 W) qs ss -> drawn ss w n vs w' -> Forall2 (fun p v => length v = n /\ Forall (possible1 p) v) qs vs.
Proof.
  induction qs as [|q qs IH]; intros ss w n vs w' H D; inversion H as [|? s0 ? ss0 Hq Hs]; subst; destruct vs as [|v vs]; cbn [drawn] in D; try contradiction; [constructor|].
  destruct D as (w1 & E & D). constructor; [|eapply IH; eassumption]. destruct (Hq w n) as [A B]. rewrite E in A, B. auto.
Qed.
Lemma sep_draws : draws_allowed P.
Proof.
  intros row (w & n & w' & m & r & E & Hr & ->). cbn [sep_jp jp_sample] in E. assert (S0 := sep_sample_ok W scen sg mid Fs w n). destruct (sep_sample scen sg mid Fs w n) as [w0 m0]. injection E as <- <-.
  destruct S0 as (w1 & c1 & c2 & w2 & g1 & g2 & vs & E1 & E2 & D & Nr & Nc & At). cbn [fst snd] in *.
  destruct (Dc w n) as [L1 L2]. rewrite E1 in L1, L2. destruct (Dg w1 n) as (L3 & L4 & Pg). rewrite E2 in L3, L4, Pg. cbn [fst snd] in *.
  assert (F := drawn_possible _ _ _ _ _ _ Dp D). assert (Ln := Forall2_length F). assert (Lm := Forall2_length Dp). rewrite Nr in Hr.
  assert (V : forall c, (c < 4 + length (mid ++ Fs))%nat -> nth_error (map (fun c => at2 m0 r c) (seq 0 (ncol m0))) c = Some (nth r (nth c (c1 :: c2 :: g1 :: g2 :: vs) []) 0)).
  { intros c Hc. rewrite nth_error_map. rewrite Nc. assert (Es : nth_error (seq 0 (4 + length (mid ++ Fs))) c = Some c).
    { rewrite (nth_error_nth' _ 0%nat) by (rewrite seq_length; exact Hc). rewrite seq_nth by exact Hc. reflexivity. }
    rewrite Es. cbn [option_map]. f_equal. apply At; assumption. }
  apply allowed_fits. split.
  - exists (nth r c1 0), (nth r c2 0), (nth r g1 0), (nth r g2 0). split; [apply (V 0%nat); lia|]. split; [apply (V 1%nat); lia|]. split; [apply (V 2%nat); lia|]. split; [apply (V 3%nat); lia|]. apply Pg. exact Hr.
  - intros i p Ei. assert (Hi : (i < length ps)%nat) by (apply nth_error_Some; congruence). exists (nth r (nth i vs []) 0). split; [apply (V (4 + i)%nat); lia|].
    assert (K : exists v, nth_error vs i = Some v /\ length v = n /\ Forall (possible1 p) v).
    { clear - F Ei. revert i Ei. induction F as [|q v qs vs Hq F IH]; intros [|i] E; try discriminate; cbn in E; [injection E as <-; exists v; auto|]. apply IH. exact E. }
    destruct K as (v & Ev & Lv & Fv). rewrite (nth_error_nth _ _ _ Ev). rewrite Forall_forall in Fv. apply Fv, nth_In. lia.
Qed.
End Sep.

(** ** Library priors of one parameter *)
Lemma flat_clean p : clean1 (flat_obj p).
Proof. intros x v. cbn. unfold flat_lnprob_scalar. destruct (flat_out p (Fin x)); [discriminate|]. intros [= <-]. right. eauto. Qed.
Lemma flat_draws {W} (G : rng W) p : good_rng G -> fl_min p <= fl_max p -> draws1 (flat_obj p) (flat_sample G p).
Proof.
  intros HG Hp w n. unfold flat_sample. assert (L := proj1 HG w 0 1 n). assert (B := proj2 (proj2 HG) w 0 1 n ltac:(lra)). destruct (uniform G w 0 1 n) as [w' u]. cbn [snd] in *.
  split; [rewrite map_length; exact L|]. apply Forall_forall. intros x Hx. apply in_map_iff in Hx. destruct Hx as (v & <- & Hv). rewrite Forall_forall in B. specialize (B v Hv). exists 0.
  cbn. unfold flat_lnprob_scalar, flat_out. cbn. rewrite !Rltb_f by nra. reflexivity.
Qed.
Lemma zdisk_clean r : clean2 (zdisk_obj (zdisk_init r)).
Proof. intros x y v. cbn. unfold zdisk_lnprob_scalar2d. destruct (xgeb _ _); [discriminate|]. intros [= <-]. right. eauto. Qed.
Lemma combine_nth_in (a b : list R) i : (i < length a)%nat -> (i < length b)%nat -> In (nth i a 0, nth i b 0) (combine a b).
Proof.
  revert b i. induction a as [|x a IH]; intros [|y b] [|i]; cbn; intros; try lia; [left; reflexivity|right; apply IH; lia].
Qed.
Lemma zdisk_draws {W} (G : rng W) r : good_rng G -> r <> 0 -> draws2 (zdisk_obj (zdisk_init r)) (zdisk_sample2d G (zdisk_init r)).
Proof.
  intros HG Hr w n. destruct (zdisk2d_values W G HG r Hr w n) as (L1 & L2 & V). split; [exact L1|]. split; [exact L2|]. intros i Hi.
  rewrite Forall_forall in V. specialize (V _ (combine_nth_in _ _ i ltac:(rewrite L1; exact Hi) ltac:(rewrite L2; exact Hi))). cbn [fst snd] in V. exists 0. cbn [zdisk_obj p2_lnprob]. unfold zdisk_lnprob_scalar2d, xsq.
  cbn [xmul xadd xgeb xleb zdisk_init zd_radius_sq]. rewrite Rleb_f; [reflexivity|]. lra.
Qed.
Lemma cen_draws {W} (G : rng W) p : good_rng G -> draws_pairs (cen_sample G p).
Proof.
  intros HG w n. unfold cen_sample. assert (A := proj1 (proj2 HG) w (ce_cen1 p) (ce_sigma1 p) n). destruct (rnormal G w _ _ n) as [w1 a].
  assert (B := proj1 (proj2 HG) w1 (ce_cen2 p) (ce_sigma2 p) n). destruct (rnormal G w1 _ _ n) as [w2 b]. cbn [fst snd] in *. auto.
Qed.
Lemma normal_clean p : clean1 (normal_obj p).
Proof. intros x v. cbn. intros [= <-]. right. unfold normal_lnprob. cbn. eexists. reflexivity. Qed.
Lemma normal_draws {W} (G : rng W) p : good_rng G -> draws1 (normal_obj p) (normal_sample G p).
Proof.
  intros HG w n. split; [apply (proj1 (proj2 HG))|]. apply Forall_forall. intros x _. unfold possible1. cbn [normal_obj p1_lnprob]. unfold normal_lnprob. cbn. eexists. reflexivity.
Qed.
Lemma lognormal_ok {W} (G : rng W) m s sh p : good_rng G -> s <> 0 -> lognormal_init m s sh = Ok p -> clean1 (lognormal_obj p) /\ draws1 (lognormal_obj p) (lognormal_sample G p).
Proof.
  intros HG Hs Hp. assert (Hsh := init_shift m s sh p Hp).
  assert (K : forall x, shift_of sh < x -> lognormal_lnprob_scalar p (Fin x) = Ok (Fin (- (ln (x - shift_of sh) - lg_logmode p) ^ 2 / (2 * lg_logvar p)))).
  { intros x Hx. unfold lognormal_lnprob_scalar. rewrite Hsh, apply_shift_fin. cbn [xleb]. rewrite Rleb_f by lra. rewrite (lognormal_value_fin m s sh p _ Hs Hp) by lra. reflexivity. }
  split.
  - intros x v. cbn. destruct (Rlt_dec (shift_of sh) x) as [H|H].
    + rewrite (K x H). intros [= <-]. right. eauto.
    + unfold lognormal_lnprob_scalar. rewrite Hsh, apply_shift_fin. cbn [xleb]. rewrite Rleb_t by lra. discriminate.
  - intros w n. destruct (lognormal_values W G HG p w n) as [L F]. rewrite Hsh in F. split; [exact L|]. eapply Forall_impl; [|exact F]. intros x Hx. eexists. cbn. apply K. exact Hx.
Qed.
(** with the priors of the library *)
Lemma lib_priors {W} (lnprob : list xr -> res xr) cen g ps (scen sg : sampler2 W) mid Fs : (forall pars, lnprob pars = sep_lnprob cen g ps pars) ->
  clean2 g -> Forall clean1 ps -> draws_pairs scen -> draws2 g sg -> Forall2 draws1 ps (mid ++ Fs) ->
  let P := sep_jp lnprob scen sg mid Fs in proper P /\ draws_allowed P /\ separable P.
Proof.
  intros H1 H2 H3 H4 H5 H6. split; [exact (sep_proper W cen g ps lnprob scen sg mid Fs H1 H2 H3)|]. split; [exact (sep_draws W cen g ps lnprob scen sg mid Fs H1 H2 H3 H4 H5 H6)|exact (sep_separable W cen g ps lnprob scen sg mid Fs H1 H2 H3)].
Qed.
