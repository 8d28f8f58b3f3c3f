(** Proofs about the MEDS readers. *)
From Verif Require Import Base XReal Jacobian_Model Pixels_Model Meds_Model Meds_Spec.
From Verif Require Pixels_Proofs.
From Coq Require Import Sorted String.
Local Open Scope R_scope.

Lemma positive_spec x : xltb (Fin 0) x = true <-> positive x.
Proof. destruct x; cbn; try rewrite Rltb_true; split; auto; try discriminate; contradiction. Qed.

(** ** making the pixels *)
Lemma foldM_never {A S} (f : S -> A -> res S) e l s : (forall s a, f s a <> Raise e) -> foldM f l s <> Raise e.
Proof.
  intros H. revert s. induction l as [|a l IH]; intros s; cbn; [discriminate|].
  specialize (H s a). destruct (f s a) as [s'|e'] eqn:E; cbn; [apply IH|congruence].
Qed.
Lemma fill_never gt0 le0 lt0 z sq px im wt j ign : fill_pixels xr le0 lt0 z sq px im wt j ign <> Raise GMixFatalError /\ gt0 = gt0 :> (xr -> bool).
Proof.
  split; [|reflexivity]. unfold fill_pixels.
  destruct (foldM _ _ _) as [[p n]|e] eqn:E; cbn.
  - destruct (Nat.eqb _ _); discriminate.
  - intros H. inversion H; subst e. revert E. apply foldM_never. intros s r. apply foldM_never. intros [p n] c. unfold fill_body.
    destruct (ign && le0 (at2 wt r c)); [discriminate|]. destruct (get_vu j (INR r) (INR c)) as [v u]. unfold put.
    destruct (Nat.ltb n (Datatypes.length p)); discriminate.
Qed.
Lemma count_ge {A} (f : A -> bool) l n : (n <= fold_left (fun n a => if f a then S n else n) l n)%nat.
Proof.
  revert n. induction l as [|a l IH]; intros n; cbn [fold_left]; [lia|]. destruct (f a); [|apply IH]. specialize (IH (S n)). lia.
Qed.
Lemma count_zero_row (f : nat -> bool) l n : fold_left (fun n a => if f a then S n else n) l n = n <-> forall a, In a l -> f a = false.
Proof.
  revert n. induction l as [|a l IH]; intros n; cbn [fold_left]; [split; [intros _ b []|reflexivity]|].
  split.
  - intros H b [<-|Hb].
    + destruct (f a) eqn:E; [|reflexivity]. pose proof (count_ge f l (S n)). lia.
    + destruct (f a) eqn:E; [pose proof (count_ge f l (S n)); lia|]. apply (IH n); auto.
  - intros H. rewrite (H a) by (left; reflexivity). apply IH. intros b Hb. apply H. right. exact Hb.
Qed.
Lemma count_gt0_zero gt0 (wt : arr2 xr) : count_gt0 xr gt0 wt = 0%nat <->
  forall r c, (r < nrow wt)%nat -> (c < ncol wt)%nat -> gt0 (at2 wt r c) = false.
Proof.
  unfold count_gt0.
  assert (forall l n, fold_left (fun n row => fold_left (fun n col => if gt0 (at2 wt row col) then S n else n) (seq 0 (ncol wt)) n) l n = n <->
    forall r, In r l -> forall c, In c (seq 0 (ncol wt)) -> gt0 (at2 wt r c) = false) as G.
  { assert (forall l n, (n <= fold_left (fun n row => fold_left (fun n col => if gt0 (at2 wt row col) then S n else n) (seq 0 (ncol wt)) n) l n)%nat) as GE.
    { induction l as [|r l IH]; intros n; cbn [fold_left]; [lia|].
      pose proof (count_ge (fun c => gt0 (at2 wt r c)) (seq 0 (ncol wt)) n) as H. cbv beta in H.
      eapply Nat.le_trans; [exact H|]. apply IH. }
    induction l as [|r l IH]; intros n; cbn [fold_left]; [split; [intros _ r []|reflexivity]|].
    split.
    - intros H.
      assert (fold_left (fun n col => if gt0 (at2 wt r col) then S n else n) (seq 0 (ncol wt)) n = n) as HR.
      { pose proof (count_ge (fun c => gt0 (at2 wt r c)) (seq 0 (ncol wt)) n) as H1. cbv beta in H1.
        pose proof (GE l (fold_left (fun n col => if gt0 (at2 wt r col) then S n else n) (seq 0 (ncol wt)) n)) as H2. lia. }
      rewrite HR in H. intros r' [<-|Hr']; [apply (count_zero_row (fun c => gt0 (at2 wt r c))) with (n := n); exact HR|].
      apply (IH n); auto.
    - intros H. rewrite (proj2 (count_zero_row (fun c => gt0 (at2 wt r c)) (seq 0 (ncol wt)) n)) by (intros c Hc; apply H; [left; reflexivity|exact Hc]).
      apply IH. intros r' Hr'. apply H. right. exact Hr'. }
  rewrite G. split; intros H r.
  - intros c Hr Hc. apply H; apply in_seq; lia.
  - intros Hr c Hc. apply in_seq in Hr. apply in_seq in Hc. apply H; lia.
Qed.
Lemma pixels_fatal im wt j : make_pixels_x im wt j true = Raise GMixFatalError <-> ~ some_positive wt.
Proof.
  unfold make_pixels_x, make_pixels_gen.
  assert (count_gt0 xr (xltb (Fin 0)) wt = 0%nat <-> ~ some_positive wt) as H.
  { rewrite count_gt0_zero. split.
    - intros H [r [c [Hr [Hc HP]]]]. apply positive_spec in HP. rewrite H in HP by assumption. discriminate.
    - intros H r c Hr Hc. destruct (xltb (Fin 0) (at2 wt r c)) eqn:E; [|reflexivity]. exfalso. apply H. exists r, c.
      apply positive_spec in E. auto. }
  rewrite <- H. destruct (Nat.eqb_spec (count_gt0 xr (xltb (Fin 0)) wt) 0) as [E|E]; cbn [bind].
  - tauto.
  - split; [|tauto]. intros HF. exfalso.
    apply (proj1 (fill_never (fun _ => true) (fun w => xleb w (Fin 0)) (fun w => xltb w (Fin 0)) (Fin 0) xsqrt _ im wt j true)) in HF. exact HF.
Qed.
Lemma pixels_ok im wt j : same_shape wt im = true -> no_nan wt -> some_positive wt -> exists l, make_pixels_x im wt j true = Ok l.
Proof.
  intros HS HN HP. unfold same_shape in HS. apply andb_true_iff in HS. destruct HS as [H1 H2]. apply Nat.eqb_eq in H1. apply Nat.eqb_eq in H2.
  destruct (Pixels_Proofs.make_pixels_x_spec im wt j H1 H2) as [[HF _]|[idx [l [HL _]]]].
  - intros [r c] [Hr Hc]. cbn in *. apply HN; lia.
  - apply pixels_fatal in HF. contradiction.
  - eauto.
Qed.
Lemma check_pixels_fatal im wt j : check_pixels im wt j = Raise GMixFatalError <-> same_shape wt im = true /\ ~ some_positive wt.
Proof.
  unfold check_pixels. destruct (same_shape wt im).
  - set (z := mkArr _ _ _). pose proof (pixels_fatal z wt j) as H. destruct (make_pixels_x z wt j true) as [l|e]; cbn.
    + split; [discriminate|]. intros [_ HP]. apply H in HP. discriminate.
    + split.
      * intros E. split; [reflexivity|]. apply H. congruence.
      * intros [_ HP]. apply H in HP. congruence.
  - split; [discriminate|]. intros [H _]. discriminate.
Qed.
Lemma check_opt_never im x : check_opt im x <> Raise GMixFatalError.
Proof. destruct x as [x|]; cbn; [destruct (same_shape x im); discriminate|discriminate]. Qed.
Lemma new_obs_fatal im wt b o n d j p f : new_obs im wt b o n d j p f = Raise GMixFatalError <-> same_shape wt im = true /\ ~ some_positive wt.
Proof.
  rewrite <- (check_pixels_fatal im wt j). unfold new_obs. destruct (check_pixels im wt j) as [u|e]; cbn [bind]; [|split; congruence].
  split; [|discriminate]. intros H.
  pose proof (check_opt_never im b). pose proof (check_opt_never im o). pose proof (check_opt_never im n). pose proof (check_opt_never im f).
  destruct (check_opt im b) as [|e1]; cbn [bind] in H; [|congruence].
  destruct (check_opt im o) as [|e2]; cbn [bind] in H; [|congruence].
  destruct (check_opt im n) as [|e3]; cbn [bind] in H; [|congruence].
  destruct (check_opt im f) as [|e4]; cbn [bind] in H; [discriminate|congruence].
Qed.

(** ** the loop *)
Lemma sorted_snoc idx n : StronglySorted lt idx -> (forall i, In i idx -> (i < n)%nat) -> StronglySorted lt (idx ++ [n]).
Proof.
  induction idx as [|a idx IH]; intros HS HL; cbn; [constructor; constructor|].
  inversion HS; subst. constructor.
  - apply IH; auto. intros i Hi. apply HL. right. exact Hi.
  - apply Forall_app. split; [assumption|]. constructor; [|constructor]. apply HL. left. reflexivity.
Qed.
Lemma foldM_snoc {A S} (f : S -> A -> res S) l a s : foldM f (l ++ [a]) s = let* s' := foldM f l s in f s' a.
Proof.
  revert s. induction l as [|x l IH]; intros s; cbn.
  - destruct (f s a); reflexivity.
  - destruct (f s x); cbn; [apply IH|reflexivity].
Qed.
Lemma loop_spec m iobj wt n :
  match foldM (obslist_pass m iobj wt) (seq 0 n) [] with
  | Ok l => successes (fun i => get_obs m iobj i wt) n l /\
            forall i, (i < n)%nat -> forall e, get_obs m iobj i wt = Raise e -> e = GMixFatalError
  | Raise e => e <> GMixFatalError /\ exists k, (k < n)%nat /\ get_obs m iobj k wt = Raise e /\
      forall i, (i < k)%nat -> forall e, get_obs m iobj i wt = Raise e -> e = GMixFatalError
  end.
Proof.
  induction n as [|n IH].
  - cbn. split; [|intros i Hi; lia]. exists []. split; [constructor|]. split; [|constructor].
    intros i. split; [intros []|]. intros [H _]; lia.
  - rewrite seq_S, foldM_snoc. cbn [Nat.add].
    destruct (foldM (obslist_pass m iobj wt) (seq 0 n) []) as [l|e]; cbn [bind].
    + destruct IH as [[idx [HS [HI HF]]] HE]. unfold obslist_pass. destruct (get_obs m iobj n wt) as [o|e] eqn:EO.
      * split.
        -- exists (idx ++ [n]). split; [apply sorted_snoc; [exact HS|intros i Hi; apply HI; exact Hi]|]. split.
           ++ intros i. rewrite in_app_iff, HI. cbn. split.
              ** intros [[Hi Ho]|[<-|[]]]; [split; [lia|exact Ho]|]. split; [lia|eauto].
              ** intros [Hi Ho]. destruct (Nat.eq_dec i n) as [->|Hn]; [right; left; reflexivity|left; split; [lia|exact Ho]].
           ++ apply Forall2_app; [exact HF|]. constructor; [exact EO|constructor].
        -- intros i Hi e He. destruct (Nat.eq_dec i n) as [->|Hn]; [congruence|]. eapply HE; [|exact He]. lia.
      * assert (e = GMixFatalError \/ e <> GMixFatalError) as [->|HN] by (destruct e; auto; right; discriminate).
        -- split.
           ++ exists idx. split; [exact HS|]. split; [|exact HF]. intros i. rewrite HI. split.
              ** intros [Hi Ho]. split; [lia|exact Ho].
              ** intros [Hi [o Ho]]. split; [|eauto]. assert (i <> n) by congruence. lia.
           ++ intros i Hi e He. destruct (Nat.eq_dec i n) as [->|Hn]; [congruence|]. eapply HE; [|exact He]. lia.
        -- assert ((match e with GMixFatalError => Ok l | _ => Raise e end) = Raise e) as -> by (destruct e; auto; congruence).
           split; [exact HN|]. exists n. split; [lia|]. split; [exact EO|]. intros i Hi e' He. eapply HE; eauto.
    + destruct IH as [HN [k [Hk [HO HE]]]]. split; [exact HN|]. exists k. split; [lia|]. auto.
Qed.
Theorem obslist_spec m iobj wt n : md_ncutout m iobj = Ok n ->
  (exists l, get_obslist m iobj wt = Ok l /\ successes (fun i => get_obs m iobj i wt) n (ml_items l) /\
     forall i, (i < n)%nat -> forall e, get_obs m iobj i wt = Raise e -> e = GMixFatalError) \/
  (exists e k, get_obslist m iobj wt = Raise e /\ e <> GMixFatalError /\ (k < n)%nat /\ get_obs m iobj k wt = Raise e /\
     forall i, (i < k)%nat -> forall e, get_obs m iobj i wt = Raise e -> e = GMixFatalError).
Proof.
  intros HN. unfold get_obslist. rewrite HN. cbn [bind]. pose proof (loop_spec m iobj wt n) as H.
  destruct (foldM _ _ _) as [l|e]; cbn [bind].
  - left. eexists. split; [reflexivity|exact H].
  - right. destruct H as [H1 [k [H2 [H3 H4]]]]. exists e, k. auto.
Qed.

(** ** which cutouts are skipped *)
Lemma get_weight_of m i k wt : (exists r, weight_of m i k wt r /\ get_weight m i k wt = r) \/
  (forall r, ~ weight_of m i k wt r) /\ get_weight m i k wt = Raise ValueError.
Proof.
  unfold get_weight, weight_of.
  destruct (String.eqb_spec wt "uberseg"); [left; eexists; split; [|reflexivity]; auto|].
  destruct (String.eqb_spec wt "cweight"); [left; eexists; split; [|reflexivity]; auto|].
  destruct (String.eqb_spec wt "weight"); [left; eexists; split; [|reflexivity]; auto|].
  destruct (String.eqb_spec wt "cseg"); [left; eexists; split; [|reflexivity]; auto 6|].
  destruct (String.eqb_spec wt "cseg-canonical"); [left; eexists; split; [|reflexivity]; auto 7|].
  right. split; [|reflexivity]. intros r H. intuition congruence.
Qed.
Lemma get_weight_never m i k wt : no_fatal m -> get_weight m i k wt <> Raise GMixFatalError.
Proof.
  intros H. unfold get_weight. destruct (String.eqb _ _); [apply (nf_uberseg m H)|]. destruct (String.eqb _ _); [apply (nf_cweight m H)|].
  destruct (String.eqb _ _); [apply (nf_cutout m H)|]. destruct (String.eqb _ _); [apply (nf_cseg m H)|].
  destruct (String.eqb _ _); [apply (nf_cseg m H)|discriminate].
Qed.
Lemma bind_never {A B} (r : res A) (f : A -> res B) e : r <> Raise e -> (forall a, r = Ok a -> f a <> Raise e) -> bind r f <> Raise e.
Proof. intros H1 H2. destruct r as [a|e']; cbn; [apply H2; reflexivity|congruence]. Qed.
Lemma jac_never m i k : no_fatal m -> get_ngmix_jacobian m i k <> Raise GMixFatalError.
Proof.
  intros H. unfold get_ngmix_jacobian. apply bind_never; [apply (nf_jac m H)|]. intros [[[[[r c] a] b] d] e] _. cbn. discriminate.
Qed.
Lemma col_never m c i : no_fatal m -> col_at m c i <> Raise GMixFatalError.
Proof. intros H. unfold col_at. destruct (md_col m c) as [f|] eqn:E; [apply (nf_col m H c f i E)|discriminate]. Qed.
Lemma meta_never m i k : no_fatal m -> get_meta m i k <> Raise GMixFatalError.
Proof.
  intros H. unfold get_meta.
  apply bind_never; [apply (nf_info m H)|]. intros _ _. apply bind_never; [apply (nf_file_id m H)|]. intros fid _.
  apply bind_never; [apply (nf_path m H)|]. intros pth _. apply bind_never; [apply (nf_id m H)|]. intros id _.
  do 4 (apply bind_never; [apply (nf_col2 m H)|]; intros ? _). apply bind_never; [apply (nf_scale m H)|]. intros sc _. cbv zeta.
  apply bind_never.
  { destruct (has_col m "flux_auto"); [|discriminate]. apply bind_never; [apply col_never; exact H|]. discriminate. }
  intros d1 _. apply bind_never.
  { destruct (has_col m "x2" && has_col m "y2"); [|discriminate]. apply bind_never; [apply col_never; exact H|]. intros x _.
    apply bind_never; [apply col_never; exact H|]. discriminate. }
  intros d2 _. destruct (has_col m "number"); [|discriminate]. apply bind_never; [apply col_never; exact H|]. discriminate.
Qed.

Lemma max_fin_fold l x : (forall y, In y l -> exists r, y = Fin r) -> (exists r, x = Fin r) -> exists r, fold_left xmax l x = Fin r.
Proof.
  revert x. induction l as [|y l IH]; intros x Hl Hx; cbn [fold_left]; [exact Hx|]. apply IH; [intros z Hz; apply Hl; right; exact Hz|].
  destruct Hx as [a ->]. destruct (Hl y (or_introl eq_refl)) as [b ->]. unfold xmax. destruct (xltb (Fin a) (Fin b)); eauto.
Qed.
Lemma in_all_of (a : arr2 xr) x : In x (all_of a) <-> exists r c, (r < nrow a)%nat /\ (c < ncol a)%nat /\ at2 a r c = x.
Proof.
  unfold all_of. rewrite in_concat. split.
  - intros [l [Hl Hx]]. apply in_map_iff in Hl. destruct Hl as [r [<- Hr]]. apply in_map_iff in Hx. destruct Hx as [c [<- Hc]].
    apply in_seq in Hr. apply in_seq in Hc. exists r, c. split; [lia|]. split; [lia|reflexivity].
  - intros [r [c [Hr [Hc <-]]]]. exists (map (at2 a r) (seq 0 (ncol a))). split.
    + apply in_map_iff. exists r. split; [reflexivity|]. apply in_seq. lia.
    + apply in_map_iff. exists c. split; [reflexivity|]. apply in_seq. lia.
Qed.
Lemma psf_never m i k : no_fatal m -> (forall im, md_psf m i k = Ok im -> all_finite im) -> get_psf_obs m i k <> Raise GMixFatalError.
Proof.
  intros H HF. unfold get_psf_obs. apply bind_never; [apply (nf_psf m H)|]. intros im Him. specialize (HF im Him).
  unfold arr_max. destruct (all_of im) as [|x l] eqn:E; [discriminate|]. cbn [bind].
  assert (exists r, fold_left xmax l x = Fin r) as [mx Hmx].
  { apply max_fin_fold.
    - intros y Hy. assert (In y (all_of im)) as HI by (rewrite E; right; exact Hy). apply in_all_of in HI.
      destruct HI as [r [c [Hr [Hc <-]]]]. apply HF; assumption.
    - assert (In x (all_of im)) as HI by (rewrite E; left; reflexivity). apply in_all_of in HI.
      destruct HI as [r [c [Hr [Hc <-]]]]. apply HF; assumption. }
  rewrite Hmx. apply bind_never; [apply jac_never; exact H|]. intros j _. apply bind_never; [apply (nf_col2 m H)|]. intros row _.
  apply bind_never; [apply (nf_col2 m H)|]. intros col _. unfold new_pobs. apply bind_never; [|discriminate].
  rewrite check_pixels_fatal. intros [_ HP]. apply HP.
  assert (In x (all_of im)) as HI by (rewrite E; left; reflexivity). apply in_all_of in HI. destruct HI as [r [c [Hr [Hc _]]]].
  exists r, c. cbn [nrow ncol at2]. split; [exact Hr|]. split; [exact Hc|].
  destruct (HF r c Hr Hc) as [v ->]. cbn [xmul]. cbn [xdiv]. rewrite (Reqb_f 1000 0) by lra. cbn [xmul xdiv].
  destruct (Reqb_spec (mx / 1000 * (mx / 1000)) 0) as [E0|E0].
  - unfold inf_of, rsgn. rewrite Rltb_t by lra. cbn. exact I.
  - cbn. rewrite Rmult_0_r, Rplus_0_l. apply Rdiv_lt_0_compat; [lra|]. nra.
Qed.

Theorem fatal_means_no_weight m i k wt : no_fatal m -> (md_has_psf m = Ok true -> forall im, md_psf m i k = Ok im -> all_finite im) ->
  get_obs m i k wt = Raise GMixFatalError -> exists w, weight_of m i k wt (Ok w) /\ ~ some_positive w.
Proof.
  intros H HP HO. unfold get_obs in HO.
  destruct (md_cutout m i k CtImage) as [im|e] eqn:EI; cbn [bind] in HO.
  2:{ exfalso. apply (nf_cutout m H i k CtImage). congruence. }
  pose proof (get_weight_never m i k wt H) as HW.
  destruct (get_weight m i k wt) as [w|e] eqn:EW; cbn [bind] in HO; [|congruence].
  pose proof (jac_never m i k H) as HJ. destruct (get_ngmix_jacobian m i k) as [j|e]; cbn [bind] in HO; [|congruence].
  pose proof (meta_never m i k H) as HM. destruct (get_meta m i k) as [d|e]; cbn [bind] in HO; [|congruence].
  pose proof (nf_has m H) as HH. destruct (md_has_psf m) as [b|e]; cbn [bind] in HO; [|congruence].
  destruct (if b then _ else _) as [p|e] eqn:EP in HO; cbn [bind] in HO.
  - apply new_obs_fatal in HO. destruct HO as [_ HN]. exists w. split; [|exact HN].
    destruct (get_weight_of m i k wt) as [[r [HR E]]|[_ E]]; [|congruence]. rewrite EW in E. subst r. exact HR.
  - exfalso. destruct b; [|discriminate]. pose proof (psf_never m i k H (HP eq_refl)) as HN.
    destruct (get_psf_obs m i k); cbn [bind] in EP; congruence.
Qed.
Theorem no_weight_is_skipped m i k wt im w : readable m i k im -> weight_of m i k wt (Ok w) -> same_shape w im = true -> ~ some_positive w ->
  get_obs m i k wt = Raise GMixFatalError.
Proof.
  intros [HI [[j HJ] [[d HD] HP]]] HW HS HN. unfold get_obs. rewrite HI. cbn [bind].
  assert (get_weight m i k wt = Ok w) as ->.
  { unfold weight_of in HW. unfold get_weight.
    destruct HW as [[-> HW]|[[-> HW]|[[-> HW]|[[-> HW]|[-> HW]]]]]; cbn; symmetry; exact HW. }
  cbn [bind]. rewrite HJ. cbn [bind]. rewrite HD. cbn [bind].
  destruct HP as [->|[-> [p ->]]]; cbn [bind]; apply new_obs_fatal; auto.
Qed.

(** ** contents *)
Theorem get_obs_contents m i k wt o : get_obs m i k wt = Ok o ->
  md_cutout m i k CtImage = Ok (o_image o) /\ weight_of m i k wt (Ok (o_weight o)) /\
  get_ngmix_jacobian m i k = Ok (o_jac o) /\ get_meta m i k = Ok (o_meta o) /\
  (forall t f, (t = CtBmask /\ f = o_bmask o \/ t = CtOrmask /\ f = o_ormask o \/ t = CtNoise /\ f = o_noise o \/ t = CtMfrac /\ f = o_mfrac o) ->
     match md_cutout m i k t with Ok a => f = Some a /\ nrow a = nrow (o_image o) /\ ncol a = ncol (o_image o) | Raise _ => f = None end) /\
  match o_psf o with None => md_has_psf m = Ok false | Some p => md_has_psf m = Ok true /\ get_psf_obs m i k = Ok p end /\
  nrow (o_weight o) = nrow (o_image o) /\ ncol (o_weight o) = ncol (o_image o) /\ some_positive (o_weight o).
Proof.
  unfold get_obs. destruct (md_cutout m i k CtImage) as [im|e]; cbn [bind]; [|discriminate].
  destruct (get_weight m i k wt) as [w|e] eqn:EW; cbn [bind]; [|discriminate].
  destruct (get_ngmix_jacobian m i k) as [j|e]; cbn [bind]; [|discriminate].
  destruct (get_meta m i k) as [d|e]; cbn [bind]; [|discriminate].
  destruct (md_has_psf m) as [b|e]; cbn [bind]; [|discriminate].
  destruct (if b then _ else _) as [p|e] eqn:EP; cbn [bind]; [|discriminate].
  unfold new_obs. intros HO.
  pose proof (check_pixels_fatal im w j) as HCP. destruct (check_pixels im w j) as [u|e] eqn:EC; cbn [bind] in HO; [|discriminate].
  assert (same_shape w im = true) as HS. { unfold check_pixels in EC. destruct (same_shape w im); [reflexivity|discriminate]. }
  assert (forall t, match check_opt im (optional (md_cutout m i k t)) with Ok _ => True | Raise _ => False end ->
    match md_cutout m i k t with Ok a => nrow a = nrow im /\ ncol a = ncol im | Raise _ => True end) as HOpt.
  { intros t. destruct (md_cutout m i k t) as [a|e]; cbn; [|auto]. destruct (same_shape a im) eqn:E; [|contradiction]. intros _.
    unfold same_shape in E. apply andb_true_iff in E. destruct E as [E1 E2]. apply Nat.eqb_eq in E1, E2. auto. }
  pose proof (HOpt CtBmask) as O1. pose proof (HOpt CtOrmask) as O2. pose proof (HOpt CtNoise) as O3. pose proof (HOpt CtMfrac) as O4. clear HOpt.
  destruct (check_opt im (optional (md_cutout m i k CtBmask))) as [u1|e]; cbn [bind] in HO; [|discriminate].
  destruct (check_opt im (optional (md_cutout m i k CtOrmask))) as [u2|e]; cbn [bind] in HO; [|discriminate].
  destruct (check_opt im (optional (md_cutout m i k CtNoise))) as [u3|e]; cbn [bind] in HO; [|discriminate].
  destruct (check_opt im (optional (md_cutout m i k CtMfrac))) as [u4|e]; cbn [bind] in HO; [|discriminate].
  inversion HO; subst o; clear HO. cbn [o_image o_weight o_jac o_meta o_bmask o_ormask o_noise o_mfrac o_psf].
  split; [reflexivity|]. split.
  { destruct (get_weight_of m i k wt) as [[r [HR E]]|[_ E]]; [|congruence]. rewrite EW in E. subst r. exact HR. }
  split; [reflexivity|]. split; [reflexivity|]. split.
  { intros t f [[-> ->]|[[-> ->]|[[-> ->]|[-> ->]]]].
    - destruct (md_cutout m i k CtBmask); cbn; auto.
    - destruct (md_cutout m i k CtOrmask); cbn; auto.
    - destruct (md_cutout m i k CtNoise); cbn; auto.
    - destruct (md_cutout m i k CtMfrac); cbn; auto. }
  split.
  { destruct b; [|inversion EP; reflexivity]. destruct (get_psf_obs m i k) as [q|e]; cbn [bind] in EP; [|discriminate]. inversion EP. auto. }
  unfold same_shape in HS. apply andb_true_iff in HS. destruct HS as [E1 E2]. apply Nat.eqb_eq in E1, E2. split; [exact E1|]. split; [exact E2|].
  destruct (Classical_Prop.classic (some_positive w)) as [|HN]; [assumption|]. exfalso.
  assert (@Ok unit u = Raise GMixFatalError) as Z; [|discriminate Z]. apply HCP. split; [|exact HN].
  unfold same_shape. rewrite E1, E2, !Nat.eqb_refl. reflexivity.
Qed.
Lemma bad_weight_type m i k wt : (forall r, ~ weight_of m i k wt r) -> forall o, get_obs m i k wt <> Ok o.
Proof. intros H o HO. apply get_obs_contents in HO. destruct HO as [_ [HW _]]. exact (H _ HW). Qed.
Lemma jac_contents m i k row col dudr dudc dvdr dvdc : md_jac m i k = Ok (row, col, dudr, dudc, dvdr, dvdc) ->
  exists j, get_ngmix_jacobian m i k = Ok j /\ row0 j = row /\ col0 j = col /\ dudrow j = dudr /\ dudcol j = dudc /\ dvdrow j = dvdr /\ dvdcol j = dvdc.
Proof. intros H. unfold get_ngmix_jacobian. rewrite H. cbn. eexists. split; [reflexivity|]. cbn. auto 10. Qed.

Theorem psf_contents m i k p : get_psf_obs m i k = Ok p ->
  exists row col, md_psf m i k = Ok (p_image p) /\ md_col2 m "psf_cutout_row" i k = Ok row /\ md_col2 m "psf_cutout_col" i k = Ok col /\
    row0 (p_jac p) = row /\ col0 (p_jac p) = col /\
    (forall j, get_ngmix_jacobian m i k = Ok j -> dudrow (p_jac p) = dudrow j /\ dudcol (p_jac p) = dudcol j /\ dvdrow (p_jac p) = dvdrow j /\ dvdcol (p_jac p) = dvdcol j /\ jdet (p_jac p) = jdet j) /\
    nrow (p_weight p) = nrow (p_image p) /\ ncol (p_weight p) = ncol (p_image p) /\
    (all_finite (p_image p) -> exists mx, (forall r c x, (r < nrow (p_image p))%nat -> (c < ncol (p_image p))%nat -> at2 (p_image p) r c = Fin x -> x <= mx) /\
       (exists r c, (r < nrow (p_image p))%nat /\ (c < ncol (p_image p))%nat /\ at2 (p_image p) r c = Fin mx) /\
       forall r c, (r < nrow (p_image p))%nat -> (c < ncol (p_image p))%nat ->
         at2 (p_weight p) r c = if Reqb mx 0 then PInf else Fin (1000000 / mx ^ 2)).
Proof.
  unfold get_psf_obs. destruct (md_psf m i k) as [im|e]; cbn [bind]; [|discriminate].
  destruct (arr_max im) as [mx|e] eqn:EM; cbn [bind]; [|discriminate].
  destruct (get_ngmix_jacobian m i k) as [j|e] eqn:EJ; cbn [bind]; [|discriminate].
  destruct (md_col2 m "psf_cutout_row" i k) as [row|e]; cbn [bind]; [|discriminate].
  destruct (md_col2 m "psf_cutout_col" i k) as [col|e]; cbn [bind]; [|discriminate].
  unfold new_pobs. destruct (check_pixels _ _ _) as [u|e]; cbn [bind]; [|discriminate]. intros H.
  apply (f_equal (fun r => match r with Ok p => p | Raise _ => p end)) in H. cbv beta iota in H. subst p. cbn [p_image p_weight p_jac].
  exists row, col. split; [reflexivity|]. split; [reflexivity|]. split; [reflexivity|]. split; [reflexivity|]. split; [reflexivity|].
  split; [intros j' Hj; inversion Hj; subst; cbn; auto|]. split; [reflexivity|]. split; [reflexivity|].
  intros HF. unfold arr_max in EM. destruct (all_of im) as [|x l] eqn:E; [discriminate|]. inversion EM as [EM']. clear EM.
  assert (forall y, In y (x :: l) -> exists r c v, (r < nrow im)%nat /\ (c < ncol im)%nat /\ at2 im r c = y /\ y = Fin v) as HL.
  { intros y Hy. rewrite <- E in Hy. apply in_all_of in Hy. destruct Hy as [r [c [Hr [Hc Hy]]]]. destruct (HF r c Hr Hc) as [v Hv]. exists r, c, v.
    split; [exact Hr|]. split; [exact Hc|]. split; [exact Hy|congruence]. }
  assert (forall l x, (forall y, In y (x :: l) -> exists v, y = Fin v) -> exists v, fold_left xmax l x = Fin v /\ In (Fin v) (x :: l) /\
    forall v', In (Fin v') (x :: l) -> v' <= v) as HMax.
  { clear. induction l as [|y l IH]; intros x H.
    - destruct (H x (or_introl eq_refl)) as [v ->]. exists v. cbn. split; [reflexivity|]. split; [auto|]. intros v' [Hv|[]]. inversion Hv. lra.
    - destruct (H x (or_introl eq_refl)) as [a Ha]. destruct (H y (or_intror (or_introl eq_refl))) as [b Hb]. subst x y.
      destruct (IH (xmax (Fin a) (Fin b))) as [v [E [HI HB]]].
      { intros z [<-|Hz]; [|apply H; right; right; exact Hz]. unfold xmax. destruct (xltb (Fin a) (Fin b)); eauto. }
      exists v. cbn [fold_left]. split; [exact E|].
      assert (xmax (Fin a) (Fin b) = Fin (Rmax a b)) as EM.
      { unfold xmax. cbn [xltb]. destruct (Rltb_spec a b); f_equal; [rewrite Rmax_right; lra|rewrite Rmax_left; lra]. }
      rewrite EM in *. split.
      + destruct HI as [HI|HI]; [|right; right; exact HI]. inversion HI as [HI']. unfold Rmax. destruct (Rle_dec a b); [right; left; reflexivity|left; reflexivity].
      + pose proof (HB (Rmax a b) (or_introl eq_refl)) as HR. pose proof (Rmax_l a b). pose proof (Rmax_r a b).
        intros v' [Hv|[Hv|Hv]]; [inversion Hv; lra|inversion Hv; lra|]. apply HB. right. exact Hv. }
  destruct (HMax l x) as [v [EV [HI HB]]]. { intros y Hy. destruct (HL y Hy) as [r [c [v [_ [_ [_ Hv]]]]]]. eauto. }
  rewrite EV. exists v. split.
  { intros r c a Hr Hc Ha. apply HB. rewrite <- E. apply in_all_of. exists r, c. auto. }
  split. { destruct (HL _ HI) as [r [c [v' [Hr [Hc [Ha _]]]]]]. exists r, c. auto. }
  intros r c Hr Hc. cbn [at2]. destruct (HF r c Hr Hc) as [a ->]. cbn [xmul xdiv]. rewrite (Reqb_f 1000 0) by lra. cbn [xmul xdiv].
  destruct (Reqb_spec v 0) as [->|Hv].
  - rewrite Reqb_t by lra. unfold inf_of, rsgn. rewrite Rltb_t by lra. reflexivity.
  - rewrite Reqb_f. 2:{ intros H0. apply Rmult_integral in H0. assert (v / 1000 = 0) by tauto. apply Hv. lra. }
    cbn. f_equal. field. lra.
Qed.

(** ** metadata *)
Lemma dget_dset d k v k' : dget (dset d k v) k' = if String.eqb k k' then Some v else dget d k'.
Proof.
  induction d as [|[a b] d IH]; cbn.
  - destruct (String.eqb k k'); reflexivity.
  - destruct (String.eqb_spec a k) as [->|Hak]; cbn.
    + destruct (String.eqb k k'); reflexivity.
    + destruct (String.eqb_spec a k') as [->|Hak'].
      * destruct (String.eqb_spec k k'); [congruence|reflexivity].
      * exact IH.
Qed.
Theorem list_meta o l : let d := obslist_meta (o :: l) in
  dget d "flux" = dget (o_meta o) "flux" /\ dget d "T" = dget (o_meta o) "T" /\
  forall k, k <> "flux"%string -> k <> "T"%string -> dget d k = None.
Proof.
  cbn zeta. unfold obslist_meta.
  assert (forall k, k <> "flux"%string -> String.eqb "flux" k = false) as HA by (intros k H; apply String.eqb_neq; congruence).
  assert (forall k, k <> "T"%string -> String.eqb "T" k = false) as HB by (intros k H; apply String.eqb_neq; congruence).
  destruct (dget (o_meta o) "flux") as [f|], (dget (o_meta o) "T") as [t|]; (split; [reflexivity|]); (split; [reflexivity|]); intros k H1 H2;
    rewrite ?dget_dset, ?(HA k H1), ?(HB k H2); reflexivity.
Qed.
Theorem meta_contents m i k d : get_meta m i k = Ok d ->
  (exists id fid path, md_id m i = Ok id /\ md_file_id m i k = Ok fid /\ md_path m fid = Ok path /\
     dget d "id" = Some (VZ id) /\ dget d "file_id" = Some (VZ fid) /\ dget d "file_path" = Some (VS path)) /\
  dget d "index" = Some (VZ (Z.of_nat i)) /\ dget d "icut" = Some (VZ (Z.of_nat k)) /\ dget d "cutout_index" = Some (VZ (Z.of_nat k)) /\
  match md_col m "flux_auto" with
  | Some f => exists x, f i = Ok x /\ dget d "flux" = Some (VX x)
  | None => dget d "flux" = None
  end /\
  match md_col m "x2", md_col m "y2" with
  | Some f, Some g => exists x y, f i = Ok x /\ g i = Ok y /\ dget d "T" = Some (VX (xadd x y))
  | _, _ => dget d "T" = None
  end.
Proof.
  unfold get_meta. destruct (md_info m) as [u|e]; cbn [bind]; [|discriminate].
  destruct (md_file_id m i k) as [fid|e]; cbn [bind]; [|discriminate].
  destruct (md_path m fid) as [path|e] eqn:EP; cbn [bind]; [|discriminate].
  destruct (md_id m i) as [id|e]; cbn [bind]; [|discriminate].
  do 4 (destruct (md_col2 m _ i k); cbn [bind]; [|discriminate]).
  destruct (md_scale m fid) as [sc|e]; cbn [bind]; [|discriminate].
  set (d0 := [_; _; _; _; _; _; _; _; _; _; _]).
  unfold has_col, col_at. intros H.
  destruct (md_col m "flux_auto") as [ff|]; [destruct (ff i) as [fl|e]; cbn [bind] in H; [|discriminate]|]; cbn [bind] in H;
  (destruct (md_col m "x2") as [fx|]; [destruct (md_col m "y2") as [fy|]|]; cbn [andb bind] in H;
   [destruct (fx i) as [x|e]; cbn [bind] in H; [|discriminate]; destruct (fy i) as [y|e]; cbn [bind] in H; [|discriminate]| |]);
  (destruct (md_col m "number") as [fn|]; [destruct (fn i) as [nn|e]; cbn [bind] in H; [|discriminate]|]);
  inversion H; subst d; clear H;
  (split; [exists id, fid, path; rewrite ?dget_dset; cbn; auto 10|]);
  rewrite ?dget_dset; cbn; eauto 12.
Qed.

(** ** bands *)
Lemma foldM_collect {A B} (f : A -> res B) l acc :
  match foldM (fun acc a => let* b := f a in Ok (acc ++ [b])) l acc with
  | Ok r => exists bs, r = (acc ++ bs)%list /\ Forall2 (fun a b => f a = Ok b) l bs
  | Raise e => exists l1 a l2 bs, l = (l1 ++ a :: l2)%list /\ Forall2 (fun a b => f a = Ok b) l1 bs /\ f a = Raise e
  end.
Proof.
  revert acc. induction l as [|a l IH]; intros acc; cbn.
  - exists []. rewrite app_nil_r. split; [reflexivity|constructor].
  - destruct (f a) as [b|e] eqn:E; cbn [bind].
    + specialize (IH (acc ++ [b])%list). destruct (foldM _ l (acc ++ [b])%list) as [r|e].
      * destruct IH as [bs [-> HF]]. exists (b :: bs). split; [rewrite <- app_assoc; reflexivity|]. constructor; assumption.
      * destruct IH as [l1 [a' [l2 [bs [-> [HF HE]]]]]]. exists (a :: l1), a', l2, (b :: bs). split; [reflexivity|]. split; [constructor; assumption|exact HE].
    + exists [], a, l, []. split; [reflexivity|]. split; [constructor|exact E].
Qed.
Theorem mbobs_spec ms iobj wt :
  (exists ls, get_mbobs ms iobj wt = Ok ls /\ Forall2 (fun m l => get_obslist m iobj wt = Ok l) ms ls) \/
  (exists e ms1 m ms2, get_mbobs ms iobj wt = Raise e /\ ms = (ms1 ++ m :: ms2)%list /\ get_obslist m iobj wt = Raise e /\
     Forall (fun m => exists l, get_obslist m iobj wt = Ok l) ms1).
Proof.
  unfold get_mbobs. pose proof (foldM_collect (fun m => get_obslist m iobj wt) ms []) as H. cbv beta in H.
  destruct (foldM _ ms []) as [r|e].
  - destruct H as [bs [-> HF]]. left. exists bs. auto.
  - destruct H as [l1 [a [l2 [bs [-> [HF HE]]]]]]. right. exists e, l1, a, l2. split; [reflexivity|]. split; [reflexivity|]. split; [exact HE|].
    clear - HF. induction HF; constructor; eauto.
Qed.
Theorem mbobs_list_spec ms indices wt idx : indices = Some idx \/ indices = None /\ (exists m ms', ms = m :: ms' /\ idx = seq 0 (md_size m)) ->
  (exists r, get_mbobs_list ms indices wt = Ok r /\ Forall2 (fun i mb => get_mbobs ms i wt = Ok mb) idx r) \/
  (exists e l1 i l2, get_mbobs_list ms indices wt = Raise e /\ idx = (l1 ++ i :: l2)%list /\ get_mbobs ms i wt = Raise e /\
     Forall (fun i => exists mb, get_mbobs ms i wt = Ok mb) l1).
Proof.
  intros HI. unfold get_mbobs_list.
  assert ((match indices with Some l => Ok l | None => match ms with [] => Raise IndexError | m :: _ => Ok (seq 0 (md_size m)) end end) = Ok idx) as ->.
  { destruct HI as [->|[-> [m [ms' [-> ->]]]]]; reflexivity. }
  cbn [bind]. pose proof (foldM_collect (fun i => get_mbobs ms i wt) idx []) as H. cbv beta in H.
  destruct (foldM _ idx []) as [r|e].
  - destruct H as [bs [-> HF]]. left. exists bs. auto.
  - destruct H as [l1 [a [l2 [bs [-> [HF HE]]]]]]. right. exists e, l1, a, l2. split; [reflexivity|]. split; [reflexivity|]. split; [exact HE|].
    clear - HF. induction HF; constructor; eauto.
Qed.
Lemma obslist_no_count m iobj wt e : md_ncutout m iobj = Raise e -> get_obslist m iobj wt = Raise e.
Proof. intros H. unfold get_obslist. rewrite H. reflexivity. Qed.

(** ** success *)
Lemma check_pixels_ok im w j : same_shape w im = true -> no_nan w -> some_positive w -> check_pixels im w j = Ok tt.
Proof.
  intros HS HN HP. unfold check_pixels. rewrite HS. destruct (pixels_ok (mkArr (nrow im) (ncol im) (fun _ _ => 0)) w j) as [l ->]; auto.
Qed.
Lemma weight_of_ok m i k wt r : weight_of m i k wt r -> get_weight m i k wt = r.
Proof.
  unfold weight_of, get_weight. intros [[-> HW]|[[-> HW]|[[-> HW]|[[-> HW]|[-> HW]]]]]; cbn; symmetry; exact HW.
Qed.
Theorem usable_is_kept m i k wt im w : readable m i k im -> weight_of m i k wt (Ok w) -> same_shape w im = true -> no_nan w -> some_positive w ->
  planes_fit m i k im -> exists o, get_obs m i k wt = Ok o.
Proof.
  intros [HI [[j HJ] [[d HD] HP]]] HW HS HN HPos HO. unfold get_obs. rewrite HI. cbn [bind]. rewrite (weight_of_ok _ _ _ _ _ HW). cbn [bind].
  rewrite HJ. cbn [bind]. rewrite HD. cbn [bind].
  assert (forall t, In t [CtBmask; CtOrmask; CtNoise; CtMfrac] -> check_opt im (optional (md_cutout m i k t)) = Ok tt) as HC.
  { intros t Ht. specialize (HO t). destruct (md_cutout m i k t) as [a|e]; cbn; [|reflexivity]. rewrite (HO a Ht eq_refl). reflexivity. }
  destruct HP as [->|[-> [p ->]]]; cbn [bind]; unfold new_obs; rewrite (check_pixels_ok im w j HS HN HPos); cbn [bind];
    rewrite !HC by (cbn; auto 6); cbn [bind]; eauto.
Qed.
Theorem psf_readable m i k im row col j : md_psf m i k = Ok im -> all_finite im -> (0 < nrow im)%nat -> (0 < ncol im)%nat ->
  get_ngmix_jacobian m i k = Ok j -> md_col2 m "psf_cutout_row" i k = Ok row -> md_col2 m "psf_cutout_col" i k = Ok col ->
  exists p, get_psf_obs m i k = Ok p.
Proof.
  intros HM HF Hr Hc HJ H1 H2. unfold get_psf_obs. rewrite HM. cbn [bind].
  assert (exists mx, arr_max im = Ok (Fin mx)) as [mx ->].
  { unfold arr_max. destruct (all_of im) as [|x l] eqn:E.
    - assert (In (at2 im 0 0) (all_of im)) as HI by (apply in_all_of; exists 0%nat, 0%nat; auto). rewrite E in HI. destruct HI.
    - assert (forall y, In y (x :: l) -> exists v, y = Fin v) as HA.
      { intros y Hy. rewrite <- E in Hy. apply in_all_of in Hy. destruct Hy as [r [c [H3 [H4 <-]]]]. apply HF; assumption. }
      destruct (max_fin_fold l x) as [v Hv]; [intros y Hy; apply HA; right; exact Hy|apply HA; left; reflexivity|]. exists v. congruence. }
  cbn [bind]. rewrite HJ, H1, H2. cbn [bind]. unfold new_pobs.
  assert (exists v, positive v /\ v <> NaN /\ forall r c, (r < nrow im)%nat -> (c < ncol im)%nat ->
    xadd (xmul (at2 im r c) (Fin 0)) (xdiv (Fin 1) (xmul (xdiv (Fin mx) (Fin 1000)) (xdiv (Fin mx) (Fin 1000)))) = v) as [v [HP [HN HV]]].
  { exists (if Reqb (mx / 1000 * (mx / 1000)) 0 then PInf else Fin (1 / (mx / 1000 * (mx / 1000)))).
    destruct (Reqb_spec (mx / 1000 * (mx / 1000)) 0) as [E0|E0].
    - split; [exact I|]. split; [discriminate|]. intros r c Hr' Hc'. destruct (HF r c Hr' Hc') as [a ->]. cbn [xmul xdiv]. rewrite (Reqb_f 1000 0) by lra. cbn [xmul xdiv].
      rewrite Reqb_t by exact E0. unfold inf_of, rsgn. rewrite Rltb_t by lra. reflexivity.
    - split; [cbn; apply Rdiv_lt_0_compat; [lra|nra]|]. split; [discriminate|]. intros r c Hr' Hc'. destruct (HF r c Hr' Hc') as [a ->]. cbn [xmul xdiv]. rewrite (Reqb_f 1000 0) by lra. cbn [xmul xdiv].
      rewrite Reqb_f by exact E0. cbn. f_equal. lra. }
  rewrite check_pixels_ok.
  - cbn [bind]. eauto.
  - unfold same_shape. cbn [nrow ncol]. rewrite !Nat.eqb_refl. reflexivity.
  - intros r c Hr' Hc'. cbn [at2 nrow ncol] in *. rewrite HV by assumption. exact HN.
  - exists 0%nat, 0%nat. cbn [at2 nrow ncol]. rewrite HV by assumption. auto.
Qed.
Lemma psf_nan_fatal m i k im j row col : md_psf m i k = Ok im -> (exists r c, (r < nrow im)%nat /\ (c < ncol im)%nat /\ at2 im r c = NaN) ->
  get_ngmix_jacobian m i k = Ok j -> md_col2 m "psf_cutout_row" i k = Ok row -> md_col2 m "psf_cutout_col" i k = Ok col ->
  get_psf_obs m i k = Raise GMixFatalError.
Proof.
  intros HM [r [c [Hr [Hc HN]]]] HJ H1 H2. unfold get_psf_obs. rewrite HM. cbn [bind].
  assert (arr_max im = Ok NaN) as ->.
  { unfold arr_max. assert (In NaN (all_of im)) as HI by (apply in_all_of; exists r, c; auto).
    assert (forall l, fold_left xmax l NaN = NaN) as HA by (induction l as [|y l IH]; cbn; [reflexivity|destruct y; exact IH]).
    assert (forall l x, In NaN (x :: l) -> fold_left xmax l x = NaN) as HB.
    { induction l as [|y l IH]; intros x [->|H]; cbn [fold_left].
      - reflexivity.
      - destruct H.
      - cbn. destruct y; apply HA.
      - apply IH. destruct H as [->|H]; [|right; exact H]. left. destruct x; reflexivity. }
    destruct (all_of im) as [|x l]; [destruct HI|]. rewrite (HB l x HI). reflexivity. }
  cbn [bind]. rewrite HJ, H1, H2. cbn [bind]. unfold new_pobs.
  match goal with |- bind ?x _ = _ => assert (x = Raise GMixFatalError) as -> end; [|reflexivity].
  apply check_pixels_fatal. split; [unfold same_shape; cbn [nrow ncol]; rewrite !Nat.eqb_refl; reflexivity|].
  intros [r' [c' [_ [_ HP]]]]. cbn [at2] in HP. destruct (xmul (at2 im r' c') (Fin 0)); cbn in HP; contradiction.
Qed.
