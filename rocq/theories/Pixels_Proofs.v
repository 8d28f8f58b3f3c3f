From Verif Require Import Base Jacobian_Model Jacobian_Spec Jacobian_Proofs XReal Pixels_Model Pixels_Spec.
From Coq Require Import Sorted.

(** nested loops = one loop over the row-major list of positions *)
Lemma foldM_app {A S} (f : S -> A -> res S) l1 l2 s :
  foldM f (l1 ++ l2) s = bind (foldM f l1 s) (foldM f l2).
Proof.
  revert s; induction l1 as [|x l1 IH]; intros s; [reflexivity|].
  cbn. destruct (f s x); cbn; auto.
Qed.
Lemma foldM_map {A B S} (f : S -> B -> res S) (g : A -> B) l s :
  foldM f (map g l) s = foldM (fun s x => f s (g x)) l s.
Proof.
  revert s; induction l as [|x l IH]; intros s; [reflexivity|].
  cbn. destruct (f s (g x)); cbn; auto.
Qed.
Lemma foldM_ext {A S} (f g : S -> A -> res S) l s :
  (forall s x, f s x = g s x) -> foldM f l s = foldM g l s.
Proof.
  intros H. revert s; induction l as [|x l IH]; intros s; [reflexivity|].
  cbn. rewrite H. destruct (g s x); cbn; auto.
Qed.
Lemma bind_ok_r {A} (m : res A) : bind m Ok = m.
Proof. destruct m; reflexivity. Qed.
Lemma foldM_nested {A B S} (f : A -> S -> B -> res S) la lb s :
  foldM (fun st a => foldM (f a) lb st) la s =
  foldM (fun st ab => f (fst ab) st (snd ab)) (list_prod la lb) s.
Proof.
  revert s; induction la as [|a la IH]; intros s; [reflexivity|].
  cbn [foldM list_prod]. rewrite foldM_app, foldM_map. cbn [fst snd].
  destruct (foldM (f a) lb s) eqn:E.
  - cbn. rewrite IH. reflexivity.
  - cbn. reflexivity.
Qed.

Lemma in_positions nr nc rc :
  In rc (list_prod (seq 0 nr) (seq 0 nc)) <-> (fst rc < nr)%nat /\ (snd rc < nc)%nat.
Proof. destruct rc as [r c]. rewrite in_prod_iff, !in_seq. cbn. lia. Qed.

Lemma sorted_app {A} (Rl : A -> A -> Prop) l1 l2 :
  StronglySorted Rl l1 -> StronglySorted Rl l2 ->
  (forall x y, In x l1 -> In y l2 -> Rl x y) -> StronglySorted Rl (l1 ++ l2).
Proof.
  induction l1 as [|a l1 IH]; intros H1 H2 H; [exact H2|].
  inversion H1; subst. cbn. constructor.
  - apply IH; auto. intros; apply H; auto. right; auto.
  - apply Forall_app; split; auto. apply Forall_forall. intros; apply H; auto. left; auto.
Qed.

Lemma positions_sorted_gen a nr b nc :
  StronglySorted before (list_prod (seq a nr) (seq b nc)).
Proof.
  revert a; induction nr as [|nr IH]; intros a; cbn; [constructor|].
  apply sorted_app; [|apply IH|].
  - clear IH. revert b; induction nc as [|nc IHc]; intros b; cbn; constructor; auto.
    apply Forall_forall. intros x Hx. apply in_map_iff in Hx. destruct Hx as (y & <- & Hy).
    apply in_seq in Hy. right; cbn; lia.
  - intros x y Hx Hy. apply in_map_iff in Hx. destruct Hx as (c & <- & Hc).
    destruct y as [r c']. apply in_prod_iff in Hy. rewrite in_seq in Hy. left; cbn; lia.
Qed.
Lemma sorted_filter {A} (Rl : A -> A -> Prop) f l :
  StronglySorted Rl l -> StronglySorted Rl (filter f l).
Proof.
  induction 1 as [|a l H IH HF]; cbn; [constructor|].
  destruct (f a); auto. constructor; auto.
  rewrite Forall_forall in *. intros x Hx. apply filter_In in Hx. apply HF; tauto.
Qed.

Lemma upd_app {A} (l1 l2 : list A) x y : upd (l1 ++ y :: l2) (length l1) x = l1 ++ x :: l2.
Proof. induction l1 as [|a l1 IH]; cbn; [reflexivity|]. rewrite IH; reflexivity. Qed.

(** one pass writing the entries of the kept positions *)
Lemma fill_pass {A P} (keep : P -> bool) (entry : P -> A) L pre suf :
  let step := fun (st : list A * nat) p =>
    if keep p then let* l := put (fst st) (snd st) (entry p) in Ok (l, S (snd st)) else Ok st in
  let n := length (filter keep L) in
  if Nat.leb n (length suf)
  then foldM step L (pre ++ suf, length pre) =
       Ok (pre ++ map entry (filter keep L) ++ skipn n suf, (length pre + n)%nat)
  else foldM step L (pre ++ suf, length pre) = Raise OtherError.
Proof.
  cbv zeta. revert pre suf; induction L as [|p L IH]; intros pre suf.
  - cbn. rewrite Nat.add_0_r. reflexivity.
  - cbn [filter foldM]. destruct (keep p) eqn:K.
    + cbn [fst snd length]. destruct suf as [|y suf].
      * cbn [length Nat.leb]. unfold put. rewrite app_nil_r, Nat.ltb_irrefl. reflexivity.
      * unfold put. replace (Nat.ltb (length pre) (length (pre ++ y :: suf))) with true.
        2:{ symmetry; apply Nat.ltb_lt. rewrite app_length; cbn; lia. }
        cbn [bind]. rewrite upd_app. cbn [length Nat.leb].
        specialize (IH (pre ++ [entry p]) suf).
        rewrite <- !app_assoc in IH. cbn [app] in IH.
        replace (length (pre ++ [entry p])) with (S (length pre)) in IH by (rewrite app_length; cbn; lia).
        destruct (Nat.leb (length (filter keep L)) (length suf)).
        -- etransitivity; [exact IH|]. cbn [map app skipn]. do 2 f_equal. lia.
        -- exact IH.
    + cbn [bind]. apply IH.
Qed.

Lemma fill_zero {A P} (keep : P -> bool) (entry : P -> A) L z n :
  length (filter keep L) = n ->
  foldM (fun (st : list A * nat) p =>
    if keep p then let* l := put (fst st) (snd st) (entry p) in Ok (l, S (snd st)) else Ok st)
    L (repeat z n, O) = Ok (map entry (filter keep L), n).
Proof.
  intros Hn. pose proof (fill_pass keep entry L [] (repeat z n)) as H. cbv zeta in H.
  rewrite Hn, repeat_length, Nat.leb_refl in H. cbn [app length] in H. rewrite H.
  replace (skipn n (repeat z n)) with (@nil A).
  2:{ symmetry. apply length_zero_iff_nil. rewrite skipn_length, repeat_length. lia. }
  rewrite app_nil_r. reflexivity.
Qed.

Section Gen.
  Variable W : Type.
  Variables (gt0 le0 lt0 : W -> bool) (wzero : W) (wsqrt : W -> W).

  Definition pos {A} (a : arr2 A) := list_prod (seq 0 (nrow a)) (seq 0 (ncol a)).
  Definition keepb (weight : arr2 W) (ignore : bool) (rc : nat * nat) :=
    negb (ignore && le0 (at2 weight (fst rc) (snd rc))).
  Definition entry (image : arr2 R) (weight : arr2 W) j (rc : nat * nat) : pixel W :=
    let ivar := at2 weight (fst rc) (snd rc) in
    mkPix (snd (get_vu j (INR (fst rc)) (INR (snd rc)))) (fst (get_vu j (INR (fst rc)) (INR (snd rc))))
      (jacobian_get_area j) (at2 image (fst rc) (snd rc)) (wsqrt (if lt0 ivar then wzero else ivar)).

  Lemma fill_step image weight j ignore st rc :
    fill_body W le0 lt0 wzero wsqrt image weight j ignore (fst rc) st (snd rc) =
    if keepb weight ignore rc
    then let* l := put (fst st) (snd st) (entry image weight j rc) in Ok (l, S (snd st)) else Ok st.
  Proof.
    destruct st as [l i]. unfold fill_body, keepb, entry. cbn [fst snd].
    destruct (ignore && le0 _); reflexivity.
  Qed.

  Lemma fill_loops image weight j ignore pixels :
    foldM (fun st row => foldM (fill_body W le0 lt0 wzero wsqrt image weight j ignore row) (seq 0 (ncol image)) st)
      (seq 0 (nrow image)) (pixels, O) =
    foldM (fun st p => if keepb weight ignore p
      then let* l := put (fst st) (snd st) (entry image weight j p) in Ok (l, S (snd st)) else Ok st)
      (pos image) (pixels, O).
  Proof. rewrite foldM_nested. apply foldM_ext. intros. apply fill_step. Qed.

  Lemma fold_count {P} (f : P -> bool) L n :
    fold_left (fun n p => if f p then S n else n) L n = (n + length (filter f L))%nat.
  Proof.
    revert n; induction L as [|p L IH]; intros n; cbn; [lia|]. rewrite IH. destruct (f p); cbn; lia.
  Qed.
  Lemma count_eq weight :
    count_gt0 W gt0 weight = length (filter (fun rc => gt0 (at2 weight (fst rc) (snd rc))) (pos weight)).
  Proof.
    unfold count_gt0, pos.
    set (rows := seq 0 (nrow weight)). set (cols := seq 0 (ncol weight)).
    enough (H : forall n, fold_left (fun n row => fold_left (fun n col => if gt0 (at2 weight row col) then S n else n) cols n) rows n
      = (n + length (filter (fun rc => gt0 (at2 weight (fst rc) (snd rc))) (list_prod rows cols)))%nat) by apply (H O).
    induction rows as [|r rows IH]; intros n; [cbn; lia|].
    cbn [fold_left list_prod]. rewrite IH, (fold_count (fun c => gt0 (at2 weight r c))), filter_app, app_length.
    enough (length (filter (fun c => gt0 (at2 weight r c)) cols) =
            length (filter (fun rc : nat * nat => gt0 (at2 weight (fst rc) (snd rc))) (map (fun y => (r,y)) cols))) by lia.
    clear IH. induction cols as [|c cols IHc]; [reflexivity|]. cbn. destruct (gt0 (at2 weight r c)); cbn; rewrite IHc; reflexivity.
  Qed.

  Lemma make_pixels_gen_eq image weight j ignore :
    (forall rc, In rc (pos image) -> gt0 (at2 weight (fst rc) (snd rc)) = negb (le0 (at2 weight (fst rc) (snd rc)))) ->
    nrow weight = nrow image -> ncol weight = ncol image ->
    make_pixels_gen W gt0 le0 lt0 wzero wsqrt image weight j ignore =
    if ignore && Nat.eqb (length (filter (keepb weight ignore) (pos image))) 0 then Raise GMixFatalError
    else Ok (map (entry image weight j) (filter (keepb weight ignore) (pos image))).
  Proof.
    intros Hgl Hr Hc. unfold make_pixels_gen.
    assert (F : filter (keepb weight ignore) (pos image) =
      if ignore then filter (fun rc => gt0 (at2 weight (fst rc) (snd rc))) (pos weight) else pos image).
    { unfold pos. rewrite Hr, Hc. unfold keepb. destruct ignore; cbn [andb negb].
      - apply filter_ext_in. intros a Ha. rewrite Hgl; [reflexivity|exact Ha].
      - induction (list_prod (seq 0 (nrow image)) (seq 0 (ncol image))) as [|a l IH]; [reflexivity|]. cbn. rewrite IH; reflexivity. }
    assert (G : forall n, length (filter (keepb weight ignore) (pos image)) = n ->
       fill_pixels W le0 lt0 wzero wsqrt (zeros_pixels W wzero n) image weight j ignore =
       Ok (map (entry image weight j) (filter (keepb weight ignore) (pos image)))).
    { intros n Hn. unfold fill_pixels. rewrite fill_loops. unfold zeros_pixels.
      rewrite (fill_zero _ _ _ _ n Hn). cbn [bind]. rewrite map_length, Hn, Nat.eqb_refl. reflexivity. }
    destruct ignore.
    - rewrite count_eq. cbn [andb]. rewrite F. cbn [andb].
      destruct (Nat.eqb _ 0) eqn:E; [reflexivity|]. cbn [bind]. rewrite F in G. apply G. reflexivity.
    - cbn [bind andb]. apply G. rewrite F. unfold pos. rewrite prod_length, !seq_length. reflexivity.
  Qed.
End Gen.

Lemma gt_not_le w : Rltb 0 w = negb (Rleb w 0).
Proof. rcase; rcase; cbn; auto; lra. Qed.

Lemma entry_describes image weight j rc :
  describes image weight j rc (entry R (fun w => Rltb w 0) 0 sqrt image weight j rc).
Proof.
  destruct rc as [r c]. unfold describes, entry. cbn [fst snd px_u px_v px_area px_val px_ierr].
  split; [apply get_vu_maps; apply surjective_pairing|]. split; [reflexivity|]. split; [reflexivity|].
  f_equal. unfold Rmax. rcase; destruct (Rle_dec (at2 weight r c) 0); lra.
Qed.

Lemma make_pixels_spec image weight j ignore :
  nrow weight = nrow image -> ncol weight = ncol image ->
  let usable rc := inside image rc /\ (ignore = true -> at2 weight (fst rc) (snd rc) > 0) in
  (make_pixels image weight j ignore = Raise GMixFatalError /\ ignore = true /\ (forall rc, ~ usable rc)) \/
  (exists idx l, make_pixels image weight j ignore = Ok l /\
     (forall rc, In rc idx <-> usable rc) /\ StronglySorted before idx /\
     Forall2 (describes image weight j) idx l /\ (ignore = true -> l <> [])).
Proof.
  intros Hr Hc usable. unfold make_pixels.
  rewrite (make_pixels_gen_eq R (Rltb 0) (fun w => Rleb w 0) (fun w => Rltb w 0) 0 sqrt image weight j ignore (fun rc _ => gt_not_le _) Hr Hc).
  set (idx := filter (keepb R (fun w => Rleb w 0) weight ignore) (pos image)).
  assert (HI : forall rc, In rc idx <-> usable rc).
  { intros rc. unfold idx, usable, inside, pos. rewrite filter_In, in_positions.
    unfold keepb. destruct ignore; cbn [andb negb].
    - rewrite <- gt_not_le. rewrite Rltb_true. intuition.
    - intuition discriminate. }
  destruct (ignore && Nat.eqb (length idx) 0) eqn:E.
  - left. apply andb_true_iff in E. destruct E as [E1 E2]. split; [reflexivity|]. split; [exact E1|].
    intros rc Hrc. apply HI in Hrc. apply Nat.eqb_eq, length_zero_iff_nil in E2. rewrite E2 in Hrc. exact Hrc.
  - right. eexists idx, _. split; [reflexivity|]. split; [exact HI|].
    split; [apply sorted_filter, positions_sorted_gen|]. split.
    + clear E HI. induction idx as [|a idx IH]; cbn; constructor; auto. apply entry_describes.
    + intros ->. cbn [andb] in E. destruct idx; [discriminate|]. cbn. discriminate.
Qed.

Lemma before_nodup idx : StronglySorted before idx -> NoDup idx.
Proof.
  induction 1 as [|a l H IH HF]; constructor; auto. intros Hin.
  rewrite Forall_forall in HF. specialize (HF a Hin). unfold before in HF. lia.
Qed.

(** without ignore_zero_weight: entry k is position (k / ncol, k mod ncol) *)
Lemma nth_positions nr nc r c :
  (r < nr)%nat -> (c < nc)%nat ->
  nth_error (list_prod (seq 0 nr) (seq 0 nc)) (r * nc + c) = Some (r, c).
Proof.
  intros Hr Hc. enough (H : forall a, (r < nr)%nat ->
     nth_error (list_prod (seq a nr) (seq 0 nc)) (r * nc + c) = Some ((a + r)%nat, c)) by apply (H O Hr).
  clear Hr. revert r. induction nr as [|nr IH]; intros r a Hr; [lia|].
  cbn [seq list_prod]. destruct r as [|r].
  - rewrite nth_error_app1 by (rewrite map_length, seq_length; lia).
    cbn [Nat.mul Nat.add]. rewrite Nat.add_0_r.
    rewrite nth_error_map. rewrite (nth_error_nth' _ O) by (rewrite seq_length; lia).
    cbn. rewrite seq_nth by lia. reflexivity.
  - rewrite nth_error_app2; rewrite map_length, seq_length; [|nia].
    replace (S r * nc + c - nc)%nat with (r * nc + c)%nat by nia.
    rewrite (IH r (S a)) by lia. do 2 f_equal. lia.
Qed.

Lemma make_pixels_all image weight j r c :
  nrow weight = nrow image -> ncol weight = ncol image -> inside image (r,c) ->
  exists l p, make_pixels image weight j false = Ok l /\ length l = (nrow image * ncol image)%nat /\
    nth_error l (r * ncol image + c) = Some p /\ describes image weight j (r,c) p.
Proof.
  intros Hr Hc [Ir Ic]. unfold make_pixels.
  rewrite (make_pixels_gen_eq R (Rltb 0) (fun w => Rleb w 0) (fun w => Rltb w 0) 0 sqrt image weight j false (fun rc _ => gt_not_le _) Hr Hc).
  cbn [andb]. replace (filter _ (pos image)) with (pos image).
  2:{ induction (pos image) as [|a l IH]; [reflexivity|]. cbn. rewrite <- IH; reflexivity. }
  eexists _, _. split; [reflexivity|]. split; [unfold pos; rewrite map_length, prod_length, !seq_length; reflexivity|].
  split.
  - rewrite nth_error_map. unfold pos. rewrite nth_positions by assumption. reflexivity.
  - apply entry_describes.
Qed.

Lemma make_coords_spec nr nc j :
  exists l, make_coords nr nc j = Ok l /\ length l = (nr * nc)%nat /\
   (forall r c, (r < nr)%nat -> (c < nc)%nat ->
      exists p, nth_error l (r * nc + c) = Some p /\ maps_to j (INR r) (INR c) (cd_v p) (cd_u p) /\
                cd_area p = jscale j ^ 2).
Proof.
  unfold make_coords.
  set (e := fun rc : nat * nat => mkCoord (snd (get_vu j (INR (fst rc)) (INR (snd rc)))) (fst (get_vu j (INR (fst rc)) (INR (snd rc)))) (jacobian_get_area j)).
  rewrite foldM_nested.
  rewrite (foldM_ext _ (fun st p => if (fun _ => true) p then let* l := put (fst st) (snd st) (e p) in Ok (l, S (snd st)) else Ok st)).
  2:{ intros [l i] [r c]. reflexivity. }
  assert (F : filter (fun _ : nat * nat => true) (list_prod (seq 0 nr) (seq 0 nc)) = list_prod (seq 0 nr) (seq 0 nc)).
  { induction (list_prod (seq 0 nr) (seq 0 nc)) as [|a l IH]; [reflexivity|]. cbn. rewrite IH; reflexivity. }
  rewrite (fill_zero (fun _ => true) e).
  2:{ rewrite F, prod_length, !seq_length; reflexivity. }
  rewrite F. cbn [bind]. eexists; split; [reflexivity|].
  split; [rewrite map_length, prod_length, !seq_length; reflexivity|].
  intros r c Hr Hc. eexists. rewrite nth_error_map, nth_positions by assumption.
  split; [reflexivity|]. cbn. split; [|reflexivity]. apply get_vu_maps. reflexivity.
Qed.

(** a NaN weight passes the "not <= 0" test but not the "> 0" count *)
Lemma nan_weight_overruns :
  exists image weight j,
    nrow weight = nrow image /\ ncol weight = ncol image /\
    at2 weight 0 0 = Fin 1 /\ at2 weight 0 1 = NaN /\
    make_pixels_x image weight j true = Raise OtherError.
Proof.
  exists (mkArr 1 2 (fun _ _ => 0)), (mkArr 1 2 (fun _ c => if Nat.eqb c 0 then Fin 1 else NaN)), (finish_init 0 0 1 0 0 1).
  repeat split. unfold make_pixels_x, make_pixels_gen, count_gt0. cbn -[Rltb Rleb sqrt INR].
  rewrite Rltb_t by lra. cbn -[Rltb Rleb sqrt INR]. unfold fill_pixels, zeros_pixels. cbn -[Rltb Rleb sqrt INR].
  rewrite Rleb_f by lra. cbn -[Rltb Rleb sqrt INR]. reflexivity.
Qed.

Lemma xgt_not_le w : w <> NaN -> xltb (Fin 0) w = negb (xleb w (Fin 0)).
Proof. destruct w; intros H; cbn; auto; apply gt_not_le || congruence. Qed.

Lemma make_pixels_x_spec image weight j :
  nrow weight = nrow image -> ncol weight = ncol image ->
  (forall rc, inside image rc -> at2 weight (fst rc) (snd rc) <> NaN) ->
  let usable rc := inside image rc /\ xltb (Fin 0) (at2 weight (fst rc) (snd rc)) = true in
  (make_pixels_x image weight j true = Raise GMixFatalError /\ (forall rc, ~ usable rc)) \/
  (exists idx l, make_pixels_x image weight j true = Ok l /\ length l = length idx /\ NoDup idx /\
     (forall rc, In rc idx <-> usable rc)).
Proof.
  intros Hr Hc Hn usable. unfold make_pixels_x.
  assert (Hg : forall rc, In rc (pos image) -> xltb (Fin 0) (at2 weight (fst rc) (snd rc)) = negb (xleb (at2 weight (fst rc) (snd rc)) (Fin 0))).
  { intros rc Hrc. apply xgt_not_le, Hn. apply in_positions in Hrc. exact Hrc. }
  rewrite (make_pixels_gen_eq xr (xltb (Fin 0)) (fun w => xleb w (Fin 0)) (fun w => xltb w (Fin 0)) (Fin 0) xsqrt image weight j true Hg Hr Hc).
  set (idx := filter (keepb xr (fun w => xleb w (Fin 0)) weight true) (pos image)).
  assert (HI : forall rc, In rc idx <-> usable rc).
  { intros rc. unfold idx, usable. rewrite filter_In. unfold keepb; cbn [andb].
    split; intros [H1 H2].
    - split; [apply in_positions in H1; exact H1|]. rewrite Hg; auto.
    - assert (In rc (pos image)) by (apply in_positions; exact H1). split; auto. rewrite <- Hg; auto. }
  cbn [andb]. destruct (Nat.eqb (length idx) 0) eqn:E.
  - left. split; [reflexivity|]. intros rc Hrc. apply HI in Hrc.
    apply Nat.eqb_eq, length_zero_iff_nil in E. rewrite E in Hrc. exact Hrc.
  - right. eexists idx, _. split; [reflexivity|]. split; [apply map_length|]. split; [|exact HI].
    apply before_nodup, sorted_filter, positions_sorted_gen.
Qed.
