(** Without a psf, and for an image and guess without negative values, the moments are those of positive weights. *)
From Verif Require Import Base XReal Moments_Spec Pixels_Model Jacobian_Model Jacobian_Spec GMix_Model GMix_Spec GMix_Proofs FastExp_Model FastExp_Proofs Render_Model Render_Spec Render_Proofs GMixObj_Model GMixObj_Spec GMixObj_Proofs Flags_Model
  EM_Model EM_Spec EM_Proofs EMIter_Proofs EMLoop_Proofs EMGo_Proofs Units_Spec Units_Proofs Motion_Spec EMTurn_Spec EMTurn_Proofs.
Local Open Scope R_scope.

Definition psd (rr rc cc : R) : Prop := forall x y, 0 <= rr * (x * x) + 2 * rc * (x * y) + cc * (y * y).
Lemma psd_0 : psd 0 0 0. Proof. intros x y. lra. Qed.
Lemma psd_add w rr rc cc RR RC CC : 0 <= w -> psd rr rc cc -> psd RR RC CC -> psd (rr + RR * w) (rc + RC * w) (cc + CC * w).
Proof. intros W A B x y. specialize (A x y). pose proof (Rmult_le_pos _ _ W (B x y)). lra. Qed.
Lemma psd_outer dv du : psd (dv * dv) (du * dv) (du * du).
Proof. intros x y. replace (dv * dv * (x * x) + 2 * (du * dv) * (x * y) + du * du * (y * y)) with (Rsqr (dv * x + du * y)) by (unfold Rsqr; ring). apply Rle_0_sqr. Qed.
Lemma psd_det rr rc cc : psd rr rc cc -> rc ^ 2 <= rr * cc.
Proof.
  intros H. assert (C : 0 <= cc) by (specialize (H 0 1); lra). destruct (Req_dec cc 0) as [Z|Z].
  - subst cc. destruct (Req_dec rc 0) as [->|N]; [lra|exfalso]. specialize (H 1 (- (rr + 1) / (2 * rc))).
    replace (rr * (1 * 1) + 2 * rc * (1 * (- (rr + 1) / (2 * rc))) + 0 * (- (rr + 1) / (2 * rc) * (- (rr + 1) / (2 * rc)))) with (-1) in H by (field; exact N). lra.
  - specialize (H cc (- rc)). assert (0 <= cc * (rr * cc - rc ^ 2)) by nra. assert (0 < cc) by lra. nra.
Qed.

Definition lit (g : gauss) : Prop := match g_nrm g with Some n => 0 <= n_pnorm n | None => True end.
Definition bright (p : pixel R) : Prop := 0 <= px_val p /\ 0 <= px_area p.
Lemma val_nonneg g v u ar w : lit g -> 0 <= ar -> em_val g v u ar = Ok w -> 0 <= w.
Proof.
  intros L A E. unfold em_val, lit in *. destruct (g_nrm g) as [n|]; [|injection E as <-; lra]. destruct (em_chi2 g v u) as [x|]; [|injection E as <-; lra].
  destruct (Rltb_spec x 25) as [H1|H1]; [|injection E as <-; lra]. destruct (Rleb_spec 0 x) as [H2|H2]; [|injection E as <-; lra]. cbn [andb] in E.
  destruct (fexp_spec (- (5/10) * x) ltac:(lra)) as (y & Ey & B). rewrite Ey in E. injection E as <-.
  pose proof (exp_pos (- (5/10) * x)). apply Rabs_def2 in B. assert (0 <= y) by lra. apply Rmult_le_pos; [apply Rmult_le_pos|]; assumption.
Qed.
Lemma lit_norms w w' : Forall (fun g => 0 <= g_p g) w -> Forall coherent w -> gmix_set_norms w = (w', Ok tt) -> Forall lit w'.
Proof.
  intros P C E. pose proof (norms_inv _ _ E C) as V. clear E C. induction V as [|h h' l l' Hh _ IH]; [constructor|]. inversion P as [|? ? P1 P2]; subst. constructor; [|apply IH; exact P2].
  destruct (visible_pos _ _ Hh) as (D & _). destruct Hh as (_ & _ & S & (_ & n & En & _ & _ & _ & _ & F)). destruct S as (S1 & _). unfold lit. rewrite En, F. rewrite <- S1.
  apply Rmult_le_pos; [exact P1|]. left. apply Rinv_0_lt_compat. apply Rmult_lt_0_compat; [pose proof PI_RGT_0; lra|]. apply sqrt_lt_R0. exact D.
Qed.

Section K.
Variable k : em_kind.
Definition PS (z : scr) : Prop := 0 <= s_gi z /\ psd (s_tv2 z) (s_tuv z) (s_tu2 z).
Definition PA (z : sums) : Prop := 0 <= a_pnew z /\ psd (a_v2 z) (a_uv z) (a_u2 z).
Lemma scratch_pos p x y : 0 <= px_area p -> PS (fst (fst x)) /\ 0 <= snd (fst x) -> forall g, lit (fst g) -> scratch_gauss k p x g = Ok y -> PS (fst (fst y)) /\ 0 <= snd (fst y).
Proof.
  destruct x as [[z gs] L]. intros A [[S1 S2] S3] [g ta] G E. cbn [fst snd] in *. unfold scratch_gauss in E. cbv zeta in E. destruct (em_val g (px_v p) (px_u p) (px_area p)) as [w|] eqn:W; [|discriminate].
  pose proof (val_nonneg _ _ _ _ _ G A W) as P. cbn [bind] in E. injection E as <-. cbn [fst snd]. split; [|lra]. unfold PS. cbn [s_gi s_tv2 s_tuv s_tu2]. split; [lra|].
  destruct (tracks_cov k); [|exact S2]. apply psd_add; [exact P|exact S2|apply psd_outer].
Qed.
Lemma foldM_inv {A S} (P : S -> Prop) (E : A -> Prop) (f : S -> A -> res S) l : Forall E l -> (forall x y e, E e -> P x -> f x e = Ok y -> P y) ->
  forall x y, P x -> foldM f l x = Ok y -> P y.
Proof.
  intros H K. induction H as [|e l He _ IH]; intros x y X Y; cbn [foldM] in Y; [injection Y as <-; exact X|].
  destruct (f x e) as [z|] eqn:Z; [|discriminate]. cbn [bind] in Y. apply (IH z y); [|exact Y]. eapply K; eassumption.
Qed.
Lemma Forall_combine_l {A B} (P : A -> Prop) (l : list A) : Forall P l -> forall m : list B, Forall (fun x => P (fst x)) (combine l m).
Proof. induction 1; intros [|y m]; cbn [combine]; constructor; auto. Qed.
Lemma F_firstn {A} (P : A -> Prop) l : Forall P l -> forall n, Forall P (firstn n l).
Proof. induction 1; intros [|n]; cbn; constructor; auto. Qed.
Lemma F_skipn {A} (P : A -> Prop) l : Forall P l -> forall n, Forall P (skipn n l).
Proof. intros H. induction H; intros [|n]; cbn; try constructor; auto. Qed.
Lemma do_scratch_pos p conv n tau z g L : 0 <= px_area p -> Forall lit conv -> do_scratch_sums k p conv n tau = Ok (z, g, L) -> Forall PS z /\ 0 <= g.
Proof.
  intros A C E. unfold do_scratch_sums in E. destruct (Nat.eqb n 0); [discriminate|]. cbv zeta in E.
  match type of E with context [foldM ?f ?l ?x] => set (F := f) in E; destruct (foldM F l x) as [[[z1 g1] L1]|] eqn:Z; [|discriminate] end. cbn [bind] in E. injection E as <- <- _.
  eapply (foldM_inv (fun y : list scr * R * option R => Forall PS (fst (fst y)) /\ 0 <= snd (fst y)) (fun _ => True) F) in Z; [exact Z|apply Forall_forall; auto| |cbn; split; [constructor|lra]].
  intros [[l1 g2] L2] y i _ [X1 X2] Y. unfold F in Y. cbn [fst snd] in X1, X2.
  destruct (foldM (scratch_gauss k p) _ _) as [[[s1 g3] L3]|] eqn:Z1; [|discriminate]. cbn [bind] in Y. injection Y as <-. cbn [fst snd].
  eapply (foldM_inv (fun y : scr * R * option R => PS (fst (fst y)) /\ 0 <= snd (fst y)) (fun x => lit (fst x))) in Z1.
  - cbn [fst snd] in Z1. split; [apply Forall_app; split; [exact X1|constructor; [apply Z1|constructor]]|apply Z1].
  - unfold chunk. apply F_firstn, F_skipn, Forall_combine_l. exact C.
  - intros x y e He Hx Hy. eapply scratch_pos; eassumption.
  - cbn [fst snd]. split; [|exact X2]. split; [cbn; lra|apply psd_0].
Qed.
Lemma do_sums_pos l z v g : Forall PA l -> Forall PS z -> 0 <= v -> 0 < g -> Forall PA (do_sums l z v g).
Proof.
  intros HL HZ V G. unfold do_sums. cbv zeta. assert (W : 0 <= v / g) by (apply Rmult_le_pos; [exact V|left; apply Rinv_0_lt_compat; exact G]).
  revert z HZ. induction HL as [|x l [X1 X2] _ IH]; intros z HZ; [constructor|]. destruct HZ as [|y z [Y1 Y2] HZ]; [constructor|]. cbn [combine map]. constructor; [|apply IH; exact HZ].
  split; cbn [a_pnew a_v2 a_uv a_u2]; [|apply psd_add; assumption]. pose proof (Rmult_le_pos _ _ Y1 W). lra.
Qed.
Lemma pixels_pos conv n tau sky pix l L ss x : Forall lit conv -> Forall bright pix -> 0 <= sky -> Forall PA (fst (fst x)) -> 0 <= snd x ->
  foldM (em_pixel k conv n tau sky) pix x = Ok (l, L, ss) -> Forall PA l /\ 0 <= ss.
Proof.
  intros C B S X1 X2 E. eapply (foldM_inv (fun y : list sums * option R * R => Forall PA (fst (fst y)) /\ 0 <= snd y) bright) in E; [exact E|exact B| |split; assumption].
  intros [[l1 L1] s1] y p [P1 P2] [Y1 Y2] H. cbn [fst snd] in *. unfold em_pixel in H. destruct (do_scratch_sums k p conv n tau) as [[[z g] T]|] eqn:Z; [|discriminate]. cbn [bind] in H. cbv zeta in H.
  destruct (do_scratch_pos _ _ _ _ _ _ _ P2 C Z) as [Z1 Z2]. destruct (Reqb_spec (g + sky) 0) as [N|N]; [discriminate|]. injection H as <-. cbn [fst snd]. assert (0 < g + sky) by lra. split.
  - apply do_sums_pos; assumption.
  - assert (0 <= sky * px_val p / (g + sky)) by (apply Rmult_le_pos; [apply Rmult_le_pos; assumption|left; apply Rinv_0_lt_compat; assumption]). lra.
Qed.

(** ** with the point psf *)
Definition point : gmix := [gauss2d_set 1 0 0 0 0 0].
Lemma point_flux : flux_of point = 1. Proof. unfold flux_of, point. cbn. lra. Qed.
Definition OKst (st : em_state) : Prop := Forall lit (e_conv st) /\ Forall bright (e_pix st) /\ 0 <= e_sky st.
Lemma fill_pos conv pix sky pix' : Forall lit conv -> Forall bright pix -> 0 <= sky -> fill_zero_weight_pixels conv pix sky = Ok pix' -> Forall bright pix'.
Proof.
  intros C B S. revert pix'. unfold fill_zero_weight_pixels. induction B as [|p l P B IH]; intros pix' E; cbn [mapM] in E; [injection E as <-; constructor|].
  destruct (Rleb (px_ierr p) 0).
  - destruct (gmix_eval_pixel_fast conv (px_v p) (px_u p) (px_area p)) as [v|] eqn:V; [|discriminate]. cbn [bind] in E.
    destruct (mapM _ l) as [r|]; [|discriminate]. cbn [bind] in E. injection E as <-. constructor; [|apply IH; reflexivity]. destruct P as [P1 P2]. split; cbn [px_val px_area]; [|exact P2].
    unfold gmix_eval_pixel_fast in V. eapply (foldM_inv (fun y => 0 <= y) lit) in V; [lra|exact C| |lra].
    intros x y g G X Y. cbn beta in Y. rewrite <- em_val_fast in Y. destruct (em_val g (px_v p) (px_u p) (px_area p)) as [w|] eqn:W; [|discriminate]. injection Y as <-.
    pose proof (val_nonneg _ _ _ _ _ G P2 W). lra.
  - cbn [bind] in E. destruct (mapM _ l) as [r|]; [|discriminate]. cbn [bind] in E. injection E as <-. constructor; [exact P|apply IH; reflexivity].
Qed.
Lemma point_moms : gmix_get_moms point = Ok (0, 0, 0, 0, 0, 1).
Proof.
  unfold gmix_get_moms. pose proof point_flux as F. rewrite cen_nb, F, Reqb_f by lra. cbn [bind].
  assert (R0 : row_of point = 0) by (unfold row_of, mean_of; rewrite F; unfold point; cbn; lra).
  assert (C0 : col_of point = 0) by (unfold col_of, mean_of; rewrite F; unfold point; cbn; lra).
  rewrite R0, C0, Reqb_f by lra. unfold point. cbn [fold_left gauss2d_set g_p g_row g_col g_irr g_irc g_icc]. repeat (f_equal; try lra).
Qed.
Lemma pass_pos fill st : OKst st -> pass_definite k point fill st.
Proof.
  intros (C & B & S) pix l L ss row col irr irc icc p F E M. rewrite point_moms in M. injection M as <- <- <- <- <- <-.
  assert (BP : Forall bright pix) by (destruct fill; [eapply fill_pos; eassumption|injection F as <-; exact B]).
  apply pixels_pos in E; [|exact C|exact BP|exact S| |cbn; lra].
  2:{ cbn [fst]. apply Forall_forall. intros x X. apply repeat_spec in X. subst x. split; [cbn; lra|apply psd_0]. }
  destruct E as [E _]. eapply Forall_impl; [|exact E]. intros x [X1 X2] N. unfold definite. cbv iota beta. apply psd_det in X2. unfold Rdiv.
  rewrite !Rminus_0_r. replace ((a_uv x * / a_pnew x) ^ 2) with (a_uv x ^ 2 * (/ a_pnew x * / a_pnew x)) by ring.
  replace (a_v2 x * / a_pnew x * (a_u2 x * / a_pnew x)) with (a_v2 x * a_u2 x * (/ a_pnew x * / a_pnew x)) by ring. apply Rmult_le_compat_r; [nra|exact X2].
Qed.
Lemma set_gauss_pos pc g x g' : PA x -> set_gauss k pc g x = Ok g' -> 0 <= g_p g'.
Proof.
  intros [P _] E. unfold set_gauss in E. cbv zeta in E. destruct pc as [[? ?] ?].
  destruct k; [destruct (Reqb (a_pnew x) 0); [discriminate|]; try (destruct (fix_cov _ _ _) as [[? ?] ?])..|]; injection E as <-; exact P.
Qed.
Lemma iter_pos cf fill i st st' stop : OKst st -> em_iter k cf point fill i st = Ok (st', stop) -> OKst st'.
Proof.
  intros (C & B & S) E. unfold em_iter in E. cbv zeta in E.
  destruct (if fill then fill_zero_weight_pixels (e_conv st) (e_pix st) (e_sky st) else Ok (e_pix st)) as [pix|] eqn:F; [|discriminate]. cbn [bind] in E.
  assert (BP : Forall bright pix) by (destruct fill; [eapply fill_pos; eassumption|injection F as <-; exact B]).
  destruct (foldM (em_pixel k (e_conv st) (length point) (set_logtau_logdet (e_conv st)) (e_sky st)) pix _) as [[[l L] ss]|] eqn:Z; [|discriminate]. cbn [bind] in E.
  apply pixels_pos in Z; [|exact C|exact BP|exact S| |cbn; lra].
  2:{ cbn [fst]. apply Forall_forall. intros x X. apply repeat_spec in X. subst x. split; [cbn; lra|apply psd_0]. }
  destruct Z as [PL PS'].
  destruct (gmix_set_from_sums k (e_gm st) point l) as [[gm conv]|] eqn:G; [|discriminate]. cbn [bind] in E.
  assert (LC : Forall lit conv).
  { unfold gmix_set_from_sums in G. destruct (match k with Free | FixCen => _ | _ => _ end) as [pc|]; [|discriminate]. cbn [bind] in G.
    destruct (mapM _ (combine (e_gm st) l)) as [gm1|] eqn:MM; [|discriminate]. cbn [bind] in G. rewrite convolve_views in G by (rewrite point_flux; lra). cbn [bind] in G.
    destruct (gmix_set_norms (views point gm1)) as [cv r] eqn:N. destruct r as [[]|]; [|discriminate]. cbn [bind] in G. injection G as <- <-.
    eapply lit_norms; [|apply views_coherent|exact N].
    assert (P1 : Forall (fun g => 0 <= g_p g) gm1).
    { clear - PL MM. revert l gm1 PL MM. induction (e_gm st) as [|g gm IH]; intros l gm1 PL MM; [cbn in MM; injection MM as <-; constructor|].
      destruct PL as [|x l X PL]; [cbn in MM; injection MM as <-; constructor|]. cbn [combine mapM] in MM.
      destruct (set_gauss k pc g x) as [g'|] eqn:SG; [|discriminate]. cbn [bind] in MM. destruct (mapM _ (combine gm l)) as [r|] eqn:R; [|discriminate]. cbn [bind] in MM. injection MM as <-.
      constructor; [eapply set_gauss_pos; eassumption|eapply IH; eassumption]. }
    clear - P1. unfold views. induction P1 as [|g gm P _ IH]; cbn [flat_map]; [constructor|]. apply Forall_app. split; [|exact IH]. unfold point. cbn [map]. constructor; [|constructor].
    fold point. unfold seen. rewrite point_flux. cbn [gauss2d_set g_p]. lra. }
  destruct (if c_vary_sky cf then _ else _) as [sky|] eqn:SK; [|discriminate]. cbn [bind] in E.
  assert (S' : 0 <= sky).
  { destruct (c_vary_sky cf); [|injection SK as <-; exact S]. destruct (Nat.eqb_spec (length pix) 0) as [NZ|NZ]; [discriminate|]. injection SK as <-.
    apply Rmult_le_pos; [exact PS'|]. left. apply Rinv_0_lt_compat, lt_0_INR. lia. }
  match type of E with bind ?x _ = _ => destruct x as [[fd sp]|]; [|discriminate] end. cbn [bind] in E. injection E as <- _. split; [exact LC|]. split; [exact BP|exact S'].
Qed.
Lemma passes_pos cf fill n : forall i st, OKst st -> passes_definite k cf point fill n i st.
Proof.
  induction n as [|n IH]; intros i st H; cbn [passes_definite]; [exact I|]. split; [apply pass_pos; exact H|].
  destruct (em_iter k cf point fill i st) as [[st' stop]|] eqn:E; [|exact I]. destruct stop; [exact I|]. apply IH. eapply iter_pos; eassumption.
Qed.
End K.
Lemma run_pos k cf px gm fill : Forall bright px -> 0 <= c_sky cf -> Forall (fun g => 0 <= g_p g) gm ->
  run_definite k cf px gm point (views point gm) fill.
Proof.
  intros B S P last N. apply passes_pos. split; [|split; [exact B|exact S]]. cbn [e_conv].
  destruct (gmix_set_norms (views point gm)) as [w r] eqn:E. cbn [snd fst] in *. subst r. eapply lit_norms; [|apply views_coherent|exact E].
  clear - P. unfold views. induction P as [|g gm P _ IH]; cbn [flat_map]; [constructor|]. apply Forall_app. split; [|exact IH]. unfold point. cbn [map]. constructor; [|constructor].
  fold point. unfold seen. rewrite point_flux. cbn [gauss2d_set g_p]. lra.
Qed.
