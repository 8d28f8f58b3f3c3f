From Verif Require Import Base Moments_Spec Pixels_Model GMix_Model GMix_Spec GMix_Proofs FastExp_Model FastExp_Proofs
  Render_Model Render_Spec Render_Proofs GaussAp_Proofs GMixObj_Model EM_Model EM_Spec EM_Proofs.
Local Open Scope R_scope.

(** ** convolution and psf moments *)
Lemma convolve_views gm psf : flux_of psf <> 0 -> gmix_convolve gm psf = Ok (views psf gm).
Proof.
  intros H. unfold gmix_convolve. rewrite cen_nb, Reqb_f by exact H. cbn [bind]. f_equal. unfold views.
  apply flat_map_ext. intros g. apply map_ext. intros q. unfold seen. f_equal. field. exact H.
Qed.
Lemma moms_fold row col gm : forall a b c,
  fold_left (fun s g => let '(irr, irc, icc) := s in
        let rowdiff := g_row g - row in
        let coldiff := g_col g - col in
        (irr + g_p g * (g_irr g + rowdiff ^ 2), irc + g_p g * (g_irc g + rowdiff * coldiff),
         icc + g_p g * (g_icc g + coldiff ^ 2))) gm (a, b, c) =
  (a + rsum (map (fun g => g_p g * (g_irr g + (g_row g - row) * (g_row g - row))) gm),
   b + rsum (map (fun g => g_p g * (g_irc g + (g_row g - row) * (g_col g - col))) gm),
   c + rsum (map (fun g => g_p g * (g_icc g + (g_col g - col) * (g_col g - col))) gm)).
Proof.
  induction gm as [|g gm IH]; intros a b c; cbn [fold_left map]; [rewrite !rsum_nil, !Rplus_0_r; reflexivity|].
  cbv zeta in *. rewrite IH, !rsum_cons. apply f_equal2; [apply f_equal2|]; ring.
Qed.
Lemma moms_eq psf : flux_of psf <> 0 ->
  gmix_get_moms psf = Ok (row_of psf, col_of psf, yy (cov_of psf), xy (cov_of psf), xx (cov_of psf), flux_of psf).
Proof.
  intros H. unfold gmix_get_moms. rewrite cen_nb, Reqb_f by exact H. cbn [bind]. rewrite moms_fold. rewrite Reqb_f by exact H.
  rewrite !Rplus_0_l. reflexivity.
Qed.

Definition abs (st : em_state) : em := mkEM (e_gm st) (e_pix st) (e_sky st).
Definition masked (p : pixel R) : bool := Rleb (px_ierr p) 0.

Section Iter.
Variables (k : em_kind) (c : em_conf) (psf : gmix) (fill : bool).
Hypothesis Hn : psf <> [].
Hypothesis Hf : flux_of psf <> 0.

Definition Inv (st : em_state) : Prop :=
  Forall2 visible (views psf (e_gm st)) (e_conv st) /\ fill = existsb masked (e_pix st).

Lemma filled_none s : existsb masked (m_pix s) = false -> filled psf s = m_pix s.
Proof.
  intros H. unfold filled. rewrite <- (map_id (m_pix s)) at 2. apply map_ext_in. intros p Hp.
  destruct (Rle_dec (px_ierr p) 0) as [L|L]; [|reflexivity].
  assert (K : existsb masked (m_pix s) = true) by (apply existsb_exists; exists p; split; [exact Hp|apply Rleb_t; exact L]). congruence.
Qed.
Lemma mapM_all {A B} (f : A -> res B) (g : A -> B) l : (forall x, f x = Ok (g x)) -> mapM f l = Ok (map g l).
Proof. intros H. induction l; cbn [mapM map]; [reflexivity|]. rewrite H, IHl. reflexivity. Qed.
Lemma fill_eq st : Inv st ->
  (if fill then fill_zero_weight_pixels (e_conv st) (e_pix st) (e_sky st) else Ok (e_pix st)) = Ok (filled psf (abs st)).
Proof.
  intros [V F]. destruct fill eqn:E.
  - unfold fill_zero_weight_pixels, filled. apply mapM_all. intros p. unfold Rleb. cbn [abs m_sky m_gm].
    destruct (Rle_dec (px_ierr p) 0); [|reflexivity]. unfold gmix_eval_pixel_fast. rewrite (fill_val _ _ p V). cbn [bind].
    rewrite Rplus_0_l. reflexivity.
  - rewrite filled_none; [reflexivity|symmetry; exact F].
Qed.
Lemma filled_ierr s : map px_ierr (filled psf s) = map px_ierr (m_pix s).
Proof. unfold filled. rewrite map_map. apply map_ext. intros p. destruct (Rle_dec (px_ierr p) 0); reflexivity. Qed.
Lemma existsb_map_ext {A B} (f : A -> B) (h : B -> bool) l l' : map f l = map f l' -> existsb (fun x => h (f x)) l = existsb (fun x => h (f x)) l'.
Proof.
  revert l'. induction l as [|x l IH]; intros [|y l'] E; cbn in *; try discriminate; [reflexivity|].
  injection E as E1 E2. rewrite E1, (IH _ E2). reflexivity.
Qed.
Lemma filled_masked s : existsb masked (filled psf s) = existsb masked (m_pix s).
Proof. apply (existsb_map_ext px_ierr (fun x => Rleb x 0)). apply filled_ierr. Qed.
Lemma filled_length s : length (filled psf s) = length (m_pix s).
Proof. unfold filled. apply map_length. Qed.

(** accumulated sums in terms of the specification *)
Lemma wsum_scale hs x p t : wsum hs x p * t = rsum (map (fun h => x h * in_pixel h p * t) hs).
Proof. unfold wsum. rewrite <- rsum_map_scale_r. reflexivity. Qed.
Lemma att_eq s g (x : gauss -> pixel R -> R) :
  rsum (map (fun p => wsum (hsof psf g) (fun h => x h p) p * (px_val p / tot psf (m_gm s) (m_sky s) p)) (filled psf s)) = attributed psf s g x.
Proof.
  unfold attributed. apply rsum_map_ext. intros p _. rewrite wsum_scale. unfold hsof. rewrite map_map. apply rsum_map_ext. intros q _.
  unfold share, total. fold (tot psf (m_gm s) (m_sky s) p). unfold Rdiv. ring.
Qed.
Definition sm (s : em) (g : gauss) : sums := acc k psf (m_gm s) (m_sky s) (filled psf s) sums0 g.
Lemma sm_eq s g : sm s g =
  mkSums (att_flux psf s g)
    (if tracks_cen k then attributed psf s g (fun _ p => px_v p) else 0)
    (if tracks_cen k then attributed psf s g (fun _ p => px_u p) else 0)
    (if tracks_cov k then attributed psf s g (fun h p => (px_v p - g_row h) * (px_v p - g_row h)) else 0)
    (if tracks_cov k then attributed psf s g (fun h p => (px_v p - g_row h) * (px_u p - g_col h)) else 0)
    (if tracks_cov k then attributed psf s g (fun h p => (px_u p - g_col h) * (px_u p - g_col h)) else 0).
Proof.
  unfold sm, acc. cbn [sums0 a_pnew a_v a_u a_v2 a_uv a_u2]. rewrite !Rplus_0_l.
  unfold scr_of; cbn [s_gi s_tv s_tu s_tv2 s_tuv s_tu2].
  assert (Z : rsum (map (fun p => 0 * (px_val p / tot psf (m_gm s) (m_sky s) p)) (filled psf s)) = 0)
    by (rewrite (rsum_map_ext _ (fun _ => 0)) by (intros; ring); apply rsum_zero).
  destruct (tracks_cen k), (tracks_cov k); f_equal; try exact Z.
  all: first [ apply (att_eq s g (fun _ _ => 1)) | apply (att_eq s g (fun _ p => px_v p)) | apply (att_eq s g (fun _ p => px_u p))
             | apply (att_eq s g (fun h p => (px_v p - g_row h) * (px_v p - g_row h)))
             | apply (att_eq s g (fun h p => (px_v p - g_row h) * (px_u p - g_col h)))
             | apply (att_eq s g (fun h p => (px_u p - g_col h) * (px_u p - g_col h))) ].
Qed.

Lemma fix_cov_spec irr irc icc m : positive_cov irr irc icc m <-> m = fix_cov irr irc icc.
Proof.
  unfold positive_cov, fix_cov, GMIX_LOW_DETVAL, Rltb.
  destruct (Rlt_dec irr 0); cbn [orb].
  2: destruct (Rlt_dec icc 0).
  all: cbv zeta; match goal with |- context [Rlt_dec (?a * ?c - ?b * ?b) _] => replace (a * c - b ^ 2) with (a * c - b * b) by ring end.
  all: destruct (Rlt_dec _ _); tauto.
Qed.

(** the update of one component *)
Definition upd_rel (s : em) (g g' : gauss) : Prop :=
  g_p g' = att_flux psf s g /\ new_cen k psf s g g' /\ new_cov k psf s g g'.
Definition six (g : gauss) := (g_p g, g_row g, g_col g, g_irr g, g_irc g, g_icc g).
Definition pcov : R * R * R := match k with Free | FixCen => (yy (cov_of psf), xy (cov_of psf), xx (cov_of psf)) | _ => (0, 0, 0) end.
Lemma set_gauss_ok s g g' : set_gauss k pcov g (sm s g) = Ok g' -> upd_rel s g g'.
Proof.
  rewrite sm_eq. unfold set_gauss, upd_rel, new_cen, new_cov, att_mean, pcov.
  destruct k; cbn [tracks_cen tracks_cov a_pnew a_v a_u a_v2 a_uv a_u2].
  1,2,3: unfold Reqb; destruct (Req_EM_T (att_flux psf s g) 0) as [E|E]; [discriminate|].
  1,2: match goal with |- context [fix_cov ?a ?b ?d] => destruct (fix_cov a b d) as [[x1 x2] x3] eqn:EF end;
       intros H; injection H as <-; cbn [gauss2d_set g_p g_row g_col g_irr g_irc g_icc];
       rewrite !(Rmult_comm _ (1 / _)) in EF || idtac.
  1: split; [reflexivity|]. 1: split; [split; [exact E|]; split; field; exact E|]. 1: split; [exact E|]; apply fix_cov_spec; rewrite <- EF; f_equal; field; exact E.
  1: split; [reflexivity|]. 1: split; [split; reflexivity|]. 1: split; [exact E|]; apply fix_cov_spec; rewrite <- EF; f_equal; field; exact E.
  1: intros H; injection H as <-; cbn [gauss2d_set g_p g_row g_col g_irr g_irc g_icc].
  1: split; [reflexivity|]. 1: split; [split; [exact E|]; split; field; exact E|repeat split].
  intros H; injection H as <-; cbn [gauss2d_set g_p g_row g_col g_irr g_irc g_icc]. repeat split.
Qed.
Lemma set_gauss_cases s g :
  (exists g', set_gauss k pcov g (sm s g) = Ok g') \/ set_gauss k pcov g (sm s g) = Raise ZeroDivisionError /\ k <> FluxOnly /\ att_flux psf s g = 0.
Proof.
  rewrite sm_eq. unfold set_gauss. unfold pcov. destruct k; cbn [a_pnew]; unfold Reqb.
  1,2,3: destruct (Req_EM_T (att_flux psf s g) 0); [right; split; [reflexivity|split; [discriminate|assumption]]|left].
  1,2: match goal with |- context [fix_cov ?a ?b ?d] => destruct (fix_cov a b d) as [[x1 x2] x3] end; eauto.
  all: eauto.
Qed.
Lemma upd_rel_unique s g g1 g2 : upd_rel s g g1 -> upd_rel s g g2 -> six g1 = six g2.
Proof.
  unfold upd_rel, new_cen, new_cov, six. intros (A1 & B1 & C1) (A2 & B2 & C2). rewrite A1, A2.
  assert (BB : g_row g1 = g_row g2 /\ g_col g1 = g_col g2).
  { destruct (tracks_cen k); [destruct B1 as (_ & -> & ->), B2 as (_ & -> & ->)|destruct B1 as (-> & ->), B2 as (-> & ->)]; auto. }
  assert (CC : (g_irr g1, g_irc g1, g_icc g1) = (g_irr g2, g_irc g2, g_icc g2)).
  { destruct (tracks_cov k); [destruct C1 as (_ & C1), C2 as (_ & C2); apply fix_cov_spec in C1, C2; congruence|].
    destruct C1 as (-> & -> & ->), C2 as (-> & -> & ->). reflexivity. }
  destruct BB as [-> ->]. congruence.
Qed.
Lemma upd_rel_flux s g g' : upd_rel s g g' -> k <> FluxOnly -> att_flux psf s g <> 0.
Proof. unfold upd_rel, new_cen, new_cov. intros (_ & A & B) H. destruct k; cbn in *; tauto. Qed.

Lemma six_seen g1 g2 q : six g1 = six g2 -> seen psf g1 q = seen psf g2 q.
Proof. unfold six, seen. intros E. injection E as -> -> -> -> -> ->. reflexivity. Qed.
Lemma six_views a b : Forall2 (fun x y => six x = six y) a b -> views psf a = views psf b.
Proof.
  induction 1 as [|x y l l' E _ IH]; [reflexivity|]. unfold views in *. cbn [flat_map]. rewrite IH. f_equal.
  apply map_ext. intros q. apply six_seen. exact E.
Qed.
Lemma six_flux a b : Forall2 (fun x y => six x = six y) a b -> flux_of a = flux_of b.
Proof.
  unfold flux_of. induction 1 as [|x y l l' E _ IH]; [reflexivity|]. cbn [map]. rewrite !rsum_cons, IH. f_equal. unfold six in E. congruence.
Qed.

(** the update of the mixture *)
Lemma from_sums_eq s : gmix_set_from_sums k (m_gm s) psf (map (sm s) (m_gm s)) =
  (let* gm' := mapM (fun g => set_gauss k pcov g (sm s g)) (m_gm s) in
   let (conv', r) := gmix_set_norms (views psf gm') in
   let* _ := r in Ok (gm', conv')).
Proof.
  unfold gmix_set_from_sums.
  assert (EC : (match k with
                  | Free | FixCen => let* (_, _, irr, irc, icc, _) := gmix_get_moms psf in Ok (irr, irc, icc)
                  | _ => Ok (0, 0, 0)
                  end) = Ok pcov).
  { unfold pcov. rewrite (moms_eq _ Hf). destruct k; reflexivity. }
  rewrite EC. cbn [bind].
  assert (EM : mapM (fun x : gauss * sums => let (g, t) := x in set_gauss k pcov g t) (combine (m_gm s) (map (sm s) (m_gm s))) =
               mapM (fun g => set_gauss k pcov g (sm s g)) (m_gm s)).
  { generalize (m_gm s) as l. clear. intros l. generalize (sm s) as F. intros F. induction l as [|g l IH]; [reflexivity|]. cbn [map combine mapM]. rewrite IH. reflexivity. }
  rewrite EM. clear EM. destruct (mapM (fun g => set_gauss k pcov g (sm s g)) (m_gm s)); cbn [bind]; [|reflexivity]. rewrite (convolve_views _ _ Hf). reflexivity.
Qed.
Lemma mapM_set s l : (exists l', mapM (fun g => set_gauss k pcov g (sm s g)) l = Ok l' /\ Forall2 (upd_rel s) l l') \/
  mapM (fun g => set_gauss k pcov g (sm s g)) l = Raise ZeroDivisionError /\ exists g, In g l /\ k <> FluxOnly /\ att_flux psf s g = 0.
Proof.
  induction l as [|g l IH]; [left; exists []; split; [reflexivity|constructor]|]. cbn [mapM].
  destruct (set_gauss_cases s g) as [(g' & E)|(E & E1 & E2)]; rewrite E; cbn [bind].
  - destruct IH as [(l' & -> & F)|(-> & g1 & I & J)]; cbn [bind].
    + left. exists (g' :: l'). split; [reflexivity|]. constructor; [apply set_gauss_ok; exact E|exact F].
    + right. split; [reflexivity|]. exists g1. split; [right; exact I|exact J].
  - right. split; [reflexivity|]. exists g. split; [left; reflexivity|]. split; assumption.
Qed.

(** ** one iteration *)
Definition watch (s s' : em) : option R := match k with FluxOnly => Some (flux_of (m_gm s')) | _ => log_like psf s end.
Definition legal (s s' : em) : Prop := em_step k psf (c_vary_sky c) s s' /\ Forall evaluable (views psf (m_gm s')).

Lemma legal_unique s s1 s2 : legal s s1 -> legal s s2 -> views psf (m_gm s1) = views psf (m_gm s2) /\ flux_of (m_gm s1) = flux_of (m_gm s2) /\ m_pix s1 = m_pix s2 /\ m_sky s1 = m_sky s2.
Proof.
  intros ((_ & A1 & B1 & C1) & _) ((_ & A2 & B2 & C2) & _).
  assert (F : Forall2 (fun x y => six x = six y) (m_gm s1) (m_gm s2)).
  { clear B1 B2 C1 C2. revert A2. generalize (m_gm s2). induction A1 as [|g g1 l l1 H1 _ IH]; intros l2 A2; inversion A2; subst; constructor; auto.
    eapply upd_rel_unique; eassumption. }
  split; [apply six_views; exact F|]. split; [apply six_flux; exact F|]. split; [congruence|].
  destruct (c_vary_sky c); [destruct C1 as [_ ->], C2 as [_ ->]; reflexivity|congruence].
Qed.

Lemma repeat_map {A B} (x : B) (l : list A) : repeat x (length l) = map (fun _ => x) l.
Proof. induction l; cbn; congruence. Qed.
Lemma plogL_log s : osum (map (plogL psf (m_gm s)) (filled psf s)) = log_like psf s.
Proof. reflexivity. Qed.

(** what an iteration does once the sums are known *)
Definition finish_iter (i : nat) (st : em_state) (gm conv : gmix) (sky : R) : res (em_state * bool) :=
  let elogL := match k with FluxOnly => Some (rsum (map g_p gm)) | _ => log_like psf (abs st) end in
  let* (fdiff, stop) :=
    if Nat.leb (c_miniter c) (S i) then
      let* d := em_test k elogL (e_last st) in
      Ok (Some d, match d with Some x => Rltb x (c_tol c) | None => false end)
    else Ok (e_fdiff st, false) in
  Ok (mkSt gm conv (filled psf (abs st)) sky (if stop then e_last st else elogL) fdiff, stop).
Lemma iter_eq i st : Inv st ->
  (~ Forall (fun p => total psf (abs st) p <> 0) (filled psf (abs st)) -> em_iter k c psf fill i st = Raise GMixRangeError) /\
  (Forall (fun p => total psf (abs st) p <> 0) (filled psf (abs st)) ->
   em_iter k c psf fill i st =
   (let* (gm, conv) := gmix_set_from_sums k (m_gm (abs st)) psf (map (sm (abs st)) (m_gm (abs st))) in
    let* sky := if c_vary_sky c then
                if Nat.eqb (length (filled psf (abs st))) 0 then Raise ZeroDivisionError
                else Ok (sky_flux psf (abs st) / INR (length (filled psf (abs st))))
              else Ok (e_sky st) in
    finish_iter i st gm conv sky)).
Proof.
  intros I. pose proof (fill_eq st I) as FE. destruct I as [V F].
  destruct (pixel_loop k psf (e_gm st) (e_conv st) V Hn (e_sky st) (filled psf (abs st)) (fun _ => sums0) (Some 0) 0) as [P1 P2].
  split; intros H.
  - unfold em_iter. rewrite FE. cbn [bind]. rewrite repeat_map. rewrite (P2 H). reflexivity.
  - unfold em_iter. rewrite FE. cbn [bind]. rewrite repeat_map. rewrite (P1 H). cbn [bind].
    change (map (fun g => acc k psf (e_gm st) (e_sky st) (filled psf (abs st)) sums0 g) (e_gm st)) with (map (sm (abs st)) (m_gm (abs st))).
    change (e_gm st) with (m_gm (abs st)) at 1.
    destruct (gmix_set_from_sums k (m_gm (abs st)) psf (map (sm (abs st)) (m_gm (abs st)))) as [[gm conv]|e]; [|reflexivity]. cbn [bind].
    rewrite Rplus_0_l.
    assert (ES : rsum (map (fun p => e_sky st * px_val p / tot psf (e_gm st) (e_sky st) p) (filled psf (abs st))) = sky_flux psf (abs st)).
    { unfold sky_flux. apply rsum_map_ext. intros p _. unfold total, tot. cbn [abs m_gm m_sky]. unfold Rdiv. ring. }
    rewrite ES, nan_add_0_l, plogL_log || rewrite ES, nan_add_0_l.
    change (osum (map (plogL psf (e_gm st)) (filled psf (abs st)))) with (log_like psf (abs st)). reflexivity.
Qed.

Lemma rsum_flux gm : rsum (map g_p gm) = flux_of gm. Proof. reflexivity. Qed.

Lemma iter_sound i st st' stop : Inv st -> em_iter k c psf fill i st = Ok (st', stop) ->
  legal (abs st) (abs st') /\ Inv st' /\
  (if Nat.leb (c_miniter c) (S i)
   then exists d, em_test k (watch (abs st) (abs st')) (e_last st) = Ok d /\ e_fdiff st' = Some d /\
          stop = match d with Some x => Rltb x (c_tol c) | None => false end
   else e_fdiff st' = e_fdiff st /\ stop = false) /\
  (stop = false -> e_last st' = watch (abs st) (abs st')).
Proof.
  intros I E. destruct (iter_eq i st I) as [R1 R2].
  assert (Hnz : Forall (fun p => total psf (abs st) p <> 0) (filled psf (abs st))).
  { destruct (Forall_Exists_dec (fun p => total psf (abs st) p <> 0)) with (l := filled psf (abs st)) as [K|K]; [|exact K|].
    - intros p. destruct (Req_EM_T (total psf (abs st) p) 0) as [Z|Z]; [right; tauto|left; exact Z].
    - exfalso. assert (~ Forall (fun p => total psf (abs st) p <> 0) (filled psf (abs st))) as N.
      { intros A. apply Exists_exists in K. destruct K as (p & Hp & Np). rewrite Forall_forall in A. exact (Np (A p Hp)). }
      rewrite (R1 N) in E. discriminate. }
  rewrite (R2 Hnz) in E. clear R1 R2. rewrite from_sums_eq in E.
  destruct (mapM_set (abs st) (m_gm (abs st))) as [(gm' & Eg & F2)|(Eg & _)]; rewrite Eg in E; cbn [bind] in E; [|discriminate].
  destruct (gmix_set_norms (views psf gm')) as [conv' r] eqn:EN. destruct r as [[]|e]; cbn [bind] in E; [|discriminate].
  pose proof (norms_inv _ _ EN (views_coherent psf gm')) as V'.
  assert (HE : Forall evaluable (views psf gm')) by (apply (same_of_norms _ _ EN), views_coherent).
  set (sky' := if c_vary_sky c then _ else _) in E.
  destruct sky' as [sky|e] eqn:ESK; unfold sky' in ESK; clear sky'; cbn [bind] in E; [|discriminate].
  unfold finish_iter in E.
  set (L := match k with FluxOnly => _ | _ => _ end) in E.
  assert (EL : L = watch (abs st) (mkEM gm' (filled psf (abs st)) sky)) by (unfold L, watch; destruct k; reflexivity).
  assert (ST : legal (abs st) (mkEM gm' (filled psf (abs st)) sky)).
  { split; [|exact HE]. split; [rewrite Forall_forall in Hnz; exact Hnz|]. split; [exact F2|]. split; [reflexivity|].
    destruct (c_vary_sky c).
    - destruct (Nat.eqb_spec (length (filled psf (abs st))) 0) as [Z|Z]; [discriminate|]. injection ESK as <-. cbn [m_sky].
      rewrite filled_length in *. split; [intros K; rewrite K in Z; apply Z; reflexivity|reflexivity].
    - injection ESK as <-. reflexivity. }
  assert (II : forall last fd, Inv (mkSt gm' conv' (filled psf (abs st)) sky last fd)).
  { intros last fd. split; [exact V'|]. cbn [e_pix]. rewrite filled_masked. apply I. }
  destruct (Nat.leb (c_miniter c) (S i)) eqn:EB.
  - destruct (em_test k L (e_last st)) as [d|e] eqn:ET; cbn [bind] in E; [|discriminate].
    injection E as <- <-. unfold abs at 2. cbn [e_gm e_pix e_sky e_fdiff e_last]. split; [exact ST|]. split; [apply II|].
    split; [exists d; split; [rewrite EL in ET; exact ET|split; reflexivity]|].
    intros ->. exact EL.
  - cbn [bind] in E. injection E as <- <-. unfold abs at 2. cbn [e_gm e_pix e_sky e_fdiff e_last]. split; [exact ST|]. split; [apply II|].
    split; [split; reflexivity|]. intros _. exact EL.
Qed.
Lemma em_test_raise w l e : em_test k w l = Raise e -> e = GMixRangeError \/ e = ZeroDivisionError.
Proof.
  unfold em_test. destruct k; destruct w; try discriminate.
  4: destruct l; [|discriminate].
  all: destruct (Reqb _ 0); try discriminate; intros H; injection H as <-; auto.
Qed.
Lemma iter_raise i st e : Inv st -> em_iter k c psf fill i st = Raise e ->
  (e = GMixRangeError \/ e = ZeroDivisionError) /\
  forall s', legal (abs st) s' -> exists e', (c_miniter c <= S i)%nat /\ em_test k (watch (abs st) s') (e_last st) = Raise e'.
Proof.
  intros I E. destruct (iter_eq i st I) as [R1 R2].
  destruct (Forall_Exists_dec (fun p => total psf (abs st) p <> 0)) with (l := filled psf (abs st)) as [K|K].
  { intros p. destruct (Req_EM_T (total psf (abs st) p) 0) as [Z|Z]; [right; tauto|left; exact Z]. }
  2:{ assert (~ Forall (fun p => total psf (abs st) p <> 0) (filled psf (abs st))) as N.
      { intros A. apply Exists_exists in K. destruct K as (p & Hp & Np). rewrite Forall_forall in A. exact (Np (A p Hp)). }
      rewrite (R1 N) in E. injection E as <-. split; [auto|]. intros s' ((T & _) & _). exfalso. apply N. apply Forall_forall. exact T. }
  rewrite (R2 K) in E. clear R1 R2. rewrite from_sums_eq in E.
  destruct (mapM_set (abs st) (m_gm (abs st))) as [(gm' & Eg & F2)|(Eg & g & Ig & Kg & Zg)]; rewrite Eg in E; cbn [bind] in E.
  2:{ injection E as <-. split; [auto|]. intros s' ((_ & F & _) & _). exfalso.
      apply In_nth_error in Ig. destruct Ig as (n & Hnth). 
      assert (exists g', upd_rel (abs st) g g') as (g' & U).
      { clear - F Hnth. revert n Hnth. induction F as [|a b l l' H _ IH]; intros [|n] Hnth; cbn in Hnth; try discriminate; [injection Hnth as <-; eauto|eauto]. }
      exact (upd_rel_flux _ _ _ U Kg Zg). }
  assert (SAME : forall s', legal (abs st) s' -> Forall2 (fun x y => six x = six y) gm' (m_gm s')).
  { intros s' ((_ & F & _) & _). clear - F F2. revert F. generalize (m_gm s'). induction F2 as [|a b l l' H1 _ IH]; intros l2 F; inversion F; subst; constructor; auto.
    eapply upd_rel_unique; eassumption. }
  destruct (evaluable_all_dec (views psf gm')) as [Ev|Ev].
  2:{ destruct (norms_fail _ (views_coherent psf gm') Ev) as (x & EN). rewrite EN in E. cbn [bind] in E. injection E as <-. split; [auto|].
      intros s' Ls. exfalso. apply Ev. rewrite (six_views _ _ (SAME s' Ls)). apply Ls. }
  destruct (norms_ok _ (views_coherent psf gm') Ev) as (conv' & EN & _). rewrite EN in E. cbn [bind] in E.
  destruct (c_vary_sky c) eqn:EV.
  2:{ cbn [bind] in E. unfold finish_iter in E. destruct (Nat.leb_spec (c_miniter c) (S i)) as [Lm|Lm]; [|cbn [bind] in E; discriminate].
      destruct (em_test k _ (e_last st)) as [d|e'] eqn:ET; cbn [bind] in E; [discriminate|]. injection E as ->.
      split; [exact (em_test_raise _ _ _ ET)|]. intros s' Ls. exists e. split; [exact Lm|].
      rewrite <- ET. f_equal. unfold watch. destruct k; try reflexivity. rewrite rsum_flux, (six_flux _ _ (SAME s' Ls)). reflexivity. }
  destruct (Nat.eqb_spec (length (filled psf (abs st))) 0) as [Z|Z]; cbn [bind] in E.
  { injection E as <-. split; [auto|]. intros s' ((_ & _ & _ & C) & _). rewrite EV in C. exfalso. apply C. rewrite filled_length in Z.
    destruct (m_pix (abs st)); [reflexivity|discriminate]. }
  unfold finish_iter in E. destruct (Nat.leb_spec (c_miniter c) (S i)) as [Lm|Lm]; [|cbn [bind] in E; discriminate].
  destruct (em_test k _ (e_last st)) as [d|e'] eqn:ET; cbn [bind] in E; [discriminate|]. injection E as ->.
  split; [exact (em_test_raise _ _ _ ET)|]. intros s' Ls. exists e. split; [exact Lm|].
  rewrite <- ET. f_equal. unfold watch. destruct k; try reflexivity. rewrite rsum_flux, (six_flux _ _ (SAME s' Ls)). reflexivity.
Qed.
End Iter.
