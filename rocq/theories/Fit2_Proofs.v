(** C61, C62, C64: residuals and probabilities in terms of the mixtures. *)
From Verif Require Import Base XReal Jacobian_Model Pixels_Model GMix_Model GMix_Spec GMix_Proofs GMixObj_Model GMixObj_Proofs
  Render_Model Render_Spec Render_Proofs Priors_Model Joint_Model Joint_Spec Joint_Proofs Fit_Model Fit_Spec Fit_Proofs.
Local Open Scope R_scope.

Lemma mapM_app {A B} (f : A -> res B) a b : mapM f (a ++ b) = let* x := mapM f a in let* y := mapM f b in Ok (x ++ y).
Proof. induction a as [|h a IH]; cbn [app mapM bind]; [destruct (mapM f b); reflexivity|]. destruct (f h); [|reflexivity]. cbn [bind]. rewrite IH.
  destruct (mapM f a); [|reflexivity]. cbn [bind]. destruct (mapM f b); reflexivity. Qed.
Lemma mapM_map' {A B C} (f : B -> res C) (g : A -> B) l : mapM f (map g l) = mapM (fun x => f (g x)) l.
Proof. induction l as [|a l IH]; [reflexivity|]. cbn [map mapM]. rewrite IH. reflexivity. Qed.
Lemma mapM_ext_F2 {A A' B C} (f : A -> res B) (g : A' -> res C) (h : B -> C) l l' : Forall2 (fun a a' => rmap h (f a) = g a') l l' -> rmap (map h) (mapM f l) = mapM g l'.
Proof.
  induction 1 as [|a a' l l' H _ IH]; [reflexivity|]. cbn [mapM]. rewrite <- H, <- IH. destruct (f a); [|reflexivity]. cbn [bind rmap]. destruct (mapM f l); reflexivity.
Qed.

(** ** the mixtures of the fit are those of the interface *)
Lemma bands_mix_flat m dopsf pars obs : forall b, (forall i, (i < length obs)%nat -> exists bp, band_pars_of m pars (b + i) = Ok bp) ->
  rmap (@concat _) (bands_mix m dopsf pars b obs) =
  mapM (fun t => let* bp := band_pars_of m pars (fst t) in one_mix m dopsf bp (snd t)) (bands_from b obs).
Proof.
  unfold bands_from. induction obs as [|os obs IH]; intros b H; [reflexivity|].
  cbn [bands_mix length seq combine map concat fst snd]. rewrite mapM_app, mapM_map'. cbn [fst snd].
  destruct (H 0%nat ltac:(cbn; lia)) as [bp Eb]. rewrite Nat.add_0_r in Eb. rewrite Eb. cbn [bind].
  destruct (mapM (one_mix m dopsf bp) os) as [l|]; [|reflexivity]. cbn [bind].
  rewrite <- IH. 2:{ intros i Hi. replace (S b + i)%nat with (b + S i)%nat by lia. apply H. cbn; lia. }
  destruct (bands_mix m dopsf pars (S b) obs); reflexivity.
Qed.
Lemma positions_at F obs : forall b pre, f_obs F = pre ++ obs -> length pre = b ->
  Forall2 (fun p t => obs_at F (fst p) (snd p) = Ok (snd t) /\ fst p = fst t /\ (fst p < length (f_obs F))%nat) (positions_from b obs) (bands_from b obs).
Proof.
  unfold positions_from, bands_from. induction obs as [|os obs IH]; intros b pre E L; [constructor|].
  cbn [length seq combine map concat fst snd]. apply Forall2_app.
  - assert (G : forall i, (i < length os)%nat -> exists o, nth_error os i = Some o /\ obs_at F b i = Ok o).
    { intros i Hi. destruct (nth_error os i) as [o|] eqn:Eo; [|apply nth_error_None in Eo; lia]. exists o. split; [reflexivity|].
      unfold obs_at. rewrite E, nth_error_app2 by lia. rewrite L, Nat.sub_diag. cbn [nth_error]. rewrite Eo. reflexivity. }
    assert (Lb : (b < length (f_obs F))%nat) by (rewrite E, app_length; cbn; lia).
    clear - G Lb. assert (K : forall i s, (i + length s = length os)%nat -> skipn i os = s ->
       Forall2 (fun p t => obs_at F (fst p) (snd p) = Ok (snd t) /\ fst p = fst t /\ (fst p < length (f_obs F))%nat) (map (fun i => (b, i)) (seq i (length s))) (map (fun o => (b, o)) s)).
    { intros i s; revert i; induction s as [|o s IH]; intros i H1 H2; [constructor|]. cbn [length seq map] in *.
      destruct (G i ltac:(lia)) as (o' & E1 & E2). constructor.
      - cbn [fst snd]. assert (o' = o). { pose proof (firstn_skipn i os) as K. rewrite H2 in K. rewrite <- K in E1. rewrite nth_error_app2 in E1 by (rewrite firstn_length; lia).
          rewrite firstn_length, Nat.min_l, Nat.sub_diag in E1 by lia. cbn in E1. congruence. } subst o'. auto.
      - apply IH; [lia|]. rewrite <- (skipn_skipn' os i 1) || idtac. replace (S i) with (i + 1)%nat by lia. rewrite <- (skipn_skipn' os i 1), H2. reflexivity. }
    exact (K 0%nat os eq_refl eq_refl).
  - apply (IH (S b) (pre ++ [os])); [rewrite <- app_assoc; exact E|rewrite app_length; cbn; lia].
Qed.
Lemma band_pars_ok m obs pars b : length pars = n_pars m obs -> (b < length obs)%nat ->
  exists bp, band_pars_of m pars b = Ok bp /\ length bp = mnp m.
Proof.
  intros L Hb. destruct m as [m|n]; cbn [band_pars_of mnp].
  - unfold n_pars in L. unfold get_band_pars.
    assert (G : forall k num, num = model_npars m -> (k + 1 <= num)%nat -> exists bp, slice_and_one num k b pars = Ok bp /\ length bp = num).
    { intros k num -> Hk. unfold slice_and_one. destruct (Nat.ltb_spec (length pars) k) as [Hl|Hl]; [lia|]. rewrite Bool.andb_false_r.
      destruct (nth_error pars (k + b)) as [x|] eqn:Ex; [|apply nth_error_None in Ex; lia].
      eexists; split; [reflexivity|]. rewrite !app_length, firstn_length, repeat_length. cbn [length]. lia. }
    destruct m; apply G; cbn; (reflexivity || lia).
  - exists pars. split; [reflexivity|exact L].
Qed.
Lemma make_pure m bp : length bp = mnp m -> rmap o_data (make_model m bp) = pure_fill m bp.
Proof.
  intros L. unfold pure_fill. rewrite L, Nat.eqb_refl. destruct m as [m|n]; cbn [make_model mkind mng mnp] in *.
  - destruct m; cbn [new_model]; try reflexivity; unfold finish, obj_fill, obj__fill; cbn [blank o_npars o_kind o_ngauss]; rewrite L; cbn [Nat.eqb negb model_npars];
      match goal with |- context [fill_func ?k ?n bp] => destruct (fill_func k n bp); reflexivity end.
  - unfold new_coellip. rewrite L. replace (Z.of_nat (4 + 2 * n) - 4)%Z with (Z.of_nat n * 2)%Z by lia. rewrite Z.mod_mul by lia. cbn [Z.eqb negb].
    destruct (Nat.ltb_spec (4 + 2 * n) 4); [lia|]. replace ((4 + 2 * n - 4) / 2)%nat with n by (replace (4 + 2 * n - 4)%nat with (n * 2)%nat by lia; rewrite Nat.div_mul; lia).
    unfold finish, obj__fill. cbn [blank o_kind o_ngauss]. destruct (fill_func KCoellip n bp); reflexivity.
Qed.
Lemma conv_pure F pars b i o bp : length bp = mnp (f_model F) -> band_pars_of (f_model F) pars b = Ok bp -> obs_at F b i = Ok o ->
  (has_psf_gmix o = true -> exists psf, psf_gmix o = Ok psf) ->
  rmap o_data (get_convolved_gmix F pars b i) = one_mix (f_model F) (has_psf_gmix o) bp o.
Proof.
  intros L Eb Eo Hp. unfold get_convolved_gmix, get_gmix. rewrite Eb, Eo. cbn [bind]. pose proof (make_pure _ _ L) as M. unfold one_mix. rewrite <- M.
  destruct (has_psf_gmix o).
  - destruct (Hp eq_refl) as [psf Ep]. rewrite Ep. cbn [bind]. destruct (make_model (f_model F) bp) as [g|]; [|reflexivity]. cbn [bind rmap].
    unfold obj_convolve. destruct (gmix_convolve (o_data g) (o_data psf)); reflexivity.
  - destruct (make_model (f_model F) bp); reflexivity.
Qed.

Record made (m : fmodel) (obs : list (list fobs)) (prior : option jprior) (F : fit) : Prop := mkMade
  { md_model : f_model F = m; md_obs : f_obs F = obs; md_prior : f_prior F = prior; md_npars : f_npars F = n_pars m obs;
    md_size : f_size F = (f_totpix F + f_n_prior F)%nat;
    md_pixels : mapM obs_pixels (concat obs) = Ok (f_pixels F);
    md_totpix : f_totpix F = list_sum (map (@length _) (f_pixels F));
    md_nprior : match m with
      | FName m => match prior with None => f_n_prior F = 0%nat | Some _ => get_lm_n_prior_pars m (length obs) = Ok (f_n_prior F) end
      | FCoellip n => length obs = 1%nat /\ f_n_prior F = match prior with None => 0%nat | Some _ => (3 + 2 * n)%nat end end;
    md_first : exists o os l, obs = (o :: os) :: l /\ f_dopsf F = has_psf_gmix o;
    md_ok : okF F;
    md_psf : f_dopsf F = true -> Forall (fun o => exists psf, psf_gmix o = Ok psf) (concat obs) }.
Lemma fit_made m obs prior F : fit_of m obs prior F -> made m obs prior F.
Proof.
  intros (guess & F0 & H & E). destruct (init_parts _ _ _ _ _ H) as (A1&A2&A3&A4&A5&A6&A7&A8&A9&A10&A11&O&A12).
  destruct (evolved_ok F0 F O E) as [O' [g ->]]. constructor; try assumption.
Qed.
Lemma made_lnprob m obs prior F pars : made m obs prior F -> snd (calc_lnprob F pars) = pure_lnprob F pars.
Proof. intros M. exact (proj2 (proj2 (lnprob_pure F pars (md_ok _ _ _ _ M)))). Qed.
Lemma made_fdiff m obs prior F pars : made m obs prior F -> snd (calc_fdiff F pars) = pure_fdiff F pars.
Proof. intros M. exact (proj2 (proj2 (fdiff_pure F pars (md_ok _ _ _ _ M)))). Qed.

Lemma mixtures_pure m obs prior F pars : made m obs prior F -> uniform_psf obs -> length pars = n_pars m obs ->
  rmap (map o_data) (mixtures F pars) = rmap (@concat _) (bands_mix (f_model F) (f_dopsf F) pars 0 (f_obs F)).
Proof.
  intros M U L. destruct M. subst m. rewrite md_obs0.
  rewrite bands_mix_flat. 2:{ intros i Hi. destruct (band_pars_ok (f_model F) obs pars i L Hi) as (bp & E & _). exists bp; exact E. }
  unfold mixtures. rewrite md_obs0. apply mapM_ext_F2.
  pose proof (positions_at F obs 0 [] md_obs0 eq_refl) as P. rewrite md_obs0 in P.
  assert (Ub : forall o, In o (concat obs) -> has_psf_gmix o = f_dopsf F).
  { destruct md_first0 as (o & os & l & -> & ->). destruct U as [U|U]; intros x Hx; rewrite (U x Hx), (U o (or_introl eq_refl)); reflexivity. }
  assert (In_b : forall b (l : list (list fobs)) t, In t (bands_from b l) -> In (snd t) (concat l)).
  { clear. intros b l; revert b; induction l as [|os l IH]; intros b t; [cbn; tauto|]. unfold bands_from. cbn [length seq combine map concat fst snd].
    rewrite !in_app_iff. intros [H|H]; [left; apply in_map_iff in H; destruct H as (o & <- & H); exact H|right; exact (IH _ _ H)]. }
  assert (Q : Forall (fun t => In (snd t) (concat obs)) (bands_from 0 obs)) by (apply Forall_forall; intros t Ht; exact (In_b _ _ _ Ht)).
  unfold positions. revert P Q. generalize (positions_from 0 obs) as ps, (bands_from 0 obs) as ts. intros ps ts P.
  induction P as [|p t ps ts (H1 & H2 & H3) _ IH]; intros Q; constructor.
  - apply Forall_cons_iff in Q. destruct Q as [Q _]. destruct (band_pars_ok (f_model F) obs pars (fst p) L H3) as (bp & Eb & Lb).
    rewrite <- H2. rewrite Eb. cbn [bind].
    rewrite (conv_pure F pars (fst p) (snd p) (snd t) bp Lb Eb H1); [rewrite (Ub _ Q); reflexivity|].
    intros Hp. rewrite (Ub _ Q) in Hp. pose proof (md_psf0 Hp) as Fp. rewrite Forall_forall in Fp. exact (Fp _ Q).
  - apply IH. apply Forall_cons_iff in Q; apply Q.
Qed.

(** ** evaluating fresh mixtures *)
Definition mdl (d : gmix) (p : pixel R) : R := fastval (fst (set_norms_if_needed d)) (px_v p) (px_u p) (px_area p).
Definition fresh_mix (d : gmix) : Prop := Forall raw d /\ d <> [].
Lemma fdiff_x_loop gm' pixels : forall fdiff start k,
  (start + k + length pixels <= length fdiff)%nat ->
  foldM (fun (s : list xr * nat) p =>
      let '(fdiff, ipixel) := s in
      let* model_val := gmix_eval_pixel_fast gm' (px_v p) (px_u p) (px_area p) in
      let* fdiff' := put fdiff (start + ipixel) (Fin ((model_val - px_val p) * px_ierr p)) in
      Ok (fdiff', S ipixel)) pixels (fdiff, k) =
   Ok (firstn (start + k) fdiff ++ map (fun p => Fin ((fastval gm' (px_v p) (px_u p) (px_area p) - px_val p) * px_ierr p)) pixels
         ++ skipn (start + k + length pixels) fdiff, (k + length pixels)%nat).
Proof.
  induction pixels as [|p pixels IH]; intros fdiff start k H; cbn [foldM map length app].
  - rewrite !Nat.add_0_r. rewrite firstn_skipn. reflexivity.
  - rewrite fastval_eq. cbn [bind]. cbn [length] in H.
    assert (Hk : (start + k < length fdiff)%nat) by lia. rewrite put_ok by exact Hk. cbn [bind].
    set (x := Fin ((fastval gm' (px_v p) (px_u p) (px_area p) - px_val p) * px_ierr p)).
    rewrite IH by (rewrite upd_length; lia). clear - Hk. f_equal. f_equal; [|lia].
    replace (start + S k)%nat with (S (start + k)) by lia.
    replace (S (start + k) + length pixels)%nat with (start + k + S (length pixels))%nat by lia.
    assert (A : firstn (S (start + k)) (Jacobian_Model.upd fdiff (start + k) x) = firstn (start + k) fdiff ++ [x]).
    { revert Hk. generalize (start + k)%nat. clear. intros i; revert fdiff; induction i as [|i IH]; intros [|y l] H; cbn in *; try lia; [reflexivity|].
      f_equal. apply IH. lia. }
    rewrite A, <- app_assoc. cbn [app]. do 3 f_equal.
    revert Hk. generalize (start + k)%nat (length pixels). clear. intros i n; revert fdiff; induction i as [|i IH]; intros [|y l] H; cbn in *; try lia; [reflexivity|]. apply IH. lia.
Qed.
Lemma fresh_dec (d : gmix) : Forall evaluable d \/ ~ Forall evaluable d. Proof. apply Classical_Prop.classic. Qed.
Lemma fresh_good d : fresh_mix d -> Forall evaluable d -> good_gmix d.
Proof.
  intros [Fr N] E. split; [exact N|]. split; [eapply Forall_impl; [|exact Fr]; intros g [C _]; exact C|]. split; [exact E|].
  intros g rest -> Hn. apply Forall_cons_iff in Fr. destruct Fr as [[_ K] _]. congruence.
Qed.
Lemma eval_good d : fresh_mix d -> Forall evaluable d -> forall px,
  (forall p, Rabs (mdl d p - pixel_model d p) <= 4/100000 * peak d * Rabs (px_area p)) /\
  snd (get_loglike d px) = Ok (- rsum (map (fun p => resid (mdl d) p ^ 2) px) / 2, rsum (map (fun p => px_val p * mdl d p * px_ierr p ^ 2) px),
                rsum (map (fun p => mdl d p ^ 2 * px_ierr p ^ 2) px), length px) /\
  forall fd start, (start + length px <= length fd)%nat ->
    snd (fill_fdiff_x d px fd start) = Ok (firstn start fd ++ map Fin (map (resid (mdl d)) px) ++ skipn (start + length px) fd).
Proof.
  intros Fr E px. pose proof (fresh_good d Fr E) as G. destruct (norms_if_needed d G) as (d' & En & S & N).
  assert (M : mdl d = fun p => fastval d' (px_v p) (px_u p) (px_area p)) by (unfold mdl; rewrite En; reflexivity).
  destruct (likelihood_good d px (repeat 0 (length px)) 0 G ltac:(rewrite repeat_length; lia)) as (d2 & model & S2 & B & H1 & H2 & _).
  assert (Em : d2 = d').
  { unfold fill_fdiff in H1. rewrite En in H1. injection H1 as H1 _. congruence. }
  subst d2.
  split; [|split].
  - destruct G as (G0 & G1 & G2 & G3). destruct (good_parts d d' G1 G2 S) as (P & B' & K). intros p. rewrite M.
    destruct (eval_pixel_fast d' (px_v p) (px_u p) (px_area p) P N) as (y & Ey & By). rewrite fastval_eq in Ey. injection Ey as <-. rewrite B', K in By. exact By.
  - unfold get_loglike. rewrite En. cbn [snd bind]. rewrite loglike_sum. cbn [bind]. rewrite !Rplus_0_l, Nat.add_0_l. rewrite M. f_equal. f_equal. f_equal. f_equal.
    unfold resid. rewrite (rsum_map_ext (fun p => (fastval d' (px_v p) (px_u p) (px_area p) - px_val p)^2 * px_ierr p ^ 2) (fun p => ((fastval d' (px_v p) (px_u p) (px_area p) - px_val p) * px_ierr p)^2)) by (intros; ring).
    field.
  - intros fd start L. unfold fill_fdiff_x. rewrite En. cbn [snd bind]. rewrite fdiff_x_loop by lia. cbn [bind]. rewrite Nat.add_0_r, M, map_map. reflexivity.
Qed.
Lemma eval_bad d : fresh_mix d -> ~ Forall evaluable d -> forall px,
  snd (get_loglike d px) = Raise GMixRangeError /\ forall fd start, snd (fill_fdiff_x d px fd start) = Raise GMixRangeError.
Proof.
  intros [Fr N] E px.
  assert (C : Forall coherent d) by (eapply Forall_impl; [|exact Fr]; intros g [K _]; exact K).
  assert (NS : forall g rest, d = g :: rest -> g_norm_set g = false) by (intros g rest ->; apply Forall_cons_iff in Fr; apply Fr).
  pose proof (norms_if_needed_bad d N C E NS) as En. unfold get_loglike, fill_fdiff_x. destruct (set_norms_if_needed d) as [d' r]. cbn [snd] in *. subst r. split; reflexivity.
Qed.

Definition sumf (f : (pixel R -> R) -> pixel R -> R) (ds : list gmix) (px : list (list (pixel R))) : R := sum_over f (map mdl ds) px.
Lemma sumf_cons f d ds p px : sumf f (d :: ds) (p :: px) = rsum (map (f (mdl d)) p) + sumf f ds px.
Proof. unfold sumf, sum_over. cbn [map combine concat fst snd]. apply rsum_app. Qed.
Definition npix (px : list (list (pixel R))) : nat := list_sum (map (@length _) px).
Lemma npix_cons p px : npix (p :: px) = (length p + npix px)%nat. Proof. reflexivity. Qed.
Lemma pix_cons o os px : mapM obs_pixels (o :: os) = Ok px -> exists p r, px = p :: r /\ obs_pixels o = Ok p /\ mapM obs_pixels os = Ok r.
Proof. cbn [mapM]. intros H. apply bind_ok in H. destruct H as (p & Ep & H). apply bind_ok in H. destruct H as (r & Er & H). injection H as <-. exists p, r. auto. Qed.
Lemma like_all os : forall px ds a b c n, mapM obs_pixels os = Ok px -> length ds = length os -> Forall fresh_mix ds -> Forall (Forall evaluable) ds ->
  foldM like_step (combine os ds) (a, b, c, n) =
  Ok (a + - sumf (fun m p => resid m p ^ 2) ds px / 2, b + sumf (fun m p => px_val p * m p * px_ierr p ^ 2) ds px,
      c + sumf (fun m p => m p ^ 2 * px_ierr p ^ 2) ds px, (n + npix px)%nat).
Proof.
  induction os as [|o os IH]; intros px ds a b c n Hp L Fr Ev; destruct ds as [|d ds]; try discriminate.
  - injection Hp as <-. cbn [combine foldM]. unfold sumf, sum_over, npix. cbn. f_equal. f_equal; [f_equal; [f_equal; lra|lra]|lia].
  - destruct (pix_cons _ _ _ Hp) as (p & r & -> & Ep & Er). apply Forall_cons_iff in Fr, Ev. destruct Fr as [F1 F2], Ev as [E1' E2'].
    cbn [combine foldM]. unfold like_step at 1. cbn [fst snd]. rewrite Ep. cbn [bind]. destruct (eval_good d F1 E1' p) as (_ & E & _). rewrite E. cbn [bind].
    rewrite (IH r ds) by (auto; cbn in L; lia). rewrite !sumf_cons, npix_cons. f_equal. f_equal; [f_equal; [f_equal; lra|lra]|lia].
Qed.
Lemma like_bad os : forall px ds s, mapM obs_pixels os = Ok px -> length ds = length os -> Forall fresh_mix ds -> ~ Forall (Forall evaluable) ds ->
  foldM like_step (combine os ds) s = Raise GMixRangeError.
Proof.
  induction os as [|o os IH]; intros px ds s Hp L Fr Ev; destruct ds as [|d ds]; try discriminate.
  - exfalso. apply Ev. constructor.
  - destruct (pix_cons _ _ _ Hp) as (p & r & -> & Ep & Er). apply Forall_cons_iff in Fr. destruct Fr as [F1 F2].
    cbn [combine foldM]. unfold like_step at 1. cbn [fst snd]. rewrite Ep. cbn [bind]. destruct (fresh_dec d) as [D|D].
    + destruct (eval_good d F1 D p) as (_ & E & _). rewrite E. cbn [bind]. destruct s as [[[a b] c] n]. apply (IH r); auto; cbn in L; lia.
    + destruct (eval_bad d F1 D p) as (E & _). rewrite E. reflexivity.
Qed.
Lemma all_resid_len : forall ds px, length ds = length px -> length (all_resid (map mdl ds) px) = npix px.
Proof. induction ds as [|d ds IH]; intros [|p px] L; try discriminate; [reflexivity|]. unfold all_resid in *. cbn [map combine concat fst snd]. rewrite app_length, map_length, npix_cons, IH; [reflexivity|cbn in L; lia]. Qed.
Lemma fd_all : forall ds px fd start, length ds = length px -> Forall fresh_mix ds -> Forall (Forall evaluable) ds -> (start + npix px <= length fd)%nat ->
  foldM fd_step (combine px ds) (fd, start) =
  Ok (firstn start fd ++ map Fin (all_resid (map mdl ds) px) ++ skipn (start + npix px) fd, (start + npix px)%nat).
Proof.
  induction ds as [|d ds IH]; intros [|p px] fd start L Fr Ev H; try discriminate.
  - cbn [combine foldM]. unfold all_resid, npix. cbn [map combine concat list_sum fold_right app]. rewrite Nat.add_0_r, firstn_skipn. reflexivity.
  - apply Forall_cons_iff in Fr, Ev. destruct Fr as [F1 F2], Ev as [E1' E2']. rewrite npix_cons in *. cbn [combine foldM]. unfold fd_step at 1. cbn [fst snd].
    destruct (eval_good d F1 E1' p) as (_ & _ & E). rewrite E by lia. cbn [bind].
    set (fd' := firstn start fd ++ map Fin (map (resid (mdl d)) p) ++ skipn (start + length p) fd).
    assert (Lf : length (firstn start fd) = start) by (rewrite firstn_length; lia).
    assert (Ld : length fd' = length fd) by (unfold fd'; rewrite !app_length, !map_length, Lf, skipn_length; lia).
    rewrite IH by (auto; try rewrite Ld; cbn in L; lia). f_equal. f_equal; [|lia].
    assert (La : length (firstn start fd ++ map Fin (map (resid (mdl d)) p)) = (start + length p)%nat) by (rewrite app_length, !map_length, Lf; reflexivity).
    replace (firstn (start + length p) fd') with (firstn start fd ++ map Fin (map (resid (mdl d)) p)) by (unfold fd'; rewrite app_assoc; symmetry; apply firstn_cut; exact La).
    replace (skipn (start + length p + npix px) fd') with (skipn (start + length p + npix px) fd).
    2:{ rewrite <- (skipn_skipn' fd' (start + length p) (npix px)). unfold fd'. rewrite app_assoc. rewrite (skipn_cut _ _ _ La). rewrite skipn_skipn'. reflexivity. }
    unfold all_resid. cbn [map combine concat fst snd]. rewrite map_app, <- !app_assoc. rewrite Nat.add_assoc. reflexivity.
Qed.
Lemma fd_bad : forall ds px fd start, length ds = length px -> Forall fresh_mix ds -> ~ Forall (Forall evaluable) ds -> (start + npix px <= length fd)%nat ->
  foldM fd_step (combine px ds) (fd, start) = Raise GMixRangeError.
Proof.
  induction ds as [|d ds IH]; intros [|p px] fd start L Fr Ev H; try discriminate.
  - exfalso. apply Ev. constructor.
  - apply Forall_cons_iff in Fr. destruct Fr as [F1 F2]. rewrite npix_cons in *. cbn [combine foldM]. unfold fd_step at 1. cbn [fst snd]. destruct (fresh_dec d) as [D|D].
    + destruct (eval_good d F1 D p) as (_ & _ & E). rewrite E by lia. cbn [bind]. apply IH; auto.
      rewrite !app_length, !map_length, firstn_length, skipn_length. lia.
    + destruct (eval_bad d F1 D p) as (_ & E). rewrite E. reflexivity.
Qed.

(** the mixtures of an evaluation are fresh *)
Lemma mapM_nonempty {A B} (f : A -> res B) l d : mapM f l = Ok d -> l <> [] -> d <> [].
Proof. intros H N E. apply mapM_len in H. subst d. destruct l; [congruence|discriminate]. Qed.
Lemma simple_len n f p pars d : gmix_fill_simple n f p pars = Ok d -> length d = n.
Proof. unfold gmix_fill_simple. intros H. repeat (apply bind_ok in H; destruct H as (? & _ & H)). destruct x5 as [e1 e2]. apply mapM_len in H. rewrite seq_length in H. exact H. Qed.
Lemma fill_nonempty m pars d : m <> FCoellip 0 -> fill_func (mkind m) (mng m) pars = Ok d -> d <> [].
Proof.
  intros Hm H. assert (L : length d <> 0%nat); [|intros ->; apply L; reflexivity].
  destruct m as [m|n]; [destruct m|]; cbn [fill_func mkind mng] in H;
    [rewrite (simple_len _ _ _ _ _ H); cbn; lia|rewrite (simple_len _ _ _ _ _ H); cbn; lia|rewrite (simple_len _ _ _ _ _ H); cbn; lia|rewrite (simple_len _ _ _ _ _ H); cbn; lia| | |discriminate|].
  - unfold gmix_fill_bd in H. repeat (apply bind_ok in H; destruct H as (? & _ & H)). destruct x8 as [e1 e2]. apply mapM_len in H. rewrite H, seq_length. lia.
  - unfold gmix_fill_bdf in H. repeat (apply bind_ok in H; destruct H as (? & _ & H)). destruct x7 as [e1 e2]. apply mapM_len in H. rewrite H, seq_length. lia.
  - unfold gmix_fill_coellip in H. repeat (apply bind_ok in H; destruct H as (? & _ & H)). destruct x3 as [e1 e2]. apply mapM_len in H. rewrite H, seq_length. intros ->. apply Hm. reflexivity.
Qed.
Lemma one_fresh m dopsf bp o d : m <> FCoellip 0 -> one_mix m dopsf bp o = Ok d -> fresh_mix d.
Proof.
  intros Hm. assert (P : forall d, pure_fill m bp = Ok d -> fresh_mix d).
  { intros d0. unfold pure_fill. intros H. assert (G : exists l, fill_func (mkind m) (mng m) l = Ok d0).
    { destruct (Nat.eqb _ _); [eexists; exact H|]. destruct bp as [|x [|y bp]]; try discriminate. eexists; exact H. }
    destruct G as [l G]. split; [eapply fill_raw; exact G|eapply fill_nonempty; eassumption]. }
  unfold one_mix. destruct dopsf; [|apply P]. intros H. apply bind_ok in H. destruct H as (psf & Ep & H). apply bind_ok in H. destruct H as (g & Eg & H).
  split; [eapply convolve_raw; exact H|]. destruct (P g Eg) as [_ N].
  unfold gmix_convolve in H. apply bind_ok in H. destruct H as ([[r c] ps] & Ec & H). injection H as <-.
  destruct (o_data psf) as [|pg pl]; [cbn in Ec; rewrite Reqb_t in Ec by reflexivity; discriminate|]. destruct g; [congruence|]. discriminate.
Qed.
Lemma bands_fresh m dopsf pars obs : m <> FCoellip 0 -> forall b ds, bands_mix m dopsf pars b obs = Ok ds ->
  Forall fresh_mix (concat ds) /\ length (concat ds) = length (concat obs).
Proof.
  intros Hm. induction obs as [|os obs IH]; intros b ds H; cbn [bands_mix] in H.
  - injection H as <-. split; [constructor|reflexivity].
  - apply bind_ok in H. destruct H as (bp & Eb & H). apply bind_ok in H. destruct H as (l & El & H). apply bind_ok in H. destruct H as (r & Er & H). injection H as <-.
    destruct (IH _ _ Er) as [I1 I2]. cbn [concat]. rewrite !app_length, I2. split; [|rewrite (mapM_len _ _ _ El); reflexivity].
    apply Forall_app. split; [|exact I1]. apply mapM_F2 in El. clear - El Hm. induction El as [|o d os l H _ IH]; constructor; [eapply one_fresh; eassumption|exact IH].
Qed.
