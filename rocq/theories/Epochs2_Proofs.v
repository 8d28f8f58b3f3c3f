From Verif Require Import Base XReal Pixels_Model Jacobian_Model GMix_Model GMix_Spec GMixObj_Model GMixObj_Proofs Render_Model Render_Spec Render_Proofs
  FastExp_Model Priors_Model Joint_Model Fit_Model Fit_Spec Fit_Proofs Fit2_Proofs Fit3_Proofs FluxLik_Spec FluxFit_Proofs FluxBands_Proofs Epochs_Spec Epochs_Proofs.
Local Open Scope R_scope.

Section M.
Variable m : fmodel.
Hypothesis NP : fit_model m.

Definition mix1 (dopsf : bool) (x : list R * fobs) : res gmix := one_mix m dopsf (fst x) (snd x).
Definition rsd (d : gmix) (p : pixel R) : xr := Fin ((fastval d (px_v p) (px_u p) (px_area p) - px_val p) * px_ierr p).
Definition fd1 (dopsf : bool) (x : list R * fobs) : res (list xr) :=
  let* d := mix1 dopsf x in let* _ := snd (set_norms_if_needed d) in let* px := obs_pixels (snd x) in Ok (map (rsd (fst (set_norms_if_needed d))) px).

Lemma mapM_app' {A B} (f : A -> res B) a : forall b, mapM f (a ++ b) = let* x := mapM f a in let* y := mapM f b in Ok (x ++ y).
Proof.
  induction a as [|x a IH]; intros b; cbn [app mapM bind]; [destruct (mapM f b); reflexivity|]. destruct (f x); [|reflexivity]. cbn [bind]. rewrite IH. destruct (mapM f a); [|reflexivity]. cbn [bind]. destruct (mapM f b); reflexivity.
Qed.
Lemma mapM_pair dopsf bp os : mapM (mix1 dopsf) (map (pair bp) os) = mapM (one_mix m dopsf bp) os.
Proof. induction os as [|o os IH]; [reflexivity|]. cbn [map mapM]. rewrite IH. reflexivity. Qed.
Lemma flat dopsf tot p : length p = n_pars m tot -> forall obs b, (b + length obs <= length tot)%nat ->
  rmap (@concat _) (bands_mix m dopsf p b obs) = mapM (mix1 dopsf) (epochs m p b obs) /\ map snd (epochs m p b obs) = concat obs.
Proof.
  intros L.
  induction obs as [|os obs IH]; intros b Hb; [split; reflexivity|]. cbn [length] in Hb. destruct (IH (S b) ltac:(lia)) as [I1 I2]. split.
  - cbn [bands_mix epochs]. rewrite (band_pars_eq m NP tot p b L) by lia. cbn [bind]. rewrite mapM_app', mapM_pair, <- I1. destruct (mapM _ os); [|reflexivity]. cbn [bind]. destruct (bands_mix _ _ _ (S b) obs); reflexivity.
  - cbn [epochs concat]. rewrite map_app, I2, map_map. cbn [snd]. rewrite map_id. reflexivity.
Qed.

Lemma fd_step_at pre rest px d : (length px <= length rest)%nat ->
  fd_step (pre ++ rest, length pre) (px, d) = let* _ := snd (set_norms_if_needed d) in
    Ok ((pre ++ map (rsd (fst (set_norms_if_needed d))) px) ++ skipn (length px) rest, length (pre ++ map (rsd (fst (set_norms_if_needed d))) px)).
Proof.
  intros L. unfold fd_step, fill_fdiff_x. cbn [fst snd]. destruct (set_norms_if_needed d) as [d' r]. cbn [fst snd]. destruct r as [[]|e]; [|reflexivity]. cbn [bind].
  rewrite fdiff_x_loop by (rewrite app_length; lia). cbn [bind]. rewrite Nat.add_0_r. f_equal. rewrite !app_length, map_length. f_equal.
  rewrite firstn_app, Nat.sub_diag, firstn_all. cbn [firstn]. rewrite app_nil_r, <- app_assoc. f_equal. f_equal. rewrite skipn_app, skipn_all2 by lia. cbn [app]. f_equal. lia.
Qed.
Lemma fold_fd dopsf : forall xs ds pxs, mapM (mix1 dopsf) xs = Ok ds -> mapM obs_pixels (map snd xs) = Ok pxs -> forall pre rest, length rest = list_sum (map (@length _) pxs) ->
  rmap fst (foldM fd_step (combine pxs ds) (pre ++ rest, length pre)) = rmap (fun fds => pre ++ concat fds) (mapM (fd1 dopsf) xs).
Proof.
  induction xs as [|x xs IH]; intros ds pxs Ed Ep pre rest L.
  - injection Ed as <-. injection Ep as <-. cbn in L. destruct rest; [|discriminate]. reflexivity.
  - cbn [mapM map] in Ed, Ep. unfold bind at 1 in Ed. unfold bind at 1 in Ep. destruct (mix1 dopsf x) as [d|] eqn:Ex; [|discriminate]. destruct (mapM (mix1 dopsf) xs) as [ds'|]; [|discriminate]. injection Ed as <-.
    destruct (obs_pixels (snd x)) as [px|] eqn:Epx; [|discriminate]. destruct (mapM obs_pixels (map snd xs)) as [pxs'|]; [|discriminate]. injection Ep as <-.
    assert (L' : (length rest = length px + list_sum (map (@length _) pxs'))%nat) by exact L.
    cbn [combine foldM mapM]. rewrite fd_step_at by lia. unfold fd1 at 1. rewrite Ex. cbn [bind]. rewrite Epx. destruct (snd (set_norms_if_needed d)); [|reflexivity]. cbn [bind].
    rewrite (IH ds' pxs' eq_refl eq_refl) by (rewrite skipn_length; lia). destruct (mapM (fd1 dopsf) xs); [|reflexivity]. cbn [bind rmap concat]. rewrite app_assoc. reflexivity.
Qed.
Definition fdcore (F : fit) (p : list R) : res (list xr) :=
  let* ds := bands_mix (f_model F) (f_dopsf F) p 0 (f_obs F) in rmap fst (foldM fd_step (combine (f_pixels F) (concat ds)) (repeat (Fin 0) (f_size F), 0%nat)).
Lemma fdiff_core obs F p : fit_of m obs None F -> snd (calc_fdiff F p) = or_range (fdcore F p) (repeat LOWVAL (f_size F)).
Proof.
  intros Ft. pose proof (fit_made _ _ _ _ Ft) as M. rewrite (made_fdiff _ _ _ _ _ M). unfold pure_fdiff, fill_priors, fdcore. rewrite (md_prior _ _ _ _ M). reflexivity.
Qed.
Lemma fdcore_eq obs F p : fit_of m obs None F -> length p = n_pars m obs ->
  fdcore F p = let* _ := mapM (mix1 (f_dopsf F)) (epochs m p 0 obs) in rmap (@concat _) (mapM (fd1 (f_dopsf F)) (epochs m p 0 obs)).
Proof.
  intros Ft L. pose proof (fit_made _ _ _ _ Ft) as M. unfold fdcore. rewrite (md_model _ _ _ _ M), (md_obs _ _ _ _ M). destruct (flat (f_dopsf F) obs p L obs 0 ltac:(lia)) as [E1 E2]. rewrite <- E1.
  destruct (bands_mix _ _ p 0 obs) as [ds|]; [|reflexivity]. cbn [rmap bind] in *. symmetry in E1. pose proof (md_pixels _ _ _ _ M) as Px. rewrite <- E2 in Px.
  pose proof (fold_fd (f_dopsf F) _ _ _ E1 Px [] (repeat (Fin 0) (f_size F))) as H. cbn [app length] in H. apply H. rewrite repeat_length, (md_size _ _ _ _ M), (md_totpix _ _ _ _ M). assert (N : f_n_prior F = 0%nat) by (pose proof (md_nprior _ _ _ _ M) as N; cbn in N; destruct m; [exact N|exact (proj2 N)]). lia.
Qed.
Lemma single_fd o bp G : fit_of m [[o]] None G -> length bp = n_pars m [[o]] -> band_parameters m bp 0 = bp -> fdcore G bp = fd1 (has_psf_gmix o) (bp, o).
Proof.
  intros Ft L B. pose proof (fit_made _ _ _ _ Ft) as M. rewrite (fdcore_eq _ _ _ Ft L). destruct (md_first _ _ _ _ M) as (o' & os & l & E & ->). injection E as <- <- <-.
  cbn [epochs map app]. rewrite B. cbn [mapM]. unfold fd1. destruct (mix1 (has_psf_gmix o) (bp, o)) as [d|]; [|reflexivity]. cbn [bind]. destruct (snd (set_norms_if_needed d)); [|reflexivity]. cbn [bind].
  destruct (obs_pixels (snd (bp, o))); [|reflexivity]. cbn [bind rmap concat]. rewrite app_nil_r. reflexivity.
Qed.
Lemma fdcore_some obs F p fd : fit_of m obs None F -> snd (calc_fdiff F p) = Ok fd -> fd <> repeat LOWVAL (f_size F) -> fdcore F p = Ok fd.
Proof. intros Ft E N. rewrite (fdiff_core _ _ _ Ft) in E. destruct (fdcore F p) as [t|e]; [cbn in E; congruence|]. destruct e; cbn in E; congruence. Qed.
Lemma singles_fd obs F p xs Gs : fit_of m obs None F -> uniform_psf obs -> length p = n_pars m obs -> (forall x, In x xs -> In (snd x) (concat obs) /\ exists b', fst x = band_parameters m p b') ->
  Forall2 (fun x G => fit_of m [[snd x]] None G) xs Gs -> Forall2 (fun x G => fit_of m [[snd x]] None G /\ fdcore G (fst x) = fd1 (f_dopsf F) x) xs Gs.
Proof.
  intros Ft U L H HG. induction HG as [|x G xs Gs Fx _ IH]; constructor.
  - split; [exact Fx|]. destruct (H x (or_introl eq_refl)) as [Hi [b' Hb]]. destruct x as [bp o]. destruct (band_parameters_again m NP obs p b' o L) as [B1 B2]. cbn [fst snd] in *. subst bp.
    rewrite (single_fd o _ G Fx B2 B1), (dopsf_of m obs None F Ft U o Hi). reflexivity.
  - apply IH. intros y Hy. apply H. right. exact Hy.
Qed.
Lemma fd1_mix dopsf : forall xs fds, mapM (fd1 dopsf) xs = Ok fds -> exists ds, mapM (mix1 dopsf) xs = Ok ds.
Proof.
  induction xs as [|x xs IH]; intros fds H; [exists []; reflexivity|]. cbn [mapM] in *. unfold fd1 at 1 in H. destruct (mix1 dopsf x) as [d|]; [|discriminate]. cbn [bind] in *.
  destruct (let* _ := snd (set_norms_if_needed d) in _); [|discriminate]. cbn [bind] in H. destruct (mapM (fd1 dopsf) xs) as [l2|]; [|discriminate]. destruct (IH l2 eq_refl) as [ds ->]. eexists. reflexivity.
Qed.
Theorem epochs_fdiff obs F p Gs : fit_of m obs None F -> uniform_psf obs -> length p = n_pars m obs ->
  Forall2 (fun x G => fit_of m [[snd x]] None G) (epochs m p 0 obs) Gs ->
  (forall fd, snd (calc_fdiff F p) = Ok fd -> fd <> repeat LOWVAL (f_size F) ->
     exists fds, Forall2 (fun xG fd => snd (calc_fdiff (snd xG) (fst (fst xG))) = Ok fd) (combine (epochs m p 0 obs) Gs) fds /\ fd = concat fds) /\
  (forall fds, Forall2 (fun xG fd => snd (calc_fdiff (snd xG) (fst (fst xG))) = Ok fd /\ fd <> repeat LOWVAL (f_size (snd xG))) (combine (epochs m p 0 obs) Gs) fds ->
     snd (calc_fdiff F p) = Ok (concat fds)).
Proof.
  intros Ft U L HG.
  pose proof (singles_fd obs F p _ _ Ft U L (epochs_in m p obs 0) HG) as S. pose proof (fdcore_eq _ _ _ Ft L) as CE. split.
  - intros fd E N. rewrite (fdcore_some _ _ _ _ Ft E N) in CE. destruct (mapM (mix1 _) _); [|discriminate]. cbn [bind] in CE. destruct (mapM (fd1 _) _) as [fds|] eqn:Ef; [|discriminate]. injection CE as ->. exists fds. split; [|reflexivity].
    clear - S Ef. revert fds Ef. induction S as [|x G xs Gs [Fx Cx] _ IH]; intros fds Ef; cbn [mapM] in Ef; [injection Ef as <-; constructor|]. destruct (fd1 (f_dopsf F) x) as [f|] eqn:Ex; [|discriminate]. cbn [bind] in Ef. destruct (mapM _ xs) as [fs|]; [|discriminate]. injection Ef as <-.
    cbn [combine]. constructor; [cbn [fst snd]; rewrite (fdiff_core _ _ _ Fx), Cx; reflexivity|]. apply IH. reflexivity.
  - intros fds H. assert (Ef : mapM (fd1 (f_dopsf F)) (epochs m p 0 obs) = Ok fds).
    { clear - S H. revert fds H. induction S as [|x G xs Gs [Fx Cx] _ IH]; intros fds H; cbn [combine] in H; inversion H as [|? f ? fs [E N] H']; subst; [reflexivity|]. cbn [fst snd mapM] in *. rewrite <- Cx, (fdcore_some _ _ _ _ Fx E N). cbn [bind]. rewrite (IH _ H'). reflexivity. }
    destruct (fd1_mix _ _ _ Ef) as [ds Ed]. rewrite (fdiff_core _ _ _ Ft), CE, Ed, Ef. reflexivity.
Qed.
End M.
