From Verif Require Import Base XReal Jacobian_Model Pixels_Model GMix_Model GMix_Spec GMixObj_Model GMixObj_Proofs
  Render_Model Render_Spec Render_Proofs Priors_Model Joint_Model Joint_Spec Joint_Proofs Fit_Model Fit_Spec.
Local Open Scope R_scope.

(** ** evaluation as a function of the parameters only *)
Definition mkind (m : fmodel) : kind := match m with FName m => KModel m | FCoellip _ => KCoellip end.
Definition mng (m : fmodel) : nat := match m with FName m => model_ngauss m | FCoellip n => n end.
Definition mnp (m : fmodel) : nat := match m with FName m => model_npars m | FCoellip n => (4 + 2 * n)%nat end.
Definition of_model (m : fmodel) (g : gmobj) : Prop := o_kind g = mkind m /\ o_ngauss g = mng m /\ o_npars g = mnp m.
Definition shaped (m : fmodel) (dopsf : bool) (g : gmobj * gmobj) : Prop :=
  of_model m (fst g) /\ (dopsf = false -> of_model m (snd g)).

Definition pure_fill (m : fmodel) (bp : list R) : res gmix :=
  if Nat.eqb (length bp) (mnp m) then fill_func (mkind m) (mng m) bp
  else match bp with [x] => fill_func (mkind m) (mng m) (repeat x (mnp m)) | _ => Raise ValueError end.
Definition one_mix (m : fmodel) (dopsf : bool) (bp : list R) (o : fobs) : res gmix :=
  if dopsf then let* psf := psf_gmix o in let* g := pure_fill m bp in gmix_convolve g (o_data psf) else pure_fill m bp.
Fixpoint bands_mix (m : fmodel) (dopsf : bool) (pars : list R) (band : nat) (obs : list (list fobs)) : res (list (list gmix)) :=
  match obs with
  | [] => Ok []
  | os :: obs =>
      let* bp := band_pars_of m pars band in
      let* l := mapM (one_mix m dopsf bp) os in
      let* r := bands_mix m dopsf pars (S band) obs in
      Ok (l :: r)
  end.
Definition Inv (m : fmodel) (dopsf : bool) (obs : list (list fobs)) (gms : list (list (gmobj * gmobj))) : Prop :=
  Forall2 (Forall2 (fun _ g => shaped m dopsf g)) obs gms.
Definition datas (gs : list (gmobj * gmobj)) : list gmix := map (fun g => o_data (snd g)) gs.

Lemma fill_obj_spec m g bp : of_model m g ->
  exists g', of_model m g' /\
    fill_obj g bp = (g', match pure_fill m bp with Ok _ => Ok tt | Raise e => Raise e end) /\
    forall d, pure_fill m bp = Ok d -> o_data g' = d.
Proof.
  intros (K & N & P). unfold fill_obj, pure_fill. rewrite P.
  assert (G : forall l, exists g', of_model m g' /\
    obj__fill g l = (g', match fill_func (mkind m) (mng m) l with Ok _ => Ok tt | Raise e => Raise e end) /\
    forall d, fill_func (mkind m) (mng m) l = Ok d -> o_data g' = d).
  { intros l. unfold obj__fill. rewrite K, N. destruct (fill_func (mkind m) (mng m) l) as [d|e].
    - eexists; split; [|split; [reflexivity|]]; [repeat split; assumption|]. intros d' E; injection E as <-. reflexivity.
    - eexists; split; [|split; [reflexivity|]]; [repeat split; assumption|]. discriminate. }
  destruct (Nat.eqb (length bp) (mnp m)); [apply G|]. destruct bp as [|x [|y bp]]; try apply G;
    (exists g; split; [repeat split; assumption|]; split; [reflexivity|discriminate]).
Qed.
Lemma fill_one_spec m dopsf bp o g : shaped m dopsf g ->
  exists g', shaped m dopsf g' /\
    fill_one dopsf bp o g = (g', match one_mix m dopsf bp o with Ok _ => Ok tt | Raise e => Raise e end) /\
    forall d, one_mix m dopsf bp o = Ok d -> o_data (snd g') = d.
Proof.
  destruct g as [gm0 gm]. intros [S0 S1]. cbn [fst snd] in *. unfold fill_one, one_mix. destruct dopsf.
  - destruct (psf_gmix o) as [psf|e]; cbn [bind].
    2:{ exists (gm0, gm). split; [split; assumption|]. split; [reflexivity|discriminate]. }
    destruct (fill_obj_spec m gm0 bp S0) as (g0' & M & E & D). rewrite E. destruct (pure_fill m bp) as [d|e]; cbn [bind].
    + rewrite (D d eq_refl). destruct (gmix_convolve d (o_data psf)) as [d'|e].
      * eexists (g0', with_data gm d'). split; [split; [exact M|discriminate]|]. split; [reflexivity|]. intros d0 H; injection H as <-. reflexivity.
      * exists (g0', gm). split; [split; [exact M|discriminate]|]. split; [reflexivity|discriminate].
    + exists (g0', gm). split; [split; [exact M|discriminate]|]. split; [reflexivity|discriminate].
  - destruct (fill_obj_spec m gm bp (S1 eq_refl)) as (g' & M & E & D). rewrite E. exists (gm0, g'). split; [split; auto|]. split; [reflexivity|]. exact D.
Qed.
Lemma fill_list_spec m dopsf bp os : forall gs, Forall2 (fun _ g => shaped m dopsf g) os gs ->
  exists gs', Forall2 (fun _ g => shaped m dopsf g) os gs' /\
    fill_list dopsf bp os gs = (gs', match mapM (one_mix m dopsf bp) os with Ok _ => Ok tt | Raise e => Raise e end) /\
    forall d, mapM (one_mix m dopsf bp) os = Ok d -> datas gs' = d.
Proof.
  induction os as [|o os IH]; intros gs H; inversion H; subst.
  - exists []. split; [constructor|]. split; [reflexivity|]. intros d E; injection E as <-. reflexivity.
  - cbn [fill_list mapM]. destruct (fill_one_spec m dopsf bp o y H2) as (y' & Sy & E & D). rewrite E.
    destruct (one_mix m dopsf bp o) as [d|e]; cbn [bind].
    2:{ exists (y' :: l'). split; [constructor; assumption|]. split; [reflexivity|discriminate]. }
    destruct (IH l' H4) as (l2 & S2 & E2 & D2). rewrite E2. destruct (mapM (one_mix m dopsf bp) os) as [ds|e]; cbn [bind].
    2:{ exists (y' :: l2). split; [constructor; assumption|]. split; [reflexivity|discriminate]. }
    exists (y' :: l2). split; [constructor; assumption|]. split; [reflexivity|]. intros d0 H0; injection H0 as <-.
    unfold datas in *. cbn [map]. rewrite (D d eq_refl), (D2 ds eq_refl). reflexivity.
Qed.
Lemma fill_bands_spec m dopsf pars obs : forall band gms, Inv m dopsf obs gms ->
  exists gms', Inv m dopsf obs gms' /\
    fill_bands m dopsf pars band obs gms = (gms', match bands_mix m dopsf pars band obs with Ok _ => Ok tt | Raise e => Raise e end) /\
    forall d, bands_mix m dopsf pars band obs = Ok d -> map datas gms' = d.
Proof.
  induction obs as [|os obs IH]; intros band gms H; inversion H; subst.
  - exists []. split; [constructor|]. split; [reflexivity|]. intros d E; injection E as <-. reflexivity.
  - cbn [fill_bands bands_mix]. destruct (band_pars_of m pars band) as [bp|e]; cbn [bind].
    2:{ exists (y :: l'). split; [constructor; assumption|]. split; [reflexivity|discriminate]. }
    destruct (fill_list_spec m dopsf bp os y H2) as (y' & Sy & E & D). rewrite E.
    destruct (mapM (one_mix m dopsf bp) os) as [d|e]; cbn [bind].
    2:{ exists (y' :: l'). split; [constructor; assumption|]. split; [reflexivity|discriminate]. }
    destruct (IH (S band) l' H4) as (l2 & S2 & E2 & D2). rewrite E2. destruct (bands_mix m dopsf pars (S band) obs) as [ds|e]; cbn [bind].
    2:{ exists (y' :: l2). split; [constructor; assumption|]. split; [reflexivity|discriminate]. }
    exists (y' :: l2). split; [constructor; assumption|]. split; [reflexivity|]. intros d0 H0; injection H0 as <-.
    cbn [map]. rewrite (D d eq_refl), (D2 ds eq_refl). reflexivity.
Qed.

(** the likelihood sums, without the state *)
Definition like_step (s : R * R * R * nat) (od : fobs * gmix) : res (R * R * R * nat) :=
  let* px := obs_pixels (fst od) in
  let* (ll, n, dn, k) := snd (get_loglike (snd od) px) in
  let '(sl, sn, sd, sk) := s in Ok (sl + ll, sn + n, sd + dn, (sk + k)%nat).
Lemma foldM_app {A B} (f : A -> B -> res A) l1 : forall l2 a, foldM f (l1 ++ l2) a = let* b := foldM f l1 a in foldM f l2 b.
Proof. induction l1 as [|x l1 IH]; intros l2 a; [reflexivity|]. cbn [app foldM]. destruct (f a x); [apply IH|reflexivity]. Qed.
Lemma with_data_shape m dopsf g0 g d : shaped m dopsf (g0, g) -> shaped m dopsf (g0, with_data g d).
Proof. intros [A B]. split; [exact A|]. intros E. destruct (B E) as (?&?&?). repeat split; assumption. Qed.
Lemma like_list_spec m dopsf os : forall gs s, Forall2 (fun _ g => shaped m dopsf g) os gs ->
  exists gs', Forall2 (fun _ g => shaped m dopsf g) os gs' /\
    like_list os gs s = (gs', foldM like_step (combine os (datas gs)) s).
Proof.
  induction os as [|o os IH]; intros gs s H; inversion H; subst.
  - exists []. split; [constructor|reflexivity].
  - destruct y as [g0 g]. unfold datas. cbn [like_list map combine foldM]. unfold like_step at 1. cbn [fst snd].
    destruct (obs_pixels o) as [px|e]; cbn [bind]; [|eexists; split; [exact H|reflexivity]].
    destruct (get_loglike (o_data g) px) as [d r] eqn:G. cbn [snd].
    pose proof (with_data_shape m dopsf g0 g d H2) as W.
    destruct r as [[[[ll n] dn] k]|e]; cbn [bind]; [|eexists; split; [constructor; [exact W|exact H4]|reflexivity]].
    destruct s as [[[sl sn] sd] sk]. destruct (IH l' (sl + ll, sn + n, sd + dn, (sk + k)%nat) H4) as (l2 & S2 & E2). rewrite E2.
    eexists; split; [constructor; [exact W|exact S2]|reflexivity].
Qed.
Lemma combine_concat {A B C} (P : A -> B -> Prop) (f : B -> C) : forall (a : list (list A)) (b : list (list B)), Forall2 (Forall2 P) a b ->
  combine (concat a) (concat (map (map f) b)) = concat (map (fun p => combine (fst p) (map f (snd p))) (combine a b)).
Proof.
  induction 1 as [|x y a b H H2 IH]; [reflexivity|]. cbn [concat map combine fst snd]. rewrite <- IH.
  assert (L : length x = length (map f y)) by (rewrite map_length; exact (Forall2_length H)). clear - L. revert L. generalize (map f y). intros z. revert z.
  induction x as [|u x IHx]; intros [|v z] L; try discriminate; [reflexivity|]. cbn. f_equal. apply IHx. cbn in L; lia.
Qed.
Lemma like_bands_spec m dopsf obs : forall gms s, Inv m dopsf obs gms ->
  exists gms', Inv m dopsf obs gms' /\
    like_bands obs gms s = (gms', foldM like_step (combine (concat obs) (concat (map datas gms))) s).
Proof.
  induction obs as [|os obs IH]; intros gms s H.
  - inversion H; subst. exists []. split; [constructor|reflexivity].
  - assert (H' := H). inversion H; subst. cbn [like_bands].
    unfold datas at 1. rewrite (combine_concat (fun _ g => shaped m dopsf g)) by exact H'. cbn [combine map concat fst snd].
    rewrite foldM_app. rewrite <- (combine_concat (fun _ g => shaped m dopsf g)) by exact H4.
    destruct (like_list_spec m dopsf os y s H2) as (y' & Sy & E). rewrite E. fold (datas y).
    destruct (foldM like_step (combine os (datas y)) s) as [s'|e]; cbn [bind].
    + destruct (IH l' s' H4) as (l2 & S2 & E2). rewrite E2. eexists; split; [constructor; [exact Sy|exact S2]|]. reflexivity.
    + eexists; split; [constructor; [exact Sy|exact H4]|]. reflexivity.
Qed.

(** the residuals, without the state *)
Definition fd_step (s : list xr * nat) (pd : list (pixel R) * gmix) : res (list xr * nat) :=
  let* fd := snd (fill_fdiff_x (snd pd) (fst pd) (fst s) (snd s)) in Ok (fd, (snd s + length (fst pd))%nat).
Lemma fdiff_loop_spec m dopsf : forall gs px fd start, Forall (shaped m dopsf) gs -> length px = length gs ->
  exists gs', Forall (shaped m dopsf) gs' /\ length gs' = length gs /\
    fdiff_loop px gs fd start = (gs', rmap fst (foldM fd_step (combine px (datas gs)) (fd, start))).
Proof.
  induction gs as [|[g0 g] gs IH]; intros px fd start H L; destruct px as [|p px]; try discriminate.
  - exists []. split; [constructor|]. split; reflexivity.
  - apply Forall_cons_iff in H. destruct H as [Hg H]. unfold datas. cbn [Fit_Model.fdiff_loop map combine foldM]. unfold fd_step at 1. cbn [fst snd].
    destruct (fill_fdiff_x (o_data g) p fd start) as [d r]. cbn [snd].
    pose proof (with_data_shape m dopsf g0 g d Hg) as W.
    destruct r as [fd'|e]; cbn [bind rmap]; [|eexists; split; [constructor; [exact W|exact H]|split; [cbn; lia|reflexivity]]].
    destruct (IH px fd' (start + length p)%nat H ltac:(cbn in L; lia)) as (l2 & S2 & L2 & E2). rewrite E2.
    eexists; split; [constructor; [exact W|exact S2]|]. split; [cbn; lia|reflexivity].
Qed.
Lemma Inv_regroup m dopsf obs : forall gms gs, Inv m dopsf obs gms -> Forall (shaped m dopsf) gs -> length gs = length (concat gms) ->
  Inv m dopsf obs (regroup gms gs).
Proof.
  induction obs as [|os obs IH]; intros gms gs H F L; inversion H; subst; cbn [regroup]; [constructor|].
  cbn [concat] in L. rewrite app_length in L. constructor.
  - assert (Lf : length (firstn (length y) gs) = length y) by (rewrite firstn_length; lia).
    assert (Ff : Forall (shaped m dopsf) (firstn (length y) gs)).
    { apply Forall_forall. intros x Hx. rewrite Forall_forall in F. apply F. rewrite <- (firstn_skipn (length y) gs). apply in_or_app; left; exact Hx. }
    pose proof (Forall2_length H2) as L2. revert Lf Ff L2. generalize (firstn (length y) gs) as z. clear. generalize (length y). intros n z Ez Fz.
    revert n z Ez Fz. induction os as [|o os IH]; intros n [|a z] Ez Fz E; cbn in *; subst; try discriminate; constructor.
    + apply Forall_cons_iff in Fz; apply Fz. + apply (IH _ _ eq_refl); [apply Forall_cons_iff in Fz; apply Fz|congruence].
  - apply IH; [exact H4| |rewrite skipn_length; lia]. apply Forall_forall. intros x Hx. rewrite Forall_forall in F. apply F.
    rewrite <- (firstn_skipn (length y) gs). apply in_or_app; right; exact Hx.
Qed.
Lemma Inv_concat m dopsf obs gms : Inv m dopsf obs gms -> Forall (shaped m dopsf) (concat gms) /\ length (concat gms) = length (concat obs).
Proof.
  induction 1 as [|x y a b H H2 IH]; [split; [constructor|reflexivity]|]. cbn [concat]. rewrite !app_length. destruct IH as [I1 I2]. split.
  - apply Forall_app. split; [|exact I1]. clear - H. induction H; constructor; auto.
  - rewrite I2, (Forall2_length H). reflexivity.
Qed.

(** ** what an evaluation does, for any object reached from a new one *)
Definition static_of (F0 F : fit) : Prop := exists g, F = with_gms F0 g.
Definition pure_lnprob (F : fit) (pars : list R) : res lnres :=
  or_range (let* lp := get_priors F pars in
            let* ds := bands_mix (f_model F) (f_dopsf F) pars 0 (f_obs F) in
            let* (l, n, d, k) := foldM like_step (combine (concat (f_obs F)) (concat ds)) (0, 0, 0, 0%nat) in
            Ok (mkLn (xadd (Fin l) lp) n d k)) ln_low.
Definition pure_fdiff (F : fit) (pars : list R) : res (list xr) :=
  or_range (let* ds := bands_mix (f_model F) (f_dopsf F) pars 0 (f_obs F) in
            let* s := fill_priors F pars (repeat (Fin 0) (f_size F)) in
            rmap fst (foldM fd_step (combine (f_pixels F) (concat ds)) s)) (repeat LOWVAL (f_size F)).
Definition okF (F : fit) : Prop := Inv (f_model F) (f_dopsf F) (f_obs F) (f_gms F) /\ length (f_pixels F) = length (concat (f_obs F)).

Lemma lnprob_pure F pars : okF F -> okF (fst (calc_lnprob F pars)) /\ static_of F (fst (calc_lnprob F pars)) /\ snd (calc_lnprob F pars) = pure_lnprob F pars.
Proof.
  intros [I P]. unfold calc_lnprob, pure_lnprob. destruct (get_priors F pars) as [lp|e]; cbn [bind].
  2:{ cbn [fst snd]. split; [split; assumption|]. split; [exists (f_gms F); destruct F; reflexivity|reflexivity]. }
  unfold fill_gmix_all. destruct (fill_bands_spec (f_model F) (f_dopsf F) pars (f_obs F) 0 (f_gms F) I) as (gms' & I' & E & D). rewrite E.
  destruct (bands_mix _ _ _ _ _) as [ds|e]; cbn [bind].
  2:{ cbn [fst snd]. split; [split; [exact I'|exact P]|]. split; [eexists; reflexivity|reflexivity]. }
  cbn [f_obs f_gms with_gms]. destruct (like_bands_spec (f_model F) (f_dopsf F) (f_obs F) gms' (0, 0, 0, 0%nat) I') as (g2 & I2 & E2). rewrite E2.
  rewrite (D ds eq_refl). cbn [fst snd]. split; [split; [exact I2|exact P]|]. split; [exists g2; reflexivity|reflexivity].
Qed.
Lemma fdiff_pure F pars : okF F -> okF (fst (calc_fdiff F pars)) /\ static_of F (fst (calc_fdiff F pars)) /\ snd (calc_fdiff F pars) = pure_fdiff F pars.
Proof.
  intros [I P]. unfold calc_fdiff, pure_fdiff.
  unfold fill_gmix_all. destruct (fill_bands_spec (f_model F) (f_dopsf F) pars (f_obs F) 0 (f_gms F) I) as (gms' & I' & E & D). rewrite E.
  destruct (bands_mix _ _ _ _ _) as [ds|e]; cbn [bind].
  2:{ cbn [fst snd]. split; [split; [exact I'|exact P]|]. split; [eexists; reflexivity|reflexivity]. }
  change (fill_priors (with_gms F gms') pars (repeat (Fin 0) (f_size (with_gms F gms')))) with (fill_priors F pars (repeat (Fin 0) (f_size F))).
  destruct (fill_priors F pars _) as [[fd start]|e]; cbn [bind].
  2:{ cbn [fst snd]. split; [split; [exact I'|exact P]|]. split; [eexists; reflexivity|reflexivity]. }
  cbn [f_pixels f_gms with_gms]. destruct (Inv_concat _ _ _ _ I') as [Fc Lc].
  destruct (fdiff_loop_spec (f_model F) (f_dopsf F) (concat gms') (f_pixels F) fd start Fc ltac:(lia)) as (gs' & F2 & L2 & E2). rewrite E2.
  cbn [fst snd]. split.
  { split; [|exact P]. cbn [f_model f_dopsf f_obs f_gms with_gms]. apply Inv_regroup; assumption. }
  split; [eexists; reflexivity|]. rewrite <- (D ds eq_refl).
  replace (datas (concat gms')) with (concat (map datas gms')); [reflexivity|]. clear. unfold datas. rewrite concat_map. reflexivity.
Qed.
Lemma static_trans F0 F F' : static_of F0 F -> static_of F F' -> static_of F0 F'.
Proof. intros [g ->] [g' ->]. exists g'. reflexivity. Qed.
Lemma pure_static F0 F pars : static_of F0 F -> pure_lnprob F pars = pure_lnprob F0 pars /\ pure_fdiff F pars = pure_fdiff F0 pars.
Proof. intros [g ->]. split; reflexivity. Qed.
Lemma evolved_ok F0 F : okF F0 -> evolved F0 F -> okF F /\ static_of F0 F.
Proof.
  intros O. induction 1 as [|F pars H [I S]|F pars H [I S]].
  - split; [exact O|]. exists (f_gms F0). destruct F0; reflexivity.
  - destruct (lnprob_pure F pars I) as (A & B & _). split; [exact A|]. eapply static_trans; eassumption.
  - destruct (fdiff_pure F pars I) as (A & B & _). split; [exact A|]. eapply static_trans; eassumption.
Qed.

(** ** a new object *)
Lemma finish_shape o p x : finish (obj__fill o p) = Ok x -> o_kind x = o_kind o /\ o_ngauss x = o_ngauss o /\ o_npars x = o_npars o /\ o_pars x = p
  /\ fill_func (o_kind o) (o_ngauss o) p = Ok (o_data x).
Proof. unfold finish, obj__fill. destruct (fill_func _ _ p) as [d|]; [|discriminate]. intros E; injection E as <-. repeat split. Qed.
Lemma finish_shape' o p x : finish (obj_fill o p) = Ok x -> length p = o_npars o /\ finish (obj__fill o p) = Ok x.
Proof. unfold obj_fill. destruct (Nat.eqb_spec (length p) (o_npars o)); cbn [negb]; [auto|discriminate]. Qed.
Lemma make_model_shape m bp g : (match m with FCoellip n => length bp = (4 + 2 * n)%nat | _ => True end) -> make_model m bp = Ok g ->
  of_model m g /\ pure_fill m bp = Ok (o_data g) /\ obj_copy g = Ok g.
Proof.
  intros L. unfold make_model, of_model, pure_fill. destruct m as [m|n].
  - intros H. assert (G : finish (obj_fill (blank (KModel m) (model_ngauss m) (model_npars m)) bp) = Ok g) by (destruct m; exact H || discriminate H).
    destruct (finish_shape' _ _ _ G) as [Lp G2]. destruct (finish_shape _ _ _ G2) as (K & N & P & Q & D). cbn [blank o_kind o_ngauss o_npars mkind mng mnp] in *.
    rewrite Lp, Nat.eqb_refl. split; [repeat split; assumption|]. split; [exact D|].
    unfold obj_copy. rewrite K, Q. exact H.
  - intros H. assert (H0 := H). unfold new_coellip in H. destruct (negb _); [discriminate|]. destruct (Nat.ltb _ _); [discriminate|].
    destruct (finish_shape _ _ _ H) as (K & N & P & Q & D). cbn [blank o_kind o_ngauss o_npars mkind mng mnp] in *.
    replace ((length bp - 4) / 2)%nat with n in * by (rewrite L; symmetry; replace (4 + 2 * n - 4)%nat with (n * 2)%nat by lia; apply Nat.div_mul; lia).
    rewrite L, Nat.eqb_refl. split; [repeat split; try assumption; congruence|]. split; [exact D|]. unfold obj_copy. rewrite K, Q. exact H0.
Qed.
Lemma band_pars_coellip n pars b : band_pars_of (FCoellip n) pars b = Ok pars. Proof. reflexivity. Qed.

Lemma init_one_shape m dopsf bp o g : (match m with FCoellip n => length bp = (4 + 2 * n)%nat | _ => True end) ->
  init_one m dopsf bp o = Ok g -> shaped m dopsf g /\ (dopsf = true -> exists psf, psf_gmix o = Ok psf).
Proof.
  intros L. unfold init_one. destruct (make_model m bp) as [g0|] eqn:E0; [|discriminate]. cbn [bind].
  destruct (make_model_shape m bp g0 L E0) as (S & _ & C). destruct dopsf.
  - destruct (psf_gmix o) as [psf|] eqn:Ep; [|discriminate]. cbn [bind]. destruct (obj_convolve g0 psf) as [g1|]; [|discriminate]. cbn [bind].
    intros E; injection E as <-. split; [split; [exact S|discriminate]|]. intros _. exists psf. reflexivity.
  - rewrite C. cbn [bind]. intros E; injection E as <-. split; [split; auto|discriminate].
Qed.
Lemma mapM_len {A B} (f : A -> res B) l : forall k, mapM f l = Ok k -> length k = length l.
Proof. induction l as [|a l IH]; cbn [mapM]; intros k H; [injection H as <-; reflexivity|]. destruct (f a); [|discriminate]. cbn [bind] in H.
  destruct (mapM f l) eqn:E; [|discriminate]. cbn [bind] in H. injection H as <-. cbn. rewrite (IH _ eq_refl). reflexivity. Qed.
Lemma mapM_F2 {A B} (f : A -> res B) l : forall k, mapM f l = Ok k -> Forall2 (fun a b => f a = Ok b) l k.
Proof. induction l as [|a l IH]; cbn [mapM]; intros k H; [injection H as <-; constructor|]. destruct (f a) eqn:Ea; [|discriminate]. cbn [bind] in H.
  destruct (mapM f l) eqn:E; [|discriminate]. cbn [bind] in H. injection H as <-. constructor; auto. Qed.

Lemma init_parts m obs guess prior F : fit_init m obs guess prior = Ok F ->
  f_model F = m /\ f_obs F = obs /\ f_prior F = prior /\ f_npars F = n_pars m obs /\ length guess = n_pars m obs /\ (0 < length obs)%nat /\
  f_size F = (f_totpix F + f_n_prior F)%nat /\
  mapM obs_pixels (concat obs) = Ok (f_pixels F) /\ f_totpix F = list_sum (map (@length _) (f_pixels F)) /\
  (match m with
   | FName m => match prior with None => f_n_prior F = 0%nat | Some _ => get_lm_n_prior_pars m (length obs) = Ok (f_n_prior F) end
   | FCoellip n => length obs = 1%nat /\ f_n_prior F = match prior with None => 0%nat | Some _ => (3 + 2 * n)%nat end end) /\
  (exists o os l, obs = (o :: os) :: l /\ f_dopsf F = has_psf_gmix o) /\
  okF F /\ (f_dopsf F = true -> Forall (fun o => exists psf, psf_gmix o = Ok psf) (concat obs)).
Proof.
  unfold fit_init. destruct (mapM obs_pixels (concat obs)) as [px|] eqn:Epx; [|discriminate]. cbn [bind].
  intros H. apply bind_ok in H. destruct H as (np & Enp & H). apply bind_ok in H. destruct H as ([dopsf gms] & Es & H). injection H as <-.
  cbn [f_model f_obs f_prior f_npars f_size f_totpix f_n_prior f_pixels f_dopsf].
  unfold setup_fit in Es. destruct (Nat.eqb_spec (length guess) (match m with FName m0 => model_npars m0 + length obs - 1 | FCoellip n => 4 + 2 * n end)) as [Lg|]; cbn [negb] in Es; [|discriminate].
  assert (Ei : init_gmix_all m obs guess = Ok (dopsf, gms)) by (destruct (init_gmix_all m obs guess) as [|[]]; congruence). clear Es.
  unfold init_gmix_all in Ei. destruct obs as [|[|o os] obs']; try discriminate. cbn [bind] in Ei. set (obs := (o :: os) :: obs') in *.
  apply bind_ok in Ei. destruct Ei as (gms' & Eg & Ei). injection Ei as Ed Eg'. subst gms'.
  assert (Np : match m with FName m0 => (model_npars m0 + length obs - 1)%nat | FCoellip n => (4 + 2 * n)%nat end = n_pars m obs).
  { unfold n_pars. destruct m as [m|n]; [|reflexivity]. destruct m; cbn; lia. }
  assert (Sh : Inv m dopsf obs gms /\ (dopsf = true -> Forall (fun o => exists psf, psf_gmix o = Ok psf) (concat obs))).
  { assert (Lc : match m with FCoellip n => length guess = (4 + 2 * n)%nat | _ => True end) by (destruct m; [exact I|exact Lg]).
    rewrite Ed in Eg. clear - Eg Lc. clearbody obs. clear os. revert gms Eg. generalize 0%nat. induction obs as [|os obs IH]; intros b gms Eg; cbn [length seq combine mapM] in Eg.
    - injection Eg as <-. split; [constructor|]. intros _; constructor.
    - apply bind_ok in Eg. destruct Eg as (y & Ey & Eg). apply bind_ok in Eg. destruct Eg as (ys & Eys & Eg). injection Eg as <-.
      cbn [fst snd] in Ey. apply bind_ok in Ey. destruct Ey as (bp & Ebp & Ey).
      assert (Lb : match m with FCoellip n => length bp = (4 + 2 * n)%nat | _ => True end).
      { destruct m as [|n]; [exact I|]. rewrite band_pars_coellip in Ebp. injection Ebp as <-. exact Lc. }
      destruct (IH _ _ Eys) as [I1 I2]. apply mapM_F2 in Ey.
      assert (A : Forall2 (fun _ g => shaped m dopsf g) os y /\ (dopsf = true -> Forall (fun o => exists psf, psf_gmix o = Ok psf) os)).
      { clear - Ey Lb. induction Ey as [|o g os y H _ [J1 J2]]; [split; [constructor|intros _; constructor]|].
        destruct (init_one_shape _ _ _ _ _ Lb H) as [K1 K2]. split; [constructor; assumption|]. intros D; constructor; auto. }
      destruct A as [A1 A2]. split; [constructor; assumption|]. intros D. cbn [concat]. apply Forall_app. auto. }
  destruct Sh as [S1 S2].
  split; [reflexivity|]. split; [reflexivity|]. split; [reflexivity|]. split; [exact Np|]. split; [congruence|]. split; [cbn; lia|]. split; [reflexivity|]. split; [reflexivity|].
  split. { rewrite <- (Nat.add_0_l (list_sum _)). generalize 0%nat. clear. induction px as [|p px IH]; intros k; cbn [fold_left map list_sum fold_right]; [lia|]. rewrite IH. unfold list_sum. cbn [fold_right]. lia. }
  split. { destruct m as [m|n].
    - destruct prior; [exact Enp|injection Enp as <-; reflexivity].
    - destruct (Nat.eqb_spec (length obs) 1) as [Eo|]; cbn [negb] in Enp; [|discriminate]. injection Enp as <-. split; [exact Eo|]. destruct prior; lia. }
  split. { exists o, os, obs'. split; [reflexivity|congruence]. }
  split; [|exact S2]. split; [exact S1|]. cbn [f_pixels f_obs]. exact (mapM_len _ _ _ Epx).
Qed.

(** ** C98: no memory *)
Lemma no_memory m obs guess prior F0 F : fit_init m obs guess prior = Ok F0 -> evolved F0 F -> forall pars,
  snd (calc_lnprob F pars) = snd (calc_lnprob F0 pars) /\ snd (calc_fdiff F pars) = snd (calc_fdiff F0 pars).
Proof.
  intros H E pars. destruct (init_parts _ _ _ _ _ H) as (_&_&_&_&_&_&_&_&_&_&_&O&_).
  destruct (evolved_ok F0 F O E) as [O' S]. rewrite (proj2 (proj2 (lnprob_pure F pars O'))), (proj2 (proj2 (lnprob_pure F0 pars O))).
  rewrite (proj2 (proj2 (fdiff_pure F pars O'))), (proj2 (proj2 (fdiff_pure F0 pars O))). exact (pure_static F0 F pars S).
Qed.
