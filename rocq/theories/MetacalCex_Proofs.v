(** Examples for Metacal_Props. *)
From Verif Require Import Base Shape_Model Moments_Model Jacobian_Model Pixels_Model GMix_Model Obs_Model Obs_Spec Obs_Proofs ObsZone_Proofs ObsThm_Proofs ObsVal_Model ObsCex_Proofs SimObs_Model SimObs_Spec Metacal_Model Metacal_Spec Metacal_Proofs.
From Verif Require GMixObj_Model.
From Coq Require String Ascii.
Import String.StringSyntax.
Local Open Scope R_scope.
Local Open Scope string_scope.
Local Open Scope list_scope.
Local Notation string := String.string.

(** ---- the psf image of 1p and noshear ---- *)
Definition quiet {A} (x : M A) : Prop := forall m, fst (x m) = m.
Lemma quiet_bind {A B} (x : M A) (f : A -> M B) : quiet x -> (forall a, quiet (f a)) -> quiet (bindM x f).
Proof. intros H F m. unfold bindM. specialize (H m). destruct (x m) as [m1 [a|]]; cbn [fst] in *; subst; auto. apply F. Qed.
Lemma quiet_get_arr a : quiet (get_arr a). Proof. intros m. unfold get_arr. destruct nth_error; auto. Qed.
Lemma quiet_get_buf a : quiet (get_buf a). Proof. intros m. unfold get_buf. destruct nth_error; auto. Qed.
Lemma quiet_pixels a w j st ig wr : quiet (pixels_value a w j st ig wr).
Proof.
  unfold pixels_value, view_check, contents. destruct (negb st); [intros m; reflexivity|].
  repeat (apply quiet_bind; [|intros ?]); try apply quiet_get_arr; try apply quiet_get_buf; try (intros m; reflexivity).
  - unfold assert. destruct (negb _ || _); intros m; reflexivity.
  - unfold assert. destruct (negb _ || _); intros m; reflexivity.
  - repeat match goal with |- quiet (match ?x with _ => _ end) => destruct x end; try (intros m; reflexivity).
    apply quiet_bind; intros; intros m; reflexivity.
Qed.
Lemma set_image_result i a m m' : step (SetImage i a false) m = (m', Ok 0%nat) -> exists o, nth_error (m_obs m) i = Some o /\
  (exists p, m_obs m' = upd (upd (m_obs m) i (with_image o a)) i (with_pix (with_image o a) p)).
Proof.
  cbn [step]. unfold unit_, set_image. intros E. apply bindM_inv in E as [(e & _ & X)|(m1 & u & E & E2)]; [discriminate|].
  injection E2 as <-. apply bindM_inv in E as [(e & _ & X)|(m2 & o & E & E3)]; [discriminate|].
  unfold get_obs in E. destruct (nth_error (m_obs m) i) as [o'|] eqn:N; [|discriminate]. injection E as <- <-. exists o'. split; [auto|].
  apply bindM_inv in E3 as [(e & _ & X)|(m3 & a' & E & E3)]; [discriminate|].
  assert (Ha : m3 = m /\ a' = a).
  { unfold ascontig, bindM in E. destruct (contents a m) as [mm [c|]] eqn:Ec; [|discriminate]. injection E as <- <-. split; [|auto].
    unfold contents, bindM, get_arr, get_buf in Ec. destruct (nth_error (m_arrs m) a); [|discriminate]. destruct (nth_error (m_bufs m) _); [|discriminate]. injection Ec as <- _. auto. }
  destruct Ha as [-> ->].
  assert (Sh : forall b x y, shape2 b m = (x, Ok y) -> x = m).
  { intros b x y. unfold shape2, contents, bindM, get_arr, get_buf. destruct (nth_error (m_arrs m) b); [|discriminate]. destruct (nth_error (m_bufs m) _) as [bb|]; [|discriminate].
    unfold ret. destruct (b_data bb); try discriminate. intros [= <- _]. auto. }
  apply bindM_inv in E3 as [(e & _ & X)|(m4 & sh & E4 & E3)]; [discriminate|]. apply Sh in E4. subst m4.
  apply bindM_inv in E3 as [(e & _ & X)|(m4 & old & E4 & E3)]; [discriminate|]. apply Sh in E4. subst m4.
  apply bindM_inv in E3 as [(e & _ & X)|(m4 & v & E4 & E3)]; [discriminate|].
  unfold assert in E4. destruct (shape_eqb sh old); [|discriminate]. injection E4 as <- _.
  apply bindM_inv in E3 as [(e & _ & X)|(m4 & v2 & E4 & E3)]; [discriminate|]. injection E4 as <- _.
  unfold update_pixels in E3. apply bindM_inv in E3 as [(e & _ & X)|(m4 & o4 & E4 & E3)]; [discriminate|].
  unfold get_obs in E4. cbn [m_obs] in E4. erewrite nth_upd_same in E4 by eauto. injection E4 as <- <-.
  apply bindM_inv in E3 as [(e & _ & X)|(m5 & p & E4 & E3)]; [discriminate|]. injection E3 as <- _.
  exists p. cbn [m_obs]. f_equal.
  assert (K : m_obs m5 = upd (m_obs m) i (with_image o' a)); [|exact K].
  apply (f_equal fst) in E4. rewrite quiet_pixels in E4. cbn [fst] in E4. rewrite <- E4. reflexivity.
Qed.
Theorem psf_image_shared p i a m1 k1 m2 m3 k2 m4 : let m := exec empty_mem p in
  step (CopyObs i) m = (m1, Ok k1) -> step (SetImage k1 a false) m1 = (m2, Ok 0%nat) ->
  step (CopyObs i) m2 = (m3, Ok k2) -> step (SetImage k2 a false) m3 = (m4, Ok 0%nat) ->
  k1 <> k2 /\ exists o1 o2, nth_error (m_obs m4) k1 = Some o1 /\ nth_error (m_obs m4) k2 = Some o2 /\
    ob_image o1 = a /\ ob_image o2 = a.
Proof.
  intros m E1 E2 E3 E4.
  assert (R : m2 = exec empty_mem (p ++ [CopyObs i; SetImage k1 a false])).
  { rewrite exec_app. fold m. cbn [exec]. rewrite E1. cbn [fst]. rewrite E2. reflexivity. }
  destruct (set_image_result _ _ _ _ E2) as (o1 & N1 & p1 & M2). destruct (set_image_result _ _ _ _ E4) as (o2 & N2 & p2 & M4).
  assert (K1 : nth_error (m_obs m2) k1 = Some (with_pix (with_image o1 a) p1)).
  { rewrite M2. eapply nth_upd_same, nth_upd_same, N1. }
  pose proof (reach_good (p ++ [CopyObs i; SetImage k1 a false])) as G. rewrite <- R in G.
  pose proof (inv_zold m2) as I. rewrite R in I. specialize (I (reach_inv _)). rewrite <- R in I. cbn [step] in E3.
  destruct (safe_copy_obs (zold m2) _ (fun _ => True) i _ _ _ I Logic.I E3) as (_ & _ & F). specialize (F k2 eq_refl). unfold freeO in F. cbn [zo zold] in F.
  destruct (copy_exists _ (fun _ => True) i ltac:(apply keeps_pure) _ _ _ G Logic.I E3) as (_ & Lg & _).
  assert (L1 : (k1 < length (m_obs m2))%nat) by (apply nth_error_Some; congruence).
  assert (Ne : k1 <> k2). { intros ->. destruct F as [_ F]. apply Nat.ltb_ge in F. lia. }
  assert (K3 : nth_error (m_obs m3) k1 = Some (with_pix (with_image o1 a) p1)).
  { destruct Lg as [_ _ _ [x ->]]. apply nth_app_some, K1. }
  split; [exact Ne|]. exists (with_pix (with_image o1 a) p1), (with_pix (with_image o2 a) p2).
  split; [rewrite M4, !nth_upd_ne by auto; exact K3|]. split; [rewrite M4; eapply nth_upd_same, nth_upd_same, N2|]. split; reflexivity.
Qed.

(** ---- a galsim whose profiles are total fluxes ---- *)
Definition ex_gs (draw : nat -> nat -> wcs -> R -> res (arr2 R)) : galsim :=
  mkGs R (fun im _ => Ok (at2 im 0 0)) (fun _ => Ok 1) Rinv Rmult (fun _ p => p) (fun g1 g2 p => Ok (p * (1 + g1 + 2 * g2)))
       draw (fun s f => Ok f) (fun p => p) (fun _ => 4) (fun _ p => Ok (2%nat, fun r c => if Nat.eqb (r + c) 2 then p else 0)).
Definition fine : nat -> nat -> wcs -> R -> res (arr2 R) := fun nr nc _ p => Ok (mkArr nr nc (fun _ _ => p)).
Definition fails : nat -> nat -> wcs -> R -> res (arr2 R) := fun _ _ _ _ => Raise RuntimeError.
Definition gs1 := ex_gs fine.
Definition gs2 := ex_gs fails.
Definition sq (x : R) : arr2 R := mkArr 2 2 (fun _ _ => x).
Definition noise_opt : slot -> option content := fun s => match s with SNoise => Some (C2 (sq 3)) | _ => None end.
Definition mpsf : obsval := OV (sq 1) (sq 1) jac1 (fun _ => None) None [] false true None.
Definition mobs : obsval := OV (sq 7) (sq 4) jac1 noise_opt None [] false true (Some mpsf).
Definition msi : simin := mkSi mobs None.
Definition mstep : R := 1 / 100.
Definition mfstr (x : R) : string := if Reqb x 0 then "0.0" else if Reqb x mstep then "0.01" else "-0.01".
Definition nofit (w : nat) (v : obsval) : nat * res pfit := (w, Raise OtherError).
Definition mnormal (n nr nc : nat) : nat * arr2 R := (S n, mkArr nr nc (fun r c => INR (n + r + c))).

Ltac str H a := let x := fresh in destruct a as [|x a]; cbn in H;
  [first [discriminate H | left; reflexivity] | first [discriminate H | injection H as ? H; subst x; str H a]].
Ltac floatlike := split; [discriminate|]; split; [intros a b H; str H a|intros a H; str H a].
Lemma fl1 : float_like "0.0". Proof. floatlike. Qed.
Lemma fl2 : float_like "0.01". Proof. floatlike. Qed.
Lemma fl3 : float_like "-0.01". Proof. floatlike. Qed.
Lemma mfstr0 : mfstr 0 = "0.0". Proof. unfold mfstr. rewrite Reqb_t; auto. Qed.
Lemma mfstrp : mfstr mstep = "0.01". Proof. unfold mfstr. rewrite Reqb_f, Reqb_t; auto; unfold mstep; lra. Qed.
Lemma mfstrm : mfstr (- mstep) = "-0.01". Proof. unfold mfstr. rewrite !Reqb_f; auto; unfold mstep; lra. Qed.
Lemma mprints : prints mfstr [mstep; - mstep; 0].
Proof.
  split.
  - intros x [<-|[<-|[<-|[]]]]; rewrite ?mfstr0, ?mfstrp, ?mfstrm; [exact fl2|exact fl3|exact fl1].
  - intros x y [<-|[<-|[<-|[]]]] [<-|[<-|[<-|[]]]]; rewrite ?mfstr0, ?mfstrp, ?mfstrm; try discriminate; auto.
Qed.
Lemma msound : sound mobs.
Proof.
  constructor; [split; reflexivity|reflexivity|discriminate|]. intros q [= <-].
  constructor; [split; reflexivity|reflexivity|discriminate|discriminate].
Qed.
Lemma init1 x : Rabs x < 1 -> Shape_init x 0 = Ok (mkShape x 0 (sqrt (x * x + 0 * 0))).
Proof.
  intros H. unfold Shape_init. rewrite Rleb_f; auto. replace (x * x + 0 * 0) with (Rsqr x) by (unfold Rsqr; ring). rewrite sqrt_Rsqr_abs. auto.
Qed.
Lemma init2 x : Rabs x < 1 -> Shape_init 0 x = Ok (mkShape 0 x (sqrt (0 * 0 + x * x))).
Proof.
  intros H. unfold Shape_init. rewrite Rleb_f; auto. replace (0 * 0 + x * x) with (Rsqr x) by (unfold Rsqr; ring). rewrite sqrt_Rsqr_abs. auto.
Qed.
Lemma mabs : Rabs mstep < 1 /\ Rabs (- mstep) < 1.
Proof. rewrite Rabs_Ropp. unfold mstep. rewrite Rabs_right; lra. Qed.
Lemma shd_ok : exists d sh, shear_dict mstep = Ok d /\ sget d "1p" = Some sh /\ sh_g1 sh = mstep /\ sh_g2 sh = 0.
Proof.
  destruct mabs as [A1 A2]. unfold shear_dict, Shape_copy. do 10 (rewrite ?init1, ?init2 by auto; cbn [bind keys map fst foldM sget String.eqb Ascii.eqb Bool.eqb sset String.append sh_g1 sh_g2]).
  do 2 eexists. split; [reflexivity|]. split; [reflexivity|]. split; reflexivity.
Qed.
Definition mrun fixn types := get_all_metacal gs1 mfstr nat mnormal nofit nofit (PDilate gs1) mstep fixn true (MObs _ msi) (types, None).
Definition mrun_one types v := metacal_one gs1 mfstr nat mnormal nofit nofit (PDilate gs1) mstep v (types, None).
(** any observation like mobs *)
Definition like (im : arr2 R) : obsval := OV im (sq 4) jac1 noise_opt None [] false true (Some mpsf).
Lemma jcopy : Jacobian_copy jac1 = Ok jac1. Proof. reflexivity. Qed.
Lemma one_runs im types : nrow im = 2%nat -> ncol im = 2%nat -> types = ["1p"] \/ types = ["noshear"] -> exists o u,
  mrun_one (TList types) (like im) = ((TList (if String.eqb (hd "" types) "1p" then ["1p"] else ["noshear"; "1p"]), None), (like im, Ok [("noshear", u); ("1p", o)])) /\
  (exists i p, mo_val gs1 o = OV i (sq 4) jac1 noise_opt None [] false true p /\ nrow i = 2%nat /\ ncol i = 2%nat) /\
  (exists i p, mo_val gs1 u = OV i (sq 4) jac1 noise_opt None [] false true p /\ nrow i = 2%nat /\ ncol i = 2%nat).
Proof.
  intros R C T. destruct im as [nr nc f]. cbn in R, C. subst nr nc. destruct shd_ok as (d & sh & D & S & _).
  assert (Run : forall g pi pn, let m := mkMc gs1 (KDilate gs1) (like (mkArr 2 2 f)) mpsf 1 g pi pn no_noise in
    exists c i j p q, get_types gs1 mfstr m d ["1p"] [] [] =
      (c, Ok [("noshear", mkMo gs1 (OV (mkArr 2 2 i) (sq 4) jac1 noise_opt None [] false true p) None (Some q));
              ("1p", mkMo gs1 (OV (mkArr 2 2 j) (sq 4) jac1 noise_opt None [] false true p) None (Some q))])).
  { intros g pi pn m. cbn [get_types]. change (String.eqb "1p" "noshear") with false. rewrite S. change (contains "psf" "1p") with false. cbn [String.eqb Ascii.eqb Bool.eqb].
    unfold get_obs_galshear_both, get_target_psf. cbn [sget]. unfold dilated_psf. unfold m at 1. cbn [mc_kind].
    unfold dilated_psf_dilate. cbn [sget sset]. rewrite String.eqb_refl. cbn [bind]. unfold m. cbn [mc_psf mc_obs v_image like mpsf sq nrow ncol].
    cbn [gs1 ex_gs gs_draw fine range_error bind sset sget]. rewrite !String.eqb_refl. cbn [sset sget]. rewrite String.eqb_refl. cbn [bind].
    unfold get_target_image, make_obs, make_psf_obs. cbn [bind mc_kind mc_psf mc_obs mc_gal like mpsf v_image nrow ncol gs_draw gs_shear gs1 ex_gs fine range_error v_copy v_pixels v_set_image v_jac].
    change (Jacobian_copy jac1) with (Ok jac1). cbn [bind rmap v_set_image v_pixels nrow ncol sq shape_eqb fst snd Nat.eqb andb negb v_set_psf sset String.eqb Ascii.eqb Bool.eqb].
    do 5 eexists. reflexivity. }
  unfold mrun_one, metacal_one, make_metacal. cbn [set_data like v_psf v_jac v_image bind gs_pixel gs_interp gs1 ex_gs md_psf md_pixel md_gal md_psf_int md_psf_nopix].
  unfold get_all. cbn [allowed_types mc_kind]. change (String.eqb (hd "" ["1p"]) "1p") with true.
  destruct T as [->| ->]; cbn [hd].
  - change (negb (forallb (fun t => is_in t METACAL_TYPES) ["1p"])) with false.
    change (is_in "noshear" ["1p"] && negb (is_in "1p" ["1p"])) with false. cbv iota. cbn [caller]. rewrite D.
    match goal with |- context[get_types _ mfstr (mkMc _ _ _ _ _ ?g ?pi ?pn _) d] => destruct (Run g pi pn) as (c & i & j & p & q & E) end.
    rewrite E. do 2 eexists. split; [reflexivity|]. split; do 2 eexists; (split; [reflexivity|split; reflexivity]).
  - change (negb (forallb (fun t => is_in t METACAL_TYPES) ["noshear"])) with false.
    change (is_in "noshear" ["noshear"] && negb (is_in "1p" ["noshear"])) with true. cbv iota. cbn [caller]. rewrite D.
    match goal with |- context[get_types _ mfstr (mkMc _ _ _ _ _ ?g ?pi ?pn _) d] => destruct (Run g pi pn) as (c & i & j & p & q & E) end.
    change (["noshear"] ++ ["1p"]) with ["noshear"; "1p"]. cbn [get_types]. change (String.eqb "noshear" "noshear") with true. cbv iota. cbn [get_types] in E. rewrite E.
    do 2 eexists. split; [reflexivity|]. split; do 2 eexists; (split; [reflexivity|split; reflexivity]).
Qed.
Lemma run_plain types : types = ["1p"] \/ types = ["noshear"] -> exists o u,
  mrun false (TList types) = ((TList (if String.eqb (hd "" types) "1p" then ["1p"] else ["noshear"; "1p"]), None), (MObs _ mobs, Ok (Some [("noshear", MObs _ u); ("1p", MObs _ o)]))).
Proof.
  intros T. destruct (one_runs (sq 7) types eq_refl eq_refl T) as (o & u & E & _). exists o, u. unfold mrun, get_all_metacal. cbn [vals msi si_val get_all_metacal_].
  unfold mrun_one in E. change (like (sq 7)) with mobs in E. rewrite E. reflexivity.
Qed.
Lemma addw : add_weight 4 4 = Some 2.
Proof. unfold add_weight. rewrite Reqb_f by lra. cbn [negb andb]. unfold np_div. rewrite Reqb_f by lra. f_equal. field. Qed.
Lemma run_noise : exists s' o u, mrun true (TList ["1p"]) = (s', (MObs _ mobs, Ok (Some [("noshear", MObs _ u); ("1p", MObs _ o)]))).
Proof.
  destruct (one_runs (sq 7) ["1p"] eq_refl eq_refl (or_introl eq_refl)) as (o & u & E & (oi & op & O1 & O2 & O3) & (ui & up & U1 & U2 & U3)).
  destruct (one_runs (rot90 1 (sq 3)) ["1p"] eq_refl eq_refl (or_introl eq_refl)) as (o' & u' & E' & (oi' & op' & O1' & O2' & O3') & (ui' & up' & U1' & U2' & U3')).
  assert (N : noise_observations nat mnormal true (MObs _ msi) None = (None, Ok (MObs _ (like (sq 3))))) by reflexivity.
  assert (Rt : map_cont (rotate_val 1) (MObs _ (like (sq 3))) = Ok (MObs _ (like (rot90 1 (sq 3))))) by reflexivity.
  assert (A : get_all_metacal_ gs1 mfstr nat mnormal nofit nofit (PDilate gs1) mstep (vals (MObs _ msi)) (TList ["1p"], None) =
    ((TList ["1p"], None), (MObs _ mobs, Ok (Some [("noshear", MObs _ u); ("1p", MObs _ o)])))).
  { cbn [vals msi si_val get_all_metacal_]. unfold mrun_one in E. change (like (sq 7)) with mobs in E. rewrite E. reflexivity. }
  assert (A' : get_all_metacal_ gs1 mfstr nat mnormal nofit nofit (PDilate gs1) mstep (MObs _ (like (rot90 1 (sq 3)))) (TList ["1p"], None) =
    ((TList ["1p"], None), (MObs _ (like (rot90 1 (sq 3))), Ok (Some [("noshear", MObs _ u'); ("1p", MObs _ o')])))).
  { cbn [get_all_metacal_]. unfold mrun_one in E'. rewrite E'. reflexivity. }
  assert (X : forall a b ai ap bi bp, mo_val gs1 a = OV ai (sq 4) jac1 noise_opt None [] false true ap -> nrow ai = 2%nat -> ncol ai = 2%nat ->
     mo_val gs1 b = OV bi (sq 4) jac1 noise_opt None [] false true bp -> nrow bi = 2%nat -> ncol bi = 2%nat ->
     exists z, (let* n := map_cont (rotate_out gs1 3) (MObs _ b) in doadd_cont gs1 (MObs _ a) n) = Ok (MObs _ z)).
  { clear. intros a b [ar ac af] ap [br bc bf] bp A1 A2 A3 B1 B2 B3. cbn in A2, A3, B2, B3. subst. unfold map_cont, rotate_out, rotate_val. rewrite B1.
    cbn [v_image rot90 nrow ncol v_set_image shape_eqb fst snd Nat.eqb andb negb v_pixels bind rmap]. unfold doadd_cont, doadd. cbn [mo_val]. rewrite A1.
    cbn [v_image v_weight same_shape sq nrow ncol shape_eqb fst snd Nat.eqb andb negb v_write v_pixels bind at2]. unfold finite_image. rewrite addw.
    eexists. reflexivity. }
  destruct (X u u' _ _ _ _ U1 U2 U3 U1' U2' U3') as [zu Zu]. destruct (X o o' _ _ _ _ O1 O2 O3 O1' O2' O3') as [zo Zo].
  exists (TList ["1p"], None), zo, zu. unfold mrun, get_all_metacal, fixnoise. rewrite N. cbn [bind]. rewrite Rt, A, A'.
  assert (F : fix_types gs1 [("noshear", MObs _ u); ("1p", MObs _ o)] [("noshear", MObs _ u'); ("1p", MObs _ o')] = Ok [("noshear", MObs _ zu); ("1p", MObs _ zo)]).
  { cbn [fix_types sget String.eqb Ascii.eqb Bool.eqb]. destruct (map_cont (rotate_out gs1 3) (MObs _ u')) as [nu|]; [|discriminate]. cbn [bind] in Zu |- *. rewrite Zu.
    destruct (map_cont (rotate_out gs1 3) (MObs _ o')) as [no|]; [|discriminate]. cbn [bind] in Zo |- *. rewrite Zo. reflexivity. }
  cbn [bind]. rewrite F. reflexivity.
Qed.
(** a psf image that cannot be drawn *)
Definition mbad : mc gs2 := mkMc gs2 (KDilate gs2) mobs mpsf 1 7 1 1 no_noise.
Definition msh : shape := mkShape mstep 0 mstep.
Lemma bad_target : target_psf gs2 mbad false (sh_g1 msh) (sh_g2 msh) = Raise GMixRangeError.
Proof. reflexivity. Qed.
Lemma bad_first : snd (get_target_psf gs2 mfstr mbad msh false []) = Raise GMixRangeError.
Proof.
  unfold get_target_psf. cbn [sget]. unfold dilated_psf. cbn [mbad mc_kind]. unfold dilated_psf_dilate. cbn [sget sset]. rewrite String.eqb_refl. reflexivity.
Qed.
(** the fit of the psf changes the input *)
Definition mgm : gmobj := GMixObj_Model.with_data (GMixObj_Model.new_full_ngauss 1) [gauss2d_set 1 0 0 1 0 1].
Definition goodfit (w : nat) (v : obsval) : nat * res pfit := (w, Ok (mkPf 0 0 0 2 (Ok mgm) "res")).
Lemma mnoise : exists n, setup_psf_noise nat mnormal (v_image mpsf) (Some 0%nat) = (Some 1%nat, Ok n).
Proof.
  unfold setup_psf_noise. change (elements (v_image mpsf)) with [1; 1; 1; 1]. cbn [np_max fold_left]. replace (Rmax (Rmax (Rmax 1 1) 1) 1) with 1 by (unfold Rmax; repeat destruct (Rle_dec _ _); lra).
  rewrite Rltb_f by lra. cbn [mnormal v_image mpsf sq nrow ncol bind]. rewrite Reqb_f by lra. eexists. reflexivity.
Qed.
Theorem fit_changes : exists s' obs' r, get_all_metacal gs1 mfstr nat mnormal goodfit nofit (PFitGauss gs1) mstep false false (MObs _ msi) (TList ["1p"], Some 0%nat) =
    (s', (obs', r)) /\ sound_input (MObs _ msi) /\
    exists v' p, obs' = MObs _ v' /\ v_psf v' = Some p /\ v_gmix p = Some mgm /\ v_gmix mpsf = None /\ v_meta mpsf = [] /\ v_meta p = [("result", "res")].
Proof.
  destruct mnoise as [n Hn].
  assert (M : exists m p, make_metacal gs1 nat mnormal goodfit nofit mobs (PFitGauss gs1) (Some 0%nat) = (Some 1%nat, v_set_psf mobs p, Ok m) /\
     v_gmix p = Some mgm /\ v_meta p = [("result", "res")]).
  { unfold make_metacal. cbn [set_data mobs v_psf v_jac v_image bind gs_pixel gs_interp gs1 ex_gs md_psf]. rewrite Hn.
    unfold do_psf_fit, goodfit. cbn [v_store mpsf pf_flags Z.eqb pf_gmix pf_dict pf_e1 pf_e2 pf_T]. change (let* gm := Ok mgm in gm_copy gm) with (Ok mgm). cbv iota. cbn [gs_gaussian].
    do 2 eexists. split; [reflexivity|]. split; reflexivity. }
  destruct M as (m & p & M & P1 & P2). unfold get_all_metacal. cbn [vals msi si_val get_all_metacal_]. unfold metacal_one. rewrite M.
  destruct (get_all gs1 mfstr m mstep (TList ["1p"]) []) as [t [c r]]. do 3 eexists. split; [reflexivity|]. split; [exact msound|].
  do 2 eexists. split; [reflexivity|]. split; [reflexivity|]. split; [exact P1|]. split; [reflexivity|]. split; [reflexivity|exact P2].
Qed.
(** the Gaussian target *)
Lemma target_ex : exists q, gauss_target_psf gs1 1 1 = Ok q.
Proof.
  unfold gauss_target_psf, ksq_max. cbn [gs_kimage gs1 ex_gs gs_stepk gs_flux bind]. change (kgrid 2) with [(0, 0); (0, 1); (1, 0); (1, 1)]%nat.
  cbn [filter fst snd Nat.add Nat.eqb]. unfold small_kval. rewrite !(Rltb_t 0) by lra. rewrite !(Rltb_f 1) by lra. cbn [map fst snd np_min fold_left bind].
  rewrite Reqb_f; [eexists; reflexivity|]. unfold ksq. cbn [INR]. unfold Rmin. repeat destruct (Rle_dec _ _); lra.
Qed.
Lemma rotate_not_square k v : k = 1%nat \/ k = 3%nat -> nrow (v_image v) <> ncol (v_image v) -> rotate_val k v = Raise AssertionError.
Proof.
  intros [->| ->] N; unfold rotate_val, v_set_image; destruct v as [im w j opts g d st ig p]; cbn [v_image rot90 nrow ncol] in *;
    unfold shape_eqb; cbn [fst snd]; rewrite (proj2 (Nat.eqb_neq (ncol im) (nrow im))) by auto; reflexivity.
Qed.
Definition sq0 : mem := mkMem [mkBuf (C2 (sq 1)) true; mkBuf (C2 (mkArr 2 2 (fun _ _ => 1))) true; mkBuf (CJ jac1) true; mkBuf (C2 (sq 2)) true]
  [mkAr 0 true; mkAr 1 true; mkAr 2 true; mkAr 3 true] [[]] [mkObs 0 1 2 none_opts None None 0 false true false None].
Definition sqprog : list op := [NewArr (C2 (sq 1)) true; NewObs 0 false ANone ANone ANone ANone (JJac jac1) GNone PNone DNone ANone false true; NewArr (C2 (sq 2)) true].
Lemma sqprog_run : exec empty_mem sqprog = sq0.
Proof.
  unfold sqprog. cbn [exec]. open_step. cbn [sq nrow ncol fst snd empty_mem m_bufs m_arrs m_metas m_obs app length nth_error a_buf b_data]. rewrite jac1_copy.
  compute_mem. reflexivity.
Qed.
Ltac sqstep := unfold copy_opt, copy_view, view_check, get_meta, new_meta, none_opts; open_step; cbn [sq]; compute_mem; rewrite ?jac1_copy; compute_mem; reflexivity.
Lemma share_example : exists p i a m1 k1 m2 m3 k2 m4, let m := exec empty_mem p in
  step (CopyObs i) m = (m1, Ok k1) /\ step (SetImage k1 a false) m1 = (m2, Ok 0%nat) /\
  step (CopyObs i) m2 = (m3, Ok k2) /\ step (SetImage k2 a false) m3 = (m4, Ok 0%nat).
Proof.
  exists sqprog, 0%nat, 3%nat. cbv zeta. rewrite sqprog_run. unfold sq0. do 6 eexists.
  split; [cbn [step length m_obs copy_obs]; sqstep|].
  split; [unfold set_image; cbn [step]; unfold set_image; sqstep|].
  split; [cbn [step length m_obs copy_obs]; sqstep|].
  cbn [step]; unfold set_image; sqstep.
Qed.
