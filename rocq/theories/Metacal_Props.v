(** Properties of metacal. *)
From Verif Require Import Base Shape_Model Moments_Model Jacobian_Model Pixels_Model GMix_Model Obs_Model ObsVal_Model SimObs_Model SimObs_Spec Metacal_Model Metacal_Spec Metacal_Proofs MetacalCont_Proofs MetacalDil_Proofs MetacalCex_Proofs.
From Coq Require String.
Import String.StringSyntax.
Local Open Scope R_scope.
Local Open Scope string_scope.
Local Open Scope list_scope.
Local Notation string := String.string.

(** ---- C49: results of the metacal bootstrap ---- *)
Theorem C49_one_result_per_type : forall G fstr W normal admom maxlike psf step, prints fstr [step; - step; 0] ->
  forall B rslt bootstrap fix_noise use obs types rng b s' b' obs' rd od,
  metacal_bootstrap G fstr W normal admom maxlike B rslt bootstrap psf step fix_noise use obs (types, rng) b = (s', b', (obs', Ok (rd, od))) ->
  sound_input obs ->
  NoDup (keys rd) /\ keys od = keys rd /\ (forall k, In k (keys rd) <-> returned (requested (all_types G psf) types) k) /\
  forall k r, sget rd k = Some r -> exists x b1 b2 o,
    cont_rel (if fix_noise then with_noise G W normal psf step use k else fun o => made_from G W normal psf step k (si_val o)) obs x /\
    bootstrap b1 x = (b2, o, Ok r) /\ sget od k = Some o.
Proof. intros. eapply bootstrap_ok; eauto. Qed.
Print Assumptions C49_one_result_per_type.
(** a container without observations is an error *)
Theorem C49_empty : forall G fstr W normal admom maxlike psf step B rslt bootstrap fix_noise use obs types rng b s' b' obs' r,
  metacal_bootstrap G fstr W normal admom maxlike B rslt bootstrap psf step fix_noise use obs (types, rng) b = (s', b', (obs', r)) ->
  no_observations obs -> r = Raise (if fix_noise then TypeError else AttributeError).
Proof. intros. eapply bootstrap_empty; eauto. Qed.
Print Assumptions C49_empty.
Example C49_hypotheses_hold : exists s' b' obs' rd od,
  prints mfstr [mstep; - mstep; 0] /\ sound_input (MObs _ msi) /\
  metacal_bootstrap gs1 mfstr nat mnormal nofit nofit unit nat (fun b x => (b, x, Ok 5%nat)) (PDilate gs1) mstep false true (MObs _ msi) (TList ["1p"], None) tt =
    (s', b', (obs', Ok (rd, od))) /\ keys rd = ["noshear"; "1p"].
Proof.
  destruct (run_plain ["1p"] (or_introl eq_refl)) as (o & u & E). unfold metacal_bootstrap. unfold mrun in E. 
  assert (E' : get_all_metacal gs1 mfstr nat mnormal nofit nofit (PDilate gs1) mstep false true (MObs _ msi) (TList ["1p"], None) =
     (TList ["1p"], None, (MObs _ mobs, Ok (Some [("noshear", MObs _ u); ("1p", MObs _ o)])))) by exact E. rewrite E'.
  do 5 eexists. split; [exact mprints|]. split; [exact msound|]. split; [reflexivity|reflexivity].
Qed.

(** ---- C50: the types ---- *)
(** the keys: what was asked for, and noshear and 1p always together *)
Theorem C50_keys : forall G fstr W normal admom maxlike psf step, prints fstr [step; - step; 0] ->
  forall fix_noise use obs types rng s' obs' d,
  get_all_metacal G fstr W normal admom maxlike psf step fix_noise use obs (types, rng) = (s', (obs', Ok (Some d))) -> sound_input obs ->
  NoDup (keys d) /\ forall k, In k (keys d) <-> returned (requested (all_types G psf) types) k.
Proof. intros G fstr W normal admom maxlike psf step P fx use obs types rng s' obs' d H S. destruct (all_metacal G fstr W normal admom maxlike psf step P _ _ _ _ _ _ _ _ H S) as (A & B & _). auto. Qed.
Print Assumptions C50_keys.
(** exactly the requested types when noshear and 1p are both or neither among them *)
Theorem C50_exact_when_paired : forall G fstr W normal admom maxlike psf step, prints fstr [step; - step; 0] ->
  forall fix_noise use obs types rng s' obs' d,
  get_all_metacal G fstr W normal admom maxlike psf step fix_noise use obs (types, rng) = (s', (obs', Ok (Some d))) -> sound_input obs ->
  paired (requested (all_types G psf) types) ->
  fst s' = types /\ forall k, In k (keys d) <-> In k (requested (all_types G psf) types).
Proof.
  intros G fstr W normal admom maxlike psf step P fx use obs types rng [t' r'] obs' d H S Pr.
  split; [exact (list_unchanged G fstr W normal admom maxlike psf step fx use obs types rng t' r' _ H Pr)|].
  destruct (all_metacal G fstr W normal admom maxlike psf step P _ _ _ _ _ _ _ _ H S) as (_ & B & _).
  intros k. rewrite B. unfold returned, paired in *. split; [|tauto]. intros [I|[[->| ->] [I|I]]]; tauto.
Qed.
Print Assumptions C50_exact_when_paired.
(** types outside the list for this psf are rejected *)
Theorem C50_unknown_rejected : forall G fstr W normal admom maxlike psf step fix_noise use obs types rng s' obs' r t,
  get_all_metacal G fstr W normal admom maxlike psf step fix_noise use obs (types, rng) = (s', (obs', r)) ->
  In t (requested (all_types G psf) types) -> ~ In t (all_types G psf) -> forall d, r <> Ok (Some d).
Proof. intros. eapply unknown_rejected; eauto. Qed.
Print Assumptions C50_unknown_rejected.
Theorem C50_unknown_error : forall G fstr m step types c t, In t (requested (allowed_types G m) types) -> ~ In t (allowed_types G m) ->
  get_all G fstr m step types c = (types, (c, Raise AssertionError)).
Proof. exact get_all_unknown. Qed.
Print Assumptions C50_unknown_error.
(** without observations the result is not a dictionary *)
Theorem C50_no_observation : forall G fstr W normal admom maxlike psf step fix_noise use obs types rng s' obs' r,
  get_all_metacal G fstr W normal admom maxlike psf step fix_noise use obs (types, rng) = (s', (obs', r)) -> no_observations obs ->
  r = if fix_noise then Raise TypeError else Ok None.
Proof. intros. eapply no_observation; eauto. Qed.
Print Assumptions C50_no_observation.
(** asking for 1p only also gives noshear *)
Theorem C50_extra_types_refuted : exists s' obs' d,
  mrun false (TList ["1p"]) = (s', (obs', Ok (Some d))) /\ sound_input (MObs _ msi) /\ ~ In "noshear" ["1p"] /\ In "noshear" (keys d).
Proof.
  destruct (run_plain ["1p"] (or_introl eq_refl)) as (o & u & E). rewrite E. do 3 eexists. split; [reflexivity|]. split; [exact msound|].
  split; [intros [H|[]]; discriminate H|left; reflexivity].
Qed.
Print Assumptions C50_extra_types_refuted.
(** asking for noshear only changes the list of the caller *)
Theorem C50_list_modified_refuted : exists s' r, mrun false (TList ["noshear"]) = (s', r) /\ sound_input (MObs _ msi) /\ fst s' = TList ["noshear"; "1p"].
Proof.
  destruct (run_plain ["noshear"] (or_intror eq_refl)) as (o & u & E). rewrite E. do 2 eexists. split; [reflexivity|]. split; [exact msound|reflexivity].
Qed.
Print Assumptions C50_list_modified_refuted.
Example C50_hypotheses_hold : prints mfstr [mstep; - mstep; 0] /\ sound_input (MObs _ msi) /\
  (exists s' o u, mrun true (TList ["1p"]) = (s', (MObs _ mobs, Ok (Some [("noshear", MObs _ u); ("1p", MObs _ o)])))) /\
  (exists s' o u, mrun false (TList ["1p"]) = (s', (MObs _ mobs, Ok (Some [("noshear", MObs _ u); ("1p", MObs _ o)])))) /\
  paired ["1m"; "2p"] /\ paired (requested METACAL_TYPES TNone) /\ ~ In "3p" METACAL_TYPES.
Proof.
  split; [exact mprints|]. split; [exact msound|]. split; [exact run_noise|]. split.
  { destruct (run_plain ["1p"] (or_introl eq_refl)) as (o & u & E). do 3 eexists. exact E. }
  split; [split; intros [H|[H|[]]]; discriminate H|]. split; [split; intros _; cbn; auto|].
  intros H. unfold METACAL_TYPES in H. do 9 (destruct H as [H|H]; [discriminate H|]). exact H.
Qed.

(** ---- C51: the cache of psfs ---- *)
(** different requests have different keys *)
Theorem C51_key_injective : forall fstr l sh sh' d d', prints fstr l -> made_of l sh -> made_of l sh' ->
  psf_key fstr d sh = psf_key fstr d' sh' -> d = d' /\ sh_g1 sh = sh_g1 sh' /\ sh_g2 sh = sh_g2 sh'.
Proof. intros. eapply key_injective; eauto. Qed.
Print Assumptions C51_key_injective.
(** round kernels: the result is that of a call without cache, after any history *)
Theorem C51_transparent : forall G fstr l, prints fstr l -> forall m h d sh,
  Forall (fun r : request => made_of l (snd r)) h -> made_of l sh -> mc_kind G m <> KDilate G ->
  snd (get_target_psf G fstr m sh d (history G fstr m h [])) = target_psf G m d (sh_g1 sh) (sh_g2 sh).
Proof. intros. eapply psf_transparent; eauto. Qed.
Print Assumptions C51_transparent.
(** the dilated psf: the same as long as the call succeeds *)
Theorem C51_success : forall G fstr l, prints fstr l -> forall m h d sh x,
  Forall (fun r : request => made_of l (snd r)) h -> made_of l sh ->
  snd (get_target_psf G fstr m sh d (history G fstr m h [])) = Ok x <-> target_psf G m d (sh_g1 sh) (sh_g2 sh) = Ok x.
Proof. intros. eapply psf_success; eauto. Qed.
Print Assumptions C51_success.
(** but after a failure the same request gives a TypeError *)
Theorem C51_failure_poisons_cache : forall G fstr l, prints fstr l -> forall m h d sh e,
  Forall (fun r : request => made_of l (snd r)) h -> made_of l sh ->
  mc_kind G m = KDilate G -> target_psf G m d (sh_g1 sh) (sh_g2 sh) = Raise e ->
  snd (get_target_psf G fstr m sh d (history G fstr m (h ++ [(d, sh)]) [])) = Raise TypeError.
Proof. intros. eapply psf_poisoned; eauto. Qed.
Print Assumptions C51_failure_poisons_cache.
Theorem C51_failure_transparent_refuted : exists G fstr m sh,
  snd (get_target_psf G fstr m sh false (history G fstr m [] [])) = Raise GMixRangeError /\
  snd (get_target_psf G fstr m sh false (history G fstr m [(false, sh)] [])) = Raise TypeError.
Proof.
  exists gs2, mfstr, mbad, msh. split; [exact bad_first|].
  apply (psf_poisoned gs2 mfstr _ mprints mbad [] false msh GMixRangeError (Forall_nil _)); [split; cbn; auto|reflexivity|exact bad_target].
Qed.
Print Assumptions C51_failure_transparent_refuted.
Example C51_hypotheses_hold : prints mfstr [mstep; - mstep; 0] /\ made_of [mstep; - mstep; 0] msh /\
  target_psf gs2 mbad false (sh_g1 msh) (sh_g2 msh) = Raise GMixRangeError /\
  exists x, target_psf gs1 (mkMc gs1 (KAnalytic gs1 3) mobs mpsf 1 7 1 1 no_noise) false (sh_g1 msh) (sh_g2 msh) = Ok x.
Proof. split; [exact mprints|]. split; [split; cbn; auto|]. split; [exact bad_target|]. eexists. reflexivity. Qed.

(** ---- C52: noise ---- *)
(** rotating back what was rotated gives the same image *)
Theorem C52_rotation_identity : forall A (a b c : arr2 A), rotated a b -> rotated c b -> same_pixels a c.
Proof. exact @rot_identity. Qed.
Print Assumptions C52_rotation_identity.
Theorem C52_rotations : forall A (a : arr2 A), rotated a (rot90 1 a) /\ rotated (rot90 3 a) a /\ same_pixels (rot90 3 (rot90 1 a)) a.
Proof.
  intros A a. split; [apply rot_there|]. split; [apply rot_back|]. eapply rot_identity; [apply rot_back|apply rot_there].
Qed.
Print Assumptions C52_rotations.
(** what is returned: the metacal image of the data plus that of the rotated noise, rotated
    back; weights add as variances *)
Theorem C52_noise_added : forall G fstr W normal admom maxlike psf step, prints fstr [step; - step; 0] ->
  forall use obs types rng s' obs' d,
  get_all_metacal G fstr W normal admom maxlike psf step true use obs (types, rng) = (s', (obs', Ok (Some d))) -> sound_input obs ->
  forall k x, sget d k = Some x -> cont_rel (with_noise G W normal psf step use k) obs x.
Proof. intros G fstr W normal admom maxlike psf step P use obs types rng s' obs' d H S. apply (all_metacal G fstr W normal admom maxlike psf step P _ _ _ _ _ _ _ _ H S). Qed.
Print Assumptions C52_noise_added.
(** in particular the weights are halved, zero weights stay *)
Theorem C52_weights_halved : forall G W normal psf step use k o f, with_noise G W normal psf step use k o f ->
  same_dims (v_weight (mo_val G f)) (v_weight (si_val o)) /\
  forall r c, inside (v_weight (mo_val G f)) r c -> at2 (v_weight (mo_val G f)) r c = at2 (v_weight (si_val o)) r c / 2.
Proof. intros. eapply weights_halved; eauto. Qed.
Print Assumptions C52_weights_halved.
(** images that are not square are rejected *)
Theorem C52_not_square : forall k v, k = 1%nat \/ k = 3%nat -> nrow (v_image v) <> ncol (v_image v) -> rotate_val k v = Raise AssertionError.
Proof. exact rotate_not_square. Qed.
Print Assumptions C52_not_square.
Example C52_hypotheses_hold : prints mfstr [mstep; - mstep; 0] /\ sound_input (MObs _ msi) /\
  (exists s' o u, mrun true (TList ["1p"]) = (s', (MObs _ mobs, Ok (Some [("noshear", MObs _ u); ("1p", MObs _ o)])))).
Proof. split; [exact mprints|]. split; [exact msound|exact run_noise]. Qed.

(** ---- C53: dilations ---- *)
Theorem C53_shear_dilation : forall sh, shear_dilation sh = 1 + 2 * sqrt (sh_g1 sh ^ 2 + sh_g2 sh ^ 2) /\ 1 <= shear_dilation sh.
Proof. exact shear_dilation_spec. Qed.
Print Assumptions C53_shear_dilation.
(** it is enough: a shear g stretches by sqrt((1+g)/(1-g)); for g up to 0.707 and no further *)
Theorem C53_covers_shear : forall sh, let g := sqrt (sh_g1 sh ^ 2 + sh_g2 sh ^ 2) in 0 < g -> g < 1 ->
  (sqrt ((1 + g) / (1 - g)) <= shear_dilation sh <-> 2 * g ^ 2 <= 1).
Proof. exact dilation_covers. Qed.
Print Assumptions C53_covers_shear.
Theorem C53_ellip_dilation : forall e1 e2 T, 0 < T -> exists d, get_ellip_dilation e1 e2 T = Some d /\
  d = Rmin (11 / 10) (2 * sqrt (1 + sqrt (e1 ^ 2 + e2 ^ 2)) - 1) /\ 1 <= d <= 11 / 10.
Proof. exact ellip_dilation_spec. Qed.
Print Assumptions C53_ellip_dilation.
Theorem C53_fit_sigma : forall e1 e2 T, 0 < T -> exists s d, fit_sigma e1 e2 T = Some s /\ get_ellip_dilation e1 e2 T = Some d /\ 0 < s /\ s ^ 2 = T / 2 * d.
Proof. exact fit_sigma_spec. Qed.
Print Assumptions C53_fit_sigma.
(** without a size there is none; a negative size gives a factor below one *)
Theorem C53_no_size : (forall e1 e2, get_ellip_dilation e1 e2 0 = None) /\
  forall e1 e2 T, T < 0 -> 0 < sqrt (e1 ^ 2 + e2 ^ 2) <= 1 -> exists d, get_ellip_dilation e1 e2 T = Some d /\ d < 1.
Proof. split; [exact ellip_dilation_zero|exact ellip_dilation_negative]. Qed.
Print Assumptions C53_no_size.
Example C53_hypotheses_hold : 0 < sqrt (sh_g1 msh ^ 2 + sh_g2 msh ^ 2) < 1 /\ 2 * sqrt (sh_g1 msh ^ 2 + sh_g2 msh ^ 2) ^ 2 <= 1.
Proof.
  assert (E : sqrt (sh_g1 msh ^ 2 + sh_g2 msh ^ 2) = 1 / 100).
  { cbn [msh sh_g1 sh_g2]. unfold mstep. replace ((1 / 100) ^ 2 + 0 ^ 2) with ((1 / 100) ^ 2) by ring. apply sqrt_pow2. lra. }
  rewrite E. lra.
Qed.

(** ---- C88: the kernel fitted to the psf ---- *)
(** for a round psf the kernel covers the sheared psf *)
Theorem C88_round_psf_covered_partial : forall T sh, 0 < T -> let g := sqrt (sh_g1 sh ^ 2 + sh_g2 sh ^ 2) in 0 < g -> 2 * g ^ 2 <= 1 ->
  exists s, fit_sigma 0 0 T = Some s /\ T / 2 * ((1 + g) / (1 - g)) <= (s * shear_dilation sh) ^ 2.
Proof. exact fit_covers_round. Qed.
Print Assumptions C88_round_psf_covered_partial.
(** for a psf of ellipticity 0.2 it is smaller than the psf along its major axis *)
Theorem C88_elliptical_psf_covered_refuted : exists e1 e2 T sh s, 0 < T /\ Shape_init (1 / 100) 0 = Ok sh /\ fit_sigma e1 e2 T = Some s /\
  s ^ 2 < T / 2 * (1 + sqrt (e1 ^ 2 + e2 ^ 2)) /\ (s * shear_dilation sh) ^ 2 < T / 2 * (1 + sqrt (e1 ^ 2 + e2 ^ 2)).
Proof. exact fit_too_small. Qed.
Print Assumptions C88_elliptical_psf_covered_refuted.
Example C88_hypotheses_hold : 0 < 2 /\ 0 < sqrt (sh_g1 msh ^ 2 + sh_g2 msh ^ 2) /\ 2 * sqrt (sh_g1 msh ^ 2 + sh_g2 msh ^ 2) ^ 2 <= 1.
Proof. destruct C53_hypotheses_hold. split; [lra|]. split; [lra|auto]. Qed.

(** ---- C89: the Gaussian target ---- *)
Theorem C89_gauss_target : forall G p flux q, gauss_target_psf G p flux = Ok q ->
  let dk := gs_stepk G p / 4 in
  exists n k r c sigma, gs_kimage G dk p = Ok (n, k) /\ (r < n)%nat /\ (c < n)%nat /\
    k r c < gs_flux G p / 100 /\
    (forall r' c', (r' < n)%nat -> (c' < n)%nat -> ksq dk n r' c' < ksq dk n r c -> gs_flux G p / 100 <= k r' c') /\
    gs_gaussian G (Some sigma) flux = Ok q /\ exp (- (ksq dk n r c * sigma ^ 2 / 2)) = 3 / 1000.
Proof. exact gauss_target_spec. Qed.
Print Assumptions C89_gauss_target.
Example C89_hypotheses_hold : exists q, gauss_target_psf gs1 1 1 = Ok q.
Proof. exact target_ex. Qed.

(** ---- C90: the input ---- *)
Theorem C90_input_unchanged : forall G fstr W normal admom maxlike psf step fix_noise use obs s s' obs' r,
  get_all_metacal G fstr W normal admom maxlike psf step fix_noise use obs s = (s', (obs', r)) -> obs <> MOther _ ->
  psf <> PFitGauss G -> obs' = vals obs.
Proof. intros. eapply input_unchanged; eauto. Qed.
Print Assumptions C90_input_unchanged.
(** with fitgauss at most the mixture and the metadata of the psf change *)
Theorem C90_only_psf_fit : forall G fstr W normal admom maxlike psf step fix_noise use obs s s' obs' r,
  get_all_metacal G fstr W normal admom maxlike psf step fix_noise use obs s = (s', (obs', r)) -> obs <> MOther _ ->
  cont_rel (touched G psf) (vals obs) obs'.
Proof. intros. eapply input_touched; eauto. Qed.
Print Assumptions C90_only_psf_fit.
Theorem C90_fitgauss_unchanged_refuted : exists s' obs' r,
  get_all_metacal gs1 mfstr nat mnormal goodfit nofit (PFitGauss gs1) mstep false false (MObs _ msi) (TList ["1p"], Some 0%nat) = (s', (obs', r)) /\
  sound_input (MObs _ msi) /\
  exists v' p, obs' = MObs _ v' /\ v_psf v' = Some p /\ v_gmix p = Some mgm /\ v_gmix mpsf = None /\ v_meta mpsf = [] /\ v_meta p = [("result", "res")].
Proof. exact fit_changes. Qed.
Print Assumptions C90_fitgauss_unchanged_refuted.
Example C90_hypotheses_hold : exists s' r, mrun true (TList ["1p"]) = (s', (MObs _ mobs, Ok r)) /\ MObs _ msi <> MOther _ /\ PDilate gs1 <> PFitGauss gs1.
Proof. destruct run_noise as (s' & o & u & E). rewrite E. do 2 eexists. split; [reflexivity|]. split; discriminate. Qed.

(** ---- C91: the new observations share data ---- *)
(** 1p and noshear of MetacalDilatePSF: both copies of the psf observation are given the same
    array (metacal.py:212-225, 455-459), and keep it *)
Theorem C91_independent_refuted : forall p i a m1 k1 m2 m3 k2 m4, let m := exec empty_mem p in
  step (CopyObs i) m = (m1, Ok k1) -> step (SetImage k1 a false) m1 = (m2, Ok 0%nat) ->
  step (CopyObs i) m2 = (m3, Ok k2) -> step (SetImage k2 a false) m3 = (m4, Ok 0%nat) ->
  k1 <> k2 /\ exists o1 o2, nth_error (m_obs m4) k1 = Some o1 /\ nth_error (m_obs m4) k2 = Some o2 /\
    ob_image o1 = a /\ ob_image o2 = a.
Proof. exact psf_image_shared. Qed.
Print Assumptions C91_independent_refuted.
Example C91_hypotheses_hold : exists p i a m1 k1 m2 m3 k2 m4, let m := exec empty_mem p in
  step (CopyObs i) m = (m1, Ok k1) /\ step (SetImage k1 a false) m1 = (m2, Ok 0%nat) /\
  step (CopyObs i) m2 = (m3, Ok k2) /\ step (SetImage k2 a false) m3 = (m4, Ok 0%nat).
Proof. exact share_example. Qed.

(** ---- C92: the images ---- *)
Theorem C92_contents : forall G fstr W normal admom maxlike psf step, prints fstr [step; - step; 0] ->
  forall use obs types rng s' obs' d,
  get_all_metacal G fstr W normal admom maxlike psf step false use obs (types, rng) = (s', (obs', Ok (Some d))) -> sound_input obs ->
  forall k x, sget d k = Some x -> cont_rel (fun o => made_from G W normal psf step k (si_val o)) obs x.
Proof. intros G fstr W normal admom maxlike psf step P use obs types rng s' obs' d H S. apply (all_metacal G fstr W normal admom maxlike psf step P _ _ _ _ _ _ _ _ H S). Qed.
Print Assumptions C92_contents.
(** also on an object used before *)
Theorem C92_contents_reused : forall G fstr m step types h types' c' od, prints fstr [step; - step; 0] -> sound (mc_obs G m) -> sound (mc_psf G m) ->
  Forall (fun r : request => made_of [step; - step; 0] (snd r)) h ->
  get_all G fstr m step types (history G fstr m h []) = (types', (c', Ok od)) ->
  forall k o, sget od k = Some o -> observation_for G m step k o.
Proof. exact get_all_contents. Qed.
Print Assumptions C92_contents_reused.
Example C92_hypotheses_hold : prints mfstr [mstep; - mstep; 0] /\ sound_input (MObs _ msi) /\
  (exists s' o u, mrun false (TList ["1p"]) = (s', (MObs _ mobs, Ok (Some [("noshear", MObs _ u); ("1p", MObs _ o)])))).
Proof.
  split; [exact mprints|]. split; [exact msound|]. destruct (run_plain ["1p"] (or_introl eq_refl)) as (o & u & E). do 3 eexists. exact E.
Qed.
