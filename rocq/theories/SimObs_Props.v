(** Properties C54, C55, C87. *)
From Verif Require Import Base Jacobian_Model Pixels_Model GMix_Model Render_Spec Obs_Model Obs_Spec ObsCex_Proofs ObsVal_Model SimObs_Model SimObs_Spec SimObs_Proofs SimObsCex_Proofs.
Local Open Scope R_scope.

(** ---- C54 ---- *)

(** the noise image: variance noise_factor^2/weight, masked pixels as documented, for weight
    maps with at least one positive weight *)
Theorem C54_noise : forall W (normal : W -> nat -> nat -> W * arr2 R) weight add_all f s s' z,
  normal s (nrow weight) (ncol weight) = (s', z) ->
  exists n, get_noise_image W normal weight add_all f (Some s) = (Some s', Ok n) /\ noise_law weight add_all f z n.
Proof. exact noise_image_spec. Qed.
Print Assumptions C54_noise.
Theorem C54_no_generator : forall W (normal : W -> nat -> nat -> W * arr2 R) weight add_all f,
  get_noise_image W normal weight add_all f None = (None, Raise ValueError).
Proof. reflexivity. Qed.
Print Assumptions C54_no_generator.
(** without positive weight every pixel gets noise of 1e15, also with add_all=False and
    whatever the noise factor *)
Theorem C54_all_masked_refuted : forall W (normal : W -> nat -> nat -> W * arr2 R) weight add_all f s s' z,
  normal s (nrow weight) (ncol weight) = (s', z) -> ~ some_weight weight ->
  exists n, get_noise_image W normal weight add_all f (Some s) = (Some s', Ok n) /\
    forall r c, at2 n r c = at2 z r c * 10 ^ 15.
Proof. exact noise_no_weight. Qed.
Print Assumptions C54_all_masked_refuted.
Example C54_all_masked_hypotheses_hold : ~ some_weight (mkArr 1 1 (fun _ _ => 0)).
Proof. exact no_weight_ex. Qed.

(** the new observation: model plus noise, weights divided by noise_factor^2, jacobian and
    psf as before *)
Theorem C54_observation : forall W (normal : W -> nat -> nat -> W * arr2 R) gm o sp d s s' z rng' out,
  sound (si_val o) -> seen gm (si_val o) (sp_convolve sp) d -> (forall x, d = Some x -> good_gmix x) ->
  simulate_one W normal gm o sp (Some s) = (rng', Ok out) ->
  normal s (nrow (noise_weight o sp)) (ncol (noise_weight o sp)) = (s', z) ->
  let new := so_val out in let old := si_val o in
  same_dims (v_image new) (v_image old) /\ same_dims (v_weight new) (v_weight old) /\
  v_jac new = v_jac old /\ v_psf new = v_psf old /\ factor (sp_factor sp) <> 0 /\
  (forall r c, at2 (v_weight new) r c = at2 (v_weight old) r c / factor (sp_factor sp) ^ 2) /\
  (sp_add_noise sp = true -> rng' = Some s' /\ exists n, so_noise out = Some n /\
     noise_law (noise_weight o sp) (sp_add_all sp) (sp_factor sp) z n /\
     forall r c, inside (v_image new) r c -> at2 (v_image new) r c = model_flux d (v_jac old) r c + at2 n r c) /\
  (sp_add_noise sp = false -> rng' = Some s /\ so_noise out = None /\
     forall r c, inside (v_image new) r c -> at2 (v_image new) r c = model_flux d (v_jac old) r c).
Proof. exact observation_spec. Qed.
Print Assumptions C54_observation.
(** the new weight is the inverse variance of the noise *)
Theorem C54_inverse_variance : forall W (normal : W -> nat -> nat -> W * arr2 R) gm o sp d s s' z rng' out n,
  sound (si_val o) -> seen gm (si_val o) (sp_convolve sp) d -> (forall x, d = Some x -> good_gmix x) ->
  simulate_one W normal gm o sp (Some s) = (rng', Ok out) ->
  normal s (nrow (noise_weight o sp)) (ncol (noise_weight o sp)) = (s', z) ->
  so_noise out = Some n -> noise_weight o sp = v_weight (si_val o) ->
  forall r c, inside (v_image (so_val out)) r c -> 0 < at2 (v_weight (si_val o)) r c ->
    exists sigma, at2 (v_image (so_val out)) r c = model_flux d (v_jac (si_val o)) r c + at2 z r c * sigma /\
      sigma ^ 2 * at2 (v_weight (so_val out)) r c = 1.
Proof. exact inverse_variance. Qed.
Print Assumptions C54_inverse_variance.
(** with an attribute weight_raw the noise follows weight_raw, the weights do not: here the
    variance is four times that promised by the weight *)
Theorem C54_raw_weight_refuted : exists o sp rng' out, sp_add_noise sp = true /\
  simulate_one nat ex_normal None o sp (Some 1%nat) = (rng', Ok out) /\ sound (si_val o) /\
  forall sigma, at2 (v_image (so_val out)) 0 0 = at2 (snd (ex_normal 1 1 2)) 0 0 * sigma ->
    0 < at2 (v_weight (so_val out)) 0 0 /\ sigma ^ 2 * at2 (v_weight (so_val out)) 0 0 = 4.
Proof. exact raw_cex. Qed.
Print Assumptions C54_raw_weight_refuted.

(** when it succeeds and when not *)
Theorem C54_succeeds : forall W (normal : W -> nat -> nat -> W * arr2 R) gm o sp d s,
  sound (si_val o) -> seen gm (si_val o) (sp_convolve sp) d -> (forall x, d = Some x -> good_gmix x) ->
  same_dims (noise_weight o sp) (v_weight (si_val o)) -> some_weight (v_weight (si_val o)) ->
  sp_factor sp <> Some 0 -> (forall p, v_psf (si_val o) = Some p -> is_ok (v_copy p) = true) ->
  exists rng' out, simulate_one W normal gm o sp (Some s) = (rng', Ok out).
Proof. exact simulate_succeeds. Qed.
Print Assumptions C54_succeeds.
Theorem C54_no_result_when_all_masked : forall W (normal : W -> nat -> nat -> W * arr2 R) gm o sp rng,
  sound (si_val o) -> ~ some_weight (v_weight (si_val o)) ->
  forall rng' out, simulate_one W normal gm o sp rng <> (rng', Ok out).
Proof. exact all_masked. Qed.
Print Assumptions C54_no_result_when_all_masked.
Example C54_hypotheses_hold : sound (si_val ex_si) /\ seen (Some ex_gal) (si_val ex_si) (sp_convolve ex_sp) (Some ex_conv) /\
  good_gmix ex_conv /\ noise_weight ex_si ex_sp = v_weight (si_val ex_si) /\ some_weight (v_weight (si_val ex_si)) /\ is_ok (v_copy ex_psf) = true /\
  exists rng' out, simulate_one nat ex_normal (Some ex_gal) ex_si ex_sp (Some 1%nat) = (rng', Ok out).
Proof.
  split; [exact ex_sound|]. split; [exact ex_seen|]. split; [exact ex_conv_good|]. split; [reflexivity|].
  split; [exact ex_w_some|]. split; [exact ex_psf_copy|]. exact ex_runs.
Qed.

(** every observation in memory is sound *)
Theorem C54_observations_are_sound : forall p i v, reads (exec empty_mem p) i v -> sound v.
Proof. exact (fun p => reads_sound _ (ObsThm_Proofs.reach_good p)). Qed.
Print Assumptions C54_observations_are_sound.
(** On the memory: the new object has the value described above, every observation that
    existed keeps its value, and old and new observations share no data: programs that
    mention no older object change no older observation, and programs that mention none of
    the objects just made do not change the new observation. *)
Theorem C54_input_untouched : forall W (normal : W -> nat -> nat -> W * arr2 R) p i o gm sp rng rng' out m' k,
  let m := exec empty_mem p in
  reads m i (si_val o) -> simulate_one W normal gm o sp rng = (rng', Ok out) ->
  build_obs i (v_image (so_val out)) (v_weight (so_val out)) (v_jac (si_val o)) m = (m', Ok k) ->
  reads m' k (so_val out) /\ (forall l v, reads m l v -> reads m' l v) /\
  (forall q, Forall (only_later_objects m) q -> forall l v, reads m l v -> reads (exec m' q) l v) /\
  (forall q, Forall (no_object_between m m') q -> reads (exec m' q) k (so_val out)).
Proof. exact build_spec. Qed.
Print Assumptions C54_input_untouched.
Example C54_memory_hypotheses_hold : exists rng' out m' k,
  reads (exec empty_mem p1) 0 (si_val si1) /\
  simulate_one nat ex_normal None si1 (mkSp false true None true true) (Some 1%nat) = (rng', Ok out) /\
  build_obs 0 (v_image (so_val out)) (v_weight (so_val out)) (v_jac (si_val si1)) (exec empty_mem p1) = (m', Ok k).
Proof. exact ex_built. Qed.

(** ---- C55 ---- *)

(** the same bands and numbers of observations; band i is made from mixture i, every
    observation from the one in its place, with random numbers of its own *)
Theorem C55_multiband : forall W (normal : W -> nat -> nat -> W * arr2 R) gm l sp rng rng' r,
  simulate_obs W normal gm (OMb l) sp rng = (rng', Ok r) ->
  exists l', r = SMb l' /\ length l' = length l /\ chain (sim_band W normal gm sp) rng (combine (seq 0 (length l)) l) l' rng'.
Proof. exact mb_structure. Qed.
Print Assumptions C55_multiband.
Theorem C55_obslist : forall W (normal : W -> nat -> nat -> W * arr2 R) gm l sp rng rng' r,
  simulate_obs W normal gm (OList l) sp rng = (rng', Ok r) ->
  exists l' x g, r = SList l' /\ gm = GOne x /\ item_gmix x = Some g /\ length l' = length l /\ chain (sim_of W normal g sp) rng l l' rng'.
Proof. exact list_structure. Qed.
Print Assumptions C55_obslist.
Theorem C55_observation : forall W (normal : W -> nat -> nat -> W * arr2 R) gm o sp rng rng' r,
  simulate_obs W normal gm (OObs o) sp rng = (rng', Ok r) ->
  exists out x g, r = SObs out /\ gm = GOne x /\ item_gmix x = Some g /\ simulate_one W normal g o sp rng = (rng', Ok out).
Proof. exact obs_structure. Qed.
Print Assumptions C55_observation.
Theorem C55_mismatch_rejected : forall W (normal : W -> nat -> nat -> W * arr2 R) gms l sp rng, length gms <> length l ->
  simulate_obs W normal (GList gms) (OMb l) sp rng = (rng, Raise (match gms with [] => IndexError | _ => ValueError end)).
Proof. exact mismatch. Qed.
Print Assumptions C55_mismatch_rejected.
Theorem C55_wrong_kinds_rejected : forall W (normal : W -> nat -> nat -> W * arr2 R) sp rng,
  (forall g l, simulate_obs W normal (GOne (GI g)) (OMb l) sp rng = (rng, Raise ValueError)) /\
  (forall gms obs, (forall l, obs <> OMb l) -> simulate_obs W normal (GList gms) obs sp rng = (rng, Raise ValueError)) /\
  (forall gm, simulate_obs W normal gm OOther sp rng = (rng, Raise ValueError)) /\
  (forall obs, simulate_obs W normal (GOne GIOther) obs sp rng = (rng, Raise ValueError)).
Proof. exact wrong_kinds. Qed.
Print Assumptions C55_wrong_kinds_rejected.
Example C55_hypotheses_hold : exists rng' r, simulate_obs nat ex_normal (GList [GI ex_gal; GI ex_gal]) (OMb [[]; [ex_si]]) ex_sp (Some 1%nat) = (rng', Ok r).
Proof.
  destruct ex_runs as (rng' & out & E). exists rng', (SMb [[]; [out]]).
  cbn [simulate_obs simulate_mb length Nat.eqb simulate_bands simulate_list simulate_item]. rewrite E. reflexivity.
Qed.

(** ---- C87 ---- *)

(** masks, noise image, mixture and metadata are lost *)
Theorem C87_attributes_lost_refuted : exists gm o sp rng rng' out,
  simulate_one nat ex_normal gm o sp rng = (rng', Ok out) /\ sound (si_val o) /\
  v_opt (si_val o) SBmask <> None /\ v_meta (si_val o) <> [] /\
  v_opt (so_val out) SBmask = None /\ v_meta (so_val out) = [] /\ ~ same_but_image (si_val o) (so_val out).
Proof. exact attributes_lost. Qed.
Print Assumptions C87_attributes_lost_refuted.
(** always *)
Theorem C87_what_is_lost : forall W (normal : W -> nat -> nat -> W * arr2 R) gm o sp rng rng' out, sound (si_val o) ->
  simulate_one W normal gm o sp rng = (rng', Ok out) ->
  (forall s, v_opt (so_val out) s = None) /\ v_gmix (so_val out) = None /\ v_meta (so_val out) = [].
Proof. exact lost_always. Qed.
Print Assumptions C87_what_is_lost.
(** what is kept: jacobian and psf.  Missing from the full statement (same_but_image): masks,
    noise, mfrac, mixture, metadata and the settings for the pixels. *)
Theorem C87_kept_partial : forall W (normal : W -> nat -> nat -> W * arr2 R) gm o sp rng rng' out, sound (si_val o) ->
  simulate_one W normal gm o sp rng = (rng', Ok out) ->
  v_jac (so_val out) = v_jac (si_val o) /\ v_psf (so_val out) = v_psf (si_val o) /\
  same_dims (v_weight (so_val out)) (v_weight (si_val o)).
Proof.
  intros W normal gm o sp rng rng' out So E.
  destruct (simulate_shape W normal gm o sp rng rng' out So E) as (im & w & n & V & _ & _ & D & _).
  rewrite V. split; [reflexivity|]. split; [reflexivity|]. exact D.
Qed.
Print Assumptions C87_kept_partial.
