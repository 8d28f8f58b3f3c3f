(** Theorems about the MEDS readers: C79, C110, C111. *)
From Verif Require Import Base XReal Jacobian_Model Pixels_Model Meds_Model Meds_Spec Meds_Proofs MedsCex_Proofs.
From Coq Require Import Sorted String.
Local Open Scope R_scope.

(** ** C79: what is kept *)

(** the list holds, in order, the observations that could be made; only GMixFatalError is hidden,
    and the first other error comes out *)
Theorem C79_list : forall m iobj wt n, md_ncutout m iobj = Ok n ->
  (exists l, get_obslist m iobj wt = Ok l /\ successes (fun i => get_obs m iobj i wt) n (ml_items l) /\
     forall i, (i < n)%nat -> forall e, get_obs m iobj i wt = Raise e -> e = GMixFatalError) \/
  (exists e k, get_obslist m iobj wt = Raise e /\ e <> GMixFatalError /\ (k < n)%nat /\ get_obs m iobj k wt = Raise e /\
     forall i, (i < k)%nat -> forall e, get_obs m iobj i wt = Raise e -> e = GMixFatalError).
Proof. exact obslist_spec. Qed.
Print Assumptions C79_list.

(** a cutout is skipped only if it has no positive weight, provided that the psf images are finite *)
Theorem C79_skipped_only : forall m iobj icut wt, no_fatal m -> (md_has_psf m = Ok true -> forall im, md_psf m iobj icut = Ok im -> all_finite im) ->
  get_obs m iobj icut wt = Raise GMixFatalError -> exists w, weight_of m iobj icut wt (Ok w) /\ ~ some_positive w.
Proof. exact fatal_means_no_weight. Qed.
Print Assumptions C79_skipped_only.

(** and it is skipped if it has none *)
Theorem C79_skipped : forall m iobj icut wt im w, readable m iobj icut im -> weight_of m iobj icut wt (Ok w) -> same_shape w im = true -> ~ some_positive w ->
  get_obs m iobj icut wt = Raise GMixFatalError.
Proof. exact no_weight_is_skipped. Qed.
Print Assumptions C79_skipped.

(** a cutout with a positive weight, and nan nowhere in the weights, is kept *)
Theorem C79_kept : forall m iobj icut wt im w, readable m iobj icut im -> weight_of m iobj icut wt (Ok w) -> same_shape w im = true ->
  no_nan w -> some_positive w -> planes_fit m iobj icut im -> exists o, get_obs m iobj icut wt = Ok o.
Proof. exact usable_is_kept. Qed.
Print Assumptions C79_kept.

(** the psf can be read if its image is finite *)
Theorem C79_psf : forall m iobj icut im row col j, md_psf m iobj icut = Ok im -> all_finite im -> (0 < nrow im)%nat -> (0 < ncol im)%nat ->
  get_ngmix_jacobian m iobj icut = Ok j -> md_col2 m "psf_cutout_row" iobj icut = Ok row -> md_col2 m "psf_cutout_col" iobj icut = Ok col ->
  exists p, get_psf_obs m iobj icut = Ok p.
Proof. exact psf_readable. Qed.
Print Assumptions C79_psf.

(** Refuted: a nan in the psf image makes cutouts whose weights are all positive disappear, without
    an error (the debug message says that the weights are zero) *)
Theorem C79_nan_psf_refuted : exists m, no_fatal m /\ (exists l, get_obslist m 0 "weight" = Ok l /\ ml_items l = []) /\
  forall icut, icut <> 1%nat -> exists w, weight_of m 0 icut "weight" (Ok w) /\ forall r c, at2 w r c = Fin 1.
Proof.
  exists (file3 nan_psf). split; [apply file3_no_fatal|]. split; [eexists; split; [exact nan_obslist|reflexivity]|].
  intros k Hk. eexists. split; [apply file3_weight|]. intros r c. destruct (Nat.eqb_spec k 1); [contradiction|reflexivity].
Qed.
Print Assumptions C79_nan_psf_refuted.

(** the metadata of the list: flux and T of the first observation that was kept, nothing else *)
Theorem C79_metadata : forall m iobj wt l, get_obslist m iobj wt = Ok l ->
  match ml_items l with
  | [] => ml_meta l = []
  | o :: _ => dget (ml_meta l) "flux" = dget (o_meta o) "flux" /\ dget (ml_meta l) "T" = dget (o_meta o) "T" /\
              forall k, k <> "flux"%string -> k <> "T"%string -> dget (ml_meta l) k = None
  end.
Proof.
  intros m iobj wt l H. unfold get_obslist in H. destruct (md_ncutout m iobj); cbn [bind] in H; [|discriminate].
  destruct (foldM _ _ _) as [its|e]; cbn [bind] in H; [|discriminate]. inversion H; subst l. cbn [ml_items ml_meta].
  destruct its as [|o its]; [reflexivity|]. apply (list_meta o its).
Qed.
Print Assumptions C79_metadata.

(** one list for each band, in order; the first error comes out *)
Theorem C79_bands : forall ms iobj wt,
  (exists ls, get_mbobs ms iobj wt = Ok ls /\ Forall2 (fun m l => get_obslist m iobj wt = Ok l) ms ls) \/
  (exists e ms1 m ms2, get_mbobs ms iobj wt = Raise e /\ ms = (ms1 ++ m :: ms2)%list /\ get_obslist m iobj wt = Raise e /\
     Forall (fun m => exists l, get_obslist m iobj wt = Ok l) ms1).
Proof. exact mbobs_spec. Qed.
Print Assumptions C79_bands.

(** one for each requested object, by default all objects of the first band *)
Theorem C79_objects : forall ms indices wt idx, indices = Some idx \/ indices = None /\ (exists m ms', ms = m :: ms' /\ idx = seq 0 (md_size m)) ->
  (exists r, get_mbobs_list ms indices wt = Ok r /\ Forall2 (fun i mb => get_mbobs ms i wt = Ok mb) idx r) \/
  (exists e l1 i l2, get_mbobs_list ms indices wt = Raise e /\ idx = (l1 ++ i :: l2)%list /\ get_mbobs ms i wt = Raise e /\
     Forall (fun i => exists mb, get_mbobs ms i wt = Ok mb) l1).
Proof. exact mbobs_list_spec. Qed.
Print Assumptions C79_objects.

(** three cutouts, the second without weight *)
Example C79_hypotheses_hold : let m := file3 (full (Fin 2)) in
  no_fatal m /\ (forall im, md_psf m 0 1 = Ok im -> all_finite im) /\ (forall k, readable m 0 k (full (Fin (INR k)))) /\
  (forall k, planes_fit m 0 k (full (Fin (INR k)))) /\ (exists w, weight_of m 0 0 "weight" (Ok w) /\ some_positive w /\ no_nan w) /\
  get_obs m 0 1 "weight" = Raise GMixFatalError /\
  exists o0 o2 l, get_obslist m 0 "weight" = Ok l /\ ml_items l = [o0; o2] /\ dget (ml_meta l) "flux" = Some (VX (Fin 7)) /\
    at2 (o_image o0) 0 0 = Fin 0 /\ at2 (o_image o2) 0 0 = Fin 2.
Proof.
  cbn zeta. split; [apply file3_no_fatal|]. split; [intros im H; inversion H; apply full_finite|].
  split; [apply file3_readable|]. split; [apply file3_planes|]. split.
  { eexists. split; [apply file3_weight|]. split; [apply full_positive; cbn; lra|]. intros r c _ _. discriminate. }
  split; [exact file3_skipped|]. destruct file3_obslist as [o0 [o2 [_ [_ [l H]]]]]. exists o0, o2, l. exact H.
Qed.

(** ** C110: an observation holds what the file has *)
Theorem C110_contents : forall m iobj icut wt o, get_obs m iobj icut wt = Ok o ->
  md_cutout m iobj icut CtImage = Ok (o_image o) /\ weight_of m iobj icut wt (Ok (o_weight o)) /\
  get_ngmix_jacobian m iobj icut = Ok (o_jac o) /\ get_meta m iobj icut = Ok (o_meta o) /\
  (forall t f, (t = CtBmask /\ f = o_bmask o \/ t = CtOrmask /\ f = o_ormask o \/ t = CtNoise /\ f = o_noise o \/ t = CtMfrac /\ f = o_mfrac o) ->
     match md_cutout m iobj icut t with Ok a => f = Some a /\ nrow a = nrow (o_image o) /\ ncol a = ncol (o_image o) | Raise _ => f = None end) /\
  match o_psf o with None => md_has_psf m = Ok false | Some p => md_has_psf m = Ok true /\ get_psf_obs m iobj icut = Ok p end /\
  nrow (o_weight o) = nrow (o_image o) /\ ncol (o_weight o) = ncol (o_image o) /\ some_positive (o_weight o).
Proof. exact get_obs_contents. Qed.
Print Assumptions C110_contents.

(** the jacobian is the one of the file *)
Theorem C110_jacobian : forall m iobj icut row col dudr dudc dvdr dvdc, md_jac m iobj icut = Ok (row, col, dudr, dudc, dvdr, dvdc) ->
  exists j, get_ngmix_jacobian m iobj icut = Ok j /\ row0 j = row /\ col0 j = col /\ dudrow j = dudr /\ dudcol j = dudc /\ dvdrow j = dvdr /\ dvdcol j = dvdc.
Proof. exact jac_contents. Qed.
Print Assumptions C110_jacobian.

(** the metadata are those of the catalogue *)
Theorem C110_metadata : forall m iobj icut d, get_meta m iobj icut = Ok d ->
  (exists id fid path, md_id m iobj = Ok id /\ md_file_id m iobj icut = Ok fid /\ md_path m fid = Ok path /\
     dget d "id" = Some (VZ id) /\ dget d "file_id" = Some (VZ fid) /\ dget d "file_path" = Some (VS path)) /\
  dget d "index" = Some (VZ (Z.of_nat iobj)) /\ dget d "icut" = Some (VZ (Z.of_nat icut)) /\ dget d "cutout_index" = Some (VZ (Z.of_nat icut)) /\
  match md_col m "flux_auto" with
  | Some f => exists x, f iobj = Ok x /\ dget d "flux" = Some (VX x)
  | None => dget d "flux" = None
  end /\
  match md_col m "x2", md_col m "y2" with
  | Some f, Some g => exists x y, f iobj = Ok x /\ g iobj = Ok y /\ dget d "T" = Some (VX (xadd x y))
  | _, _ => dget d "T" = None
  end.
Proof. exact meta_contents. Qed.
Print Assumptions C110_metadata.

(** other weight types are refused *)
Theorem C110_weight_type : forall m iobj icut wt, (forall r, ~ weight_of m iobj icut wt r) ->
  (forall o, get_obs m iobj icut wt <> Ok o) /\ forall im, md_cutout m iobj icut CtImage = Ok im -> get_obs m iobj icut wt = Raise ValueError.
Proof.
  intros m i k wt H. split; [apply bad_weight_type; exact H|]. intros im HI. unfold get_obs. rewrite HI. cbn [bind].
  destruct (get_weight_of m i k wt) as [[r [HR _]]|[_ ->]]; [destruct (H r HR)|reflexivity].
Qed.
Print Assumptions C110_weight_type.

Example C110_hypotheses_hold : (exists o, get_obs (file3 (full (Fin 2))) 0 2 "weight" = Ok o /\ o_bmask o = Some (full (Fin 0)) /\ o_noise o = None) /\
  forall r, ~ weight_of (file3 (full (Fin 2))) 0 2 "sigma" r.
Proof.
  split.
  - destruct (file3_kept 2) as [o H]; [discriminate|]. exists o. split; [exact H|].
    apply get_obs_contents in H. destruct H as [_ [_ [_ [_ [H _]]]]].
    pose proof (H CtBmask (o_bmask o) ltac:(auto)) as [H1 _]. pose proof (H CtNoise (o_noise o) ltac:(auto)) as H2. auto.
  - intros r H. unfold weight_of in H. intuition discriminate.
Qed.

(** ** C111: the observation of the psf *)
Theorem C111_psf : forall m iobj icut p, get_psf_obs m iobj icut = Ok p ->
  exists row col, md_psf m iobj icut = Ok (p_image p) /\ md_col2 m "psf_cutout_row" iobj icut = Ok row /\ md_col2 m "psf_cutout_col" iobj icut = Ok col /\
    row0 (p_jac p) = row /\ col0 (p_jac p) = col /\
    (forall j, get_ngmix_jacobian m iobj icut = Ok j -> dudrow (p_jac p) = dudrow j /\ dudcol (p_jac p) = dudcol j /\ dvdrow (p_jac p) = dvdrow j /\ dvdcol (p_jac p) = dvdcol j /\ jdet (p_jac p) = jdet j) /\
    nrow (p_weight p) = nrow (p_image p) /\ ncol (p_weight p) = ncol (p_image p) /\
    (all_finite (p_image p) -> exists mx, (forall r c x, (r < nrow (p_image p))%nat -> (c < ncol (p_image p))%nat -> at2 (p_image p) r c = Fin x -> x <= mx) /\
       (exists r c, (r < nrow (p_image p))%nat /\ (c < ncol (p_image p))%nat /\ at2 (p_image p) r c = Fin mx) /\
       forall r c, (r < nrow (p_image p))%nat -> (c < ncol (p_image p))%nat ->
         at2 (p_weight p) r c = if Reqb mx 0 then PInf else Fin (1000000 / mx ^ 2)).
Proof. exact psf_contents. Qed.
Print Assumptions C111_psf.

Example C111_hypotheses_hold : exists p, get_psf_obs (file3 (full (Fin 2))) 0 0 = Ok p /\ all_finite (p_image p).
Proof.
  destruct (file3_psf 0) as [p H]. exists p. split; [exact H|]. apply psf_contents in H. destruct H as [row [col [HM _]]]. cbn [file3 md_psf] in HM.
  assert (p_image p = full (Fin 2)) as -> by congruence. apply full_finite.
Qed.
