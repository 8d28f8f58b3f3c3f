(** C124: the kernel density estimate used as a prior. *)
From Verif Require Import Base Pixels_Model KDE_Model KDE_Spec KDE_Proofs.
Local Open Scope R_scope.

Example C124_hypotheses_hold : scipy_kde kde0 res0 /\
  exists k, kde_init kde0 (D2 (mkArr 5 2 (fun i j => INR i))) = Ok k /\ ndims (D2 (mkArr 5 2 (fun i j => INR i))) <> 0%nat.
Proof. split; [exact scipy0|]. eexists. split; [reflexivity|]. cbn. lia. Qed.

(** the estimate is made of the points that were given, coordinate by coordinate *)
Theorem C124_data : forall K (gaussian_kde : arr2 R -> res K) data k, kde_init gaussian_kde data = Ok k ->
  exists a, gaussian_kde a = Ok (kd_kde K k) /\ nrow a = ndims data /\ ncol a = npoints data /\
    forall i j, (i < npoints data)%nat -> (j < ndims data)%nat -> at2 a j i = coord data i j.
Proof. exact init_fits. Qed.
Print Assumptions C124_data.

(** samples: one draw of as many as asked for; sample i has the coordinates of draw i; a
    number or one point when no number of samples is given *)
Theorem C124_samples : forall W K (gaussian_kde : arr2 R -> res K) (resample : K -> W -> nat -> W * arr2 R) data k w nrand,
  scipy_kde gaussian_kde resample -> kde_init gaussian_kde data = Ok k -> ndims data <> 0%nat ->
  let n := match nrand with None => 1%nat | Some n => n end in
  let a := snd (resample (kd_kde K k) w n) in
  fst (kde_sample resample k w nrand) = fst (resample (kd_kde K k) w n) /\
  exists r, snd (kde_sample resample k w nrand) = Ok r /\
    shape_of r = match data, nrand with
                 | D1 _, None => [] | D1 _, Some n => [n]
                 | D2 d, None => [ncol d] | D2 d, Some n => [n; ncol d] end /\
    forall i j, (i < n)%nat -> (j < ndims data)%nat -> sample_at r nrand i j = at2 a j i.
Proof. exact sample_spec. Qed.
Print Assumptions C124_samples.

(** the documented shape is the transposed one *)
Theorem C124_shape_refuted : ~ (forall W K gaussian_kde (resample : K -> W -> nat -> W * arr2 R) data k w nrand r,
  scipy_kde gaussian_kde resample -> kde_init gaussian_kde data = Ok k -> ndims data <> 0%nat ->
  snd (kde_sample resample k w nrand) = Ok r -> shape_of r = doc_shape data nrand).
Proof. exact doc_cex. Qed.
Print Assumptions C124_shape_refuted.
