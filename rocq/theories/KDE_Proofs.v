From Verif Require Import Base Pixels_Model KDE_Model KDE_Spec.
Local Open Scope R_scope.

Section KDE.
Variables (W K : Type).
Variable gaussian_kde : arr2 R -> res K.
Variable resample : K -> W -> nat -> W * arr2 R.

Lemma init_fits data k : kde_init gaussian_kde data = Ok k ->
  exists a, gaussian_kde a = Ok (kd_kde K k) /\ nrow a = ndims data /\ ncol a = npoints data /\
    forall i j, (i < npoints data)%nat -> (j < ndims data)%nat -> at2 a j i = coord data i j.
Proof.
  unfold kde_init. destruct (gaussian_kde (kde_rows data)) as [k0|] eqn:E; [|discriminate]. cbn [bind]. intros [= <-].
  exists (kde_rows data). split; [exact E|]. destruct data; cbn; auto.
Qed.
Lemma init_error data e : gaussian_kde (kde_rows data) = Raise e -> kde_init gaussian_kde data = Raise e.
Proof. intros E. unfold kde_init. rewrite E. reflexivity. Qed.

Lemma map_seq_length {A} (f : nat -> A) n : length (map f (seq 0 n)) = n.
Proof. rewrite map_length, seq_length. reflexivity. Qed.
Lemma nth_map_seq (f : nat -> R) n i : (i < n)%nat -> nth i (map f (seq 0 n)) 0 = f i.
Proof.
  intros H. rewrite (nth_indep _ 0 (f 0%nat)) by (rewrite map_seq_length; exact H).
  rewrite map_nth, seq_nth by exact H. reflexivity.
Qed.

Lemma sample_spec data k w nrand : scipy_kde gaussian_kde resample -> kde_init gaussian_kde data = Ok k ->
  ndims data <> 0%nat ->
  let n := match nrand with None => 1%nat | Some n => n end in
  let a := snd (resample (kd_kde K k) w n) in
  fst (kde_sample resample k w nrand) = fst (resample (kd_kde K k) w n) /\
  exists r, snd (kde_sample resample k w nrand) = Ok r /\
    shape_of r = match data, nrand with
                 | D1 _, None => [] | D1 _, Some n => [n]
                 | D2 d, None => [ncol d] | D2 d, Some n => [n; ncol d] end /\
    forall i j, (i < n)%nat -> (j < ndims data)%nat -> sample_at r nrand i j = at2 a j i.
Proof.
  intros HS H Hd. cbv zeta. set (n := match nrand with None => 1%nat | Some n => n end).
  assert (E := H). unfold kde_init in E. destruct (gaussian_kde (kde_rows data)) as [k0|] eqn:Eg; [|discriminate]. cbn [bind] in E.
  injection E as E. subst k. cbn [kd_kde].
  destruct (HS (kde_rows data) k0 w n Eg) as (Hr & Hc).
  unfold kde_sample. cbn [kd_kde kd_1d]. fold n. destruct (resample k0 w n) as [w' a] eqn:Er. cbn [snd fst] in *.
  split; [reflexivity|].
  destruct data as [l|d]; cbn [ndims kde_rows transpose nrow ncol] in *.
  - unfold col0, transpose. cbn [ncol nrow]. rewrite Hr, Hc. cbn [Nat.ltb Nat.leb rmap bind at2].
    destruct nrand as [m|]; subst n.
    + eexists. split; [reflexivity|]. cbn [shape_of]. rewrite map_seq_length. split; [reflexivity|].
      intros i j Hi Hj. cbn [sample_at]. rewrite nth_map_seq by exact Hi. f_equal. lia.
    + cbn [first seq map]. eexists. split; [reflexivity|]. cbn [shape_of]. split; [reflexivity|].
      intros i j Hi Hj. cbn [sample_at]. f_equal; lia.
  - cbn [bind]. destruct nrand as [m|]; subst n.
    + eexists. split; [reflexivity|]. cbn [shape_of nrow ncol transpose]. rewrite Hr, Hc. split; [reflexivity|].
      intros i j Hi Hj. reflexivity.
    + cbn [first transpose nrow ncol at2]. rewrite Hr, Hc. cbn [Nat.ltb Nat.leb]. eexists. split; [reflexivity|].
      cbn [shape_of]. rewrite map_seq_length. split; [reflexivity|].
      intros i j Hi Hj. cbn [sample_at]. rewrite nth_map_seq by exact Hj. f_equal. lia.
Qed.
End KDE.

(** the kernel of zero width around the first point *)
Definition kde0 (a : arr2 R) : res (arr2 R) := Ok a.
Definition res0 (a : arr2 R) (w : unit) (n : nat) : unit * arr2 R := (w, mkArr (nrow a) n (fun i _ => at2 a i 0%nat)).
Lemma scipy0 : scipy_kde kde0 res0.
Proof. intros a k w n [= <-]. split; reflexivity. Qed.
Lemma doc_cex : ~ (forall W K gaussian_kde (resample : K -> W -> nat -> W * arr2 R) data k w nrand r,
  scipy_kde gaussian_kde resample -> kde_init gaussian_kde data = Ok k -> ndims data <> 0%nat ->
  snd (kde_sample resample k w nrand) = Ok r -> shape_of r = doc_shape data nrand).
Proof.
  intros H. set (d := D2 (mkArr 5 2 (fun i j => INR i))).
  assert (E : shape_of (KMat (transpose (mkArr 2 3 (fun i _ => at2 (kde_rows d) i 0%nat)))) = doc_shape d (Some 3%nat)).
  { apply (H unit (arr2 R) kde0 res0 d (mkKDE _ false (kde_rows d)) tt (Some 3%nat)); [exact scipy0|reflexivity|cbn; lia|reflexivity]. }
  cbn in E. discriminate.
Qed.
