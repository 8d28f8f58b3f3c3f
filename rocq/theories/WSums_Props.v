(** Property C25. *)
From Verif Require Import Base Shape_Spec Moments_Spec Pixels_Model GMix_Model GMix_Spec Render_Model Render_Spec Render_Proofs WSums_Model WSums_Spec WSums_Proofs.

Example C25_hypotheses_hold : good_gmix [gauss2d_set 1 0 0 4 1 3; gauss2d_set (-2) 1 1 1 0 1] /\
  (forall p, In p (used (gauss2d_set 1 0 0 4 1 3) 5 [mkPix 1 2 1 7 1; mkPix 9 2 1 7 0]) -> px_ierr p <> 0).
Proof.
  split; [exact ex_good|]. unfold used, rad2, cmod2, offset; cbn. rewrite Rltb_t by lra. rewrite Rltb_f by lra.
  intros p [<-|[]]; cbn; lra.
Qed.

(** the sums are over exactly the pixels within maxrad; symmetric positive semi-definite
    covariance *)
Theorem C25_sums : forall gm g rest pixels maxrad higher,
  good_gmix gm -> gm = g :: rest ->
  (forall p, In p (used g maxrad pixels) -> px_ierr p <> 0) ->
  exists gm' s, get_weighted_sums gm pixels (Some maxrad) higher None = (gm', Ok s) /\ same_gmix gm gm' /\
    is_sums gm g higher (used g maxrad pixels) wsums_zero s /\ psd (nmom higher) (ws_cov s).
Proof. exact sums_fresh. Qed.
Print Assumptions C25_sums.

(** adding to an existing result *)
Theorem C25_sums_continued : forall gm g rest pixels maxrad higher s0,
  good_gmix gm -> gm = g :: rest ->
  (forall p, In p (used g maxrad pixels) -> px_ierr p <> 0) ->
  exists gm' s, get_weighted_sums gm pixels (Some maxrad) higher (Some s0) = (gm', Ok s) /\ same_gmix gm gm' /\
    is_sums gm g higher (used g maxrad pixels) s0 s.
Proof. exact get_weighted_sums_spec. Qed.
Print Assumptions C25_sums_continued.
Theorem C25_psd_kept : forall gm g higher l s0 s,
  psd (nmom higher) (ws_cov s0) -> is_sums gm g higher l s0 s -> psd (nmom higher) (ws_cov s).
Proof. exact psd_sums. Qed.
Print Assumptions C25_psd_kept.

(** two passes equal one pass over the concatenated pixels *)
Theorem C25_additive : forall gm a b maxrad higher s0 gm1 s1, good_gmix gm ->
  get_weighted_sums gm a maxrad higher s0 = (gm1, Ok s1) ->
  get_weighted_sums gm (a ++ b) maxrad higher s0 = get_weighted_sums gm1 b maxrad higher (Some s1).
Proof. exact get_weighted_sums_app_good. Qed.
Print Assumptions C25_additive.

(** a used pixel of zero weight is an error *)
Theorem C25_zero_weight_pixel : forall gm g rest pixels maxrad higher s0 p,
  good_gmix gm -> gm = g :: rest -> In p (used g maxrad pixels) -> px_ierr p = 0 ->
  snd (get_weighted_sums gm pixels (Some maxrad) higher (Some s0)) = Raise ZeroDivisionError.
Proof. exact used_pixel_zero_error. Qed.
Print Assumptions C25_zero_weight_pixel.

(** default radius: 100 sigma of the weight *)
Theorem C25_default_radius : forall gm pixels higher s0, good_gmix gm -> flux_of gm <> 0 -> 0 <= trace2 (cov_of gm) ->
  get_weighted_sums gm pixels None higher s0 = get_weighted_sums gm pixels (Some (100 * sqrt (trace2 (cov_of gm) / 2))) higher s0.
Proof. exact default_radius_good. Qed.
Print Assumptions C25_default_radius.
