(** C13 *)
From Verif Require Import Base Jacobian_Model Jacobian_Spec XReal Pixels_Model Pixels_Spec Pixels_Proofs.
From Coq Require Import Sorted.

Example C13_hypotheses_hold :
  let image := mkArr 2 3 (fun r c => INR r + INR c) in
  let weight := mkArr 2 3 (fun r c => if Nat.eqb c 1 then 0 else 1) in
  nrow weight = nrow image /\ ncol weight = ncol image /\ inside image (1,2)%nat.
Proof. cbn. unfold inside; cbn. lia. Qed.

(** the pixel array lists exactly the usable positions, once each, row by row; an
    image without any usable pixel is rejected *)
Theorem C13_pixel_list_is_the_usable_pixels : forall image weight j ignore,
  nrow weight = nrow image -> ncol weight = ncol image ->
  let usable rc := inside image rc /\ (ignore = true -> at2 weight (fst rc) (snd rc) > 0) in
  (make_pixels image weight j ignore = Raise GMixFatalError /\ ignore = true /\ (forall rc, ~ usable rc)) \/
  (exists idx l, make_pixels image weight j ignore = Ok l /\
     (forall rc, In rc idx <-> usable rc) /\ StronglySorted before idx /\
     Forall2 (describes image weight j) idx l /\ (ignore = true -> l <> [])).
Proof. exact make_pixels_spec. Qed.
Print Assumptions C13_pixel_list_is_the_usable_pixels.

Theorem C13_positions_are_distinct : forall idx, StronglySorted before idx -> NoDup idx.
Proof. exact before_nodup. Qed.
Print Assumptions C13_positions_are_distinct.

(** keeping zero weights: entry r*ncol+c is position (r,c) *)
Theorem C13_all_pixels_in_place : forall image weight j r c,
  nrow weight = nrow image -> ncol weight = ncol image -> inside image (r,c) ->
  exists l p, make_pixels image weight j false = Ok l /\ length l = (nrow image * ncol image)%nat /\
    nth_error l (r * ncol image + c) = Some p /\ describes image weight j (r,c) p.
Proof. exact make_pixels_all. Qed.
Print Assumptions C13_all_pixels_in_place.

Theorem C13_coords : forall nr nc j,
  exists l, make_coords nr nc j = Ok l /\ length l = (nr * nc)%nat /\
   (forall r c, (r < nr)%nat -> (c < nc)%nat ->
      exists p, nth_error l (r * nc + c) = Some p /\ maps_to j (INR r) (INR c) (cd_v p) (cd_u p) /\
                cd_area p = jscale j ^ 2).
Proof. exact make_coords_spec. Qed.
Print Assumptions C13_coords.

(** weights that may be infinite but not NaN are still counted correctly *)
Theorem C13_no_nan_no_overrun : forall image weight j,
  nrow weight = nrow image -> ncol weight = ncol image ->
  (forall rc, inside image rc -> at2 weight (fst rc) (snd rc) <> NaN) ->
  let usable rc := inside image rc /\ xltb (Fin 0) (at2 weight (fst rc) (snd rc)) = true in
  (make_pixels_x image weight j true = Raise GMixFatalError /\ (forall rc, ~ usable rc)) \/
  (exists idx l, make_pixels_x image weight j true = Ok l /\ length l = length idx /\ NoDup idx /\
     (forall rc, In rc idx <-> usable rc)).
Proof. exact make_pixels_x_spec. Qed.
Print Assumptions C13_no_nan_no_overrun.

(** a NaN weight makes fill_pixels write past the end of the array: the counting pass
    uses "weight > 0", the filling pass skips only "weight <= 0" *)
Theorem C13_nan_weight_overrun_refuted :
  exists image weight j,
    nrow weight = nrow image /\ ncol weight = ncol image /\
    at2 weight 0 0 = Fin 1 /\ at2 weight 0 1 = NaN /\
    make_pixels_x image weight j true = Raise OtherError.
Proof. exact nan_weight_overruns. Qed.
Print Assumptions C13_nan_weight_overrun_refuted.
