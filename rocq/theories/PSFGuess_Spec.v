(** The size and flux from which the guess for a point spread function is made. *)
From Verif Require Import Base XReal Jacobian_Model Pixels_Model GMix_Model WSums_Spec GaussMom_Spec Guessers_Model PSFGuess_Model.
Local Open Scope R_scope.

(** pixels closer than 1.0e9 to the centre *)
Definition within (px : list (pixel R)) : list (pixel R) :=
  filter (fun p => if Rlt_dec (px_v p * px_v p + px_u p * px_u p) (10 ^ 18) then true else false) px.
(** moments with a round gaussian weight of size T and peak one, and their variances *)
Definition psum (T : R) (px : list (pixel R)) (k : nat) : R := rsum (map (fun p => gauss_weight T p * px_val p * mfun k p) (within px)).
Definition pvar (T : R) (px : list (pixel R)) (k : nat) : R :=
  rsum (map (fun p => (gauss_weight T p) ^ 2 * / (px_ierr p ^ 2) * (mfun k p) ^ 2) (within px)).
(** the variances, the flux and the size are positive *)
Definition measured (T : R) (px : list (pixel R)) : Prop :=
  (forall k, (k < 6)%nat -> 0 < pvar T px k) /\ 0 < psum T px 5 /\ 0 < psum T px 4.
(** what the code asks for: also both components of the ellipticity differ from zero *)
Definition has_moments (T : R) (px : list (pixel R)) : Prop := measured T px /\ psum T px 2 <> 0 /\ psum T px 3 <> 0.
(** an observation with its pixels, none of weight zero *)
Definition readable (o : gobs) (px : list (pixel R)) : Prop :=
  gb_pixels o = Ok px /\ pixels_of (gb_jac o) px /\ / 10 ^ 40 <= jscale (gb_jac o).

(** the same observation in other units: pixel values times [k], errors in any other units *)
Definition rescaled (k c : R) (o o' : gobs) : Prop :=
  gb_jac o' = gb_jac o /\ nrow (gb_image o') = nrow (gb_image o) /\ ncol (gb_image o') = ncol (gb_image o) /\
  (forall r s, at2 (gb_image o') r s = k * at2 (gb_image o) r s) /\
  exists px px', gb_pixels o = Ok px /\ gb_pixels o' = Ok px' /\
    Forall2 (fun p p' => px_v p' = px_v p /\ px_u p' = px_u p /\ px_area p' = px_area p /\ px_val p' = k * px_val p /\ px_ierr p' = c * px_ierr p) px px'.
(** the flux of each component of a mixture times [k] *)
Fixpoint scale_fluxes (k : R) (l : list R) : list R :=
  match l with a :: b :: c :: d :: e :: f :: l => k * a :: b :: c :: d :: e :: f :: scale_fluxes k l | _ => l end.

(** ** an image of one pixel off the centre, and one of three by three pixels *)
Definition off_obs : gobs :=
  let j := mkJac (-3) (-2) 1 0 0 1 1 1 in let im := mkArr 1 1 (fun _ _ => 1) in mkGobs im (make_pixels im im j true) j.
Definition round_obs : gobs :=
  let j := mkJac 1 1 1 0 0 1 1 1 in let im := mkArr 3 3 (fun _ _ => 1) in mkGobs im (make_pixels im im j true) j.
Definition in_obs : gobs :=
  let j := mkJac (-1) (-1/2) 1 0 0 1 1 1 in let im := mkArr 1 1 (fun _ _ => 1) in mkGobs im (make_pixels im im j true) j.
(** [off_obs] in units a half as large, with errors to match *)
Definition off_obs2 : gobs :=
  let j := gb_jac off_obs in let im := mkArr 1 1 (fun _ _ => 2) in mkGobs im (make_pixels im (mkArr 1 1 (fun _ _ => /4)) j true) j.
