(** Pre-PSF moments of the same stamps in sky coordinates turned by an angle. *)
From Verif Require Import Base XReal Jacobian_Model Jacobian_Spec Pixels_Model MomResult_Model PrePSF_Model PrePSF_Spec Motion_Spec Turn_Spec.
Local Open Scope R_scope.

(** the centre is at the same place in the image, and every place is at the turned position on the sky *)
Definition sky_turned (t : R) (j j' : jac) : Prop :=
  row0 j' = row0 j /\ col0 j' = col0 j /\
  forall row col v u v' u', maps_to j row col v u -> maps_to j' row col v' u' -> v' = moved_v t 0 v u /\ u' = moved_u t 0 v u.
(** the same images, the coordinates of object and psf turned *)
Definition stamps_turned (t : R) (o o' : ppobs) : Prop :=
  pp_im o' = pp_im o /\ pp_wt o' = pp_wt o /\ sky_turned t (pp_jac o) (pp_jac o') /\
  match pp_psf o, pp_psf o' with
  | Some (p, j), Some (p', j') => p' = p /\ sky_turned t j j'
  | None, None => True
  | _, _ => False
  end.

(** a vector with one entry per moment (M1, M2, MT, MF) *)
Definition turn4 (t : R) (x : nat -> R) (i : nat) : R :=
  match i with 0%nat => turned_1 t (x 0%nat) (x 1%nat) | 1%nat => turned_2 t (x 0%nat) (x 1%nat) | _ => x i end.
(** for every result: the moments are turned and their covariance is turned, the norm is the same *)
Definition moments_turned (t : R) (r r' : momres) : Prop :=
  (exists m, moments_are r m /\ moments_are r' (turn4 t m)) /\ (forall x, quad4 (cov4 r') (turn4 t x) = quad4 (cov4 r) x) /\
  m_sums_norm r' = m_sums_norm r /\ m_flux r' = m_flux r /\ m_flux_err r' = m_flux_err r /\ size_and_s2n_same r r'.
(** for unflagged ones: the shape is turned, its total variance is the same *)
Definition shape_turned (t : R) (r r' : momres) : Prop :=
  exists e1 e2 s1 s2 s1' s2', m_e1 r = Fin e1 /\ m_e2 r = Fin e2 /\
    m_e1 r' = Fin (turned_1 t e1 e2) /\ m_e2 r' = Fin (turned_2 t e1 e2) /\
    m_e_err r = (Fin s1, Fin s2) /\ m_e_err r' = (Fin s1', Fin s2') /\ s1' ^ 2 + s2' ^ 2 = s1 ^ 2 + s2 ^ 2.
(** the same outcome: the same exception, or no finite values in both, or results that are related *)
Definition same_go (P : momres -> momres -> Prop) (x x' : option (res momres)) : Prop :=
  match x, x' with
  | Some (Ok r), Some (Ok r') => P r r'
  | Some (Raise e), Some (Raise e') => e' = e
  | None, None => True
  | _, _ => False
  end.
