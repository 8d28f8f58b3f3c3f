(** Moments in coordinates turned by an angle about their origin. *)
From Verif Require Import Base XReal Moments_Model Pixels_Model MomResult_Model MomResult_Spec GaussMom_Model Motion_Spec.
Local Open Scope R_scope.

(** what turning does to a pair of numbers of spin [k] *)
Definition spin_re (k : nat) (t x y : R) : R := cos (INR k * t) * x + sin (INR k * t) * y.
Definition spin_im (k : nat) (t x y : R) : R := - sin (INR k * t) * x + cos (INR k * t) * y.
(** the moments by spin, named as in ngmix/moments.py:8-61: (real part, imaginary part, spin) *)
Definition spin_pairs : list (nat * nat * nat) := [(1, 0, 1); (2, 3, 2); (6, 7, 1); (8, 9, 3); (11, 12, 2); (13, 14, 4)]%nat.
Definition spin_zero : list nat := [4; 5; 10; 15; 16]%nat.
Definition sums_turned (t : R) (S S' : nat -> R) : Prop :=
  (forall i, In i spin_zero -> S' i = S i) /\
  forall x y k, In (x, y, k) spin_pairs -> S' x = spin_re k t (S x) (S y) /\ S' y = spin_im k t (S x) (S y).
Definition covs_turned (t : R) (V V' : nat -> nat -> R) : Prop :=
  (forall i j, In i spin_zero -> In j spin_zero -> V' i j = V i j) /\
  forall x y k, In (x, y, k) spin_pairs ->
    (forall i, In i spin_zero -> V' x i = spin_re k t (V x i) (V y i) /\ V' y i = spin_im k t (V x i) (V y i)) /\
    V' x x + V' y y = V x x + V y y.

(** the entries of a result that never change *)
Definition size_and_s2n_same (r r' : momres) : Prop :=
  m_flux_flags r' = m_flux_flags r /\ m_T_flags r' = m_T_flags r /\ m_T r' = m_T r /\ m_T_err r' = m_T_err r /\ m_s2n r' = m_s2n r.
(** those of an unflagged one: the shape is turned, the total variance of the shape is the same *)
Definition result_turned (t : R) (q q' : gres) : Prop :=
  q_wsum q' = q_wsum q /\ m_sums_norm (q_mom q') = m_sums_norm (q_mom q) /\
  m_flux (q_mom q') = m_flux (q_mom q) /\ m_flux_err (q_mom q') = m_flux_err (q_mom q) /\
  exists e1 e2 s1 s2 s1' s2', m_e1 (q_mom q) = Fin e1 /\ m_e2 (q_mom q) = Fin e2 /\
    m_e1 (q_mom q') = Fin (turned_1 t e1 e2) /\ m_e2 (q_mom q') = Fin (turned_2 t e1 e2) /\
    m_e_err (q_mom q) = (Fin s1, Fin s2) /\ m_e_err (q_mom q') = (Fin s1', Fin s2') /\ s1' ^ 2 + s2' ^ 2 = s1 ^ 2 + s2 ^ 2.
