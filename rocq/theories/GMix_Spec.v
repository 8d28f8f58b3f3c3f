(** What flux, centre, size and shape of a mixture of gaussians mean. *)
From Verif Require Import Base Shape_Spec Moments_Spec GMix_Model.

Definition flux_of (gm : gmix) : R := rsum (map g_p gm).
(** flux weighted mean of a quantity *)
Definition mean_of (f : gauss -> R) (gm : gmix) : R :=
  rsum (map (fun g => g_p g * f g) gm) / flux_of gm.
Definition row_of := mean_of g_row.
Definition col_of := mean_of g_col.
(** covariance of the whole mixture about its centre *)
Definition cov_of (gm : gmix) : sym2 :=
  cov (mean_of (fun g => g_irr g + (g_row g - row_of gm) * (g_row g - row_of gm)) gm)
      (mean_of (fun g => g_irc g + (g_row g - row_of gm) * (g_col g - col_of gm)) gm)
      (mean_of (fun g => g_icc g + (g_col g - col_of gm) * (g_col g - col_of gm)) gm).

Definition gcov (g : gauss) : sym2 := cov (g_irr g) (g_irc g) (g_icc g).
(** stored determinant = determinant of the stored covariance *)
Definition coherent (g : gauss) : Prop := g_det g = det2 (gcov g).
Definition add2 (a b : sym2) : sym2 := mkSym (xx a + xx b) (xy a + xy b) (yy a + yy b).

(** a concentric, co-elliptical mixture with fluxes and sizes FT *)
Definition coelliptical (gm : gmix) (row col e1 e2 : R) (FT : list (R * R)) : Prop :=
  Forall2 (fun g ft => g_p g = fst ft /\ g_row g = row /\ g_col g = col /\
             has_shape (gcov g) e1 e2 (snd ft) /\ coherent g /\ g_norm_set g = false) gm FT.

(** sum of products of two lists *)
Definition dot (a b : list R) : R := rsum (map (fun ab => fst ab * snd ab) (combine a b)).

(** same components (lazily computed fields aside) *)
Definition same_gauss (a b : gauss) : Prop :=
  g_p a = g_p b /\ g_row a = g_row b /\ g_col a = g_col b /\
  g_irr a = g_irr b /\ g_irc a = g_irc b /\ g_icc a = g_icc b /\ g_det a = g_det b.
Definition same_gmix (a b : gmix) : Prop := Forall2 same_gauss a b.

(** the normalisations are computed and right *)
Definition norms_right (g : gauss) : Prop :=
  g_norm_set g = true /\
  exists n, g_nrm g = Some n /\
    n_drr n = g_irr g / g_det g /\ n_drc n = g_irc g / g_det g /\ n_dcc n = g_icc g / g_det g /\
    n_norm n = / (2 * PI * sqrt (g_det g)) /\ n_pnorm n = g_p g / (2 * PI * sqrt (g_det g)).

(** two components differ only in the lazily computed fields *)
Definition setters_keep (g g' : gauss) : Prop :=
  g_irr g' = g_irr g /\ g_irc g' = g_irc g /\ g_icc g' = g_icc g /\ g_det g' = g_det g.

(** sequences of setter calls *)
Inductive setter := SetFlux (f : R) | SetCen (r c : R).
Definition run_setter (o : option gmix) (s : setter) : option gmix :=
  match o with
  | None => None
  | Some gm => match s with SetFlux f => gm_set_flux gm f | SetCen r c => gm_set_cen gm r c end
  end.
(** the flux and centre a user expects after the calls *)
Definition expect_flux (f0 : R) (l : list setter) : R :=
  fold_left (fun f s => match s with SetFlux f' => f' | SetCen _ _ => f end) l f0.
Definition expect_cen (c0 : R * R) (l : list setter) : R * R :=
  fold_left (fun c s => match s with SetFlux _ => c | SetCen r' c' => (r', c') end) l c0.

(** What a single-profile model promises: a concentric, co-elliptical mixture with the
    tabulated relative fluxes [pvals] and sizes [fvals]; total flux, size and shape up to
    the tables' normalisation. *)
Definition simple_claim (fill : list R -> res gmix) (pvals fvals : list R) : Prop :=
  forall row col g1 g2 T flux, in_disk (g1,g2) ->
  exists gm e1 e2, fill [row;col;g1;g2;T;flux] = Ok gm /\ e_of_g (g1,g2) (e1,e2) /\
    coelliptical gm row col e1 e2 (map (fun pf => (flux * fst pf, T * snd pf)) (combine pvals fvals)) /\
    length gm = length pvals /\
    flux_of gm = flux * rsum pvals /\
    (flux * rsum pvals <> 0 -> row_of gm = row /\ col_of gm = col /\
       has_shape (cov_of gm) e1 e2 (T * (dot pvals fvals / rsum pvals))).

(** sums of relative fluxes (x sizes) of the two-profile (exp + dev) models *)
Definition cm_sum (fracdev TdByTe : R) : R :=
  (1 - fracdev) * dot pvals_exp fvals_exp + fracdev * TdByTe * dot pvals_dev fvals_dev.
Definition cm_psum (fracdev : R) : R := (1 - fracdev) * rsum pvals_exp + fracdev * rsum pvals_dev.

(** What a two-profile model promises. *)
Definition composite_claim (r : res gmix) (row col g1 g2 T fracdev TdByTe flux : R) : Prop :=
  exists gm e1 e2, r = Ok gm /\ e_of_g (g1,g2) (e1,e2) /\ length gm = 16%nat /\
    coelliptical gm row col e1 e2
      (map (fun pf => (flux * (1 - fracdev) * fst pf, T / cm_sum fracdev TdByTe * snd pf)) (combine pvals_exp fvals_exp) ++
       map (fun pf => (flux * fracdev * fst pf, T / cm_sum fracdev TdByTe * TdByTe * snd pf)) (combine pvals_dev fvals_dev)) /\
    flux_of gm = flux * cm_psum fracdev /\
    (flux * cm_psum fracdev <> 0 -> row_of gm = row /\ col_of gm = col /\
       has_shape (cov_of gm) e1 e2 (T / cm_psum fracdev)).

