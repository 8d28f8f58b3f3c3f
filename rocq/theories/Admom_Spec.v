(** Adaptive moments in terms of weighted sums over pixels and 2x2 matrices. *)
From Verif Require Import Base XReal Moments_Spec Jacobian_Model Pixels_Model GMix_Model GMix_Spec Render_Spec FastExp_Model GMixObj_Model
  Flags_Model EM_Spec WSums_Model MomResult_Spec Admom_Model.
Local Open Scope R_scope.

(** weight of a pixel *)
Definition am_weight (wt : gmix) (p : pixel R) : R := rsum (map (fun g => in_pixel g p) wt).
(** sum over pixels of weight * value * f *)
Definition wtd (wt : gmix) (px : list (pixel R)) (f : pixel R -> R) : R :=
  rsum (map (fun p => am_weight wt p * px_val p * f p) px).
Definition wflux (wt : gmix) (px : list (pixel R)) : R := wtd wt px (fun _ => 1).
Definition wmean (wt : gmix) (px : list (pixel R)) (f : pixel R -> R) : R := wtd wt px f / wflux wt px.
(** covariance of the sums of weight * value * f and weight * value * f' for the noise of the pixels *)
Definition wcov (wt : gmix) (px : list (pixel R)) (f f' : pixel R -> R) : R :=
  rsum (map (fun p => am_weight wt p * am_weight wt p * (1 / (px_ierr p * px_ierr p)) * f p * f' p) px).

(** the weight is described by its first gaussian; the others are carried along *)
Definition moved (wt : gmix) (row col : R) : gmix :=
  match wt with [] => [] | g :: rest => gauss2d_set (g_p g) row col (g_irr g) (g_irc g) (g_icc g) :: rest end.
Definition reshaped (wt : gmix) (m : sym2) : gmix :=
  match wt with [] => [] | g :: rest => gauss2d_set (g_p g) (g_row g) (g_col g) (yy m) (xy m) (xx m) :: rest end.
Definition row0_of (wt : gmix) : R := match wt with [] => 0 | g :: _ => g_row g end.
Definition col0_of (wt : gmix) : R := match wt with [] => 0 | g :: _ => g_col g end.
Definition cov0_of (wt : gmix) : sym2 := match wt with [] => mkSym 0 0 0 | g :: _ => gcov g end.
(** the weight moved to the weighted mean position *)
Definition centred (px : list (pixel R)) (wt : gmix) : gmix := moved wt (wmean wt px px_v) (wmean wt px px_u).
(** weighted second moments about the centre of the weight *)
Definition dv (wt : gmix) (p : pixel R) : R := px_v p - row0_of wt.
Definition du (wt : gmix) (p : pixel R) : R := px_u p - col0_of wt.
Definition mom2 (px : list (pixel R)) (wt : gmix) : sym2 :=
  mkSym (wmean wt px (fun p => du wt p * du wt p)) (wmean wt px (fun p => dv wt p * du wt p)) (wmean wt px (fun p => dv wt p * dv wt p)).
Definition shape1 (m : sym2) : R := (xx m - yy m) / trace2 m.
Definition shape2 (m : sym2) : R := 2 * xy m / trace2 m.
(** squared distance in units of the weight *)
Definition chi2_0 (wt : gmix) (p : pixel R) : R := maha (cov0_of wt) (dv wt p) (du wt p).

(** removing the weight: N^-1 = M^-1 - W^-1 *)
Definition inv2 (m : sym2) : sym2 := mkSym (yy m / det2 m) (- xy m / det2 m) (xx m / det2 m).
Definition sub2 (a b : sym2) : sym2 := mkSym (xx a - xx b) (xy a - xy b) (yy a - yy b).
Definition low : R := / 10 ^ 200.
Definition can_deweight (W M : sym2) : Prop := low < det2 M /\ low < det2 W /\ low < det2 (sub2 (inv2 M) (inv2 W)).
Definition deweighted (W M : sym2) : sym2 := inv2 (sub2 (inv2 M) (inv2 W)).

Section Run.
Variables (c : am_conf) (px : list (pixel R)) (w0 : gmix).

Definition in_range (wt : gmix) : Prop :=
  Rabs (row0_of wt - row0_of w0) <= ac_shiftmax c /\ Rabs (col0_of wt - col0_of w0) <= ac_shiftmax c.
(** weight w is moved to wc, where the moments M are measured *)
Definition measures (w wc : gmix) (M : sym2) : Prop :=
  low <= det2 (cov0_of w) /\ Forall evaluable w /\ 0 < wflux w px /\ wc = centred px w /\ in_range wc /\
  0 < wflux wc px /\ M = mom2 px wc /\ 0 < trace2 M.
(** agreement of two measurements *)
Definition agrees (M M' : sym2) : Prop :=
  Rabs (shape1 M' - shape1 M) < ac_etol c /\ Rabs (shape2 M' - shape2 M) < ac_etol c /\
  Rabs (trace2 M' / trace2 M - 1) < ac_Ttol c.
Definition next (wc : gmix) (M : sym2) (w' : gmix) : Prop :=
  if ac_cenonly c then w' = wc else can_deweight (cov0_of wc) M /\ w' = reshaped wc (deweighted (cov0_of wc) M).
(** after i iterations, without convergence, the weight is w; M is the last measurement *)
Inductive reached : nat -> option sym2 -> gmix -> Prop :=
| r_start : reached 0 None w0
| r_next i old w wc M w' : reached i old w -> measures w wc M ->
    (forall M0, old = Some M0 -> ~ agrees M0 M) -> next wc M w' -> reached (S i) (Some M) w'.

(** how the algorithm ends: flag, number of iterations reported *)
Inductive ends : Z -> nat -> Prop :=
| e_converged i M0 w wc M : (i < ac_maxiter c)%nat -> reached i (Some M0) w -> measures w wc M -> agrees M0 M -> ends 0 (S i)
| e_low_det i old w : (i < ac_maxiter c)%nat -> reached i old w -> det2 (cov0_of w) < low -> ends LOW_DET (S i)
| e_range i old w : (i < ac_maxiter c)%nat -> reached i old w -> low <= det2 (cov0_of w) -> ~ Forall evaluable w -> ends GMIX_RANGE_ERROR 0
| e_flux i old w : (i < ac_maxiter c)%nat -> reached i old w -> low <= det2 (cov0_of w) -> Forall evaluable w -> wflux w px <= 0 -> ends NONPOS_FLUX (S i)
| e_shift i old w : (i < ac_maxiter c)%nat -> reached i old w -> low <= det2 (cov0_of w) -> Forall evaluable w -> 0 < wflux w px -> ~ in_range (centred px w) ->
    ends CEN_SHIFT (S i)
| e_flux2 i old w : (i < ac_maxiter c)%nat -> reached i old w -> low <= det2 (cov0_of w) -> Forall evaluable w -> 0 < wflux w px -> in_range (centred px w) ->
    wflux (centred px w) px <= 0 -> ends NONPOS_FLUX (S i)
| e_size i old w : (i < ac_maxiter c)%nat -> reached i old w -> low <= det2 (cov0_of w) -> Forall evaluable w -> 0 < wflux w px -> in_range (centred px w) ->
    0 < wflux (centred px w) px -> trace2 (mom2 px (centred px w)) <= 0 -> ends NONPOS_SIZE (S i)
| e_deweight i old w wc M : (i < ac_maxiter c)%nat -> reached i old w -> measures w wc M -> (forall M0, old = Some M0 -> ~ agrees M0 M) ->
    ac_cenonly c = false -> ~ can_deweight (cov0_of wc) M -> ends LOW_DET (S i)
| e_maxiter old w : reached (ac_maxiter c) old w -> ends MAXITER (ac_maxiter c).
End Run.

(** every pixel has positive weight: ierr is the inverse of the error *)
Definition usable_pixels (px : list (pixel R)) : Prop := Forall (fun p => 0 < px_ierr p) px.
(** a mixture without the lazily computed fields *)
Definition plain (wt : gmix) : gmix :=
  map (fun g => gauss2d_set (g_p g) (g_row g) (g_col g) (g_irr g) (g_irc g) (g_icc g)) wt.
Definition good_guess (wt : gmix) : Prop := wt <> [] /\ Forall coherent wt.

(** the seven functions of which sums are made *)
Definition am_moment (wt : gmix) (i : nat) (p : pixel R) : R :=
  match i with
  | 0%nat => px_v p
  | 1%nat => px_u p
  | 2%nat => du wt p * du wt p - dv wt p * dv wt p
  | 3%nat => 2 * dv wt p * du wt p
  | 4%nat => du wt p * du wt p + dv wt p * dv wt p
  | 5%nat => 1
  | 6%nat => chi2_0 wt p * chi2_0 wt p
  | _ => 0
  end.

(** the accumulated sums of weight wc over the pixels *)
Definition sums_of (ws : wsums) (wc : gmix) (px : list (pixel R)) : Prop :=
  ws_npix ws = length px /\ ws_wsum ws = rsum (map (am_weight wc) px) /\
  (forall k, (k < 7)%nat -> ws_sums ws k = wtd wc px (am_moment wc k)) /\
  (forall k l, (k < 7)%nat -> (l < 7)%nat -> ws_cov ws k l = wcov wc px (am_moment wc k) (am_moment wc l)).

(** ** the result of a converged fit *)
Definition positive_weight (wt : gmix) : Prop := Forall (fun g => 0 < g_p g) wt.
Definition real_pixels (px : list (pixel R)) : Prop := Forall (fun p => 0 <= px_area p) px.
(** peak of a normalised gaussian *)
Definition peak_of (m : sym2) : R := / (2 * PI * sqrt (det2 m)).
(** first order error of the ratio of two of the sums *)
Definition ratio_err (wt : gmix) (px : list (pixel R)) (f g : pixel R -> R) : R :=
  sqrt (Rmax 0 (ratio_var (wtd wt px f) (wtd wt px g) (wcov wt px f f) (wcov wt px g g) (wcov wt px f g))).
Definition dict_describes (d : am_dict) (wc : gmix) (px : list (pixel R)) (area : R) : Prop :=
  let W := cov0_of wc in
  let F := wflux wc px in
  let N := rsum (map (am_weight wc) px) in
  let m := am_moment wc in
  let dF := sqrt (wcov wc px (m 5%nat) (m 5%nat)) in
  sums_of (d_ws d) wc px /\ 0 < F /\ 0 < N /\ 0 < dF /\
  d_pars d = map Fin [row0_of wc; col0_of wc; xx W - yy W; 2 * xy W; trace2 W; F / N] /\
  d_T d = Fin (trace2 W) /\ d_T_flags d = 0%Z /\ d_T_err d = Fin (4 * ratio_err wc px (m 4%nat) (m 5%nat)) /\
  d_flux_mean d = Fin (F / N) /\ d_flux_flags d = 0%Z /\ d_flux d = Fin (F / (area * peak_of W * N)) /\
  d_flux_err d = Fin (dF / (area * peak_of W * N)) /\ d_s2n d = Fin (F / dF) /\
  d_rho4_flags d = 0%Z /\ d_rho4 d = Fin (wmean wc px (m 6%nat)) /\
  (wtd wc px (m 6%nat) <> 0 -> d_rho4_err d = Fin (4 * ratio_err wc px (m 6%nat) (m 5%nat))).
(** the ellipticities, and the flags that come with them *)
Definition shape_vars_positive (wc : gmix) (px : list (pixel R)) : Prop :=
  0 < wcov wc px (am_moment wc 2) (am_moment wc 2) /\ 0 < wcov wc px (am_moment wc 3) (am_moment wc 3).
Definition shapes_nonzero (wc : gmix) (px : list (pixel R)) : Prop :=
  xx (mom2 px wc) <> yy (mom2 px wc) /\ xy (mom2 px wc) <> 0.
Definition shape_describes (d : am_dict) (wc : gmix) (px : list (pixel R)) : Prop :=
  let m := am_moment wc in
  (~ shape_vars_positive wc px /\ d_flags d = NONPOS_VAR /\ d_e1 d = NaN /\ d_e2 d = NaN /\ d_e1err d = NaN /\ d_e2err d = NaN) \/
  (shape_vars_positive wc px /\ d_e1 d = Fin (shape1 (cov0_of wc)) /\ d_e2 d = Fin (shape2 (cov0_of wc)) /\
    (shapes_nonzero wc px /\ d_flags d = 0%Z /\ d_e1err d = Fin (2 * ratio_err wc px (m 2%nat) (m 4%nat)) /\
       d_e2err d = Fin (2 * ratio_err wc px (m 3%nat) (m 4%nat)) \/
     ~ shapes_nonzero wc px /\ d_flags d = NONPOS_SHAPE_VAR /\ d_e1err d = NaN /\ d_e2err d = NaN)).

(** flags of a fit that failed *)
Definition with_var_flag (ws : wsums) (f f' : Z) : Prop :=
  (forall i, (2 <= i < 7)%nat -> 0 < ws_cov ws i i) /\ f' = f \/
  ~ (forall i, (2 <= i < 7)%nat -> 0 < ws_cov ws i i) /\ f' = Z.lor f NONPOS_VAR.
Definition failed_dict (d : am_dict) (f : Z) : Prop :=
  with_var_flag (d_ws d) f (d_flags d) /\ d_flux_flags d = f /\ d_T_flags d = f /\ d_rho4_flags d = f /\
  Forall (fun x => x = NaN) [d_flux d; d_flux_mean d; d_flux_err d; d_s2n d; d_T d; d_T_err d; d_rho4 d; d_rho4_err d; d_e1 d; d_e2 d; d_e1err d; d_e2err d].
(** convergence in iteration n: the weight w, obtained in the iteration before, is centred and
    measured again; wc is the centred weight *)
Definition converges (c : am_conf) (px : list (pixel R)) (w0 : gmix) (n : nat) (wc : gmix) : Prop :=
  exists i M0 w M, n = S i /\ reached c px w0 i (Some M0) w /\ measures c px w0 w wc M /\ agrees c M0 M.
Definition good_input (c : am_conf) (o : aobs) (wt : gmix) : Prop :=
  good_guess wt /\ positive_weight wt /\ usable_pixels (ao_pix o) /\ real_pixels (ao_pix o) /\ (0 < ac_maxiter c)%nat /\ 0 < get_area (ao_jac o).

(** MAXITER is reported by the number of iterations alone *)
Definition base_flag (c : am_conf) (n : nat) (f : Z) : Z := if Nat.eqb n (ac_maxiter c) then MAXITER else f.
Definition half (m : sym2) : sym2 := mkSym (xx m / 2) (xy m / 2) (yy m / 2).
(** ** searching for the centre *)
Definition cen_conf (c : am_conf) : am_conf := mkAc (ac_maxiter c) (ac_shiftmax c) (ac_etol c) (ac_Ttol c) true.
(** result of a try that succeeded *)
Definition found (c : am_conf) (o : aobs) (W : sym2) (d : am_dict) (wc : gmix) : Prop :=
  cov0_of wc = W /\ dict_describes d wc (ao_pix o) (get_area (ao_jac o)) /\
  exists wt, cov0_of wt = W /\ converges (cen_conf c) (ao_pix o) (plain wt) (d_numiter d) wc.
Definition usable_obs (c : am_conf) (o : aobs) : Prop :=
  usable_pixels (ao_pix o) /\ real_pixels (ao_pix o) /\ (0 < ac_maxiter c)%nat /\ 0 < get_area (ao_jac o).
