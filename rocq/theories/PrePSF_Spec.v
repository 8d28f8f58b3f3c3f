(** What pre-PSF moments are, independently of the code: embedding of images, the apodisation
    profile, windows in real space. *)
From Verif Require Import Base XReal Pixels_Model PrePSF_Model MomResult_Model.
Local Open Scope R_scope.

(** finite sums *)
Definition sumn (n : nat) (f : nat -> R) : R := rsum (map f (seq 0 n)).
Definition dsum (n m : nat) (f : nat -> nat -> R) : R := sumn n (fun r => sumn m (f r)).
(** sum of an image *)
Definition total_of (a : arr2 R) : R := dsum (nrow a) (ncol a) (at2 a).

(** p is the n x n image of zeros into which a was pasted with its corner at (b, b) *)
Definition pasted (a : arr2 R) (b n : nat) (p : arr2 R) : Prop :=
  nrow p = n /\ ncol p = (n - nrow a + ncol a)%nat /\ (b + nrow a <= n)%nat /\
  (forall r c, (r < nrow a)%nat -> (c < ncol a)%nat -> at2 p (b + r) (b + c) = at2 a r c) /\
  (forall r c, (r < b \/ b + nrow a <= r \/ c < b \/ b + ncol a <= c)%nat -> at2 p r c = 0).

(** the smooth step t^4 (35 - 84 t + 70 t^2 - 20 t^3), clamped to [0,1]: integral of the triweight *)
Definition smooth_step (t : R) : R :=
  if Rltb t 0 then 0 else if Rltb 1 t then 1 else t ^ 4 * (35 - 84 * t + 70 * t ^ 2 - 20 * t ^ 3).
(** weight of a pixel at distance d from an edge: rises from 0 to 1 over 6*ap_rad pixels and
    reaches 1 at distance [width] *)
Definition edge_weight (ap_rad : R) (width d : nat) : R := smooth_step ((INR d - INR width) / (6 * ap_rad) + 1).

(** moments (M1, M2, MT, MF) as sums over the stamp with a window *)
Record four A := mk4 { q_p : A; q_c : A; q_r : A; q_f : A }.
Arguments mk4 {A}. Arguments q_p {A}. Arguments q_c {A}. Arguments q_r {A}. Arguments q_f {A}.
Definition at_moment (K : four (list R)) (i : nat) : list R :=
  match i with 0%nat => q_p K | 1%nat => q_c K | 2%nat => q_r K | _ => q_f K end.
Definition kern4 (K : kernels) : four (list R) := mk4 (k_p K) (k_c K) (k_r K) (k_f K).
(** the window of a kernel in real space, for an object that is not convolved:
    (1/dim^2) sum over modes of fk cos(2 pi (fx x + fy y)) *)
Definition window0 (dim : nat) (msk : list (nat * nat)) (fk : list R) (x y : R) : R :=
  rsum (map (fun z => snd z * cos (2 * PI * (fftfreq dim (fst (fst z)) * x + fftfreq dim (snd (fst z)) * y))) (combine msk fk))
  / INR dim ^ 2.

(** reported moments: no centroids, then sums of image times window *)
Definition moments_are (res : momres) (m : nat -> R) : Prop :=
  m_sums res = [NaN; NaN; Fin (m 0%nat); Fin (m 1%nat); Fin (m 2%nat); Fin (m 3%nat)].
(** the covariance of the four moments *)
Definition cov4 (res : momres) (i j : nat) : R := match sm_at (m_cov res) (2 + i) (2 + j) with Fin x => x | _ => 0 end.
Definition quad4 (q : nat -> nat -> R) (x : nat -> R) : R := dsum 4 4 (fun i j => x i * q i j * x j).

(** an image made of copies of the psf image with amplitude a and corner at (r, c) *)
Definition shifted (p : arr2 R) (r0 c0 r c : nat) : R :=
  if Nat.leb r0 r && Nat.ltb r (r0 + nrow p) && Nat.leb c0 c && Nat.ltb c (c0 + ncol p) then at2 p (r - r0) (c - c0) else 0.
Definition copies_of (p : arr2 R) (src : list (R * (nat * nat))) (r c : nat) : R :=
  rsum (map (fun s => fst s * shifted p (fst (snd s)) (snd (snd s)) r c) src).

(** pixels from each edge on which the apodisation acts *)
Definition margin (ap_rad : R) : nat := if Rltb 0 ap_rad then ap_range_of ap_rad else 0%nat.
(** weight given to a pixel of an n x n stamp *)
Definition stamp_weight (ap_rad : R) (n r c : nat) : R :=
  if Rltb 0 ap_rad then
    let w := edge_weight ap_rad (ap_range_of ap_rad) in w r * w (n - 1 - r)%nat * (w c * w (n - 1 - c)%nat)
  else 1.
(** squared modulus of the transform of an image at a mode of the t x t grid *)
Definition power (t : nat) (p : arr2 R) (kl : nat * nat) : R :=
  let ph r c := 2 * PI * (fftfreq t (fst kl) * INR r + fftfreq t (snd kl) * INR c) in
  dsum (nrow p) (ncol p) (fun r c => at2 p r c * cos (ph r c)) ^ 2 + dsum (nrow p) (ncol p) (fun r c => at2 p r c * sin (ph r c)) ^ 2.
Definition with_image (o : ppobs) (a : arr2 R) : ppobs := mkPP a (pp_wt o) (pp_jac o) (pp_psf o).
Definition with_weight (o : ppobs) (w : arr2 R) : ppobs := mkPP (pp_im o) w (pp_jac o) (pp_psf o).
Definition the_psf (o : ppobs) (no_psf : bool) := if no_psf then None else pp_psf o.

(** positive semi-definite *)
Definition psd (n : nat) (q : nat -> nat -> R) : Prop := forall x : nat -> R, 0 <= dsum n n (fun i j => x i * q i j * x j).

(** ** The kernels as functions of the frequencies (u, v) on the sky *)
Definition profile (k : kind) (sigma u v : R) : R :=
  match k with
  | KSigma => (1 - (u ^ 2 + v ^ 2) * sigma ^ 2 / 8) ^ 4
  | PGauss => exp (- (sigma ^ 2 * (u ^ 2 + v ^ 2) / 2))
  end.
(** where it is used: support of the ksigma kernel; chi-square below the cutoff *)
Definition in_support (k : kind) (sigma u v : R) : Prop :=
  match k with KSigma => (u ^ 2 + v ^ 2) * sigma ^ 2 < 8 | PGauss => sigma ^ 2 * (u ^ 2 + v ^ 2) < 25 end.
(** value at zero frequency for a window of height 1 in real space *)
Definition peak (k : kind) (sigma : R) : R := match k with KSigma => 10 * PI * sigma ^ 2 / 4 | PGauss => 2 * PI * sigma ^ 2 end.
Definition second_partials (W : R -> R -> R) (u v wuu wuv wvv : R) : Prop :=
  exists Wu Wv : R -> R -> R,
    (forall u v, derivable_pt_lim (fun x => W x v) u (Wu u v)) /\ (forall u v, derivable_pt_lim (fun y => W u y) v (Wv u v)) /\
    derivable_pt_lim (fun x => Wu x v) u wuu /\ derivable_pt_lim (fun y => Wu u y) v wuv /\ derivable_pt_lim (fun y => Wv u y) v wvv.
(** (u, v) are the frequencies of the mode on the sky *)
Definition sky_frequency (t : nat) (j : wcs2) (kl : nat * nat) (u v : R) : Prop :=
  forall dr dc : R, u * (a_urow j * dr + a_ucol j * dc) + v * (a_vrow j * dr + a_vcol j * dc) =
    2 * PI * (fftfreq t (fst kl) * dr + fftfreq t (snd kl) * dc).
(** the smoothing factor: a gaussian up to 4e-5, cut off at chi-square 25 *)
Definition smoothing (fwhm u v s : R) : Prop :=
  let sg := Moments_Model.fwhm_to_sigma fwhm in
  (fwhm <= 0 -> s = 1) /\
  (0 < fwhm -> sg ^ 2 * (u ^ 2 + v ^ 2) < 25 -> Rabs (s / exp (- (sg ^ 2 * (u ^ 2 + v ^ 2) / 2)) - 1) < 4 / 100000) /\
  (0 < fwhm -> 25 <= sg ^ 2 * (u ^ 2 + v ^ 2) -> s = 0).
(** what the arrays of kernels hold at the i-th mode m used: the profile and its derivatives
    with respect to the frequencies on the sky, up to a common factor close to 1 *)
Definition kernel_values (f : fitter) (t : nat) (j : wcs2) (K : kernels) (i : nat) (m : nat * nat) : Prop :=
  let sg := Moments_Model.fwhm_to_sigma (ft_fwhm f) in
  exists u v rho s wuu wuv wvv, sky_frequency t j m u v /\ in_support (ft_kind f) sg u v /\
    (ft_kind f = KSigma -> rho = 1) /\ Rabs (rho - 1) < 4 / 100000 /\ smoothing (ft_smooth f) u v s /\ 0 <= s /\
    second_partials (fun u v => k_00 K * profile (ft_kind f) sg u v) u v wuu wuv wvv /\
    nth_error (k_f K) i = Some (rho * s * (k_00 K * profile (ft_kind f) sg u v)) /\
    nth_error (k_r K) i = Some (rho * s * - (wuu + wvv)) /\
    nth_error (k_p K) i = Some (rho * s * - (wuu - wvv)) /\
    nth_error (k_c K) i = Some (rho * s * - (2 * wuv)).

(** w is the integral of h over the pixel around each point: H is an antiderivative in both variables *)
Definition pixel_integral (h w : R -> R -> R) : Prop :=
  exists Hx H : R -> R -> R,
    (forall x y, derivable_pt_lim (fun x => Hx x y) x (h x y)) /\ (forall x y, derivable_pt_lim (fun y => H x y) y (Hx x y)) /\
    forall x y, w x y = H (x + 1/2) (y + 1/2) - H (x - 1/2) (y + 1/2) - H (x + 1/2) (y - 1/2) + H (x - 1/2) (y - 1/2).
