(** What guesses should look like. *)
From Verif Require Import Base XReal Shape_Spec Jacobian_Model Pixels_Model Priors_Model PriorSample_Model PriorSample_Spec Joint_Model Guessers_Model.
From Verif Require PSFFlux_Model.
Local Open Scope R_scope.

(** if it returns, the value satisfies Q *)
Definition holds (W : Type) {A} (m : M W A) (Q : A -> Prop) : Prop := forall w w' a, m w = Some (w', Ok a) -> Q a.
(** it returns a value that satisfies Q *)
Definition total (W : Type) {A} (m : M W A) (Q : A -> Prop) : Prop := forall w, exists w' a, m w = Some (w', Ok a) /\ Q a.
Definition nrows (nrand : option nat) : nat := match nrand with Some n => n | None => 1%nat end.

(** the rows of what is returned *)
Definition rows (o : gout) : list (list R) :=
  match o with G1 r => [r] | G2 m => map (fun r => map (fun c => at2 m r c) (seq 0 (ncol m))) (seq 0 (nrow m)) end.
(** entry [i] of a row *)
Definition at_col (row : list R) (i : nat) (P : R -> Prop) : Prop := exists x, nth_error row i = Some x /\ P x.
Definition small (b x : R) : Prop := - b <= x <= b.
(** within a fraction [k] of [c] *)
Definition near (k c x : R) : Prop := Rabs (x - c) <= k * Rabs c.
Definition between (a b x : R) : Prop := a <= x <= b.
(** entries [start ...] are near the fluxes *)
Definition bands_at (row fluxes : list R) (start : nat) : Prop :=
  forall b f, nth_error fluxes b = Some f -> at_col row (start + b) (near (1/10) f).

(** [c1, c2, g1, g2, T, fluxes] around zero, T and the fluxes *)
Definition simple_row (size : R) (fluxes row : list R) : Prop :=
  length row = (5 + length fluxes)%nat /\ at_col row 0 (small (1/100)) /\ at_col row 1 (small (1/100)) /\
  at_col row 2 (small (2/100)) /\ at_col row 3 (small (2/100)) /\ at_col row 4 (near (1/10) size) /\ bands_at row fluxes 5.
(** [c1, c2, g1, g2, r50, nu, fluxes] *)
Definition spergel_row (size nu : R) (fluxes row : list R) : Prop :=
  length row = (6 + length fluxes)%nat /\ at_col row 0 (small (1/100)) /\ at_col row 1 (small (1/100)) /\
  at_col row 2 (small (2/100)) /\ at_col row 3 (small (2/100)) /\ at_col row 4 (near (1/10) size) /\
  at_col row 5 (fun x => near (1/10) nu x /\ NUMIN < x < NUMAX) /\ bands_at row fluxes 6.
(** a row drawn from the prior *)
Definition prior_row {W} (P : jprior W) (row : list R) : Prop :=
  exists w n w' m r, jp_sample P w n = (w', Ok m) /\ (r < nrow m)%nat /\ row = map (fun c => at2 m r c) (seq 0 (ncol m)).
(** [row] has the columns of [s] except T and the fluxes *)
Definition simple_over (T : R) (fluxes s row : list R) : Prop :=
  length row = length s /\ firstn 4 row = firstn 4 s /\ at_col row 4 (near (1/10) T) /\ bands_at row fluxes 5 /\
  (forall i, (5 + length fluxes <= i)%nat -> nth_error row i = nth_error s i).
Definition bdf_over (T : R) (fluxes s row : list R) : Prop :=
  length row = length s /\ firstn 4 row = firstn 4 s /\ at_col row 4 (near (1/10) T) /\ at_col row 5 (between (4/10) (6/10)) /\
  bands_at row fluxes 6 /\ (forall i, (6 + length fluxes <= i)%nat -> nth_error row i = nth_error s i).
(** parameters of the bulge-disk model: T, log of the size ratio, fracdev, fluxes *)
Definition bd_over (T : R) (fluxes s row : list R) : Prop :=
  length row = length s /\ firstn 4 row = firstn 4 s /\ at_col row 4 (near (1/10) T) /\ at_col row 6 (between (4/10) (6/10)) /\
  bands_at row fluxes 7.

(** what is in the columns: the fraction is in column 5, and column 6 is as drawn *)
Definition bd_actual (T : R) (fluxes s row : list R) : Prop :=
  length row = length s /\ firstn 4 row = firstn 4 s /\ at_col row 4 (near (1/10) T) /\ at_col row 5 (between (4/10) (6/10)) /\
  nth_error row 6 = nth_error s 6 /\ bands_at row fluxes 7.
(** rows made from a row of the prior; rows with centre and shape of one row of the prior and the
    rest of another *)
Definition kept {W} (over : list R -> list R -> Prop) (P : jprior W) (row : list R) : Prop := exists s, prior_row P s /\ over s row.
Definition retailed {W} (P : jprior W) (row : list R) : Prop :=
  exists s t, prior_row P s /\ prior_row P t /\ length row = length s /\ firstn 4 row = firstn 4 s /\ skipn 4 row = skipn 4 t.

(** [b] is [g], brought back to modulus 8/10 if it is larger *)
Definition shrunk (g b : Shape_Spec.C) : Prop :=
  (cmod2 g <= 64/100 /\ b = g) \/ (64/100 < cmod2 g /\ cmod2 b = 64/100 /\ same_direction g b).
(** around the parameters: centre by an absolute width, the shape by a shear, the rest by a
    fraction *)
Definition pars_row (pars widths row : list R) : Prop :=
  length row = length pars /\
  (forall i p w, (i < 2)%nat -> nth_error pars i = Some p -> nth_error widths i = Some w -> at_col row i (fun x => small w (x - p))) /\
  (exists p2 p3 w2 w3 b s1 s2 g1 g2, nth_error pars 2 = Some p2 /\ nth_error pars 3 = Some p3 /\ nth_error widths 2 = Some w2 /\ nth_error widths 3 = Some w3 /\
     shrunk (p2, p3) b /\ small w2 s1 /\ small w3 s2 /\ moebius b (s1, s2) (g1, g2) /\ in_disk (g1, g2) /\
     nth_error row 2 = Some g1 /\ nth_error row 3 = Some g2) /\
  (forall i p w, (4 <= i)%nat -> nth_error pars i = Some p -> nth_error widths i = Some w -> at_col row i (near w p)).

(** [pars] has a prior probability that is not zero *)
Definition allowed {W} (P : jprior W) (pars : list R) : Prop :=
  exists v, jp_lnprob P pars = Ok v /\ xltb LOWVAL v = true.
(** the prior gives no nan *)
Definition proper {W} (P : jprior W) : Prop := forall pars, jp_lnprob P pars <> Ok NaN.
(** it only draws what it allows *)
Definition draws_allowed {W} (P : jprior W) : Prop := forall row, prior_row P row -> allowed P row.
(** centre and shape are independent of the rest *)
Definition separable {W} (P : jprior W) : Prop := forall a b, length a = length b ->
  allowed P a -> allowed P b -> allowed P (firstn 4 a ++ skipn 4 b).

(** ** Parts of a joint prior *)
Definition possible1 (p : p1obj) (x : R) : Prop := exists v, p1_lnprob p (Fin x) = Ok (Fin v).
Definition possible2 (p : p2obj) (x y : R) : Prop := exists v, p2_lnprob p (Fin x) (Fin y) = Ok (Fin v).
(** the log probability of a number is a number or -inf *)
Definition clean1 (p : p1obj) : Prop := forall x v, p1_lnprob p (Fin x) = Ok v -> v = NInf \/ exists r, v = Fin r.
Definition clean2 (p : p2obj) : Prop := forall x y v, p2_lnprob p (Fin x) (Fin y) = Ok v -> v = NInf \/ exists r, v = Fin r.
(** draws n possible values *)
Definition draws1 {W} (p : p1obj) (s : sampler1 W) : Prop := forall w n, length (snd (s w n)) = n /\ Forall (possible1 p) (snd (s w n)).
Definition draws2 {W} (p : p2obj) (s : sampler2 W) : Prop := forall w n, length (fst (snd (s w n))) = n /\ length (snd (snd (s w n))) = n /\
  forall i, (i < n)%nat -> possible2 p (nth i (fst (snd (s w n))) 0) (nth i (snd (snd (s w n))) 0).
Definition draws_pairs {W} (s : sampler2 W) : Prop := forall w n, length (fst (snd (s w n))) = n /\ length (snd (snd (s w n))) = n.

(** ** psf fluxes *)
Definition good_band (r : PSFFlux_Model.pres) (f : R) : Prop := PSFFlux_Model.pr_flags r = 0%Z /\ PSFFlux_Model.pr_flux r = Fin f.
(** the fluxes of the good bands; the fitter raised nothing *)
Inductive goods_of : list (res PSFFlux_Model.pres) -> list R -> Prop :=
| go_nil : goods_of [] []
| go_good r f fits l : good_band r f -> goods_of fits l -> goods_of (Ok r :: fits) (f :: l)
| go_bad r fits l : (~ exists f, good_band r f) -> goods_of fits l -> goods_of (Ok r :: fits) l.
(** the fluxes of the bands: those measured, and for the others something around their mean *)
Definition fluxes_of (fits : list (res PSFFlux_Model.pres)) (fl : list R) : Prop :=
  exists goods, goods_of fits goods /\ (fits <> [] -> goods <> []) /\
    Forall2 (fun x f => exists r, x = Ok r /\
      (good_band r f \/ (~ exists f', good_band r f') /\ near (1/10) (rsum goods / INR (length goods)) f)) fits fl.
(** the fitter raises nothing and a band is good *)
Definition measurable (fits : list (res PSFFlux_Model.pres)) : Prop :=
  exists goods, goods_of fits goods /\ (fits <> [] -> goods <> []).

(** histories of a guesser, the observations being [obs_of id] throughout *)
Inductive after {W} (G : rng W) (obs_of : nat -> list (res PSFFlux_Model.pres)) : cache -> Prop :=
| after_none : after G obs_of cache0
| after_call c body oid w w' c' r : after G obs_of c ->
    psf_call W G body c oid (obs_of oid) w = Some (w', c', r) -> after G obs_of c'.

(** ** psf guesses *)
(** one component of a mixture: amplitude, centre and covariance *)
Definition psf_comp (flux sigma2 off : R) (pf : R * R) (l : list R) : Prop :=
  exists p r c irr irc icc, l = [p; r; c; irr; irc; icc] /\ near (1/10) (fst pf * flux) p /\ small (1/10) r /\ small (1/10) c /\
    near (1/10) (snd pf * sigma2) irr /\ small off irc /\ near (1/10) (snd pf * sigma2) icc.
Definition psf_mixture (flux sigma2 off : R) (tab : list (R * R)) (l : list R) : Prop :=
  exists comps, l = concat comps /\ Forall2 (psf_comp flux sigma2 off) tab comps.
(** every component is positive definite *)
Definition pos_def (l : list R) : Prop := forall i p r c irr irc icc,
  firstn 6 (skipn (6 * i) l) = [p; r; c; irr; irc; icc] -> 0 < irr /\ 0 < icc /\ 0 < irr * icc - irc ^ 2.
(** [c1, c2, g1, g2, T1, T2, ..., F1, F2, ...] *)
Definition coellip_row (k : R) (Ts Fs row : list R) : Prop :=
  exists c1 c2 g1 g2 ts fs, row = [c1; c2; g1; g2] ++ ts ++ fs /\ small (1/100) c1 /\ small (1/100) c2 /\ small (5/100) g1 /\ small (5/100) g2 /\
    Forall2 (near k) Ts ts /\ Forall2 (near k) Fs fs.
(** one gaussian *)
Definition one_gauss (flux sigma2 : R) (l : list R) : Prop := psf_mixture flux sigma2 (2/10 * sigma2) [(1, 1)] l.
