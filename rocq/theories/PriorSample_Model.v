(** Model of the samplers of ngmix/priors/priors.py, multivariate.py and shape.py.

    The random generator is a state [W] and two functions: [uniform w low high n] and
    [normal w loc scale n], which return n numbers (numpy.random.RandomState).  A rejection
    loop need not end: [loop] takes the number of passes allowed and returns None when they
    are used up; the theorems hold for any number of passes. *)
From Verif Require Import Base XReal Priors_Model.
Local Open Scope R_scope.

Record rng (W : Type) := mkRng
  { uniform : W -> R -> R -> nat -> W * list R; rnormal : W -> R -> R -> nat -> W * list R }.
Arguments uniform {W} _ _ _ _ _.
Arguments rnormal {W} _ _ _ _ _.

(** vals[ngood:ngood + w.size] = v: sizes must agree (a slice stops at the end of vals) *)
Definition put_slice {A} (vals : list A) (i : nat) (v : list A) : res (list A) :=
  if Nat.leb (i + length v) (length vals)
  then Ok (firstn i vals ++ v ++ skipn (i + length v) vals) else Raise ValueError.

Section Loop.
Variables (W A : Type).
(** one pass: draw for nleft and keep what is accepted, or raise *)
Variable pass : W -> nat -> W * res (list A).
(** the while loops of TruncatedGaussian.sample (priors.py:1152-1164), TwoSidedErf.sample
    (369-383), LogNormal.sample_brute (896-915), Bounded1D.sample (650-663), GPriorBase.sample1d
    (shape.py:189-207), GPriorGauss.sample2d (420-437), sample2d_brute (270-290) *)
Fixpoint loop (fuel : nat) (w : W) (vals : list A) (ngood nleft : nat) : option (W * res (list A)) :=
  if Nat.ltb ngood (length vals) then
    match fuel with
    | O => None
    | S fuel =>
        let (w, r) := pass w nleft in
        match r with
        | Raise e => Some (w, Raise e)
        | Ok good =>
            if Nat.ltb 0 (length good) then
              match put_slice vals ngood good with
              | Raise e => Some (w, Raise e)
              | Ok vals => loop fuel w vals (ngood + length good) (nleft - length good)
              end
            else loop fuel w vals ngood nleft
        end
    end
  else Some (w, Ok vals).
End Loop.
Arguments loop {W A} _ _ _ _ _ _.

(** (w,) = np.where(mask); x[w] *)
Definition masked {A} (keep : A -> bool) (xs : list A) : list A := filter keep xs.

Section Samplers.
Variable W : Type.
Variable G : rng W.

(** the value returned for nrand=None: vals[0] *)
Definition first_of {A} (l : list A) : res A := match l with x :: _ => Ok x | [] => Raise IndexError end.

(** ngmix/priors/priors.py:159-187 FlatPrior.sample *)
Definition flat_sample (p : flat) (w : W) (nrand : nat) : W * list R :=
  let (w, u) := uniform G w 0 1 nrand in
  (w, map (fun r => fl_min p + (fl_max p - fl_min p) * r) u).

(** ngmix/priors/priors.py:339-388 TwoSidedErf.sample *)
Definition erf_pass (erf : R -> R) (p : tserf) (w : W) (n : nat) : W * res (list R) :=
  let xmin := te_min p - 5 * te_wmin p in
  let xmax := te_max p + 5 * te_wmax p in
  let (w, randx) := uniform G w xmin xmax n in
  let pvals := erf_prob_array erf p (map Fin randx) in
  let (w, randy) := uniform G w 0 1 n in
  (w, Ok (map (fun t => fst (fst t))
            (masked (fun t => xltb (Fin (snd t)) (snd (fst t))) (combine (combine randx pvals) randy)))).
Definition erf_sample (erf : R -> R) (p : tserf) (fuel : nat) (w : W) (nrand : nat) : option (W * res (list R)) :=
  loop (erf_pass erf p) fuel w (repeat 0 nrand) 0 nrand.

(** ngmix/priors/priors.py:484-505 Normal.sample *)
Definition normal_sample (p : normal) (w : W) (nrand : nat) : W * list R :=
  rnormal G w (no_mean p) (no_sigma p) nrand.

(** ngmix/priors/priors.py:551-569 LMBounds.sample *)
Definition lmbounds_sample (p : lmbounds) (w : W) (nrand : nat) : W * list R :=
  uniform G w (lb_min p) (lb_max p) nrand.

(** ngmix/priors/priors.py:588-620 Bounded1D.__init__ and set_limits *)
Definition bounded_init (limits : list R) : res (R * R) :=
  match limits with
  | [a; b] => if Rleb b a then Raise ValueError else Ok (a, b)
  | _ => Raise ValueError
  end.
(** ngmix/priors/priors.py:622-667 Bounded1D.sample for any pdf *)
Definition bounded_pass (pdf : W -> nat -> W * res (list R)) (lo hi : R) (w : W) (n : nat) : W * res (list R) :=
  let (w, r) := pdf w n in
  (w, let* tmp := r in Ok (masked (fun x => Rltb lo x && Rltb x hi) tmp)).
Definition bounded_sample (pdf : W -> nat -> W * res (list R)) (lo hi : R) (fuel : nat) (w : W) (nrand : nat)
  : option (W * res (list R)) := loop (bounded_pass pdf lo hi) fuel w (repeat 0 nrand) 0 nrand.

(** ngmix/priors/priors.py:841-863 LogNormal.sample *)
Definition lognormal_sample (p : lognormal) (w : W) (nrand : nat) : W * list R :=
  let (w, z) := rnormal G w 0 1 nrand in
  (w, map (fun z => let r := exp (lg_logmean p + lg_logsigma p * z) in
                    match lg_shift p with Some s => r + s | None => r end) z).

(** ngmix/priors/priors.py:865-920 LogNormal.sample_brute *)
Definition brute_pass (p : lognormal) (maxval : R) (w : W) (n : nat) : W * res (list R) :=
  let (w, u) := uniform G w 0 1 n in
  let rvals := map (fun u => let r := maxval * u in match lg_shift p with Some s => r + s | None => r end) u in
  let (w, h) := uniform G w 0 1 n in
  (w, let* pvals := lognormal_prob_array p (map Fin rvals) in
      Ok (map (fun t => fst (fst t))
            (masked (fun t => xltb (Fin (snd t)) (snd (fst t))) (combine (combine rvals pvals) h)))).
Definition brute_sample (p : lognormal) (maxval : option R) (fuel : nat) (w : W) (nrand : nat)
  : option (W * res (list R)) :=
  let maxval := match maxval with Some m => m | None => lg_mean p + 10 * lg_sigma p end in
  loop (brute_pass p maxval) fuel w (repeat 0 nrand) 0 nrand.

(** ngmix/priors/priors.py:1014-1043 Sinh.sample *)
Definition sinh_sample (p : sinhp) (w : W) (nrand : nat) : W * list R :=
  uniform G w (sh_mean p - sh_scale p) (sh_mean p + sh_scale p) nrand.

(** ngmix/priors/priors.py:1128-1169 TruncatedGaussian.sample *)
Definition trunc_pass (p : trunc) (w : W) (n : nat) : W * res (list R) :=
  let (w, tvals) := rnormal G w (tg_mean p) (tg_sigma p) n in
  (w, Ok (masked (fun x => Rltb (tg_min p) x && Rltb x (tg_max p)) tvals)).
Definition trunc_sample (p : trunc) (fuel : nat) (w : W) (nrand : nat) : option (W * res (list R)) :=
  loop (trunc_pass p) fuel w (repeat 0 nrand) 0 nrand.

(** ngmix/priors/multivariate.py:87-110 CenPrior.sample *)
Definition cen_sample (p : cenprior) (w : W) (nrand : nat) : W * (list R * list R) :=
  let (w, a) := rnormal G w (ce_cen1 p) (ce_sigma1 p) nrand in
  let (w, b) := rnormal G w (ce_cen2 p) (ce_sigma2 p) nrand in
  (w, (a, b)).

(** ngmix/priors/shape.py:160-209 GPriorBase.sample1d once maxval1d is set; [prob1d] is
    get_prob_array1d *)
Definition g1d_pass (prob1d : list xr -> list xr) (gmax maxval1d : R) (w : W) (n : nat) : W * res (list R) :=
  let maxval1d := maxval1d * (11 / 10) in
  let gmax := gmax - 1 / 10000 in
  let (w, u) := uniform G w 0 1 n in
  let grand := map (fun u => gmax * u) u in
  let (w, u) := uniform G w 0 1 n in
  let h := map (fun u => maxval1d * u) u in
  let pvals := prob1d (map Fin grand) in
  (w, Ok (map (fun t => fst (fst t))
            (masked (fun t => xltb (Fin (snd t)) (snd (fst t))) (combine (combine grand pvals) h)))).
Definition g1d_sample (prob1d : list xr -> list xr) (gmax maxval1d : R) (fuel : nat) (w : W) (nrand : nat)
  : option (W * res (list R)) := loop (g1d_pass prob1d gmax maxval1d) fuel w (repeat 0 nrand) 0 nrand.
(** ngmix/priors/shape.py:211-248 GPriorBase.sample2d *)
Definition rotate_all (grand u : list R) : list R * list R :=
  let theta := map (fun u => u * 2 * PI) u in
  (map (fun t => fst t * cos (2 * snd t)) (combine grand theta),
   map (fun t => fst t * sin (2 * snd t)) (combine grand theta)).
Definition g2d_sample (prob1d : list xr -> list xr) (gmax maxval1d : R) (fuel : nat) (w : W) (nrand : nat)
  : option (W * res (list R * list R)) :=
  match g1d_sample prob1d gmax maxval1d fuel w nrand with
  | None => None
  | Some (w, Raise e) => Some (w, Raise e)
  | Some (w, Ok grand) => let (w, u) := uniform G w 0 1 nrand in Some (w, Ok (rotate_all grand u))
  end.

(** ngmix/priors/shape.py:393-443 GPriorGauss.sample2d; the two arrays as one list of pairs *)
Definition ggauss_pass (gmax sigma : R) (w : W) (n : nat) : W * res (list (R * R)) :=
  let gmax := gmax - 1 / 10000 in
  let (w, g1) := rnormal G w 0 sigma n in
  let (w, g2) := rnormal G w 0 sigma n in
  (w, Ok (masked (fun g => Rltb (sqrt (fst g ^ 2 + snd g ^ 2)) gmax) (combine g1 g2))).
Definition ggauss_sample (gmax sigma : R) (fuel : nat) (w : W) (nrand : nat) : option (W * res (list (R * R))) :=
  loop (ggauss_pass gmax sigma) fuel w (repeat (0, 0) nrand) 0 nrand.

(** ngmix/priors/shape.py:250-292 sample2d_brute of GPriorBA *)
Definition ba_brute_pass (p : gba) (w : W) (n : nat) : W * res (list (R * R)) :=
  let maxval2d := ba_prob_scalar2d p (Fin 0) (Fin 0) in
  let (w, g1) := uniform G w (-1) 1 n in
  let (w, g2) := uniform G w (-1) 1 n in
  let (w, u) := uniform G w 0 1 n in
  let h := map (fun u => xmul maxval2d (Fin u)) u in
  let vals := ba_prob_array2d p (map (fun g => (Fin (fst g), Fin (snd g))) (combine g1 g2)) in
  (w, Ok (map (fun t => fst (fst t))
            (masked (fun t => xltb (snd t) (snd (fst t))) (combine (combine (combine g1 g2) vals) h)))).
Definition ba_brute_sample (p : gba) (fuel : nat) (w : W) (nrand : nat) : option (W * res (list (R * R))) :=
  loop (ba_brute_pass p) fuel w (repeat (0, 0) nrand) 0 nrand.

(** ngmix/priors/shape.py:740-767 ZDisk2D.sample1d *)
Definition zdisk_sample1d (p : zdisk) (w : W) (nrand : nat) : W * list R :=
  let (w, u) := uniform G w 0 1 nrand in
  (w, map (fun u => sqrt (zd_radius_sq p * u)) u).
(** ngmix/priors/shape.py:769-803 ZDisk2D.sample2d *)
Definition zdisk_sample2d (p : zdisk) (w : W) (nrand : nat) : W * (list R * list R) :=
  let (w, r) := zdisk_sample1d p w nrand in
  let (w, u) := uniform G w 0 1 nrand in
  let theta := map (fun u => 2 * PI * u) u in
  (w, (map (fun t => fst t * cos (snd t)) (combine r theta),
       map (fun t => fst t * sin (snd t)) (combine r theta))).

(** * The bound maxval1d that sample1d keeps on the object (shape.py:180-181, 294-311): it is
    computed at the first call, by scipy.optimize.minimize, and not again *)
Variable minimize : (R -> xr) -> R -> res R.   (* -fun, or RuntimeError *)
Record gstate := mkGS { gs_prior : gba; gs_gmax : R; gs_maxval1d : option R }.
(** ngmix/priors/shape.py:294-311 *)
Definition set_maxval1d (s : gstate) (maxguess : R) : res gstate :=
  let* m := minimize (fun g => xneg (ba_prob_scalar1d (gs_prior s) (Fin g))) maxguess in
  Ok (mkGS (gs_prior s) (gs_gmax s) (Some m)).
(** ngmix/priors/shape.py:494-507 set_pars *)
Definition set_pars (s : gstate) (A sigma : R) : res gstate :=
  let* p := gba_init sigma A in Ok (mkGS p (gs_gmax s) (gs_maxval1d s)).
(** ngmix/priors/shape.py:180-183 *)
Definition envelope (s : gstate) (maxguess : R) : res (gstate * R) :=
  match gs_maxval1d s with
  | Some m => Ok (s, m)
  | None => let* s := set_maxval1d s maxguess in
            match gs_maxval1d s with Some m => Ok (s, m) | None => Raise AttributeError end
  end.
End Samplers.
Arguments flat_sample {W} G _ _ _.
Arguments erf_pass {W} G _ _ _ _.
Arguments erf_sample {W} G _ _ _ _ _.
Arguments normal_sample {W} G _ _ _.
Arguments lmbounds_sample {W} G _ _ _.
Arguments lognormal_sample {W} G _ _ _.
Arguments brute_pass {W} G _ _ _ _.
Arguments brute_sample {W} G _ _ _ _ _.
Arguments sinh_sample {W} G _ _ _.
Arguments trunc_pass {W} G _ _ _.
Arguments trunc_sample {W} G _ _ _ _.
Arguments cen_sample {W} G _ _ _.
Arguments g1d_pass {W} G _ _ _ _ _.
Arguments g1d_sample {W} G _ _ _ _ _ _.
Arguments g2d_sample {W} G _ _ _ _ _ _.
Arguments ggauss_pass {W} G _ _ _ _.
Arguments ggauss_sample {W} G _ _ _ _ _.
Arguments ba_brute_pass {W} G _ _ _.
Arguments ba_brute_sample {W} G _ _ _ _.
Arguments zdisk_sample1d {W} G _ _ _.
Arguments zdisk_sample2d {W} G _ _ _.
Arguments bounded_pass {W} _ _ _ _ _.
Arguments bounded_sample {W} _ _ _ _ _ _.
