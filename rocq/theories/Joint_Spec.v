(** What a joint prior should do: parameters 0 and 1 are the centre, 2 and 3 the shape, and
    parameter 4+k belongs to the k-th of a list [ps] of one-dimensional priors. *)
From Verif Require Import Base XReal Pixels_Model Priors_Model Priors_Spec Joint_Model.
Local Open Scope R_scope.

(** the priors of parameters 4, 5, ... of each class *)
Definition simple_ps (T : p1obj) (Fs : list p1obj) := T :: Fs.
Definition bd_ps (T Tr fd : p1obj) (Fs : list p1obj) := T :: Tr :: fd :: Fs.
Definition bdf_ps (T fd : p1obj) (Fs : list p1obj) := T :: fd :: Fs.
Definition spergel_ps (r50 nu : p1obj) (Fs : list p1obj) := r50 :: nu :: Fs.
Definition coellip_ps (ngauss : nat) (T F : p1obj) := repeat T ngauss ++ repeat F ngauss.
(** the flux priors the user gave *)
Definition fluxes (F : farg) : list p1obj := match F with FOne p => [p] | FList l | FTuple l => l end.

(** the log probabilities of the terms at a point, each from its own prior *)
Definition terms_at (cen : cenprior) (g : p2obj) (ps : list p1obj) (pars ls : list xr) : Prop :=
  exists x0 x1 x2 x3 rest l0 l1 l2 lr,
    pars = x0 :: x1 :: x2 :: x3 :: rest /\ ls = l0 :: l1 :: l2 :: lr /\
    cen_lnprob_scalar_sep cen x0 x1 = (l0, l1) /\ p2_lnprob g x2 x3 = Ok l2 /\
    (length ps <= length rest)%nat /\
    Forall2 (fun px l => p1_lnprob (fst px) (snd px) = Ok l) (combine ps rest) lr.

Definition xsum (l : list xr) : xr := fold_left xadd l (Fin 0).

(** a residual vector that encodes the terms: one entry per term, then the rest of the array
    as it was *)
Definition residuals (ls fdiff : list xr) (out : list xr * nat) : Prop :=
  snd out = length ls /\ length (fst out) = length fdiff /\
  skipn (length ls) (fst out) = skipn (length ls) fdiff /\
  Forall2 (fun f l => xmul f f = xmul (Fin (-2)) l) (firstn (length ls) (fst out)) ls.

(** what lnprob and fill_fdiff of a joint prior with these parts should do *)
Definition lnprob_spec (cen : cenprior) (g : p2obj) (ps : list p1obj) (lnprob : list xr -> res xr) : Prop :=
  forall pars L, lnprob pars = Ok L <-> exists ls, terms_at cen g ps pars ls /\ L = xsum ls.
Definition fill_spec (cen : cenprior) (g : p2obj) (ps : list p1obj) (lnprob : list xr -> res xr)
  (fill : list xr -> list xr -> res (list xr * nat)) : Prop :=
  forall pars fdiff, (3 + length ps <= length fdiff)%nat ->
    match lnprob pars, fill pars fdiff with
    | Ok L, Ok out => (exists ls, terms_at cen g ps pars ls /\ residuals ls fdiff out) /\
                      snd out = (3 + length ps)%nat /\
                      xsum (map xsq (firstn (snd out) (fst out))) = xmul (Fin (-2)) L
    | Raise e, Raise e' => e = e'
    | _, _ => False
    end.

Definition never_positive_pars (lnprob : list xr -> res xr) : Prop :=
  forall pars L, lnprob pars = Ok L -> xltb (Fin 0) L = false.

(** the bounds of parameter k *)
Definition own_bound (ps : list p1obj) (k : nat) : bentry :=
  match (if Nat.ltb k 4 then None else nth_error ps (k - 4)) with
  | Some p => match p1_bounds p with Some (a, b) => BPair (Some a) (Some b) | None => BPair None None end
  | None => BPair None None
  end.
Definition bounds_spec (ps : list p1obj) (bounds : option (list bentry)) : Prop :=
  match bounds with
  | Some l => length l = (4 + length ps)%nat /\ (forall k, (k < length l)%nat -> nth_error l k = Some (own_bound ps k))
              /\ exists p, In p ps /\ p1_bounds p <> None
  | None => forall p, In p ps -> p1_bounds p = None
  end.

(** an array evaluator that can stand for the scalar one in a sum *)
Definition array_ok (p : p1obj) : Prop :=
  forall vs ls, Forall (fun v => v <> NaN) vs -> mapM (p1_lnprob p) vs = Ok ls ->
    p1_lnprob_array p vs = Ok (AArray ls) \/
    (p1_lnprob_array p vs = Ok (AScalar (Fin 0)) /\ ls = repeat (Fin 0) (length vs)).
Definition array_ok2 (p : p2obj) : Prop :=
  forall vs ls, Forall (fun v => fst v <> NaN /\ snd v <> NaN) vs ->
    mapM (fun v => p2_lnprob p (fst v) (snd v)) vs = Ok ls -> p2_lnprob_array p vs = Ok (AArray ls).
Definition row (pars : arr2 xr) (r : nat) : list xr := map (at2 pars r) (seq 0 (ncol pars)).
Definition rows_spec (lnprob : list xr -> res xr) (lnprob_array : arr2 xr -> res aval) : Prop :=
  forall pars Ls, (forall r c, (r < nrow pars)%nat -> (c < ncol pars)%nat -> at2 pars r c <> NaN) ->
    mapM (fun r => lnprob (row pars r)) (seq 0 (nrow pars)) = Ok Ls ->
    (0 < nrow pars)%nat -> lnprob_array pars = Ok (AArray Ls).

(** ** samples: column k comes from the sampler of parameter k *)
Section S.
Variable W : Type.
Fixpoint drawn (l : list (sampler1 W)) (w : W) (n : nat) (vs : list (list R)) (w' : W) : Prop :=
  match l, vs with
  | [], [] => w = w'
  | s :: l, v :: vs => exists w1, s w n = (w1, v) /\ drawn l w1 n vs w'
  | _, _ => False
  end.
Definition sample_spec (cen g : sampler2 W) (ps : list (sampler1 W)) (n : nat) (w : W) (out : W * arr2 R) : Prop :=
  exists w1 c1 c2 w2 g1 g2 vs,
    cen w n = (w1, (c1, c2)) /\ g w1 n = (w2, (g1, g2)) /\ drawn ps w2 n vs (fst out) /\
    nrow (snd out) = n /\ ncol (snd out) = (4 + length ps)%nat /\
    forall r c, (r < n)%nat -> (c < 4 + length ps)%nat ->
      at2 (snd out) r c = nth r (nth c (c1 :: c2 :: g1 :: g2 :: vs) []) 0.
End S.
Arguments sample_spec {W} _ _ _ _ _ _.
Arguments drawn {W} _ _ _ _ _.
