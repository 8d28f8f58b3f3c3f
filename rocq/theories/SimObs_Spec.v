(** What a user expects of simulated observations. *)
From Verif Require Import Base Jacobian_Model Jacobian_Spec Pixels_Model GMix_Model Render_Spec Obs_Model ObsVal_Model SimObs_Model.
From Verif Require GMixObj_Model.
From Coq Require Import Sorting.Sorted Sorting.Permutation.
Local Open Scope R_scope.

(** m is a median: the mean of the two central elements *)
Definition median_of (l : list R) (m : R) : Prop :=
  exists s a b, Permutation l s /\ Sorted Rle s /\
    nth_error s ((length s - 1) / 2) = Some a /\ nth_error s (length s / 2) = Some b /\ m = (a + b) / 2.

(** the standard deviations of the pixels with positive weight *)
Definition good_pixels (w : arr2 R) : list (nat * nat) :=
  filter (fun rc => Rltb 0 (at2 w (fst rc) (snd rc))) (list_prod (seq 0 (nrow w)) (seq 0 (ncol w))).
Definition errors (w : arr2 R) : list R := map (fun rc => / sqrt (at2 w (fst rc) (snd rc))) (good_pixels w).

Definition factor (f : option R) : R := match f with None => 1 | Some f => f end.
Definition inside {A} (a : arr2 A) (r c : nat) : Prop := (r < nrow a)%nat /\ (c < ncol a)%nat.
Definition same_dims {A B} (a : arr2 A) (b : arr2 B) : Prop := nrow a = nrow b /\ ncol a = ncol b.
(** a weight map that is not all masked *)
Definition some_weight (w : arr2 R) : Prop := exists r c, inside w r c /\ 0 < at2 w r c.

(** noise n of a weight map, from standard normal deviates z *)
Definition noise_law (w : arr2 R) (add_all : bool) (f : option R) (z n : arr2 R) : Prop :=
  same_dims n w /\
  (some_weight w -> forall r c, inside w r c ->
    (0 < at2 w r c -> exists s, at2 n r c = at2 z r c * s /\ s ^ 2 = factor f ^ 2 / at2 w r c /\ (0 <= factor f -> 0 <= s)) /\
    (at2 w r c <= 0 -> add_all = false -> at2 n r c = 0) /\
    (at2 w r c <= 0 -> add_all = true -> exists m, median_of (errors w) m /\ at2 n r c = at2 z r c * (m * factor f))).

(** the mixture seen in the image: convolved with the psf if requested *)
Definition seen (gm : option gmobj) (v : obsval) (convolve : bool) (d : option gmix) : Prop :=
  match gm with
  | None => d = None
  | Some g =>
      if convolve then exists p pg c, v_psf v = Some p /\ v_gmix p = Some pg /\
                         gmix_convolve (GMixObj_Model.o_data g) (GMixObj_Model.o_data pg) = Ok c /\ d = Some c
      else d = Some (GMixObj_Model.o_data g)
  end.
(** flux of the mixture in a pixel *)
Definition model_flux (d : option gmix) (j : jac) (r c : nat) : R :=
  match d with
  | None => 0
  | Some gm => brightness gm (dvdrow j * (INR r - row0 j) + dvdcol j * (INR c - col0 j))
                             (dudrow j * (INR r - row0 j) + dudcol j * (INR c - col0 j)) * jscale j ^ 2
  end.
(** weight map from which the noise is made *)
Definition noise_weight (o : simin) (sp : simpars) : arr2 R :=
  match si_raw o with Some raw => if sp_use_raw sp then raw else v_weight (si_val o) | None => v_weight (si_val o) end.

(** An observation of a consistent state: image and weight have the same dimensions, and
    copies of jacobian and mixture equal the originals.  Every observation of the memory
    model is (theorem C54_observations_are_sound). *)
Inductive sound : obsval -> Prop :=
| Sound im w j opts g d st ig p :
    same_dims w im -> Jacobian_copy j = Ok j -> (forall x, g = Some x -> gm_copy x = Ok x) ->
    (forall q, p = Some q -> sound q) -> sound (OV im w j opts g d st ig p).

(** two observations differ at most in image and weight *)
Definition same_but_image (a b : obsval) : Prop :=
  let '(OV _ _ j opts g d st ig p) := a in let '(OV _ _ j' opts' g' d' st' ig' p') := b in
  j = j' /\ (forall s, opts s = opts' s) /\ g = g' /\ d = d' /\ st = st' /\ ig = ig' /\ p = p'.

(** the mixture for band i *)
Definition band_item (gm : garg) (i : nat) : option gitem :=
  match gm with GOne GINone => Some GINone | GOne _ => None | GList l => nth_error l i end.
Definition item_gmix (x : gitem) : option (option gmobj) :=
  match x with GI g => Some (Some g) | GINone => Some None | GIOther => None end.

(** one after the other, each starting in the state the one before it left *)
Inductive chain {S A B : Type} (step : A -> S -> B -> S -> Prop) : S -> list A -> list B -> S -> Prop :=
| ChainNil s : chain step s [] [] s
| ChainCons s a b s' l l' s'' : step a s b s' -> chain step s' l l' s'' -> chain step s (a :: l) (b :: l') s''.
Section Sims.
Variable W : Type.
Variable normal : W -> nat -> nat -> W * arr2 R.
Definition sim_of (g : option gmobj) (sp : simpars) (o : simin) (a : option W) (out : simout) (b : option W) : Prop :=
  simulate_one W normal g o sp a = (b, Ok out).
(** the mixture of the band, and the observations of the band simulated in order *)
Definition sim_band (gm : garg) (sp : simpars) (ib : nat * list simin) (a : option W) (outs : list simout) (b : option W) : Prop :=
  exists x, band_item gm (fst ib) = Some x /\
    (snd ib = [] \/ exists g, item_gmix x = Some g) /\
    forall g, item_gmix x = Some g -> chain (sim_of g sp) a (snd ib) outs b.
End Sims.
