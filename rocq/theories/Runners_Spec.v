(** Runners in terms of single tries, single fits and memory before and after. *)
From Verif Require Import Base GMixObj_Model Runners_Model.

Section Spec.
Variables (W G rslt : Type).
Variable r_flags : rslt -> option Z.
Variable r_get_gmix : rslt -> option (res gmobj).
Let mem := rmem rslt.
Let st : Type := mem * W.
Variable fitter_go : mem -> W -> arg -> option G -> W * res rslt.
Variable guesser : option (mem -> W -> arg -> W * res G).

(** one try: one guess if there is a guesser, one call of the fitter *)
Inductive tries (a : arg) : st -> st -> rslt -> Prop :=
| t_plain m w w' r : guesser = None -> fitter_go m w a None = (w', Ok r) -> tries a (m, w) (m, w') r
| t_guess m w w1 w2 gs g r : guesser = Some gs -> gs m w a = (w1, Ok g) -> fitter_go m w1 a (Some g) = (w2, Ok r) -> tries a (m, w) (m, w2) r.
(** a try that raises *)
Inductive breaks (a : arg) : st -> st -> exn -> Prop :=
| b_plain m w w' e : guesser = None -> fitter_go m w a None = (w', Raise e) -> breaks a (m, w) (m, w') e
| b_guess m w w1 gs e : guesser = Some gs -> gs m w a = (w1, Raise e) -> breaks a (m, w) (m, w1) e
| b_go m w w1 w2 gs g e : guesser = Some gs -> gs m w a = (w1, Ok g) -> fitter_go m w1 a (Some g) = (w2, Raise e) -> breaks a (m, w) (m, w2) e
| b_flags s s' r : tries a s s' r -> r_flags r = None -> breaks a s s' KeyError.
(** k tries, all with flags set; the last result *)
Inductive fails (a : arg) : nat -> st -> st -> option rslt -> Prop :=
| f_none s : fails a 0 s s None
| f_more k s s1 s2 l r f : fails a k s s1 l -> tries a s1 s2 r -> r_flags r = Some f -> f <> 0%Z -> fails a (S k) s s2 (Some r).
(** the outcome of up to ntry tries *)
Definition outcome_ok (a : arg) (ntry : nat) (s s' : st) (r : rslt) : Prop :=
  (exists k s1 l, (k < ntry)%nat /\ fails a k s s1 l /\ tries a s1 s' r /\ r_flags r = Some 0%Z) \/ fails a ntry s s' (Some r).
(** an exception: no tries at all, or a try raised *)
Definition outcome_bad (a : arg) (ntry : nat) (s s' : st) (e : exn) : Prop :=
  (ntry = 0 /\ e = UnboundLocalError /\ s' = s)%nat \/ exists k s1 l, (k < ntry)%nat /\ fails a k s s1 l /\ breaks a s1 s' e.

(** ** fitting psfs *)
Definition target (m : mem) (i : nat) : nat :=
  match nth_error (m_obs m) i with Some o => match ro_psf o with Some p => p | None => i end | None => i end.
Definition items_of (ls : list clist) (i : nat) : list nat := match nth_error ls i with Some l => cl_items l | None => [] end.
(** the observations fitted, in order *)
Definition targets (m : mem) (a : arg) : list nat :=
  match a with
  | AObs i => [target m i]
  | AList i => map (target m) (items_of (m_lists m) i)
  | AMb i => flat_map (fun l => map (target m) (items_of (m_lists m) l)) (items_of (m_mbs m) i)
  | AOther => []
  end.
Definition meta_of (m : mem) (i : nat) : option nat := option_map ro_meta (nth_error (m_obs m) i).
Definition gmix_of (m : mem) (i : nat) : option gmobj := match nth_error (m_obs m) i with Some o => ro_gmix o | None => None end.
Definition result_of (m : mem) (d : nat) : option rslt := match nth_error (m_dict m) d with Some r => r | None => None end.
(** every reference refers to something *)
Record wf_mem (m : mem) : Prop := {
  wf_psf : forall i o p, nth_error (m_obs m) i = Some o -> ro_psf o = Some p -> (p < length (m_obs m))%nat;
  wf_meta : forall i o, nth_error (m_obs m) i = Some o -> (ro_meta o < length (m_dict m))%nat;
  wf_items : forall i l x, nth_error (m_lists m) i = Some l -> In x (cl_items l) -> (x < length (m_obs m))%nat;
  wf_mbs : forall i b x, nth_error (m_mbs m) i = Some b -> In x (cl_items b) -> (x < length (m_lists m))%nat }.
Definition wf_arg (m : mem) (a : arg) : Prop :=
  match a with
  | AObs i => (i < length (m_obs m))%nat
  | AList i => (i < length (m_lists m))%nat
  | AMb i => (i < length (m_mbs m))%nat
  | AOther => True
  end.
(** nothing but mixtures and results differ *)
Definition same_structure (m m' : mem) : Prop :=
  m_lists m' = m_lists m /\ m_mbs m' = m_mbs m /\ length (m_dict m') = length (m_dict m) /\
  map (fun o => (ro_psf o, ro_meta o)) (m_obs m') = map (fun o => (ro_psf o, ro_meta o)) (m_obs m).
(** mixture of a successful fit *)
Definition new_gmix (r : rslt) (old : option gmobj) (new : option gmobj) : Prop :=
  match r_flags r, r_get_gmix r with
  | Some 0%Z, Some gr => exists g c, gr = Ok g /\ obj_copy g = Ok c /\ new = Some c
  | _, _ => new = old
  end.
Definition records (m : mem) (t : nat) (r : rslt) (m' : mem) : Prop :=
  same_structure m m' /\ (forall d, result_of m' d = if (match meta_of m t with Some x => Nat.eqb x d | None => false end) then Some r else result_of m d) /\
  (forall j, j <> t -> gmix_of m' j = gmix_of m j) /\ new_gmix r (gmix_of m t) (gmix_of m' t).
(** the fits one after the other *)
Inductive fit_all (ntry : nat) : list nat -> st -> st -> list rslt -> Prop :=
| fa_nil s : fit_all ntry [] s s []
| fa_cons t ts m w w1 r m2 s' rs : outcome_ok (AObs t) ntry (m, w) (m, w1) r -> records m t r m2 -> fit_all ntry ts (m2, w1) s' rs ->
    fit_all ntry (t :: ts) (m, w) s' (r :: rs).
(** the fit of t raises: the fitter did, or the mixture of its result could not be stored *)
Definition fit_breaks (ntry : nat) (t : nat) (s s' : st) (e : exn) : Prop :=
  outcome_bad (AObs t) ntry s s' e \/
  exists w1 r gr, outcome_ok (AObs t) ntry s (fst s, w1) r /\ r_flags r = Some 0%Z /\ r_get_gmix r = Some gr /\ (gr = Raise e \/ exists g, gr = Ok g /\ obj_copy g = Raise e) /\
    snd s' = w1 /\ same_structure (fst s) (fst s').
(** the fits up to the one that raises *)
Definition breaks_off (ntry : nat) (ts : list nat) (s s' : st) (e : exn) : Prop :=
  exists ts1 t ts2 s1 rs, ts = ts1 ++ t :: ts2 /\ fit_all ntry ts1 s s1 rs /\ fit_breaks ntry t s1 s' e.
Definition flat (p : psf_res rslt) : list rslt := match p with PRes r => [r] | PList l => l | PMb l => concat l end.
Definition same_shape (m : mem) (a : arg) (p : psf_res rslt) : Prop :=
  match a, p with
  | AObs _, PRes _ => True
  | AList i, PList l => length l = length (items_of (m_lists m) i)
  | AMb i, PMb l => map (@length rslt) l = map (fun k => length (items_of (m_lists m) k)) (items_of (m_mbs m) i)
  | _, _ => False
  end.
(** the last result recorded in dict d *)
Definition last_result (m : mem) (d : nat) (tr : list (nat * rslt)) (init : option rslt) : option rslt :=
  fold_left (fun acc p => match meta_of m (fst p) with Some x => if Nat.eqb x d then Some (snd p) else acc | None => acc end) tr init.

(** ** choosing observations *)
Definition psf_flag (m : mem) (i : nat) (f : Z) : Prop :=
  exists o p d r, nth_error (m_obs m) i = Some o /\ ro_psf o = Some p /\ meta_of m p = Some d /\ result_of m d = Some r /\ r_flags r = Some f.
Definition known (m : mem) (i : nat) : Prop := exists f, psf_flag m i f.
Inductive kept (P : nat -> Prop) : list nat -> list nat -> Prop :=
| k_nil : kept P [] []
| k_yes x l l' : P x -> kept P l l' -> kept P (x :: l) (x :: l')
| k_no x l l' : ~ P x -> kept P l l' -> kept P (x :: l) l'.
(** only new containers *)
Definition extends (m m' : mem) : Prop :=
  m_obs m' = m_obs m /\ m_dict m' = m_dict m /\ (exists L, m_lists m' = m_lists m ++ L) /\ (exists B, m_mbs m' = m_mbs m ++ B).
(** list k is the good part of list i *)
Definition good_part (m m' : mem) (i k : nat) : Prop :=
  exists l out, nth_error (m_lists m) i = Some l /\ (length (m_lists m) <= k)%nat /\ nth_error (m_lists m') k = Some (mkCl out (cl_meta l)) /\
    kept (fun x => psf_flag m x 0) (cl_items l) out /\ out <> [].
Definition all_failed (m : mem) (i : nat) : Prop := forall x, In x (items_of (m_lists m) i) -> ~ psf_flag m x 0.
Definition known_list (m : mem) (i : nat) : Prop := Forall (known m) (items_of (m_lists m) i).
(** observations with the results of their fits *)
Definition succeeded (p : nat * rslt) : bool := match r_flags (snd p) with Some 0%Z => true | _ => false end.
End Spec.
Arguments target {rslt}. Arguments targets {rslt}. Arguments meta_of {rslt}. Arguments gmix_of {rslt}. Arguments result_of {rslt}.
Arguments wf_mem {rslt}. Arguments wf_arg {rslt}. Arguments same_structure {rslt}. Arguments flat {rslt}. Arguments same_shape {rslt}. Arguments last_result {rslt}.
Arguments extends {rslt}.
