(** Model of ngmix/joint_prior.py: joint priors on all the parameters of a fit.

    The priors of the single parameters are objects with the methods of Priors_Model, so
    priors written by users are covered too.  A sampler is any function of the state of the
    random generator.  get_widths is in Widths_Model; __repr__ is not modelled. *)
From Verif Require Import Base XReal Pixels_Model Priors_Model.
Local Open Scope R_scope.

(** the flux prior given by the user *)
Inductive farg := FOne (p : p1obj) | FList (l : list p1obj) | FTuple (l : list p1obj).

(** pars[i] *)
Definition item (pars : list xr) (i : nat) : res xr :=
  match nth_error pars i with Some x => Ok x | None => Raise IndexError end.
Definition on1 (f : xr -> res xr) (pars : list xr) (i : nat) : res xr :=
  let* x := item pars i in f x.
Definition on2 {A} (f : xr -> xr -> res A) (pars : list xr) (i j : nat) : res A :=
  let* x := item pars i in let* y := item pars j in f x y.

(** lnp = first term; lnp += each of the others, in order *)
Definition add_terms (l : list (res xr)) : res xr :=
  let* vs := mapM (fun t => t) l in
  match vs with [] => Raise OtherError (* not reached *) | v :: vs => Ok (fold_left xadd vs v) end.

(** fdiff[index] = value; index += 1 for each value of each term, in order *)
Definition write_terms (l : list (res (list xr))) (fdiff : list xr) : res (list xr * nat) :=
  foldM (fun (st : list xr * nat) t =>
    let* vs := t in
    foldM (fun (st : list xr * nat) v => let (fd, i) := st in
                       if Nat.ltb i (length fd) then Ok (Jacobian_Model.upd fd i v, S i) else Raise IndexError)
          vs st)
    l (fdiff, 0%nat).
(** chi2 = -2*fdiff[0:index]; clip; fdiff[0:index] = sqrt(chi2); return index *)
Definition sqrt_front (st : list xr * nat) : list xr * nat :=
  let (fd, n) := st in
  (map (fun v => xsqrt (xclip0 (xmul (Fin (-2)) v))) (firstn n fd) ++ skipn n fd, n).
Definition one (t : res xr) : res (list xr) := rmap (fun x => [x]) t.

(** pars[:, i] *)
Definition column (pars : arr2 xr) (i : nat) : res (list xr) :=
  if Nat.ltb i (ncol pars) then Ok (map (fun r => at2 pars r i) (seq 0 (nrow pars))) else Raise IndexError.
Definition on1a (f : list xr -> res aval) (pars : arr2 xr) (i : nat) : res aval :=
  let* c := column pars i in f c.
Definition on2a (f : list (xr * xr) -> res aval) (pars : arr2 xr) (i j : nat) : res aval :=
  let* a := column pars i in let* b := column pars j in f (combine a b).
(** lnp += a, in place: the array lnp keeps its shape *)
Definition aadd (a b : aval) : res aval :=
  match a, b with
  | AArray l, AArray m => if Nat.eqb (length l) (length m)
                          then Ok (AArray (map (fun p => xadd (fst p) (snd p)) (combine l m)))
                          else Raise ValueError
  | AArray l, AScalar x => Ok (AArray (map (fun y => xadd y x) l))
  | AScalar x, AScalar y => Ok (AScalar (xadd x y))
  | AScalar x, AArray m => Ok (AArray (map (xadd x) m))
  end.
Definition add_arrays (l : list (res aval)) : res aval :=
  match l with
  | [] => Raise OtherError (* not reached *)
  | t :: ts => let* a := t in foldM (fun acc t => let* b := t in aadd acc b) ts a
  end.

(** a bound in the list given to the fitter: (lower, upper), or a list holding one pair *)
Inductive bentry := BPair (lo hi : option R) | BNested (lo hi : option R).
Definition bounds_of (p : p1obj) : option R * option R :=
  match p1_bounds p with Some (a, b) => (Some a, Some b) | None => (None, None) end.
Definition has_bounds (p : p1obj) : bool := match p1_bounds p with Some _ => true | None => false end.
Definition no_bound : bentry := BPair None None.
(** the loops of lines 50-59, 330-339, 532-541, 725-734 *)
Definition list_bounds (allp : list p1obj) : option (list bentry) :=
  let bounds := repeat no_bound 4 ++ map (fun p => BPair (fst (bounds_of p)) (snd (bounds_of p))) allp in
  if existsb has_bounds allp then Some bounds else None.

Definition enum_from {A B} (f : A -> nat -> B) (start : nat) (l : list A) : list B :=
  map (fun p => f (fst p) (start + snd p)%nat) (combine l (seq 0 (length l))).

(** ** ngmix/joint_prior.py:5-236 PriorSimpleSep (and 239-264 PriorGalsimSimpleSep) *)
Record simplesep := mkSS
  { ss_cen : cenprior; ss_g : p2obj; ss_T : p1obj; ss_F : list p1obj; ss_bounds : option (list bentry) }.
(** ngmix/joint_prior.py:21-35; a tuple is taken as one prior, and has no has_bounds *)
Definition simple_init (cen : cenprior) (g : p2obj) (T : p1obj) (F : farg) : res simplesep :=
  match F with
  | FOne p => Ok (mkSS cen g T [p] (list_bounds ([T] ++ [p])))
  | FList l => Ok (mkSS cen g T l (list_bounds ([T] ++ l)))
  | FTuple _ => Raise AttributeError
  end.
(** ngmix/joint_prior.py:136-153 *)
Definition simple_lnprob (P : simplesep) (pars : list xr) : res xr :=
  add_terms ([on2 (fun x y => Ok (cen_lnprob_scalar (ss_cen P) x y)) pars 0 1;
              on2 (p2_lnprob (ss_g P)) pars 2 3;
              on1 (p1_lnprob (ss_T P)) pars 4]
             ++ enum_from (fun F i => on1 (p1_lnprob F) pars i) 5 (ss_F P)).
(** ngmix/joint_prior.py:122-134 *)
Definition simple_prob (P : simplesep) (pars : list xr) : res xr :=
  let* lnp := simple_lnprob P pars in Ok (xexp lnp).
Definition cen_sep (c : cenprior) (pars : list xr) : res (list xr) :=
  on2 (fun x y => let (a, b) := cen_lnprob_scalar_sep c x y in Ok [a; b]) pars 0 1.
Definition cen_fd (c : cenprior) (pars : list xr) : res (list xr) :=
  on2 (fun x y => let (a, b) := cen_fdiff c x y in Ok [a; b]) pars 0 1.
(** ngmix/joint_prior.py:86-120 *)
Definition simple_fill_fdiff (P : simplesep) (pars fdiff : list xr) : res (list xr * nat) :=
  rmap sqrt_front
    (write_terms ([cen_sep (ss_cen P) pars;
                   one (on2 (p2_lnprob (ss_g P)) pars 2 3);
                   one (on1 (p1_lnprob (ss_T P)) pars 4)]
                  ++ enum_from (fun F i => one (on1 (p1_lnprob F) pars i)) 5 (ss_F P)) fdiff).
(** ngmix/joint_prior.py:170-188 *)
Definition simple_lnprob_array (P : simplesep) (pars : arr2 xr) : res aval :=
  add_arrays ([on2a (fun xs => Ok (AArray (cen_lnprob_array (ss_cen P) xs))) pars 0 1;
               on2a (p2_lnprob_array (ss_g P)) pars 2 3;
               on1a (p1_lnprob_array (ss_T P)) pars 4]
              ++ enum_from (fun F i => on1a (p1_lnprob_array F) pars i) 5 (ss_F P)).

(** ** ngmix/joint_prior.py:267-481 PriorBDSep *)
Record bdsep := mkBD
  { bd_cen : cenprior; bd_g : p2obj; bd_T : p1obj; bd_logTratio : p1obj; bd_fracdev : p1obj;
    bd_F : list p1obj; bd_bounds : option (list bentry) }.
(** ngmix/joint_prior.py:287-311; a tuple passes the test of line 303 and then cannot be added to a list,
    line 324 *)
Definition bd_init (cen : cenprior) (g : p2obj) (T Tr fd : p1obj) (F : farg) : res bdsep :=
  match F with
  | FOne p => Ok (mkBD cen g T Tr fd [p] (list_bounds ([T; Tr; fd] ++ [p])))
  | FList l => Ok (mkBD cen g T Tr fd l (list_bounds ([T; Tr; fd] ++ l)))
  | FTuple _ => Raise TypeError
  end.
(** ngmix/joint_prior.py:343-362 *)
Definition bd_lnprob (P : bdsep) (pars : list xr) : res xr :=
  add_terms ([on2 (fun x y => Ok (cen_lnprob_scalar (bd_cen P) x y)) pars 0 1;
              on2 (p2_lnprob (bd_g P)) pars 2 3;
              on1 (p1_lnprob (bd_T P)) pars 4;
              on1 (p1_lnprob (bd_logTratio P)) pars 5;
              on1 (p1_lnprob (bd_fracdev P)) pars 6]
             ++ enum_from (fun F i => on1 (p1_lnprob F) pars i) 7 (bd_F P)).
(** ngmix/joint_prior.py:364-401 *)
Definition bd_fill_fdiff (P : bdsep) (pars fdiff : list xr) : res (list xr * nat) :=
  write_terms ([cen_fd (bd_cen P) pars;
                one (on2 (p2_fdiff (bd_g P)) pars 2 3);
                one (on1 (p1_fdiff (bd_T P)) pars 4);
                one (on1 (p1_fdiff (bd_logTratio P)) pars 5);
                one (on1 (p1_fdiff (bd_fracdev P)) pars 6)]
               ++ enum_from (fun F i => one (on1 (p1_fdiff F) pars i)) 7 (bd_F P)) fdiff.
(** ngmix/joint_prior.py:403-423 *)
Definition bd_lnprob_array (P : bdsep) (pars : arr2 xr) : res aval :=
  add_arrays ([on2a (fun xs => Ok (AArray (cen_lnprob_array (bd_cen P) xs))) pars 0 1;
               on2a (p2_lnprob_array (bd_g P)) pars 2 3;
               on1a (p1_lnprob_array (bd_T P)) pars 4;
               on1a (p1_lnprob_array (bd_logTratio P)) pars 5;
               on1a (p1_lnprob_array (bd_fracdev P)) pars 6]
              ++ enum_from (fun F i => on1a (p1_lnprob_array F) pars i) 7 (bd_F P)).

(** ** ngmix/joint_prior.py:484-674 PriorBDFSep *)
Record bdfsep := mkBDF
  { bf_cen : cenprior; bf_g : p2obj; bf_T : p1obj; bf_fracdev : p1obj;
    bf_F : list p1obj; bf_bounds : option (list bentry) }.
(** ngmix/joint_prior.py:502-517 *)
Definition bdf_init (cen : cenprior) (g : p2obj) (T fd : p1obj) (F : farg) : res bdfsep :=
  match F with
  | FOne p => Ok (mkBDF cen g T fd [p] (list_bounds ([T; fd] ++ [p])))
  | FList l => Ok (mkBDF cen g T fd l (list_bounds ([T; fd] ++ l)))
  | FTuple _ => Raise TypeError
  end.
(** ngmix/joint_prior.py:545-563 *)
Definition bdf_lnprob (P : bdfsep) (pars : list xr) : res xr :=
  add_terms ([on2 (fun x y => Ok (cen_lnprob_scalar (bf_cen P) x y)) pars 0 1;
              on2 (p2_lnprob (bf_g P)) pars 2 3;
              on1 (p1_lnprob (bf_T P)) pars 4;
              on1 (p1_lnprob (bf_fracdev P)) pars 5]
             ++ enum_from (fun F i => on1 (p1_lnprob F) pars i) 6 (bf_F P)).
(** ngmix/joint_prior.py:565-599 *)
Definition bdf_fill_fdiff (P : bdfsep) (pars fdiff : list xr) : res (list xr * nat) :=
  write_terms ([cen_fd (bf_cen P) pars;
                one (on2 (p2_fdiff (bf_g P)) pars 2 3);
                one (on1 (p1_fdiff (bf_T P)) pars 4);
                one (on1 (p1_fdiff (bf_fracdev P)) pars 5)]
               ++ enum_from (fun F i => one (on1 (p1_fdiff F) pars i)) 6 (bf_F P)) fdiff.
(** ngmix/joint_prior.py:601-620 *)
Definition bdf_lnprob_array (P : bdfsep) (pars : arr2 xr) : res aval :=
  add_arrays ([on2a (fun xs => Ok (AArray (cen_lnprob_array (bf_cen P) xs))) pars 0 1;
               on2a (p2_lnprob_array (bf_g P)) pars 2 3;
               on1a (p1_lnprob_array (bf_T P)) pars 4;
               on1a (p1_lnprob_array (bf_fracdev P)) pars 5]
              ++ enum_from (fun F i => on1a (p1_lnprob_array F) pars i) 6 (bf_F P)).

(** ** ngmix/joint_prior.py:677-871 PriorSpergelSep *)
Record spergelsep := mkSp
  { sp_cen : cenprior; sp_g : p2obj; sp_r50 : p1obj; sp_nu : p1obj;
    sp_F : list p1obj; sp_bounds : option (list bentry) }.
(** ngmix/joint_prior.py:695-710 *)
Definition spergel_init (cen : cenprior) (g : p2obj) (r50 nu : p1obj) (F : farg) : res spergelsep :=
  match F with
  | FOne p => Ok (mkSp cen g r50 nu [p] (list_bounds ([r50; nu] ++ [p])))
  | FList l => Ok (mkSp cen g r50 nu l (list_bounds ([r50; nu] ++ l)))
  | FTuple _ => Raise AttributeError
  end.
(** ngmix/joint_prior.py:738-756 *)
Definition spergel_lnprob (P : spergelsep) (pars : list xr) : res xr :=
  add_terms ([on2 (fun x y => Ok (cen_lnprob_scalar (sp_cen P) x y)) pars 0 1;
              on2 (p2_lnprob (sp_g P)) pars 2 3;
              on1 (p1_lnprob (sp_r50 P)) pars 4;
              on1 (p1_lnprob (sp_nu P)) pars 5]
             ++ enum_from (fun F i => on1 (p1_lnprob F) pars i) 6 (sp_F P)).
(** ngmix/joint_prior.py:758-795 *)
Definition spergel_fill_fdiff (P : spergelsep) (pars fdiff : list xr) : res (list xr * nat) :=
  rmap sqrt_front
    (write_terms ([cen_sep (sp_cen P) pars;
                   one (on2 (p2_lnprob (sp_g P)) pars 2 3);
                   one (on1 (p1_lnprob (sp_r50 P)) pars 4);
                   one (on1 (p1_lnprob (sp_nu P)) pars 5)]
                  ++ enum_from (fun F i => one (on1 (p1_lnprob F) pars i)) 6 (sp_F P)) fdiff).
(** ngmix/joint_prior.py:797-816 *)
Definition spergel_lnprob_array (P : spergelsep) (pars : arr2 xr) : res aval :=
  add_arrays ([on2a (fun xs => Ok (AArray (cen_lnprob_array (sp_cen P) xs))) pars 0 1;
               on2a (p2_lnprob_array (sp_g P)) pars 2 3;
               on1a (p1_lnprob_array (sp_r50 P)) pars 4;
               on1a (p1_lnprob_array (sp_nu P)) pars 5]
              ++ enum_from (fun F i => on1a (p1_lnprob_array F) pars i) 6 (sp_F P)).

(** ** ngmix/joint_prior.py:874-1031 PriorCoellipSame: a simple prior with ngauss *)
Record coellip := mkCo { co_ngauss : nat; co_npars : nat; co_base : simplesep }.
(** ngmix/joint_prior.py:887-917 *)
Definition coellip_bounds (ngauss : nat) (T : p1obj) (Fs : list p1obj) : option (list bentry) :=
  let allp := repeat T ngauss ++ Fs in
  let bounds := repeat no_bound 4 ++
    flat_map (fun p => repeat (BNested (fst (bounds_of p)) (snd (bounds_of p))) ngauss) allp in
  if existsb has_bounds allp then Some bounds else None.
(** ngmix/joint_prior.py:875-885; npars of ngmix/gmix/gmix.py:1193-1194 *)
Definition coellip_init (ngauss : nat) (cen : cenprior) (g : p2obj) (T : p1obj) (F : farg) : res coellip :=
  let* l := match F with
            | FOne p => Ok [p] | FList l => Ok l | FTuple _ => Raise AttributeError end in
  let base := mkSS cen g T l (coellip_bounds ngauss T l) in
  if Nat.eqb (length l) 1 then Ok (mkCo ngauss (4 + 2 * ngauss) base) else Raise ValueError.
(** F_priors[0] *)
Definition first_F (P : coellip) : res p1obj :=
  match ss_F (co_base P) with p :: _ => Ok p | [] => Raise IndexError end.
(** ngmix/joint_prior.py:919-944 *)
Definition coellip_lnprob (P : coellip) (pars : list xr) : res xr :=
  let B := co_base P in
  if negb (Nat.eqb (length pars) (co_npars P)) then Raise ValueError else
  add_terms ([on2 (fun x y => Ok (cen_lnprob_scalar (ss_cen B) x y)) pars 0 1;
              on2 (p2_lnprob (ss_g B)) pars 2 3]
             ++ map (fun i => on1 (p1_lnprob (ss_T B)) pars (4 + i)) (seq 0 (co_ngauss P))
             ++ map (fun i => let* F := first_F P in on1 (p1_lnprob F) pars (4 + co_ngauss P + i))
                    (seq 0 (co_ngauss P))).
(** ngmix/joint_prior.py:946-990 *)
Definition coellip_fill_fdiff (P : coellip) (pars fdiff : list xr) : res (list xr * nat) :=
  let B := co_base P in
  if negb (Nat.eqb (length pars) (co_npars P)) then Raise ValueError else
  rmap sqrt_front
    (write_terms ([cen_sep (ss_cen B) pars;
                   one (on2 (p2_lnprob (ss_g B)) pars 2 3)]
                  ++ map (fun i => one (on1 (p1_lnprob (ss_T B)) pars (4 + i))) (seq 0 (co_ngauss P))
                  ++ map (fun i => one (let* F := first_F P in on1 (p1_lnprob F) pars (4 + co_ngauss P + i)))
                         (seq 0 (co_ngauss P))) fdiff).
(** inherited from PriorSimpleSep, lines 170-188 *)
Definition coellip_lnprob_array (P : coellip) (pars : arr2 xr) : res aval :=
  simple_lnprob_array (co_base P) pars.

(** ** Sampling *)
Section Sample.
Variable W : Type.
(** prior.sample(nrand), cen_prior.sample(nrand), g_prior.sample2d(nrand): the new state of
    the generator and nrand values *)
Definition sampler1 := W -> nat -> W * list R.
Definition sampler2 := W -> nat -> W * (list R * list R).
(** samples[:, j] = vals on an array of zeros; columns in the order they are drawn *)
Definition set_col (m : arr2 R) (j : nat) (vals : list R) : arr2 R :=
  mkArr (nrow m) (ncol m) (fun r c => if Nat.eqb c j then nth r vals 0 else at2 m r c).
Definition add_col (m : arr2 R) (j : nat) (vals : list R) : arr2 R :=
  mkArr (nrow m) (ncol m) (fun r c => if Nat.eqb c j then at2 m r c + nth r vals 0 else at2 m r c).
Definition zeros2 (n m : nat) : arr2 R := mkArr n m (fun _ _ => 0).
(** draw from the samplers one after the other *)
Fixpoint draw_all (l : list sampler1) (w : W) (n : nat) : W * list (list R) :=
  match l with
  | [] => (w, [])
  | s :: l => let (w, v) := s w n in let (w, vs) := draw_all l w n in (w, v :: vs)
  end.
Definition set_cols (m : arr2 R) (start : nat) (vs : list (list R)) : arr2 R :=
  fold_left (fun m p => set_col m (start + snd p) (fst p)) (combine vs (seq 0 (length vs))) m.
(** ngmix/joint_prior.py:190-226, 425-465, 622-659, 818-856: cen, g, then the size parameters [mid]
    (T, or T logTratio fracdev, or T fracdev, or r50 nu), then the fluxes, for nrand given; without
    nrand the code draws one sample and returns its row *)
Definition sep_sample (cen g : sampler2) (mid Fs : list sampler1) (w : W) (nrand : nat) : W * arr2 R :=
  let (w, c) := cen w nrand in
  let (w, gs) := g w nrand in
  let (w, ms) := draw_all mid w nrand in
  let m := zeros2 nrand (4 + length mid + length Fs) in
  let m := set_col m 0 (fst c) in
  let m := set_col m 1 (snd c) in
  let m := set_col m 2 (fst gs) in
  let m := set_col m 3 (snd gs) in
  let m := set_cols m 4 ms in
  let (w, fs) := draw_all Fs w nrand in
  (w, set_cols m (4 + length mid) fs).
(** ngmix/joint_prior.py:992-1031; ngauss is at least one *)
Definition coellip_sample (ngauss : nat) (cen g : sampler2) (T F : sampler1) (w : W) (nrand : nat) : W * arr2 R :=
  let (w, c) := cen w nrand in
  let (w, gs) := g w nrand in
  let (w, t) := T w nrand in
  let m := zeros2 nrand (4 + 2 * ngauss) in
  let m := set_col m 0 (fst c) in
  let m := set_col m 1 (snd c) in
  let m := set_col m 2 (fst gs) in
  let m := set_col m 3 (snd gs) in
  let m := set_col m 4 t in
  let (w, m) := fold_left (fun (st : W * arr2 R) i => let (w, m) := st in
                                       let (w, t) := T w nrand in (w, add_col m (4 + i) t))
                          (seq 0 ngauss) (w, m) in
  fold_left (fun (st : W * arr2 R) i => let (w, m) := st in
                         let (w, f) := F w nrand in (w, set_col m (4 + ngauss + i) f))
            (seq 0 ngauss) (w, m).
End Sample.
Arguments sep_sample {W} _ _ _ _ _ _.
Arguments coellip_sample {W} _ _ _ _ _ _ _.
Arguments draw_all {W} _ _ _.
