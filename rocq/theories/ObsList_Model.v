(** Model of the containers of observations, ngmix/observation.py:861-1137 (ObsList,
    MultiBandObsList, get_mb_obs) and 1145-1358, 1574-1605 (KObservation.set_psf, KObsList,
    KMultiBandObsList, get_kmb_obs), on top of the memory of Obs_Model. *)
From Verif Require Import Base Pixels_Model Obs_Model.
From Coq Require Import ZArith.
Local Open Scope R_scope.

(** python classes and references to objects *)
Inductive ccls := CList | CMb | CKList | CKMb.
Inductive cls := COb | CKOb | CC (c : ccls).
Inductive ref := RObs (i : nat) | RKObs (i : nat) | RCont (i : nat) | ROther.

(** a container: an object of a subclass of list with a meta dictionary *)
Record cont := mkCont { ct_cls : ccls; ct_items : list ref; ct_meta : nat }.
(** a KObservation: shape and scale of its image and its psf; images, weights and meta
    play no role here *)
Record kobs := mkKobs { ko_shape : nat * nat; ko_scale : R; ko_psf : option nat }.
Record lmem := mkL { l_mem : mem; l_conts : list cont; l_kobs : list kobs }.
Definition empty_lmem : lmem := mkL empty_mem [] [].

Definition LM (A : Type) := lmem -> lmem * res A.
Definition lret {A} (a : A) : LM A := fun m => (m, Ok a).
Definition lfail {A} (e : exn) : LM A := fun m => (m, Raise e).
Definition lbind {A B} (x : LM A) (f : A -> LM B) : LM B :=
  fun m => match x m with (m', Ok a) => f a m' | (m', Raise e) => (m', Raise e) end.
Notation "'ldo' x '<-' a ';;' b" := (lbind a (fun x => b))
  (at level 200, x pattern, a at level 100, b at level 200, right associativity).
Definition lassert (b : bool) (e : exn) : LM unit := if b then lret tt else lfail e.
(** a computation on observations *)
Definition base {A} (x : M A) : LM A :=
  fun m => let '(m', r) := x (l_mem m) in (mkL m' (l_conts m) (l_kobs m), r).

Definition get_cont (l : nat) : LM cont :=
  fun m => match nth_error (l_conts m) l with Some c => (m, Ok c) | None => (m, Raise OtherError) end.
Definition push_cont (c : cont) : LM nat :=
  fun m => (mkL (l_mem m) (l_conts m ++ [c]) (l_kobs m), Ok (length (l_conts m))).
Definition put_items (l : nat) (xs : list ref) : LM unit :=
  fun m => match nth_error (l_conts m) l with
           | None => (m, Raise OtherError)
           | Some c => (mkL (l_mem m) (Jacobian_Model.upd (l_conts m) l (mkCont (ct_cls c) xs (ct_meta c))) (l_kobs m), Ok tt)
           end.

(** class of an object *)
Definition class_of (m : lmem) (r : ref) : option cls :=
  match r with
  | RObs i => if Nat.ltb i (length (m_obs (l_mem m))) then Some COb else None
  | RKObs i => if Nat.ltb i (length (l_kobs m)) then Some CKOb else None
  | RCont l => option_map (fun c => CC (ct_cls c)) (nth_error (l_conts m) l)
  | ROther => None
  end.
Definition cls_eqb (a b : cls) : bool :=
  match a, b with
  | COb, COb | CKOb, CKOb | CC CList, CC CList | CC CMb, CC CMb | CC CKList, CC CKList | CC CKMb, CC CKMb => true
  | _, _ => false
  end.
Definition isinstance (r : ref) (c : cls) : LM bool :=
  fun m => (m, Ok match class_of m r with Some c' => cls_eqb c c' | None => false end).

(** class the elements must have *)
Definition elem (c : ccls) : cls :=
  match c with CList => COb | CMb => CC CList | CKList => CKOb | CKMb => CC CKList end.

(** ngmix/observation.py:873-876, 993-996, 1285-1288, 1330-1333 __init__ *)
Definition new_cont (c : ccls) (meta : arg_meta) : LM nat :=
  ldo d <- base (meta_value meta) ;;
  push_cont (mkCont c [] d).

(** ngmix/observation.py:878-892, 998-1012, 1290-1306, 1335-1349 append *)
Definition append (l : nat) (x : ref) : LM unit :=
  ldo c <- get_cont l ;;
  ldo b <- isinstance x (elem (ct_cls c)) ;;
  ldo _ <- lassert b AssertionError ;;
  put_items l (ct_items c ++ [x]).

(** an index of a list: an integer, negative ones count from the end *)
Definition list_index (n : nat) (i : Z) : option nat :=
  (if 0 <=? i then if i <? Z.of_nat n then Some (Z.to_nat i) else None
   else if - Z.of_nat n <=? i then Some (Z.to_nat (Z.of_nat n + i)) else None)%Z.
(** ngmix/observation.py:971-977, 1093-1100, 1308-1315, 1351-1358 __setitem__ with an integer *)
Definition setitem (l : nat) (i : Z) (x : ref) : LM unit :=
  ldo c <- get_cont l ;;
  ldo b <- isinstance x (elem (ct_cls c)) ;;
  ldo _ <- lassert b AssertionError ;;
  match list_index (length (ct_items c)) i with
  | None => lfail IndexError
  | Some k => put_items l (Jacobian_Model.upd (ct_items c) k x)
  end.
(** __setitem__ with a slice a:b, a <= b <= length: after the same check list.__setitem__
    replaces the slice by the elements of x; observations cannot be iterated over *)
Definition setslice (l a b : nat) (x : ref) : LM unit :=
  ldo c <- get_cont l ;;
  ldo t <- isinstance x (elem (ct_cls c)) ;;
  ldo _ <- lassert t AssertionError ;;
  match x with
  | RCont k =>
      ldo xs <- get_cont k ;;
      put_items l (firstn a (ct_items c) ++ ct_items xs ++ skipn b (ct_items c))
  | _ => lfail TypeError
  end.
(** inherited from list: extend, insert; += is extend *)
Definition extend (l : nat) (xs : list ref) : LM unit :=
  ldo c <- get_cont l ;; put_items l (ct_items c ++ xs).
Definition insert (l k : nat) (x : ref) : LM unit :=
  ldo c <- get_cont l ;; put_items l (firstn k (ct_items c) ++ x :: skipn k (ct_items c)).

Fixpoint copy_items (copy : ref -> LM ref) (l : nat) (xs : list ref) : LM unit :=
  match xs with
  | [] => lret tt
  | x :: xs => ldo x' <- copy x ;; ldo _ <- append l x' ;; copy_items copy l xs
  end.
(** ngmix/observation.py:942-949, 1062-1071 copy.  A list can only contain itself after a
    use of the inherited methods; python then raises RecursionError.  KObsList and
    KMultiBandObsList inherit list.copy, which has no argument memo; called without it
    they return a plain list, which is not modelled. *)
Fixpoint copy_ref (depth : nat) (x : ref) : LM ref :=
  match depth with
  | O => lfail RuntimeError
  | S depth =>
      match x with
      | RObs i => ldo i' <- base (fun m => copy_obs (length (m_obs m)) i m) ;; lret (RObs i')
      | RCont l =>
          ldo c <- get_cont l ;;
          match ct_cls c with
          | CList | CMb =>
              ldo d <- base (get_meta (ct_meta c)) ;;
              ldo d' <- base (new_meta d) ;;
              ldo l' <- push_cont (mkCont (ct_cls c) [] d') ;;
              ldo _ <- copy_items (copy_ref depth) l' (ct_items c) ;;
              lret (RCont l')
          | _ => lfail TypeError
          end
      | RKObs _ | ROther => lfail AttributeError
      end
  end.

(** ngmix/observation.py:1103-1137 get_mb_obs; 1574-1605 get_kmb_obs *)
Definition to_multiband (co : cls) (cl cm : ccls) (x : ref) : LM ref :=
  ldo a <- isinstance x co ;;
  if a then
    ldo l <- new_cont cl DNone ;;
    ldo _ <- append l x ;;
    ldo b <- new_cont cm DNone ;;
    ldo _ <- append b (RCont l) ;;
    lret (RCont b)
  else
  ldo a <- isinstance x (CC cl) ;;
  if a then
    ldo b <- new_cont cm DNone ;;
    ldo _ <- append b x ;;
    lret (RCont b)
  else
  ldo a <- isinstance x (CC cm) ;;
  if a then lret x else lfail ValueError.
Definition get_mb_obs : ref -> LM ref := to_multiband COb CList CMb.
Definition get_kmb_obs : ref -> LM ref := to_multiband CKOb CKList CKMb.

(** np.allclose with its default tolerances *)
Definition allclose (a b : R) : bool := Rleb (Rabs (a - b)) (/ 10 ^ 8 + / 10 ^ 5 * Rabs b).
Definition get_kobs (i : nat) : LM kobs :=
  fun m => match nth_error (l_kobs m) i with Some c => (m, Ok c) | None => (m, Raise OtherError) end.
Definition put_kpsf (i : nat) (p : option nat) : LM unit :=
  fun m => match nth_error (l_kobs m) i with
           | None => (m, Raise OtherError)
           | Some k => (mkL (l_mem m) (l_conts m) (Jacobian_Model.upd (l_kobs m) i (mkKobs (ko_shape k) (ko_scale k) p)), Ok tt)
           end.
(** ngmix/observation.py:1224-1247 KObservation.set_psf: the new psf is assigned before its
    shape and scale are compared *)
Definition kset_psf (i : nat) (p : option ref) : LM unit :=
  ldo _ <- put_kpsf i None ;;
  match p with
  | None => lret tt
  | Some x =>
      ldo b <- isinstance x CKOb ;;
      ldo _ <- lassert b AssertionError ;;
      match x with
      | RKObs k =>
          ldo _ <- put_kpsf i (Some k) ;;
          ldo me <- get_kobs i ;;
          ldo you <- get_kobs k ;;
          ldo _ <- lassert (shape_eqb (ko_shape you) (ko_shape me)) ValueError ;;
          lassert (allclose (ko_scale you) (ko_scale me)) AssertionError
      | _ => lfail AssertionError (* not reached *)
      end
  end.
(** ngmix/observation.py:1161-1175 the constructor, without images, weights and meta.  When
    set_psf raises, the new object stays in the memory but nothing refers to it. *)
Definition new_kobs (shape : nat * nat) (scale : R) (p : option ref) : LM nat :=
  ldo i <- (fun m => (mkL (l_mem m) (l_conts m) (l_kobs m ++ [mkKobs shape scale None]), Ok (length (l_kobs m)))) ;;
  ldo _ <- kset_psf i p ;;
  lret i.

Inductive lop :=
| LBase (o : op)
| LNew (c : ccls) (meta : arg_meta)
| LAppend (l : nat) (x : ref)
| LSetItem (l : nat) (i : Z) (x : ref)
| LSetSlice (l a b : nat) (x : ref)
| LExtend (l : nat) (xs : list ref)
| LInsert (l k : nat) (x : ref)
| LCopy (l : nat)
| LGetMb (x : ref)
| LGetKMb (x : ref)
| LNewK (shape : nat * nat) (scale : R) (p : option ref)
| LSetPsfK (i : nat) (p : option ref).

Definition done (x : LM unit) : LM ref := ldo _ <- x ;; lret ROther.
Definition lstep (o : lop) : LM ref :=
  match o with
  | LBase o => ldo i <- base (step o) ;; lret ROther
  | LNew c d => ldo l <- new_cont c d ;; lret (RCont l)
  | LAppend l x => done (append l x)
  | LSetItem l i x => done (setitem l i x)
  | LSetSlice l a b x => done (setslice l a b x)
  | LExtend l xs => done (extend l xs)
  | LInsert l k x => done (insert l k x)
  | LCopy l => fun m => copy_ref (S (S (length (l_conts m)))) (RCont l) m
  | LGetMb x => get_mb_obs x
  | LGetKMb x => get_kmb_obs x
  | LNewK s c p => ldo i <- new_kobs s c p ;; lret (RKObs i)
  | LSetPsfK i p => done (kset_psf i p)
  end.
Fixpoint lexec (m : lmem) (p : list lop) : lmem :=
  match p with [] => m | o :: p => lexec (fst (lstep o m)) p end.

(** ---- signal to noise ---- *)

(** the pixels np.where(weight > 0) in order *)
Definition good_pixels (im w : arr2 R) : list (R * R) :=
  filter (fun x => Rltb 0 (snd x))
    (flat_map (fun r => map (fun c => (at2 im r c, at2 w r c)) (seq 0 (ncol w))) (seq 0 (nrow w))).
(** ngmix/observation.py:646-676 Observation.get_s2n_sums *)
Definition obs_sums (im w : arr2 R) : R * R * nat :=
  let l := good_pixels im w in
  if Nat.ltb 0 (length l)
  then (fold_left Rplus (map fst l) 0, fold_left Rplus (map (fun x => 1 / snd x) l) 0, length l)
  else (0, 0, 0%nat).
Definition obsval_sums (v : obsval) : R * R * nat := let '(OV im w _ _ _ _ _ _ _) := v in obs_sums im w.
(** ngmix/observation.py:913-940 and 1034-1060 get_s2n_sums of the lists *)
Definition add_sums {A} (sums : A -> R * R * nat) (l : list A) : R * R * nat :=
  fold_left (fun acc x => let '(i, v, n) := acc in let '(ti, tv, tn) := sums x in (i + ti, v + tv, (n + tn)%nat))
    l (0, 0, 0%nat).
Definition obslist_sums : list obsval -> R * R * nat := add_sums obsval_sums.
Definition mbobs_sums : list (list obsval) -> R * R * nat := add_sums obslist_sums.
(** ngmix/observation.py:627-644, 894-911, 1014-1032 get_s2n *)
Definition s2n (s : R * R * nat) : R :=
  let '(i, v, _) := s in if Rltb 0 v then i / sqrt v else -9999.
