(** Model of class Observation of ngmix/observation.py: numpy arrays as references into
    memory buffers, observations as objects that refer to arrays, and every public
    operation that reads or changes them.  A computation is a function from the memory to
    the new memory and a result; the memory survives exceptions. *)
From Verif Require Import Base Jacobian_Model Pixels_Model.
From Verif Require GMixObj_Model.
From Coq Require String.

Definition gmobj := GMixObj_Model.gmobj.
Definition gm_copy := GMixObj_Model.obj_copy.

(** ---- memory ---- *)

(** what a buffer holds: a 2-d array, the structured array of a Jacobian, or an array
    with another number of dimensions.  The dtype of bitmasks etc. plays no role. *)
Inductive content := C2 (im : arr2 R) | CJ (j : jac) | CN (ndim : nat) (data : list R).

(** b_own: WRITEABLE flag of the array that owns the memory *)
Record buf := mkBuf { b_data : content; b_own : bool }.
(** a python ndarray object: the buffer it looks at and its WRITEABLE flag *)
Record arr := mkAr { a_buf : nat; a_w : bool }.

(** a metadata dictionary; values are strings, nested mutable values are not modelled *)
Definition dict := list (String.string * String.string).

(** the optional image attributes *)
Inductive slot := SBmask | SOrmask | SNoise | SMfrac.
Definition slot_eqb (a b : slot) : bool :=
  match a, b with
  | SBmask, SBmask | SOrmask, SOrmask | SNoise, SNoise | SMfrac, SMfrac => true
  | _, _ => false
  end.

(** attributes of an Observation; arrays, psf and meta are references *)
Record obs := mkObs {
  ob_image : nat; ob_weight : nat; ob_jac : nat;
  ob_opt : slot -> option nat;
  ob_gmix : option gmobj; ob_psf : option nat; ob_meta : nat;
  ob_store : bool; ob_ign : bool; ob_wr : bool;
  ob_pix : option (list (pixel R)) }.

Record mem := mkMem { m_bufs : list buf; m_arrs : list arr; m_metas : list dict; m_obs : list obs }.
Definition empty_mem : mem := mkMem [] [] [] [].

Definition M (A : Type) := mem -> mem * res A.
Definition ret {A} (a : A) : M A := fun m => (m, Ok a).
Definition fail {A} (e : exn) : M A := fun m => (m, Raise e).
Definition bindM {A B} (x : M A) (f : A -> M B) : M B :=
  fun m => match x m with (m', Ok a) => f a m' | (m', Raise e) => (m', Raise e) end.
Notation "'do' x '<-' a ';;' b" := (bindM a (fun x => b))
  (at level 200, x pattern, a at level 100, b at level 200, right associativity).
Definition lift {A} (r : res A) : M A := fun m => (m, r).
Definition assert (b : bool) (e : exn) : M unit := if b then ret tt else fail e.

(** a name that refers to nothing: no such python object, NameError *)
Definition get_arr (a : nat) : M arr :=
  fun m => match nth_error (m_arrs m) a with Some x => (m, Ok x) | None => (m, Raise OtherError) end.
Definition get_obs (i : nat) : M obs :=
  fun m => match nth_error (m_obs m) i with Some x => (m, Ok x) | None => (m, Raise OtherError) end.
Definition get_meta (i : nat) : M dict :=
  fun m => match nth_error (m_metas m) i with Some x => (m, Ok x) | None => (m, Raise OtherError) end.
Definition get_buf (b : nat) : M buf :=
  fun m => match nth_error (m_bufs m) b with Some x => (m, Ok x) | None => (m, Raise OtherError) end.
Definition put_obs (i : nat) (o : obs) : M unit :=
  fun m => (mkMem (m_bufs m) (m_arrs m) (m_metas m) (upd (m_obs m) i o), Ok tt).
Definition push_obs (o : obs) : M nat :=
  fun m => (mkMem (m_bufs m) (m_arrs m) (m_metas m) (m_obs m ++ [o]), Ok (length (m_obs m))).
(** a new array that owns its memory *)
Definition new_arr (c : content) (w : bool) : M nat :=
  fun m => (mkMem (m_bufs m ++ [mkBuf c w]) (m_arrs m ++ [mkAr (length (m_bufs m)) w]) (m_metas m) (m_obs m),
            Ok (length (m_arrs m))).
Definition new_meta (d : dict) : M nat :=
  fun m => (mkMem (m_bufs m) (m_arrs m) (m_metas m ++ [d]) (m_obs m), Ok (length (m_metas m))).
Definition put_meta (i : nat) (d : dict) : M unit :=
  fun m => (mkMem (m_bufs m) (m_arrs m) (upd (m_metas m) i d) (m_obs m), Ok tt).

Definition contents (a : nat) : M content :=
  do x <- get_arr a ;; do b <- get_buf (a_buf x) ;; ret (b_data b).

(** ---- arrays ---- *)

(** np.ascontiguousarray: the same object, unless dtype or layout require a copy *)
Definition ascontig (a : nat) (convert : bool) : M nat :=
  do c <- contents a ;;
  if convert then new_arr c true else ret a.

(** len(x.shape) == 2, and the shape *)
Definition shape2 (a : nat) : M (nat * nat) :=
  do c <- contents a ;;
  match c with C2 im => ret (nrow im, ncol im) | _ => fail AssertionError end.
Definition shape_eqb (a b : nat * nat) : bool := Nat.eqb (fst a) (fst b) && Nat.eqb (snd a) (snd b).

(** ngmix/observation.py:830-839 _get_view.  numpy refuses to set WRITEABLE on a view of
    memory whose owner is not writeable. *)
Definition get_view (a : nat) (wr : bool) : M nat :=
  do x <- get_arr a ;;
  do b <- get_buf (a_buf x) ;;
  do _ <- assert (negb wr || b_own b) ValueError ;;
  fun m => (mkMem (m_bufs m) (m_arrs m ++ [mkAr (a_buf x) wr]) (m_metas m) (m_obs m), Ok (length (m_arrs m))).

(** self.image used internally: the view is dropped at once, only its failure matters *)
Definition view_check (a : nat) (wr : bool) : M unit :=
  do x <- get_arr a ;; do b <- get_buf (a_buf x) ;; assert (negb wr || b_own b) ValueError.

(** in-place assignment x[...] = c, through any ndarray object.  For the array of a
    Jacobian the public interface only changes the centre (set_cen). *)
Definition overwrite (old c : content) : option content :=
  match old, c with
  | C2 a, C2 b => if shape_eqb (nrow a, ncol a) (nrow b, ncol b) then Some c else None
  | CJ a, CJ b => Some (CJ (set_col0 (set_row0 a (row0 b)) (col0 b)))
  | CN n a, CN k b => if Nat.eqb n k && Nat.eqb (length a) (length b) then Some c else None
  | _, _ => None
  end.
Definition write_arr (a : nat) (c : content) : M unit :=
  do x <- get_arr a ;;
  do b <- get_buf (a_buf x) ;;
  do _ <- assert (a_w x) ValueError ;;
  match overwrite (b_data b) c with
  | None => fail ValueError
  | Some c' => fun m => (mkMem (upd (m_bufs m) (a_buf x) (mkBuf c' (b_own b))) (m_arrs m) (m_metas m) (m_obs m), Ok tt)
  end.

(** ---- arguments of the setters ---- *)
Inductive arg_arr := ANone | AArr (a : nat) (convert : bool).
Inductive arg_jac := JNone | JJac (j : jac) | JBad.       (* JBad: not a Jacobian *)
Inductive arg_psf := PNone | PObs (i : nat) | PBad.
Inductive arg_gmix := GNone | GObj (g : gmobj) | GBad.
Inductive arg_meta := DNone | DDict (i : nat) | DBad.

(** value assigned by set_weight, ngmix/observation.py:349-374; sh is image.shape *)
Definition weight_value (sh : nat * nat) (w : arg_arr) : M nat :=
  match w with
  | ANone => new_arr (C2 (mkArr (fst sh) (snd sh) (fun _ _ => 1))) true
  | AArr a convert =>
      do a' <- ascontig a convert ;;
      do s <- shape2 a' ;;
      do _ <- assert (shape_eqb s sh) AssertionError ;;
      ret a'
  end.
(** set_mfrac, set_bmask, set_ormask, set_noise: ngmix/observation.py:378-401, 412-435,
    446-470, 481-504 *)
Definition opt_value (sh : nat * nat) (w : arg_arr) : M (option nat) :=
  match w with
  | ANone => ret None
  | AArr a convert =>
      do a' <- ascontig a convert ;;
      do s <- shape2 a' ;;
      do _ <- assert (shape_eqb s sh) AssertionError ;;
      ret (Some a')
  end.
(** ngmix/observation.py:515-537 set_jacobian; the stored Jacobian is always a new one *)
Definition jac_value (sh : nat * nat) (j : arg_jac) : M nat :=
  match j with
  | JNone =>
      do j <- lift (UnitJacobian_init (mkKw None None (Some ((INR (fst sh) - 1) / 2)) (Some ((INR (snd sh) - 1) / 2))
                                            None None None None None None None None None)) ;;
      new_arr (CJ j) true
  | JJac j => do j' <- lift (Jacobian_copy j) ;; new_arr (CJ j') true
  | JBad => fail AssertionError
  end.
(** ngmix/observation.py:604-611 *)
Definition gmix_value (g : arg_gmix) : M (option gmobj) :=
  match g with
  | GNone => ret None
  | GObj g => do c <- lift (gm_copy g) ;; ret (Some c)
  | GBad => fail AssertionError
  end.
(** ngmix/observation.py:559-562 *)
Definition psf_value (p : arg_psf) : M (option nat) :=
  match p with
  | PNone => ret None
  | PObs i => do _ <- get_obs i ;; ret (Some i)
  | PBad => fail AssertionError
  end.
(** ngmix/observation.py:34-48 set_meta *)
Definition meta_value (d : arg_meta) : M nat :=
  match d with
  | DNone => new_meta []
  | DDict i => do _ <- get_meta i ;; ret i
  | DBad => fail TypeError
  end.

(** ngmix/observation.py:812-828 update_pixels: the new value of _pixels *)
Definition pixels_value (image weight j : nat) (store ign wr : bool) : M (option (list (pixel R))) :=
  if negb store then ret None else
  do _ <- view_check image wr ;;
  do _ <- view_check weight wr ;;
  do ci <- contents image ;;
  do cw <- contents weight ;;
  do cj <- contents j ;;
  match ci, cw, cj with
  | C2 im, C2 w, CJ jj => do l <- lift (make_pixels im w jj ign) ;; ret (Some l)
  | _, _, _ => fail OtherError  (* excluded by the checks of the setters *)
  end.

(** ---- the class ---- *)

(** ngmix/observation.py:114-154 __init__ *)
Definition new_obs (image : nat) (convert : bool) (weight bmask ormask noise : arg_arr)
    (jacobian : arg_jac) (gmix : arg_gmix) (psf : arg_psf) (meta : arg_meta) (mfrac : arg_arr)
    (store ign : bool) : M nat :=
  do a <- ascontig image convert ;;
  do sh <- shape2 a ;;
  do w <- weight_value sh weight ;;
  do j <- jac_value sh jacobian ;;
  do pix <- pixels_value a w j store ign false ;;
  do d <- meta_value meta ;;
  do bm <- opt_value sh bmask ;;
  do om <- opt_value sh ormask ;;
  do no <- opt_value sh noise ;;
  do g <- gmix_value gmix ;;
  do p <- psf_value psf ;;
  do mf <- opt_value sh mfrac ;;
  push_obs (mkObs a w j (fun s => match s with SBmask => bm | SOrmask => om | SNoise => no | SMfrac => mf end)
                  g p d store ign false pix).

Definition with_image (o : obs) (a : nat) : obs :=
  mkObs a (ob_weight o) (ob_jac o) (ob_opt o) (ob_gmix o) (ob_psf o) (ob_meta o) (ob_store o) (ob_ign o) (ob_wr o) (ob_pix o).
Definition with_weight (o : obs) (a : nat) : obs :=
  mkObs (ob_image o) a (ob_jac o) (ob_opt o) (ob_gmix o) (ob_psf o) (ob_meta o) (ob_store o) (ob_ign o) (ob_wr o) (ob_pix o).
Definition with_jac (o : obs) (a : nat) : obs :=
  mkObs (ob_image o) (ob_weight o) a (ob_opt o) (ob_gmix o) (ob_psf o) (ob_meta o) (ob_store o) (ob_ign o) (ob_wr o) (ob_pix o).
Definition with_opt (o : obs) (s : slot) (a : option nat) : obs :=
  mkObs (ob_image o) (ob_weight o) (ob_jac o) (fun s' => if slot_eqb s s' then a else ob_opt o s')
        (ob_gmix o) (ob_psf o) (ob_meta o) (ob_store o) (ob_ign o) (ob_wr o) (ob_pix o).
Definition with_gmix (o : obs) (g : option gmobj) : obs :=
  mkObs (ob_image o) (ob_weight o) (ob_jac o) (ob_opt o) g (ob_psf o) (ob_meta o) (ob_store o) (ob_ign o) (ob_wr o) (ob_pix o).
Definition with_psf (o : obs) (p : option nat) : obs :=
  mkObs (ob_image o) (ob_weight o) (ob_jac o) (ob_opt o) (ob_gmix o) p (ob_meta o) (ob_store o) (ob_ign o) (ob_wr o) (ob_pix o).
Definition with_meta (o : obs) (d : nat) : obs :=
  mkObs (ob_image o) (ob_weight o) (ob_jac o) (ob_opt o) (ob_gmix o) (ob_psf o) d (ob_store o) (ob_ign o) (ob_wr o) (ob_pix o).
Definition with_flags (o : obs) (store ign wr : bool) : obs :=
  mkObs (ob_image o) (ob_weight o) (ob_jac o) (ob_opt o) (ob_gmix o) (ob_psf o) (ob_meta o) store ign wr (ob_pix o).
Definition with_pix (o : obs) (p : option (list (pixel R))) : obs :=
  mkObs (ob_image o) (ob_weight o) (ob_jac o) (ob_opt o) (ob_gmix o) (ob_psf o) (ob_meta o) (ob_store o) (ob_ign o) (ob_wr o) p.

(** ngmix/observation.py:812-828 update_pixels *)
Definition update_pixels (i : nat) : M unit :=
  do o <- get_obs i ;;
  do p <- pixels_value (ob_image o) (ob_weight o) (ob_jac o) (ob_store o) (ob_ign o) (ob_wr o) ;;
  put_obs i (with_pix o p).

(** ngmix/observation.py:313-347 set_image on an existing observation *)
Definition set_image (i a : nat) (convert : bool) : M unit :=
  do o <- get_obs i ;;
  do a' <- ascontig a convert ;;
  do sh <- shape2 a' ;;
  do old <- shape2 (ob_image o) ;;
  do _ <- assert (shape_eqb sh old) AssertionError ;;
  do _ <- put_obs i (with_image o a') ;;
  update_pixels i.

(** ngmix/observation.py:349-376 set_weight *)
Definition set_weight (i : nat) (w : arg_arr) : M unit :=
  do o <- get_obs i ;;
  do _ <- view_check (ob_image o) (ob_wr o) ;;
  do sh <- shape2 (ob_image o) ;;
  do a <- weight_value sh w ;;
  do _ <- put_obs i (with_weight o a) ;;
  update_pixels i.

(** ngmix/observation.py:378-401, 412-435, 446-470, 481-504 *)
Definition set_opt (i : nat) (s : slot) (w : arg_arr) : M unit :=
  do o <- get_obs i ;;
  do _ <- match w with ANone => ret tt | _ => view_check (ob_image o) (ob_wr o) end ;;
  do sh <- shape2 (ob_image o) ;;
  do a <- opt_value sh w ;;
  put_obs i (with_opt o s a).

(** ngmix/observation.py:515-540 set_jacobian *)
Definition set_jacobian (i : nat) (j : arg_jac) : M unit :=
  do o <- get_obs i ;;
  do _ <- match j with JNone => view_check (ob_image o) (ob_wr o) | _ => ret tt end ;;
  do sh <- shape2 (ob_image o) ;;
  do a <- jac_value sh j ;;
  do _ <- put_obs i (with_jac o a) ;;
  update_pixels i.

(** ngmix/observation.py:552-562 set_psf: the old psf is deleted first *)
Definition set_psf (i : nat) (p : arg_psf) : M unit :=
  do o <- get_obs i ;;
  do _ <- put_obs i (with_psf o None) ;;
  do v <- psf_value p ;;
  put_obs i (with_psf o v).

(** ngmix/observation.py:595-611 set_gmix: the old gmix is deleted first *)
Definition set_gmix (i : nat) (g : arg_gmix) : M unit :=
  do o <- get_obs i ;;
  do _ <- put_obs i (with_gmix o None) ;;
  do v <- gmix_value g ;;
  put_obs i (with_gmix o v).

(** ngmix/observation.py:34-48 set_meta and 50-61 update_meta_data *)
Definition set_meta (i : nat) (d : arg_meta) : M unit :=
  do o <- get_obs i ;;
  do v <- meta_value d ;;
  put_obs i (with_meta o v).
(** dict.update: later keys win, order of first insertion kept *)
Fixpoint dict_set (d : dict) (k v : String.string) : dict :=
  match d with
  | [] => [(k, v)]
  | (k', v') :: d => if String.eqb k k' then (k, v) :: d else (k', v') :: dict_set d k v
  end.
Definition dict_update (d new : dict) : dict := fold_left (fun d kv => dict_set d (fst kv) (snd kv)) new d.
Definition update_meta (i : nat) (new : option dict) : M unit :=
  do o <- get_obs i ;;
  match new with
  | None => fail TypeError
  | Some new => do d <- get_meta (ob_meta o) ;; put_meta (ob_meta o) (dict_update d new)
  end.

(** ngmix/observation.py:785-810 setters of store_pixels and ignore_zero_weight *)
Definition set_store (i : nat) (b : bool) : M unit :=
  do o <- get_obs i ;;
  do _ <- put_obs i (with_flags o b (ob_ign o) (ob_wr o)) ;;
  if Bool.eqb b (ob_store o) then ret tt else update_pixels i.
Definition set_ign (i : nat) (b : bool) : M unit :=
  do o <- get_obs i ;;
  do _ <- put_obs i (with_flags o (ob_store o) b (ob_wr o)) ;;
  if Bool.eqb b (ob_ign o) then ret tt else update_pixels i.

(** ngmix/observation.py:852-858 __enter__, __exit__ *)
Definition enter (i : nat) : M unit :=
  do o <- get_obs i ;; put_obs i (with_flags o (ob_store o) (ob_ign o) true).
Definition exit_ (i : nat) : M unit :=
  do o <- get_obs i ;;
  do _ <- put_obs i (with_flags o (ob_store o) (ob_ign o) false) ;;
  update_pixels i.

(** the array attributes: obs.image, obs.weight, obs.jacobian, obs.bmask, ... *)
Inductive attr := VImage | VWeight | VJac | VOpt (s : slot).
Definition attr_ref (o : obs) (k : attr) : option nat :=
  match k with
  | VImage => Some (ob_image o) | VWeight => Some (ob_weight o) | VJac => Some (ob_jac o)
  | VOpt s => ob_opt o s
  end.
(** ngmix/observation.py:155-163 and the other getters, 542-550 get_jacobian.  The array
    of the Jacobian that is returned is the view. *)
Definition getattr (i : nat) (k : attr) : M nat :=
  do o <- get_obs i ;;
  match attr_ref o k with
  | None => fail AttributeError
  | Some a => get_view a (ob_wr o)
  end.

(** self.bmask.copy() *)
Definition copy_view (a : nat) (wr : bool) : M nat :=
  do _ <- view_check a wr ;; do c <- contents a ;; new_arr c true.
Definition copy_opt (o : obs) (s : slot) : M arg_arr :=
  match ob_opt o s with
  | None => ret ANone
  | Some a => do a' <- copy_view a (ob_wr o) ;; ret (AArr a' false)
  end.

(** ngmix/observation.py:678-728 copy.  The recursion follows psf references; if it visits
    more observations than exist the references form a cycle and python raises
    RecursionError (a RuntimeError): depth starts at the number of observations. *)
Fixpoint copy_obs (depth i : nat) : M nat :=
  match depth with
  | O => fail RuntimeError
  | S depth =>
      do o <- get_obs i ;;
      do bm <- copy_opt o SBmask ;;
      do om <- copy_opt o SOrmask ;;
      do no <- copy_opt o SNoise ;;
      do g <- match ob_gmix o with
              | None => ret GNone
              | Some g => do c <- lift (gm_copy g) ;; ret (GObj c)
              end ;;
      do p <- match ob_psf o with
              | None => ret PNone
              | Some j => do j' <- copy_obs depth j ;; ret (PObs j')
              end ;;
      do mf <- copy_opt o SMfrac ;;
      do d <- get_meta (ob_meta o) ;;
      do d' <- new_meta d ;;
      do im <- copy_view (ob_image o) (ob_wr o) ;;
      do w <- copy_view (ob_weight o) (ob_wr o) ;;
      do cj <- contents (ob_jac o) ;;
      match cj with
      | CJ j => new_obs im false (AArr w false) bm om no (JJac j) g p (DDict d') mf (ob_store o) (ob_ign o)
      | _ => fail OtherError (* excluded by set_jacobian *)
      end
  end.

(** ---- programs ---- *)
Inductive op :=
(* the caller's own arrays and dictionaries *)
| NewArr (c : content) (w : bool)
| Write (a : nat) (c : content)
| NewMeta (d : dict)
| WriteMeta (i : nat) (d : dict)
(* the interface of Observation *)
| NewObs (image : nat) (convert : bool) (weight bmask ormask noise : arg_arr) (jacobian : arg_jac)
    (gmix : arg_gmix) (psf : arg_psf) (meta : arg_meta) (mfrac : arg_arr) (store ign : bool)
| SetImage (i a : nat) (convert : bool)
| SetWeight (i : nat) (w : arg_arr)
| SetOpt (i : nat) (s : slot) (w : arg_arr)
| SetJacobian (i : nat) (j : arg_jac)
| SetPsf (i : nat) (p : arg_psf)
| SetGmix (i : nat) (g : arg_gmix)
| SetMeta (i : nat) (d : arg_meta)
| UpdateMeta (i : nat) (d : option dict)
| SetStore (i : nat) (b : bool)
| SetIgnore (i : nat) (b : bool)
| UpdatePixels (i : nat)
| Enter (i : nat)
| Exit (i : nat)
| GetAttr (i : nat) (k : attr)
| CopyObs (i : nat).

Definition unit_ (x : M unit) : M nat := do _ <- x ;; ret O.
Definition step (o : op) : M nat :=
  match o with
  | NewArr c w => new_arr c w
  | Write a c => unit_ (write_arr a c)
  | NewMeta d => new_meta d
  | WriteMeta i d => unit_ (do _ <- get_meta i ;; put_meta i d)
  | NewObs a b c d e f g h i j k l n => new_obs a b c d e f g h i j k l n
  | SetImage i a b => unit_ (set_image i a b)
  | SetWeight i w => unit_ (set_weight i w)
  | SetOpt i s w => unit_ (set_opt i s w)
  | SetJacobian i j => unit_ (set_jacobian i j)
  | SetPsf i p => unit_ (set_psf i p)
  | SetGmix i g => unit_ (set_gmix i g)
  | SetMeta i d => unit_ (set_meta i d)
  | UpdateMeta i d => unit_ (update_meta i d)
  | SetStore i b => unit_ (set_store i b)
  | SetIgnore i b => unit_ (set_ign i b)
  | UpdatePixels i => unit_ (update_pixels i)
  | Enter i => unit_ (enter i)
  | Exit i => unit_ (exit_ i)
  | GetAttr i k => getattr i k
  | CopyObs i => fun m => copy_obs (length (m_obs m)) i m
  end.

(** run a program; exceptions are caught by the caller and the program goes on *)
Fixpoint exec (m : mem) (p : list op) : mem :=
  match p with [] => m | o :: p => exec (fst (step o m)) p end.

(** ---- values ---- *)

(** the attributes of an observation without references: what == looks at *)
Inductive obsval := OV (image weight : arr2 R) (j : jac) (opts : slot -> option content)
  (g : option gmobj) (d : dict) (store ign : bool) (psf : option obsval).
