(** Model of the GMix objects of ngmix/gmix/gmix.py: the classes GMix, GMixModel, GMixCM
    and GMixCoellip, their two arrays (_pars and _data), and the methods that create
    objects or change them. *)
From Verif Require Import Base Shape_Model Moments_Model Jacobian_Model GMix_Model.

(** the values of the model string for which GMixModel can be built,
    ngmix/gmix/gmix.py:1079-1160 *)
Inductive mname := Mgauss | Mturb | Mexp | Mdev | Mbd | Mbdf | Mbdc.

(** class and immutable attributes *)
Inductive kind :=
| KFull
| KModel (m : mname)
| KCM (fracdev TdByTe Tfactor : R)
| KCoellip.

Record gmobj := mkObj { o_kind : kind; o_ngauss : nat; o_npars : nat; o_pars : list R; o_data : gmix }.

(** _gmix_ngauss_dict and _gmix_npars_dict, ngmix/gmix/gmix.py:1126-1160 *)
Definition model_ngauss (m : mname) : nat :=
  match m with Mgauss => 1 | Mturb => 3 | Mexp => 6 | Mdev => 10 | Mbd => 16 | Mbdf => 16 | Mbdc => 16 end%nat.
Definition model_npars (m : mname) : nat :=
  match m with Mgauss | Mturb | Mexp | Mdev => 6 | Mbd => 8 | Mbdf => 7 | Mbdc => 8 end%nat.

(** self._fill_func: _gmix_fill_functions, ngmix/gmix/gmix_nb.py:587-597 and
    gmix.py:869-877, 995-997; 'bdc' is not in the table *)
Definition fill_func (k : kind) (ngauss : nat) (pars : list R) : res gmix :=
  match k with
  | KFull => gmix_fill_full ngauss pars
  | KModel Mgauss => gmix_fill_gauss ngauss pars
  | KModel Mturb => gmix_fill_turb ngauss pars
  | KModel Mexp => gmix_fill_exp ngauss pars
  | KModel Mdev => gmix_fill_dev ngauss pars
  | KModel Mbd => gmix_fill_bd pars
  | KModel Mbdf => gmix_fill_bdf pars
  | KModel Mbdc => Raise ValueError
  | KCM fracdev TdByTe Tfactor => gmix_fill_cm fracdev TdByTe Tfactor pars
  | KCoellip => gmix_fill_coellip ngauss pars
  end.

Definition with_pars (o : gmobj) (p : list R) : gmobj := mkObj (o_kind o) (o_ngauss o) (o_npars o) p (o_data o).
Definition with_data (o : gmobj) (d : gmix) : gmobj := mkObj (o_kind o) (o_ngauss o) (o_npars o) (o_pars o) d.

(** ngmix/gmix/gmix.py:396-412 and 981-997 _fill: _pars is overwritten first *)
Definition obj__fill (o : gmobj) (pars : list R) : gmobj * res unit :=
  let o1 := with_pars o pars in
  match fill_func (o_kind o) (o_ngauss o) pars with
  | Ok d => (with_data o1 d, Ok tt)
  | Raise e => (o1, Raise e)
  end.
(** ngmix/gmix/gmix.py:378-394 fill *)
Definition obj_fill (o : gmobj) (pars : list R) : gmobj * res unit :=
  if negb (Nat.eqb (length pars) (o_npars o)) then (o, Raise ValueError)
  else obj__fill o pars.
(** ngmix/gmix/gmix.py:785-790 reset *)
Definition obj_reset (o : gmobj) : gmobj :=
  mkObj (o_kind o) (o_ngauss o) (o_npars o) (repeat 0 (o_npars o)) (gmix_zeros (o_ngauss o)).

(** the object under construction after its attributes are set and reset() was called *)
Definition blank (k : kind) (ngauss npars : nat) : gmobj :=
  mkObj k ngauss npars (repeat 0 npars) (gmix_zeros ngauss).
Definition finish (r : gmobj * res unit) : res gmobj := let (o, e) := r in let* _ := e in Ok o.

(** constructors: ngmix/gmix/gmix.py:96-118 GMix, 917-930 GMixModel, 968-973 GMixCM,
    1038-1057 GMixCoellip *)
Definition new_full_ngauss (ngauss : nat) : gmobj := blank KFull ngauss (6 * ngauss).
Definition new_full (pars : list R) : res gmobj :=
  let npars := length pars in
  if negb (Nat.eqb (npars mod 6) 0) then Raise ValueError else
  finish (obj__fill (blank KFull (npars / 6) npars) pars).
Definition new_model (m : mname) (pars : list R) : res gmobj :=
  match m with
  | Mbdc => Raise ValueError
  | _ => finish (obj_fill (blank (KModel m) (model_ngauss m) (model_npars m)) pars)
  end.
Definition new_cm (fracdev TdByTe : R) (pars : list R) : res gmobj :=
  let* Tfactor := get_cm_Tfactor fracdev TdByTe in
  finish (obj_fill (blank (KCM fracdev TdByTe Tfactor) 16 6) pars).
(** a negative size (fewer than 4 parameters) makes numpy.zeros raise ValueError *)
Definition new_coellip (pars : list R) : res gmobj :=
  let npars := length pars in
  if negb (Z.eqb ((Z.of_nat npars - 4) mod 2) 0) then Raise ValueError else
  if Nat.ltb npars 4 then Raise ValueError else
  finish (obj__fill (blank KCoellip ((npars - 4) / 2) npars) pars).

(** ngmix/gmix/gmix.py:414-420, 932-937, 975-979, 1059-1064 copy: only the plain GMix
    copies its components, the others rebuild them from _pars *)
Definition obj_copy (o : gmobj) : res gmobj :=
  match o_kind o with
  | KFull => Ok (with_data (new_full_ngauss (o_ngauss o)) (o_data o))
  | KModel m => new_model m (o_pars o)
  | KCM fracdev TdByTe _ => new_cm fracdev TdByTe (o_pars o)
  | KCoellip => new_coellip (o_pars o)
  end.

(** pars[0] = row; pars[1] = col: IndexError if there is no such element *)
Definition set2 (pars : list R) (row col : R) : list R * res unit :=
  match pars with
  | _ :: _ :: rest => (row :: col :: rest, Ok tt)
  | [_] => ([row], Raise IndexError)
  | [] => ([], Raise IndexError)
  end.

(** methods that change the object.  None: the components become non-finite. *)
Inductive method :=
| MFill (pars : list R)
| MReset
| MSetFlux (flux : R)
| MSetCen (row col : R)
| MSetNorms
| MEval.  (* set_norms_if_needed: first step of drawing, likelihoods, weighted sums *)

Definition call (o : gmobj) (m : method) : option (gmobj * res unit) :=
  match m with
  | MFill pars => Some (obj_fill o pars)
  | MReset => Some (obj_reset o, Ok tt)
  | MSetFlux f => match gm_set_flux (o_data o) f with
                  | Some d => Some (with_data o d, Ok tt) | None => None end
  | MSetCen row col =>
      match gm_set_cen (o_data o) row col with
      | None => None
      | Some d =>
          match o_kind o with
          | KFull => Some (with_data o d, Ok tt)
          (* ngmix/gmix/gmix.py:939-949 *)
          | _ => let (p, r) := set2 (o_pars o) row col in Some (with_pars (with_data o d) p, r)
          end
      end
  | MSetNorms => let (d, r) := gmix_set_norms (o_data o) in Some (with_data o d, r)
  | MEval => let (d, r) := set_norms_if_needed (o_data o) in Some (with_data o d, r)
  end.

(** methods that return a new object: ngmix/gmix/gmix.py:414, 445-483, 532-584 *)
Inductive maker := NCopy | NShear (s1 s2 : R) | NRound (preserve_size : bool).
Definition make (o : gmobj) (n : maker) : option (res gmobj) :=
  match n with
  | NCopy => Some (obj_copy o)
  | NShear s1 s2 =>
      Some (let* c := obj_copy o in
            let* d := gmix_shear (o_data c) s1 s2 in
            Ok (with_data c d))
  | NRound preserve =>
      match obj_copy o with
      | Raise e => Some (Raise e)
      | Ok c => match gmix_make_round (o_data c) preserve with
                | None => None
                | Some r => Some (let* d := r in Ok (with_data c d))
                end
      end
  end.
(** ngmix/gmix/gmix.py:485-508 convolve *)
Definition obj_convolve (o psf : gmobj) : res gmobj :=
  let* d := gmix_convolve (o_data o) (o_data psf) in
  Ok (with_data (new_full_ngauss (o_ngauss o * o_ngauss psf)) d).

(** ---- objects in memory: the arrays are shared by reference ---- *)
Record oref := mkRef { r_kind : kind; r_ngauss : nat; r_npars : nat; r_pars : nat; r_data : nat }.
Record heap := mkHeap { h_pars : list (list R); h_data : list gmix; h_objs : list oref }.
Definition empty_heap : heap := mkHeap [] [] [].

Definition read (h : heap) (i : nat) : option gmobj :=
  match nth_error (h_objs h) i with
  | None => None
  | Some r =>
      match nth_error (h_pars h) (r_pars r), nth_error (h_data h) (r_data r) with
      | Some p, Some d => Some (mkObj (r_kind r) (r_ngauss r) (r_npars r) p d)
      | _, _ => None
      end
  end.
(** numpy arrays are updated in place *)
Definition write (h : heap) (i : nat) (o : gmobj) : heap :=
  match nth_error (h_objs h) i with
  | None => h
  | Some r => mkHeap (upd (h_pars h) (r_pars r) (o_pars o)) (upd (h_data h) (r_data r) (o_data o)) (h_objs h)
  end.
(** reset binds two new arrays (ngmix/gmix/gmix.py:789-790) *)
Definition rebind (h : heap) (i : nat) (o : gmobj) : heap :=
  mkHeap (h_pars h ++ [o_pars o]) (h_data h ++ [o_data o])
    (upd (h_objs h) i (mkRef (o_kind o) (o_ngauss o) (o_npars o) (length (h_pars h)) (length (h_data h)))).
(** a new object has its own arrays *)
Definition alloc (h : heap) (o : gmobj) : heap :=
  mkHeap (h_pars h ++ [o_pars o]) (h_data h ++ [o_data o])
    (h_objs h ++ [mkRef (o_kind o) (o_ngauss o) (o_npars o) (length (h_pars h)) (length (h_data h))]).

Inductive op :=
| ONewFull (pars : list R) | ONewZero (ngauss : nat) | ONewModel (m : mname) (pars : list R)
| ONewCM (fracdev TdByTe : R) (pars : list R) | ONewCoellip (pars : list R)
| OCall (i : nat) (m : method) | OMake (i : nat) (n : maker) | OConvolve (i j : nat).

(** None: no such object, or components become non-finite *)
Definition add (h : heap) (r : res gmobj) : option (heap * res unit) :=
  match r with Ok o => Some (alloc h o, Ok tt) | Raise e => Some (h, Raise e) end.
Definition step (h : heap) (o : op) : option (heap * res unit) :=
  match o with
  | ONewFull pars => add h (new_full pars)
  | ONewZero n => add h (Ok (new_full_ngauss n))
  | ONewModel m pars => add h (new_model m pars)
  | ONewCM f t pars => add h (new_cm f t pars)
  | ONewCoellip pars => add h (new_coellip pars)
  | OCall i m =>
      match read h i with
      | None => None
      | Some x =>
          match call x m with
          | None => None
          | Some (x', r) => Some (match m with MReset => rebind h i x' | _ => write h i x' end, r)
          end
      end
  | OMake i n =>
      match read h i with
      | None => None
      | Some x => match make x n with None => None | Some r => add h r end
      end
  | OConvolve i j =>
      match read h i, read h j with
      | Some x, Some y => add h (obj_convolve x y)
      | _, _ => None
      end
  end.
(** run a program; exceptions are caught by the caller and the program goes on *)
Fixpoint run (h : heap) (l : list op) : option heap :=
  match l with
  | [] => Some h
  | o :: l => match step h o with None => None | Some (h', _) => run h' l end
  end.
