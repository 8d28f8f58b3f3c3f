(** Model of ngmix/jacobian/jacobian.py and jacobian_nb.py. *)
From Verif Require Import Base.

(** the structured array, ngmix/jacobian/jacobian.py:406-414 *)
Record jac := mkJac {
  row0 : R; col0 : R; dvdrow : R; dvdcol : R; dudrow : R; dudcol : R;
  jdet : R; jscale : R }.

(** a galsim-like wcs object, only the attributes that are read (297-304) *)
Record wcs := mkWcs { w_dudx : R; w_dudy : R; w_dvdx : R; w_dvdy : R }.

(** keyword arguments: None = keyword not sent *)
Record kwargs := mkKw {
  k_x : option R; k_y : option R; k_row : option R; k_col : option R;
  k_dudx : option R; k_dudy : option R; k_dvdx : option R; k_dvdy : option R;
  k_dvdrow : option R; k_dvdcol : option R; k_dudrow : option R; k_dudcol : option R;
  k_wcs : option wcs }.

(** kw['name']: KeyError when absent *)
Definition getkw (o : option R) : res R :=
  match o with Some x => Ok x | None => Raise KeyError end.

(** ngmix/jacobian/jacobian.py:306-317 _finish_init *)
Definition finish_init (r0 c0 dvdr dvdc dudr dudc : R) : jac :=
  let det := dvdr * dudc - dvdc * dudr in
  mkJac r0 c0 dvdr dvdc dudr dudc det (sqrt (Rabs det)).

(** ngmix/jacobian/jacobian.py:262-278 _init_rowcol; _ROWCOL_REQ is lines 416-421 *)
Definition init_rowcol (kw : kwargs) : res jac :=
  let* (dvdr, dvdc, dudr, dudc) :=
    match k_wcs kw with
    | Some w => Ok (w_dvdy w, w_dvdx w, w_dudy w, w_dudx w)
    | None =>
        match k_row kw, k_col kw, k_dvdrow kw, k_dvdcol kw, k_dudrow kw, k_dudcol kw with
        | Some _, Some _, Some a, Some b, Some c, Some d => Ok (a, b, c, d)
        | _, _, _, _, _, _ => Raise ValueError
        end
    end in
  let* r := getkw (k_row kw) in
  let* c := getkw (k_col kw) in
  Ok (finish_init r c dvdr dvdc dudr dudc).

(** ngmix/jacobian/jacobian.py:280-295 _init_xy; _XY_REQ is lines 423-428 *)
Definition init_xy (kw : kwargs) : res jac :=
  let* (dvdr, dvdc, dudr, dudc) :=
    match k_wcs kw with
    | Some w => Ok (w_dvdy w, w_dvdx w, w_dudy w, w_dudx w)
    | None =>
        match k_x kw, k_y kw, k_dudx kw, k_dudy kw, k_dvdx kw, k_dvdy kw with
        | Some _, Some _, Some ux, Some uy, Some vx, Some vy => Ok (vy, vx, uy, ux)
        | _, _, _, _, _, _ => Raise ValueError
        end
    end in
  let* y := getkw (k_y kw) in
  let* x := getkw (k_x kw) in
  Ok (finish_init y x dvdr dvdc dudr dudc).

(** ngmix/jacobian/jacobian.py:60-68 Jacobian.__init__ *)
Definition Jacobian_init (kw : kwargs) : res jac :=
  match k_x kw with
  | Some _ => init_xy kw
  | None =>
    match k_row kw with
    | Some _ => init_rowcol kw
    | None => Raise ValueError
    end
  end.

Definition no_kw : kwargs :=
  mkKw None None None None None None None None None None None None None.
Definition kw_rowcol (r c dvdr dvdc dudr dudc : R) : kwargs :=
  mkKw None None (Some r) (Some c) None None None None (Some dvdr) (Some dvdc) (Some dudr) (Some dudc) None.
Definition kw_xy (x y dudx dudy dvdx dvdy : R) : kwargs :=
  mkKw (Some x) (Some y) None None (Some dudx) (Some dudy) (Some dvdx) (Some dvdy) None None None None None.
Definition kw_rowcol_wcs (r c : R) (w : wcs) : kwargs :=
  mkKw None None (Some r) (Some c) None None None None None None None None (Some w).
Definition kw_xy_wcs (x y : R) (w : wcs) : kwargs :=
  mkKw (Some x) (Some y) None None None None None None None None None None (Some w).

(** ngmix/jacobian/jacobian.py:358-377 DiagonalJacobian.__init__ *)
Definition DiagonalJacobian_init (scale : R) (kw : kwargs) : res jac :=
  match k_x kw with
  | Some x =>
      match k_y kw with
      | None => Raise AssertionError
      | Some y => Jacobian_init (kw_xy x y scale 0 0 scale)
      end
  | None =>
      match k_row kw with
      | Some r =>
          match k_col kw with
          | None => Raise AssertionError
          | Some c => Jacobian_init (kw_rowcol r c scale 0 0 scale)
          end
      | None => Raise ValueError
      end
  end.

(** ngmix/jacobian/jacobian.py:402-403 UnitJacobian.__init__ *)
Definition UnitJacobian_init (kw : kwargs) : res jac := DiagonalJacobian_init 1 kw.

(** ngmix/jacobian/jacobian.py:128-144 get_det, get_scale, get_area *)
Definition get_det (j : jac) : R := jdet j.
Definition get_scale (j : jac) : R := jscale j.
Definition get_area (j : jac) : R := jscale j ^ 2.
(** ngmix/jacobian/jacobian.py:81-90 *)
Definition get_cen (j : jac) : R * R := (row0 j, col0 j).

(** ngmix/jacobian/jacobian_nb.py:4-16 jacobian_get_vu *)
Definition get_vu (j : jac) (row col : R) : R * R :=
  let rowdiff := row - row0 j in
  let coldiff := col - col0 j in
  (dvdrow j * rowdiff + dvdcol j * coldiff, dudrow j * rowdiff + dudcol j * coldiff).

(** ngmix/jacobian/jacobian_nb.py:19-31 jacobian_get_rowcol on scalars: numba raises
    ZeroDivisionError for a scalar division by zero (for array arguments numpy
    semantics give inf/nan) *)
Definition get_rowcol (j : jac) (v u : R) : res (R * R) :=
  let rowdiff := dudcol j * v - dvdcol j * u in
  let coldiff := - dudrow j * v + dvdrow j * u in
  if Reqb (jdet j) 0 then Raise ZeroDivisionError else
  Ok (row0 j + rowdiff / jdet j, col0 j + coldiff / jdet j).

(** ngmix/jacobian/jacobian_nb.py:34-40 jacobian_get_area *)
Definition jacobian_get_area (j : jac) : R := jscale j ^ 2.

(** ngmix/jacobian/jacobian.py:198-220 set_cen.  In-place: new state and outcome;
    row0 is assigned before kw['col'] is looked up. *)
Definition set_row0 (j : jac) (r : R) : jac :=
  mkJac r (col0 j) (dvdrow j) (dvdcol j) (dudrow j) (dudcol j) (jdet j) (jscale j).
Definition set_col0 (j : jac) (c : R) : jac :=
  mkJac (row0 j) c (dvdrow j) (dvdcol j) (dudrow j) (dudcol j) (jdet j) (jscale j).
Definition set_cen (j : jac) (kw : kwargs) : jac * res unit :=
  match k_row kw with
  | Some r =>
      let j1 := set_row0 j r in
      match k_col kw with
      | Some c => (set_col0 j1 c, Ok tt)
      | None => (j1, Raise KeyError)
      end
  | None =>
      match k_x kw with
      | Some x =>
          match k_y kw with
          | Some y => (set_col0 (set_row0 j y) x, Ok tt)
          | None => (j, Raise KeyError)
          end
      | None => (j, Raise ValueError)
      end
  end.

(** ngmix/jacobian/jacobian.py:222-231 copy *)
Definition Jacobian_copy (j : jac) : res jac :=
  Jacobian_init (kw_rowcol (row0 j) (col0 j) (dvdrow j) (dvdcol j) (dudrow j) (dudcol j)).

(** ngmix/jacobian/jacobian.py:241-247 __eq__: all fields of the structured array *)
Definition Jacobian_eq (a b : jac) : bool :=
  Reqb (row0 a) (row0 b) && Reqb (col0 a) (col0 b) && Reqb (dvdrow a) (dvdrow b) &&
  Reqb (dvdcol a) (dvdcol b) && Reqb (dudrow a) (dudrow b) && Reqb (dudcol a) (dudcol b) &&
  Reqb (jdet a) (jdet b) && Reqb (jscale a) (jscale b).

(** ngmix/jacobian/jacobian.py:249-260 get_galsim_wcs *)
Definition get_galsim_wcs (j : jac) : wcs := mkWcs (dudcol j) (dudrow j) (dvdcol j) (dvdrow j).

(** Objects: a heap of Jacobian objects, identified by position, on which copy
    allocates and set_cen mutates (222-239, 198-220). *)
Definition jheap := list jac.
Inductive jop := JCopy (i : nat) | JSetCen (i : nat) (kw : kwargs).
Fixpoint upd {A} (l : list A) (i : nat) (x : A) : list A :=
  match l, i with
  | [], _ => []
  | _ :: t, O => x :: t
  | h :: t, S k => h :: upd t k x
  end.
Definition jstep (h : jheap) (o : jop) : jheap :=
  match o with
  | JCopy i => match nth_error h i with
               | Some j => match Jacobian_copy j with Ok j' => h ++ [j'] | Raise _ => h end
               | None => h
               end
  | JSetCen i kw => match nth_error h i with
                    | Some j => upd h i (fst (set_cen j kw))
                    | None => h
                    end
  end.
