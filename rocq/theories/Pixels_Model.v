(** Model of ngmix/pixels/pixels.py and pixels_nb.py. *)
From Verif Require Import Base Jacobian_Model XReal.

(** a 2-d numpy array; only indices inside the dimensions are ever read *)
Record arr2 (A : Type) := mkArr { nrow : nat; ncol : nat; at2 : nat -> nat -> A }.
Arguments mkArr {A}. Arguments nrow {A}. Arguments ncol {A}. Arguments at2 {A}.

(** _pixels_dtype, ngmix/pixels/pixels.py:72-79; the fdiff slot is scratch space of the
    likelihood code and is left out.  The type of ierr is a parameter so that the same
    code can be run on real weights and on weights that may be NaN. *)
Record pixel (W : Type) := mkPix { px_u : R; px_v : R; px_area : R; px_val : R; px_ierr : W }.
Arguments mkPix {W}. Arguments px_u {W}. Arguments px_v {W}. Arguments px_area {W}.
Arguments px_val {W}. Arguments px_ierr {W}.

(** _coords_dtype, ngmix/pixels/pixels.py:82-86 *)
Record coord := mkCoord { cd_u : R; cd_v : R; cd_area : R }.

(** Writing element i of an array of fixed size: numba does not check bounds, so a write
    past the end is a memory error; the model makes it visible as OtherError. *)
Definition put {A} (l : list A) (i : nat) (x : A) : res (list A) :=
  if Nat.ltb i (length l) then Ok (upd l i x) else Raise OtherError.

Section WithWeights.
  (** the weight values with the comparisons and functions used on them *)
  Variable W : Type.
  Variables (gt0 le0 lt0 : W -> bool) (wzero : W) (wsqrt : W -> W).

  (** body of the inner loop, ngmix/pixels/pixels_nb.py:36-55 *)
  Definition fill_body (image : arr2 R) (weight : arr2 W) (j : jac) (ignore : bool)
      (row : nat) (st : list (pixel W) * nat) (col : nat) : res (list (pixel W) * nat) :=
    let '(pixels, ipixel) := st in
    let ivar := at2 weight row col in
    if ignore && le0 ivar then Ok (pixels, ipixel) else
    let '(v, u) := get_vu j (INR row) (INR col) in
    let ivar' := if lt0 ivar then wzero else ivar in
    let* pixels' := put pixels ipixel
        (mkPix u v (jacobian_get_area j) (at2 image row col) (wsqrt ivar')) in
    Ok (pixels', S ipixel).

  (** ngmix/pixels/pixels_nb.py:6-58 fill_pixels: row-major nested loops *)
  Definition fill_pixels (pixels : list (pixel W)) (image : arr2 R) (weight : arr2 W)
      (j : jac) (ignore : bool) : res (list (pixel W)) :=
    let* (pixels', ipixel) :=
      foldM (fun st row => foldM (fill_body image weight j ignore row) (seq 0 (ncol image)) st)
            (seq 0 (nrow image)) (pixels, O) in
    if Nat.eqb ipixel (length pixels') then Ok pixels' else Raise RuntimeError.

  (** numpy.where(weight > 0.0)[0].size, ngmix/pixels/pixels.py:35 *)
  Definition count_gt0 (weight : arr2 W) : nat :=
    fold_left (fun n row => fold_left (fun n col => if gt0 (at2 weight row col) then S n else n)
                                      (seq 0 (ncol weight)) n)
              (seq 0 (nrow weight)) O.

  (** numpy.zeros(n, dtype=_pixels_dtype), ngmix/pixels/pixels.py:42 *)
  Definition zeros_pixels (n : nat) : list (pixel W) := repeat (mkPix 0 0 0 0 wzero) n.

  (** ngmix/pixels/pixels.py:6-52 make_pixels *)
  Definition make_pixels_gen (image : arr2 R) (weight : arr2 W) (j : jac) (ignore : bool)
    : res (list (pixel W)) :=
    let* npixels :=
      if ignore then
        let n := count_gt0 weight in
        if Nat.eqb n 0 then Raise GMixFatalError else Ok n
      else Ok (nrow image * ncol image)%nat in
    fill_pixels (zeros_pixels npixels) image weight j ignore.
End WithWeights.

(** make_pixels on ordinary (finite) weights *)
Definition make_pixels (image weight : arr2 R) (j : jac) (ignore : bool) : res (list (pixel R)) :=
  make_pixels_gen R (Rltb 0) (fun w => Rleb w 0) (fun w => Rltb w 0) 0 sqrt image weight j ignore.

(** make_pixels on weights that may be NaN or infinite *)
Definition make_pixels_x (image : arr2 R) (weight : arr2 xr) (j : jac) (ignore : bool)
  : res (list (pixel xr)) :=
  make_pixels_gen xr (xltb (Fin 0)) (fun w => xleb w (Fin 0)) (fun w => xltb w (Fin 0)) (Fin 0) xsqrt
    image weight j ignore.

(** ngmix/pixels/pixels_nb.py:61-94 fill_coords and pixels.py:55-69 make_coords *)
Definition coords_body (j : jac) (row : nat) (st : list coord * nat) (col : nat)
  : res (list coord * nat) :=
  let '(coords, icoord) := st in
  let '(v, u) := get_vu j (INR row) (INR col) in
  let* coords' := put coords icoord (mkCoord u v (jacobian_get_area j)) in
  Ok (coords', S icoord).
Definition make_coords (nr nc : nat) (j : jac) : res (list coord) :=
  let* (coords, _) :=
    foldM (fun st row => foldM (coords_body j row) (seq 0 nc) st)
          (seq 0 nr) (repeat (mkCoord 0 0 0) (nr * nc), O) in
  Ok coords.
