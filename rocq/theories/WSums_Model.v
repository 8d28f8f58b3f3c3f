(** Model of the weighted moment sums, ngmix/gmix/gmix_nb.py:672-812 and
    ngmix/gmix/gmix.py:671-714. *)
From Verif Require Import Base Pixels_Model GMix_Model Render_Model.

(** the part of the result record (ngmix/gmix/gmix.py:1287-1306) that is accumulated;
    arrays as functions of the index *)
Record wsums := mkWs { ws_npix : nat; ws_wsum : R; ws_sums : nat -> R; ws_cov : nat -> nat -> R }.
Definition wsums_zero : wsums := mkWs 0 0 (fun _ => 0) (fun _ _ => 0).

(** a[i] = x and a[i,j] = x *)
Definition fset (a : nat -> R) (i : nat) (x : R) : nat -> R := fun k => if Nat.eqb k i then x else a k.
Definition fset2 (a : nat -> nat -> R) (i j : nat) (x : R) : nat -> nat -> R :=
  fun k l => if Nat.eqb k i && Nat.eqb l j then x else a k l.

(** ngmix/gmix/gmix_nb.py:719-724 *)
Definition F6 (v u vmod umod : R) : nat -> R :=
  let rad2 := umod * umod + vmod * vmod in
  fset (fset (fset (fset (fset (fset (fun _ => 0) 0 v) 1 u) 2 (umod * umod - vmod * vmod))
    3 (2 * vmod * umod)) 4 rad2) 5 1.
(** ngmix/gmix/gmix_nb.py:770-804; pv, pu are the pixel's own coordinates *)
Definition F17 (pv pu v u : R) : nat -> R :=
  let r2 := u * u + v * v in
  let u2 := u ^ 2 in let v2 := v ^ 2 in let vu := v * u in
  let u4 := u2 ^ 2 in let v4 := v2 ^ 2 in
  let r4 := r2 * r2 in let r6 := r4 * r2 in let r8 := r6 * r2 in
  let F := fset (fset (fset (fset (fset (fset (fun _ => 0) 0 pv) 1 pu) 2 (u2 - v2)) 3 (2 * vu)) 4 r2) 5 1 in
  let F := fset (fset (fset (fset F 6 (u * r2)) 7 (v * r2)) 8 (u * (u2 - 3 * v2))) 9 (v * (3 * u2 - v2)) in
  let F := fset (fset (fset (fset (fset F 10 r4) 11 (r2 * (u2 - v2))) 12 (r2 * 2 * u * v))
              13 (u4 - 6 * u2 * v2 + v4)) 14 ((u2 - v2) * 4 * u * v) in
  fset (fset F 15 r6) 16 r8.

(** the accumulation loops, ngmix/gmix/gmix_nb.py:726-732 and 806-812 *)
Definition accumulate (nmom : nat) (F : nat -> R) (weight wdata w2 var : R) (s : wsums) : wsums :=
  let '(sums, cov) :=
    fold_left (fun sc i =>
        let '(sums, cov) := sc in
        (fset sums i (sums i + wdata * F i),
         fold_left (fun cov j => fset2 cov i j (cov i j + w2 * var * F i * F j)) (seq 0 nmom) cov))
      (seq 0 nmom) (ws_sums s, ws_cov s) in
  mkWs (S (ws_npix s)) (ws_wsum s + weight) sums cov.

(** loop body shared by get_weighted_sums (698-732) and get_higher_order_weighted_sums
    (763-812).  1.0/(ierr*ierr) raises in compiled code when ierr is 0; a NaN weight
    (None) is not followed further.  Partial sums left in the array by an exception are
    not modelled. *)
Definition wsums_body (higher : bool) (wt : gmix) (vcen ucen maxrad2 : R) (s : wsums) (p : pixel R) : res wsums :=
  let vmod := px_v p - vcen in
  let umod := px_u p - ucen in
  let rad2 := umod * umod + vmod * vmod in
  if Rltb rad2 maxrad2 then
    match gmix_eval_pixel wt (px_v p) (px_u p) (px_area p) with
    | None => Raise OtherError
    | Some weight =>
        if Reqb (px_ierr p * px_ierr p) 0 then Raise ZeroDivisionError else
        let var := 1 / (px_ierr p * px_ierr p) in
        let wdata := weight * px_val p in
        let w2 := weight * weight in
        let nmom := if higher then 17%nat else 6%nat in
        let F := if higher then F17 (px_v p) (px_u p) vmod umod else F6 (px_v p) (px_u p) vmod umod in
        Ok (accumulate nmom F weight wdata w2 var s)
    end
  else Ok s.
Definition nb_weighted_sums (higher : bool) (wt : gmix) (pixels : list (pixel R)) (s : wsums) (maxrad : R) : res wsums :=
  match wt with
  | [] => Raise IndexError
  | g :: _ => foldM (wsums_body higher wt (g_row g) (g_col g) (maxrad ^ 2)) pixels s
  end.

(** ngmix/gmix/gmix.py:671-714 GMix.get_weighted_sums.  maxrad=None means 100 sigma; a
    non-finite sigma makes every comparison false, so no pixel is used. *)
Definition get_weighted_sums (gm : gmix) (pixels : list (pixel R)) (maxrad : option R) (higher : bool)
    (res0 : option wsums) : gmix * res wsums :=
  let (gm', r) := set_norms_if_needed gm in
  (gm',
   let* _ := r in
   let s := match res0 with Some s => s | None => wsums_zero end in
   match maxrad with
   | Some m => nb_weighted_sums higher gm' pixels s m
   | None =>
       match gm_get_sigma gm' with
       | Some sigma => nb_weighted_sums higher gm' pixels s (100 * sigma)
       | None => Ok s
       end
   end).
