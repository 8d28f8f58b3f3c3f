(** Extended reals for the places where NaN or infinity decide what the code does.
    Finite arithmetic is exact (no rounding, no overflow); zero is +0. *)
From Verif Require Import Base.

Inductive xr := Fin (r : R) | PInf | NInf | NaN.

(** IEEE comparisons: any comparison with NaN is false *)
Definition xltb (a b : xr) : bool :=
  match a, b with
  | NaN, _ | _, NaN => false
  | Fin x, Fin y => Rltb x y
  | PInf, _ => false
  | _, NInf => false
  | NInf, _ => true
  | _, PInf => true
  end.
Definition xleb (a b : xr) : bool :=
  match a, b with
  | NaN, _ | _, NaN => false
  | Fin x, Fin y => Rleb x y
  | NInf, _ => true
  | _, PInf => true
  | PInf, _ => false
  | _, NInf => false
  end.
Definition xeqb (a b : xr) : bool :=
  match a, b with
  | Fin x, Fin y => Reqb x y
  | PInf, PInf => true
  | NInf, NInf => true
  | _, _ => false
  end.
Definition xgtb a b := xltb b a.
Definition xgeb a b := xleb b a.

Definition isfinite (a : xr) : bool := match a with Fin _ => true | _ => false end.
Definition isnan (a : xr) : bool := match a with NaN => true | _ => false end.

Definition xneg (a : xr) : xr :=
  match a with Fin x => Fin (- x) | PInf => NInf | NInf => PInf | NaN => NaN end.
Definition xadd (a b : xr) : xr :=
  match a, b with
  | Fin x, Fin y => Fin (x + y)
  | NaN, _ | _, NaN => NaN
  | PInf, NInf | NInf, PInf => NaN
  | PInf, _ | _, PInf => PInf
  | NInf, _ | _, NInf => NInf
  end.
Definition xsub (a b : xr) : xr := xadd a (xneg b).

Inductive sgn := SPos | SNeg | SZero.
Definition rsgn (x : R) : sgn := if Rltb 0 x then SPos else if Rltb x 0 then SNeg else SZero.
Definition xsgn (a : xr) : sgn :=
  match a with Fin x => rsgn x | PInf => SPos | NInf => SNeg | NaN => SZero end.
Definition inf_of (s t : sgn) : xr :=
  match s, t with
  | SZero, _ | _, SZero => NaN
  | SPos, SPos | SNeg, SNeg => PInf
  | _, _ => NInf
  end.
Definition xmul (a b : xr) : xr :=
  match a, b with
  | Fin x, Fin y => Fin (x * y)
  | NaN, _ | _, NaN => NaN
  | _, _ => inf_of (xsgn a) (xsgn b)
  end.
Definition xdiv (a b : xr) : xr :=
  match a, b with
  | NaN, _ | _, NaN => NaN
  | Fin x, Fin y =>
      if Reqb y 0 then inf_of (rsgn x) SPos  (* x/0: inf with the sign of x, 0/0 = nan *)
      else Fin (x / y)
  | Fin _, _ => Fin 0
  | _, Fin y => if Reqb y 0 then inf_of (xsgn a) SPos else inf_of (xsgn a) (rsgn y)
  | _, _ => NaN
  end.
Definition xsqrt (a : xr) : xr :=
  match a with
  | Fin x => if Rltb x 0 then NaN else Fin (sqrt x)
  | PInf => PInf
  | _ => NaN
  end.
