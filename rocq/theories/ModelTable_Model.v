(** Model of the tables of models and of what looks them up: ngmix/gmix/gmix.py:37-60, 869-877,
    917-930, 1067-1160 and 1212-1249.

    A model is given by a string or by a number; other keys (and numbers that are not integers)
    are not modelled. *)
From Coq Require Import String.
From Verif Require Import Base GMix_Model GMixObj_Model.
Local Open Scope string_scope.
Local Open Scope list_scope.

Inductive mkey := KStr (s : string) | KNum (n : Z).
Definition key_eqb (a b : mkey) : bool :=
  match a, b with KStr s, KStr t => String.eqb s t | KNum m, KNum n => Z.eqb m n | _, _ => false end.
Fixpoint lookup {A} (d : list (mkey * A)) (k : mkey) : option A :=
  match d with [] => None | (k', v) :: d => if key_eqb k' k then Some v else lookup d k end.

(** ngmix/gmix/gmix.py:1067-1077 *)
Definition GMIX_FULL := 0%Z.
Definition GMIX_GAUSS := 1%Z.
Definition GMIX_TURB := 2%Z.
Definition GMIX_EXP := 3%Z.
Definition GMIX_DEV := 4%Z.
Definition GMIX_BDC := 5%Z.
Definition GMIX_BDF := 6%Z.
Definition GMIX_COELLIP := 7%Z.
Definition GMIX_CM := 9%Z.
Definition GMIX_BD := 10%Z.

(** ngmix/gmix/gmix.py:1079-1100 *)
Definition gmix_model_dict : list (mkey * Z) :=
  [(KStr "full", GMIX_FULL); (KNum GMIX_FULL, GMIX_FULL); (KStr "gauss", GMIX_GAUSS); (KNum GMIX_GAUSS, GMIX_GAUSS);
   (KStr "turb", GMIX_TURB); (KNum GMIX_TURB, GMIX_TURB); (KStr "exp", GMIX_EXP); (KNum GMIX_EXP, GMIX_EXP);
   (KStr "dev", GMIX_DEV); (KNum GMIX_DEV, GMIX_DEV); (KStr "bdc", GMIX_BDC); (KNum GMIX_BDC, GMIX_BDC);
   (KStr "bd", GMIX_BD); (KNum GMIX_BD, GMIX_BD); (KStr "bdf", GMIX_BDF); (KNum GMIX_BDF, GMIX_BDF);
   (KNum GMIX_CM, GMIX_CM); (KStr "cm", GMIX_CM); (KStr "coellip", GMIX_COELLIP); (KNum GMIX_COELLIP, GMIX_COELLIP)].
(** ngmix/gmix/gmix.py:1102-1123 *)
Definition gmix_string_dict : list (mkey * string) :=
  [(KNum GMIX_FULL, "full"); (KStr "full", "full"); (KNum GMIX_GAUSS, "gauss"); (KStr "gauss", "gauss");
   (KNum GMIX_TURB, "turb"); (KStr "turb", "turb"); (KNum GMIX_EXP, "exp"); (KStr "exp", "exp");
   (KNum GMIX_DEV, "dev"); (KStr "dev", "dev"); (KNum GMIX_BDC, "bdc"); (KStr "bdc", "bdc");
   (KNum GMIX_BD, "bd"); (KStr "bd", "bd"); (KNum GMIX_BDF, "bdf"); (KStr "bdf", "bdf");
   (KNum GMIX_CM, "cm"); (KStr "cm", "cm"); (KNum GMIX_COELLIP, "coellip"); (KStr "coellip", "coellip")].
(** ngmix/gmix/gmix.py:1126-1135 *)
Definition gmix_npars_dict : list (mkey * nat) :=
  [(KNum GMIX_GAUSS, 6); (KNum GMIX_TURB, 6); (KNum GMIX_EXP, 6); (KNum GMIX_DEV, 6); (KNum GMIX_CM, 6);
   (KNum GMIX_BD, 8); (KNum GMIX_BDF, 7); (KNum GMIX_BDC, 8)]%nat.
(** ngmix/gmix/gmix.py:1137-1160 *)
Definition gmix_ngauss_dict : list (mkey * nat) :=
  [(KNum GMIX_GAUSS, 1); (KStr "gauss", 1); (KNum GMIX_TURB, 3); (KStr "turb", 3); (KNum GMIX_EXP, 6); (KStr "exp", 6);
   (KNum GMIX_DEV, 10); (KStr "dev", 10); (KNum GMIX_CM, 16); (KNum GMIX_BD, 16); (KNum GMIX_BDF, 16); (KNum GMIX_BDC, 16);
   (KStr "em1", 1); (KStr "em2", 2); (KStr "em3", 3); (KStr "em4", 4); (KStr "em5", 5);
   (KStr "coellip1", 1); (KStr "coellip2", 2); (KStr "coellip3", 3); (KStr "coellip4", 4); (KStr "coellip5", 5)]%nat.

(** ngmix/gmix/gmix.py:1212-1219 *)
Definition get_model_num (k : mkey) : res Z := match lookup gmix_model_dict k with None => Raise ValueError | Some n => Ok n end.
(** ngmix/gmix/gmix.py:1222-1229 *)
Definition get_model_name (k : mkey) : res string := match lookup gmix_string_dict k with None => Raise ValueError | Some s => Ok s end.
(** ngmix/gmix/gmix.py:1232-1238 *)
Definition get_model_ngauss (k : mkey) : res nat := match lookup gmix_ngauss_dict k with None => Raise ValueError | Some n => Ok n end.
(** ngmix/gmix/gmix.py:1241-1249 *)
Definition get_model_npars (k : mkey) : res nat :=
  match lookup gmix_model_dict k with
  | None => Raise ValueError
  | Some mi => match lookup gmix_npars_dict (KNum mi) with None => Raise KeyError | Some n => Ok n end
  end.

(** ngmix/gmix/gmix_nb.py:587-597 _gmix_fill_functions; "cm" needs arguments that GMixModel._fill
    (ngmix/gmix/gmix.py:396-412) does not pass, which is a TypeError *)
Inductive fillf := FillCM | Fill (k : kind).
Definition gmix_fill_functions : list (mkey * fillf) :=
  [(KStr "exp", Fill (KModel Mexp)); (KStr "dev", Fill (KModel Mdev)); (KStr "turb", Fill (KModel Mturb)); (KStr "gauss", Fill (KModel Mgauss));
   (KStr "cm", FillCM); (KStr "bd", Fill (KModel Mbd)); (KStr "bdf", Fill (KModel Mbdf)); (KStr "coellip", Fill KCoellip); (KStr "full", Fill KFull)].

(** ngmix/gmix/gmix.py:917-930 GMixModel.__init__, 869-877 _set_fill_func *)
Definition gmix_model_init (pars : list R) (model : mkey) : res gmobj :=
  let* num := get_model_num model in
  let* name := get_model_name (KNum num) in
  let* ngauss := get_model_ngauss (KNum num) in
  let* npars := get_model_npars (KNum num) in
  match lookup gmix_fill_functions (KStr name) with
  | None => Raise ValueError
  | Some FillCM => if negb (Nat.eqb (List.length pars) npars) then Raise ValueError else Raise TypeError
  | Some (Fill k) => finish (obj_fill (blank k ngauss npars) pars)
  end.
(** ngmix/gmix/gmix.py:37-60 *)
Definition make_gmix_model (pars : list R) (model : mkey) : res gmobj :=
  let* num := get_model_num model in
  if Z.eqb num GMIX_COELLIP then new_coellip pars
  else if Z.eqb num GMIX_FULL then new_full pars
  else gmix_model_init pars (KNum num).
