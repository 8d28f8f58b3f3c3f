(** get_e1e2sigma and get_g1g2sigma; the other getters are in GMix_Model. *)
From Verif Require Import Base Shape_Model GMix_Model.

(** ngmix/gmix/gmix.py:243-252 get_e1e2sigma; None = not finite *)
Definition gm_get_e1e2sigma (gm : gmix) : option (R * R * R) :=
  match gm_get_e1e2T gm with
  | None => None
  | Some (e1, e2, T) => if Rltb T 0 then None else Some (e1, e2, sqrt (T / 2))
  end.

(** ngmix/gmix/gmix.py:254-264 get_g1g2sigma: outer None = not finite, inner Raise = |e| >= 1 *)
Definition gm_get_g1g2sigma (gm : gmix) : option (res (R * R * R)) :=
  match gm_get_e1e2T gm with
  | None => None
  | Some (e1, e2, T) =>
      match e1e2_to_g1g2 e1 e2 with
      | Raise e => Some (Raise e)
      | Ok (g1, g2) => if Rltb T 0 then None else Some (Ok (g1, g2, sqrt (T / 2)))
      end
  end.
