(** ngmix/runners.py and ngmix/bootstrap.py.

    The fitter and the guesser are arbitrary: functions of the observations, of a state of
    their own (random generators, counters, data) and of their arguments, which may raise.
    They do not change observations.  A result is seen through res['flags'] (None: no such
    key) and res.get_gmix() (None: no such method).

    Observations, lists and meta dicts are objects in memory, referred to by number.  Of an
    observation, its psf, its meta dict and its mixture are kept; of a meta dict the key
    'result'; nothing else is touched by this code. *)
From Verif Require Import Base GMixObj_Model Jacobian_Model.

Inductive arg := AObs (i : nat) | AList (i : nat) | AMb (i : nat) | AOther.
Record robs := mkRo { ro_psf : option nat; ro_meta : nat; ro_gmix : option gmobj }.
(** ObsList (items are observations) or MultiBandObsList (items are lists) *)
Record clist := mkCl { cl_items : list nat; cl_meta : nat }.

Section Runners.
Variables (W G rslt : Type).
Variable r_flags : rslt -> option Z.
Variable r_get_gmix : rslt -> option (res gmobj).

Record rmem := mkMem { m_obs : list robs; m_dict : list (option rslt); m_lists : list clist; m_mbs : list clist }.
Definition state : Type := rmem * W.

Variable fitter_go : rmem -> W -> arg -> option G -> W * res rslt.
Variable guesser : option (rmem -> W -> arg -> W * res G).

(** ngmix/runners.py:140-144, one try *)
Definition attempt (a : arg) (s : state) : state * res rslt :=
  let (m, w) := s in
  match guesser with
  | Some gs =>
      match gs m w a with
      | (w', Raise e) => ((m, w'), Raise e)
      | (w', Ok guess) => let (w'', r) := fitter_go m w' a (Some guess) in ((m, w''), r)
      end
  | None => let (w', r) := fitter_go m w a None in ((m, w'), r)
  end.
(** ngmix/runners.py:138-149; last is the variable res *)
Fixpoint try_loop (n : nat) (a : arg) (last : option rslt) (s : state) : state * res rslt :=
  match n with
  | O => (s, match last with Some r => Ok r | None => Raise UnboundLocalError end)
  | S n =>
      match attempt a s with
      | (s', Raise e) => (s', Raise e)
      | (s', Ok r) =>
          match r_flags r with
          | None => (s', Raise KeyError)
          | Some f => if Z.eqb f 0 then (s', Ok r) else try_loop n a (Some r) s'
          end
      end
  end.
(** ngmix/runners.py:115-149 run_fitter; also Runner.go (42-58) *)
Definition run_fitter (a : arg) (ntry : nat) (s : state) : state * res rslt := try_loop ntry a None s.

(** writes to memory; not reached with a number out of range *)
Definition set_result_in (m : rmem) (d : nat) (r : rslt) : rmem :=
  mkMem (m_obs m) (upd (m_dict m) d (Some r)) (m_lists m) (m_mbs m).
Definition set_gmix_in (m : rmem) (i : nat) (g : option gmobj) : rmem :=
  mkMem (match nth_error (m_obs m) i with
         | Some o => upd (m_obs m) i (mkRo (ro_psf o) (ro_meta o) g)
         | None => m_obs m end) (m_dict m) (m_lists m) (m_mbs m).
(** ngmix/observation.py:595-611 set_gmix: the old mixture is deleted first *)
Definition obs_set_gmix (m : rmem) (i : nat) (g : gmobj) : rmem * res unit :=
  match obj_copy g with
  | Ok g' => (set_gmix_in m i (Some g'), Ok tt)
  | Raise e => (set_gmix_in m i None, Raise e)
  end.

(** ngmix/runners.py:216-220 *)
Definition store (t : nat) (o : robs) (r : rslt) (m : rmem) : rmem * res unit :=
  let m := set_result_in m (ro_meta o) r in
  match r_flags r with
  | None => (m, Raise KeyError)
  | Some f =>
      if Z.eqb f 0 then
        match r_get_gmix r with
        | None => (m, Ok tt)
        | Some (Raise e) => (m, Raise e)
        | Some (Ok g) => obs_set_gmix m t g
        end
      else (m, Ok tt)
  end.
(** ngmix/runners.py:203-222, one observation *)
Definition psf_fit_obs (ntry : nat) (set_result : bool) (i : nat) (s : state) : state * res rslt :=
  match nth_error (m_obs (fst s)) i with
  | None => (s, Raise OtherError) (* not reached *)
  | Some o =>
      let t := match ro_psf o with Some p => p | None => i end in
      match run_fitter (AObs t) ntry s with
      | (s', Raise e) => (s', Raise e)
      | ((m, w), Ok r) =>
          if set_result then
            match nth_error (m_obs m) t with
            | None => ((m, w), Raise OtherError) (* not reached *)
            | Some ot =>
                match store t ot r m with
                | (m', Ok _) => ((m', w), Ok r)
                | (m', Raise e) => ((m', w), Raise e)
                end
            end
          else ((m, w), Ok r)
      end
  end.
(** a loop that collects results *)
Fixpoint collect {A B} (f : A -> state -> state * res B) (l : list A) (s : state) : state * res (list B) :=
  match l with
  | [] => (s, Ok [])
  | x :: l =>
      match f x s with
      | (s', Raise e) => (s', Raise e)
      | (s', Ok y) => match collect f l s' with
                      | (s'', Raise e) => (s'', Raise e)
                      | (s'', Ok ys) => (s'', Ok (y :: ys))
                      end
      end
  end.
(** ngmix/runners.py:192-201, a list *)
Definition psf_fit_list (ntry : nat) (set_result : bool) (i : nat) (s : state) : state * res (list rslt) :=
  match nth_error (m_lists (fst s)) i with
  | None => (s, Raise OtherError) (* not reached *)
  | Some l => collect (psf_fit_obs ntry set_result) (cl_items l) s
  end.
Inductive psf_res := PRes (r : rslt) | PList (l : list rslt) | PMb (l : list (list rslt)).
(** ngmix/runners.py:152-227 run_psf_fitter; also PSFRunner.go (83-112) *)
Definition run_psf_fitter (a : arg) (ntry : nat) (set_result : bool) (s : state) : state * res psf_res :=
  match a with
  | AMb i => match nth_error (m_mbs (fst s)) i with
             | None => (s, Raise OtherError) (* not reached *)
             | Some b => let (s', r) := collect (psf_fit_list ntry set_result) (cl_items b) s in (s', rmap PMb r)
             end
  | AList i => let (s', r) := psf_fit_list ntry set_result i s in (s', rmap PList r)
  | AObs i => let (s', r) := psf_fit_obs ntry set_result i s in (s', rmap PRes r)
  | AOther => (s, Raise ValueError)
  end.

(** ** ngmix/bootstrap.py *)
(** tobs.psf.meta['result']['flags'] *)
Definition psf_flags (m : rmem) (i : nat) : res Z :=
  match nth_error (m_obs m) i with
  | None => Raise OtherError (* not reached *)
  | Some o =>
      match ro_psf o with
      | None => Raise AttributeError
      | Some p =>
          match nth_error (m_obs m) p with
          | None => Raise OtherError (* not reached *)
          | Some op =>
              match nth_error (m_dict m) (ro_meta op) with
              | None => Raise OtherError (* not reached *)
              | Some None => Raise KeyError
              | Some (Some r) => match r_flags r with None => Raise KeyError | Some f => Ok f end
              end
          end
      end
  end.
(** ObsList(meta=...), MultiBandObsList(meta=...) and append *)
Definition add_list (m : rmem) (c : clist) : rmem := mkMem (m_obs m) (m_dict m) (m_lists m ++ [c]) (m_mbs m).
Definition add_mb (m : rmem) (c : clist) : rmem := mkMem (m_obs m) (m_dict m) (m_lists m) (m_mbs m ++ [c]).
Definition push (l : list clist) (k x : nat) : list clist :=
  match nth_error l k with Some c => upd l k (mkCl (cl_items c ++ [x]) (cl_meta c)) | None => l end.
Definition append_list (m : rmem) (k x : nat) : rmem := mkMem (m_obs m) (m_dict m) (push (m_lists m) k x) (m_mbs m).
Definition append_mb (m : rmem) (k x : nat) : rmem := mkMem (m_obs m) (m_dict m) (m_lists m) (push (m_mbs m) k x).
(** ngmix/bootstrap.py:125-127 and 139-141: copy the good ones to list k *)
Fixpoint keep_good (items : list nat) (k : nat) (m : rmem) : rmem * res unit :=
  match items with
  | [] => (m, Ok tt)
  | i :: items =>
      match psf_flags m i with
      | Raise e => (m, Raise e)
      | Ok f => keep_good items k (if Z.eqb f 0 then append_list m k i else m)
      end
  end.
(** ngmix/bootstrap.py:124-130 and 138-144: one list; the number of the new list *)
Definition remove_list (i : nat) (m : rmem) : rmem * res nat :=
  match nth_error (m_lists m) i with
  | None => (m, Raise OtherError) (* not reached *)
  | Some l =>
      let k := length (m_lists m) in
      match keep_good (cl_items l) k (add_list m (mkCl [] (cl_meta l))) with
      | (m', Raise e) => (m', Raise e)
      | (m', Ok _) =>
          match nth_error (m_lists m') k with
          | None => (m', Raise OtherError) (* not reached *)
          | Some c => (m', if Nat.eqb (length (cl_items c)) 0 then Raise BootPSFFailure else Ok k)
          end
      end
  end.
(** ngmix/bootstrap.py:121-132 *)
Fixpoint remove_lists (items : list nat) (k : nat) (m : rmem) : rmem * res unit :=
  match items with
  | [] => (m, Ok tt)
  | i :: items =>
      match remove_list i m with
      | (m', Raise e) => (m', Raise e)
      | (m', Ok j) => remove_lists items k (append_mb m' k j)
      end
  end.
(** ngmix/bootstrap.py:104-154 remove_failed_psf_obs *)
Definition remove_failed_psf_obs (a : arg) (m : rmem) : rmem * res arg :=
  match a with
  | AMb i => match nth_error (m_mbs m) i with
             | None => (m, Raise OtherError) (* not reached *)
             | Some b =>
                 let k := length (m_mbs m) in
                 match remove_lists (cl_items b) k (add_mb m (mkCl [] (cl_meta b))) with
                 | (m', Raise e) => (m', Raise e)
                 | (m', Ok _) => (m', Ok (AMb k))
                 end
             end
  | AList i => let (m', r) := remove_list i m in (m', rmap AList r)
  | AObs i => (m, let* f := psf_flags m i in if Z.eqb f 0 then Ok a else Raise BootPSFFailure)
  | AOther => (m, Raise ValueError)
  end.

End Runners.
Arguments mkMem {rslt}. Arguments m_obs {rslt}. Arguments m_dict {rslt}. Arguments m_lists {rslt}. Arguments m_mbs {rslt}.
Arguments PRes {rslt}. Arguments PList {rslt}. Arguments PMb {rslt}.
Arguments set_result_in {rslt}. Arguments set_gmix_in {rslt}. Arguments obs_set_gmix {rslt}. Arguments add_list {rslt}. Arguments add_mb {rslt}.
Arguments append_list {rslt}. Arguments append_mb {rslt}. Arguments collect {W rslt A B}.

(** ngmix/bootstrap.py:63-101 bootstrap, with a Runner and a PSFRunner as runners; the two
    have fitters and guessers of their own *)
Section Bootstrap.
Variables (W G rslt : Type).
Variable r_flags : rslt -> option Z.
Variable r_get_gmix : rslt -> option (res gmobj).
Record runner := mkRun { ru_fitter : rmem rslt -> W -> arg -> option G -> W * res rslt;
                         ru_guesser : option (rmem rslt -> W -> arg -> W * res G); ru_ntry : nat }.
Definition bootstrap (a : arg) (run : runner) (psf_run : option (runner * bool)) (ignore_failed_psf : bool) (s : rmem rslt * W)
  : (rmem rslt * W) * res rslt :=
  let go a s := run_fitter W G rslt r_flags (ru_fitter run) (ru_guesser run) a (ru_ntry run) s in
  match psf_run with
  | None => go a s
  | Some (pr, set_result) =>
      match run_psf_fitter W G rslt r_flags r_get_gmix (ru_fitter pr) (ru_guesser pr) a (ru_ntry pr) set_result s with
      | (s', Raise e) => (s', Raise e)
      | ((m, w), Ok _) =>
          if ignore_failed_psf then
            match remove_failed_psf_obs rslt r_flags a m with
            | (m', Raise e) => ((m', w), Raise e)
            | (m', Ok a') => go a' (m', w)
            end
          else go a (m, w)
      end
  end.
End Bootstrap.
