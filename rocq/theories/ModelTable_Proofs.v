(** Models by name and by number: lemmas. *)
From Coq Require Import String.
From Verif Require Import Base GMix_Model GMixObj_Model GMixObj_Proofs ModelTable_Model ModelTable_Spec.
Local Open Scope string_scope.
Local Open Scope list_scope.

Lemma key_eqb_true a b : key_eqb a b = true -> a = b.
Proof. destruct a, b; cbn; try discriminate; intros H; f_equal; [apply String.eqb_eq|apply Z.eqb_eq]; exact H. Qed.
Lemma lookup_in {A} (d : list (mkey * A)) k v : lookup d k = Some v -> In (k, v) d.
Proof.
  induction d as [|[k' v'] d IH]; [discriminate|]. cbn. destruct (key_eqb k' k) eqn:E; [|intros H; right; exact (IH H)].
  apply key_eqb_true in E. intros [= ->]. left. congruence.
Qed.
Ltac cases H := cbn [In] in H; repeat (destruct H as [H|H]; [injection H as <- <-|]); try contradiction H.
Ltac cases3 H := cbn [In sizes] in H; repeat (destruct H as [H|H]; [injection H as <- <- <-|]); try contradiction H.
Lemma num_inv k n : lookup gmix_model_dict k = Some n -> exists s, is_model k s n.
Proof.
  intros H. apply lookup_in in H. unfold is_model, documented. cbn [gmix_model_dict In] in H.
  repeat (destruct H as [H|H]; [injection H as <- <-; eexists; split; [|auto]; cbn; tauto|]). contradiction.
Qed.
Lemma name_inv k s : lookup gmix_string_dict k = Some s -> exists n, is_model k s n.
Proof.
  intros H. apply lookup_in in H. unfold is_model, documented. cbn [gmix_string_dict In] in H.
  repeat (destruct H as [H|H]; [injection H as <- <-; eexists; split; [|auto]; cbn; tauto|]). contradiction.
Qed.
Lemma known_num k s n : is_model k s n -> get_model_num k = Ok n /\ get_model_name k = Ok s.
Proof. intros [H D]. cases H; destruct D as [-> | ->]; split; reflexivity. Qed.
Lemma num_ok k n : get_model_num k = Ok n <-> exists s, is_model k s n.
Proof.
  split; [|intros (s & H); apply (known_num _ _ _ H)]. unfold get_model_num. destruct (lookup gmix_model_dict k) eqn:E; [|discriminate].
  intros [= <-]. apply num_inv. exact E.
Qed.
Lemma name_ok k s : get_model_name k = Ok s <-> exists n, is_model k s n.
Proof.
  split; [|intros (n & H); apply (known_num _ _ _ H)]. unfold get_model_name. destruct (lookup gmix_string_dict k) eqn:E; [|discriminate].
  intros [= <-]. apply name_inv. exact E.
Qed.
Lemma unknown_raises k : unknown k ->
  get_model_num k = Raise ValueError /\ get_model_name k = Raise ValueError /\ get_model_npars k = Raise ValueError /\
  forall pars, make_gmix_model pars k = Raise ValueError.
Proof.
  intros U. assert (E : lookup gmix_model_dict k = None).
  { destruct (lookup gmix_model_dict k) eqn:E; [|reflexivity]. destruct (num_inv _ _ E) as (s & H). elim (U _ _ H). }
  assert (E2 : lookup gmix_string_dict k = None).
  { destruct (lookup gmix_string_dict k) eqn:E2; [|reflexivity]. destruct (name_inv _ _ E2) as (n & H). elim (U _ _ H). }
  unfold make_gmix_model, get_model_npars, get_model_name, get_model_num. rewrite E, E2. auto.
Qed.
Lemma npars_by_model : by_model get_model_npars.
Proof. intros s n H. cases H; reflexivity. Qed.
Lemma make_by_model pars : by_model (make_gmix_model pars).
Proof. intros s n H. cases H; reflexivity. Qed.
Lemma init_by_model pars : by_model (gmix_model_init pars).
Proof. intros s n H. cases H; reflexivity. Qed.

(** what is built *)
Definition name_of (m : mname) : string :=
  match m with Mgauss => "gauss" | Mturb => "turb" | Mexp => "exp" | Mdev => "dev" | Mbd => "bd" | Mbdf => "bdf" | Mbdc => "bdc" end.
Lemma init_new_model m pars : gmix_model_init pars (KStr (name_of m)) = new_model m pars.
Proof. destruct m; reflexivity. Qed.
Lemma make_new_model m pars : make_gmix_model pars (KStr (name_of m)) = new_model m pars.
Proof. destruct m; reflexivity. Qed.
Lemma fill_shape k ng np pars o : finish (obj_fill (blank k ng np) pars) = Ok o -> List.length pars = np /\ o_pars o = pars /\ o_ngauss o = ng /\ o_npars o = np.
Proof.
  unfold obj_fill. cbn [o_npars blank]. destruct (Nat.eqb_spec (List.length pars) np) as [E|]; cbn [negb]; [|discriminate].
  unfold obj__fill. destruct (fill_func _ _ _); [|discriminate]. intros [= <-]. cbn. auto.
Qed.
Lemma fill_wrong k ng np pars : List.length pars <> np -> finish (obj_fill (blank k ng np) pars) = Raise ValueError.
Proof. intros H. unfold obj_fill. cbn [o_npars blank]. destruct (Nat.eqb_spec (List.length pars) np) as [E|]; [congruence|]. reflexivity. Qed.
Lemma built s ng np k n pars o : In (s, ng, np) sizes -> is_model k s n -> make_gmix_model pars k = Ok o ->
  List.length pars = np /\ o_pars o = pars /\ o_ngauss o = ng /\ o_npars o = np.
Proof.
  intros Hs (Hd & Hk) H. assert (H' : make_gmix_model pars (KStr s) = Ok o) by (destruct Hk as [-> | ->]; [exact H|rewrite (make_by_model _ _ _ Hd); exact H]).
  clear H Hk k Hd. cases3 Hs; try exact (fill_shape _ _ _ _ _ H'); try discriminate H'.
  cbn in H'. destruct (negb _); discriminate H'.
Qed.
Lemma wrong_length s ng np k n pars : In (s, ng, np) sizes -> is_model k s n -> List.length pars <> np -> make_gmix_model pars k = Raise ValueError.
Proof.
  intros Hs (Hd & Hk) H. assert (H' : make_gmix_model pars k = make_gmix_model pars (KStr s)) by (destruct Hk as [-> | ->]; [reflexivity|rewrite (make_by_model _ _ _ Hd); reflexivity]).
  rewrite H'. clear H' Hk k Hd. cases3 Hs; try exact (fill_wrong _ _ _ _ H); try reflexivity.
  cbn. destruct (Nat.eqb_spec (List.length pars) 6); [congruence|reflexivity].
Qed.
Lemma cm_raises pars k : is_model k "cm" 9 -> exists e, make_gmix_model pars k = Raise e /\ (List.length pars = 6%nat -> e = TypeError).
Proof.
  intros (_ & [-> | ->]); cbn; destruct (Nat.eqb_spec (List.length pars) 6) as [E|E]; cbn [negb]; eexists; (split; [reflexivity|]); congruence.
Qed.
Lemma bdc_raises pars k : is_model k "bdc" 5 -> make_gmix_model pars k = Raise ValueError.
Proof. intros (_ & [-> | ->]); reflexivity. Qed.
Lemma sizes_right s ng np k n : In (s, ng, np) sizes -> is_model k s n ->
  get_model_npars k = Ok np /\ get_model_ngauss (KNum n) = Ok ng /\
  forall pars, (List.length pars <> np -> make_gmix_model pars k = Raise ValueError) /\
    forall o, make_gmix_model pars k = Ok o -> List.length pars = np /\ o_pars o = pars /\ o_ngauss o = ng /\ o_npars o = np.
Proof.
  intros Hs Hm. split; [|split].
  - destruct Hm as (Hd & Hk). assert (E : get_model_npars k = get_model_npars (KStr s)) by (destruct Hk as [-> | ->]; [reflexivity|rewrite (npars_by_model _ _ Hd); reflexivity]).
    rewrite E. clear - Hs. cases3 Hs; reflexivity.
  - destruct Hm as (Hd & _). cases3 Hs; cbn [In documented] in Hd; repeat (destruct Hd as [Hd|Hd]; [try discriminate Hd; injection Hd as <-; reflexivity|]); contradiction Hd.
  - intros pars. split; [intros H; exact (wrong_length _ _ _ _ _ _ Hs Hm H)|intros o H; exact (built _ _ _ _ _ _ _ Hs Hm H)].
Qed.
