(** C128: models by name and by number. *)
From Coq Require Import String.
From Verif Require Import Base GMix_Model GMixObj_Model ModelTable_Model ModelTable_Spec ModelTable_Proofs FitCex_Proofs.
Local Open Scope string_scope.
Local Open Scope list_scope.

(** get_model_num and get_model_name know exactly the documented models, by name and by
    number, and are inverse to each other; anything else is a ValueError *)
Theorem C128_names_and_numbers : forall k,
  (forall n, get_model_num k = Ok n <-> exists s, is_model k s n) /\
  (forall s, get_model_name k = Ok s <-> exists n, is_model k s n) /\
  (forall s n, is_model k s n -> get_model_num k = Ok n /\ get_model_name k = Ok s) /\
  (unknown k -> get_model_num k = Raise ValueError /\ get_model_name k = Raise ValueError /\ get_model_npars k = Raise ValueError /\
     forall pars, make_gmix_model pars k = Raise ValueError).
Proof. intros k. split; [apply num_ok|]. split; [apply name_ok|]. split; [apply known_num|apply unknown_raises]. Qed.
Print Assumptions C128_names_and_numbers.
Example C128_names_and_numbers_hypotheses_hold : is_model (KStr "bdf") "bdf" 6 /\ is_model (KNum 6) "bdf" 6 /\ unknown (KStr "sersic") /\ unknown (KNum 8).
Proof.
  split; [split; [cbn; tauto|auto]|]. split; [split; [cbn; tauto|auto]|].
  split; intros s n (H & [D|D]); cbn in H; repeat (destruct H as [H|H]; [injection H as <- <-; discriminate D|]); contradiction.
Qed.

(** the number of parameters and the mixture that is built are the same for a name and for
    its number *)
Theorem C128_interchangeable : by_model get_model_npars /\ forall pars, by_model (make_gmix_model pars) /\ by_model (gmix_model_init pars).
Proof. split; [exact npars_by_model|]. intros pars. split; [apply make_by_model|apply init_by_model]. Qed.
Print Assumptions C128_interchangeable.

(** the number of gaussians is not: by name, these models are unknown *)
Theorem C128_ngauss_refuted : forall s, In s ["cm"; "bd"; "bdf"; "bdc"] ->
  exists n, In (s, n) documented /\ get_model_ngauss (KNum n) = Ok 16%nat /\ get_model_ngauss (KStr s) = Raise ValueError.
Proof.
  intros s H. cbn [In] in H. repeat (destruct H as [<-|H]; [eexists; split; [cbn; tauto|split; reflexivity]|]). contradiction.
Qed.
Print Assumptions C128_ngauss_refuted.

(** a mixture has the number of gaussians and parameters of its model; parameters of another
    number are a ValueError *)
Theorem C128_sizes : forall s ng np k n, In (s, ng, np) sizes -> is_model k s n ->
  get_model_npars k = Ok np /\ get_model_ngauss (KNum n) = Ok ng /\
  forall pars, (length pars <> np -> make_gmix_model pars k = Raise ValueError) /\
    forall o, make_gmix_model pars k = Ok o -> length pars = np /\ o_pars o = pars /\ o_ngauss o = ng /\ o_npars o = np.
Proof. exact sizes_right. Qed.
Print Assumptions C128_sizes.
Example C128_sizes_hypotheses_hold : In ("gauss", 1, 6)%nat sizes /\ is_model (KNum 1) "gauss" 1 /\ exists o, make_gmix_model gpars (KNum 1) = Ok o.
Proof.
  split; [cbn; tauto|]. split; [split; [cbn; tauto|auto]|]. exists gobj.
  change (make_gmix_model gpars (KNum 1)) with (new_model Mgauss gpars). exact gobj_made.
Qed.

(** for known models without fixed size get_model_npars does not raise the ValueError of an
    unknown model, but KeyError *)
Theorem C128_npars_refuted : forall k, is_model k "full" 0 \/ is_model k "coellip" 7 -> get_model_npars k = Raise KeyError.
Proof. intros k [(_ & [-> | ->])|(_ & [-> | ->])]; reflexivity. Qed.
Print Assumptions C128_npars_refuted.
Example C128_npars_hypotheses_hold : is_model (KStr "full") "full" 0 /\ is_model (KNum 7) "coellip" 7.
Proof. split; (split; [cbn; tauto|auto]). Qed.

(** two models cannot be built from any parameters: cm, although the documentation of
    make_gmix_model lists it, and bdc, although it has a number of gaussians and parameters *)
Theorem C128_cannot_build_refuted : forall pars k,
  (is_model k "cm" 9 -> exists e, make_gmix_model pars k = Raise e /\ (length pars = 6%nat -> e = TypeError)) /\
  (is_model k "bdc" 5 -> make_gmix_model pars k = Raise ValueError).
Proof. intros pars k. split; [apply cm_raises|apply bdc_raises]. Qed.
Print Assumptions C128_cannot_build_refuted.
Example C128_cannot_build_hypotheses_hold : is_model (KStr "cm") "cm" 9 /\ is_model (KNum 5) "bdc" 5 /\ In ("bdc", 16, 8)%nat sizes.
Proof. split; [split; [cbn; tauto|auto]|]. split; [split; [cbn; tauto|auto]|cbn; tauto]. Qed.
