(** C151 *)
From Verif Require Import Base Pixels_Model Joint_Model Joint_Spec Joint_Proofs Widths_Model Widths_Spec Widths_Proofs.
Local Open Scope R_scope.

(** the first call: one width for each parameter, of the samples of its own prior, and 2 for the shape *)
Theorem C151_first_call : forall W (cen g : sampler2 W) mid Fs n w arrays, full2 cen -> Forall full1 (mid ++ Fs) -> (0 < n)%nat ->
  let smp := sep_sample cen g mid Fs in
  exists out s, answer smp (new_prior w arrays) n = Some out /\ length out = (4 + length (mid ++ Fs))%nat /\ widths_spec cen g (mid ++ Fs) n w out /\
    get_widths smp (new_prior w arrays) n = Some (s, length arrays) /\ ws_rng s = fst (smp w n).
Proof. intros W cen g mid Fs n w arrays. cbv zeta. exact (first_call W cen g (mid ++ Fs) (sep_sample cen g mid Fs) n w arrays (sep_sample_ok W cen g mid Fs)). Qed.
Print Assumptions C151_first_call.
(** any number of later calls give the same array and draw nothing, for any way of sampling *)
Theorem C151_later_calls : forall W (smp : W -> nat -> W * arr2 R) w arrays n l, (0 < n)%nat -> asked l ->
  exists s i out, get_widths smp (new_prior w arrays) n = Some (s, i) /\ answer smp (new_prior w arrays) n = Some out /\
    wrun smp (new_prior w arrays) (Ask n :: l) = Some s /\ ws_rng s = fst (smp w n) /\ (forall k, get_widths smp s k = Some (s, i) /\ answer smp s k = Some out).
Proof. exact later_calls. Qed.
Print Assumptions C151_later_calls.
(** so nrand of a later call is ignored *)
Theorem C151_number_refuted : exists s i out, get_widths count_sample (new_prior tt []) 1 = Some (s, i) /\ answer count_sample s 2 = Some out /\
  ~ widths_spec count2 count2 [count1; count1] 2 (ws_rng s) out.
Proof. exact other_number. Qed.
Print Assumptions C151_number_refuted.
(** and a caller that changes the array it was given changes what later calls return *)
Theorem C151_shared_refuted : exists s out out', (exists i, get_widths count_sample (new_prior tt []) 2 = Some (s, i)) /\ answer count_sample (new_prior tt []) 2 = Some out /\
  (exists s', wrun count_sample (new_prior tt []) [Ask 2; Write 0 0 7] = Some s' /\ answer count_sample s' 2 = Some out') /\ out' <> out.
Proof. exact written. Qed.
Print Assumptions C151_shared_refuted.
(** the width of the first size of a coelliptical prior is that of a sum of two draws *)
Theorem C151_coellip_refuted : exists out, answer count_coellip (new_prior tt []) 2 = Some out /\ ~ widths_spec count2 count2 [count1; count1] 2 tt out.
Proof. exact coellip_widths. Qed.
Print Assumptions C151_coellip_refuted.
Example C151_hypotheses_hold : full2 count2 /\ Forall full1 ([count1] ++ [count1]) /\ asked [Ask 3; Ask 5] /\ is_std [0; 2] 2 1.
Proof.
  split; [apply count_full|]. split; [apply count_full|]. split; [repeat constructor|]. split; [reflexivity|]. split; [lra|]. exists 1. cbn. lra.
Qed.
