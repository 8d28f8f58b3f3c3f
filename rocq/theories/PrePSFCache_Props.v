(** Theorem on the caches of ngmix/prepsfmom.py: C77. *)
From Verif Require Import Base XReal Jacobian_Model Pixels_Model MomResult_Model PrePSF_Model PrePSF_Spec PrePSFCache_Model PrePSFCache_Spec PrePSFCache_Proofs PrePSFCex_Proofs.
Local Open Scope R_scope.

(** in any history of calls, with caching switched on and off in between and callers writing into
    the kernels they were given, each call returns what it returns on its own without caching *)
Theorem C77_history : forall ps, Forall has_rows ps -> fst (run init ps) = flat_map returns ps.
Proof. exact history_spec. Qed.
Print Assumptions C77_history.
(** what that is *)
Theorem C77_alone : forall f o np r, go f o np = Some (Ok r) -> alone f o np false = Some (Ok (r, None)) /\
  exists K, make_kernels f (Z.to_nat (target_of f o (the_psf o np))) (wcs_of (pp_jac o)) = Ok K /\
    alone f o np true = Some (Ok (r, Some (full_kernels (Z.to_nat (target_of f o (the_psf o np))) K, k_nrm K))).
Proof.
  intros f o np r H. unfold alone. rewrite H. split; [reflexivity|]. destruct (PrePSF6_Proofs.go_runs f o np r H) as (t & K & R & _).
  pose proof (PrePSF4_Proofs.rn_K _ _ _ _ _ R) as EK. rewrite (PrePSF4_Proofs.rn_t _ _ _ _ _ R), Nat2Z.id. exists K. split; [exact EK|]. rewrite EK. reflexivity.
Qed.
Print Assumptions C77_alone.
Example C77_hypotheses_hold : exists f, (exists r, go f ex_o false = Some (Ok r)) /\
  Forall has_rows [TurnOnFft; TurnOnKern; Go f ex_o false true; Write 0%nat (OReal []); Write 9%nat (OReal []); Go f ex_o false true; TurnOffFft; Go f ex_o true false].
Proof. destruct ex_go as (f & r & H). exists f. split; [exists r; exact H|]. repeat constructor. Qed.
Print Assumptions C77_hypotheses_hold.

(** C105: the kernels that return_kernels gives hold the values of the modes used, and zero elsewhere *)
Theorem C105_returned : forall f t j K, (0 < t)%nat -> make_kernels f t j = Ok K ->
  exists a b c d e, full_kernels t K = [a; b; c; d; e] /\
  (forall i m, nth_error (k_msk K) i = Some m -> exists xf xr xp xc,
     nth_error (k_f K) i = Some xf /\ nth_error (k_r K) i = Some xr /\ nth_error (k_p K) i = Some xp /\ nth_error (k_c K) i = Some xc /\
     at2 a (fst m) (snd m) = mkC xf 0 /\ at2 b (fst m) (snd m) = mkC xr 0 /\ at2 c (fst m) (snd m) = mkC xp 0 /\ at2 d (fst m) (snd m) = mkC xc 0 /\ at2 e (fst m) (snd m) = mkC (k_00 K) 0) /\
  (forall r q, ~ In (r, q) (k_msk K) -> Forall (fun g => at2 g r q = mkC 0 0) [a; b; c; d; e]).
Proof.
  intros f t j K Ht H. pose proof (PrePSF4_Proofs.kernels_good f t j K Ht H) as G. do 5 eexists. split; [reflexivity|]. split.
  - intros i m Hm. destruct (PrePSF8_Proofs.kernels_values f t j K H) as (V & _). destruct (V i m Hm) as (u & v & rho & s & p & q & w & _ & _ & _ & _ & _ & _ & _ & A & B & C & D).
    do 4 eexists. split; [exact A|]. split; [exact B|]. split; [exact C|]. split; [exact D|].
    pose proof (PrePSF3_Proofs.gk_nodup _ _ G) as N.
    split; [apply (scatter_in t _ _ i m _ N Hm A)|]. split; [apply (scatter_in t _ _ i m _ N Hm B)|]. split; [apply (scatter_in t _ _ i m _ N Hm C)|]. split; [apply (scatter_in t _ _ i m _ N Hm D)|].
    apply (scatter_in t _ _ i m _ N Hm). exact (map_nth_error (fun _ => k_00 K) i (k_msk K) Hm).
  - intros r q N. repeat constructor; apply scatter_out; exact N.
Qed.
Print Assumptions C105_returned.
