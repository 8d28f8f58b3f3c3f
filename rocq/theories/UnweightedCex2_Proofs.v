(** C146: adaptive moments that are given pixels without weight, and the fluxes of psf guesses. *)
From Verif Require Import Base XReal Moments_Spec Jacobian_Model Pixels_Model GMix_Model GMix_Spec GMix_Proofs Render_Model Render_Spec Render_Proofs GMixObj_Model Flags_Model WSums_Model WSums_Proofs MomResult_Model
  EM_Model EM_Spec EM_Proofs Admom_Model Admom_Spec Admom_Proofs Admom2_Proofs Admom3_Proofs Admom4_Proofs Admom5_Proofs Guessers_Model PSFGuess_Model Unweighted_Spec.
From Verif Require Unweighted_Proofs.
Local Open Scope R_scope.

(** a flux that is not positive stops the iteration before the errors are looked at *)
Lemma no_flux c o wt : good_guess wt -> (0 < ac_maxiter c)%nat -> low <= det2 (cov0_of wt) -> Forall evaluable wt -> wflux (plain wt) (ao_pix o) <= 0 ->
  exists d, snd (am_run c o wt) = Ok d.
Proof.
  intros [NE CO] N LD EV F. set (px := ao_pix o) in *. unfold am_run. fold px. unfold admom. destruct wt as [|g0 wt0] eqn:EW; [congruence|]. rewrite <- EW in *.
  destruct (ac_maxiter c) as [|n]; [lia|]. cbn [am_loop].
  assert (IT : exists s', am_iter c (g_row g0) (g_col g0) px (mkAs wt am_rec0 None) = (s', Ok true) /\ as_wt s' <> [] /\ ar_flags (as_rec s') = NONPOS_FLUX).
  { unfold am_iter. cbn [as_wt as_rec as_old]. rewrite EW. cbn [cov0_of] in LD. rewrite EW in LD. cbn [cov0_of] in LD.
    assert (C0 : coherent g0) by (rewrite EW in CO; apply Forall_cons_iff in CO; apply CO). rewrite C0. unfold GMIX_LOW_DETVAL. fold low. rewrite Rltb_f by lra. rewrite <- EW.
    destruct (norms_ok _ CO EV) as (wt1 & -> & V). destruct wt1 as [|g1 rest]; [rewrite EW in V; inversion V|].
    destruct (vis_plain _ _ V) as (V1 & P1 & C1). clear V.
    destruct (censums (plain wt) (g1 :: rest) px V1 wsums_zero) as (ws & -> & A0 & A1 & A5). cbn [ws_sums wsums_zero] in A5.
    rewrite Rplus_0_l in A5. rewrite A5. rewrite Rleb_t by exact F. unfold stop_with. eexists. split; [reflexivity|]. cbn. split; [discriminate|reflexivity]. }
  destruct IT as (s' & -> & NW & FL). destruct (as_wt s') as [|g rest] eqn:EW'; [congruence|]. cbn [norm0 bind ar_flags]. rewrite FL.
  set (fl := if Nat.eqb 1 (S n) then MAXITER else NONPOS_FLUX). assert (Z0 : Z.eqb fl 0 = false) by (unfold fl; destruct (Nat.eqb 1 (S n)); reflexivity).
  unfold get_result. cbn [ar_flags ar_ws ar_pars ar_rho4 ar_numiter]. rewrite Z0. cbn [bind].
  match goal with |- context [forallb ?f ?l] => destruct (forallb f l) end.
  - rewrite Z0. cbn [bind]. eexists. reflexivity.
  - destruct (Z.eqb_spec (Z.lor fl NONPOS_VAR) 0) as [Q|Q]; [|cbn [bind]; eexists; reflexivity]. exfalso. unfold fl in Q. destruct (Nat.eqb 1 (S n)); cbv in Q; discriminate.
Qed.
Lemma kept_used : exists c wt j p p' d, Forall2 pix_alike p p' /\ good_guess wt /\ snd (am_run c (mkAo p j) wt) = Raise ZeroDivisionError /\ snd (am_run c (mkAo p' j) wt) = Ok d.
Proof.
  set (p := [mkPix 0 0 1 1 1; mkPix 0 0 1 1 0]). set (p' := [mkPix 0 0 1 1 1; mkPix 0 0 1 (-1) 0]).
  destruct zero_weight_sample as (G & _ & Z).
  assert (F : wflux (plain [gU 0]) p' <= 0).
  { change (plain [gU 0]) with [gU 0]. unfold wflux, wtd, p'. cbn [map]. rewrite !rsum_cons, rsum_nil. unfold am_weight. cbn [map]. rewrite !rsum_cons, !rsum_nil.
    change (in_pixel (gU 0) (mkPix 0 0 1 (-1) 0)) with (in_pixel (gU 0) (mkPix 0 0 1 1 1)). cbn [px_val]. lra. }
  pose proof low_small.
  destruct (no_flux confU (mkAo p' jac1) [gU 0]) as (d & D); [exact G|cbn; lia|unfold gU, gauss2d_set, cov0_of, gcov, cov, det2; cbn; lra|constructor; [apply gU_evaluable|constructor]|exact F|].
  exists confU, [gU 0], jac1, p, p', d. split; [|split; [exact G|split; [exact Z|exact D]]].
  constructor; [repeat split|constructor; [|constructor]]. repeat split. cbn. intros X. lra.
Qed.

(** the default flux is the sum of the image, whatever the weights *)
Lemma guess_used : exists w im im' px j T f f', images_alike w im im' /\ make_pixels im w j true = px /\ make_pixels im' w j true = px /\
  get_T_flux false (mkGobs im px j) = Some (Ok (T, f)) /\ get_T_flux false (mkGobs im' px j) = Some (Ok (T, f')) /\ f <> f'.
Proof.
  set (w := mkArr 1 2 (fun _ c : nat => match c with O => 1 | _ => 0 end)). set (im := fun x : R => mkArr 1 2 (fun _ c : nat => match c with O => 1 | _ => x end)).
  assert (A : images_alike w (im 0) (im 5)).
  { do 4 (split; [reflexivity|]). intros r c _ Hc. cbn in *. destruct c as [|[|c]]; [reflexivity| |lia]. intros; lra. }
  set (j := mkJac 0 0 1 0 0 1 1 1). exists w, (im 0), (im 5), (make_pixels (im 0) w j true), j. unfold get_T_flux, T_flux_default. cbn [gb_jac gb_image].
  do 3 eexists. split; [exact A|]. split; [reflexivity|]. split; [apply Unweighted_Proofs.pixels_same; exact A|]. split; [reflexivity|]. split; [reflexivity|].
  unfold image_sum. cbn. lra.
Qed.
