(** C146: where values of pixels without weight are used. *)
From Verif Require Import Base XReal Flags_Model Moments_Model Moments_Proofs Jacobian_Model Jacobian_Spec Pixels_Model FastExp_Model MomResult_Model MomResult_Spec MomResult_Proofs PrePSF_Model PrePSF_Spec PrePSF_Proofs PrePSF2_Proofs PrePSF3_Proofs PrePSF4_Proofs PrePSF6_Proofs PrePSF7_Proofs PrePSFCex_Proofs PrePSFTurn_Proofs PrePSFTurnCex_Proofs
  Unweighted_Spec Unweighted_Proofs.
From Coq Require Import Psatz.
Local Open Scope R_scope.

(** ** pre-PSF moments: the corner of a stamp of 2 x 2 pixels has no weight *)
Definition corner_wt : arr2 R := mkArr 2 2 (fun r c => match r, c with O, S O => 0 | _, _ => 1 end).
Definition corner_im (x : R) : arr2 R := mkArr 2 2 (fun r c => match r, c with O, O => 1 | O, S O => x | _, _ => 0 end).
Definition corner_o (x : R) : ppobs := mkPP (corner_im x) corner_wt d_jac (Some (d_psf, d_jac)).
Definition corner_src (x : R) : list (R * (nat * nat)) := [(1, (0%nat, 0%nat)); (x, (0%nat, 1%nat))].
Lemma corner_alike x y : images_alike corner_wt (corner_im x) (corner_im y).
Proof.
  do 4 (split; [reflexivity|]). intros r c Hr Hc. cbn in *. destruct r as [|[|r]]; [..|lia]; (destruct c as [|[|c]]; [..|lia]); cbn; intros; lra.
Qed.
Lemma corner_target z x : target_of (ex_f z) (corner_o x) (Some (d_psf, d_jac)) = Z.of_nat 2.
Proof. unfold target_of. cbn. replace ((1 + 1) * 1) with (IZR 2) by lra. unfold FastExp_Model.trunc. rewrite Rleb_t by lra. unfold Int_part. rewrite <- (tech_up (IZR 2) 3) by lra. reflexivity. Qed.
Lemma corner_window x a b msk fk : msk = [(0, 0); (0, 1); (1, 0)]%nat -> fk = [a; b; b] ->
  rsum (map (fun s => fst s * window0 2 msk fk (INR (fst (snd s)) + 0 - 0) (INR (snd (snd s)) + 0 - 0)) (corner_src x)) = (a + 2 * b) / 4 + x * (a / 4).
Proof.
  intros -> ->. unfold corner_src, window0. cbn [map fst snd combine]. rewrite !rsum_cons, !rsum_nil. unfold fftfreq. cbn [Nat.leb Nat.mul Nat.add INR].
  replace (2 * PI * (0 / (1 + 1) * (0 + 0 - 0) + 0 / (1 + 1) * (0 + 0 - 0))) with 0 by field.
  replace (2 * PI * (0 / (1 + 1) * (0 + 0 - 0) + (1 - (1 + 1)) / (1 + 1) * (0 + 0 - 0))) with 0 by field.
  replace (2 * PI * ((1 - (1 + 1)) / (1 + 1) * (0 + 0 - 0) + 0 / (1 + 1) * (0 + 0 - 0))) with 0 by field.
  replace (2 * PI * (0 / (1 + 1) * (0 + 0 - 0) + 0 / (1 + 1) * (1 + 0 - 0))) with 0 by field.
  replace (2 * PI * (0 / (1 + 1) * (0 + 0 - 0) + (1 - (1 + 1)) / (1 + 1) * (1 + 0 - 0))) with (- PI) by field.
  replace (2 * PI * ((1 - (1 + 1)) / (1 + 1) * (0 + 0 - 0) + 0 / (1 + 1) * (1 + 0 - 0))) with 0 by field.
  rewrite cos_0, cos_neg, cos_PI. field.
Qed.
Lemma corner_result z x : 1 / 2 <= z < 1 -> 5 / PI * (z * (1 + 2 * (1 - z) ^ 4)) = 1 ->
  forall K a b, make_kernels (ex_f z) 2 (wcs_of d_jac) = Ok K -> k_msk K = [(0, 0); (0, 1); (1, 0)]%nat -> k_f K = [a; b; b] ->
  exists r, go (ex_f z) (corner_o x) false = Some (Ok r) /\ m_flux r = Fin ((a + 2 * b) / 4 + x * (a / 4)).
Proof.
  intros Hz E K a b HK MK KF.
  assert (MG : margin (ft_ap (ex_f z)) = 0%nat) by (unfold margin, ex_f; cbn [ft_ap]; rewrite Rltb_f by lra; reflexivity).
  assert (SW : same_wcs d_jac d_jac = true) by (apply same_wcs_iff; reflexivity).
  destruct (psf_copies (ex_f z) (corner_o x) d_psf d_jac 2 K (corner_src x)) as (r & G & _ & MM).
  1,3,4: reflexivity. 1: exact SW. 1: cbn; lia. 1: apply corner_target. 1,2: cbn; lia. 1: exact HK.
  1: { intros kl _. rewrite d_power, d_total. unfold MIN_PSF_FRAC. lra. }
  1: cbn; lia.
  1: { rewrite MG. intros w r0 c0 [[= <- <- <-]|[[= <- <- <-]|[]]]; cbn; lia. }
  1: { intros r c Hr Hc. cbn in Hr, Hc. unfold copies_of, corner_src, shifted. cbn [map fst snd]. rewrite !rsum_cons, rsum_nil.
       destruct r as [|[|r]]; [..|lia]; (destruct c as [|[|c]]; [..|lia]); cbn; lra. }
  exists r. split; [exact G|]. rewrite MM. f_equal. rewrite <- (corner_window x a b _ _ MK KF). reflexivity.
Qed.
Lemma corner_used : exists f o o' r r', images_alike (pp_wt o) (pp_im o) (pp_im o') /\ pp_wt o' = pp_wt o /\ pp_jac o' = pp_jac o /\ pp_psf o' = pp_psf o /\
  go f o false = Some (Ok r) /\ go f o' false = Some (Ok r') /\ m_flux r <> m_flux r'.
Proof.
  destruct ex_root as (z & Hz & E). destruct (d_kernels z Hz E) as (K & a & b & h & g & x & HK & MK & KF & _ & _ & _ & Pa & Pb & _).
  destruct (corner_result z 0 Hz E K a b HK MK KF) as (r & G & S), (corner_result z 1 Hz E K a b HK MK KF) as (r' & G' & S').
  exists (ex_f z), (corner_o 0), (corner_o 1), r, r'. split; [apply corner_alike|]. do 3 (split; [reflexivity|]). split; [exact G|]. split; [exact G'|].
  rewrite S, S'. intros X. injection X as X. lra.
Qed.
