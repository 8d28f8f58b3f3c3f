(** Concrete MEDS files. *)
From Verif Require Import Base XReal Jacobian_Model Pixels_Model Meds_Model Meds_Spec Meds_Proofs.
From Coq Require Import Sorted String.
Local Open Scope R_scope.

Definition full (x : xr) : arr2 xr := mkArr 2 2 (fun _ _ => x).
(** three cutouts: the weights of the second are zero *)
Definition file3 (psf : arr2 xr) : meds :=
  mkMeds 1 (fun _ => Ok 3%nat)
    (fun _ k t => match t with
                  | CtImage => Ok (full (Fin (INR k)))
                  | CtWeight => Ok (full (Fin (if Nat.eqb k 1 then 0 else 1)))
                  | CtBmask => Ok (full (Fin 0))
                  | _ => Raise OtherError end)
    (fun _ _ => Raise OtherError) (fun _ _ => Raise OtherError) (fun _ _ _ => Raise OtherError)
    (fun _ _ => Ok (1/2, 1/2, 0, 1, 1, 0))
    (fun s => if String.eqb s "flux_auto" then Some (fun _ => Ok (Fin 7)) else None)
    (fun _ _ _ => Ok 1) (fun _ => Ok 5%Z) (fun _ _ => Ok 0%Z) (Ok tt) (fun _ => Ok "a.fits"%string) (fun _ => Ok (Fin 1))
    (Ok true) (fun _ _ => Ok psf).
Lemma full_positive x : some_positive (full x) <-> positive x.
Proof. split; [intros [r [c [_ [_ H]]]]; exact H|]. intros H. exists 0%nat, 0%nat. cbn. auto. Qed.
Lemma file3_no_fatal psf : no_fatal (file3 psf).
Proof.
  constructor; cbn; intros; try discriminate.
  - destruct t; discriminate.
  - destruct (String.eqb c "flux_auto"); inversion H; discriminate.
Qed.
Lemma full_finite x : all_finite (full (Fin x)).
Proof. intros r c _ _. exists x. reflexivity. Qed.
Lemma file3_psf k : exists p, get_psf_obs (file3 (full (Fin 2))) 0 k = Ok p.
Proof.
  destruct (jac_contents (file3 (full (Fin 2))) 0 k (1/2) (1/2) 0 1 1 0 eq_refl) as [j [HJ _]].
  eapply psf_readable; try reflexivity; try exact HJ; try apply full_finite; cbn; lia.
Qed.
Lemma file3_readable k : readable (file3 (full (Fin 2))) 0 k (full (Fin (INR k))).
Proof.
  split; [reflexivity|]. split.
  { destruct (jac_contents (file3 (full (Fin 2))) 0 k (1/2) (1/2) 0 1 1 0 eq_refl) as [j [HJ _]]. eauto. }
  split; [cbn; eauto|]. right. split; [reflexivity|apply file3_psf].
Qed.
Lemma file3_planes psf k : planes_fit (file3 psf) 0 k (full (Fin (INR k))).
Proof. intros t a [<-|[<-|[<-|[<-|[]]]]]; cbn; intros H; inversion H; reflexivity. Qed.
Lemma file3_weight psf k : weight_of (file3 psf) 0 k "weight" (Ok (full (Fin (if Nat.eqb k 1 then 0 else 1)))).
Proof. left. split; reflexivity. Qed.
Lemma file3_kept k : k <> 1%nat -> exists o, get_obs (file3 (full (Fin 2))) 0 k "weight" = Ok o.
Proof.
  intros Hk. eapply usable_is_kept; [apply file3_readable|apply file3_weight|reflexivity| |apply full_positive|apply file3_planes].
  - intros r c _ _. discriminate.
  - destruct (Nat.eqb_spec k 1); [contradiction|]. cbn. lra.
Qed.
Lemma file3_skipped : get_obs (file3 (full (Fin 2))) 0 1 "weight" = Raise GMixFatalError.
Proof.
  eapply no_weight_is_skipped; [apply file3_readable|apply file3_weight|reflexivity|]. rewrite full_positive. cbn. lra.
Qed.
Lemma file3_obslist : exists o0 o2, get_obs (file3 (full (Fin 2))) 0 0 "weight" = Ok o0 /\ get_obs (file3 (full (Fin 2))) 0 2 "weight" = Ok o2 /\
  exists l, get_obslist (file3 (full (Fin 2))) 0 "weight" = Ok l /\ ml_items l = [o0; o2] /\ dget (ml_meta l) "flux" = Some (VX (Fin 7)) /\
  at2 (o_image o0) 0 0 = Fin 0 /\ at2 (o_image o2) 0 0 = Fin 2.
Proof.
  destruct (file3_kept 0) as [o0 H0]; [discriminate|]. destruct (file3_kept 2) as [o2 H2]; [discriminate|].
  exists o0, o2. split; [exact H0|]. split; [exact H2|].
  pose proof (get_obs_contents _ _ _ _ _ H0) as [HI0 [_ [_ [HM _]]]]. pose proof (get_obs_contents _ _ _ _ _ H2) as [HI2 _].
  unfold get_obslist. cbn [file3 md_ncutout bind seq foldM]. unfold obslist_pass.
  change (get_obs _ 0 0 "weight") with (get_obs (file3 (full (Fin 2))) 0 0 "weight").
  rewrite H0. cbn [bind]. rewrite file3_skipped. cbn [bind]. rewrite H2. cbn [bind app].
  eexists. split; [reflexivity|]. cbn [ml_items ml_meta]. split; [reflexivity|]. split.
  - pose proof (list_meta o0 [o2]) as [HL _]. rewrite HL. apply meta_contents in HM. destruct HM as [_ [_ [_ [_ [HF _]]]]]. cbn in HF.
    destruct HF as [x [HX HD]]. inversion HX. subst x. exact HD.
  - assert (o_image o0 = full (Fin (INR 0))) as -> by (cbn [file3 md_cutout] in HI0; congruence).
    assert (o_image o2 = full (Fin (INR 2))) as -> by (cbn [file3 md_cutout] in HI2; congruence). cbn. split; f_equal; lra.
Qed.
(** one bad pixel in the psf *)
Definition nan_psf : arr2 xr := mkArr 2 2 (fun r c => if Nat.eqb (r + c) 0 then NaN else Fin 1).
Lemma nan_obs k : get_obs (file3 nan_psf) 0 k "weight" = Raise GMixFatalError.
Proof.
  unfold get_obs. cbn [file3 md_cutout bind]. change (get_weight _ 0 k "weight") with (md_cutout (file3 nan_psf) 0 k CtWeight). cbn [file3 md_cutout bind].
  destruct (jac_contents (file3 nan_psf) 0 k (1/2) (1/2) 0 1 1 0 eq_refl) as [j [HJ _]]. fold (file3 nan_psf). rewrite HJ. cbn [bind].
  assert (exists d, get_meta (file3 nan_psf) 0 k = Ok d) as [d HD] by (cbn; eauto). rewrite HD. cbn [bind].
  change (md_has_psf (file3 nan_psf)) with (Ok true : res bool). cbn [bind].
  erewrite (psf_nan_fatal (file3 nan_psf) 0 k nan_psf j); try reflexivity; try exact HJ.
  exists 0%nat, 0%nat. cbn. auto.
Qed.
Lemma nan_obslist : get_obslist (file3 nan_psf) 0 "weight" = Ok (mkList [] []).
Proof.
  unfold get_obslist. cbn [md_ncutout file3 bind seq foldM]. unfold obslist_pass. fold (file3 nan_psf). rewrite !nan_obs. reflexivity.
Qed.
