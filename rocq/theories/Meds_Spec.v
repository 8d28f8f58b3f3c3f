(** What reading a MEDS file should give. *)
From Verif Require Import Base XReal Jacobian_Model Pixels_Model Meds_Model.
From Coq Require Import Sorted String.
Local Open Scope R_scope.

(** a weight that counts *)
Definition positive (x : xr) : Prop := match x with Fin r => 0 < r | PInf => True | _ => False end.
(** an array with such a weight *)
Definition some_positive (a : arr2 xr) : Prop := exists r c, (r < nrow a)%nat /\ (c < ncol a)%nat /\ positive (at2 a r c).
Definition all_finite (a : arr2 xr) : Prop := forall r c, (r < nrow a)%nat -> (c < ncol a)%nat -> exists x, at2 a r c = Fin x.
Definition no_nan (a : arr2 xr) : Prop := forall r c, (r < nrow a)%nat -> (c < ncol a)%nat -> at2 a r c <> NaN.

(** l are the successful results among those for 0, ..., n-1, in order *)
Definition successes {A} (f : nat -> res A) (n : nat) (l : list A) : Prop :=
  exists idx, StronglySorted lt idx /\ (forall i, In i idx <-> (i < n)%nat /\ exists a, f i = Ok a) /\
    Forall2 (fun i a => f i = Ok a) idx l.

(** the file never raises the exception of ngmix *)
Record no_fatal (m : meds) : Prop := mkNF
  { nf_cutout : forall i k t, md_cutout m i k t <> Raise GMixFatalError;
    nf_uberseg : forall i k, md_uberseg m i k <> Raise GMixFatalError;
    nf_cweight : forall i k, md_cweight m i k <> Raise GMixFatalError;
    nf_cseg : forall i k b, md_cseg m i k b <> Raise GMixFatalError;
    nf_jac : forall i k, md_jac m i k <> Raise GMixFatalError;
    nf_col : forall c f i, md_col m c = Some f -> f i <> Raise GMixFatalError;
    nf_col2 : forall c i k, md_col2 m c i k <> Raise GMixFatalError;
    nf_id : forall i, md_id m i <> Raise GMixFatalError;
    nf_file_id : forall i k, md_file_id m i k <> Raise GMixFatalError;
    nf_info : md_info m <> Raise GMixFatalError;
    nf_path : forall z, md_path m z <> Raise GMixFatalError;
    nf_scale : forall z, md_scale m z <> Raise GMixFatalError;
    nf_has : md_has_psf m <> Raise GMixFatalError;
    nf_psf : forall i k, md_psf m i k <> Raise GMixFatalError }.

(** the weight of the documented types *)
Definition weight_of (m : meds) (iobj icut : nat) (weight_type : string) (r : res (arr2 xr)) : Prop :=
  (weight_type = "weight" /\ r = md_cutout m iobj icut CtWeight \/
   weight_type = "uberseg" /\ r = md_uberseg m iobj icut \/
   weight_type = "cweight" /\ r = md_cweight m iobj icut \/
   weight_type = "cseg" /\ r = md_cseg m iobj icut false \/
   weight_type = "cseg-canonical" /\ r = md_cseg m iobj icut true)%string.

(** everything else that is needed for the cutout can be read, and fits *)
Definition readable (m : meds) (iobj icut : nat) (im : arr2 xr) : Prop :=
  md_cutout m iobj icut CtImage = Ok im /\
  (exists j, get_ngmix_jacobian m iobj icut = Ok j) /\
  (exists d, get_meta m iobj icut = Ok d) /\
  (md_has_psf m = Ok false \/ md_has_psf m = Ok true /\ exists p, get_psf_obs m iobj icut = Ok p).

(** the planes that are optional fit, where they can be read *)
Definition planes_fit (m : meds) (iobj icut : nat) (im : arr2 xr) : Prop :=
  forall t a, In t [CtBmask; CtOrmask; CtNoise; CtMfrac] -> md_cutout m iobj icut t = Ok a -> same_shape a im = true.
