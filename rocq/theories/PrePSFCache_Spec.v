(** What a history of calls should return: each call what it would return on its own. *)
From Verif Require Import Base Pixels_Model Jacobian_Model MomResult_Model PrePSF_Model PrePSF_Spec PrePSFCache_Model.
(** the result of [go], and the kernels on the full grid *)
Definition alone (f : fitter) (o : ppobs) (np rk : bool) : option (res answer) :=
  match go f o np with
  | None => None
  | Some (Raise e) => Some (Raise e)
  | Some (Ok r) =>
      if rk then
        let t := Z.to_nat (target_of f o (the_psf o np)) in
        match make_kernels f t (wcs_of (pp_jac o)) with
        | Ok K => Some (Ok (r, Some (full_kernels t K, k_nrm K)))
        | Raise e => Some (Raise e)
        end
      else Some (Ok (r, None))
  end.
Definition returns (p : op) : list (option (res answer)) :=
  match p with Go f o np rk => [alone f o np rk] | _ => [] end.
(** images with at least one row *)
Definition has_rows (p : op) : Prop :=
  match p with Go _ o _ _ => (0 < nrow (pp_im o))%nat /\ match pp_psf o with Some q => (0 < nrow (fst q))%nat | None => True end | _ => True end.
