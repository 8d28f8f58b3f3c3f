(** Runs of the template flux fitter related to each other. *)
From Verif Require Import Base XReal Pixels_Model PSFFlux_Model PSFFlux_Spec.
Local Open Scope R_scope.

(** the observation with another image and another weight map *)
Definition with_data (o : pobs) (im wt : nat -> nat -> R) : pobs :=
  mkPobs (po_nr o) (po_nc o) im wt (po_jac o) (po_pix o) (po_gmix o) (po_template o) (po_psf o).
(** image times [ki] and weights times [kw] *)
Definition scale_data (ki kw : R) (o : pobs) : pobs :=
  with_data o (fun r c => ki * po_im o r c) (fun r c => kw * po_wt o r c).
(** the same observation of a second scene, and of the sum of [a] times the first and [b] times the second *)
Definition second_scene (p : pobs * (nat -> nat -> R)) : pobs := with_data (fst p) (snd p) (po_wt (fst p)).
Definition both_scenes (a b : R) (p : pobs * (nat -> nat -> R)) : pobs :=
  with_data (fst p) (fun r c => a * po_im (fst p) r c + b * snd p r c) (po_wt (fst p)).

(** template, image and weight in every pixel with weight *)
Definition measured (obs : list pobs) (ts : list (nat -> nat -> R)) : list (R * R * R) :=
  filter (fun x => Rltb 0 (snd x))
    (concat (map (fun ot => cells (po_nr (fst ot)) (po_nc (fst ot)) (fun r c => (snd ot r c, po_im (fst ot) r c, po_wt (fst ot) r c)))
                 (combine obs ts))).

(** the image is [f] times the template wherever it has weight *)
Definition noiseless (f : R) (o : pobs) (t : nat -> nat -> R) : Prop :=
  forall r c, (r < po_nr o)%nat -> (c < po_nc o)%nat -> po_wt o r c <> 0 -> po_im o r c = f * t r c.

(** the template images in other units *)
Definition scale_template (k : R) (o : pobs) : pobs :=
  mkPobs (po_nr o) (po_nc o) (po_im o) (po_wt o) (po_jac o) (po_pix o) (po_gmix o)
    (option_map (fun a => mkArr (nrow a) (ncol a) (fun r c => xmul (at2 a r c) (Fin k))) (po_template o)) (po_psf o).
