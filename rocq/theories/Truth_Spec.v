(** Images without noise, and how well the parameters they were made from fit them. *)
From Verif Require Import Base XReal Jacobian_Model Pixels_Model GMix_Model GMixObj_Model Render_Model Render_Spec Fit_Model Fit_Spec.
Local Open Scope R_scope.

(** the data of the observation are an image of the mixture, drawn by GMix.make_image with or without fast_exp on the
    observation's own grid, with any weight map *)
Definition drawn (fast : bool) (o : fobs) (g : gmobj) : Prop :=
  exists im image weight ignore px, snd (make_image (o_data g) (fo_nr o) (fo_nc o) (Some (fo_jac o)) fast) = Ok im /\
    nrow image = fo_nr o /\ ncol image = fo_nc o /\ nrow weight = fo_nr o /\ ncol weight = fo_nc o /\
    (forall r c, (r < fo_nr o)%nat -> (c < fo_nc o)%nat -> at2 im r c = Some (at2 image r c)) /\
    make_pixels image weight (fo_jac o) ignore = Ok px /\ fo_pixels o = Some px.
(** all of them are, of the mixtures at these parameters *)
Definition noiseless (fast : bool) (obs : list (list fobs)) (ms : list gmobj) : Prop := Forall2 (drawn fast) (concat obs) ms.

(** size of the residual that the fast exponential can leave in a pixel *)
Definition slack (g : gmobj) (p : pixel R) : R := 4/100000 * peak (o_data g) * px_area p * px_ierr p.
Definition all_slack (ms : list gmobj) (pixels : list (list (pixel R))) : list R :=
  concat (map (fun mp => map (slack (fst mp)) (snd mp)) (combine ms pixels)).
(** not above: minus infinity, or a number that is not larger *)
Definition at_most (x : xr) (b : R) : Prop := x = NInf \/ exists a, x = Fin a /\ a <= b.
