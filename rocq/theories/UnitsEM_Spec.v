(** Fits by EM in other units of brightness: images, guesses and sky times [c]. *)
From Verif Require Import Base Pixels_Model GMix_Model GMixObj_Model EM_Model EM_Spec.
Local Open Scope R_scope.

(** the same components with fluxes times [c] *)
Definition pars_times (c : R) (g g' : gauss) : Prop :=
  pars_of g' = (c * g_p g, g_row g, g_col g, g_irr g, g_irc g, g_icc g).
Definition gmix_times (c : R) (G G' : gmix) : Prop := Forall2 (pars_times c) G G'.
(** the same pixels with values times [c]; the same pixels are masked *)
Definition pix_times (c : R) (p p' : pixel R) : Prop :=
  px_u p' = px_u p /\ px_v p' = px_v p /\ px_area p' = px_area p /\ px_val p' = c * px_val p /\ (px_ierr p' <= 0 <-> px_ierr p <= 0).
Definition em_times (c : R) (s s' : em) : Prop :=
  gmix_times c (m_gm s) (m_gm s') /\ Forall2 (pix_times c) (m_pix s) (m_pix s') /\ m_sky s' = c * m_sky s.

(** two calls of go: the second one has the data, the sky and the guess of the first one times [c], and the same psf *)
Definition calls_times (c : R) (m : emem) (obs : eobs) (guess : nat) (sky : option R)
    (m2 : emem) (obs2 : eobs) (guess2 : nat) (sky2 : option R) : Prop :=
  exists px px' s G G' P,
    data_given m obs sky px s /\ data_given m2 obs2 sky2 px' (c * s) /\ Forall2 (pix_times c) px px' /\
    guess_given m guess G /\ guess_given m2 guess2 G' /\ gmix_times c G G' /\
    psf_given m obs P /\ psf_given m2 obs2 P.
(** the mixtures of the results, in both units: fluxes times [c] *)
Definition same_mixtures (c : R) (m : emem) (r : em_res) (m2 : emem) (r2 : em_res) : Prop :=
  forall convolved, match get_gmix m r convolved, get_gmix m2 r2 convolved with
    | Ok a, Ok a2 => gmix_times c (o_data a) (o_data a2)
    | Raise e, Raise e2 => e2 = e
    | _, _ => False
    end.
(** the whole results: fluxes and sky times [c] *)
Definition same_fit (c : R) (m : emem) (r : em_res) (m2 : emem) (r2 : em_res) : Prop :=
  r_flags r2 = r_flags r /\
  match r_fit r, r_fit r2 with
  | Some (n, d, s), Some (n2, d2, s2) => n2 = n /\ d2 = d /\ s2 = c * s
  | None, None => True
  | _, _ => False
  end /\
  same_mixtures c m r m2 r2.
(** pixels in which the model is not zero *)
Definition lit (psf : gmix) (s : em) : nat :=
  length (filter (fun p => if Req_EM_T (model psf (m_gm s) p) 0 then false else true) (filled psf s)).
