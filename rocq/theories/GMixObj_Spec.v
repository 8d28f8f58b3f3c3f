(** What a user expects of GMix objects. *)
From Verif Require Import Base Moments_Spec Jacobian_Model GMix_Model GMix_Spec Pixels_Model Render_Model Render_Spec WSums_Model GMixObj_Model.

(** values of an object's method calls, one after the other; exceptions are caught *)
Fixpoint calls (o : gmobj) (l : list method) : option gmobj :=
  match l with
  | [] => Some o
  | m :: l => match call o m with Some (o', _) => calls o' l | None => None end
  end.

(** a call that does not touch the fluxes, and is not rejected half way (a fill with the
    wrong number of parameters is rejected at once) *)
Definition keeps_pars (o : gmobj) (m : method) : Prop :=
  match m with
  | MSetFlux _ => False
  | MFill pars => length pars = o_npars o -> exists o', call o (MFill pars) = Some (o', Ok tt)
  | _ => True
  end.
Fixpoint all_keep (o : gmobj) (l : list method) : Prop :=
  match l with
  | [] => True
  | m :: l => keeps_pars o m /\ match call o m with Some (o', _) => all_keep o' l | None => True end
  end.

(** freshly built, by a constructor of any class *)
Definition built (o : gmobj) : Prop :=
  (exists pars, new_full pars = Ok o) \/ (exists n, o = new_full_ngauss n) \/
  (exists m pars, new_model m pars = Ok o) \/ (exists f t pars, new_cm f t pars = Ok o) \/
  (exists pars, new_coellip pars = Ok o).

(** a program in which make_round is not used and no attempt to normalise fails *)
Definition clean_step (o : op) (r : res unit) : Prop :=
  match o with
  | OMake _ (NRound _) => False
  | OCall _ MSetNorms | OCall _ MEval => r = Ok tt
  | _ => True
  end.
Fixpoint clean (h : heap) (l : list op) : Prop :=
  match l with
  | [] => True
  | o :: l => match step h o with
              | None => True
              | Some (h', r) => clean_step o r /\ clean h' l
              end
  end.

(** the components of a are those of b turned round: same flux, centre and a multiple of the
    size *)
Definition rounded (factor : R) (a b : gauss) : Prop :=
  g_p b = g_p a /\ g_row b = g_row a /\ g_col b = g_col a /\
  g_irc b = 0 /\ g_irr b = g_icc b /\ g_irr b + g_icc b = factor * (g_irr a + g_icc a) /\
  g_norm_set b = false.

(** two mixtures that cannot be told apart by evaluating them *)
Definition same_use (gm fr : gmix) : Prop :=
  (forall nr nc j fast, snd (make_image gm nr nc j fast) = snd (make_image fr nr nc j fast)) /\
  (forall pixels, snd (get_loglike gm pixels) = snd (get_loglike fr pixels)) /\
  (forall size pixels fdiff start, snd (GMix_fill_fdiff gm size pixels fdiff start) = snd (GMix_fill_fdiff fr size pixels fdiff start)) /\
  (forall pixels, snd (get_model_s2n gm pixels) = snd (get_model_s2n fr pixels)) /\
  (forall pixels maxrad higher s, snd (get_weighted_sums gm pixels maxrad higher s) = snd (get_weighted_sums fr pixels maxrad higher s)).

(** unit pixels with the origin in the centre of pixel (0,0) *)
Definition j1 : jac := mkJac 0 0 1 0 0 1 1 1.
(** drawing the object's mixture gives something else than drawing a mixture built from its
    current parameters *)
Definition draws_wrong (gm : gmix) : Prop :=
  exists fr im im', GMix_pars (gm_get_full_pars gm) = Ok fr /\
    snd (make_image gm 1 1 (Some j1) false) = Ok im /\
    snd (make_image fr 1 1 (Some j1) false) = Ok im' /\ at2 im 0 0 <> at2 im' 0 0.

(** documented parameters of the models (ngmix/gmix/gmix.py, docstring of GMixModel): gauss,
    turb, exp, dev take [cen1,cen2,g1,g2,T,flux], bd adds logTratio and fracdev, bdf fracdev *)
Definition doc_npars (m : mname) : option nat :=
  match m with Mbd => Some 8%nat | Mbdf => Some 7%nat | Mbdc => None | _ => Some 6%nat end.
Definition doc_fill (m : mname) (pars : list R) : res gmix :=
  match m with
  | Mgauss => gmix_fill_gauss 1 pars | Mturb => gmix_fill_turb 3 pars
  | Mexp => gmix_fill_exp 6 pars | Mdev => gmix_fill_dev 10 pars
  | Mbd => gmix_fill_bd pars | Mbdf => gmix_fill_bdf pars | Mbdc => Raise ValueError
  end.
