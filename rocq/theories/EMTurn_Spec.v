(** EM in turned and shifted coordinates *)
From Verif Require Import Base Pixels_Model GMix_Model Render_Model GMixObj_Model EM_Model EM_Spec Units_Spec Motion_Spec.
Local Open Scope R_scope.

(** the second moments that are assigned to an object, less those of the psf, are not those of a hyperbola *)
Definition definite (psf_cov : R * R * R) (t : sums) : Prop :=
  let '(prr, prc, pcc) := psf_cov in
  a_pnew t <> 0 -> (a_uv t / a_pnew t - prc) ^ 2 <= (a_v2 t / a_pnew t - prr) * (a_u2 t / a_pnew t - pcc).
(** ... for every object in one pass, and in all passes of a run *)
Definition pass_definite (k : em_kind) (psf : gmix) (fill : bool) (st : em_state) : Prop :=
  forall pix l L ss row col irr irc icc p,
    (if fill then fill_zero_weight_pixels (e_conv st) (e_pix st) (e_sky st) else Ok (e_pix st)) = Ok pix ->
    foldM (em_pixel k (e_conv st) (length psf) (set_logtau_logdet (e_conv st)) (e_sky st)) pix (repeat sums0 (length (e_gm st)), Some 0, 0) = Ok (l, L, ss) ->
    gmix_get_moms psf = Ok (row, col, irr, irc, icc, p) -> Forall (definite (irr, irc, icc)) l.
Fixpoint passes_definite (k : em_kind) (c : em_conf) (psf : gmix) (fill : bool) (n i : nat) (st : em_state) : Prop :=
  match n with
  | O => True
  | S n => pass_definite k psf fill st /\
           match em_iter k c psf fill i st with Ok (st', false) => passes_definite k c psf fill n (S i) st' | _ => True end
  end.
Definition run_definite (k : em_kind) (c : em_conf) (px : list (pixel R)) (gm psf conv : gmix) (fill : bool) : Prop :=
  forall last, snd (gmix_set_norms conv) = Ok tt -> passes_definite k c psf fill (c_maxiter c) 0 (mkSt gm (fst (gmix_set_norms conv)) px (c_sky c) last None).
(** the covariances are not fitted, or the axes are turned onto axes, or no covariance is that of a hyperbola *)
Definition corrections_turn (k : em_kind) (t : R) (D : Prop) : Prop := k = FixCov \/ k = FluxOnly \/ sin (2 * t) = 0 \/ D.

Definition out_moved (t a b : R) (o o' : em_out) : Prop :=
  o_numiter o' = o_numiter o /\ o_fdiff o' = o_fdiff o /\ o_sky o' = o_sky o /\ pix_moved t a b (o_pix o) (o_pix o') /\
  Forall2 (gauss_moved 1 t a b) (o_gm o) (o_gm o') /\ Forall2 (gauss_moved 1 t a b) (o_conv o) (o_conv o').

(** the inputs of EMFitter.go: the same image under a moved jacobian or moved pixels and the same sky, the moved guess, and the turned
    psf, which may be anywhere and have any flux *)
Definition copy_moved (k t a b : R) (m M : emem) (i i' : nat) : Prop :=
  exists g g' c c', read (em_gm m) i = Some g /\ read (em_gm M) i' = Some g' /\ obj_copy g = Ok c /\ obj_copy g' = Ok c' /\
    Forall2 (gauss_moved k t a b) (o_data c) (o_data c').
Definition call_moved (t a b : R) (m : emem) (obs : eobs) (guess : nat) (sky : option R) (M : emem) (OBS : eobs) (GUESS : nat) (SKY : option R) : Prop :=
  match sky, SKY with
  | Some s, Some s' => s' = s /\ exists px px', nth_error (em_px m) (eo_px obs) = Some px /\ nth_error (em_px M) (eo_px OBS) = Some px' /\ pix_moved t a b px px'
  | None, None => nth_error (em_im M) (eo_image OBS) = nth_error (em_im m) (eo_image obs) /\ jac_moved t a b (eo_jac obs) (eo_jac OBS)
  | _, _ => False
  end /\
  copy_moved 1 t a b m M guess GUESS /\
  match eo_psf obs, eo_psf OBS with
  | Some (Some i), Some (Some i') => exists k a' b', k <> 0 /\ copy_moved k t a' b' m M i i'
  | Some (Some _), _ | _, Some (Some _) => False
  | _, _ => True
  end.
(** the mixture [i'] of [M] is the moved mixture [i] of [m] *)
Definition mixture_moved (t a b : R) (m M : emem) (i i' : nat) : Prop :=
  exists g g', read (em_gm m) i = Some g /\ read (em_gm M) i' = Some g' /\ o_kind g' = o_kind g /\ Forall2 (gauss_moved 1 t a b) (o_data g) (o_data g').
Definition fit_moved (t a b : R) (m M : emem) (x x' : em_res) : Prop :=
  r_flags x' = r_flags x /\ r_fit x' = r_fit x /\
  match r_gm x, r_gm x' with
  | Some (i, j), Some (i', j') => mixture_moved t a b m M i i' /\ mixture_moved t a b m M j j'
  | None, None => True
  | _, _ => False
  end.
(** the same condition for a call of EMFitter.go *)
Definition call_definite (f : fitter) (m : emem) (obs : eobs) (guess : nat) (sky : option R) : Prop :=
  forall px s G P, data_given m obs sky px s -> guess_given m guess G -> psf_given m obs P ->
    run_definite (f_kind f) (mkConf (f_tol f) (f_maxiter f) (f_miniter f) s (f_vary_sky f)) px G P (views P G) (existsb (fun p => Rleb (px_ierr p) 0) px).
