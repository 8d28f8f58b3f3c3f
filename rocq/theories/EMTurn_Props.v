(** C143: EM in turned and shifted coordinates *)
From Verif Require Import Base Pixels_Model Jacobian_Model GMix_Model Render_Model GMixObj_Model Flags_Model EM_Model EM_Spec Units_Spec Motion_Spec EMTurn_Spec
  EMTurn_Proofs EMTurn2_Proofs EMTurnPos_Proofs EMTurnCex_Proofs.
Local Open Scope R_scope.

(** a fit of everything in coordinates turned by 45 degrees *)
Example C143_hypotheses_hold : exists t m obs M m' r M' r' a, sin (2 * t) <> 0 /\ valid_call m obs 0 /\ valid_call M obs 0 /\ call_moved t 0 0 m obs 0 (Some 0) M obs 0 (Some 0) /\
  call_definite (mkFit Free 1 1 (/ 10) false) m obs 0 (Some 0) /\
  em_go (mkFit Free 1 1 (/ 10) false) m obs 0 (Some 0) = Some (m', Ok r) /\ em_go (mkFit Free 1 1 (/ 10) false) M obs 0 (Some 0) = Some (M', r') /\ get_gmix m' r false = Ok a.
Proof. exact four_turned. Qed.

(** the compiled loop *)
Theorem C143_run : forall t a b k q a' b' cf fill px px' gm gm' psf psf' conv conv',
  q <> 0 -> pix_moved t a b px px' -> Forall2 (gauss_moved 1 t a b) gm gm' -> Forall2 (gauss_moved q t a' b') psf psf' -> Forall2 (gauss_moved 1 t a b) conv conv' ->
  corrections_turn k t (run_definite k cf px gm psf conv fill) ->
  same_outcome (out_moved t a b) (em_run k cf px gm psf conv fill) (em_run k cf px' gm' psf' conv' fill).
Proof. intros. eapply run_moved; eassumption. Qed.
Print Assumptions C143_run.

(** EMFitter.go: the same flags and numbers, and the moved mixtures *)
Theorem C143_go : forall t a b f m obs guess sky M OBS GUESS SKY m' M' r r',
  valid_call m obs guess -> valid_call M OBS GUESS -> call_moved t a b m obs guess sky M OBS GUESS SKY ->
  corrections_turn (f_kind f) t (call_definite f m obs guess sky) ->
  em_go f m obs guess sky = Some (m', r) -> em_go f M OBS GUESS SKY = Some (M', r') -> same_outcome (fit_moved t a b m' M') r r'.
Proof. exact go_moved. Qed.
Print Assumptions C143_go.

(** without a mixture of the psf, and without negative values, for all fitters and angles *)
Theorem C143_without_psf : forall t a b f m obs guess sky M OBS GUESS SKY m' M' r r',
  valid_call m obs guess -> valid_call M OBS GUESS -> call_moved t a b m obs guess sky M OBS GUESS SKY ->
  (forall i, eo_psf obs <> Some (Some i)) ->
  (forall px s, data_given m obs sky px s -> 0 <= s /\ Forall (fun p => 0 <= px_val p /\ 0 <= px_area p) px) ->
  (forall G, guess_given m guess G -> Forall (fun g => 0 <= g_p g) G) ->
  em_go f m obs guess sky = Some (m', r) -> em_go f M OBS GUESS SKY = Some (M', r') -> same_outcome (fit_moved t a b m' M') r r'.
Proof. intros t a b f m obs guess sky M OBS GUESS SKY m' M' r r' V V' C NP HD HG. apply go_moved; auto. right. right. right. apply call_pos; assumption. Qed.
Print Assumptions C143_without_psf.

(** shifts, and turns by multiples of 90 degrees, with any psf and any values *)
Theorem C143_shift : forall a b f m obs guess sky M OBS GUESS SKY m' M' r r',
  valid_call m obs guess -> valid_call M OBS GUESS -> call_moved 0 a b m obs guess sky M OBS GUESS SKY ->
  em_go f m obs guess sky = Some (m', r) -> em_go f M OBS GUESS SKY = Some (M', r') -> same_outcome (fit_moved 0 a b m' M') r r'.
Proof. intros a b f m obs guess sky M OBS GUESS SKY m' M' r r' V V' C. apply go_moved; auto. right. right. left. rewrite Rmult_0_r. apply sin_0. Qed.
Print Assumptions C143_shift.

(** otherwise the size that comes out may depend on the angle: the moments less those of the psf, diag(3/4, -1/4), are replaced by the
    smallest size, and the same matrix turned by 45 degrees by a round gaussian of the same trace *)
Theorem C143_refuted : exists t px px' gm psf o o', pix_moved t 0 0 px px' /\ Forall2 (gauss_moved 1 t 0 0) gm gm /\ Forall2 (gauss_moved 1 t 0 0) psf psf /\
  em_run Free conf2 px gm psf (views psf gm) false = Ok o /\ em_run Free conf2 px' gm psf (views psf gm) false = Ok o' /\
  (o_numiter o < c_maxiter conf2)%nat /\ (o_numiter o' < c_maxiter conf2)%nat /\
  map pars_of (o_gm o) = [(2, 0, 0, / 10 ^ 4, 0, / 10 ^ 4)] /\ map pars_of (o_gm o') = [(2, 0, 0, / 4, 0, / 4)].
Proof. exact turned_size. Qed.
Print Assumptions C143_refuted.
