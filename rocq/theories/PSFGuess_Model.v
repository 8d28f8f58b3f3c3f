(** Model of the calls of the guessers for point spread functions on an observation:
    ngmix/guessers.py:783-903 (GMixPSFGuesser), 1068-1110 (SimplePSFGuesser) and 1122-1146
    (CoellipPSFGuesser).  What is drawn around T and flux is in Guessers_Model. *)
From Verif Require Import Base XReal Moments_Model Jacobian_Model Pixels_Model PriorSample_Model GMix_Model GMixObj_Model WSums_Model MomResult_Model GaussMom_Model Guessers_Model.
Local Open Scope R_scope.

(** what is read of an observation; obs.pixels raises with store_pixels=False *)
Record gobs := mkGobs { gb_image : arr2 R; gb_pixels : res (list (pixel R)); gb_jac : jac }.

(** obs.image.sum() *)
Definition image_sum (im : arr2 R) : R := rsum (concat (map (fun r => map (at2 im r) (seq 0 (ncol im))) (seq 0 (nrow im)))).

(** ngmix/guessers.py:783-800 GMixPSFGuesser.__init__: the number of gaussians chooses the function *)
Definition psf_guesser_init (ngauss : Z) : res nat :=
  if (Z.eqb ngauss 1 || Z.eqb ngauss 2 || Z.eqb ngauss 3 || Z.eqb ngauss 4 || Z.eqb ngauss 5)%bool
  then Ok (Z.to_nat ngauss) else Raise ValueError.
(** ngmix/gmix/gmix.py:1009-1015 get_coellip_npars *)
Definition get_coellip_npars (ngauss : Z) : Z := (4 + 2 * ngauss)%Z.
(** ngmix/guessers.py:1122-1128 CoellipPSFGuesser.__init__: number of gaussians and npars *)
Definition coellip_guesser_init (ngauss : Z) : res (nat * Z) := let* n := psf_guesser_init ngauss in Ok (n, get_coellip_npars ngauss).

(** ngmix/guessers.py:864-876: wt.get_weighted_moments(obs=obs, maxrad=1.0e9), ngmix/gmix/gmix.py:641-714;
    the norms of the weight are set before obs.pixels is read *)
Definition weighted_moments (Tw : R) (pixels : res (list (pixel R))) : res gres :=
  let* wt := gmix_fill_gauss 1 [0; 0; 0; 0; Tw; 1] in
  match pixels with
  | Raise e => let* _ := snd (set_norms_if_needed wt) in Raise e
  | Ok px =>
      let* s := snd (get_weighted_sums wt px (Some (10 ^ 9)) false None) in
      get_weighted_moments_stats false s
  end.

(** ngmix/guessers.py:825-903 _get_T_flux; the numbers used are finite when nothing is flagged *)
Definition get_T_flux (from_moms : bool) (o : gobs) : option (res (R * R)) :=
  let scale := jscale (gb_jac o) in
  let imsum := image_sum (gb_image o) in
  if from_moms then
    match weighted_moments (Tweight scale) (gb_pixels o) with
    | Raise e => Some (Raise e)
    | Ok q =>
        let fl := m_flags (q_mom q) in
        if negb (Z.eqb fl 0) then option_map Ok (T_flux_from_moms scale imsum (Guessers_Model.mkMom fl 0 0)) else
        match m_T (q_mom q), m_flux (q_mom q) with
        | Fin T, Fin F => option_map Ok (T_flux_from_moms scale imsum (Guessers_Model.mkMom fl T F))
        | _, _ => None
        end
    end
  else Some (Ok (T_flux_default scale imsum)).

Section Call.
  Variable W : Type.
  Variable G : rng W.
  Definition with_T_flux {A} (from_moms : bool) (o : gobs) (f : R -> R -> M W A) : M W A :=
    fun w => match get_T_flux from_moms o with
             | None => None
             | Some (Raise e) => Some (w, Raise e)
             | Some (Ok (T, flux)) => f flux T w
             end.
  (** ngmix/guessers.py:802-823 GMixPSFGuesser.__call__ and _get_guess *)
  Definition gmixpsf_call (ngauss : nat) (from_moms : bool) (o : gobs) : M W gmobj := with_T_flux from_moms o (gmixpsf_guess W G ngauss).
  (** ngmix/guessers.py:1074-1110 SimplePSFGuesser.__call__ *)
  Definition simplepsf_call (from_moms : bool) (o : gobs) : M W (list R) := with_T_flux from_moms o (simplepsf_guess W G).
  (** ngmix/guessers.py:1130-1146 CoellipPSFGuesser.__call__ *)
  Definition coellippsf_call (ngauss : nat) (from_moms : bool) (o : gobs) : M W (list R) := with_T_flux from_moms o (coellippsf_guess W G ngauss).
End Call.
