From Verif Require Import Base XReal Moments_Spec Pixels_Model Jacobian_Model Jacobian_Spec GMix_Model GMix_Spec GMix_Proofs FastExp_Model FastExp_Proofs Render_Model Render_Spec Render_Proofs GMixObj_Model GMixObj_Spec GMixObj_Proofs Flags_Model
  EM_Model EM_Spec EM_Proofs EMIter_Proofs EMLoop_Proofs EMGo_Proofs Units_Spec Units_Proofs FitUnits_Proofs Motion_Spec Motion_Proofs MotionCex_Proofs EMTurn_Spec EMTurn_Proofs.
Local Open Scope R_scope.

(** ** EMFitter.go *)
Section Go.
Variables t a b : R.
Notation GM := (gauss_moved 1 t a b).
Lemma fresh_moved k x y g g' : gauss_moved k t x y g g' -> gauss_moved k t x y (fresh g) (fresh g').
Proof.
  intros (E1 & E2 & E3 & E4 & E5 & E6 & _). unfold fresh. eapply set_moved; [reflexivity|exact E1|exact E2|exact E3|exact E4|exact E5|exact E6].
Qed.
Lemma flux_moved k x y w w' : Forall2 (gauss_moved k t x y) w w' -> rsum (map g_p w') = k * rsum (map g_p w).
Proof. induction 1 as [|g g' l l' (E & _) _ IH]; cbn [map]; [rewrite !rsum_nil; ring|]. rewrite !rsum_cons, E, IH. ring. Qed.
Lemma set_flux_moved k x y w w' P P' : k <> 0 -> Forall2 (gauss_moved k t x y) w w' -> gm_set_flux w 1 = Some P -> gm_set_flux w' 1 = Some P' ->
  Forall2 (gauss_moved 1 t x y) P P'.
Proof.
  intros K H E E'. unfold gm_set_flux, np_div in E, E'. rewrite (flux_moved _ _ _ _ _ H) in E'. set (F := rsum (map g_p w)) in *.
  destruct (Reqb_spec F 0) as [Z|Z]; [discriminate|]. destruct (Reqb (k * F) 0); [discriminate|]. injection E as <-. injection E' as <-.
  eapply map_units; [exact H|]. intros g g' (E1 & E2). split; [|exact E2]. unfold scale_gauss. cbn [g_p]. rewrite E1. field. auto.
Qed.
Lemma masked_same px px' : pix_moved t a b px px' -> existsb masked px' = existsb masked px.
Proof. induction 1 as [|p p' l l' (_ & _ & _ & _ & E) _ IH]; cbn [existsb]; [reflexivity|]. unfold masked at 1 3. rewrite E, IH. reflexivity. Qed.
Lemma views_moved x y P P' G G' : flux_of P = 1 -> flux_of P' = 1 -> Forall2 (gauss_moved 1 t x y) P P' -> Forall2 GM G G' -> Forall2 GM (views P G) (views P' G').
Proof.
  intros F F' HP HG. pose proof (convolve_moved t a b 1 x y G G' P P' ltac:(lra) HG HP) as H. rewrite !convolve_views in H by lra. exact H.
Qed.

Lemma go_moved f m obs guess sky M OBS GUESS SKY m' M' r r' :
  valid_call m obs guess -> valid_call M OBS GUESS -> call_moved t a b m obs guess sky M OBS GUESS SKY ->
  corrections_turn (f_kind f) t (call_definite f m obs guess sky) ->
  em_go f m obs guess sky = Some (m', r) -> em_go f M OBS GUESS SKY = Some (M', r') -> same_outcome (fit_moved t a b m' M') r r'.
Proof.
  intros ((ops & HW) & V1 & V2) ((ops' & HW') & V1' & V2') (DM & GMv & PM) D E E'.
  destruct (go_cases f m obs guess sky m' r (run_wf _ _ _ empty_wf HW) V1 V2 E) as [_ C]. destruct (go_cases f M OBS GUESS SKY M' r' (run_wf _ _ _ empty_wf HW') V1' V2' E') as [_ C'].
  destruct GMv as (g & g' & cg & cg' & R1 & R2 & C1 & C2 & HG).
  (* the copies of guess and psf are made in both, so only the image can be the reason of an early exception *)
  assert (EARLY : forall e, early m obs guess sky e -> sky = None /\ exists im0, nth_error (em_im m) (eo_image obs) = Some im0 /\
      (prep_image im0 = Raise e \/ exists im s, prep_image im0 = Ok (im, s) /\ make_pixels im (ones im) (eo_jac obs) true = Raise e)).
  { intros e [X|[(i & x & X1 & X2 & X3)|(x & X1 & X2)]]; [exact X| |rewrite R1 in X1; injection X1 as <-; congruence].
    rewrite X1 in PM. destruct (eo_psf OBS) as [[i'|]|]; try contradiction. destruct PM as (k & a' & b' & _ & y & y' & cy & cy' & Y1 & _ & Y3 & _). rewrite Y1 in X2. injection X2 as <-. congruence. }
  assert (EARLY' : forall e, early M OBS GUESS SKY e -> SKY = None /\ exists im0, nth_error (em_im M) (eo_image OBS) = Some im0 /\
      (prep_image im0 = Raise e \/ exists im s, prep_image im0 = Ok (im, s) /\ make_pixels im (ones im) (eo_jac OBS) true = Raise e)).
  { intros e [X|[(i & x & X1 & X2 & X3)|(x & X1 & X2)]]; [exact X| |rewrite R2 in X1; injection X1 as <-; congruence].
    rewrite X1 in PM. destruct (eo_psf obs) as [[i'|]|]; try contradiction. destruct PM as (k & a' & b' & _ & y & y' & cy & cy' & _ & Y1 & _ & Y3 & _). rewrite Y1 in X2. injection X2 as <-. congruence. }
  (* outcome of the preparation of the image *)
  assert (IMG : sky = None -> SKY = None -> forall im0, nth_error (em_im m) (eo_image obs) = Some im0 -> nth_error (em_im M) (eo_image OBS) = Some im0 /\
      forall im s, prep_image im0 = Ok (im, s) -> same_outcome (pix_moved t a b) (make_pixels im (ones im) (eo_jac obs) true) (make_pixels im (ones im) (eo_jac OBS) true)).
  { intros -> -> im0 H0. destruct DM as [D1 D2]. split; [rewrite D1; exact H0|]. intros im s _. apply pixels_turned; [reflexivity|reflexivity|exact D2]. }
  destruct C as [(e & -> & HE)|(px & s & G & P & DG & GG & PG & RR)].
  - destruct (EARLY e HE) as (S0 & im0 & I0 & HI). assert (SN : SKY = None) by (subst sky; destruct SKY; [contradiction|reflexivity]).
    destruct (IMG S0 SN im0 I0) as [I0' IM].
    destruct C' as [(e' & -> & HE')|(px' & s' & G' & P' & DG' & _)].
    + destruct (EARLY' e' HE') as (_ & im1 & I1 & HI'). rewrite I0' in I1. injection I1 as <-. cbn [same_outcome].
      destruct HI as [HI|(im & s & HI & HX)], HI' as [HI'|(im' & s' & HI' & HX')]; try congruence.
      rewrite HI in HI'. injection HI' as <- <-. pose proof (IM im s HI) as Z. rewrite HX, HX' in Z. exact Z.
    + exfalso. subst SKY. destruct DG' as (im1 & im & I1 & Q1 & Q2). rewrite I0' in I1. injection I1 as <-. destruct HI as [HI|(im' & s'' & HI & HX)]; [congruence|].
      rewrite HI in Q1. injection Q1 as <- <-. pose proof (IM im' s'' HI) as Z. unfold ones in Z, HX. rewrite HX, Q2 in Z. exact Z.
  - destruct C' as [(e' & -> & HE')|(px' & s' & G' & P' & DG' & GG' & PG' & RR')].
    + exfalso. destruct (EARLY' e' HE') as (SN & im1 & I1 & HI'). assert (S0 : sky = None) by (subst SKY; destruct sky; [contradiction|reflexivity]).
      subst sky. destruct DG as (im0 & im & I0 & Q1 & Q2). destruct (IMG eq_refl SN im0 I0) as [I0' IM]. rewrite I0' in I1. injection I1 as <-.
      destruct HI' as [HI'|(im' & s'' & HI' & HX)]; [congruence|]. rewrite Q1 in HI'. injection HI' as <- <-. pose proof (IM im s Q1) as Z. unfold ones in Z, HX. rewrite Q2, HX in Z. exact Z.
    + assert (PX : s' = s /\ pix_moved t a b px px').
      { destruct sky as [s0|], SKY as [s0'|]; try contradiction.
        - destruct DM as (-> & p & p' & N1 & N2 & N3). destruct DG as [<- DG], DG' as [<- DG']. rewrite N1 in DG. rewrite N2 in DG'. injection DG as <-. injection DG' as <-. auto.
        - destruct DG as (im0 & im & I0 & Q1 & Q2). destruct (IMG eq_refl eq_refl im0 I0) as [I0' IM]. destruct DG' as (im1 & im' & I1 & Q1' & Q2').
          rewrite I0' in I1. injection I1 as <-. rewrite Q1 in Q1'. injection Q1' as <- <-. split; [reflexivity|]. pose proof (IM im s Q1) as Z. unfold ones in Z. rewrite Q2, Q2' in Z. exact Z. }
      destruct PX as [-> PX].
      assert (EG : G = o_data cg) by (destruct GG as (x & y & X1 & X2 & <-); rewrite R1 in X1; injection X1 as <-; rewrite C1 in X2; injection X2 as <-; reflexivity).
      assert (EG' : G' = o_data cg') by (destruct GG' as (x & y & X1 & X2 & <-); rewrite R2 in X1; injection X1 as <-; rewrite C2 in X2; injection X2 as <-; reflexivity).
      rewrite <- EG, <- EG' in HG. destruct (psf_flux _ _ _ PG) as [FP NP]. destruct (psf_flux _ _ _ PG') as [FP' NP'].
      assert (PP : exists x y, Forall2 (gauss_moved 1 t x y) P P').
      { pose proof PG as PG0. pose proof PG' as PG0'. unfold psf_given in PG0, PG0'.
        assert (POINT : P = [gauss2d_set 1 0 0 0 0 0] -> P' = [gauss2d_set 1 0 0 0 0 0] -> exists x y, Forall2 (gauss_moved 1 t x y) P P').
        { intros -> ->. exists 0, 0. constructor; [|constructor]. eapply set_moved; [reflexivity|..]; unfold moved_v, moved_u, turned_1, turned_2; ring. }
        destruct (eo_psf obs) as [[i|]|], (eo_psf OBS) as [[i'|]|]; try contradiction; auto.
        destruct PM as (k & x & y & K & o & o' & co & co' & O1 & O2 & O3 & O4 & HO). destruct PG0 as (z & cz & Z1 & Z2 & Z3). destruct PG0' as (z' & cz' & Z1' & Z2' & Z3').
        rewrite O1 in Z1. injection Z1 as <-. rewrite O2 in Z1'. injection Z1' as <-. rewrite O3 in Z2. injection Z2 as <-. rewrite O4 in Z2'. injection Z2' as <-.
        exists x, y. eapply set_flux_moved; eassumption. }
      destruct PP as (x & y & PP).
      pose proof (run_moved t a b (f_kind f) 1 x y P P' ltac:(lra) PP (conf_of f s) (existsb masked px) px px' G G' (views P G) (views P' G') PX HG
        (views_moved x y P P' G G' FP FP' PP HG)) as RM.
      rewrite (masked_same _ _ PX) in RR'.
      assert (D' : corrections_turn (f_kind f) t (run_definite (f_kind f) (conf_of f s) px G P (views P G) (existsb masked px))).
      { destruct D as [D|[D|[D|D]]]; [left; exact D|right; left; exact D|right; right; left; exact D|]. right. right. right. exact (D px s G P DG GG PG). }
      specialize (RM D'). clear D D'.
      destruct (em_run (f_kind f) (conf_of f s) px G P (views P G) (existsb masked px)) as [o|e], (em_run (f_kind f) (conf_of f s) px' G' P' (views P' G') (existsb masked px)) as [o'|e'];
        cbn in RM; try contradiction.
      * destruct RM as (O1 & O2 & O3 & O4 & O5 & O6). destruct RR as (i & j & u & v & -> & U1 & U2 & U3 & W1 & W2 & W3).
        destruct RR' as (i' & j' & u' & v' & -> & U1' & U2' & U3' & W1' & W2' & W3'). cbn [same_outcome]. unfold fit_moved. cbn [r_flags r_fit r_gm]. rewrite O1, O2, O3.
        split; [reflexivity|]. split; [reflexivity|]. split; [exists u, u'|exists v, v'].
        -- rewrite U2, U2', U3, U3'. repeat (split; [assumption || reflexivity|]). eapply map_units; [exact O5|]. intros; apply fresh_moved; assumption.
        -- rewrite W2, W2', W3, W3'. repeat (split; [assumption || reflexivity|]). eapply map_units; [exact O6|]. intros; apply fresh_moved; assumption.
      * subst e'. destruct e; subst r r'; cbn [same_outcome]; try reflexivity; (split; [reflexivity|]; split; [reflexivity|exact I]).
Qed.
End Go.
