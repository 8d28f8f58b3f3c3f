From Verif Require Import Base Shape_Model Moments_Spec Jacobian_Model Pixels_Model GMix_Model GMix_Spec GMix_Proofs
  Render_Model Render_Spec Render_Proofs GaussAp_Proofs GMixObj_Model GMixObj_Spec GMixObj_Proofs Flags_Model
  EM_Model EM_Spec EM_Proofs EMIter_Proofs EMLoop_Proofs.
Local Open Scope R_scope.

(** ** memory only grows *)
Record mext (m m' : emem) : Prop := mkMext {
  mx_wf : wf (em_gm m');
  mx_len : (length (h_objs (em_gm m)) <= length (h_objs (em_gm m')))%nat;
  mx_read : forall i o, read (em_gm m) i = Some o -> read (em_gm m') i = Some o;
  mx_pl : (length (em_px m) <= length (em_px m'))%nat;
  mx_px : forall i p, nth_error (em_px m) i = Some p -> nth_error (em_px m') i = Some p;
  mx_im : forall i p, nth_error (em_im m) i = Some p -> nth_error (em_im m') i = Some p }.
Lemma mext_refl m : wf (em_gm m) -> mext m m.
Proof. intros W. constructor; auto. Qed.
Lemma mext_trans a b c : mext a b -> mext b c -> mext a c.
Proof. intros [A1 A2 A3 A4 A5 A6] [B1 B2 B3 B4 B5 B6]. constructor; auto; lia. Qed.
Lemma mext_same m m' : mext m m' -> same_old m m'.
Proof. intros [_ _ A _ B C]. split; [exact A|]. split; assumption. Qed.

Lemma new_obj_ok m r m1 i : wf (em_gm m) -> new_obj m r = Ok (m1, i) ->
  exists o, r = Ok o /\ mext m m1 /\ i = length (h_objs (em_gm m)) /\ read (em_gm m1) i = Some o /\ em_px m1 = em_px m /\ em_im m1 = em_im m /\
    (length (h_objs (em_gm m1)) = S (length (h_objs (em_gm m)))).
Proof.
  intros W E. unfold new_obj in E. destruct r as [o|e]; cbn [bind] in E; [|discriminate]. injection E as <- <-. exists o. cbn [em_gm em_px em_im].
  assert (LL : length (h_objs (alloc (em_gm m) o)) = S (length (h_objs (em_gm m)))) by (unfold alloc; cbn [h_objs]; rewrite app_length; cbn; lia).
  split; [reflexivity|]. split; [|split; [reflexivity|split; [apply read_alloc_new|auto]]].
  constructor; cbn [em_gm em_px em_im]; auto.
  - apply alloc_wf. exact W.
  - rewrite LL. lia.
  - intros j x Hj. rewrite read_alloc_old; [exact Hj|exact W|]. eapply read_lt; exact Hj.
Qed.
Lemma new_obj_raise m r e : new_obj m r = Raise e -> r = Raise e.
Proof. unfold new_obj. destruct r; cbn [bind]; [discriminate|]. congruence. Qed.

Lemma write_objs h i o : h_objs (write h i o) = h_objs h.
Proof. unfold write. destruct (nth_error (h_objs h) i); reflexivity. Qed.
Lemma mext_write m0 m i o : mext m0 m -> (length (h_objs (em_gm m0)) <= i)%nat ->
  mext m0 (mkEm (write (em_gm m) i o) (em_px m) (em_im m)).
Proof.
  intros [A1 A2 A3 A4 A5 A6] Hi. constructor; cbn [em_gm em_px em_im]; auto.
  - apply write_wf. exact A1.
  - rewrite write_objs. exact A2.
  - intros j x Hj. rewrite read_write_other; [apply A3; exact Hj|exact A1|]. apply read_lt in Hj. lia.
Qed.
Lemma mext_set_data m0 m i d : mext m0 m -> (length (h_objs (em_gm m0)) <= i)%nat -> mext m0 (set_data m i d).
Proof. intros A Hi. unfold set_data. destruct (read (em_gm m) i); [|exact A]. apply mext_write; assumption. Qed.
Lemma mext_set_px m0 m i p : mext m0 m -> (length (em_px m0) <= i)%nat -> mext m0 (set_px m i p).
Proof.
  intros [A1 A2 A3 A4 A5 A6] Hi. constructor; unfold set_px; cbn [em_gm em_px em_im]; auto.
  - rewrite Render_Proofs.upd_length. exact A4.
  - intros j x Hj. rewrite nth_upd_other; [apply A5; exact Hj|]. assert (j < length (em_px m0))%nat by (apply nth_error_Some; congruence). lia.
Qed.

(** ** the psf *)
Lemma g2e_zero : g1g2_to_e1e2_nb 0 0 = Ok (0, 0).
Proof.
  rewrite g2e_nb. unfold g1g2_to_e1e2. cbv zeta. replace (0 * 0 + 0 * 0) with 0 by ring. rewrite sqrt_0.
  rewrite Rleb_f by lra. rewrite Reqb_t by reflexivity. reflexivity.
Qed.
Lemma gauss_fill_point : gmix_fill_gauss 1 [0;0;0;0;0;1] = Ok [gauss2d_set 1 0 0 0 0 0].
Proof.
  unfold gmix_fill_gauss. rewrite (fill_simple_eq 1 _ _ 0 0 0 0 0 1 0 0); [|reflexivity|reflexivity|exact g2e_zero].
  unfold pvals_gauss, fvals_gauss. cbn [combine map fst snd]. unfold coellip_gauss. cbn [fst snd]. f_equal. f_equal.
  apply (f_equal2 (fun x y => gauss2d_set x 0 0 y 0 0)) || idtac.
  replace (1 * 1) with 1 by ring. replace (/ 2 * (0 * 1) * (1 - 0)) with 0 by ring. replace (/ 2 * (0 * 1) * 0) with 0 by ring.
  replace (/ 2 * (0 * 1) * (1 + 0)) with 0 by ring. reflexivity.
Qed.
Lemma point_psf : exists o, new_model Mgauss [0;0;0;0;0;1] = Ok o /\ o_data o = [gauss2d_set 1 0 0 0 0 0].
Proof.
  unfold new_model, obj_fill, blank, finish, model_npars, model_ngauss. cbn [o_npars length Nat.eqb negb].
  unfold obj__fill. cbn [o_kind o_ngauss fill_func]. rewrite gauss_fill_point. eexists. split; [reflexivity|]. reflexivity.
Qed.
Lemma psf_flux m obs P : psf_given m obs P -> flux_of P = 1 /\ P <> [].
Proof.
  unfold psf_given. intros H.
  assert (D : flux_of P = 1).
  { destruct (eo_psf obs) as [[i|]|]; [|subst P; cbn; ring|subst P; cbn; ring].
    destruct H as (x & c & _ & _ & H). destruct (Req_dec (flux_of (o_data c)) 0) as [Z|Z]; [rewrite set_flux_none in H by exact Z; discriminate|].
    destruct (set_flux_spec (o_data c) 1 Z) as (g & E & F & _). rewrite H in E. injection E as <-. exact F. }
  split; [exact D|]. intros ->. cbn in D. lra.
Qed.

Lemma some_inj {A} (a b : A) : Some a = Some b -> a = b.
Proof. intros [= E]. exact E. Qed.
Lemma get_psf_ok m0 m obs m1 i : mext m0 m -> get_psf m obs = Some (Ok (m1, i)) ->
  exists o, mext m0 m1 /\ mext m m1 /\ (length (h_objs (em_gm m)) <= i)%nat /\ read (em_gm m1) i = Some o /\ psf_given m obs (o_data o) /\
    em_px m1 = em_px m /\ em_im m1 = em_im m.
Proof.
  intros M E. pose proof (mx_wf _ _ M) as W. unfold get_psf in E. unfold psf_given.
  assert (POINT : Some (new_obj m (new_model Mgauss [0; 0; 0; 0; 0; 1])) = Some (Ok (m1, i)) ->
    exists o, mext m0 m1 /\ mext m m1 /\ (length (h_objs (em_gm m)) <= i)%nat /\ read (em_gm m1) i = Some o /\ o_data o = [gauss2d_set 1 0 0 0 0 0] /\
    em_px m1 = em_px m /\ em_im m1 = em_im m).
  { intros K. apply some_inj in K. destruct (new_obj_ok _ _ _ _ W K) as (o & Eo & X & -> & Rd & Px & Im & _).
    destruct point_psf as (o' & Eo' & D). rewrite Eo' in Eo. injection Eo as <-. exists o'.
    split; [eapply mext_trans; eassumption|]. auto 10. }
  destruct (eo_psf obs) as [[g|]|]; [|exact (POINT E)|exact (POINT E)]. clear POINT.
  destruct (read (em_gm m) g) as [x|] eqn:Er; [|discriminate]. destruct (new_obj m (obj_copy x)) as [[m2 j]|e] eqn:En; [|discriminate].
  destruct (new_obj_ok _ _ _ _ W En) as (c & Ec & X & -> & Rd & Px & Im & _).
  unfold call_obj in E. cbn [step] in E. rewrite Rd in E. cbn [call] in E.
  destruct (gm_set_flux (o_data c) 1) as [d|] eqn:Ef; [|discriminate]. cbn [bind] in E. injection E as <- <-.
  exists (with_data c d). cbn [em_gm em_px em_im].
  assert (XX : mext m (mkEm (write (em_gm m2) (length (h_objs (em_gm m))) (with_data c d)) (em_px m2) (em_im m2))) by (apply mext_write; [exact X|lia]).
  split; [eapply mext_trans; eassumption|]. split; [exact XX|]. split; [lia|].
  split; [apply (read_write_same _ _ _ c); auto; apply X|]. split; [|auto]. exists x, c. auto.
Qed.
Lemma get_psf_raise m obs e : get_psf m obs = Some (Raise e) ->
  exists i x, eo_psf obs = Some (Some i) /\ read (em_gm m) i = Some x /\ obj_copy x = Raise e.
Proof.
  intros E. unfold get_psf in E. destruct point_psf as (o & Eo & _).
  destruct (eo_psf obs) as [[g|]|]; try (rewrite Eo in E; discriminate).
  destruct (read (em_gm m) g) as [x|] eqn:Er; [|discriminate]. exists g, x. split; [reflexivity|]. split; [exact Er|].
  destruct (new_obj m (obj_copy x)) as [[m2 j]|e1] eqn:En; [|apply new_obj_raise in En; congruence].
  unfold call_obj in E. destruct (step _ _) as [[h r]|] eqn:ES; [|discriminate].
  cbn [step] in ES. destruct (read (em_gm m2) j); [|discriminate]. cbn [call] in ES. destruct (gm_set_flux _ _); [|discriminate].
  injection ES as <- <-. discriminate.
Qed.

(** ** new mixtures from the results *)
Lemma new_full_of d : exists o, new_full (gm_get_full_pars d) = Ok o /\ o_kind o = KFull /\ o_data o = map fresh d.
Proof.
  pose proof (GMix_pars_of_full d) as E. unfold GMix_pars in E. unfold new_full. destruct (negb _); [discriminate|].
  unfold obj__fill, blank, finish. cbn [o_kind o_ngauss fill_func]. rewrite E. eexists. split; [reflexivity|]. split; reflexivity.
Qed.

(** ** the fit *)
Definition conf_of (f : fitter) (s : R) : em_conf := mkConf (f_tol f) (f_maxiter f) (f_miniter f) s (f_vary_sky f).
Lemma em_fit_cases f m0 m px gm psf conv s pixels g p gc m' r :
  mext m0 m -> (length (em_px m0) <= px)%nat -> (length (h_objs (em_gm m0)) <= gm)%nat -> (length (h_objs (em_gm m0)) <= conv)%nat ->
  nth_error (em_px m) px = Some pixels -> read (em_gm m) gm = Some g -> read (em_gm m) psf = Some p -> read (em_gm m) conv = Some gc ->
  em_fit f m px gm psf conv s = Some (m', r) ->
  mext m0 m' /\
  match em_run (f_kind f) (conf_of f s) pixels (o_data g) (o_data p) (o_data gc) (existsb masked pixels) with
  | Ok out => exists i j a b, r = Ok (mkRes (if Nat.leb (f_maxiter f) (o_numiter out) then EM_MAXITER else 0%Z)
                  (Some (o_numiter out, o_fdiff out, o_sky out)) (Some (i, j))) /\
                  read (em_gm m') i = Some a /\ o_kind a = KFull /\ o_data a = map fresh (o_gm out) /\
                  read (em_gm m') j = Some b /\ o_kind b = KFull /\ o_data b = map fresh (o_conv out)
  | Raise GMixRangeError | Raise ZeroDivisionError => r = Ok (mkRes EM_RANGE_ERROR None None)
  | Raise e => r = Raise e
  end.
Proof.
  intros M Hpx Hgm Hcv E1 E2 E3 E4 E. unfold em_fit in E. rewrite E1, E2, E3, E4 in E.
  change (existsb (fun x => Rleb (px_ierr x) 0) pixels) with (existsb masked pixels) in E. fold (conf_of f s) in E.
  destruct (em_run _ _ _ _ _ _ _) as [out|e].
  2:{ destruct e; injection E as <- <-; split; auto. }
  set (m1 := set_px _ _ _) in E.
  assert (M1 : mext m0 m1) by (unfold m1; apply mext_set_px; [apply mext_set_data; [apply mext_set_data|]|]; assumption).
  destruct (new_full_of (o_gm out)) as (a & Ea & Ka & Da). destruct (new_full_of (o_conv out)) as (b & Eb & Kb & Db).
  destruct (new_obj m1 _) as [[m2 i]|e] eqn:N1; [|apply new_obj_raise in N1; congruence]. cbn [bind] in E.
  destruct (new_obj_ok _ _ _ _ (mx_wf _ _ M1) N1) as (a' & Ea' & X1 & Hi & R1 & _). rewrite Ea in Ea'. injection Ea' as <-.
  destruct (new_obj m2 _) as [[m3 j]|e] eqn:N2; [|apply new_obj_raise in N2; congruence]. cbn [bind] in E.
  destruct (new_obj_ok _ _ _ _ (mx_wf _ _ X1) N2) as (b' & Eb' & X2 & Hj & R2 & _). rewrite Eb in Eb'. injection Eb' as <-.
  injection E as <- <-. split; [eapply mext_trans; [eapply mext_trans; eassumption|exact X2]|].
  exists i, j, a, b. split; [reflexivity|]. split; [apply (mx_read _ _ X2); exact R1|]. auto.
Qed.

(** ** go *)
Definition early (m : emem) (obs : eobs) (guess : nat) (sky : option R) (e : exn) : Prop :=
  (sky = None /\ exists im0, nth_error (em_im m) (eo_image obs) = Some im0 /\
      (prep_image im0 = Raise e \/ exists im s, prep_image im0 = Ok (im, s) /\ make_pixels im (ones im) (eo_jac obs) true = Raise e)) \/
  (exists i x, eo_psf obs = Some (Some i) /\ read (em_gm m) i = Some x /\ obj_copy x = Raise e) \/
  (exists x, read (em_gm m) guess = Some x /\ obj_copy x = Raise e).

Lemma psf_given_mext m m' obs P : mext m m' -> psf_given m' obs P ->
  (forall i, eo_psf obs = Some (Some i) -> exists x, read (em_gm m) i = Some x) -> psf_given m obs P.
Proof.
  intros X H HR. unfold psf_given in *. destruct (eo_psf obs) as [[i|]|]; auto.
  destruct (HR i eq_refl) as (x & Hx). destruct H as (y & c & Hy & Hc). rewrite (mx_read _ _ X _ _ Hx) in Hy. injection Hy as <-.
  exists x, c. auto.
Qed.

Lemma go_cases f m obs guess sky m' r :
  wf (em_gm m) -> (exists g, read (em_gm m) guess = Some g) -> (exists px, nth_error (em_px m) (eo_px obs) = Some px) ->
  em_go f m obs guess sky = Some (m', r) ->
  mext m m' /\
  ((exists e, r = Raise e /\ early m obs guess sky e) \/
   exists px s G P, data_given m obs sky px s /\ guess_given m guess G /\ psf_given m obs P /\
     match em_run (f_kind f) (conf_of f s) px G P (views P G) (existsb masked px) with
     | Ok out => exists i j a b, r = Ok (mkRes (if Nat.leb (f_maxiter f) (o_numiter out) then EM_MAXITER else 0%Z)
                  (Some (o_numiter out, o_fdiff out, o_sky out)) (Some (i, j))) /\
                  read (em_gm m') i = Some a /\ o_kind a = KFull /\ o_data a = map fresh (o_gm out) /\
                  read (em_gm m') j = Some b /\ o_kind b = KFull /\ o_data b = map fresh (o_conv out)
     | Raise GMixRangeError | Raise ZeroDivisionError => r = Ok (mkRes EM_RANGE_ERROR None None)
     | Raise e => r = Raise e
     end).
Proof.
  intros W (g & Hg) (px0 & Hpx0) E. unfold em_go in E.
  set (pre := match sky with None => _ | Some s => _ end) in E.
  assert (PRE : match pre with
    | None => True
    | Some (Raise e) => early m obs guess sky e
    | Some (Ok (m0, o0, s)) => mext m m0 /\ em_gm m0 = em_gm m /\ eo_psf o0 = eo_psf obs /\
         exists px, nth_error (em_px m0) (eo_px o0) = Some px /\ data_given m obs sky px s
    end).
  { unfold pre. destruct sky as [s|].
    - split; [apply mext_refl; exact W|]. split; [reflexivity|]. split; [reflexivity|]. exists px0. split; [exact Hpx0|]. split; [reflexivity|exact Hpx0].
    - unfold prep_obs. destruct (nth_error (em_im m) (eo_image obs)) as [im0|] eqn:Ei; [|exact I].
      destruct (prep_image im0) as [[im s]|e] eqn:Ep; cbn [bind].
      2:{ left. split; [reflexivity|]. exists im0. auto. }
      destruct (make_pixels im (ones im) (eo_jac obs) true) as [px|e] eqn:Em; cbn [bind].
      2:{ left. split; [reflexivity|]. exists im0. split; [exact Ei|]. right. eauto. }
      cbn [em_gm em_px em_im eo_psf eo_px]. split.
      + constructor; cbn [em_gm em_px em_im]; auto.
        * rewrite app_length. lia.
        * intros i p Hp. rewrite nth_error_app1; [exact Hp|]. apply nth_error_Some. congruence.
        * intros i p Hp. assert (i < length (em_im m))%nat by (apply nth_error_Some; congruence).
          rewrite nth_upd_other by lia. rewrite nth_error_app1 by assumption. exact Hp.
      + split; [reflexivity|]. split; [reflexivity|]. exists px. split; [rewrite nth_error_app2, Nat.sub_diag by lia; reflexivity|].
        exists im0, im. auto. }
  destruct pre as [[[[m0 o0] s]|e]|]; [|injection E as <- <-; split; [apply mext_refl; exact W|left; eauto]|discriminate].
  destruct PRE as (M0 & EG & EP & px & Hpx & DG).
  destruct (get_psf m0 o0) as [[[m1 psf]|e]|] eqn:Eps; [|injection E as <- <-; split; [exact M0|left]|discriminate].
  2:{ exists e. split; [reflexivity|]. right. left. destruct (get_psf_raise _ _ _ Eps) as (i & x & A & B & C). exists i, x. rewrite <- EP, <- EG. auto. }
  destruct (get_psf_ok m m0 o0 m1 psf M0 Eps) as (p & M1 & M01 & Lp & Rp & PG & Px1 & Im1).
  assert (PG' : psf_given m obs (o_data p)) by (unfold psf_given in *; rewrite EP, EG in PG; exact PG).
  assert (Hg1 : read (em_gm m1) guess = Some g) by (apply (mx_read _ _ M1); exact Hg).
  rewrite Hg1, Rp in E.
  destruct (new_obj m1 (obj_copy g)) as [[m2 gm]|e] eqn:N1.
  2:{ apply new_obj_raise in N1. injection E as <- <-. split; [exact M1|]. left. exists e. split; [reflexivity|]. right. right. eauto. }
  destruct (new_obj_ok _ _ _ _ (mx_wf _ _ M1) N1) as (c & Ec & X1 & Hgm & Rc & Px2 & Im2 & L2). rewrite Rc in E.
  destruct (psf_flux _ _ _ PG') as [FP NP].
  assert (EC : obj_convolve c p = Ok (with_data (new_full_ngauss (o_ngauss c * o_ngauss p)) (views (o_data p) (o_data c)))).
  { unfold obj_convolve. rewrite convolve_views by lra. reflexivity. }
  rewrite EC in E. destruct (new_obj m2 _) as [[m3 conv]|e] eqn:N2; [|apply new_obj_raise in N2; discriminate].
  destruct (new_obj_ok _ _ _ _ (mx_wf _ _ X1) N2) as (cv & Ecv & X2 & Hcv & Rcv & Px3 & Im3 & L3). injection Ecv as <-.
  assert (M3 : mext m m3) by (eapply mext_trans; [exact M1|]; eapply mext_trans; eassumption).
  assert (EPX : nth_error (em_px m3) (eo_px o0) = Some px) by (rewrite Px3, Px2, Px1; exact Hpx). rewrite EPX in E.
  set (m4 := mkEm _ _ _) in E.
  assert (X4 : mext m3 m4).
  { unfold m4. constructor; cbn [em_gm em_px em_im]; auto; [apply X2|rewrite app_length; lia|].
    intros i q Hq. rewrite nth_error_app1; [exact Hq|]. apply nth_error_Some. congruence. }
  assert (M4 : mext m m4) by (eapply mext_trans; eassumption).
  pose proof (mx_len _ _ M1). pose proof (mx_pl _ _ M3).
  destruct (em_fit_cases f m m4 (length (em_px m3)) gm psf conv s px c p (with_data (new_full_ngauss (o_ngauss c * o_ngauss p)) (views (o_data p) (o_data c))) m' r) as [MM RR].
  - exact M4.
  - assumption.
  - subst gm. assumption.
  - subst conv. lia.
  - unfold m4. cbn [em_px]. rewrite nth_error_app2, Nat.sub_diag by lia. reflexivity.
  - apply (mx_read _ _ X4). apply (mx_read _ _ X2). exact Rc.
  - apply (mx_read _ _ X4). apply (mx_read _ _ X2). apply (mx_read _ _ X1). exact Rp.
  - apply (mx_read _ _ X4). exact Rcv.
  - exact E.
  - split; [exact MM|]. right. exists px, s, (o_data c), (o_data p). split; [exact DG|]. split; [exists g, c; auto|]. split; [exact PG'|]. exact RR.
Qed.
