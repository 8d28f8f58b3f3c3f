From Verif Require Import Base XReal Pixels_Model Priors_Model Priors_Spec Priors_Proofs Joint_Model Joint_Spec.
Local Open Scope R_scope.

Lemma skipn_skipn' {A} (l : list A) : forall a b, skipn b (skipn a l) = skipn (a + b) l.
Proof.
  induction l as [|x l IH]; intros a b; [rewrite !skipn_nil; reflexivity|].
  destruct a as [|a]; [reflexivity|]. cbn [skipn Nat.add]. apply IH.
Qed.
Lemma Forall2_length {A B} {P : A -> B -> Prop} {l m} : Forall2 P l m -> length l = length m.
Proof. induction 1; cbn; congruence. Qed.
(** ** writing *)
Definition writer (st : list xr * nat) (v : xr) : res (list xr * nat) :=
  let (fd, i) := st in if Nat.ltb i (length fd) then Ok (Jacobian_Model.upd fd i v, S i) else Raise IndexError.
Lemma upd_mid {A} (pre : list A) x y rest : Jacobian_Model.upd (pre ++ x :: rest) (length pre) y = pre ++ y :: rest.
Proof. induction pre as [|a pre IH]; [reflexivity|]. cbn. rewrite IH. reflexivity. Qed.
Lemma writer_all vs : forall pre rest,
  foldM writer vs (pre ++ rest, length pre) =
  if Nat.leb (length vs) (length rest) then Ok (pre ++ vs ++ skipn (length vs) rest, (length pre + length vs)%nat)
  else Raise IndexError.
Proof.
  induction vs as [|v vs IH]; intros pre rest.
  - cbn. rewrite Nat.add_0_r. reflexivity.
  - cbn [foldM]. unfold writer at 1. rewrite app_length. destruct rest as [|x rest].
    + cbn [length]. rewrite Nat.add_0_r, Nat.ltb_irrefl. reflexivity.
    + replace (Nat.ltb (length pre) (length pre + length (x :: rest))) with true
        by (symmetry; apply Nat.ltb_lt; cbn; lia).
      cbn [bind]. rewrite upd_mid.
      replace (pre ++ v :: rest) with ((pre ++ [v]) ++ rest) by (rewrite <- app_assoc; reflexivity).
      replace (S (length pre)) with (length (pre ++ [v])) by (rewrite app_length; cbn; lia).
      rewrite IH. cbn [length Nat.leb skipn]. destruct (Nat.leb (length vs) (length rest)); [|reflexivity].
      rewrite app_length. cbn [length]. rewrite <- app_assoc. cbn [app]. do 2 f_equal. lia.
Qed.
Definition write_term (st : list xr * nat) (t : res (list xr)) : res (list xr * nat) :=
  let* vs := t in foldM writer vs st.
Lemma write_terms_fold l fd : write_terms l fd = foldM write_term l (fd, 0%nat).
Proof. reflexivity. Qed.

(** terms of known sizes *)
Definition sized (t : res (list xr)) (n : nat) : Prop := match t with Ok vs => length vs = n | Raise _ => True end.
Lemma write_all l : forall ns pre rest, Forall2 sized l ns -> (list_sum ns <= length rest)%nat ->
  foldM write_term l (pre ++ rest, length pre) =
  let* vss := mapM (fun t => t) l in
  Ok (pre ++ concat vss ++ skipn (list_sum ns) rest, (length pre + list_sum ns)%nat).
Proof.
  induction l as [|t l IH]; intros ns pre rest Hs Hn; inversion Hs; subst; clear Hs.
  - cbn. rewrite Nat.add_0_r. reflexivity.
  - cbn [foldM mapM]. unfold write_term at 1. destruct t as [vs|e]; cbn [bind]; [|reflexivity].
    cbn [sized] in H1. cbn [list_sum] in Hn. change (list_sum (y :: l')) with (y + list_sum l')%nat in *. subst y. rewrite writer_all.
    replace (Nat.leb (length vs) (length rest)) with true by (symmetry; apply Nat.leb_le; lia).
    cbn [bind]. rewrite app_assoc.
    replace (length pre + length vs)%nat with (length (pre ++ vs)) by (rewrite app_length; lia).
    rewrite (IH l'); [|exact H3|rewrite skipn_length; lia].
    destruct (mapM (fun t => t) l) as [vss|e]; cbn [bind]; [|reflexivity].
    cbn [concat]. rewrite <- !app_assoc. rewrite app_length. rewrite skipn_skipn'. do 2 f_equal. lia.
Qed.

(** ** the terms of parameters 4, 5, ... *)
Lemma enum_cons {A B} (f : A -> nat -> B) s a l : enum_from f s (a :: l) = f a s :: enum_from f (S s) l.
Proof.
  unfold enum_from. cbn [length seq combine map fst snd]. rewrite Nat.add_0_r. f_equal.
  rewrite <- seq_shift. revert s. generalize 0%nat as k. induction l as [|x l IH]; intros k s; [reflexivity|].
  cbn [length seq map combine fst snd]. f_equal; [f_equal; lia|]. apply IH.
Qed.
Lemma enum_nil {A B} (f : A -> nat -> B) s : enum_from f s [] = []. Proof. reflexivity. Qed.
Lemma enum_app {A B} (f : A -> nat -> B) a : forall s b, enum_from f s (a ++ b) = enum_from f s a ++ enum_from f (s + length a) b.
Proof.
  induction a as [|x a IH]; intros s b; cbn [app length].
  - rewrite Nat.add_0_r. reflexivity.
  - rewrite !enum_cons, IH. cbn [app]. do 3 f_equal. lia.
Qed.
Lemma enum_repeat {A B} (f : A -> nat -> B) a n : forall s, enum_from f s (repeat a n) = map (fun i => f a (s + i)%nat) (seq 0 n).
Proof.
  induction n as [|n IH]; intros s; [reflexivity|]. cbn [repeat]. rewrite enum_cons, IH.
  cbn [seq map]. rewrite Nat.add_0_r. f_equal. rewrite <- seq_shift, map_map. apply map_ext. intros i. f_equal. lia.
Qed.

Fixpoint tail_terms (m : p1obj -> xr -> res xr) (ps : list p1obj) (rest : list xr) {struct ps} : res (list xr) :=
  match ps, rest with
  | [], _ => Ok []
  | p :: ps, x :: rest => let* v := m p x in let* vs := tail_terms m ps rest in Ok (v :: vs)
  | _ :: _, [] => Raise IndexError
  end.
Lemma skipn_item (pars : list xr) s :
  match skipn s pars with x :: _ => item pars s = Ok x | [] => item pars s = Raise IndexError end.
Proof.
  unfold item. revert pars. induction s as [|s IH]; intros [|x pars]; cbn; try reflexivity. apply IH.
Qed.
Lemma skipn_S_tl (pars : list xr) s : skipn (S s) pars = tl (skipn s pars).
Proof. revert pars. induction s as [|s IH]; intros [|x pars]; cbn [skipn tl]; try reflexivity. apply IH. Qed.
Lemma tail_mapM m pars ps : forall s,
  mapM (fun t => t) (enum_from (fun p i => on1 (m p) pars i) s ps) = tail_terms m ps (skipn s pars).
Proof.
  induction ps as [|p ps IH]; intros s; [reflexivity|]. rewrite enum_cons. cbn [mapM tail_terms].
  unfold on1 at 1. assert (K := skipn_item pars s). rewrite IH, skipn_S_tl.
  destruct (skipn s pars) as [|x rest]; rewrite K; cbn [bind tl]; reflexivity.
Qed.
Lemma tail_mapM_one m pars ps : forall s,
  mapM (fun t => t) (enum_from (fun p i => one (on1 (m p) pars i)) s ps) =
  rmap (map (fun x => [x])) (tail_terms m ps (skipn s pars)).
Proof.
  induction ps as [|p ps IH]; intros s; [reflexivity|]. rewrite enum_cons. cbn [mapM tail_terms].
  unfold on1 at 1. assert (K := skipn_item pars s). rewrite IH, skipn_S_tl.
  destruct (skipn s pars) as [|x rest]; rewrite K; cbn [bind tl one rmap]; [reflexivity|].
  unfold one. destruct (m p x); cbn; [|reflexivity]. destruct (tail_terms m ps rest); reflexivity.
Qed.
Lemma tail_ok m ps : forall rest lr, tail_terms m ps rest = Ok lr <->
  (length ps <= length rest)%nat /\ Forall2 (fun px l => m (fst px) (snd px) = Ok l) (combine ps rest) lr.
Proof.
  induction ps as [|p ps IH]; intros rest lr; cbn [tail_terms].
  - split; [intros [= <-]; split; [cbn; lia|constructor]|]. intros [_ H]. inversion H. reflexivity.
  - destruct rest as [|x rest].
    + split; [discriminate|]. cbn. intros [H _]. lia.
    + split.
      * intros H. obind H v Ev. obind H vs Evs. injection H as <-. apply IH in Evs. destruct Evs as [Hl Hf].
        split; [cbn; lia|]. cbn [combine]. constructor; assumption.
      * intros [Hl Hf]. cbn [combine] in Hf. inversion Hf; subst. cbn [fst snd] in H1. rewrite H1. cbn [bind].
        assert (E : tail_terms m ps rest = Ok l') by (apply IH; split; [cbn in Hl; lia|assumption]).
        rewrite E. reflexivity.
Qed.
Lemma tail_length m ps : forall rest lr, tail_terms m ps rest = Ok lr -> length lr = length ps.
Proof.
  intros rest lr H. apply tail_ok in H. destruct H as [Hl Hf]. apply Forall2_length in Hf.
  rewrite <- Hf, combine_length. lia.
Qed.

(** the whole list of terms *)
Definition gen_lnprob (cen : cenprior) (g : p2obj) (ps : list p1obj) (pars : list xr) : res xr :=
  add_terms ([on2 (fun x y => Ok (cen_lnprob_scalar cen x y)) pars 0 1; on2 (p2_lnprob g) pars 2 3]
             ++ enum_from (fun p i => on1 (p1_lnprob p) pars i) 4 ps).
Definition gen_fill (cenp : res (list xr)) (gt : res xr) (m : p1obj -> xr -> res xr) (ps : list p1obj)
  (pars fdiff : list xr) : res (list xr * nat) :=
  write_terms ([cenp; one gt] ++ enum_from (fun p i => one (on1 (m p) pars i)) 4 ps) fdiff.

Lemma gen_lnprob_eq cen g ps pars : gen_lnprob cen g ps pars =
  let* a := on2 (fun x y => Ok (cen_lnprob_scalar cen x y)) pars 0 1 in
  let* b := on2 (p2_lnprob g) pars 2 3 in
  let* ls := tail_terms p1_lnprob ps (skipn 4 pars) in Ok (fold_left xadd (b :: ls) a).
Proof.
  unfold gen_lnprob, add_terms. cbn [app mapM]. rewrite tail_mapM.
  destruct (on2 _ pars 0 1); cbn [bind]; [|reflexivity].
  destruct (on2 (p2_lnprob g) pars 2 3); cbn [bind]; [|reflexivity].
  destruct (tail_terms _ _ _); reflexivity.
Qed.
Lemma skipn_cut {A} (a b : list A) n : length a = n -> skipn n (a ++ b) = b.
Proof. intros <-. induction a; [reflexivity|assumption]. Qed.
Lemma firstn_cut {A} (a b : list A) n : length a = n -> firstn n (a ++ b) = a.
Proof. intros <-. induction a as [|x a IH]; cbn; [reflexivity|rewrite IH; reflexivity]. Qed.
Lemma concat_single {A} (l : list A) : concat (map (fun x => [x]) l) = l.
Proof. induction l as [|x l IH]; cbn; [reflexivity|rewrite IH; reflexivity]. Qed.
Lemma gen_fill_eq cenp gt m ps pars fdiff : sized cenp 2 -> (3 + length ps <= length fdiff)%nat ->
  gen_fill cenp gt m ps pars fdiff =
  let* c := cenp in let* b := gt in let* ls := tail_terms m ps (skipn 4 pars) in
  Ok ((c ++ b :: ls) ++ skipn (3 + length ps) fdiff, (3 + length ps)%nat).
Proof.
  intros Hc Hl. unfold gen_fill. rewrite write_terms_fold.
  assert (Hs : Forall2 sized ([cenp; one gt] ++ enum_from (fun p i => one (on1 (m p) pars i)) 4 ps)
                 ([2; 1] ++ repeat 1 (length ps))%nat).
  { apply Forall2_app.
    - constructor; [exact Hc|]. constructor; [|constructor]. destruct gt; reflexivity.
    - clear. generalize 4%nat as s. induction ps as [|p ps IH]; intros s; [constructor|].
      rewrite enum_cons. cbn [length repeat]. constructor; [|apply IH]. destruct (on1 (m p) pars s); reflexivity. }
  assert (Hn : list_sum ([2; 1] ++ repeat 1 (length ps))%nat = (3 + length ps)%nat).
  { cbn. do 3 f_equal. clear. induction ps as [|p ps IH]; cbn; [reflexivity|]. cbn in IH. lia. }
  assert (K := write_all _ _ [] fdiff Hs). rewrite Hn in K. specialize (K Hl). cbn [app length] in K.
  cbn [app]. rewrite K. clear K. cbn [mapM]. rewrite tail_mapM_one.
  destruct cenp as [c|]; cbn [bind]; [|reflexivity]. destruct gt as [b|]; cbn [bind one rmap]; [|reflexivity].
  destruct (tail_terms m ps (skipn 4 pars)) as [ls|]; cbn [bind rmap]; [|reflexivity].
  cbn [concat app]. rewrite concat_single. cbn [app]. rewrite <- app_assoc. reflexivity.
Qed.

(** ** sums *)
Lemma xmul2_add a b : xadd (xmul (Fin (-2)) a) (xmul (Fin (-2)) b) = xmul (Fin (-2)) (xadd a b).
Proof.
  destruct a as [x| | |], b as [y| | |]; cbn; rewrite ?(rsgn_neg (-2)) by lra; try reflexivity. f_equal. ring.
Qed.
Lemma xsum_scale l : forall a, fold_left xadd (map (xmul (Fin (-2))) l) (xmul (Fin (-2)) a) = xmul (Fin (-2)) (fold_left xadd l a).
Proof. induction l as [|x l IH]; intros a; [reflexivity|]. cbn [map fold_left]. rewrite xmul2_add. apply IH. Qed.
Lemma xadd_0_l a : xadd (Fin 0) a = a.
Proof. destruct a; cbn; try reflexivity. f_equal. ring. Qed.
Lemma xadd_0_r a : xadd a (Fin 0) = a.
Proof. destruct a; cbn; try reflexivity. f_equal. ring. Qed.
Lemma xsum_sq fs ls : Forall2 (fun f l => xmul f f = xmul (Fin (-2)) l) fs ls ->
  xsum (map xsq fs) = xmul (Fin (-2)) (xsum ls).
Proof.
  intros H. replace (map xsq fs) with (map (xmul (Fin (-2))) ls).
  - unfold xsum. rewrite <- xsum_scale. f_equal. cbn. f_equal. ring.
  - induction H as [|f l fs ls E H IH]; [reflexivity|]. cbn. rewrite IH. unfold xsq. rewrite E. reflexivity.
Qed.
Lemma xsum_3 l0 l1 ls : xsum (l0 :: l1 :: ls) = fold_left xadd ls (xadd l0 l1).
Proof. unfold xsum. cbn [fold_left]. rewrite xadd_0_l. reflexivity. Qed.

(** ** meaning of the log probability *)
Definition cen_made (cen : cenprior) : Prop := exists a b s t, cen_init a b s t = Ok cen.
Lemma cen_value cen x0 x1 : cen_made cen ->
  cen_lnprob_scalar cen x0 x1 = xadd (fst (cen_lnprob_scalar_sep cen x0 x1)) (snd (cen_lnprob_scalar_sep cen x0 x1)).
Proof.
  intros (a & b & s & t & H). assert (K := cen_encodes a b s t cen x0 x1 H).
  destruct (cen_fdiff cen x0 x1), (cen_lnprob_scalar_sep cen x0 x1). apply K.
Qed.
Lemma gen_lnprob_spec cen g ps : cen_made cen -> lnprob_spec cen g ps (gen_lnprob cen g ps).
Proof.
  intros Hc pars L. rewrite gen_lnprob_eq. split.
  - intros H. obind H a Ea. obind H b Eb. obind H ls Els. injection H as <-.
    apply tail_ok in Els. destruct Els as [Hl Hf].
    destruct pars as [|x0 [|x1 [|x2 [|x3 rest]]]]; cbn in Ea, Eb; try discriminate.
    injection Ea as <-. cbn [skipn] in *.
    destruct (cen_lnprob_scalar_sep cen x0 x1) as [l0 l1] eqn:E.
    exists (l0 :: l1 :: b :: ls). split.
    + exists x0, x1, x2, x3, rest, l0, l1, b, ls. repeat split; assumption.
    + rewrite xsum_3, (cen_value cen x0 x1 Hc), E. reflexivity.
  - intros (ls & (x0 & x1 & x2 & x3 & rest & l0 & l1 & l2 & lr & -> & -> & E & Eg & Hl & Hf) & ->).
    unfold on2. cbn [item nth_error bind]. rewrite Eg. cbn [bind skipn].
    assert (K : tail_terms p1_lnprob ps rest = Ok lr) by (apply tail_ok; split; assumption).
    rewrite K. cbn [bind]. rewrite (cen_value cen x0 x1 Hc), E, xsum_3. reflexivity.
Qed.

(** ** residuals written as square roots of clipped log probabilities *)
Lemma cen_sep_sized cen pars : sized (cen_sep cen pars) 2.
Proof.
  unfold cen_sep, on2. destruct (item pars 0) as [x|]; [|exact I]. cbn [bind]. destruct (item pars 1) as [y|]; [|exact I].
  cbn [bind]. destruct (cen_lnprob_scalar_sep cen x y). reflexivity.
Qed.
Lemma cen_fd_sized cen pars : sized (cen_fd cen pars) 2.
Proof.
  unfold cen_fd, on2. destruct (item pars 0); [|exact I]. cbn [bind]. destruct (item pars 1); [|exact I]. reflexivity.
Qed.
Definition root (l : xr) : xr := xsqrt (xclip0 (xmul (Fin (-2)) l)).
Lemma roots ls : Forall (fun l => xltb (Fin 0) l = false) ls ->
  Forall2 (fun f l => xmul f f = xmul (Fin (-2)) l) (map root ls) ls.
Proof. induction 1 as [|l ls H Hs IH]; cbn; constructor; [apply sqrt_clip; exact H|exact IH]. Qed.
Lemma tail_np ps rest lr : Forall (fun p => never_positive (p1_lnprob p)) ps -> tail_terms p1_lnprob ps rest = Ok lr ->
  Forall (fun l => xltb (Fin 0) l = false) lr.
Proof.
  intros Hp. revert rest lr. induction Hp as [|p ps H Hp IH]; intros rest lr; cbn [tail_terms].
  - intros [= <-]. constructor.
  - destruct rest as [|x rest]; [discriminate|]. intros E. obind E v Ev. obind E vs Evs. injection E as <-.
    constructor; [exact (H x v Ev)|exact (IH rest vs Evs)].
Qed.
Lemma sqrt_front_eq ls rest n : length ls = n -> sqrt_front (ls ++ rest, n) = (map root ls ++ rest, n).
Proof. intros H. unfold sqrt_front. rewrite (firstn_cut ls rest n H), (skipn_cut ls rest n H). reflexivity. Qed.

Lemma residuals_intro ls fs fdiff n : length ls = n -> (n <= length fdiff)%nat ->
  Forall2 (fun f l => xmul f f = xmul (Fin (-2)) l) fs ls ->
  residuals ls fdiff (fs ++ skipn n fdiff, n).
Proof.
  intros <- Hn H. assert (L := Forall2_length H). unfold residuals. cbn [fst snd].
  split; [reflexivity|]. split; [rewrite app_length, skipn_length; lia|].
  split; [apply skipn_cut; exact L|]. rewrite (firstn_cut fs _ _ L). exact H.
Qed.
Lemma gen_fill_root_spec cen g ps : cen_made cen -> never_positive2 (p2_lnprob g) ->
  Forall (fun p => never_positive (p1_lnprob p)) ps ->
  fill_spec cen g ps (gen_lnprob cen g ps)
    (fun pars fdiff => rmap sqrt_front (gen_fill (cen_sep cen pars) (on2 (p2_lnprob g) pars 2 3) p1_lnprob ps pars fdiff)).
Proof.
  intros Hc Hg Hps pars fdiff Hl. rewrite gen_lnprob_eq.
  rewrite (gen_fill_eq _ _ _ _ _ _ (cen_sep_sized cen pars) Hl).
  destruct pars as [|x0 [|x1 pars]]; try reflexivity.
  unfold cen_sep, on2 at 1 3. cbn [item nth_error bind].
  assert (V := cen_value cen x0 x1 Hc). assert (N := Hc). destruct N as (ca & cb & cs & ct & N).
  apply (cen_encodes ca cb cs ct cen x0 x1) in N. destruct (cen_fdiff cen x0 x1) as [f0 f1].
  destruct (cen_lnprob_scalar_sep cen x0 x1) as [l0 l1] eqn:E. cbn [bind].
  destruct (on2 (p2_lnprob g) (x0 :: x1 :: pars) 2 3) as [b|e] eqn:Eb; cbn [bind rmap]; [|reflexivity].
  destruct pars as [|x2 [|x3 rest]]; try discriminate Eb.
  cbn in Eb. cbn [skipn].
  destruct (tail_terms p1_lnprob ps rest) as [lr|e] eqn:Er; cbn [bind rmap]; [|reflexivity].
  set (ls := l0 :: l1 :: b :: lr).
  assert (Ln : length ls = (3 + length ps)%nat) by (cbn; rewrite (tail_length _ _ _ _ Er); reflexivity).
  change ([l0; l1] ++ b :: lr) with ls. rewrite sqrt_front_eq by exact Ln.
  assert (R2 : Forall2 (fun f l => xmul f f = xmul (Fin (-2)) l) (map root ls) ls).
  { apply roots. constructor; [apply N|]. constructor; [apply N|]. constructor; [exact (Hg _ _ _ Eb)|].
    exact (tail_np ps rest lr Hps Er). }
  cbn [fst snd]. split.
  - exists ls. split; [|apply residuals_intro; [exact Ln|exact Hl|exact R2]].
    apply tail_ok in Er. destruct Er as [A B].
    exists x0, x1, x2, x3, rest, l0, l1, b, lr. repeat split; assumption.
  - split; [reflexivity|].
    rewrite firstn_cut by (rewrite map_length; exact Ln). rewrite (xsum_sq _ _ R2). f_equal.
    unfold ls. rewrite xsum_3, V. reflexivity.
Qed.

(** ** residuals taken from get_fdiff *)
Lemma tail_encodes ps : Forall encodes ps -> forall rest,
  match tail_terms p1_lnprob ps rest, tail_terms p1_fdiff ps rest with
  | Ok ls, Ok fs => Forall2 (fun f l => xmul f f = xmul (Fin (-2)) l) fs ls
  | Raise e, Raise e' => e = e'
  | _, _ => False
  end.
Proof.
  induction 1 as [|p ps H Hp IH]; intros rest; cbn [tail_terms]; [constructor|].
  destruct rest as [|x rest]; [reflexivity|]. assert (K := H x). unfold same_term in K.
  destruct (p1_lnprob p x), (p1_fdiff p x); cbn [bind]; try contradiction; [|exact K].
  specialize (IH rest). destruct (tail_terms p1_lnprob ps rest), (tail_terms p1_fdiff ps rest); cbn [bind]; try contradiction; [|exact IH].
  constructor; assumption.
Qed.
Lemma gen_fill_fd_spec cen g ps : cen_made cen -> encodes2 g -> Forall encodes ps ->
  fill_spec cen g ps (gen_lnprob cen g ps)
    (fun pars fdiff => gen_fill (cen_fd cen pars) (on2 (p2_fdiff g) pars 2 3) p1_fdiff ps pars fdiff).
Proof.
  intros Hc Hg Hps pars fdiff Hl. rewrite gen_lnprob_eq.
  rewrite (gen_fill_eq _ _ _ _ _ _ (cen_fd_sized cen pars) Hl).
  destruct pars as [|x0 [|x1 pars]]; try reflexivity.
  unfold cen_fd, on2 at 1 3. cbn [item nth_error bind].
  assert (V := cen_value cen x0 x1 Hc). assert (N := Hc). destruct N as (ca & cb & cs & ct & N).
  apply (cen_encodes ca cb cs ct cen x0 x1) in N. destruct (cen_fdiff cen x0 x1) as [f0 f1].
  destruct (cen_lnprob_scalar_sep cen x0 x1) as [l0 l1] eqn:E. cbn [bind].
  destruct pars as [|x2 [|x3 rest]]; try reflexivity.
  unfold on2. cbn [item nth_error bind skipn]. assert (K := Hg x2 x3). unfold same_term in K.
  destruct (p2_lnprob g x2 x3) as [b|e] eqn:Eb, (p2_fdiff g x2 x3) as [fb|e']; cbn [bind]; try contradiction; [|exact K].
  assert (T := tail_encodes ps Hps rest).
  destruct (tail_terms p1_lnprob ps rest) as [lr|e] eqn:Er, (tail_terms p1_fdiff ps rest) as [fr|e']; cbn [bind];
    try contradiction; [|exact T].
  set (ls := l0 :: l1 :: b :: lr). change ([f0; f1] ++ fb :: fr) with (f0 :: f1 :: fb :: fr).
  assert (Ln : length ls = (3 + length ps)%nat) by (cbn; rewrite (tail_length _ _ _ _ Er); reflexivity).
  assert (R2 : Forall2 (fun f l => xmul f f = xmul (Fin (-2)) l) (f0 :: f1 :: fb :: fr) ls).
  { constructor; [apply N|]. constructor; [apply N|]. constructor; [exact K|exact T]. }
  cbn [fst snd]. split.
  - exists ls. split; [|apply residuals_intro; [exact Ln|exact Hl|exact R2]].
    apply tail_ok in Er. destruct Er as [A B].
    exists x0, x1, x2, x3, rest, l0, l1, b, lr. repeat split; assumption.
  - split; [reflexivity|]. assert (Lf := Forall2_length R2). rewrite Ln in Lf.
    rewrite firstn_cut by exact Lf. rewrite (xsum_sq _ _ R2). f_equal.
    unfold ls. rewrite xsum_3, V. reflexivity.
Qed.

(** ** the classes *)
Lemma simple_lnprob_gen P pars : simple_lnprob P pars = gen_lnprob (ss_cen P) (ss_g P) (simple_ps (ss_T P) (ss_F P)) pars.
Proof. unfold gen_lnprob, simple_ps. rewrite !enum_cons. reflexivity. Qed.
Lemma bd_lnprob_gen P pars : bd_lnprob P pars =
  gen_lnprob (bd_cen P) (bd_g P) (bd_ps (bd_T P) (bd_logTratio P) (bd_fracdev P) (bd_F P)) pars.
Proof. unfold gen_lnprob, bd_ps. rewrite !enum_cons. reflexivity. Qed.
Lemma bdf_lnprob_gen P pars : bdf_lnprob P pars =
  gen_lnprob (bf_cen P) (bf_g P) (bdf_ps (bf_T P) (bf_fracdev P) (bf_F P)) pars.
Proof. unfold gen_lnprob, bdf_ps. rewrite !enum_cons. reflexivity. Qed.
Lemma spergel_lnprob_gen P pars : spergel_lnprob P pars =
  gen_lnprob (sp_cen P) (sp_g P) (spergel_ps (sp_r50 P) (sp_nu P) (sp_F P)) pars.
Proof. unfold gen_lnprob, spergel_ps. rewrite !enum_cons. reflexivity. Qed.
Lemma coellip_enum {B} (f : p1obj -> nat -> B) T F n :
  enum_from f 4 (coellip_ps n T F) =
  map (fun i => f T (4 + i)%nat) (seq 0 n) ++ map (fun i => f F (4 + n + i)%nat) (seq 0 n).
Proof. unfold coellip_ps. rewrite enum_app, !enum_repeat, repeat_length. reflexivity. Qed.
Lemma coellip_lnprob_gen P F pars : ss_F (co_base P) = [F] ->
  coellip_lnprob P pars =
  if Nat.eqb (length pars) (co_npars P)
  then gen_lnprob (ss_cen (co_base P)) (ss_g (co_base P)) (coellip_ps (co_ngauss P) (ss_T (co_base P)) F) pars
  else Raise ValueError.
Proof.
  intros HF. unfold coellip_lnprob. destruct (Nat.eqb _ _); [|reflexivity]. cbn [negb].
  unfold gen_lnprob. rewrite coellip_enum. unfold first_F. rewrite HF. reflexivity.
Qed.

Lemma simple_fill_gen P pars fd : simple_fill_fdiff P pars fd =
  rmap sqrt_front (gen_fill (cen_sep (ss_cen P) pars) (on2 (p2_lnprob (ss_g P)) pars 2 3) p1_lnprob
                            (simple_ps (ss_T P) (ss_F P)) pars fd).
Proof. unfold gen_fill, simple_ps. rewrite !enum_cons. reflexivity. Qed.
Lemma spergel_fill_gen P pars fd : spergel_fill_fdiff P pars fd =
  rmap sqrt_front (gen_fill (cen_sep (sp_cen P) pars) (on2 (p2_lnprob (sp_g P)) pars 2 3) p1_lnprob
                            (spergel_ps (sp_r50 P) (sp_nu P) (sp_F P)) pars fd).
Proof. unfold gen_fill, spergel_ps. rewrite !enum_cons. reflexivity. Qed.
Lemma coellip_fill_gen P F pars fd : ss_F (co_base P) = [F] -> coellip_fill_fdiff P pars fd =
  if Nat.eqb (length pars) (co_npars P)
  then rmap sqrt_front (gen_fill (cen_sep (ss_cen (co_base P)) pars) (on2 (p2_lnprob (ss_g (co_base P))) pars 2 3) p1_lnprob
                            (coellip_ps (co_ngauss P) (ss_T (co_base P)) F) pars fd)
  else Raise ValueError.
Proof.
  intros HF. unfold coellip_fill_fdiff. destruct (Nat.eqb _ _); [|reflexivity]. cbn [negb].
  unfold gen_fill. rewrite coellip_enum. unfold first_F. rewrite HF. reflexivity.
Qed.
Lemma bd_fill_gen P pars fd : bd_fill_fdiff P pars fd =
  gen_fill (cen_fd (bd_cen P) pars) (on2 (p2_fdiff (bd_g P)) pars 2 3) p1_fdiff
           (bd_ps (bd_T P) (bd_logTratio P) (bd_fracdev P) (bd_F P)) pars fd.
Proof. unfold gen_fill, bd_ps. rewrite !enum_cons. reflexivity. Qed.
Lemma bdf_fill_gen P pars fd : bdf_fill_fdiff P pars fd =
  gen_fill (cen_fd (bf_cen P) pars) (on2 (p2_fdiff (bf_g P)) pars 2 3) p1_fdiff
           (bdf_ps (bf_T P) (bf_fracdev P) (bf_F P)) pars fd.
Proof. unfold gen_fill, bdf_ps. rewrite !enum_cons. reflexivity. Qed.

Lemma lnprob_spec_ext cen g ps f h : (forall x, f x = h x) -> lnprob_spec cen g ps h -> lnprob_spec cen g ps f.
Proof. intros E H pars L. rewrite E. apply H. Qed.
Lemma fill_spec_ext cen g ps f h a b : (forall x, f x = h x) -> (forall x y, a x y = b x y) ->
  fill_spec cen g ps h b -> fill_spec cen g ps f a.
Proof. intros E E2 H pars fd Hl. rewrite E, E2. apply H. exact Hl. Qed.

(** what the constructors give *)
Lemma simple_init_parts cen g T F P : simple_init cen g T F = Ok P ->
  ss_cen P = cen /\ ss_g P = g /\ ss_T P = T /\ ss_F P = fluxes F /\ ss_bounds P = list_bounds (simple_ps T (fluxes F)).
Proof. destruct F; intros [= <-]; repeat split. Qed.
Lemma bd_init_parts cen g T Tr fd F P : bd_init cen g T Tr fd F = Ok P ->
  bd_cen P = cen /\ bd_g P = g /\ bd_T P = T /\ bd_logTratio P = Tr /\ bd_fracdev P = fd /\ bd_F P = fluxes F /\
  bd_bounds P = list_bounds (bd_ps T Tr fd (fluxes F)).
Proof. destruct F; intros [= <-]; repeat split. Qed.
Lemma bdf_init_parts cen g T fd F P : bdf_init cen g T fd F = Ok P ->
  bf_cen P = cen /\ bf_g P = g /\ bf_T P = T /\ bf_fracdev P = fd /\ bf_F P = fluxes F /\
  bf_bounds P = list_bounds (bdf_ps T fd (fluxes F)).
Proof. destruct F; intros [= <-]; repeat split. Qed.
Lemma spergel_init_parts cen g r nu F P : spergel_init cen g r nu F = Ok P ->
  sp_cen P = cen /\ sp_g P = g /\ sp_r50 P = r /\ sp_nu P = nu /\ sp_F P = fluxes F /\
  sp_bounds P = list_bounds (spergel_ps r nu (fluxes F)).
Proof. destruct F; intros [= <-]; repeat split. Qed.
Lemma coellip_init_parts n cen g T F P : coellip_init n cen g T F = Ok P ->
  co_ngauss P = n /\ co_npars P = (4 + 2 * n)%nat /\
  ss_cen (co_base P) = cen /\ ss_g (co_base P) = g /\ ss_T (co_base P) = T /\
  (exists p, ss_F (co_base P) = [p] /\ fluxes F = [p]) /\ ss_bounds (co_base P) = coellip_bounds n T (fluxes F).
Proof.
  unfold coellip_init. destruct F as [p|l|l]; cbn [bind length]; try discriminate.
  - intros [= <-]. repeat split. exists p. split; reflexivity.
  - destruct l as [|p [|q l]]; cbn [length Nat.eqb]; try discriminate.
    intros [= <-]. repeat split. exists p. split; reflexivity.
Qed.

Lemma simple_lnprob_ok cen g T F P : cen_made cen -> simple_init cen g T F = Ok P ->
  lnprob_spec cen g (simple_ps T (fluxes F)) (simple_lnprob P).
Proof.
  intros Hc H. apply simple_init_parts in H. destruct H as (<- & <- & <- & <- & _).
  eapply lnprob_spec_ext; [apply simple_lnprob_gen|apply gen_lnprob_spec; exact Hc].
Qed.
Lemma bd_lnprob_ok cen g T Tr fd F P : cen_made cen -> bd_init cen g T Tr fd F = Ok P ->
  lnprob_spec cen g (bd_ps T Tr fd (fluxes F)) (bd_lnprob P).
Proof.
  intros Hc H. apply bd_init_parts in H. destruct H as (<- & <- & <- & <- & <- & <- & _).
  eapply lnprob_spec_ext; [apply bd_lnprob_gen|apply gen_lnprob_spec; exact Hc].
Qed.
Lemma bdf_lnprob_ok cen g T fd F P : cen_made cen -> bdf_init cen g T fd F = Ok P ->
  lnprob_spec cen g (bdf_ps T fd (fluxes F)) (bdf_lnprob P).
Proof.
  intros Hc H. apply bdf_init_parts in H. destruct H as (<- & <- & <- & <- & <- & _).
  eapply lnprob_spec_ext; [apply bdf_lnprob_gen|apply gen_lnprob_spec; exact Hc].
Qed.
Lemma spergel_lnprob_ok cen g r nu F P : cen_made cen -> spergel_init cen g r nu F = Ok P ->
  lnprob_spec cen g (spergel_ps r nu (fluxes F)) (spergel_lnprob P).
Proof.
  intros Hc H. apply spergel_init_parts in H. destruct H as (<- & <- & <- & <- & <- & _).
  eapply lnprob_spec_ext; [apply spergel_lnprob_gen|apply gen_lnprob_spec; exact Hc].
Qed.
Lemma coellip_lnprob_ok n cen g T F P : cen_made cen -> coellip_init n cen g T (FOne F) = Ok P ->
  forall pars L, coellip_lnprob P pars = Ok L <->
    length pars = (4 + 2 * n)%nat /\ exists ls, terms_at cen g (coellip_ps n T F) pars ls /\ L = xsum ls.
Proof.
  intros Hc H pars L. apply coellip_init_parts in H. destruct H as (<- & E & <- & <- & <- & (p & E1 & E2) & _).
  injection E2 as <-. rewrite (coellip_lnprob_gen P F pars E1), E.
  destruct (Nat.eqb (length pars) _) eqn:El; [apply Nat.eqb_eq in El|apply Nat.eqb_neq in El].
  - rewrite (gen_lnprob_spec _ _ _ Hc pars L). tauto.
  - split; [discriminate|]. tauto.
Qed.

Lemma simple_fill_ok cen g T F P : cen_made cen -> never_positive2 (p2_lnprob g) ->
  Forall (fun p => never_positive (p1_lnprob p)) (simple_ps T (fluxes F)) -> simple_init cen g T F = Ok P ->
  fill_spec cen g (simple_ps T (fluxes F)) (simple_lnprob P) (simple_fill_fdiff P).
Proof.
  intros Hc Hg Hp H. apply simple_init_parts in H. destruct H as (<- & <- & <- & E & _). rewrite <- E in *.
  eapply fill_spec_ext; [apply simple_lnprob_gen|intros; apply simple_fill_gen|].
  apply gen_fill_root_spec; assumption.
Qed.
Lemma spergel_fill_ok cen g r nu F P : cen_made cen -> never_positive2 (p2_lnprob g) ->
  Forall (fun p => never_positive (p1_lnprob p)) (spergel_ps r nu (fluxes F)) -> spergel_init cen g r nu F = Ok P ->
  fill_spec cen g (spergel_ps r nu (fluxes F)) (spergel_lnprob P) (spergel_fill_fdiff P).
Proof.
  intros Hc Hg Hp H. apply spergel_init_parts in H. destruct H as (<- & <- & <- & <- & E & _). rewrite <- E in *.
  eapply fill_spec_ext; [apply spergel_lnprob_gen|intros; apply spergel_fill_gen|].
  apply gen_fill_root_spec; assumption.
Qed.
Lemma coellip_fill_ok n cen g T F P : cen_made cen -> never_positive2 (p2_lnprob g) ->
  never_positive (p1_lnprob T) -> never_positive (p1_lnprob F) -> coellip_init n cen g T (FOne F) = Ok P ->
  fill_spec cen g (coellip_ps n T F) (coellip_lnprob P) (coellip_fill_fdiff P).
Proof.
  intros Hc Hg HT HF H. apply coellip_init_parts in H. destruct H as (<- & E & <- & <- & <- & (p & E1 & E2) & _).
  injection E2 as <-. intros pars fd Hl.
  rewrite (coellip_lnprob_gen P F pars E1), (coellip_fill_gen P F pars fd E1).
  destruct (Nat.eqb (length pars) _); [|reflexivity].
  apply (gen_fill_root_spec (ss_cen (co_base P)) (ss_g (co_base P)) (coellip_ps (co_ngauss P) (ss_T (co_base P)) F));
    try assumption.
  unfold coellip_ps. apply Forall_app. split; apply Forall_forall; intros q Hq; apply repeat_spec in Hq; subst q; assumption.
Qed.
Lemma bd_fill_ok cen g T Tr fd F P : cen_made cen -> encodes2 g -> Forall encodes (bd_ps T Tr fd (fluxes F)) ->
  bd_init cen g T Tr fd F = Ok P ->
  fill_spec cen g (bd_ps T Tr fd (fluxes F)) (bd_lnprob P) (bd_fill_fdiff P).
Proof.
  intros Hc Hg Hp H. apply bd_init_parts in H. destruct H as (<- & <- & <- & <- & <- & E & _). rewrite <- E in *.
  eapply fill_spec_ext; [apply bd_lnprob_gen|intros; apply bd_fill_gen|].
  apply gen_fill_fd_spec; assumption.
Qed.
Lemma bdf_fill_ok cen g T fd F P : cen_made cen -> encodes2 g -> Forall encodes (bdf_ps T fd (fluxes F)) ->
  bdf_init cen g T fd F = Ok P ->
  fill_spec cen g (bdf_ps T fd (fluxes F)) (bdf_lnprob P) (bdf_fill_fdiff P).
Proof.
  intros Hc Hg Hp H. apply bdf_init_parts in H. destruct H as (<- & <- & <- & <- & E & _). rewrite <- E in *.
  eapply fill_spec_ext; [apply bdf_lnprob_gen|intros; apply bdf_fill_gen|].
  apply gen_fill_fd_spec; assumption.
Qed.

(** ** bounds *)
Lemma list_bounds_ok ps : bounds_spec ps (list_bounds ps).
Proof.
  unfold list_bounds, bounds_spec. destruct (existsb has_bounds ps) eqn:E.
  - split; [rewrite app_length, map_length; reflexivity|]. split.
    + intros k Hk. unfold own_bound. destruct (Nat.ltb k 4) eqn:E4.
      * apply Nat.ltb_lt in E4. do 4 (destruct k as [|k]; [reflexivity|]). lia.
      * apply Nat.ltb_ge in E4. rewrite app_length, map_length in Hk. cbn [repeat length] in Hk.
        rewrite nth_error_app2 by exact E4. cbn [repeat length]. rewrite nth_error_map.
        destruct (nth_error ps (k - 4)) as [p|] eqn:Ep; cbn [option_map].
        -- unfold bounds_of. destruct (p1_bounds p) as [[a b]|]; reflexivity.
        -- apply nth_error_None in Ep. lia.
    + apply existsb_exists in E. destruct E as (p & Hp & Hb). exists p. split; [exact Hp|].
      unfold has_bounds in Hb. destruct (p1_bounds p); [discriminate|discriminate].
  - intros p Hp. assert (K : has_bounds p = false).
    { destruct (has_bounds p) eqn:Eb; [|reflexivity]. rewrite <- E. symmetry. apply existsb_exists. exists p. split; assumption. }
    unfold has_bounds in K. destruct (p1_bounds p); [discriminate|reflexivity].
Qed.

(** ** samples *)
Section Sample.
Variable W : Type.
Lemma draw_all_drawn l : forall (w : W) n, drawn l w n (snd (draw_all l w n)) (fst (draw_all l w n)).
Proof.
  induction l as [|s l IH]; intros w n; cbn [draw_all drawn fst snd]; [reflexivity|].
  destruct (s w n) as [w1 v] eqn:E. specialize (IH w1 n). destruct (draw_all l w1 n) as [w2 vs] eqn:E2.
  cbn [fst snd]. exists w1. split; [reflexivity|exact IH].
Qed.
Lemma drawn_length l : forall (w : W) n vs w', drawn l w n vs w' -> length vs = length l.
Proof.
  induction l as [|s l IH]; intros w n [|v vs] w'; cbn; try tauto. intros (w1 & _ & H).
  rewrite (IH _ _ _ _ H). reflexivity.
Qed.
Lemma drawn_app a : forall b (w : W) n vs w1 us w2, drawn a w n vs w1 -> drawn b w1 n us w2 -> drawn (a ++ b) w n (vs ++ us) w2.
Proof.
  induction a as [|s a IH]; intros b w n [|v vs] w1 us w2; cbn; try tauto.
  - intros -> H. exact H.
  - intros (w0 & E & H) H2. exists w0. split; [exact E|]. exact (IH b w0 n vs w1 us w2 H H2).
Qed.
Lemma combine_app' {A B} (a c : list A) : forall (b d : list B), length a = length b ->
  combine (a ++ c) (b ++ d) = combine a b ++ combine c d.
Proof.
  induction a as [|x a IH]; intros [|y b] d H; cbn in *; try discriminate; [reflexivity|]. rewrite IH by lia. reflexivity.
Qed.
Lemma set_cols_at vs : forall m s r c,
  nrow (set_cols m s vs) = nrow m /\ ncol (set_cols m s vs) = ncol m /\
  at2 (set_cols m s vs) r c =
    if (Nat.leb s c && Nat.ltb c (s + length vs))%bool then nth r (nth (c - s) vs []) 0 else at2 m r c.
Proof.
  induction vs as [|v vs IH] using rev_ind; intros m s r c.
  - split; [reflexivity|]. split; [reflexivity|]. cbn [length]. rewrite Nat.add_0_r.
    change (set_cols m s []) with m.
    destruct (Nat.leb s c) eqn:E1, (Nat.ltb c s) eqn:E2; cbn [andb]; try reflexivity.
    apply Nat.leb_le in E1. apply Nat.ltb_lt in E2. lia.
  - unfold set_cols. rewrite app_length. cbn [length]. rewrite seq_app, combine_app' by (rewrite seq_length; reflexivity).
    cbn [Nat.add seq combine]. rewrite fold_left_app. cbn [fold_left fst snd].
    fold (set_cols m s vs). unfold set_col. cbn [nrow ncol at2]. destruct (IH m s r c) as (A & B & C).
    split; [exact A|]. split; [exact B|]. rewrite C.
    destruct (Nat.eqb c (s + length vs)) eqn:E.
    + apply Nat.eqb_eq in E. subst c.
      replace (Nat.leb s (s + length vs)) with true by (symmetry; apply Nat.leb_le; lia).
      replace (Nat.ltb (s + length vs) (s + (length vs + 1))) with true by (symmetry; apply Nat.ltb_lt; lia).
      cbn [andb]. rewrite app_nth2 by lia. replace (s + length vs - s - length vs)%nat with 0%nat by lia. reflexivity.
    + apply Nat.eqb_neq in E. destruct (Nat.leb s c) eqn:E1; cbn [andb]; [|reflexivity]. apply Nat.leb_le in E1.
      destruct (Nat.ltb c (s + length vs)) eqn:E2.
      * apply Nat.ltb_lt in E2. replace (Nat.ltb c (s + (length vs + 1))) with true by (symmetry; apply Nat.ltb_lt; lia).
        rewrite app_nth1 by lia. reflexivity.
      * apply Nat.ltb_ge in E2. replace (Nat.ltb c (s + (length vs + 1))) with false by (symmetry; apply Nat.ltb_ge; lia).
        reflexivity.
Qed.
Lemma sep_sample_ok (cen g : sampler2 W) mid Fs w n : sample_spec cen g (mid ++ Fs) n w (sep_sample cen g mid Fs w n).
Proof.
  unfold sep_sample. destruct (cen w n) as [w1 [c1 c2]] eqn:Ec. destruct (g w1 n) as [w2 [g1 g2]] eqn:Eg.
  assert (D1 := draw_all_drawn mid w2 n). destruct (draw_all mid w2 n) as [w3 ms].
  assert (D2 := draw_all_drawn Fs w3 n). destruct (draw_all Fs w3 n) as [w4 fs]. cbn [fst snd] in *.
  assert (L1 := drawn_length _ _ _ _ _ D1). assert (L2 := drawn_length _ _ _ _ _ D2).
  exists w1, c1, c2, w2, g1, g2, (ms ++ fs). cbn [fst snd].
  split; [exact Ec|]. split; [exact Eg|]. split; [exact (drawn_app _ _ _ _ _ _ _ _ D1 D2)|].
  set (m0 := set_col _ 3 g2). set (m1 := set_cols m0 4 ms).
  assert (K0 := fun r c => set_cols_at ms m0 4 r c). assert (K1 := fun r c => set_cols_at fs m1 (4 + length mid) r c).
  fold m1 in K0. split; [destruct (K1 0 0)%nat as (-> & _); destruct (K0 0 0)%nat as (-> & _); reflexivity|].
  rewrite app_length.
  split; [destruct (K1 0 0)%nat as (_ & -> & _); destruct (K0 0 0)%nat as (_ & -> & _); cbn; lia|].
  intros r c Hr Hc. destruct (K1 r c) as (_ & _ & ->). destruct (K0 r c) as (_ & _ & ->).
  destruct c as [|[|[|[|c]]]]; try reflexivity.
  cbn [nth]. rewrite <- L1. destruct (Nat.leb (4 + length ms) (S (S (S (S c))))) eqn:E1; cbn [andb].
  - apply Nat.leb_le in E1.
    replace (Nat.ltb (S (S (S (S c)))) (4 + length ms + length fs)) with true by (symmetry; apply Nat.ltb_lt; lia).
    rewrite app_nth2 by lia. repeat f_equal; lia.
  - apply Nat.leb_gt in E1. replace (Nat.leb 4 (S (S (S (S c))))) with true by (symmetry; apply Nat.leb_le; lia).
    replace (Nat.ltb (S (S (S (S c)))) (4 + length ms)) with true by (symmetry; apply Nat.ltb_lt; lia).
    cbn [andb]. rewrite app_nth1 by lia. do 2 f_equal. lia.
Qed.
End Sample.

(** ** arrays of points *)
Lemma row_item pars r i : (i < ncol pars)%nat -> item (row pars r) i = Ok (at2 pars r i).
Proof.
  intros H. unfold item, row. rewrite nth_error_map.
  rewrite (nth_error_nth' (seq 0 (ncol pars)) 0%nat) by (rewrite seq_length; exact H).
  rewrite seq_nth by exact H. reflexivity.
Qed.
Lemma row_length pars r : length (row pars r) = ncol pars.
Proof. unfold row. rewrite map_length, seq_length. reflexivity. Qed.
Lemma combine_map2 {A B C} (f : A -> B) (g : A -> C) l : combine (map f l) (map g l) = map (fun x => (f x, g x)) l.
Proof. induction l as [|x l IH]; cbn; [reflexivity|rewrite IH; reflexivity]. Qed.
Lemma mapM_map {A B C} (f : B -> res C) (h : A -> B) l : mapM f (map h l) = mapM (fun x => f (h x)) l.
Proof. induction l as [|x l IH]; cbn; [reflexivity|]. destruct (f (h x)); cbn; [|reflexivity]. rewrite IH. reflexivity. Qed.
Lemma mapM_all_ok {A B} (f : A -> res B) (v : A -> B) l : (forall x, In x l -> f x = Ok (v x)) -> mapM f l = Ok (map v l).
Proof.
  induction l as [|x l IH]; intros H; cbn; [reflexivity|]. rewrite (H x (or_introl eq_refl)). cbn.
  rewrite IH; [reflexivity|]. intros y Hy. apply H. right. exact Hy.
Qed.
Definition oval {A} (d : A) (r : res A) : A := match r with Ok v => v | Raise _ => d end.
Lemma mapM_oval {A B} (d : B) (f : A -> res B) l : forall vs, mapM f l = Ok vs -> forall x, In x l -> f x = Ok (oval d (f x)).
Proof.
  induction l as [|y l IH]; intros vs H x Hx; [destruct Hx|]. cbn in H. obind H v Ev. obind H ws Ews.
  destruct Hx as [->|Hx]; [rewrite Ev; reflexivity|]. exact (IH ws Ews x Hx).
Qed.
Lemma aadd_rows acc v l : aadd (AArray (map acc l)) (AArray (map v l)) = Ok (AArray (map (fun r : nat => xadd (acc r) (v r)) l)).
Proof.
  unfold aadd. rewrite !map_length, Nat.eqb_refl. do 2 f_equal. rewrite combine_map2, map_map. reflexivity.
Qed.
Lemma aadd_const acc v l : (forall r, In r l -> v r = Fin 0) ->
  aadd (AArray (map acc l)) (AScalar (Fin 0)) = Ok (AArray (map (fun r : nat => xadd (acc r) (v r)) l)).
Proof.
  intros H. cbn. do 2 f_equal. rewrite map_map. apply map_ext_in. intros r Hr. rewrite (H r Hr). reflexivity.
Qed.
Lemma map_repeat_inv {A} (v : nat -> A) l x n : map v l = repeat x n -> forall r, In r l -> v r = x.
Proof.
  intros H r Hr. apply (in_map v) in Hr. rewrite H in Hr. apply repeat_spec in Hr. exact Hr.
Qed.
Lemma array_step p (acc v : nat -> xr) vs l : array_ok p -> Forall (fun x => x <> NaN) (map vs l) ->
  (forall r, In r l -> p1_lnprob p (vs r) = Ok (v r)) ->
  (let* b := p1_lnprob_array p (map vs l) in aadd (AArray (map acc l)) b) =
  Ok (AArray (map (fun r => xadd (acc r) (v r)) l)).
Proof.
  intros Hp Hn Hv. assert (M : mapM (p1_lnprob p) (map vs l) = Ok (map v l)).
  { rewrite mapM_map. apply mapM_all_ok. exact Hv. }
  destruct (Hp _ _ Hn M) as [->|[-> E]]; cbn [bind].
  - apply aadd_rows.
  - apply aadd_const. exact (map_repeat_inv v l _ _ E).
Qed.

Section Arr.
Variables (cen : cenprior) (g : p2obj).
Definition gen_array (ps : list p1obj) (pars : arr2 xr) : res aval :=
  add_arrays ([on2a (fun xs => Ok (AArray (cen_lnprob_array cen xs))) pars 0 1; on2a (p2_lnprob_array g) pars 2 3]
              ++ enum_from (fun p i => on1a (p1_lnprob_array p) pars i) 4 ps).
Lemma arr_fold pars l ps : l = seq 0 (nrow pars) -> Forall array_ok ps ->
  (forall r c, (r < nrow pars)%nat -> (c < ncol pars)%nat -> at2 pars r c <> NaN) ->
  forall s acc ls, (s + length ps <= ncol pars)%nat ->
  (forall r, In r l -> tail_terms p1_lnprob ps (skipn s (row pars r)) = Ok (ls r)) ->
  foldM (fun acc t => let* b := t in aadd acc b) (enum_from (fun p i => on1a (p1_lnprob_array p) pars i) s ps)
        (AArray (map acc l)) = Ok (AArray (map (fun r => fold_left xadd (ls r) (acc r)) l)).
Proof.
  intros Hl Hps Hn. induction Hps as [|p ps Hp Hps IH]; intros s acc ls Hs Ht.
  - cbn [enum_from combine map foldM length seq]. do 2 f_equal. apply map_ext_in. intros r Hr.
    specialize (Ht r Hr). cbn in Ht. injection Ht as <-. reflexivity.
  - rewrite enum_cons. cbn [foldM]. cbn [length] in Hs. unfold on1a at 1, column at 1.
    replace (Nat.ltb s (ncol pars)) with true by (symmetry; apply Nat.ltb_lt; lia). cbn [bind]. rewrite <- Hl.
    assert (Hx : forall r, In r l -> exists rest, skipn s (row pars r) = at2 pars r s :: rest /\ rest = skipn (S s) (row pars r)).
    { intros r Hr. assert (K := skipn_item (row pars r) s). rewrite row_item in K by lia. rewrite skipn_S_tl.
      destruct (skipn s (row pars r)) as [|x rest]; [discriminate|]. injection K as ->. exists rest. split; reflexivity. }
    rewrite (array_step p acc (fun r => oval NaN (p1_lnprob p (at2 pars r s))) (fun r => at2 pars r s) l Hp).
    + cbn [bind].
      rewrite (IH (S s) _ (fun r => tl (ls r))); [|lia|].
      * do 2 f_equal. apply map_ext_in. intros r Hr. specialize (Ht r Hr). destruct (Hx r Hr) as (rest & E & _).
        rewrite E in Ht. cbn [tail_terms] in Ht. obind Ht v Ev. obind Ht vs Evs. injection Ht as <-.
        cbn [fold_left tl]. rewrite Ev. reflexivity.
      * intros r Hr. specialize (Ht r Hr). destruct (Hx r Hr) as (rest & E & E').
        rewrite E in Ht. cbn [tail_terms] in Ht. obind Ht v Ev. obind Ht vs Evs. injection Ht as <-.
        rewrite <- E'. exact Evs.
    + apply Forall_forall. intros x Hx'. apply in_map_iff in Hx'. destruct Hx' as (r & <- & Hr). subst l. apply in_seq in Hr.
      apply Hn; lia.
    + intros r Hr. specialize (Ht r Hr). destruct (Hx r Hr) as (rest & E & _).
      rewrite E in Ht. cbn [tail_terms] in Ht. obind Ht v Ev. rewrite Ev. reflexivity.
Qed.
Lemma gen_array_ok ps : array_ok2 g -> Forall array_ok ps -> rows_spec (gen_lnprob cen g ps) (gen_array ps).
Proof.
  intros Hg Hps pars Ls Hn HL H0. set (l := seq 0 (nrow pars)) in *.
  assert (HL' : forall r, In r l -> exists a b ls,
     on2 (fun x y => Ok (cen_lnprob_scalar cen x y)) (row pars r) 0 1 = Ok a /\
     on2 (p2_lnprob g) (row pars r) 2 3 = Ok b /\ tail_terms p1_lnprob ps (skipn 4 (row pars r)) = Ok ls /\
     oval NaN (gen_lnprob cen g ps (row pars r)) = fold_left xadd ls (xadd a b)).
  { intros r Hr. assert (K := mapM_oval NaN _ _ _ HL r Hr). cbn beta in K.
    destruct (gen_lnprob cen g ps (row pars r)) as [L|] eqn:EG; [|discriminate K]. clear K. rewrite gen_lnprob_eq in EG.
    obind EG a Ea. obind EG b Eb. obind EG ls Els. injection EG as <-. exists a, b, ls. repeat split; assumption || reflexivity. }
  assert (Hcol : (4 + length ps <= ncol pars)%nat).
  { destruct (HL' 0%nat) as (a & b & ls & Ea & Eb & Et & _). { apply in_seq. lia. }
    apply tail_ok in Et. destruct Et as [Et _]. rewrite skipn_length, row_length in Et.
    assert (4 <= ncol pars)%nat; [|lia].
    unfold on2 in Eb. obind Eb x Ex. obind Eb y Ey. unfold item in Ey.
    destruct (nth_error (row pars 0) 3) eqn:E3; [|discriminate].
    assert (K : (3 < length (row pars 0))%nat) by (apply nth_error_Some; rewrite E3; discriminate).
    rewrite row_length in K. lia. }
  assert (ELs : Ls = map (fun r => oval NaN (gen_lnprob cen g ps (row pars r))) l).
  { assert (K := mapM_all_ok _ _ l (mapM_oval NaN _ _ _ HL)). rewrite HL in K. injection K as K. exact K. }
  assert (Eg : on2a (p2_lnprob_array g) pars 2 3 =
               Ok (AArray (map (fun r => oval NaN (p2_lnprob g (at2 pars r 2) (at2 pars r 3))) l))).
  { unfold on2a, column. replace (Nat.ltb 2 (ncol pars)) with true by (symmetry; apply Nat.ltb_lt; lia).
    replace (Nat.ltb 3 (ncol pars)) with true by (symmetry; apply Nat.ltb_lt; lia). cbn [bind].
    rewrite combine_map2. apply Hg.
    - apply Forall_forall. intros x Hx. apply in_map_iff in Hx. destruct Hx as (r & <- & Hr). apply in_seq in Hr.
      cbn [fst snd]. split; apply Hn; lia.
    - rewrite mapM_map. cbn [fst snd]. apply mapM_all_ok. intros r Hr.
      destruct (HL' r Hr) as (a & b & ls & _ & Eb & _). unfold on2 in Eb. rewrite !row_item in Eb by lia. cbn [bind] in Eb.
      rewrite Eb. reflexivity. }
  assert (Ec : on2a (fun xs => Ok (AArray (cen_lnprob_array cen xs))) pars 0 1 =
               Ok (AArray (map (fun r => cen_lnprob_scalar cen (at2 pars r 0) (at2 pars r 1)) l))).
  { unfold on2a, column. replace (Nat.ltb 0 (ncol pars)) with true by (symmetry; apply Nat.ltb_lt; lia).
    replace (Nat.ltb 1 (ncol pars)) with true by (symmetry; apply Nat.ltb_lt; lia). cbn [bind].
    rewrite combine_map2. unfold cen_lnprob_array. rewrite map_map. reflexivity. }
  unfold gen_array, add_arrays. cbn [app]. rewrite Ec. cbn [bind foldM]. rewrite Eg. cbn [bind].
  rewrite aadd_rows. cbn [bind].
  rewrite (arr_fold pars l ps eq_refl Hps Hn 4 _ (fun r => oval [] (tail_terms p1_lnprob ps (skipn 4 (row pars r))))).
  - do 2 f_equal. rewrite ELs. apply map_ext_in. intros r Hr. destruct (HL' r Hr) as (a & b & ls & Ea & Eb & Et & ->).
    rewrite Et. unfold on2 in Ea, Eb. rewrite !row_item in Ea, Eb by lia. cbn [bind] in Ea, Eb. injection Ea as <-.
    rewrite Eb. reflexivity.
  - exact Hcol.
  - intros r Hr. destruct (HL' r Hr) as (a & b & ls & _ & _ & Et & _). rewrite Et. reflexivity.
Qed.
End Arr.
Lemma rows_spec_ext f h a b : (forall x, f x = h x) -> (forall x, a x = b x) -> rows_spec h b -> rows_spec f a.
Proof.
  intros E E2 H pars Ls Hn HL H0. rewrite E2. apply H; try assumption. rewrite <- HL. clear HL.
  induction (seq 0 (nrow pars)) as [|r l IH]; cbn; [reflexivity|]. rewrite E, IH. reflexivity.
Qed.
Lemma simple_array_ok cen g T F P : array_ok2 g -> Forall array_ok (simple_ps T (fluxes F)) ->
  simple_init cen g T F = Ok P -> rows_spec (simple_lnprob P) (simple_lnprob_array P).
Proof.
  intros Hg Hp H. apply simple_init_parts in H. destruct H as (<- & <- & <- & E & _). rewrite <- E in Hp.
  eapply rows_spec_ext; [apply simple_lnprob_gen| |apply (gen_array_ok _ _ _ Hg Hp)].
  intros x. unfold gen_array, simple_ps. rewrite !enum_cons. reflexivity.
Qed.
Lemma bd_array_ok cen g T Tr fd F P : array_ok2 g -> Forall array_ok (bd_ps T Tr fd (fluxes F)) ->
  bd_init cen g T Tr fd F = Ok P -> rows_spec (bd_lnprob P) (bd_lnprob_array P).
Proof.
  intros Hg Hp H. apply bd_init_parts in H. destruct H as (<- & <- & <- & <- & <- & E & _). rewrite <- E in Hp.
  eapply rows_spec_ext; [apply bd_lnprob_gen| |apply (gen_array_ok _ _ _ Hg Hp)].
  intros x. unfold gen_array, bd_ps. rewrite !enum_cons. reflexivity.
Qed.
Lemma bdf_array_ok cen g T fd F P : array_ok2 g -> Forall array_ok (bdf_ps T fd (fluxes F)) ->
  bdf_init cen g T fd F = Ok P -> rows_spec (bdf_lnprob P) (bdf_lnprob_array P).
Proof.
  intros Hg Hp H. apply bdf_init_parts in H. destruct H as (<- & <- & <- & <- & E & _). rewrite <- E in Hp.
  eapply rows_spec_ext; [apply bdf_lnprob_gen| |apply (gen_array_ok _ _ _ Hg Hp)].
  intros x. unfold gen_array, bdf_ps. rewrite !enum_cons. reflexivity.
Qed.
Lemma spergel_array_ok cen g r nu F P : array_ok2 g -> Forall array_ok (spergel_ps r nu (fluxes F)) ->
  spergel_init cen g r nu F = Ok P -> rows_spec (spergel_lnprob P) (spergel_lnprob_array P).
Proof.
  intros Hg Hp H. apply spergel_init_parts in H. destruct H as (<- & <- & <- & <- & E & _). rewrite <- E in Hp.
  eapply rows_spec_ext; [apply spergel_lnprob_gen| |apply (gen_array_ok _ _ _ Hg Hp)].
  intros x. unfold gen_array, spergel_ps. rewrite !enum_cons. reflexivity.
Qed.
