(** Theorems on the lists of mixtures: C147. *)
From Verif Require Import Base ObsList_Model GMixLists_Model GMixLists_Spec GMixLists_Proofs.
From Coq Require Import ZArith List.
Import ListNotations.

(** after every program with the checked operations all lists hold what they promise; missing:
    the operations of the three refutations below *)
Theorem C147_types_partial : forall p, Forall gchecked p -> lists_typed (gexec [] p).
Proof. exact gtypes_invariant. Qed.
Print Assumptions C147_types_partial.
(** append accepts exactly the promised class, puts the object at the end, and does nothing otherwise *)
Theorem C147_append : forall m l x c, nth_error m l = Some c ->
  (allowed m (gl_cls c) x -> exists m', gstep (OAppend l x) m = (m', Ok tt) /\ only_items m m' l (gl_items c ++ [x])) /\
  (~ allowed m (gl_cls c) x -> gstep (OAppend l x) m = (m, Raise AssertionError)).
Proof. exact append_spec. Qed.
Print Assumptions C147_append.
Theorem C147_setitem : forall m l i x c, nth_error m l = Some c ->
  (forall k, allowed m (gl_cls c) x -> (k < length (gl_items c))%nat ->
     (i = Z.of_nat k \/ i = Z.of_nat k - Z.of_nat (length (gl_items c)))%Z ->
     exists m' ys, gstep (OSetItem l i x) m = (m', Ok tt) /\ only_items m m' l ys /\ length ys = length (gl_items c) /\
       nth_error ys k = Some x /\ forall j, j <> k -> nth_error ys j = nth_error (gl_items c) j) /\
  (allowed m (gl_cls c) x -> (i < - Z.of_nat (length (gl_items c)) \/ Z.of_nat (length (gl_items c)) <= i)%Z ->
     gstep (OSetItem l i x) m = (m, Raise IndexError)) /\
  (~ allowed m (gl_cls c) x -> gstep (OSetItem l i x) m = (m, Raise AssertionError)).
Proof. exact setitem_spec. Qed.
Print Assumptions C147_setitem.
Theorem C147_refused_unchanged : forall m o e m', (exists l x, o = OAppend l x) \/ (exists l i x, o = OSetItem l i x) \/
    (exists l a b x, o = OSetSlice l a b x) \/ (exists l i, o = ODelItem l i) ->
  gstep o m = (m', Raise e) -> m' = m.
Proof. exact refused_unchanged. Qed.
Print Assumptions C147_refused_unchanged.
(** no slice of a GMixList can be assigned *)
Theorem C147_slice_gmixlist : forall m l c a b x, nth_error m l = Some c -> gl_cls c = GList ->
  exists e, gstep (OSetSlice l a b x) m = (m, Raise e).
Proof. exact slice_glist. Qed.
Print Assumptions C147_slice_gmixlist.
(** the lists of a fit: one GMixList per band with one mixture per observation, in order, twice;
    all of them are new and distinct, and no other list changes *)
Theorem C147_fit_lists : forall bands m,
  Forall (Forall (fun p => is_mixture (fst p) /\ is_mixture (snd p))) bands ->
  exists m' a0 a ls0 ls, init_gmix_all bands m = (m', Ok (a0, a)) /\
    holds_bands m' a0 ls0 (map (map fst) bands) /\ holds_bands m' a ls (map (map snd) bands) /\
    NoDup (a0 :: a :: ls0 ++ ls) /\ (forall k, In k (a0 :: a :: ls0 ++ ls) -> nth_error m k = None) /\
    forall k c, nth_error m k = Some c -> nth_error m' k = Some c.
Proof. exact fit_lists. Qed.
Print Assumptions C147_fit_lists.
Example C147_hypotheses_hold : Forall gchecked gprog /\
  gexec [] gprog = [mkGl GList [GMixture 0; GMixture 2]; mkGl GMulti [GRef 0]] /\
  Forall (Forall (fun p => is_mixture (fst p) /\ is_mixture (snd p)))
    [[(GMixture 0, GMixture 1); (GMixture 2, GMixture 3)]; [(GMixture 4, GMixture 5)]].
Proof.
  split; [exact gprog_checked|]. split; [exact gprog_run|].
  repeat constructor; eexists; reflexivity.
Qed.
(** the elements of a GMixList assigned to a slice of a MultiBandGMixList are not checked *)
Theorem C147_slice_refuted : forall m l c a b k d, nth_error m l = Some c -> gl_cls c = GMulti ->
  nth_error m k = Some d -> gl_cls d = GList -> gl_items d <> [] -> lists_typed m ->
  exists m', gstep (OSetSlice l a b (GRef k)) m = (m', Ok tt) /\
    only_items m m' l (firstn a (gl_items c) ++ gl_items d ++ skipn b (gl_items c)) /\ ~ lists_typed m'.
Proof. exact slice_multi. Qed.
Print Assumptions C147_slice_refuted.
(** nor is what goes through extend, +=, insert and the constructor *)
Theorem C147_inherited_refuted : forall m l c k, nth_error m l = Some c ->
  (exists m', gstep (OExtend l [GElse]) m = (m', Ok tt) /\ ~ lists_typed m') /\
  (exists m', gstep (OInsert l k GElse) m = (m', Ok tt) /\ ~ lists_typed m') /\
  (exists m', gstep (ONew (gl_cls c) [GElse]) m = (m', Ok tt) /\ ~ lists_typed m').
Proof. exact inherited_unchecked. Qed.
Print Assumptions C147_inherited_refuted.
Example C147_refuted_hypotheses_hold : let m := gexec [] gprog in
  nth_error m 1 = Some (mkGl GMulti [GRef 0]) /\ nth_error m 0 = Some (mkGl GList [GMixture 0; GMixture 2]) /\ lists_typed m.
Proof. split; [reflexivity|]. split; [reflexivity|]. apply gtypes_invariant. exact gprog_checked. Qed.
