(** Common ground of the model: exceptions as values, boolean comparisons on
    reals, finite sums.  Nothing here models a particular ngmix function. *)
From Coq Require Export Reals List ZArith Lia Lra Psatz Bool Arith.
Export ListNotations.
Open Scope R_scope.

(** Python exceptions that the modelled code can raise
    (ngmix/gexceptions.py:1-120 and builtins). *)
Inductive exn : Set :=
| GMixRangeError | GMixMaxIterEM | GMixFatalError | BootPSFFailure
| BootGalFailure | PSFFluxFailure | FFTRangeError
| ZeroDivisionError | ValueError | TypeError | KeyError | AttributeError
| AssertionError | RuntimeError | IndexError | UnboundLocalError
| LinAlgError | NotImplementedError | OtherError.

Inductive res (A : Type) : Type :=
| Ok : A -> res A
| Raise : exn -> res A.
Arguments Ok {A} _.
Arguments Raise {A} _.

Definition bind {A B : Type} (m : res A) (f : A -> res B) : res B :=
  match m with Ok a => f a | Raise e => Raise e end.

Definition rmap {A B : Type} (f : A -> B) (m : res A) : res B :=
  match m with Ok a => Ok (f a) | Raise e => Raise e end.

Definition is_ok {A : Type} (m : res A) : bool :=
  match m with Ok _ => true | Raise _ => false end.

Declare Scope res_scope.
Delimit Scope res_scope with res.
Notation "'let*' x ':=' m 'in' f" := (bind m (fun x => f))
  (at level 200, x pattern, m at level 100, f at level 200, right associativity)
  : res_scope.
Open Scope res_scope.

(** run a python loop body over a list, stopping at the first exception *)
Fixpoint mapM {A B : Type} (f : A -> res B) (l : list A) : res (list B) :=
  match l with
  | [] => Ok []
  | x :: xs => let* y := f x in let* ys := mapM f xs in Ok (y :: ys)
  end.

Fixpoint foldM {A S : Type} (f : S -> A -> res S) (l : list A) (s : S) : res S :=
  match l with
  | [] => Ok s
  | x :: xs => let* s' := f s x in foldM f xs s'
  end.

(** boolean comparisons on reals *)
Definition Rltb (x y : R) : bool := if Rlt_dec x y then true else false.
Definition Rleb (x y : R) : bool := if Rle_dec x y then true else false.
Definition Reqb (x y : R) : bool := if Req_EM_T x y then true else false.

Lemma Rltb_spec x y : BoolSpec (x < y) (y <= x) (Rltb x y).
Proof. unfold Rltb; destruct (Rlt_dec x y); constructor; lra. Qed.
Lemma Rleb_spec x y : BoolSpec (x <= y) (y < x) (Rleb x y).
Proof. unfold Rleb; destruct (Rle_dec x y); constructor; lra. Qed.
Lemma Reqb_spec x y : BoolSpec (x = y) (x <> y) (Reqb x y).
Proof. unfold Reqb; destruct (Req_EM_T x y); constructor; auto. Qed.

Lemma Rltb_true x y : Rltb x y = true <-> x < y.
Proof. destruct (Rltb_spec x y); split; intros; try discriminate; auto; lra. Qed.
Lemma Rltb_false x y : Rltb x y = false <-> y <= x.
Proof. destruct (Rltb_spec x y); split; intros; try discriminate; auto; lra. Qed.
Lemma Rleb_true x y : Rleb x y = true <-> x <= y.
Proof. destruct (Rleb_spec x y); split; intros; try discriminate; auto; lra. Qed.
Lemma Rleb_false x y : Rleb x y = false <-> y < x.
Proof. destruct (Rleb_spec x y); split; intros; try discriminate; auto; lra. Qed.
Lemma Reqb_true x y : Reqb x y = true <-> x = y.
Proof. destruct (Reqb_spec x y); split; intros; try discriminate; auto; contradiction. Qed.
Lemma Reqb_false x y : Reqb x y = false <-> x <> y.
Proof. destruct (Reqb_spec x y); split; intros; try discriminate; auto; contradiction. Qed.
Lemma Rltb_t x y : x < y -> Rltb x y = true. Proof. apply Rltb_true. Qed.
Lemma Rltb_f x y : y <= x -> Rltb x y = false. Proof. apply Rltb_false. Qed.
Lemma Rleb_t x y : x <= y -> Rleb x y = true. Proof. apply Rleb_true. Qed.
Lemma Rleb_f x y : y < x -> Rleb x y = false. Proof. apply Rleb_false. Qed.
Lemma Reqb_t x y : x = y -> Reqb x y = true. Proof. apply Reqb_true. Qed.
Lemma Reqb_f x y : x <> y -> Reqb x y = false. Proof. apply Reqb_false. Qed.

(** split on one boolean real comparison *)
Ltac rcase :=
  match goal with
  | |- context[Rltb ?a ?b] => destruct (Rltb_spec a b)
  | |- context[Rleb ?a ?b] => destruct (Rleb_spec a b)
  | |- context[Reqb ?a ?b] => destruct (Reqb_spec a b)
  | H : context[Rltb ?a ?b] |- _ => destruct (Rltb_spec a b)
  | H : context[Rleb ?a ?b] |- _ => destruct (Rleb_spec a b)
  | H : context[Reqb ?a ?b] |- _ => destruct (Reqb_spec a b)
  end.

(** finite sums *)
Definition rsum (l : list R) : R := fold_right Rplus 0 l.

Lemma rsum_nil : rsum [] = 0. Proof. reflexivity. Qed.
Lemma rsum_cons x l : rsum (x :: l) = x + rsum l. Proof. reflexivity. Qed.
Lemma rsum_app a b : rsum (a ++ b) = rsum a + rsum b.
Proof. induction a as [|x a IH]; cbn [app]; rewrite ?rsum_nil, ?rsum_cons; [ring | rewrite IH; ring]. Qed.
Lemma fold_left_rsum l a : fold_left Rplus l a = a + rsum l.
Proof.
  revert a; induction l as [|x l IH]; intros a; cbn [fold_left].
  - rewrite rsum_nil; lra.
  - rewrite IH, rsum_cons; lra.
Qed.
Lemma fold_left_acc {A} (f : A -> R) l a :
  fold_left (fun s x => s + f x) l a = a + rsum (map f l).
Proof.
  revert a; induction l as [|x l IH]; intros a; cbn [fold_left map].
  - rewrite rsum_nil; lra.
  - rewrite IH, rsum_cons; lra.
Qed.
Lemma rsum_map_mult {A} (f : A -> R) k l :
  rsum (map (fun x => k * f x) l) = k * rsum (map f l).
Proof. induction l as [|x l IH]; cbn [map]; rewrite ?rsum_nil, ?rsum_cons; [lra|rewrite IH; lra]. Qed.
Lemma rsum_map_plus {A} (f g : A -> R) l :
  rsum (map (fun x => f x + g x) l) = rsum (map f l) + rsum (map g l).
Proof. induction l as [|x l IH]; cbn [map]; rewrite ?rsum_nil, ?rsum_cons; [lra|rewrite IH; lra]. Qed.
Lemma rsum_map_ext {A} (f g : A -> R) l :
  (forall x, In x l -> f x = g x) -> rsum (map f l) = rsum (map g l).
Proof. intros H; f_equal; apply map_ext_in; exact H. Qed.
Lemma rsum_nonneg l : (forall x, In x l -> 0 <= x) -> 0 <= rsum l.
Proof.
  induction l as [|x l IH]; intros H; rewrite ?rsum_nil, ?rsum_cons; [lra|].
  assert (0 <= x) by (apply H; left; reflexivity).
  assert (0 <= rsum l) by (apply IH; intros y Hy; apply H; right; exact Hy). lra.
Qed.
Lemma rsum_pos l : l <> [] -> (forall x, In x l -> 0 < x) -> 0 < rsum l.
Proof.
  destruct l as [|x l]; intros Hne H; [congruence|]. rewrite rsum_cons.
  assert (0 < x) by (apply H; left; reflexivity).
  assert (0 <= rsum l) by (apply rsum_nonneg; intros y Hy; apply Rlt_le, H; right; exact Hy). lra.
Qed.
Lemma rsum_zero {A} (l : list A) : rsum (map (fun _ => 0) l) = 0.
Proof. induction l as [|x l IH]; cbn [map]; rewrite ?rsum_nil, ?rsum_cons; lra. Qed.

Lemma mapM_ok {A B} (f : A -> res B) l ys :
  mapM f l = Ok ys -> Forall2 (fun x y => f x = Ok y) l ys.
Proof.
  revert ys; induction l as [|x l IH]; intros ys H; cbn in H.
  - injection H as <-; constructor.
  - destruct (f x) as [y|e] eqn:E; cbn in H; [|discriminate].
    destruct (mapM f l) as [ys'|e'] eqn:E'; cbn in H; [|discriminate].
    injection H as <-. constructor; auto.
Qed.
Lemma mapM_of_forall {A B} (f : A -> res B) (g : A -> B) l :
  (forall x, In x l -> f x = Ok (g x)) -> mapM f l = Ok (map g l).
Proof.
  induction l as [|x l IH]; intros H; cbn; [reflexivity|].
  rewrite H by (left; reflexivity). cbn. rewrite IH; [reflexivity|].
  intros y Hy; apply H; right; exact Hy.
Qed.

Lemma sqr_le_0 x : 0 <= x * x. Proof. nra. Qed.

(** inverse of a non-zero real, in the shape lra/nra like *)
Lemma sqrt_lt_1_iff x : 0 <= x -> (sqrt x < 1 <-> x < 1).
Proof.
  intros Hx; split; intros H.
  - pose proof (sqrt_pos x); pose proof (sqrt_sqrt x Hx); nra.
  - rewrite <- sqrt_1; apply sqrt_lt_1; lra.
Qed.

(** split equalities of results and tuples into their components *)
Ltac peq :=
  repeat match goal with
  | |- Ok _ = Ok _ => apply f_equal
  | |- (_, _) = (_, _) => apply f_equal2
  end.
