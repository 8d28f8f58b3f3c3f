(** Model of GMixND, ngmix/gmix_ndim/gmix_ndim.py, and of its kernels,
    ngmix/gmix_ndim/gmix_ndim_nb.py.

    The object is the record of its attributes.  Weights, means and covariances are finite.  numpy's
    linalg.inv and linalg.det, sklearn's fit and sample, and fitsio are external: they are the fields
    of [ext].  The compiled kernels do not check bounds: reading outside an array is the outcome
    [None], left out of the model.  Arguments with more dimensions than the constructors below list,
    and plotting, are left out. *)
From Verif Require Import Base XReal Priors_Model.
Local Open Scope R_scope.

(** arrays: a length, or a shape, and the elements *)
Record arr1 (A : Type) := mkA1 { len1 : nat; at1 : nat -> A }.
Arguments mkA1 {A} _ _.
Arguments len1 {A} _.
Arguments at1 {A} _ _.
Definition mat := nat -> nat -> R.
Record arr3 := mkA3 { d0 : nat; d1 : nat; d2 : nat; at3 : nat -> mat }.
Record arr2d (A : Type) := mkA2 { nr2 : nat; nc2 : nat; at2d : nat -> nat -> A }.
Arguments mkA2 {A} _ _ _.
Arguments nr2 {A} _.
Arguments nc2 {A} _.
Arguments at2d {A} _ _ _.

(** x[i] = v *)
Definition put {A} (x : arr1 A) (i : nat) (v : A) : arr1 A :=
  mkA1 (len1 x) (fun j => if Nat.eqb j i then v else at1 x j).
Definition zeros (n : nat) : arr1 xr := mkA1 n (fun _ => Fin 0).

(** the arguments means and covars: 1-dimensional, or as documented *)
Inductive means_arg := Means1 (n : nat) (m : nat -> R) | Means2 (m : arr2d R).
Inductive covars_arg := Covars1 (n : nat) (c : nat -> R) | Covars2 (c : arr2d R) | Covars3 (c : arr3).

(** sklearn's GaussianMixture, once its weights_, means_ and covariances_ are set *)
Record gmm := mkGmm { q_weights : arr1 R; q_means : arr2d R; q_covars : covars_arg }.

(** the attributes weights, means, covars, ngauss, ndim *)
Record mixture := mkMix { x_weights : arr1 R; x_means : arr2d R; x_covars : covars_arg; x_ngauss : nat; x_ndim : nat }.
(** norms, pnorms, log_pnorms, icovars *)
Record normed := mkNormed { x_norms : arr1 xr; x_pnorms : arr1 xr; x_log_pnorms : arr1 xr; x_icovars : arr3 }.
(** tmp_lnprob, xdiff *)
Record scratch := mkScr { x_tmp : arr1 xr; x_xdiff : arr1 xr }.
(** None: the attributes are not there *)
Record gmixnd := mkNd { n_mix : option mixture; n_norm : option normed; n_scr : option scratch; n_gmm : option gmm }.
Definition empty_nd : gmixnd := mkNd None None None None.

(** external calls: inv and det of a square matrix; GaussianMixture(...).fit(data), with the
    parameters ngauss, n_iter, min_covar; _compute_precision_cholesky; sample(n), in a world with
    the generator; reading a file *)
Record ext (W : Type) := mkExt
  { e_inv : nat -> mat -> res mat; e_det : nat -> mat -> R;
    e_fit : W -> arr2d R -> nat -> W * res gmm;
    e_cholesky : covars_arg -> res unit;
    e_sample : gmm -> W -> nat -> W * res (arr2d R);
    e_file : W -> res (arr1 R * means_arg * covars_arg) }.
Arguments e_inv {W} _ _ _.
Arguments e_det {W} _ _ _.
Arguments e_fit {W} _ _ _ _.
Arguments e_cholesky {W} _ _.
Arguments e_sample {W} _ _ _ _.
Arguments e_file {W} _ _.

Section GMixND.
Context {W : Type}.
Variable X : ext W.

(** ** Setting the mixture *)

(** gmix_ndim.py:56-57: means.reshape((means.size, 1)) *)
Definition means_shaped (m : means_arg) : arr2d R :=
  match m with Means1 n m => mkA2 n 1 (fun i _ => m i) | Means2 m => m end.
(** gmix_ndim.py:58-59 *)
Definition covars_shaped (c : covars_arg) : covars_arg :=
  match c with Covars1 n c => Covars3 (mkA3 n 1 1 (fun i _ _ => c i)) | c => c end.

(** gmix_ndim.py:423: covars[i, :, :] with its shape *)
Definition cov_at (c : covars_arg) (i : nat) : res (nat * nat * mat) :=
  match c with
  | Covars3 c => if Nat.ltb i (d0 c) then Ok (d1 c, d2 c, at3 c i) else Raise IndexError
  | _ => Raise IndexError
  end.
(** gmix_ndim.py:430: icovars[i, :, :] = icov; numpy stretches axes of length one *)
Definition assign_icov (d a : nat) (m : mat) : res mat :=
  if Nat.eqb a d then Ok m else if Nat.eqb a 1 then Ok (fun _ _ => m 0%nat 0%nat) else Raise ValueError.
(** gmix_ndim.py:423-430: the norm and the inverse for one gaussian *)
Definition calc_one (d : nat) (c : covars_arg) (i : nat) : res (xr * mat) :=
  let* s := cov_at c i in
  let '(a, b, cov) := s in
  let* icov := if Nat.eqb a b then e_inv X a cov else Raise LinAlgError in
  let det := e_det X a cov in
  let n := xdiv (Fin 1) (xsqrt (Fin ((2 * PI) ^ d * det))) in
  let* icov := assign_icov d a icov in
  Ok (n, icov).
(** gmix_ndim.py:407-435 _calc_icovars_and_norms *)
Definition calc_icovars_and_norms (x : mixture) : res normed :=
  let n := x_ngauss x in let d := x_ndim x in
  let* l := mapM (calc_one d (x_covars x)) (seq 0 n) in
  let nth_of i := nth i l (Fin 0, fun _ _ => 0) in
  let norms := mkA1 n (fun i => fst (nth_of i)) in
  let pnorms := mkA1 n (fun i => xmul (at1 norms i) (Fin (at1 (x_weights x) i))) in
  Ok (mkNormed norms pnorms (mkA1 n (fun i => xlog (at1 pnorms i))) (mkA3 n d d (fun i => snd (nth_of i)))).

(** gmix_ndim.py:44-72 set_mixture: the object afterwards, also when it raises *)
Definition set_mixture (s : gmixnd) (w : arr1 R) (m : means_arg) (c : covars_arg) : gmixnd * res unit :=
  let m := means_shaped m in
  let c := covars_shaped c in
  let x := mkMix w m c (len1 w) (nc2 m) in
  match calc_icovars_and_norms x with
  | Raise e => (mkNd (Some x) (n_norm s) (n_scr s) (n_gmm s), Raise e)
  | Ok k => (mkNd (Some x) (Some k) (Some (mkScr (zeros (x_ngauss x)) (zeros (x_ndim x)))) (n_gmm s), Ok tt)
  end.

(** gmix_ndim.py:254-265 load_mixture *)
Definition load_mixture (wd : W) (s : gmixnd) : gmixnd * res unit :=
  match e_file X wd with Raise e => (s, Raise e) | Ok (w, m, c) => set_mixture s w m c end.

(** gmix_ndim.py:20-42 the constructor; [file] tells whether a file is given *)
Definition new_nd (wd : W) (file : bool) (w : option (arr1 R)) (m : option means_arg) (c : option covars_arg) : res gmixnd :=
  if file then let (s, r) := load_mixture wd empty_nd in let* _ := r in Ok s
  else match w, m, c with
       | Some w, Some m, Some c => let (s, r) := set_mixture empty_nd w m c in let* _ := r in Ok s
       | None, None, None => Ok empty_nd
       | _, _, _ => Raise RuntimeError
       end.

(** gmix_ndim.py:81-115 fit, without the plot; 1-dimensional data become one column *)
Definition data_shaped (data : arr1 R + arr2d R) : arr2d R :=
  match data with inl v => mkA2 (len1 v) 1 (fun i _ => at1 v i) | inr m => m end.
Definition fit (wd : W) (s : gmixnd) (data : arr1 R + arr2d R) (ngauss : nat) : W * (gmixnd * res unit) :=
  let (wd, r) := e_fit X wd (data_shaped data) ngauss in
  match r with
  | Raise e => (wd, (s, Raise e))
  | Ok g => (wd, set_mixture (mkNd (n_mix s) (n_norm s) (n_scr s) (Some g)) (q_weights g) (Means2 (q_means g)) (q_covars g))
  end.

(** ** Evaluating it *)

(** gmix_ndim_nb.py:42-46, 108-112: xdiff[idim1] = par - mean *)
Definition fill_xdiff (d : nat) (pars : nat -> xr) (mean : nat -> R) (xdiff : arr1 xr) : arr1 xr :=
  fold_left (fun xd j => put xd j (xsub (pars j) (Fin (mean j)))) (seq 0 d) xdiff.
(** gmix_ndim_nb.py:48-53, 114-119 *)
Definition calc_chi2 (d : nat) (icov : mat) (xdiff : arr1 xr) : xr :=
  fold_left (fun chi2 j1 => fold_left (fun chi2 j2 =>
      xadd chi2 (xmul (xmul (at1 xdiff j1) (at1 xdiff j2)) (Fin (icov j1 j2)))) (seq 0 d) chi2) (seq 0 d) (Fin 0).
(** gmix_ndim_nb.py:55: lnp *)
Definition calc_lnp (chi2 logpnorm : xr) : xr := xadd (xmul (Fin (- (1/2))) chi2) logpnorm.
(** gmix_ndim_nb.py:36 *)
Definition lnpmax_start : R := - 9990000000.
(** gmix_ndim_nb.py:38-59: one pass of the loop; the state is lnpmax and the scratch arrays *)
Definition prob_pass (k : normed) (means : arr2d R) (pars : nat -> xr) (st : xr * scratch) (i : nat) : xr * scratch :=
  let '(lnpmax, sc) := st in
  let d := nc2 means in
  let xd := fill_xdiff d pars (at2d means i) (x_xdiff sc) in
  let chi2 := calc_chi2 d (at3 (x_icovars k) i) xd in
  let lnp := calc_lnp chi2 (at1 (x_log_pnorms k) i) in
  let lnpmax := if xgtb lnp lnpmax then lnp else lnpmax in
  (lnpmax, mkScr (put (x_tmp sc) i lnp) xd).
(** the arrays reach as far as the loops do *)
Definition in_bounds (k : normed) (means : arr2d R) (pars : arr1 xr) (sc : scratch) : bool :=
  let n := len1 (x_log_pnorms k) in let d := nc2 means in
  Nat.leb n (nr2 means) && Nat.leb n (d0 (x_icovars k)) && Nat.leb d (d1 (x_icovars k)) && Nat.leb d (d2 (x_icovars k)) &&
  Nat.leb d (len1 pars) && Nat.leb d (len1 (x_xdiff sc)).
(** gmix_ndim_nb.py:5-70 gmixnd_get_prob *)
Definition kernel_prob (k : normed) (means : arr2d R) (pars : arr1 xr) (sc : scratch) (dolog : bool) : option (xr * scratch) :=
  let n := len1 (x_log_pnorms k) in
  if negb (in_bounds k means pars sc && Nat.leb n (len1 (x_tmp sc))) then None
  else
    let '(lnpmax, sc) := fold_left (prob_pass k means (at1 pars)) (seq 0 n) (Fin lnpmax_start, sc) in
    let p := fold_left (fun p i => xadd p (xexp (xsub (at1 (x_tmp sc) i) lnpmax))) (seq 0 n) (Fin 0) in
    Some (if dolog then xadd (xlog p) lnpmax else xmul p (xexp lnpmax), sc).
(** gmix_ndim_nb.py:73-128 gmixnd_get_prob_component *)
Definition kernel_component (k : normed) (means : arr2d R) (pars : arr1 xr) (sc : scratch) (dolog : bool) (component : Z)
  : option (res xr * scratch) :=
  let n := len1 (x_log_pnorms k) in
  if negb (Z.leb 0 component && Z.ltb component (Z.of_nat n)) then Some (Raise AssertionError, sc)
  else if negb (in_bounds k means pars sc) then None
  else
    let i := Z.to_nat component in
    let d := nc2 means in
    let xd := fill_xdiff d (at1 pars) (at2d means i) (x_xdiff sc) in
    let chi2 := calc_chi2 d (at3 (x_icovars k) i) xd in
    let lnp := calc_lnp chi2 (at1 (x_log_pnorms k) i) in
    Some (Ok (if dolog then lnp else xexp lnp), mkScr (x_tmp sc) xd).

(** gmix_ndim.py:267-291 _get_prob: the object afterwards, and the value *)
Definition with_scr (s : gmixnd) (sc : scratch) : gmixnd := mkNd (n_mix s) (n_norm s) (Some sc) (n_gmm s).
Definition get_prob1 (s : gmixnd) (pars : arr1 xr) (dolog : bool) (component : option Z) : option (gmixnd * res xr) :=
  match n_norm s, n_mix s, n_scr s with
  | Some k, Some x, Some sc =>
      match component with
      | None => match kernel_prob k (x_means x) pars sc dolog with None => None | Some (v, sc) => Some (with_scr s sc, Ok v) end
      | Some c => match kernel_component k (x_means x) pars sc dolog c with None => None | Some (v, sc) => Some (with_scr s sc, v) end
      end
  | _, _, _ => Some (s, Raise AttributeError)
  end.
(** gmix_ndim.py:293-304 _get_prob_array *)
Fixpoint get_prob_rows (s : gmixnd) (rows : list (arr1 xr)) (dolog : bool) (component : option Z) : option (gmixnd * res (list xr)) :=
  match rows with
  | [] => Some (s, Ok [])
  | p :: rows =>
      match get_prob1 s p dolog component with
      | None => None
      | Some (s, Raise e) => Some (s, Raise e)
      | Some (s, Ok v) =>
          match get_prob_rows s rows dolog component with
          | None => None
          | Some (s, Raise e) => Some (s, Raise e)
          | Some (s, Ok vs) => Some (s, Ok (v :: vs))
          end
      end
  end.
Definition row_arr (p : arr2d xr) (i : nat) : arr1 xr := mkA1 (nc2 p) (at2d p i).
(** pars as an array of points, gmix_ndim.py:328-330 *)
Definition points (pars : arr1 xr + arr2d xr) : arr2d xr :=
  match pars with inl v => mkA2 (len1 v) 1 (fun i _ => at1 v i) | inr m => m end.

(** gmix_ndim.py:306-344 get_lnprob_scalar, get_prob_scalar, get_lnprob_array, get_prob_array *)
Definition get_lnprob_scalar s pars component := get_prob1 s pars true component.
Definition get_prob_scalar s pars component := get_prob1 s pars false component.
Definition get_lnprob_array s pars component :=
  get_prob_rows s (map (row_arr (points pars)) (seq 0 (nr2 (points pars)))) true component.
Definition get_prob_array s pars component :=
  get_prob_rows s (map (row_arr (points pars)) (seq 0 (nr2 (points pars)))) false component.

(** ** Sampling *)

(** gmix_ndim.py:385-405 _set_gmm *)
Definition set_gmm (s : gmixnd) : gmixnd * res gmm :=
  match n_mix s with
  | None => (s, Raise AttributeError)
  | Some x =>
      match e_cholesky X (x_covars x) with
      | Raise e => (s, Raise e)
      | Ok _ => let g := mkGmm (x_weights x) (x_means x) (x_covars x) in
                (mkNd (n_mix s) (n_norm s) (n_scr s) (Some g), Ok g)
      end
  end.
(** a number, one point or one column, many points *)
Inductive sample_out := SNum (v : R) | S1 (v : arr1 R) | S2 (m : arr2d R).
(** gmix_ndim.py:361-367: samples[:, 0], then samples[0] *)
Definition shape_samples (ndim : nat) (is_one : bool) (m : arr2d R) : res sample_out :=
  if Nat.eqb ndim 1 then
    if Nat.ltb 0 (nc2 m) then
      if is_one then if Nat.ltb 0 (nr2 m) then Ok (SNum (at2d m 0 0)) else Raise IndexError
      else Ok (S1 (mkA1 (nr2 m) (fun i => at2d m i 0)))
    else Raise IndexError
  else if is_one then if Nat.ltb 0 (nr2 m) then Ok (S1 (mkA1 (nc2 m) (at2d m 0))) else Raise IndexError
  else Ok (S2 m).
(** gmix_ndim.py:346-367 sample *)
Definition sample (wd : W) (s : gmixnd) (n : option nat) : W * (gmixnd * res sample_out) :=
  let (s, r) := match n_gmm s with Some g => (s, Ok g) | None => set_gmm s end in
  match r with
  | Raise e => (wd, (s, Raise e))
  | Ok g =>
      let (wd, samples) := e_sample X g wd (match n with None => 1%nat | Some n => n end) in
      (wd, (s, let* m := samples in
               match n_mix s with
               | None => Raise AttributeError
               | Some x => shape_samples (x_ndim x) (match n with None => true | Some _ => false end) m
               end))
  end.

(** ** The object in use *)
Inductive nd_op :=
| OpSet (w : arr1 R) (m : means_arg) (c : covars_arg)
| OpLoad
| OpFit (data : arr1 R + arr2d R) (ngauss : nat)
| OpScalar (pars : arr1 xr) (dolog : bool) (component : option Z)
| OpArray (pars : arr1 xr + arr2d xr) (dolog : bool) (component : option Z)
| OpSample (n : option nat).
(** did the call return *)
Definition ran {A} (r : res A) : bool := match r with Ok _ => true | Raise _ => false end.
(** what the operation leaves, and whether it returned *)
Definition nd_step (ws : W * gmixnd) (op : nd_op) : option (W * gmixnd * bool) :=
  let (wd, s) := ws in
  match op with
  | OpSet w m c => let (s, r) := set_mixture s w m c in Some (wd, s, ran r)
  | OpLoad => let (s, r) := load_mixture wd s in Some (wd, s, ran r)
  | OpFit data n => let '(wd, (s, r)) := fit wd s data n in Some (wd, s, ran r)
  | OpScalar p l c => match get_prob1 s p l c with None => None | Some (s, r) => Some (wd, s, ran r) end
  | OpArray p l c =>
      match get_prob_rows s (map (row_arr (points p)) (seq 0 (nr2 (points p)))) l c with
      | None => None | Some (s, r) => Some (wd, s, ran r) end
  | OpSample n => let '(wd, (s, r)) := sample wd s n in Some (wd, s, ran r)
  end.
End GMixND.
