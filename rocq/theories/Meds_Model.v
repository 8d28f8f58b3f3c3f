(** Model of ngmix/medsreaders.py.

    The MEDS file is external: [meds] records what the methods of meds.MEDS and the catalogue give,
    including their errors.  Pixels may be nan or infinite.  Arrays are 2-dimensional.  The numbers
    of a Jacobian are finite.  Observations are values: what the constructor checks is as in
    ngmix/observation.py; sharing of arrays is in Obs_Model.v. *)
From Verif Require Import Base XReal Jacobian_Model Pixels_Model.
From Coq Require Import String.
Local Open Scope R_scope.

(** types of cutouts *)
Inductive ctype := CtImage | CtWeight | CtBmask | CtOrmask | CtNoise | CtMfrac.

(** values of metadata *)
Inductive mval := VZ (z : Z) | VX (x : xr) | VS (s : string).
Definition mdict := list (string * mval).
Fixpoint dget (d : mdict) (k : string) : option mval :=
  match d with [] => None | (k', v) :: d => if String.eqb k' k then Some v else dget d k end.
(** d[k] = v *)
Fixpoint dset (d : mdict) (k : string) (v : mval) : mdict :=
  match d with
  | [] => [(k, v)]
  | (k', v') :: d => if String.eqb k' k then (k', v) :: d else (k', v') :: dset d k v
  end.

(** the external file *)
Record meds := mkMeds
  { md_size : nat;
    md_ncutout : nat -> res nat;                            (* self._cat['ncutout'][iobj] *)
    md_cutout : nat -> nat -> ctype -> res (arr2 xr);       (* get_cutout *)
    md_uberseg : nat -> nat -> res (arr2 xr);
    md_cweight : nat -> nat -> res (arr2 xr);               (* get_cweight_cutout(restrict_to_seg=True) *)
    md_cseg : nat -> nat -> bool -> res (arr2 xr);          (* get_cseg_weight(use_canonical_cen) *)
    md_jac : nat -> nat -> res (R * R * R * R * R * R);     (* row0, col0, dudrow, dudcol, dvdrow, dvdcol *)
    md_col : string -> option (nat -> res xr);              (* c[name][iobj]; None: no such column *)
    md_col2 : string -> nat -> nat -> res R;                (* c[name][iobj, icutout] *)
    md_id : nat -> res Z;                                   (* c['id'][iobj] *)
    md_file_id : nat -> nat -> res Z;                       (* c['file_id'][iobj, icutout] *)
    md_info : res unit;                                     (* get_image_info() *)
    md_path : Z -> res string;                              (* basename, stripped, of ii['image_path'] *)
    md_scale : Z -> res xr;                                 (* ii['scale'][file_id] *)
    md_has_psf : res bool;
    md_psf : nat -> nat -> res (arr2 xr) }.                 (* get_psf *)

(** an observation without psf, and with one *)
Record pobs := mkP { p_image : arr2 xr; p_weight : arr2 xr; p_jac : jac }.
Record mobs := mkO
  { o_image : arr2 xr; o_weight : arr2 xr; o_jac : jac; o_meta : mdict;
    o_bmask : option (arr2 xr); o_ormask : option (arr2 xr); o_noise : option (arr2 xr); o_mfrac : option (arr2 xr);
    o_psf : option pobs }.

Definition same_shape {A B} (a : arr2 A) (b : arr2 B) : bool := Nat.eqb (nrow a) (nrow b) && Nat.eqb (ncol a) (ncol b).
(** ngmix/observation.py:349-376 set_weight and 817-828 update_pixels: whether the pixels can be
    made does not depend on the values of the image *)
Definition check_pixels (im wt : arr2 xr) (j : jac) : res unit :=
  if same_shape wt im then
    let* _ := make_pixels_x (mkArr (nrow im) (ncol im) (fun _ _ => 0)) wt j true in Ok tt
  else Raise AssertionError.
(** ngmix/observation.py:378-503 set_bmask and the others *)
Definition check_opt (im : arr2 xr) (x : option (arr2 xr)) : res unit :=
  match x with None => Ok tt | Some x => if same_shape x im then Ok tt else Raise AssertionError end.
(** ngmix/observation.py:115-151 the constructor *)
Definition new_pobs (im wt : arr2 xr) (j : jac) : res pobs := let* _ := check_pixels im wt j in Ok (mkP im wt j).
Definition new_obs (im wt : arr2 xr) (bmask ormask noise : option (arr2 xr)) (meta : mdict) (j : jac) (psf : option pobs) (mfrac : option (arr2 xr)) : res mobs :=
  let* _ := check_pixels im wt j in
  let* _ := check_opt im bmask in
  let* _ := check_opt im ormask in
  let* _ := check_opt im noise in
  let* _ := check_opt im mfrac in
  Ok (mkO im wt j meta bmask ormask noise mfrac psf).

(** medsreaders.py:156-178 get_ngmix_jacobian *)
Definition get_ngmix_jacobian (m : meds) (iobj icut : nat) : res jac :=
  let* jd := md_jac m iobj icut in
  let '(row, col, dudr, dudc, dvdr, dvdc) := jd in
  Jacobian_init (kw_rowcol row col dvdr dvdc dudr dudc).

(** psf_im.max(): nan if there is one *)
Definition xmax (a b : xr) : xr :=
  match a, b with NaN, _ | _, NaN => NaN | _, _ => if xltb a b then b else a end.
Definition all_of (a : arr2 xr) : list xr := List.concat (map (fun r => map (at2 a r) (seq 0 (ncol a))) (seq 0 (nrow a))).
Definition arr_max (a : arr2 xr) : res xr :=
  match all_of a with [] => Raise ValueError | x :: l => Ok (fold_left xmax l x) end.

(** medsreaders.py:287-319 get_psf_obs *)
Definition get_psf_obs (m : meds) (iobj icut : nat) : res pobs :=
  let* im := md_psf m iobj icut in
  let* mx := arr_max im in
  let noise := xdiv mx (Fin 1000) in
  let ivar := xdiv (Fin 1) (xmul noise noise) in
  let weight := mkArr (nrow im) (ncol im) (fun r c => xadd (xmul (at2 im r c) (Fin 0)) ivar) in
  let* j := get_ngmix_jacobian m iobj icut in
  let* row := md_col2 m "psf_cutout_row" iobj icut in
  let* col := md_col2 m "psf_cutout_col" iobj icut in
  let j := set_col0 (set_row0 j row) col in
  new_pobs im weight j.

(** try: self.get_cutout(...) except Exception: None *)
Definition optional (r : res (arr2 xr)) : option (arr2 xr) := match r with Ok a => Some a | Raise _ => None end.

(** medsreaders.py:227-238; the weight_type is any string *)
Definition get_weight (m : meds) (iobj icut : nat) (weight_type : string) : res (arr2 xr) :=
  if String.eqb weight_type "uberseg" then md_uberseg m iobj icut
  else if String.eqb weight_type "cweight" then md_cweight m iobj icut
  else if String.eqb weight_type "weight" then md_cutout m iobj icut CtWeight
  else if String.eqb weight_type "cseg" then md_cseg m iobj icut false
  else if String.eqb weight_type "cseg-canonical" then md_cseg m iobj icut true
  else Raise ValueError.

(** c[name][iobj] where the column exists *)
Definition col_at (m : meds) (name : string) (iobj : nat) : res xr :=
  match md_col m name with Some f => f iobj | None => Raise ValueError end.
Definition has_col (m : meds) (name : string) : bool := match md_col m name with Some _ => true | None => false end.

(** medsreaders.py:243-266 the metadata *)
Definition get_meta (m : meds) (iobj icut : nat) : res mdict :=
  let* _ := md_info m in
  let* file_id := md_file_id m iobj icut in
  let* path := md_path m file_id in
  let* id := md_id m iobj in
  let* orow := md_col2 m "orig_row" iobj icut in
  let* ocol := md_col2 m "orig_col" iobj icut in
  let* osrow := md_col2 m "orig_start_row" iobj icut in
  let* oscol := md_col2 m "orig_start_col" iobj icut in
  let* scale := md_scale m file_id in
  let meta := [("id"%string, VZ id); ("index"%string, VZ (Z.of_nat iobj)); ("icut"%string, VZ (Z.of_nat icut)); ("cutout_index"%string, VZ (Z.of_nat icut));
               ("file_id"%string, VZ file_id); ("file_path"%string, VS path); ("orig_row"%string, VX (Fin orow)); ("orig_col"%string, VX (Fin ocol));
               ("orig_start_row"%string, VX (Fin osrow)); ("orig_start_col"%string, VX (Fin oscol)); ("scale"%string, VX scale)] in
  let* meta := if has_col m "flux_auto" then let* f := col_at m "flux_auto" iobj in Ok (dset meta "flux" (VX f)) else Ok meta in
  let* meta := if has_col m "x2" && has_col m "y2"
               then let* x2 := col_at m "x2" iobj in let* y2 := col_at m "y2" iobj in Ok (dset meta "T" (VX (xadd x2 y2))) else Ok meta in
  if has_col m "number" then let* n := col_at m "number" iobj in Ok (dset meta "number" (VX n)) else Ok meta.

(** medsreaders.py:180-285 get_obs *)
Definition get_obs (m : meds) (iobj icut : nat) (weight_type : string) : res mobs :=
  let* im := md_cutout m iobj icut CtImage in
  let bmask := optional (md_cutout m iobj icut CtBmask) in
  let ormask := optional (md_cutout m iobj icut CtOrmask) in
  let noise := optional (md_cutout m iobj icut CtNoise) in
  let mfrac := optional (md_cutout m iobj icut CtMfrac) in
  let* wt := get_weight m iobj icut weight_type in
  let* j := get_ngmix_jacobian m iobj icut in
  let* meta := get_meta m iobj icut in
  let* has := md_has_psf m in
  let* psf := if has then let* p := get_psf_obs m iobj icut in Ok (Some p) else Ok None in
  new_obs im wt bmask ormask noise meta j psf mfrac.

(** an ObsList: its items and its meta *)
Record mlist := mkList { ml_items : list mobs; ml_meta : mdict }.

(** medsreaders.py:141-146: the loop, with try and except GMixFatalError *)
Definition obslist_pass (m : meds) (iobj : nat) (weight_type : string) (acc : list mobs) (icut : nat) : res (list mobs) :=
  match get_obs m iobj icut weight_type with
  | Ok o => Ok (acc ++ [o])
  | Raise GMixFatalError => Ok acc
  | Raise e => Raise e
  end.
(** medsreaders.py:148-153 *)
Definition obslist_meta (l : list mobs) : mdict :=
  match l with
  | [] => []
  | o :: _ =>
      let d := match dget (o_meta o) "flux" with Some v => dset [] "flux" v | None => [] end in
      match dget (o_meta o) "T" with Some v => dset d "T" v | None => d end
  end.
(** medsreaders.py:117-154 get_obslist *)
Definition get_obslist (m : meds) (iobj : nat) (weight_type : string) : res mlist :=
  let* n := md_ncutout m iobj in
  let* l := foldM (obslist_pass m iobj weight_type) (seq 0 n) [] in
  Ok (mkList l (obslist_meta l)).

(** medsreaders.py:83-113 get_mbobs *)
Definition get_mbobs (ms : list meds) (iobj : nat) (weight_type : string) : res (list mlist) :=
  foldM (fun acc m => let* l := get_obslist m iobj weight_type in Ok (acc ++ [l])) ms [].
(** medsreaders.py:49-81 get_mbobs_list *)
Definition get_mbobs_list (ms : list meds) (indices : option (list nat)) (weight_type : string) : res (list (list mlist)) :=
  let* ind := match indices with
              | Some l => Ok l
              | None => match ms with [] => Raise IndexError | m :: _ => Ok (seq 0 (md_size m)) end
              end in
  foldM (fun acc iobj => let* mb := get_mbobs ms iobj weight_type in Ok (acc ++ [mb])) ind [].
