(* Model of the functions of labelled arrays (xarray.DataArray): the way they
   call xarray.apply_ufunc, and core/xr_utils.py:166-232 (transpose_like).
   convert.py:423-478 (cumulative), reduction.py:213-252 (reduce_vals), 433-541
   (reduce_data), 964-1025 (reduce_data_grouped), 1380-1470
   (reduce_data_indexed), resample/resample.py:217-276 (resample_data), 478-545
   (resample_vals), 786-868 (jackknife_data), 1072-1150 (jackknife_vals),
   rolling.py:428-480 (rolling_data), 695-752 (rolling_vals), 977-1052
   (rolling_exp_data), 1294-1355 (rolling_exp_vals), core/prepare.py:178-250.

   Arrays have no coordinates: coords, attrs, groups=, coords_policy= and dask
   are not modelled, nor are dtype, casting, order=, parallel= and out=.  The
   moment parameters are the result of MomParamsXArray.factory (ModelParams).
   The functions handed to apply_ufunc get the axis counted from the end; they
   are the functions of ModelNd and ModelAxes without axes_to_end, which do not
   move axes. *)
From Coq Require Import String.
From Verif Require Import Base ModelPush ModelKernels ModelIndex ModelAxes ModelParams ModelWrap ModelNd.
Local Open Scope string_scope.
Local Open Scope nat_scope.

(* ---- labelled results ------------------------------------------------------------ *)

(* DataArray whose entries may be nan, result of rolling.py:428-480 and the like *)
Record lgrid (T : Type) := LG { lg_dims : list sname; lg_val : grid T }.
Arguments LG {T}. Arguments lg_dims {T}. Arguments lg_val {T}.
(* a result as an array to go on with, as at resample/resample.py:797-815 *)
Definition to_xarr (g : lgrid Qc) : xarr := XA (lg_dims g) (to_tensor (lg_val g)).
(* result of a function that gives no nan, as at convert.py:439-478 *)
Definition to_grid (t : tensor) : grid Qc := Grid (tshape t) (tdata t).
(* ndarray.transpose, as ttranspose
   [called by DataArray.transpose, core/xr_utils.py:230-231] *)
Definition gtranspose {T} (d : T) (order : list nat) (g : grid T) : grid T :=
  gtabulate (map (fun a => nth a (gshape g) 0) order)
    (fun idx => gget d g (map (fun a => nth (index_of a order) idx 0) (seq 0 (List.length (gshape g))))).
(* DataArray.transpose(..., missing_dims="ignore"), core/xr_utils.py:230-231 *)
Definition l_transpose {T} (d : T) (dims : list (option sname)) (g : lgrid T) : res (lgrid T) :=
  let known := filter (fun o => match o with Some n => smem n (lg_dims g) | None => true end) dims in
  rbind (infix_dims known (lg_dims g)) (fun ds =>
  rbind (mapR (get_axis_num (lg_dims g)) ds) (fun order => Ok (LG ds (gtranspose d order (lg_val g))))).
(* core/xr_utils.py:166-232  transpose_like with prepend=...; replace maps at most
   one name *)
Definition transpose_like {T} (d : T) (template : list sname) (replace : sname -> sname) (remove append : list sname)
    (g : lgrid T) : res (lgrid T) :=
  l_transpose d (None :: map Some (map replace (filter (fun n => negb (smem n remove)) template)) ++ map Some append) g.
(* DataArray.rename({old: new}): a ValueError if new is the name of another dimension
   [called at resample/resample.py:862-863, 1149-1150, reduction.py:1024-1025, 1467-1468] *)
Definition l_rename {T} (old new : sname) (g : lgrid T) : res (lgrid T) :=
  if (negb (String.eqb old new) && smem new (lg_dims g))%bool then Raise EValue
  else Ok (LG (map (fun n => if String.eqb n old then new else n) (lg_dims g)) (lg_val g)).
(* rep_dim or group_dim is None or a name
   [resample/resample.py:862-863, reduction.py:1024-1025] *)
Definition opt_rename {T} (old : sname) (new : option sname) (g : lgrid T) : res (lgrid T) :=
  match new with Some n => l_rename old n g | None => Ok g end.

(* ---- xarray.apply_ufunc ------------------------------------------------------------- *)

(* an argument of apply_ufunc: a DataArray, or an array without names
   [data, freq at resample/resample.py:230-233] *)
Inductive xop := Labelled (x : xarr) | Plain (t : tensor).
(* the DataArrays of the arguments
   [unified_dim_sizes inside xr.apply_ufunc, called at convert.py:438] *)
Definition labelled_of (l : list xop) : list xarr := flat_map (fun o => match o with Labelled x => [x] | Plain _ => [] end) l.
(* d in a dict of sizes
   [inside xr.apply_ufunc, called at convert.py:438] *)
Definition lookup (d : sname) (l : list (sname * nat)) : option nat :=
  match find (fun p => String.eqb (fst p) d) l with Some p => Some (snd p) | None => None end.
(* xarray unified_dim_sizes: sizes of all dimensions that are not excluded, in the
   order in which they are met; different sizes or repeated names are a ValueError
   [inside xr.apply_ufunc, called at convert.py:438] *)
Definition unify_dim (excl : list sname) (sz : list (sname * nat)) (p : sname * nat) : res (list (sname * nat)) :=
  if smem (fst p) excl then Ok sz
  else match lookup (fst p) sz with
       | None => Ok (sz ++ [p])%list
       | Some n => if Nat.eqb n (snd p) then Ok sz else Raise EValue
       end.
(* the loop over the arrays
   [inside xr.apply_ufunc, called at convert.py:438] *)
Definition unified_dim_sizes (excl : list sname) (xs : list xarr) : res (list (sname * nat)) :=
  foldR (fun sz x => if sdup (x_dims x) then Raise EValue else foldR (unify_dim excl) (combine (x_dims x) (x_shape x)) sz) xs [].
(* xarray broadcast_compat_data, the key of the new axes: one for every missing
   dimension but the leading ones
   [inside xr.apply_ufunc, called at convert.py:438] *)
Fixpoint key_parts (old new : list sname) (started : bool) : list key :=
  match new with
  | [] => []
  | d :: new => if smem d old then ModelWrap.full :: key_parts old new true
                else if started then KNew :: key_parts old new true else key_parts old new false
  end.
(* xarray broadcast_compat_data: transposes to broadcast dimensions and core
   dimensions, and inserts axes of length 1
   [inside xr.apply_ufunc, called at convert.py:438] *)
Definition broadcast_compat (bdims core : list sname) (x : xarr) : res tensor :=
  let new := (bdims ++ core)%list in
  if list_eq_dec string_dec new (x_dims x) then Ok (x_val x)
  else if existsb (fun d => negb (smem d new)) (x_dims x) then Raise EValue
  else
    let reordered := (filter (fun d => smem d (x_dims x)) bdims ++ core)%list in
    rbind (mapR (get_axis_num (x_dims x)) reordered) (fun order =>
    if sdup reordered then Raise EValue
    else
      let t := ttranspose order (x_val x) in
      if list_eq_dec string_dec new reordered then Ok t else np_getitem (key_parts (x_dims x) new false) t).
(* xr.apply_ufunc with one output: the function is called with the broadcast
   dimensions in front and the core dimensions last.  The number of axes of the
   result and the sizes of known dimensions are checked.
   [called at convert.py:438, reduction.py:230, 487, 979, 1402, resample/resample.py:230, 499, 829, 1106, rolling.py:440, 712, 1003, 1311] *)
Definition apply_ufunc {T} (args : list (xop * list sname)) (out_core excl : list sname) (f : list tensor -> res (grid T)) : res (lgrid T) :=
  rbind (unified_dim_sizes excl (labelled_of (map fst args))) (fun sz =>
  let core := (flat_map snd args ++ out_core)%list in
  let bdims := filter (fun d => negb (smem d core)) (map fst sz) in
  rbind (mapR (fun a => match fst a with Labelled x => broadcast_compat bdims (snd a) x | Plain t => Ok t end) args) (fun ts =>
  rbind (f ts) (fun g =>
  let od := (bdims ++ out_core)%list in
  if negb (Nat.eqb (List.length (gshape g)) (List.length od)) then Raise EValue
  else if existsb (fun p => match lookup (fst p) sz with Some n => negb (Nat.eqb n (snd p)) | None => false end)
                  (combine od (gshape g)) then Raise EValue
  else Ok (LG od g)))).

(* ---- functions of moment arrays ------------------------------------------------------ *)

(* core/moment_params.py:489-491  core_dims *)
Definition core_dims (p : xparams) (dims : list sname) : res (list sname) := rbind (iter_dims p) (fun m => Ok (dims ++ m)%list).
(* mom_params.to_array(), as at convert.py:443; core/moment_params.py:481-487 *)
Definition array_axes (p : xparams) : res (list Z) := rbind (x_to_array p None) iter_axes.
(* "axis": -(mom_params.ndim + 1), as at convert.py:445 *)
Definition neg_axis (p : xparams) : res axis_arg :=
  match xp_ndim p with Some m => Ok (AInt (- (m + 1))) | None => Raise EType end.
(* the axis as an integer, as at resample/resample.py:243 *)
Definition axis_value (a : axis_arg) : Z := match a with AInt z => z | AComplex z => z end.
(* argument number i of the function inside apply_ufunc, as at convert.py:481-482 *)
Definition arg (i : nat) (ts : list tensor) : tensor := nth i ts (Tensor [0] []).

Section LabelledData.
  Context {A V : Type} (K : pusher A V) (P : packer A).

  (* the dimension, the core dimensions, the moment axes and the axis: the common
     part of convert.py:424-445, rolling.py:429-446 and the like *)
  Definition with_dim {X} (p : xparams) (axis : marg axis_arg) (dim : marg sname) (x : xarr)
      (f : nat -> sname -> list sname -> list Z -> axis_arg -> res X) : res X :=
    rbind (select_axis_dim p (XArr (x_dims x)) axis dim Missing Missing false) (fun '(a, d) =>
    rbind (core_dims p [d]) (fun core =>
    rbind (array_axes p) (fun mom =>
    rbind (neg_axis p) (fun ax => f a d core mom ax)))).
  (* if not axes_to_end: transpose_like, as at convert.py:470-476 *)
  Definition finish {T} (d : T) (to_end : bool) (x : xarr) (g : lgrid T) : res (lgrid T) :=
    if to_end then Ok g else transpose_like d (x_dims x) (fun n => n) [] [] g.

  (* convert.py:423-478  cumulative *)
  Definition x_cumulative (p : xparams) (inverse : bool) (axis : marg axis_arg) (dim : marg sname) (to_end : bool) (x : xarr) : res (lgrid Qc) :=
    with_dim p axis dim x (fun _ d core mom ax =>
    rbind (apply_ufunc [(Labelled x, core)] core [] (fun ts => rmap to_grid (cumulative_nd K P inverse ax mom false (arg 0 ts)))) (fun g =>
    finish 0%Qc to_end x g)).

  (* resample/resample.py:217-276  resample_data; freq = sampler.freq *)
  Definition x_resample_data (p : xparams) (freq : xop) (rep_dim : sname) (axis : marg axis_arg) (dim : marg sname) (to_end : bool) (x : xarr)
    : res (lgrid Qc) :=
    with_dim p axis dim x (fun a d core mom ax =>
    rbind (core_dims p [rep_dim]) (fun ocore =>
    rbind (apply_ufunc [(Labelled x, core); (freq, [rep_dim; d])] ocore []
             (fun ts => rmap to_grid (resample_data_at K P (arg 1 ts) (axis_value ax) mom (arg 0 ts)))) (fun g =>
    if to_end then Ok g
    else
      rbind (transpose_like 0%Qc (x_dims x) (fun n => if String.eqb n d then rep_dim else n) [] [] g) (fun g =>
      let order := (firstn a (x_dims x) ++ rep_dim :: skipn (S a) (x_dims x))%list in
      rbind (infix_dims (map Some order) (lg_dims g)) (fun _ => l_transpose 0%Qc (map Some order) g))))).

  (* reduction.py:964-1025  reduce_data_grouped; by is an array of one axis *)
  Definition x_reduce_data_grouped (p : xparams) (by_ : list Z) (group_dim : option sname) (axis : marg axis_arg) (dim : marg sname)
      (to_end : bool) (x : xarr) : res (lgrid Qc) :=
    with_dim p axis dim x (fun _ d core mom ax =>
    rbind (apply_ufunc [(Labelled x, core)] core [d]
             (fun ts => rmap to_grid (reduce_data_grouped_nd K P by_ ax mom false (arg 0 ts)))) (fun g =>
    rbind (finish 0%Qc to_end x g) (opt_rename d group_dim))).

  (* reduction.py:1380-1470  reduce_data_indexed *)
  Definition x_reduce_data_indexed (p : xparams) (index start end_ : list Z) (scale : option (list Qc)) (group_dim : option sname)
      (axis : marg axis_arg) (dim : marg sname) (to_end : bool) (x : xarr) : res (lgrid Qc) :=
    with_dim p axis dim x (fun _ d core mom ax =>
    rbind (sizes (x_dims x) (x_shape x) d) (fun n =>
    rbind (validate_index n index start end_) (fun _ =>
    rbind (apply_ufunc [(Labelled x, core)] core [d]
             (fun ts => rmap to_grid (reduce_data_indexed_nd K P index start end_ scale ax mom false (arg 0 ts)))) (fun g =>
    rbind (finish 0%Qc to_end x g) (opt_rename d group_dim))))).

  (* reduction.py:433-541  reduce_data of a DataArray, use_map not set *)
  Definition x_reduce_data (p : xparams) (axis : marg (list axis_arg)) (dim : marg dims_arg) (keepdims to_end : bool) (x : xarr) : res (lgrid Qc) :=
    rbind (select_axis_dim_mult p (XArr (x_dims x)) axis dim Missing Missing false) (fun '(_, ds) =>
    rbind (core_dims p ds) (fun core =>
    rbind (iter_dims p) (fun md =>
    rbind (array_axes p) (fun mom =>
    rbind (of_opt EType (xp_ndim p)) (fun m =>
    let axes := map (fun i => AInt (Z.of_nat i - Z.of_nat (List.length ds) - m)) (seq 0 (List.length ds)) in
    let ocore := if keepdims then core else md in
    rbind (apply_ufunc [(Labelled x, core)] ocore ds
             (fun ts => rmap to_grid (reduce_data_nd K P mom (Some axes) keepdims false (arg 0 ts)))) (fun g =>
    if to_end then l_transpose 0%Qc (None :: map Some ocore) g
    else transpose_like 0%Qc (x_dims x) (fun n => n) (if keepdims then [] else ds) [] g)))))).

  (* resample/resample.py:786-868  jackknife_data.  data_reduced: None, a DataArray,
     or an array and its mom_axes_reduced *)
  Definition x_jackknife_data (p : xparams) (data_reduced : option (xop * option (list Z))) (rep_dim : option sname)
      (axis : marg axis_arg) (dim : marg sname) (to_end : bool) (x : xarr) : res (lgrid Qc) :=
    rbind (match data_reduced with
           | None => rmap (fun g => Labelled (to_xarr g))
                       (x_reduce_data p (match axis with Val a => Val [a] | Missing => Missing | PyNone => PyNone end)
                          (match dim with Val d => Val (DStr d) | Missing => Missing | PyNone => PyNone end) false true x)
           | Some (Plain r, Some ma) => rbind (array_axes p) (fun mom => rmap Plain (np_moveaxis ma mom r))
           | Some (r, _) => Ok r
           end) (fun red =>
    with_dim p axis dim x (fun _ d core mom ax =>
    rbind (iter_dims p) (fun md =>
    rbind (apply_ufunc [(Labelled x, core); (red, md)] core []
             (fun ts => rmap to_grid (jackknife_data_at K P (arg 1 ts, axes_last (List.length mom)) (axis_value ax) mom (arg 0 ts)))) (fun g =>
    rbind (finish 0%Qc to_end x g) (opt_rename d rep_dim))))).

  (* rolling.py:428-480  rolling_data *)
  Definition x_rolling_data (p : xparams) (window : Z) (min_periods : option Z) (center zero : bool)
      (axis : marg axis_arg) (dim : marg sname) (to_end : bool) (x : xarr) : res (lgrid (option Qc)) :=
    with_dim p axis dim x (fun _ d core mom ax =>
    rbind (apply_ufunc [(Labelled x, core)] core []
             (fun ts => rolling_data_nd K P window min_periods center zero ax mom false (arg 0 ts))) (fun g =>
    finish None to_end x g)).

  (* rolling.py:977-1052  rolling_exp_data.  Inside apply_ufunc the decay factors
     have their axis last. *)
  Definition x_rolling_exp_data (p : xparams) (alpha : xop) (alpha_axis : option axis_arg) (adjust : bool) (min_periods : option Z)
      (zero : bool) (axis : marg axis_arg) (dim : marg sname) (to_end : bool) (x : xarr) : res (lgrid (option Qc)) :=
    with_dim p axis dim x (fun _ d core mom ax =>
    rbind (sizes (x_dims x) (x_shape x) d) (fun n =>
    rbind (match alpha with
           | Plain t => rmap (fun q => Plain (snd q)) (prepare_alpha alpha_axis n true t)
           | Labelled _ => Ok alpha
           end) (fun alpha =>
    rbind (apply_ufunc [(Labelled x, core); (alpha, [d])] core []
             (fun ts => rolling_exp_data_at K P (arg 1 ts) (-1) adjust min_periods zero (axis_value ax) mom (arg 0 ts))) (fun g =>
    finish None to_end x g)))).
End LabelledData.

(* ---- functions of values -------------------------------------------------------------- *)

Section LabelledValues.
  Context {A V : Type} (K : pusher A V) (P : packer A) (R : reader V).

  (* core/prepare.py:178-250  xprepare_values_for_reduction of a DataArray: the
     dimension and the arrays; default_mom_params_xarray names no moments *)
  Definition xprepare_values (narrays : nat) (axis : marg axis_arg) (dim : marg sname) (x : xarr) (others : list xop) : res (sname * list xop) :=
    if negb (Nat.eqb (S (List.length others)) narrays) then Raise EValue
    else
    rbind (select_axis_dim default_x_params (XArr (x_dims x)) axis dim Missing Missing false) (fun '(a, d) =>
    rbind (sizes (x_dims x) (x_shape x) d) (fun n =>
    let axis_neg := positive_to_negative_index (Z.of_nat a) (Z.of_nat (List.length (x_dims x))) in
    rbind (mapR (fun o => match o with
                          | Labelled _ => Ok o
                          | Plain t => rmap Plain (prepare_secondary axis_neg n true t)
                          end) others) (fun others' => Ok (d, others')))).
  (* xr.apply_ufunc with input_core_dims [[dim]] * len(arrays), as at reduction.py:230-233 *)
  Definition values_args (d : sname) (x : xarr) (others : list xop) : list (xop * list sname) :=
    map (fun o => (o, [d])) (Labelled x :: others).
  (* x, weight, *y of the function inside apply_ufunc, as at reduction.py:283-285 *)
  Definition call_values {X} (f : tensor -> tensor -> list tensor -> res X) (ts : list tensor) : res X :=
    match ts with x :: w :: y => f x w y | _ => Raise EType end.
  (* if not axes_to_end: transpose_like with append, as at rolling.py:743-748 *)
  Definition finish_values {T} (d : T) (to_end : bool) (x : xarr) (replace : sname -> sname) (md : list sname) (g : lgrid T) : res (lgrid T) :=
    if to_end then Ok g else transpose_like d (x_dims x) replace [] md g.

  (* reduction.py:213-252  reduce_vals; weight None is the number 1; p is the
     result of MomParamsXArray.factory_mom *)
  Definition x_reduce_vals (p : xparams) (axis : marg axis_arg) (dim : marg sname) (x : xarr) (w : xop) (y : list xop) : res (lgrid Qc) :=
    rbind (xprepare_values (S (mom_ndim P)) axis dim x (w :: y)) (fun '(d, others) =>
    rbind (iter_dims p) (fun md =>
    apply_ufunc (values_args d x others) md []
      (call_values (fun x w y => rmap to_grid (reduce_vals_nd K P R (AInt (-1)) x w y))))).

  (* resample/resample.py:478-545  resample_vals; freq = sampler.freq *)
  Definition x_resample_vals (p : xparams) (freq : xop) (rep_dim : sname) (axis : marg axis_arg) (dim : marg sname) (to_end : bool)
      (x : xarr) (w : xop) (y : list xop) : res (lgrid Qc) :=
    rbind (xprepare_values (S (mom_ndim P)) axis dim x (w :: y)) (fun '(d, others) =>
    rbind (core_dims p [rep_dim]) (fun ocore =>
    rbind (iter_dims p) (fun md =>
    rbind (apply_ufunc (values_args d x others ++ [(freq, [rep_dim; d])]) ocore []
             (fun ts => call_values (fun x w y => rmap to_grid (resample_vals_nd K P R (last ts (Tensor [0] [])) (AInt (-1)) false x w y))
                          (removelast ts))) (fun g =>
    finish_values 0%Qc to_end x (fun n => if String.eqb n d then rep_dim else n) md g)))).

  (* resample/resample.py:1072-1150  jackknife_vals *)
  Definition x_jackknife_vals (p : xparams) (data_reduced : option xop) (rep_dim : option sname) (axis : marg axis_arg) (dim : marg sname)
      (to_end : bool) (x : xarr) (w : xop) (y : list xop) : res (lgrid Qc) :=
    rbind (match data_reduced with
           | None => rmap (fun g => Labelled (to_xarr g)) (x_reduce_vals p axis dim x w y)
           | Some r => Ok r
           end) (fun red =>
    rbind (xprepare_values (S (mom_ndim P)) axis dim x (w :: y)) (fun '(d, others) =>
    rbind (core_dims p [d]) (fun ocore =>
    rbind (iter_dims p) (fun md =>
    rbind (apply_ufunc (values_args d x others ++ [(red, md)]) ocore []
             (fun ts => call_values (fun x w y => rmap to_grid (jackknife_vals_nd K P R (Some (last ts (Tensor [0] []))) (AInt (-1)) false x w y))
                          (removelast ts))) (fun g =>
    rbind (finish_values 0%Qc to_end x (fun n => n) md g) (opt_rename d rep_dim)))))).

  (* rolling.py:695-752  rolling_vals *)
  Definition x_rolling_vals (p : xparams) (window : Z) (min_periods : option Z) (center zero : bool) (axis : marg axis_arg) (dim : marg sname)
      (to_end : bool) (x : xarr) (w : xop) (y : list xop) : res (lgrid (option Qc)) :=
    rbind (xprepare_values (S (mom_ndim P)) axis dim x (w :: y)) (fun '(d, others) =>
    rbind (core_dims p [d]) (fun ocore =>
    rbind (iter_dims p) (fun md =>
    rbind (apply_ufunc (values_args d x others) ocore []
             (call_values (fun x w y => rolling_vals_nd K P R window min_periods center zero (AInt (-1)) false x w y))) (fun g =>
    finish_values None to_end x (fun n => n) md g)))).

  (* rolling.py:1294-1355  rolling_exp_vals: the arguments are x, weight, alpha, *y *)
  Definition x_rolling_exp_vals (p : xparams) (alpha : xop) (adjust : bool) (min_periods : option Z) (zero : bool) (axis : marg axis_arg)
      (dim : marg sname) (to_end : bool) (x : xarr) (w : xop) (y : list xop) : res (lgrid (option Qc)) :=
    rbind (xprepare_values (S (S (mom_ndim P))) axis dim x (w :: alpha :: y)) (fun '(d, others) =>
    rbind (core_dims p [d]) (fun ocore =>
    rbind (iter_dims p) (fun md =>
    rbind (apply_ufunc (values_args d x others) ocore []
             (fun ts => match ts with
                        | x :: w :: alpha :: y => rolling_exp_vals_nd K P R alpha adjust min_periods zero (AInt (-1)) false x w y
                        | _ => Raise EType
                        end)) (fun g =>
    finish_values None to_end x (fun n => n) md g)))).
End LabelledValues.
