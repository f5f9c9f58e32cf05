(* Model of the functions of xarray.Dataset: convert.py:423-478 (cumulative),
   reduction.py:213-252 (reduce_vals), 433-541 (reduce_data), 964-1025
   (reduce_data_grouped), 1380-1470 (reduce_data_indexed), resample/resample.py:217-276
   (resample_data), 478-545 (resample_vals), 786-868 (jackknife_data), 1072-1150
   (jackknife_vals), rolling.py:428-480 (rolling_data), 695-752 (rolling_vals),
   977-1052 (rolling_exp_data), 1294-1355 (rolling_exp_vals), core/prepare.py:178-250,
   core/xr_utils.py:37-63 (factory_apply_ufunc_kwargs), 160-232.

   A Dataset is the list of its data variables.  Like the arrays of ModelLabel they
   have no coordinates and no attributes; out= is ignored (core/prepare.py:270, 298,
   320, 344).  apply_ufunc_kwargs= is None: variables without core dimensions are
   copied (on_missing_core_dim="copy", core/xr_utils.py:39). *)
From Coq Require Import String.
From Verif Require Import Base ModelPush ModelKernels ModelIndex ModelAxes ModelParams ModelWrap ModelNd ModelLabel.
Local Open Scope string_scope.
Local Open Scope nat_scope.

(* ---- Datasets ----------------------------------------------------------------------- *)

(* xarray.Dataset: names and data variables in order, argument of reduction.py:435 *)
Definition xset := list (sname * xarr).
(* Dataset whose entries may be nan, result of rolling.py:428-480 and the like *)
Definition lset (T : Type) := list (sname * lgrid T).
(* xarray calculate_dimensions: the sizes of all dimensions in the order in which they
   are met; different sizes of a dimension are a ValueError
   [Dataset.sizes and Dataset.dims, reduction.py:454-456] *)
Definition dims_sizes (l : list (list (sname * nat))) : res (list (sname * nat)) := foldR (fun sz v => foldR (unify_dim []) v sz) l [].
(* the dimensions of a variable with their sizes [of which data.sizes is made,
   reduction.py:454-456] *)
Definition var_sizes (v : sname * xarr) : list (sname * nat) := combine (x_dims (snd v)) (x_shape (snd v)).
(* Dataset.sizes, reduction.py:454-456 *)
Definition ds_sizes (s : xset) : res (list (sname * nat)) := dims_sizes (map var_sizes s).
(* the check inside the constructor of a Dataset, also called at the end of apply_ufunc
   [inside xr.apply_ufunc and Dataset.map, called at reduction.py:459, 487] *)
Definition ls_checked {T} (r : lset T) : res (lset T) :=
  rbind (dims_sizes (map (fun v => combine (lg_dims (snd v)) (gshape (lg_val (snd v)))) r)) (fun _ => Ok r).
(* tuple(data.dims), core/moment_params.py:582-586 *)
Definition ds_dims (s : xset) : res (list sname) := rmap (map fst) (ds_sizes s).
(* data.sizes[dim], as at reduction.py:1395 *)
Definition ds_size (s : xset) (d : sname) : res nat := rbind (ds_sizes s) (fun sz => of_opt EKey (lookup d sz)).
(* data[name], as at core/xr_utils.py:216-217 *)
Definition get_var (name : sname) (s : xset) : option xarr := option_map snd (find (fun v => String.eqb (fst v) name) s).

(* ---- xarray.apply_ufunc ----------------------------------------------------------------- *)

(* an argument of apply_ufunc: a Dataset or anything else, as freq at resample/resample.py:232 *)
Inductive dop := DSet (s : xset) | DArr (o : xop).
(* variable number name of an argument: xarray collect_dict_values
   [inside xr.apply_ufunc, called at convert.py:438] *)
Definition var_operand (name : sname) (a : dop) : res xop :=
  match a with DSet s => of_opt EKey (option_map Labelled (get_var name s)) | DArr o => Ok o end.
(* xarray _check_core_dims of one argument
   [inside xr.apply_ufunc, called at convert.py:438] *)
Definition has_core (a : xop * list sname) : bool :=
  match fst a with Labelled x => forallb (fun d => smem d (x_dims x)) (snd a) | Plain _ => true end.
(* variable_args[0], inside xr.apply_ufunc, called at convert.py:438 *)
Definition copied {T} (inj : Qc -> T) (x : xarr) : lgrid T := LG (x_dims x) (Grid (x_shape x) (map inj (tdata (x_val x)))).
(* the labelled arrays of an argument; deep_align compares the sizes of all dimensions
   [inside xr.apply_ufunc, called at convert.py:438] *)
Definition arrays_of (a : dop) : list xarr := match a with DSet s => map snd s | DArr o => labelled_of [o] end.
(* deep_align of more than one argument, without coordinates
   [inside xr.apply_ufunc, called at convert.py:438] *)
Definition align (excl : list sname) (args : list dop) : res unit :=
  if Nat.leb (List.length args) 1 then Ok tt
  else rmap (fun _ => tt) (foldR (fun sz x => foldR (unify_dim excl) (combine (x_dims x) (x_shape x)) sz) (flat_map arrays_of args) []).
(* dataset_join="exact": all Datasets have the same names
   [inside xr.apply_ufunc, called at convert.py:438] *)
Definition same_keys (s : xset) (a : dop) : bool :=
  match a with
  | DSet t => (forallb (fun n => smem n (map fst t)) (map fst s) && forallb (fun n => smem n (map fst s)) (map fst t))%bool
  | DArr _ => true
  end.
(* one variable: apply_variable_ufunc, or a copy; first whether it is copied
   [inside xr.apply_ufunc, called at convert.py:438] *)
Definition apply_var {T} (inj : Qc -> T) (core : list sname) (others : list (dop * list sname)) (out_core excl : list sname)
    (f : list tensor -> res (grid T)) (v : sname * xarr) : res (lgrid T) :=
  rbind (mapR (var_operand (fst v)) (map fst others)) (fun os =>
  let args := (Labelled (snd v), core) :: combine os (map snd others) in
  if forallb has_core args then apply_ufunc args out_core excl f else Ok (copied inj (snd v))).
(* xr.apply_ufunc of a Dataset s and others
   [called at convert.py:438, reduction.py:230, 487, 979, 1402, resample/resample.py:230, 499, 829, 1106, rolling.py:440, 712, 1003, 1311] *)
Definition ds_apply {T} (inj : Qc -> T) (s : xset) (core : list sname) (others : list (dop * list sname)) (out_core excl : list sname)
    (f : list tensor -> res (grid T)) : res (lset T) :=
  rbind (align excl (DSet s :: map fst others)) (fun _ =>
  if negb (forallb (same_keys s) (map fst others)) then Raise EValue
  else rbind (mapR (fun v => rmap (pair (fst v)) (apply_var inj core others out_core excl f v)) s) ls_checked).

(* a Dataset of results as an argument, as at resample/resample.py:797-815 *)
Definition to_xset (r : lset Qc) : xset := map (fun v => (fst v, to_xarr (snd v))) r.
(* Dataset.map of a function of the variables and their names
   [called at core/xr_utils.py:188-197] *)
Definition ls_map {T} (f : sname -> lgrid T -> res (lgrid T)) (r : lset T) : res (lset T) :=
  mapR (fun v => rmap (pair (fst v)) (f (fst v) (snd v))) r.
(* core/xr_utils.py:166-232  transpose_like with a Dataset as template *)
Definition ds_transpose_like {T} (d : T) (s : xset) (replace : sname -> sname) (remove append : list sname) (r : lset T) : res (lset T) :=
  ls_map (fun n g => rbind (of_opt EKey (get_var n s)) (fun x => transpose_like d (x_dims x) replace remove append g)) r.
(* Variable.transpose: nothing to do if the order stays
   [called by Dataset.transpose at convert.py:474-475 and the like] *)
Definition var_transpose {T} (d : T) (dims : list (option sname)) (g : lgrid T) : res (lgrid T) :=
  let known := filter (fun o => match o with Some n => smem n (lg_dims g) | None => true end) dims in
  rbind (infix_dims known (lg_dims g)) (fun ds =>
  if list_eq_dec string_dec ds (lg_dims g) then Ok g
  else rbind (mapR (get_axis_num (lg_dims g)) ds) (fun order => Ok (LG ds (gtranspose d order (lg_val g))))).
(* xout.transpose(..., dim, *mom_dims, missing_dims="ignore"), convert.py:474-475 and the like *)
Definition ds_transpose {T} (d : T) (last : list sname) (r : lset T) : res (lset T) := ls_map (fun _ => var_transpose d (None :: map Some last)) r.
(* Dataset.rename of a dimension: a ValueError if no variable has it or if the new name
   is the name of another dimension of a variable
   [reduction.py:1021-1022, 1467-1468, resample/resample.py:867-868, 1154-1155] *)
Definition ds_rename {T} (old : sname) (new : option sname) (r : lset T) : res (lset T) :=
  match new with
  | None => Ok r
  | Some n => if existsb (fun v => smem old (lg_dims (snd v))) r then ls_map (fun _ => l_rename old n) r else Raise EValue
  end.
(* transpose_like or transpose, as at convert.py:469-475 *)
Definition ds_finish {T} (d : T) (to_end : bool) (s : xset) (replace : sname -> sname) (append last : list sname) (r : lset T) : res (lset T) :=
  if to_end then ds_transpose d last r else ds_transpose_like d s replace [] append r.

(* resample/sampler.py:592-605  the tables of a sampler with paired=False: one for every
   variable with the dimensions ds, and no Dataset if there is one only; table gives
   them (the conversion of each to frequencies is in ModelSampler).  A Dataset without
   tables is an error in indices_to_freq (resample/sampler.py:791, ValueError) *)
Definition unpaired_tables (ds : list sname) (table : sname -> xarr) (s : xset) : dop :=
  match filter (fun v => forallb (fun n => smem n (x_dims (snd v))) ds) s with
  | [v] => DArr (Labelled (table (fst v)))
  | l => DSet (map (fun v => (fst v, table (fst v))) l)
  end.

(* ---- functions of moment arrays ------------------------------------------------------- *)

Section DatasetData.
  Context {A V : Type} (K : pusher A V) (P : packer A).

  (* the dimension, the core dimensions, the moment axes and the axis: the common
     part of convert.py:424-445, rolling.py:429-446 and the like *)
  Definition ds_with_dim {X} (p : xparams) (axis : marg axis_arg) (dim : marg sname) (s : xset)
      (f : sname -> list sname -> list sname -> list Z -> axis_arg -> res X) : res X :=
    rbind (ds_dims s) (fun dims =>
    rbind (select_axis_dim p (XSet dims) axis dim Missing Missing false) (fun '(_, d) =>
    rbind (iter_dims p) (fun md =>
    rbind (core_dims p [d]) (fun core =>
    rbind (array_axes p) (fun mom =>
    rbind (neg_axis p) (fun ax => f d md core mom ax)))))).

  (* convert.py:423-478  cumulative *)
  Definition ds_cumulative (p : xparams) (inverse : bool) (axis : marg axis_arg) (dim : marg sname) (to_end : bool) (s : xset) : res (lset Qc) :=
    ds_with_dim p axis dim s (fun d md core mom ax =>
    rbind (ds_apply (fun q => q) s core [] core [] (fun ts => rmap to_grid (cumulative_nd K P inverse ax mom false (arg 0 ts)))) (fun r =>
    ds_finish 0%Qc to_end s (fun n => n) [] (d :: md) r)).

  (* resample/resample.py:217-276  resample_data; freq = sampler.freq *)
  Definition ds_resample_data (p : xparams) (freq : dop) (rep_dim : sname) (axis : marg axis_arg) (dim : marg sname) (to_end : bool) (s : xset)
    : res (lset Qc) :=
    ds_with_dim p axis dim s (fun d md core mom ax =>
    rbind (core_dims p [rep_dim]) (fun ocore =>
    rbind (ds_apply (fun q => q) s core [(freq, [rep_dim; d])] ocore []
             (fun ts => rmap to_grid (resample_data_at K P (arg 1 ts) (axis_value ax) mom (arg 0 ts)))) (fun r =>
    ds_finish 0%Qc to_end s (fun n => if String.eqb n d then rep_dim else n) [] (rep_dim :: md) r))).

  (* reduction.py:964-1025  reduce_data_grouped; by is an array of one axis *)
  Definition ds_reduce_data_grouped (p : xparams) (by_ : list Z) (group_dim : option sname) (axis : marg axis_arg) (dim : marg sname)
      (to_end : bool) (s : xset) : res (lset Qc) :=
    ds_with_dim p axis dim s (fun d md core mom ax =>
    rbind (ds_apply (fun q => q) s core [] core [d]
             (fun ts => rmap to_grid (reduce_data_grouped_nd K P by_ ax mom false (arg 0 ts)))) (fun r =>
    rbind (ds_finish 0%Qc to_end s (fun n => n) [] (d :: md) r) (ds_rename d group_dim))).

  (* reduction.py:1380-1470  reduce_data_indexed *)
  Definition ds_reduce_data_indexed (p : xparams) (index start end_ : list Z) (scale : option (list Qc)) (group_dim : option sname)
      (axis : marg axis_arg) (dim : marg sname) (to_end : bool) (s : xset) : res (lset Qc) :=
    ds_with_dim p axis dim s (fun d md core mom ax =>
    rbind (ds_size s d) (fun n =>
    rbind (validate_index n index start end_) (fun _ =>
    rbind (ds_apply (fun q => q) s core [] core [d]
             (fun ts => rmap to_grid (reduce_data_indexed_nd K P index start end_ scale ax mom false (arg 0 ts)))) (fun r =>
    rbind (ds_finish 0%Qc to_end s (fun n => n) [] (d :: md) r) (ds_rename d group_dim))))).

  (* reduction.py:471-485 reduce_data of one variable with use_map=True *)
  Definition map_reduce (p : xparams) (md : list sname) (dim : option (list sname)) (keepdims to_end : bool) (x : xarr) : res (lgrid Qc) :=
    if negb (forallb (fun n => smem n (x_dims x)) md) then Ok (copied (fun q => q) x)
    else match dim with
    | None => x_reduce_data K P p Missing PyNone keepdims to_end x
    | Some ds =>
        match filter (fun n => smem n (x_dims x)) ds with
        | [] => Ok (copied (fun q => q) x)
        | ds => x_reduce_data K P p Missing (Val (DSeq ds)) keepdims to_end x
        end
    end.
  (* reduction.py:433-541  reduce_data of a Dataset; use_map=True with a single name
     is the same as use_map=None *)
  Definition ds_reduce_data (p : xparams) (axis : marg (list axis_arg)) (dim : marg dims_arg) (keepdims to_end : bool) (use_map : option bool)
      (s : xset) : res (lset Qc) :=
    rbind (ds_dims s) (fun dims =>
    rbind (iter_dims p) (fun md =>
    rbind (match dim with
           | PyNone => Ok None
           | _ => rmap (fun r => Some (snd r)) (select_axis_dim_mult p (XSet dims) axis dim Missing Missing false)
           end) (fun names =>
    if negb (forallb (fun n => smem n dims) (match names with Some ds => ds | None => [] end ++ md)%list) then Raise EValue
    else if (match use_map with Some b => b | None => true end && match names with None => true | Some ds => Nat.ltb 1 (List.length ds) end)%bool
    then rbind (mapR (fun v => rmap (pair (fst v)) (map_reduce p md names keepdims to_end (snd v))) s) ls_checked
    else match use_map, names with
    | Some true, Some [] => Ok (map (fun v => (fst v, copied (fun q => q) (snd v))) s)
    | _, _ =>
    rbind (select_axis_dim_mult p (XSet dims) axis (match names with Some ds => Val (DSeq ds) | None => PyNone end) Missing Missing false) (fun '(_, ds) =>
    rbind (core_dims p ds) (fun core =>
    rbind (array_axes p) (fun mom =>
    rbind (of_opt EType (xp_ndim p)) (fun m =>
    let axes := map (fun i => AInt (Z.of_nat i - Z.of_nat (List.length ds) - m)) (seq 0 (List.length ds)) in
    let ocore := if keepdims then core else md in
    rbind (ds_apply (fun q => q) s core [] ocore ds
             (fun ts => rmap to_grid (reduce_data_nd K P mom (Some axes) keepdims false (arg 0 ts)))) (fun r =>
    if to_end then ls_map (fun _ => l_transpose 0%Qc (None :: map Some ocore)) r
    else ds_transpose_like 0%Qc s (fun n => n) (if keepdims then [] else ds) [] r)))))
    end))).

  (* resample/resample.py:786-868  jackknife_data.  data_reduced: None, a Dataset or
     DataArray, or an array and its mom_axes_reduced *)
  Definition ds_jackknife_data (p : xparams) (data_reduced : option (dop * option (list Z))) (rep_dim : option sname)
      (axis : marg axis_arg) (dim : marg sname) (to_end : bool) (s : xset) : res (lset Qc) :=
    rbind (match data_reduced with
           | None => rmap (fun r => DSet (to_xset r))
                       (ds_reduce_data p (match axis with Val a => Val [a] | Missing => Missing | PyNone => PyNone end)
                          (match dim with Val d => Val (DStr d) | Missing => Missing | PyNone => PyNone end) false true None s)
           | Some (DArr (Plain r), Some ma) => rbind (array_axes p) (fun mom => rmap (fun t => DArr (Plain t)) (np_moveaxis ma mom r))
           | Some (r, _) => Ok r
           end) (fun red =>
    ds_with_dim p axis dim s (fun d md core mom ax =>
    rbind (ds_apply (fun q => q) s core [(red, md)] core []
             (fun ts => rmap to_grid (jackknife_data_at K P (arg 1 ts, axes_last (List.length mom)) (axis_value ax) mom (arg 0 ts)))) (fun r =>
    rbind (ds_finish 0%Qc to_end s (fun n => n) [] (d :: md) r) (ds_rename d rep_dim)))).

  (* rolling.py:428-480  rolling_data *)
  Definition ds_rolling_data (p : xparams) (window : Z) (min_periods : option Z) (center zero : bool)
      (axis : marg axis_arg) (dim : marg sname) (to_end : bool) (s : xset) : res (lset (option Qc)) :=
    ds_with_dim p axis dim s (fun d md core mom ax =>
    rbind (ds_apply Some s core [] core []
             (fun ts => rolling_data_nd K P window min_periods center zero ax mom false (arg 0 ts))) (fun r =>
    ds_finish None to_end s (fun n => n) [] (d :: md) r)).

  (* rolling.py:977-1052  rolling_exp_data *)
  Definition ds_rolling_exp_data (p : xparams) (alpha : dop) (alpha_axis : option axis_arg) (adjust : bool) (min_periods : option Z)
      (zero : bool) (axis : marg axis_arg) (dim : marg sname) (to_end : bool) (s : xset) : res (lset (option Qc)) :=
    ds_with_dim p axis dim s (fun d md core mom ax =>
    rbind (match alpha with
           | DArr (Plain t) => rbind (ds_size s d) (fun n => rmap (fun q => DArr (Plain (snd q))) (prepare_alpha alpha_axis n true t))
           | _ => Ok alpha
           end) (fun alpha =>
    rbind (ds_apply Some s core [(alpha, [d])] core []
             (fun ts => rolling_exp_data_at K P (arg 1 ts) (-1) adjust min_periods zero (axis_value ax) mom (arg 0 ts))) (fun r =>
    ds_finish None to_end s (fun n => n) [] (d :: md) r))).
End DatasetData.

(* ---- functions of values -------------------------------------------------------------- *)

Section DatasetValues.
  Context {A V : Type} (K : pusher A V) (P : packer A) (R : reader V).

  (* core/prepare.py:178-250  xprepare_values_for_reduction of a Dataset: the axis is 0,
     counted from the end of the first variable; a Dataset without variables
     (StopIteration) is a ValueError here *)
  Definition ds_prepare_values (narrays : nat) (axis : marg axis_arg) (dim : marg sname) (s : xset) (others : list dop) : res (sname * list dop) :=
    if negb (Nat.eqb (S (List.length others)) narrays) then Raise EValue
    else
    rbind (ds_dims s) (fun dims =>
    rbind (select_axis_dim default_x_params (XSet dims) axis dim Missing Missing false) (fun '(a, d) =>
    rbind (ds_size s d) (fun n =>
    rbind (of_opt EValue (hd_error s)) (fun v =>
    let axis_neg := positive_to_negative_index (Z.of_nat a) (Z.of_nat (List.length (x_dims (snd v)))) in
    rbind (mapR (fun o => match o with
                          | DArr (Plain t) => rmap (fun t => DArr (Plain t)) (prepare_secondary axis_neg n true t)
                          | _ => Ok o
                          end) others) (fun others' => Ok (d, others')))))).
  (* xr.apply_ufunc with input_core_dims [[dim]] * len(arrays), as at reduction.py:230-233 *)
  Definition ds_args (d : sname) (others : list dop) : list (dop * list sname) := map (fun o => (o, [d])) others.

  (* reduction.py:213-252  reduce_vals; weight None is the number 1 *)
  Definition ds_reduce_vals (p : xparams) (axis : marg axis_arg) (dim : marg sname) (s : xset) (w : dop) (y : list dop) : res (lset Qc) :=
    rbind (ds_prepare_values (S (mom_ndim P)) axis dim s (w :: y)) (fun '(d, others) =>
    rbind (iter_dims p) (fun md =>
    ds_apply (fun q => q) s [d] (ds_args d others) md []
      (call_values (fun x w y => rmap to_grid (reduce_vals_nd K P R (AInt (-1)) x w y))))).

  (* resample/resample.py:478-545  resample_vals; freq = sampler.freq *)
  Definition ds_resample_vals (p : xparams) (freq : dop) (rep_dim : sname) (axis : marg axis_arg) (dim : marg sname) (to_end : bool)
      (s : xset) (w : dop) (y : list dop) : res (lset Qc) :=
    rbind (ds_prepare_values (S (mom_ndim P)) axis dim s (w :: y)) (fun '(d, others) =>
    rbind (core_dims p [rep_dim]) (fun ocore =>
    rbind (iter_dims p) (fun md =>
    rbind (ds_apply (fun q => q) s [d] (ds_args d others ++ [(freq, [rep_dim; d])]) ocore []
             (fun ts => call_values (fun x w y => rmap to_grid (resample_vals_nd K P R (last ts (Tensor [0] [])) (AInt (-1)) false x w y))
                          (removelast ts))) (fun r =>
    ds_finish 0%Qc to_end s (fun n => if String.eqb n d then rep_dim else n) md (rep_dim :: md) r)))).

  (* resample/resample.py:1072-1150  jackknife_vals *)
  Definition ds_jackknife_vals (p : xparams) (data_reduced : option dop) (rep_dim : option sname) (axis : marg axis_arg) (dim : marg sname)
      (to_end : bool) (s : xset) (w : dop) (y : list dop) : res (lset Qc) :=
    rbind (match data_reduced with
           | None => rmap (fun r => DSet (to_xset r)) (ds_reduce_vals p axis dim s w y)
           | Some r => Ok r
           end) (fun red =>
    rbind (ds_prepare_values (S (mom_ndim P)) axis dim s (w :: y)) (fun '(d, others) =>
    rbind (core_dims p [d]) (fun ocore =>
    rbind (iter_dims p) (fun md =>
    rbind (ds_apply (fun q => q) s [d] (ds_args d others ++ [(red, md)]) ocore []
             (fun ts => call_values (fun x w y => rmap to_grid (jackknife_vals_nd K P R (Some (last ts (Tensor [0] []))) (AInt (-1)) false x w y))
                          (removelast ts))) (fun r =>
    rbind (ds_finish 0%Qc to_end s (fun n => n) md (d :: md) r) (ds_rename d rep_dim)))))).

  (* rolling.py:695-752  rolling_vals *)
  Definition ds_rolling_vals (p : xparams) (window : Z) (min_periods : option Z) (center zero : bool) (axis : marg axis_arg) (dim : marg sname)
      (to_end : bool) (s : xset) (w : dop) (y : list dop) : res (lset (option Qc)) :=
    rbind (ds_prepare_values (S (mom_ndim P)) axis dim s (w :: y)) (fun '(d, others) =>
    rbind (core_dims p [d]) (fun ocore =>
    rbind (iter_dims p) (fun md =>
    rbind (ds_apply Some s [d] (ds_args d others) ocore []
             (call_values (fun x w y => rolling_vals_nd K P R window min_periods center zero (AInt (-1)) false x w y))) (fun r =>
    ds_finish None to_end s (fun n => n) md (d :: md) r)))).

  (* rolling.py:1294-1355  rolling_exp_vals: the arguments are x, weight, alpha, *y *)
  Definition ds_rolling_exp_vals (p : xparams) (alpha : dop) (adjust : bool) (min_periods : option Z) (zero : bool) (axis : marg axis_arg)
      (dim : marg sname) (to_end : bool) (s : xset) (w : dop) (y : list dop) : res (lset (option Qc)) :=
    rbind (ds_prepare_values (S (S (mom_ndim P))) axis dim s (w :: alpha :: y)) (fun '(d, others) =>
    rbind (core_dims p [d]) (fun ocore =>
    rbind (iter_dims p) (fun md =>
    rbind (ds_apply Some s [d] (ds_args d others) ocore []
             (fun ts => match ts with
                        | x :: w :: alpha :: y => rolling_exp_vals_nd K P R alpha adjust min_periods zero (AInt (-1)) false x w y
                        | _ => Raise EType
                        end)) (fun r =>
    ds_finish None to_end s (fun n => n) md (d :: md) r)))).
End DatasetValues.
