(* out= of the functions of DataArrays: core/prepare.py:260-361 and the calls in
   reduction.py, convert.py, resample/resample.py, rolling.py.  The functions below
   give the content of the array passed as out= after the call.  An array of another
   shape than the result is a ValueError, of numpy or of xarray, but for the groups of
   reduce_data_grouped and the moments of functions of values: their kernels have out
   as an argument, not as output, and take these sizes from it.  copy and memory order
   do not matter; Datasets ignore out=. *)
From Coq Require Import String.
From Verif Require Import Base ModelPush ModelKernels ModelIndex ModelAxes ModelState ModelParams ModelWrap ModelNd ModelLabel ModelMoments ModelMomentsX.
Local Open Scope string_scope.
Local Open Scope list_scope.

(* the axes of a view: np.moveaxis(out, source, destination), or out itself
   [core/prepare.py:276-292, 308-312, 338, 358-360] *)
Definition view_axes (moves : option (list Z * list Z)) (ndim : nat) : res (list nat) :=
  match moves with None => Ok (seq 0 ndim) | Some (source, destination) => moveaxis_order ndim source destination end.
(* a function writes its result r through the view of out whose axis number k is axis
   number order[k] of out; different shapes are a ValueError
   [factory_...(out=out), convert.py:533-544 and the like] *)
Definition write_view {T} (d : T) (order : list nat) (out r : grid T) : res (grid T) :=
  if list_eq_dec Nat.eq_dec (map (fun a => nth a (gshape out) 0) order) (gshape r)
  then Ok (gtabulate (gshape out) (fun i => gget d r (map (fun a => nth a i 0) order)))
  else Raise EValue.
(* out= of a function with the result calc in the order of the calculation,
   as at convert.py:447-453, 533-544 *)
Definition with_out {T} (d : T) (moves : res (option (list Z * list Z))) (out : grid T) (calc : res (lgrid T)) : res (grid T) :=
  rbind moves (fun moves =>
  rbind (view_axes moves (List.length (gshape out))) (fun order =>
  rbind calc (fun g => write_view d order out (lg_val g)))).

(* core/prepare.py:342-360 xprepare_out_for_resample_data *)
Definition moves_data (p : xparams) (axis : nat) (to_end : bool) (x : xarr) : res (option (list Z * list Z)) :=
  if to_end then Ok None
  else rbind (get_axes p (Some (x_dims x))) (fun ma => rbind (axes_last_of (xp_ndim p)) (fun last =>
       rbind (of_opt EType (xp_ndim p)) (fun m => Ok (Some (Z.of_nat axis :: ma, (- (m + 1))%Z :: last))))).
(* core/prepare.py:295-312 xprepare_out_for_transform *)
Definition moves_transform (p : xparams) (to_end : bool) (x : xarr) : res (option (list Z * list Z)) :=
  if to_end then Ok None
  else rbind (get_axes p (Some (x_dims x))) (fun ma => rbind (axes_last_of (xp_ndim p)) (fun last => Ok (Some (ma, last)))).
(* core/prepare.py:260-292 xprepare_out_for_reduce_data *)
Definition moves_reduce (p : xparams) (ds : list sname) (keepdims to_end : bool) (x : xarr) : res (option (list Z * list Z)) :=
  if to_end then Ok None
  else if keepdims
  then rbind (mapR (get_axis_num (x_dims x)) ds) (fun a => rbind (get_axes p (Some (x_dims x))) (fun ma =>
       rbind (of_opt EType (xp_ndim p)) (fun m => Ok (Some (map Z.of_nat a ++ ma, axes_last (List.length ds + Z.to_nat m))))))
  else rbind (iter_dims p) (fun md => rbind (mapR (get_axis_num (filter (fun n => negb (smem n ds)) (x_dims x))) md) (fun a =>
       rbind (axes_last_of (xp_ndim p)) (fun last => Ok (Some (map Z.of_nat a, last))))).
(* core/prepare.py:315-339 xprepare_out_for_resample_vals *)
Definition moves_vals (p : xparams) (d : sname) (to_end : bool) (x : xarr) : res (option (list Z * list Z)) :=
  if to_end then Ok None
  else rbind (get_axis_num (x_dims x) d) (fun a => rbind (of_opt EType (xp_ndim p)) (fun m =>
       let axis_neg := positive_to_negative_index (Z.of_nat a) (Z.of_nat (List.length (x_dims x))) in
       Ok (Some ([axis_neg - m], [- (m + 1)])%Z))).
(* the axis and the name chosen by axis= or dim=, as at convert.py:433 *)
Definition chosen_axis (p : xparams) (axis : marg axis_arg) (dim : marg sname) (x : xarr) : res (nat * sname) :=
  select_axis_dim p (XArr (x_dims x)) axis dim Missing Missing false.

(* the result before transposing is that with axes_to_end=True *)
Section OutData.
  Context {A V : Type} (K : pusher A V) (P : packer A).

  (* out= of functions that act along one dimension, as at convert.py:447-453 *)
  Definition along_out {T} (dflt : T) (p : xparams) (axis : marg axis_arg) (dim : marg sname) (to_end : bool) (x : xarr) (out : grid T) (calc : res (lgrid T)) : res (grid T) :=
    with_out dflt (rbind (chosen_axis p axis dim x) (fun '(a, _) => moves_data p a to_end x)) out calc.

  (* convert.py:438-478 *)
  Definition x_cumulative_out (p : xparams) (inverse : bool) (axis : marg axis_arg) (dim : marg sname) (to_end : bool) (x : xarr) (out : grid Qc) : res (grid Qc) :=
    along_out 0%Qc p axis dim to_end x out (x_cumulative K P p inverse axis dim true x).
  (* resample/resample.py:230-276 *)
  Definition x_resample_data_out (p : xparams) (freq : xop) (rep_dim : sname) (axis : marg axis_arg) (dim : marg sname) (to_end : bool) (x : xarr) (out : grid Qc) : res (grid Qc) :=
    along_out 0%Qc p axis dim to_end x out (x_resample_data K P p freq rep_dim axis dim true x).
  (* an array with n rows along axis c: those of g, then rows of d, as out.fill(0.0)
     leaves them, reduction.py:1081-1097 *)
  Definition more_rows {T} (d : T) (c n : nat) (g : grid T) : grid T :=
    gtabulate (upd (gshape g) c n) (fun i => if Nat.ltb (nth c i 0) (nth c (gshape g) 0) then gget d g i else d).
  (* reduction.py:979-1025, 1072-1097, _lib/indexed.py:26-60: the
     number of groups is that of out (axis ndim - 1 - mom_ndim of the calculation), whose
     entries are set to zero first; too few groups are an AssertionError of the kernel
     (after out was changed; not modelled), reported after shapes that do not fit *)
  Definition grouped_into {T} (d : T) (p : xparams) (moves : res (option (list Z * list Z))) (out : grid T) (calc : res (lgrid T)) : res (grid T) :=
    rbind moves (fun moves =>
    rbind (view_axes moves (List.length (gshape out))) (fun order =>
    rbind calc (fun r =>
    let m := match xp_ndim p with Some m => Z.to_nat m | None => 0 end in
    let c := List.length (lg_dims r) - 1 - m in
    let n := nth c (map (fun a => nth a (gshape out) 0) order) 0 in
    rbind (write_view d order out (more_rows d c n (lg_val r))) (fun o =>
    if Nat.ltb n (nth c (gshape (lg_val r)) 0) then Raise EAssert else Ok o)))).
  (* reduction.py:979-1025 *)
  Definition x_reduce_data_grouped_out (p : xparams) (by_ : list Z) (group_dim : option sname) (axis : marg axis_arg) (dim : marg sname) (to_end : bool) (x : xarr) (out : grid Qc) : res (grid Qc) :=
    grouped_into 0%Qc p (rbind (chosen_axis p axis dim x) (fun '(a, _) => moves_data p a to_end x)) out (x_reduce_data_grouped K P p by_ group_dim axis dim true x).
  (* reduction.py:1402-1468 *)
  Definition x_reduce_data_indexed_out (p : xparams) (index start end_ : list Z) (scale : option (list Qc)) (group_dim : option sname) (axis : marg axis_arg) (dim : marg sname) (to_end : bool)
      (x : xarr) (out : grid Qc) : res (grid Qc) :=
    along_out 0%Qc p axis dim to_end x out (x_reduce_data_indexed K P p index start end_ scale group_dim axis dim true x).
  (* resample/resample.py:829-863 *)
  Definition x_jackknife_data_out (p : xparams) (data_reduced : option (xop * option (list Z))) (rep_dim : option sname) (axis : marg axis_arg) (dim : marg sname) (to_end : bool)
      (x : xarr) (out : grid Qc) : res (grid Qc) :=
    along_out 0%Qc p axis dim to_end x out (x_jackknife_data K P p data_reduced rep_dim axis dim true x).
  (* rolling.py:1003-1052 *)
  Definition x_rolling_exp_data_out (p : xparams) (alpha : xop) (alpha_axis : option axis_arg) (adjust : bool) (min_periods : option Z) (zero : bool) (axis : marg axis_arg) (dim : marg sname)
      (to_end : bool) (x : xarr) (out : grid (option Qc)) : res (grid (option Qc)) :=
    along_out None p axis dim to_end x out (x_rolling_exp_data K P p alpha alpha_axis adjust min_periods zero axis dim true x).

  (* rolling.py:298-308 _pad_along_axis of a DataArray *)
  Definition x_pad (a pad : nat) (x : xarr) : xarr := XA (x_dims x) (pad_along a pad (x_val x)).
  (* rolling.py:440-480, 529-574: the array written to has the length of the padded data
     along the dimension, which is axis number ndim - 1 - mom_ndim of the calculation;
     its last rows are the result *)
  Definition x_rolling_data_out (p : xparams) (window : Z) (min_periods : option Z) (center zero : bool) (axis : marg axis_arg) (dim : marg sname) (to_end : bool)
      (x : xarr) (out : grid (option Qc)) : res (grid (option Qc)) :=
    along_out None p axis dim to_end x out
      (rbind (x_rolling_data K P p window min_periods center zero axis dim true x) (fun r =>
       if center then
         let pad := Z.to_nat (- center_shift window) in
         rbind (chosen_axis p axis dim x) (fun '(a, _) =>
         rbind (x_rolling_data K P p window min_periods false false axis dim true (x_pad a pad x)) (fun full =>
         let c := List.length (lg_dims r) - 1 - mom_ndim P in
         Ok (LG (lg_dims r) (gtabulate (gshape (lg_val full)) (fun i =>
               if Nat.ltb (nth c i 0) pad then gget None (lg_val full) i
               else gget None (lg_val r) (firstn c i ++ (nth c i 0 - pad)%nat :: skipn (S c) i))))))
       else Ok r)).

  (* reduction.py:487-541; with no dimension to reduce out is not used, reduction.py:593-594 *)
  Definition x_reduce_data_out (p : xparams) (axis : marg (list axis_arg)) (dim : marg dims_arg) (keepdims to_end : bool) (x : xarr) (out : grid Qc) : res (grid Qc) :=
    rbind (select_axis_dim_mult p (XArr (x_dims x)) axis dim Missing Missing false) (fun '(_, ds) =>
    match ds with
    | [] => rmap (fun _ => out) (x_reduce_data K P p axis dim keepdims true x)
    | _ => with_out 0%Qc (moves_reduce p ds keepdims to_end x) out (x_reduce_data K P p axis dim keepdims true x)
    end).
End OutData.

(* convert.py:226-257 *)
Definition x_moments_type_out (nmax : nat) (to : string) (p : xparams) (to_end order : bool) (x : xarr) (out : grid Qc) : res (grid Qc) :=
  with_out 0%Qc (moves_transform p to_end x) out (rmap (fun y => LG (x_dims y) (to_grid (x_val y))) (x_moments_type nmax to p true order x)).

Section OutVals.
  Context {A V : Type} (K : pusher A V) (P : packer A) (R : reader V).

  (* reduction.py:230-252: out is passed on *)
  Definition x_reduce_vals_into (p : xparams) (axis : marg axis_arg) (dim : marg sname) (x : xarr) (w : xop) (y : list xop) (out : grid Qc) : res (grid Qc) :=
    with_out 0%Qc (Ok None) out (x_reduce_vals K P R p axis dim x w y).
  (* out= of functions of values that act along one dimension, as at
     resample/resample.py:515-523; the dimension is chosen
     as in xprepare_values, core/prepare.py:178-250 *)
  Definition along_vals_out {T} (dflt : T) (p : xparams) (axis : marg axis_arg) (dim : marg sname) (to_end : bool) (x : xarr) (out : grid T) (calc : res (lgrid T)) : res (grid T) :=
    with_out dflt (rbind (chosen_axis default_x_params axis dim x) (fun '(_, d) => moves_vals p d to_end x)) out calc.
  (* resample/resample.py:499-545 *)
  Definition x_resample_vals_into (p : xparams) (freq : xop) (rep_dim : sname) (axis : marg axis_arg) (dim : marg sname) (to_end : bool) (x : xarr) (w : xop) (y : list xop) (out : grid Qc) : res (grid Qc) :=
    along_vals_out 0%Qc p axis dim to_end x out (x_resample_vals K P R p freq rep_dim axis dim true x w y).
  (* resample/resample.py:1112-1150 *)
  Definition x_jackknife_vals_out (p : xparams) (data_reduced : option xop) (rep_dim : option sname) (axis : marg axis_arg) (dim : marg sname) (to_end : bool) (x : xarr) (w : xop) (y : list xop)
      (out : grid Qc) : res (grid Qc) :=
    along_vals_out 0%Qc p axis dim to_end x out (x_jackknife_vals K P R p data_reduced rep_dim axis dim true x w y).
  (* rolling.py:712-752, center=False *)
  Definition x_rolling_vals_into (p : xparams) (window : Z) (min_periods : option Z) (zero : bool) (axis : marg axis_arg) (dim : marg sname) (to_end : bool) (x : xarr) (w : xop) (y : list xop)
      (out : grid (option Qc)) : res (grid (option Qc)) :=
    along_vals_out None p axis dim to_end x out (x_rolling_vals K P R p window min_periods false zero axis dim true x w y).
  (* rolling.py:1311-1355 *)
  Definition x_rolling_exp_vals_into (p : xparams) (alpha : xop) (adjust : bool) (min_periods : option Z) (zero : bool) (axis : marg axis_arg) (dim : marg sname) (to_end : bool)
      (x : xarr) (w : xop) (y : list xop) (out : grid (option Qc)) : res (grid (option Qc)) :=
    along_vals_out None p axis dim to_end x out (x_rolling_exp_vals K P R p alpha adjust min_periods zero axis dim true x w y).
End OutVals.

(* the sizes of the last axes of out, those of the moments; reduction.py:305-324 *)
Definition out_moments {T} (p : xparams) (out : grid T) : list nat :=
  let m := match xp_ndim p with Some m => Z.to_nat m | None => 0 end in skipn (List.length (gshape out) - m) (gshape out).
(* Functions of values: the kernels (_lib/push.py:34-57, _lib/resample.py:90-122,
   _lib/rolling.py:58-110, 122-190) add to out, and their order is the size of its moment axes, whatever mom= says (core/prepare.py:363-396,
   where mom_shape is used without out only).  KK and PP are the kernels by moment
   sizes; sizes below 2 (not modelled) make the kernels write outside of out. *)
Section OutOrder.
  Context {A V : Type} (KK : list nat -> pusher A V) (PP : list nat -> packer A) (R : reader V).

  (* reduction.py:230-252, 279-328 *)
  Definition x_reduce_vals_out (mom : list nat) (p : xparams) (axis : marg axis_arg) (dim : marg sname) (x : xarr) (w : xop) (y : list xop) (out : grid Qc) : res (grid Qc) :=
    let s := out_moments p out in x_reduce_vals_into (KK s) (PP s) R p axis dim x w y out.
  (* resample/resample.py:499-545, 586-640 *)
  Definition x_resample_vals_out (mom : list nat) (p : xparams) (freq : xop) (rep_dim : sname) (axis : marg axis_arg) (dim : marg sname) (to_end : bool) (x : xarr) (w : xop) (y : list xop) (out : grid Qc) : res (grid Qc) :=
    let s := out_moments p out in x_resample_vals_into (KK s) (PP s) R p freq rep_dim axis dim to_end x w y out.
  (* rolling.py:712-752, 778-845, center=False *)
  Definition x_rolling_vals_out (mom : list nat) (p : xparams) (window : Z) (min_periods : option Z) (zero : bool) (axis : marg axis_arg) (dim : marg sname) (to_end : bool) (x : xarr) (w : xop) (y : list xop)
      (out : grid (option Qc)) : res (grid (option Qc)) :=
    let s := out_moments p out in x_rolling_vals_into (KK s) (PP s) R p window min_periods zero axis dim to_end x w y out.
  (* rolling.py:1311-1355, 1383-1441 *)
  Definition x_rolling_exp_vals_out (mom : list nat) (p : xparams) (alpha : xop) (adjust : bool) (min_periods : option Z) (zero : bool) (axis : marg axis_arg) (dim : marg sname) (to_end : bool)
      (x : xarr) (w : xop) (y : list xop) (out : grid (option Qc)) : res (grid (option Qc)) :=
    let s := out_moments p out in x_rolling_exp_vals_into (KK s) (PP s) R p alpha adjust min_periods zero axis dim to_end x w y out.
End OutOrder.
