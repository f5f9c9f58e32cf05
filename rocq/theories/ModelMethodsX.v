(* Model of the methods of CentralMomentsData that push onto the object, reduce it
   or make new ones, for a wrapped DataArray: wrapper/wrap_xr.py:367-608, 613-853,
   858-910, 1392-1427, wrapper/wrap_abc.py:486-512, 755-810, 866-1060.

   An object is its labelled array and its moment parameters; methods that act in
   place return the object after the call.  Datasets, coordinates (coords_policy=
   chooses the grouping function, nothing else), attributes, dask, dtype, casting,
   order=, parallel= and out= are not modelled, nor is the array after a call that
   raised. *)
From Coq Require Import String.
From Verif Require Import Base ModelPush ModelKernels ModelIndex ModelAxes ModelState ModelParams ModelWrap ModelNd ModelSampler ModelLabel ModelMethods ModelConstruct.
Local Open Scope string_scope.
Local Open Scope nat_scope.

(* "_dummy123", the name of the samples of arrays without names, wrap_xr.py:466, 578 *)
Definition dummy_dim : sname := "_dummy123".
(* core/validate.py:199-208 validate_axis *)
Definition given_axis (axis : marg axis_arg) : res axis_arg := match axis with Val a => Ok a | _ => Raise EType end.

Section LabelledMethods.
  Context {A V : Type} (K : pusher A V) (P : packer A) (R : reader V).
  (* as in ModelMethods: numba and numpy decide, not the code at wrap_xr.py:388-407 *)
  Context (stretch : bool).

  (* self._obj = ...; return self
     [wrap_xr.py:409-421, 469-484, 520-534, 593-608] *)
  Definition cx_with (c : cmdata) (r : res (lgrid Qc)) : res cmdata := rmap (fun g => CX (to_xarr g) (cx_params c)) r.
  (* the function inside apply_ufunc gets the array of the object first and returns it
     [wrap_xr.py:388-407, 444-451, 507-517, 580-590] *)
  Definition x_update (c : cmdata) (md : list sname) (args : list (xop * list sname)) (f : tensor -> list tensor -> res tensor) : res cmdata :=
    cx_with c (apply_ufunc ((Labelled (cx_obj c), md) :: args) md [] (fun ts => rmap to_grid (f (arg 0 ts) (tl ts)))).

  (* wrap_xr.py:386-407; scale is not handed to apply_ufunc *)
  Definition update_data (scale : option tensor) (out : tensor) (ts : list tensor) : res tensor :=
    match scale with
    | None => gufunc_update K P stretch [last_core (arg 0 ts) (pk_shape P)] out (axes_last (mom_ndim P))
                (fun cur l => of_opt EZeroDiv (p_push_data K (pk_pack P (acc l 0)) cur))
    | Some s => gufunc_update K P stretch [last_core (arg 0 ts) (pk_shape P); last_core s []] out (axes_last (mom_ndim P))
                  (fun cur l => of_opt EZeroDiv (p_push_data_scale K (pk_pack P (acc l 0)) (acc l 1 []) cur))
    end.
  (* wrap_xr.py:368-421 push_data *)
  Definition cx_push_data (c : cmdata) (data : xop) (scale : option tensor) : res cmdata :=
    rbind (iter_dims (cx_params c)) (fun md => x_update c md [(data, md)] (update_data scale)).

  (* wrap_xr.py:444-451: samples are the axis in front of the moments *)
  Definition update_datas (out : tensor) (ts : list tensor) : res tensor :=
    let t := arg 0 ts in
    let n := nth (tndim t - S (mom_ndim P)) (tshape t) 0 in
    gufunc_update K P stretch [last_core t (n :: pk_shape P)] out (axes_last (mom_ndim P))
      (fun cur l => of_opt EZeroDiv (reduce_data_into K (core_rows P n (acc l 0)) cur)).
  (* wrap_xr.py:423-484 push_datas *)
  Definition cx_push_datas (c : cmdata) (axis : marg axis_arg) (dim : marg sname) (mom_axes : option ints_arg) (datas : xop) : res cmdata :=
    rbind (iter_dims (cx_params c)) (fun md =>
    rbind (match datas with
           | Labelled z => rbind (select_axis_dim (cx_params c) (XArr (x_dims z)) axis dim Missing Missing false) (fun '(_, d) => Ok (d, datas))
           | Plain t =>
               rbind (array_factory false MPNone (xp_ndim (cx_params c)) mom_axes None) (fun p =>
               rbind (iter_axes p) (fun mom =>
               rbind (given_axis axis) (fun ax =>
               rbind (prepare_data ax mom true t) (fun '(_, _, t) => Ok (dummy_dim, Plain t)))))
           end) (fun '(d, datas) =>
    x_update c md [(datas, d :: md)] update_datas)).

  (* wrap_xr.py:507-517 *)
  Definition update_val (out : tensor) (ts : list tensor) : res tensor :=
    gufunc_update K P stretch (map (fun t => last_core t []) ts) out (axes_last (mom_ndim P))
      (fun cur l => of_opt EZeroDiv (p_push_val K (rd_val R (acc l 0 [] :: map (fun y => y []) (skipn 2 l))) (acc l 1 []) cur)).
  (* wrap_xr.py:486-534 push_val, wrap_abc.py:351-355 _check_y; weight None is the number 1 *)
  Definition cx_push_val (c : cmdata) (x w : xop) (y : list xop) : res cmdata :=
    if negb (Nat.eqb (S (List.length y)) (mom_ndim P)) then Raise EValue
    else rbind (iter_dims (cx_params c)) (fun md => x_update c md (map (fun o => (o, [])) (x :: w :: y)) update_val).

  (* wrap_xr.py:580-590 *)
  Definition update_vals (out : tensor) (ts : list tensor) : res tensor :=
    let x := arg 0 ts in
    let n := nth (tndim x - 1) (tshape x) 0 in
    gufunc_update K P stretch (map (fun t => last_core t [n]) ts) out (axes_last (mom_ndim P))
      (fun cur l => of_opt EZeroDiv (reduce_vals_into K (core_samples R n l) cur)).
  (* an array for np.asarray, core/prepare.py:148 *)
  Definition as_plain (o : xop) : tensor := match o with Labelled z => x_val z | Plain t => t end.
  (* wrap_xr.py:536-608 push_vals; weight None is the number 1 *)
  Definition cx_push_vals (c : cmdata) (axis : marg axis_arg) (dim : marg sname) (x w : xop) (y : list xop) : res cmdata :=
    rbind (iter_dims (cx_params c)) (fun md =>
    rbind (match x with
           | Labelled z => rmap (fun '(d, others) => (d, x :: others)) (xprepare_values (S (mom_ndim P)) axis dim z (w :: y))
           | Plain t =>
               if negb (Nat.eqb (S (List.length (w :: y))) (S (mom_ndim P))) then Raise EValue
               else
               rbind (given_axis axis) (fun ax =>
               rmap (fun '(_, (x, others)) => (dummy_dim, map Plain (x :: others))) (prepare_values (S (mom_ndim P)) ax true t (map as_plain (w :: y))))
           end) (fun '(d, xargs) =>
    x_update c md (map (fun o => (o, [d])) xargs) update_vals)).

  (* wrap_abc.py:486-492 _check_other of objects of the same class *)
  Definition cx_check_other (c other : cmdata) : res unit :=
    rbind (cx_mom_shape other) (fun s => rbind (cx_mom_shape c) (fun own => raise_if_wrong_mom_shape s own)).
  (* wrap_abc.py:494-502 __iadd__ and __add__ (of a copy) *)
  Definition cx_add (c other : cmdata) : res cmdata := rbind (cx_check_other c other) (fun _ => cx_push_data c (Labelled (cx_obj other)) None).
  (* wrap_abc.py:504-512 __isub__ and __sub__ (of a copy) *)
  Definition cx_sub (c other : cmdata) : res cmdata :=
    rbind (cx_check_other c other) (fun _ => cx_push_data c (Labelled (cx_obj other)) (Some (Tensor [] [(-(1))%Qc]))).

  (* wrap_xr.py:858-910 zeros without template=, wrap_np.py:1233-1253 to_x *)
  Definition cx_zeros (mom : ints_arg) (val_shape : list nat) (dims mom_dims : option dims_arg) : res cmdata :=
    rbind (c_zeros mom val_shape) (fun c => c_to_dataarray c dims mom_dims).

  (* dim argument of reduce as one name or several
     [wrap_xr.py:768-853, core/moment_params.py:527-631] *)
  Definition one_dim (dim : marg dims_arg) : res (marg sname) :=
    match dim with Val (DStr d) => Ok (Val d) | Missing => Ok Missing | PyNone => Ok PyNone | Val _ => Raise EKey end.
  (* the same for axis=, wrap_xr.py:768-853 *)
  Definition many_axes (axis : raxis) : marg (list axis_arg) :=
    match axis with RMissing => Missing | RNone => PyNone | ROne a => Val [a] | RMany l => Val l end.
  (* wrap_abc.py:1039-1060 _block_by *)
  Definition cx_block_by (c : cmdata) (block : Z) (axis : raxis) (dim : marg dims_arg) : res (list Z) :=
    rbind (axis_marg axis) (fun ax =>
    rbind (one_dim dim) (fun d =>
    rbind (select_ndat_dataarray (x_dims (cx_obj c)) (x_shape (cx_obj c)) ax d (x_as_arg (cx_params c)) None None None) (fun n =>
    block_by (Z.of_nat n) block "drop_last"))).
  (* the integers of by= as labels: negative ones are skipped, reduction.py:785-795 *)
  Definition int_labels (by_ : list Z) : list (option Z) := map Some by_.
  (* wrap_xr.py:768-853 reduce; by= an array of integers; first is whether
     coords_policy is "first" (the default) or "last".  axes_to_end is not passed on
     without groups, keepdims not with groups; _new_like makes no checks.  argsort is
     np.argsort, called at reduction.py:1168 *)
  Definition cx_reduce (argsort : list Z -> list nat) (c : cmdata) (axis : raxis) (dim : marg dims_arg) (by_ : option (list Z)) (block : option Z)
      (first : bool) (group_dim : option sname) (to_end keepdims : bool) : res cmdata :=
    let p := cx_params c in
    rbind (match by_, block with
           | None, Some b => rmap Some (cx_block_by c b axis dim)
           | _, _ => Ok by_
           end) (fun by_ =>
    cx_with c
      match by_ with
      | None => x_reduce_data K P p (many_axes axis) dim keepdims false (cx_obj c)
      | Some l =>
          rbind (axis_marg axis) (fun ax =>
          rbind (one_dim dim) (fun d =>
          if first then
            let '((_, index), (start, end_)) := factor_by_to_index Z.eqb Z.leb (fun v => (v <? 0)%Z) argsort (int_labels l) in
            x_reduce_data_indexed K P p index start end_ None group_dim ax d to_end (cx_obj c)
          else x_reduce_data_grouped K P p l group_dim ax d to_end (cx_obj c)))
      end).

  (* wrap_abc.py:755-810 cumulative: a DataArray *)
  Definition cx_cumulative (c : cmdata) (axis : marg axis_arg) (dim : marg sname) (to_end : bool) : res (lgrid Qc) :=
    x_cumulative K P (cx_params c) false axis dim to_end (cx_obj c).
  (* wrap_abc.py:866-965 resample_and_reduce with the frequencies of the sampler *)
  Definition cx_resample_and_reduce (c : cmdata) (freq : xop) (rep_dim : sname) (axis : marg axis_arg) (dim : marg sname) (to_end : bool) : res cmdata :=
    cx_with c (x_resample_data K P (cx_params c) freq rep_dim axis dim to_end (cx_obj c)).
  (* wrap_abc.py:968-1036 jackknife_and_reduce *)
  Definition cx_jackknife_and_reduce (c : cmdata) (data_reduced : option xop) (rep_dim : option sname) (axis : marg axis_arg) (dim : marg sname) (to_end : bool) : res cmdata :=
    cx_with c (x_jackknife_data K P (cx_params c) (option_map (fun r => (r, None)) data_reduced) rep_dim axis dim to_end (cx_obj c)).
End LabelledMethods.
