(* Model of the methods of CentralMomentsData for a wrapped Dataset: wrapper/wrap_xr.py:
   139-245 (dict views, iteration, selection of variables), 367-608 (pushes), 613-853
   (reduce), wrapper/wrap_abc.py:486-512 (sums), 755-810, 866-1036.

   An object is its Dataset and its moment parameters.  As in ModelDataset the variables
   have no coordinates and no attributes, and apply_ufunc_kwargs= is None.  Pushes call
   xr.apply_ufunc, which treats the variables one after another; the function inside
   writes into the array of the variable. *)
From Coq Require Import String.
From Verif Require Import Base ModelPush ModelKernels ModelIndex ModelAxes ModelState ModelParams ModelWrap ModelNd ModelSampler ModelLabel ModelMethods ModelConstruct ModelMethodsX ModelDataset.
Local Open Scope string_scope.
Local Open Scope nat_scope.

(* CentralMomentsData with a Dataset, wrap_xr.py:86-130 *)
Record csdata := CS { cs_obj : xset; cs_params : xparams }.
(* wrap_abc.py:135-138 mom_shape, core/moment_params.py:465-471 *)
Definition s_mom_shape (p : xparams) (s : xset) : res (list nat) :=
  match rbind (iter_dims p) (mapR (ds_size s)) with Ok l => Ok l | Raise _ => Raise EValue end.
(* core/xr_utils.py:160-162 contains_dims of a DataArray *)
Definition x_contains (ds : list sname) (x : xarr) : bool := forallb (fun n => smem n (x_dims x)) ds.

(* wrap_xr.py:139-159 as_dict *)
Definition cs_as_dict (c : csdata) : res (list (sname * cmdata)) :=
  rbind (iter_dims (cs_params c)) (fun md =>
  Ok (map (fun v => (fst v, CX (snd v) (cs_params c))) (filter (fun v => x_contains md (snd v)) (cs_obj c)))).
(* wrap_xr.py:161-175 items and keys, 189-200 iter *)
Definition cs_keys (c : csdata) : res (list sname) := rmap (map fst) (cs_as_dict c).
(* wrap_xr.py:225-247 __getitem__ with the name of a variable *)
Definition cs_getitem (c : csdata) (name : sname) : res cmdata :=
  rbind (of_opt EKey (get_var name (cs_obj c))) (fun x =>
  rbind (iter_dims (cs_params c)) (fun md =>
  if negb (x_contains md x) then Raise EValue
  else
  rbind (x_get_mom_shape (cs_params c) (x_dims x) (x_shape x)) (fun shape =>
  rbind (s_mom_shape (cs_params c) (cs_obj c)) (fun own =>
  rbind (raise_if_wrong_mom_shape shape own) (fun _ => Ok (CX x (cs_params c))))))).
(* wrap_xr.py:225-247 __getitem__ with a list of different names *)
Definition cs_getitems (c : csdata) (names : list sname) : res csdata :=
  rbind (mapR (fun n => rmap (pair n) (of_opt EKey (get_var n (cs_obj c)))) names) (fun s =>
  rbind (iter_dims (cs_params c)) (fun md =>
  rbind (ds_dims s) (fun dims =>
  if negb (forallb (fun n => smem n dims) md) then Raise EValue
  else
  rbind (s_mom_shape (cs_params c) s) (fun shape =>
  rbind (s_mom_shape (cs_params c) (cs_obj c)) (fun own =>
  rbind (raise_if_wrong_mom_shape shape own) (fun _ => Ok (CS s (cs_params c)))))))).

Section DatasetMethods.
  Context {A V : Type} (K : pusher A V) (P : packer A) (R : reader V).
  Context (stretch : bool).

  (* self._obj = ...; return self
     [wrap_xr.py:409-421, 469-484, 520-534, 593-608] *)
  Definition cs_with (c : csdata) (r : res (lset Qc)) : res csdata := rmap (fun l => CS (to_xset l) (cs_params c)) r.
  (* the function inside apply_ufunc gets the array of the variable first and returns it
     [wrap_xr.py:388-407, 444-451, 507-517, 580-590] *)
  Definition s_update (c : csdata) (md : list sname) (args : list (dop * list sname)) (f : tensor -> list tensor -> res tensor) : res csdata :=
    cs_with c (ds_apply (fun q => q) (cs_obj c) md args md [] (fun ts => rmap to_grid (f (arg 0 ts) (tl ts)))).

  (* wrap_xr.py:368-421 push_data *)
  Definition cs_push_data (c : csdata) (data : dop) (scale : option tensor) : res csdata :=
    rbind (iter_dims (cs_params c)) (fun md => s_update c md [(data, md)] (update_data K P stretch scale)).

  (* dimension and array of the samples, wrap_xr.py:453-467 *)
  Definition prepare_datas (p : xparams) (axis : marg axis_arg) (dim : marg sname) (mom_axes : option ints_arg) (datas : dop) : res (sname * dop) :=
    match datas with
    | DSet s => rbind (ds_dims s) (fun dims => rbind (select_axis_dim p (XSet dims) axis dim Missing Missing false) (fun '(_, d) => Ok (d, datas)))
    | DArr (Labelled z) => rbind (select_axis_dim p (XArr (x_dims z)) axis dim Missing Missing false) (fun '(_, d) => Ok (d, datas))
    | DArr (Plain t) =>
        rbind (array_factory false MPNone (xp_ndim p) mom_axes None) (fun q =>
        rbind (iter_axes q) (fun mom =>
        rbind (given_axis axis) (fun ax =>
        rbind (prepare_data ax mom true t) (fun '(_, _, t) => Ok (dummy_dim, DArr (Plain t))))))
    end.
  (* wrap_xr.py:423-484 push_datas *)
  Definition cs_push_datas (c : csdata) (axis : marg axis_arg) (dim : marg sname) (mom_axes : option ints_arg) (datas : dop) : res csdata :=
    rbind (iter_dims (cs_params c)) (fun md =>
    rbind (prepare_datas (cs_params c) axis dim mom_axes datas) (fun '(d, datas) =>
    s_update c md [(datas, d :: md)] (update_datas K P stretch))).

  (* wrap_xr.py:486-534 push_val, wrap_abc.py:351-355 _check_y; weight None is the number 1 *)
  Definition cs_push_val (c : csdata) (x w : dop) (y : list dop) : res csdata :=
    if negb (Nat.eqb (S (List.length y)) (mom_ndim P)) then Raise EValue
    else rbind (iter_dims (cs_params c)) (fun md => s_update c md (map (fun o => (o, [])) (x :: w :: y)) (update_val K P R stretch)).

  (* an argument beside an array: a TypeError for a Dataset; this check comes before the
     others here, core/prepare.py:155-157 *)
  Definition dop_plain (a : dop) : res tensor := match a with DSet _ => Raise EType | DArr o => Ok (as_plain o) end.
  (* core/prepare.py:178-250  xprepare_values_for_reduction of a DataArray when other
     arguments may be Datasets, as at wrap_xr.py:557-567 *)
  Definition arr_prepare_values (narrays : nat) (axis : marg axis_arg) (dim : marg sname) (x : xarr) (others : list dop) : res (sname * list dop) :=
    if negb (Nat.eqb (S (List.length others)) narrays) then Raise EValue
    else
    rbind (select_axis_dim default_x_params (XArr (x_dims x)) axis dim Missing Missing false) (fun '(a, d) =>
    rbind (sizes (x_dims x) (x_shape x) d) (fun n =>
    let axis_neg := positive_to_negative_index (Z.of_nat a) (Z.of_nat (List.length (x_dims x))) in
    rbind (mapR (fun o => match o with
                          | DArr (Plain t) => rmap (fun t => DArr (Plain t)) (prepare_secondary axis_neg n true t)
                          | _ => Ok o
                          end) others) (fun others' => Ok (d, others')))).
  (* dimension and arrays of the samples, wrap_xr.py:556-578 *)
  Definition prepare_vals (axis : marg axis_arg) (dim : marg sname) (x w : dop) (y : list dop) : res (sname * list dop) :=
    match x with
    | DSet s => rmap (fun '(d, others) => (d, x :: others)) (ds_prepare_values (S (mom_ndim P)) axis dim s (w :: y))
    | DArr (Labelled z) => rmap (fun '(d, others) => (d, x :: others)) (arr_prepare_values (S (mom_ndim P)) axis dim z (w :: y))
    | DArr (Plain t) =>
        if negb (Nat.eqb (S (List.length (w :: y))) (S (mom_ndim P))) then Raise EValue
        else
        rbind (given_axis axis) (fun ax =>
        rbind (mapR dop_plain (w :: y)) (fun others =>
        rmap (fun '(_, (x, others)) => (dummy_dim, map (fun t => DArr (Plain t)) (x :: others))) (prepare_values (S (mom_ndim P)) ax true t others)))
    end.
  (* wrap_xr.py:536-608 push_vals; weight None is the number 1 *)
  Definition cs_push_vals (c : csdata) (axis : marg axis_arg) (dim : marg sname) (x w : dop) (y : list dop) : res csdata :=
    rbind (iter_dims (cs_params c)) (fun md =>
    rbind (prepare_vals axis dim x w y) (fun '(d, xargs) =>
    s_update c md (map (fun o => (o, [d])) xargs) (update_vals K P R stretch))).

  (* wrap_abc.py:486-492 _check_other of objects of the same class *)
  Definition cs_check_other (c other : csdata) : res unit :=
    rbind (s_mom_shape (cs_params other) (cs_obj other)) (fun s =>
    rbind (s_mom_shape (cs_params c) (cs_obj c)) (fun own => raise_if_wrong_mom_shape s own)).
  (* wrap_abc.py:494-502 __iadd__ and __add__ (of a copy) *)
  Definition cs_add (c other : csdata) : res csdata := rbind (cs_check_other c other) (fun _ => cs_push_data c (DSet (cs_obj other)) None).
  (* wrap_abc.py:504-512 __isub__ and __sub__ (of a copy) *)
  Definition cs_sub (c other : csdata) : res csdata :=
    rbind (cs_check_other c other) (fun _ => cs_push_data c (DSet (cs_obj other)) (Some (Tensor [] [(-(1))%Qc]))).

  (* ---- the object after a call that raised -------------------------------------------- *)

  (* the array of a variable after its update: the new entries in the old order of axes.
     Dimensions that only the result has are new axes of the view, with length 1
     [views made by xr.apply_ufunc, called at wrap_xr.py:409-421] *)
  Definition written (x : xarr) (g : lgrid Qc) : xarr :=
    XA (x_dims x) (tabulate (x_shape x) (fun idx => gget 0%Qc (lg_val g) (map (fun n => nth (position String.eqb n (x_dims x)) idx 0) (lg_dims g)))).
  (* the variables in the order of the Dataset until one raises; an error inside the
     kernel may leave some entries of that variable written, which is not modelled
     [inside xr.apply_ufunc, called at wrap_xr.py:409-421] *)
  Fixpoint run_vars (f : sname * xarr -> res (lgrid Qc)) (s : xset) : xset * option err :=
    match s with
    | [] => ([], None)
    | v :: l =>
        match f v with
        | Raise e => (s, Some e)
        | Ok g => let '(l', e) := run_vars f l in ((fst v, written (snd v) g) :: l', e)
        end
    end.
  (* wrap_xr.py:368-421 push_data: the object that the caller holds after the call, and
     whether the call raised.  align and the comparison of names come before any variable *)
  Definition cs_after_push_data (c : csdata) (data : dop) (scale : option tensor) : csdata * option err :=
    match cs_push_data c data scale with
    | Ok c' => (c', None)
    | Raise e =>
        match rbind (iter_dims (cs_params c)) (fun md => rbind (align [] [DSet (cs_obj c); data]) (fun _ =>
                if negb (same_keys (cs_obj c) data) then Raise EValue else Ok md)) with
        | Raise _ => (c, Some e)
        | Ok md => (CS (fst (run_vars (apply_var (fun q => q) md [(data, md)] md [] (fun ts => rmap to_grid (update_data K P stretch scale (arg 0 ts) (tl ts)))) (cs_obj c))) (cs_params c), Some e)
        end
    end.

  (* ---- reductions ---------------------------------------------------------------------- *)

  (* resample/sampler.py:607-680 of a Dataset, wrap_abc.py:1039-1060 _block_by *)
  Definition cs_block_by (c : csdata) (block : Z) (axis : raxis) (dim : marg dims_arg) : res (list Z) :=
    rbind (axis_marg axis) (fun ax =>
    rbind (one_dim dim) (fun d =>
    rbind (ds_dims (cs_obj c)) (fun dims =>
    rbind (select_axis_dim (cs_params c) (XSet dims) ax d Missing Missing false) (fun '(_, d) =>
    rbind (ds_size (cs_obj c) d) (fun n => block_by (Z.of_nat n) block "drop_last"))))).
  (* wrap_xr.py:768-853 reduce; by= an array of integers; first is whether
     coords_policy is "first" (the default) or "last".  axes_to_end is not passed on
     without groups, keepdims and use_map not with groups; argsort is np.argsort *)
  Definition cs_reduce (argsort : list Z -> list nat) (c : csdata) (axis : raxis) (dim : marg dims_arg) (by_ : option (list Z)) (block : option Z)
      (first : bool) (group_dim : option sname) (to_end keepdims : bool) (use_map : option bool) : res csdata :=
    let p := cs_params c in
    rbind (match by_, block with
           | None, Some b => rmap Some (cs_block_by c b axis dim)
           | _, _ => Ok by_
           end) (fun by_ =>
    cs_with c
      match by_ with
      | None => ds_reduce_data K P p (many_axes axis) dim keepdims false use_map (cs_obj c)
      | Some l =>
          rbind (axis_marg axis) (fun ax =>
          rbind (one_dim dim) (fun d =>
          if first then
            let '((_, index), (start, end_)) := factor_by_to_index Z.eqb Z.leb (fun v => (v <? 0)%Z) argsort (int_labels l) in
            ds_reduce_data_indexed K P p index start end_ None group_dim ax d to_end (cs_obj c)
          else ds_reduce_data_grouped K P p l group_dim ax d to_end (cs_obj c)))
      end).
  (* wrap_abc.py:755-810 cumulative: a Dataset *)
  Definition cs_cumulative (c : csdata) (axis : marg axis_arg) (dim : marg sname) (to_end : bool) : res (lset Qc) :=
    ds_cumulative K P (cs_params c) false axis dim to_end (cs_obj c).
  (* wrap_abc.py:866-965 resample_and_reduce with the frequencies of the sampler *)
  Definition cs_resample_and_reduce (c : csdata) (freq : dop) (rep_dim : sname) (axis : marg axis_arg) (dim : marg sname) (to_end : bool) : res csdata :=
    cs_with c (ds_resample_data K P (cs_params c) freq rep_dim axis dim to_end (cs_obj c)).
  (* wrap_abc.py:968-1036 jackknife_and_reduce *)
  Definition cs_jackknife_and_reduce (c : csdata) (data_reduced : option dop) (rep_dim : option sname) (axis : marg axis_arg) (dim : marg sname) (to_end : bool) : res csdata :=
    cs_with c (ds_jackknife_data K P (cs_params c) (option_map (fun r => (r, None)) data_reduced) rep_dim axis dim to_end (cs_obj c)).
End DatasetMethods.
