(* Model of the methods of CentralMomentsData that change the dimensions of a DataArray:
   wrapper/wrap_xr.py:913-956 (to_dataset), 958-996 (to_dataarray), 1082-1163 (stack),
   1165-1199 (unstack), 1392-1427 (isel).

   All but to_dataset and to_dataarray are the method of xarray of the same name inside
   pipe (wrapper/wrap_abc.py:525-592).  Arrays have no coordinates: the labels of a
   dimension and the index that stack makes are arguments here. *)
From Coq Require Import String.
From Verif Require Import Base ModelPush ModelKernels ModelIndex ModelAxes ModelParams ModelWrap ModelNd ModelLabel ModelDataset.
Local Open Scope string_scope.
Local Open Scope nat_scope.

(* ---- stack and unstack ------------------------------------------------------------------ *)

(* xarray.DataArray.stack of the dimensions ds to the new dimension z: they are moved to
   the end and reshaped to one.  A dimension that is not there is a KeyError
   (self.sizes[d] of Dataset.stack), an existing z a ValueError.  The empty list ds and the
   index of z are not modelled.
   [called by pipe at wrap_xr.py:1155] *)
Definition x_stack (z : sname) (ds : list sname) (x : xarr) : res xarr :=
  if negb (forallb (fun d => smem d (x_dims x)) ds) then Raise EKey
  else if smem z (x_dims x) then Raise EValue
  else
    let other := filter (fun d => negb (smem d ds)) (x_dims x) in
    rbind (x_transpose (map Some (other ++ ds)) x) (fun y =>
    rbind (np_reshape (map Z.of_nat (firstn (List.length other) (x_shape y)) ++ [(-1)%Z]) (x_val y)) (fun t =>
    Ok (XA (other ++ [z]) t))).
(* wrap_xr.py:1082-1163 *)
Definition cx_stack (c : cmdata) (z : sname) (ds : list sname) : res cmdata := cx_pipe c (x_stack z ds) true false.
(* the index of a stacked dimension: names and sizes of the levels, and for each position
   the place in the levels (pandas.MultiIndex), used at wrap_xr.py:1190 *)
Record xindex := XI { xi_names : list sname; xi_sizes : list nat; xi_codes : list (list nat) }.
(* the index that stack makes of the dimensions ds of x, wrap_xr.py:1155 *)
Definition stack_index (ds : list sname) (x : xarr) : res xindex :=
  rbind (mapR (fun d => of_opt EKey (lookup d (combine (x_dims x) (x_shape x)))) ds) (fun sz => Ok (XI ds sz (all_idx sz))).
(* xarray.DataArray.unstack of the dimension z with the index ix (Variable._unstack_once):
   z is moved to the end and replaced by the levels; the entry at a place of the levels is
   the one whose code it is.  Places without code, which would be filled with fill_value,
   and repeated codes are not modelled (EAssert).
   [called by pipe at wrap_xr.py:1190] *)
Definition x_unstack (z : sname) (ix : xindex) (x : xarr) : res xarr :=
  if negb (smem z (x_dims x)) then Raise EValue
  else
    let other := filter (fun d => negb (String.eqb d z)) (x_dims x) in
    if existsb (fun n => smem n other) (xi_names ix) then Raise EValue
    else
      rbind (x_transpose (map Some (other ++ [z])) x) (fun y =>
      let where_is i := position (fun a b => if list_eq_dec Nat.eq_dec a b then true else false) i (xi_codes ix) in
      let os := firstn (List.length other) (x_shape y) in
      if negb (Nat.eqb (List.length (xi_codes ix)) (nth (List.length other) (x_shape y) 0)) then Raise EValue
      else if negb (forallb (fun i => where_is i <? List.length (xi_codes ix)) (all_idx (xi_sizes ix))) then Raise EAssert
      else Ok (XA (other ++ xi_names ix) (tabulate (os ++ xi_sizes ix) (fun idx =>
             tget (x_val y) (firstn (List.length other) idx ++ [where_is (skipn (List.length other) idx)]))))).
(* wrap_xr.py:1165-1199 *)
Definition cx_unstack (c : cmdata) (z : sname) (ix : xindex) : res cmdata := cx_pipe c (x_unstack z ix) true false.

(* ---- isel ------------------------------------------------------------------------------- *)

(* an indexer: a number, a list of numbers or a slice, argument of wrap_xr.py:1392 *)
Inductive ikey := IAt (i : Z) | IList (l : list Z) | ISlice (start stop step : option Z).
(* the positions an indexer takes from an axis of length n; numbers outside are an
   IndexError [numpy indexing, called at wrap_xr.py:1417] *)
Definition isel_key (k : ikey) (n : nat) : res sel :=
  match k with
  | IAt i => rmap SFix (index_int i n)
  | IList l => rmap STake (mapR (fun i => index_int i n) l)
  | ISlice a b c => rmap STake (slice_list n a b c)
  end.
(* the indexer of dimension d, wrap_xr.py:1394 *)
Definition isel_of (ix : list (sname * ikey)) (d : sname) : ikey :=
  match find (fun p => String.eqb (fst p) d) ix with Some p => snd p | None => ISlice None None None end.
(* xarray.DataArray.isel, missing_dims="raise": an unknown dimension is a ValueError; lists
   select along their own dimensions (orthogonal indexing).
   [called by pipe at wrap_xr.py:1417] *)
Definition x_isel (ix : list (sname * ikey)) (x : xarr) : res xarr :=
  if negb (forallb (fun p => smem (fst p) (x_dims x)) ix) then Raise EValue
  else
    rbind (mapR (fun p => isel_key (isel_of ix (fst p)) (snd p)) (combine (x_dims x) (x_shape x))) (fun r =>
    Ok (XA (kept_dims r (x_dims x)) (tabulate (sel_shape r) (fun idx => tget (x_val x) (sel_source r idx))))).
(* wrap_xr.py:1392-1427 *)
Definition cx_isel (c : cmdata) (ix : list (sname * ikey)) : res cmdata := cx_pipe c (x_isel ix) false false.

(* ---- to_dataset and to_dataarray -------------------------------------------------------- *)

(* Dataset.transpose(..., *last): a dimension that no variable has is a ValueError
   [called at wrap_xr.py:948-950] *)
Definition s_transpose (last : list sname) (s : xset) : res xset :=
  rbind (ds_dims s) (fun all =>
  rbind (infix_dims (None :: map Some last) all) (fun _ =>
  mapR (fun v => rmap (pair (fst v)) (x_transpose (None :: map Some (filter (fun n => smem n (x_dims (snd v))) last)) (snd v))) s)).
(* DataArray.to_dataset(dim): a variable for each position along d, called by the label of
   the position; an unknown dimension is a TypeError
   [called at wrap_xr.py:948-950] *)
Definition x_split (d : sname) (label : nat -> sname) (x : xarr) : res xset :=
  if negb (smem d (x_dims x)) then Raise EType
  else
    rbind (of_opt EKey (lookup d (combine (x_dims x) (x_shape x)))) (fun n =>
    mapR (fun i => rmap (pair (label i)) (x_isel [(d, IAt (Z.of_nat i))] x)) (seq 0 n)).
(* wrap_xr.py:913-956  to_dataset(dim=d) of an object that holds a DataArray; the new object
   is not checked (fastpath) *)
Definition cx_to_dataset (c : cmdata) (d : sname) (label : nat -> sname) : res xset :=
  rbind (x_split d label (cx_obj c)) (fun s => rbind (iter_dims (cx_params c)) (fun m => s_transpose m s)).
(* wrap_xr.py:913-956  to_dataset(name=name): one variable *)
Definition cx_to_dataset_one (c : cmdata) (name : sname) : res xset :=
  rbind (iter_dims (cx_params c)) (fun m => s_transpose m [(name, cx_obj c)]).
(* Variable.set_dims: repeated along the dimensions it does not have, in the order of sz
   [inside Dataset.to_array, called at wrap_xr.py:991] *)
Definition x_set_dims (sz : list (sname * nat)) (x : xarr) : xarr :=
  XA (map fst sz) (tabulate (map snd sz) (fun idx =>
    tget (x_val x) (map (fun d => nth (position String.eqb d (map fst sz)) idx 0) (x_dims x)))).
(* Dataset.to_array(dim): the variables, broadcast against each other, along a new first
   dimension; no variable is a ValueError.  An existing dimension dim is not modelled
   (ValueError). [called at wrap_xr.py:991] *)
Definition s_to_array (dim : sname) (s : xset) : res xarr :=
  rbind (ds_sizes s) (fun sz =>
  if (match s with [] => true | _ => false end || smem dim (map fst sz))%bool then Raise EValue
  else Ok (XA (dim :: map fst sz) (Tensor (List.length s :: map snd sz) (flat_map (fun v => tdata (x_val (x_set_dims sz (snd v)))) s)))).
(* wrap_xr.py:958-996  to_dataarray(dim) of an object that holds a Dataset; the new object is
   not checked (fastpath) *)
Definition cs_to_dataarray (p : xparams) (dim : sname) (s : xset) : res cmdata :=
  rbind (s_to_array dim s) (fun x => rbind (iter_dims p) (fun m => rbind (x_transpose (None :: map Some m) x) (fun y => Ok (CX y p)))).
