(* Model of the wrapper classes as containers: wrapper/wrap_np.py
   (CentralMomentsArray), wrapper/wrap_abc.py, wrapper/wrap_xr.py
   (CentralMomentsData over a DataArray), convert.py:905-1058 (concat).

   Arrays are those of ModelAxes; a labelled array adds dimension names.  NumPy
   and xarray operations the wrappers call (indexing, reshape, take,
   concatenate, transpose, concat) are modelled by what they do to shapes and
   entries.  dtype, memory order, copies, coordinates, attributes and Dataset
   are not modelled. *)
From Coq Require Import String.
From Verif Require Import Base ModelKernels ModelIndex ModelAxes ModelState ModelParams.
Local Open Scope string_scope.

(* ---- NumPy: basic indexing ------------------------------------------------------ *)

(* one entry of the index tuple: an integer, start:stop:step, np.newaxis, Ellipsis
   [numpy indexing, called at wrap_np.py:191-203] *)
Inductive key := KInt (i : Z) | KSlice (start stop step : option Z) | KNew | KDots.
(* the slice ":", numpy indexing as called at wrap_np.py:191-203 *)
Definition full : key := KSlice None None None.

(* slice.indices (CPython PySlice_AdjustIndices): the selected positions of an
   axis of length n; a step of 0 is a ValueError
   [called at wrap_np.py:191-203] *)
Definition slice_end (n : Z) (neg : bool) (default : Z) (v : option Z) : Z :=
  let lower := (if neg then -1 else 0)%Z in
  let upper := (if neg then n - 1 else n)%Z in
  match v with
  | None => default
  | Some v => (if v <? 0 then Z.max (v + n) lower else Z.min v upper)%Z
  end.
(* called at wrap_np.py:191-203 *)
Definition slice_list (n : nat) (start stop step : option Z) : res (list nat) :=
  let n := Z.of_nat n in
  let step := match step with Some s => s | None => 1%Z end in
  if (step =? 0)%Z then Raise EValue
  else
    let neg := (step <? 0)%Z in
    let start := slice_end n neg (if neg then n - 1 else 0)%Z start in
    let stop := slice_end n neg (if neg then -1 else n)%Z stop in
    let len := (if neg then (if stop <? start then (start - stop - 1) / (- step) + 1 else 0)
                else (if start <? stop then (stop - start - 1) / step + 1 else 0))%Z in
    Ok (map (fun k => Z.to_nat (start + Z.of_nat k * step)) (seq 0 (Z.to_nat len))).

(* what becomes of an axis: fixed, restricted to a list of positions; or a new axis
   [numpy indexing, called at wrap_np.py:191-203] *)
Inductive sel := SFix (i : nat) | STake (l : list nat) | SNew.
(* numpy indexing, called at wrap_np.py:191-203 *)
Definition consumes (k : key) : bool := match k with KInt _ | KSlice _ _ _ => true | _ => false end.
(* numpy indexing, called at wrap_np.py:191-203 *)
Definition is_dots (k : key) : bool := match k with KDots => true | _ => false end.
(* numpy indexing, called at wrap_np.py:191-203 *)
Definition consumed (ks : list key) : nat := List.length (filter consumes ks).
(* the Ellipsis, by default at the end, stands for full slices; two of them or too
   many indices are an IndexError
   [numpy indexing, called at wrap_np.py:191-203] *)
Definition expand_keys (n : nat) (ks : list key) : res (list key) :=
  if (1 <? List.length (filter is_dots ks))%nat then Raise EIndex
  else if (n <? consumed ks)%nat then Raise EIndex
  else
    let ks' := if existsb is_dots ks then ks else (ks ++ [KDots])%list in
    Ok (flat_map (fun k => if is_dots k then repeat full (n - consumed ks) else [k]) ks').
(* numpy indexing, called at wrap_np.py:191-203; np.take at 1033-1080 *)
Definition index_int (z : Z) (n : nat) : res nat :=
  let i := (if (z <? 0)%Z then z + Z.of_nat n else z)%Z in
  if ((i <? 0)%Z || (Z.of_nat n <=? i)%Z)%bool then Raise EIndex else Ok (Z.to_nat i).
(* numpy indexing, called at wrap_np.py:191-203 *)
Fixpoint select (ks : list key) (s : list nat) : res (list sel) :=
  match ks with
  | [] => match s with [] => Ok [] | _ => Raise EIndex end
  | KNew :: ks => rbind (select ks s) (fun r => Ok (SNew :: r))
  | KInt z :: ks =>
      match s with
      | [] => Raise EIndex
      | n :: s => rbind (index_int z n) (fun i => rbind (select ks s) (fun r => Ok (SFix i :: r)))
      end
  | KSlice a b c :: ks =>
      match s with
      | [] => Raise EIndex
      | n :: s => rbind (slice_list n a b c) (fun l => rbind (select ks s) (fun r => Ok (STake l :: r)))
      end
  | KDots :: _ => Raise EIndex
  end.
(* numpy indexing, called at wrap_np.py:191-203 *)
Fixpoint sel_shape (r : list sel) : list nat :=
  match r with
  | [] => []
  | SFix _ :: r => sel_shape r
  | STake l :: r => List.length l :: sel_shape r
  | SNew :: r => 1 :: sel_shape r
  end.
(* index into the source for an index of the result
   [numpy indexing, called at wrap_np.py:191-203] *)
Fixpoint sel_source (r : list sel) (idx : list nat) : list nat :=
  match r with
  | [] => []
  | SFix i :: r => i :: sel_source r idx
  | STake l :: r => nth (hd 0 idx) l 0 :: sel_source r (tl idx)
  | SNew :: r => sel_source r (tl idx)
  end.
(* numpy indexing, called at wrap_np.py:191-203 *)
Definition np_getitem (ks : list key) (t : tensor) : res tensor :=
  rbind (expand_keys (tndim t) ks) (fun ks =>
  rbind (select ks (tshape t)) (fun r =>
  Ok (tabulate (sel_shape r) (fun idx => tget t (sel_source r idx))))).

(* ---- NumPy: reshape, take, concatenate --------------------------------------------- *)

(* x.reshape(shape), order "C": one negative length is determined from the others
   [called at wrap_np.py:973-1031] *)
Definition reshape_to (total : nat) (shape : list Z) : res (list nat) :=
  let known := size (map Z.to_nat (filter (fun z => (0 <=? z)%Z) shape)) in
  match List.length (filter (fun z => (z <? 0)%Z) shape) with
  | O => if Nat.eqb known total then Ok (map Z.to_nat shape) else Raise EValue
  | 1 => if (Nat.eqb known 0 || negb (Nat.eqb (total mod known) 0))%bool then Raise EValue
         else Ok (map (fun z => if (z <? 0)%Z then total / known else Z.to_nat z) shape)
  | _ => Raise EValue
  end.
(* called at wrap_np.py:973-1031 *)
Definition np_reshape (shape : list Z) (t : tensor) : res tensor :=
  rbind (reshape_to (size (tshape t)) shape) (fun s => Ok (Tensor s (tdata t))).

(* np.take(t, indices, axis): indices has shape ishape and its elements in C order
   [called at wrap_np.py:1033-1080] *)
Definition np_take (ishape : list nat) (indices : list Z) (axis : nat) (t : tensor) : res tensor :=
  rbind (mapR (fun z => index_int z (nth axis (tshape t) 0)) indices) (fun ix =>
  let r := List.length ishape in
  Ok (tabulate (firstn axis (tshape t) ++ ishape ++ skipn (S axis) (tshape t))
        (fun idx => tget t (firstn axis idx
                            ++ [nth (ravel ishape (firstn r (skipn axis idx))) ix 0]
                            ++ skipn (axis + r) idx))%list)).

(* which array and which position in it
   [np.concatenate, called at convert.py:1029-1036] *)
Fixpoint locate (sizes : list nat) (i : nat) : nat * nat :=
  match sizes with
  | [] => (0, i)
  | n :: r => if (i <? n)%nat then (0, i) else let p := locate r (i - n) in (S (fst p), snd p)
  end.
(* tuple comparison, wrap_abc.py:339-340 *)
Definition nats_eqb (a b : list nat) : bool := if list_eq_dec Nat.eq_dec a b then true else false.
(* called at convert.py:1029-1036 *)
Definition np_concatenate (axis : Z) (ts : list tensor) : res tensor :=
  match ts with
  | [] => Raise EValue
  | t :: _ =>
      rbind (np_normalize_axis_index axis (Z.of_nat (tndim t))) (fun a =>
      if forallb (fun u => nats_eqb (upd (tshape u) a 0) (upd (tshape t) a 0)) ts then
        let sizes := map (fun u => nth a (tshape u) 0) ts in
        Ok (tabulate (upd (tshape t) a (list_sum sizes))
              (fun idx => let p := locate sizes (nth a idx 0) in
                          tget (nth (fst p) ts (Tensor [] [])) (upd idx a (snd p))))
      else Raise EValue)
  end.

(* ---- CentralMomentsArray ----------------------------------------------------------- *)

(* wrap_np.py:76-178 *)
Record cmarray := CM { c_obj : tensor; c_params : aparams }.
(* wrap_abc.py:152-157 *)
Definition c_shape (c : cmarray) : list nat := tshape (c_obj c).
(* wrap_abc.py:135-138 *)
Definition c_mom_shape (c : cmarray) : res (list nat) := get_mom_shape (c_params c) (c_shape c).
(* wrap_np.py:160-170 *)
Definition axes_eqb (a b : option (list Z)) : bool :=
  match a, b with
  | Some a, Some b => if list_eq_dec Z.eq_dec a b then true else false
  | None, None => true
  | _, _ => false
  end.
(* wrap_abc.py:99-117  __init__ of the base class, fastpath=False; dtype check not modelled *)
Definition c_checked (c : cmarray) : res cmarray :=
  rbind (get_mom (c_params c) (c_shape c)) (fun mom =>
  if existsb (fun m => (m <=? 0)%Z) mom then Raise EValue else Ok c).
(* wrap_np.py:136-177  __init__, fastpath=False *)
Definition c_init (m : mp_arg) (mom_ndim : option Z) (mom_axes : option ints_arg) (obj : tensor) : res cmarray :=
  rbind (array_factory false m mom_ndim mom_axes (Some 1%Z)) (fun p =>
  rbind (check_data p (tshape obj)) (fun _ =>
  rbind (axes_to_end p) (fun e =>
  rbind (if axes_eqb (ap_axes p) (ap_axes e) then Ok (obj, p)
         else rbind (iter_axes p) (fun a => rbind (iter_axes e) (fun b =>
              rbind (np_moveaxis a b obj) (fun obj => Ok (obj, e))))) (fun q =>
  c_checked (CM (fst q) (snd q)))))).
(* wrap_abc.py:339-340 *)
Definition raise_if_wrong_mom_shape (shape own : list nat) : res unit := if nats_eqb shape own then Ok tt else Raise EValue.
(* get_mom_shape of obj compared with self.mom_shape
   [wrap_np.py:191-203, 258-311] *)
Definition c_check_like (c : cmarray) (obj : tensor) : res unit :=
  rbind (get_mom_shape (c_params c) (tshape obj)) (fun s =>
  rbind (c_mom_shape c) (fun own => raise_if_wrong_mom_shape s own)).
(* wrap_np.py:191-203  __getitem__; _new_like makes no checks *)
Definition c_getitem (c : cmarray) (ks : list key) : res cmarray :=
  rbind (np_getitem ks (c_obj c)) (fun obj =>
  rbind (c_check_like c obj) (fun _ => Ok (CM obj (c_params c)))).
(* wrap_np.py:208-210  all items of __iter__ *)
Definition c_iter (c : cmarray) : res (list cmarray) :=
  match c_shape c with
  | [] => Raise EIndex
  | n :: _ => mapR (fun k => c_getitem c [KInt (Z.of_nat k)]) (seq 0 n)
  end.
(* the parameters of an object as argument mom_params of a factory
   [wrap_np.py:258-311] *)
Definition as_arg (p : aparams) : mp_arg := MPArrOpt (ap_ndim p) (ap_axes p).
(* wrap_np.py:259-312  new_like, fastpath=False; obj=None gives zeros *)
Definition c_new_like (c : cmarray) (obj : option tensor) (verify : bool) : res cmarray :=
  match obj with
  | None => c_init (as_arg (c_params c)) None None (tabulate (c_shape c) (fun _ => 0%Qc))
  | Some obj =>
      rbind (c_check_like c obj) (fun _ =>
      if (verify && negb (nats_eqb (tshape obj) (c_shape c)))%bool then Raise EValue
      else c_init (as_arg (c_params c)) None None obj)
  end.
(* wrap_np.py:967-971 *)
Definition raise_if_scalar (c : cmarray) : res unit :=
  match ap_ndim (c_params c) with
  | Some m => if (Z.of_nat (tndim (c_obj c)) <=? m)%Z then Raise EValue else Ok tt
  | None => Raise EType
  end.
(* wrap_np.py:974-1032  reshape, order=None *)
Definition c_reshape (c : cmarray) (shape : list Z) : res cmarray :=
  rbind (raise_if_scalar c) (fun _ =>
  rbind (c_mom_shape c) (fun ms =>
  rbind (np_reshape (shape ++ map Z.of_nat ms) (c_obj c)) (fun obj => c_new_like c (Some obj) false))).
(* wrap_np.py:1034-1080  resample; the default of axis is AInt (-1) *)
Definition c_resample (c : cmarray) (ishape : list nat) (indices : list Z) (axis : axis_arg) (last : bool) : res cmarray :=
  rbind (raise_if_scalar c) (fun _ =>
  rbind (normalize_axis_index axis (tndim (c_obj c)) (option_map Z.to_nat (ap_ndim (c_params c)))) (fun a =>
  let m := match ap_ndim (c_params c) with Some m => m | None => 0%Z end in
  let last_dim := (Z.of_nat (tndim (c_obj c)) - m - 1)%Z in
  rbind (if (last && negb (Z.of_nat a =? last_dim)%Z)%bool
         then rbind (np_moveaxis [Z.of_nat a] [last_dim] (c_obj c)) (fun t => Ok (t, Z.to_nat last_dim))
         else Ok (c_obj c, a)) (fun q =>
  rbind (np_take ishape indices (snd q) (fst q)) (fun obj => c_new_like c (Some obj) false)))).
(* wrap_np.py:1033-1045 *)
Definition resample_default_axis : axis_arg := AInt (-1).
(* wrap_abc.py:596-645 and utils.py:160-300  moveaxis of an array *)
Definition c_moveaxis (c : cmarray) (axis dest : option (option (list axis_arg))) (to_end : bool) : res cmarray :=
  let mom := match ap_ndim (c_params c), ap_axes (c_params c) with
             | Some m, Some a => Some (Z.to_nat m, a)
             | _, _ => None
             end in
  rbind (user_moveaxis_order (tndim (c_obj c)) mom axis dest to_end false) (fun order =>
  c_new_like c (Some (ttranspose order (c_obj c))) false).
(* wrap_abc.py:525-592  pipe with a function of the array *)
Definition c_pipe (c : cmarray) (f : tensor -> res tensor) (verify : bool) : res cmarray :=
  rbind (f (c_obj c)) (fun obj => c_new_like c (Some obj) verify).

(* convert.py:1029-1036 and 1049-1058  concat of arrays and of CentralMomentsArray;
   axis is the number given or 0.  An empty iterable is a ValueError here
   (StopIteration in the code). *)
Definition concat_arrays (axis : option Z) (ts : list tensor) : res tensor :=
  np_concatenate (match axis with Some a => a | None => 0%Z end) ts.
(* convert.py:1049-1057 *)
Definition c_concat (axis : option Z) (cs : list cmarray) : res cmarray :=
  match cs with
  | [] => Raise EValue
  | c :: _ => rbind (concat_arrays axis (map c_obj cs)) (fun obj => c_init MPNone (ap_ndim (c_params c)) None obj)
  end.

(* ---- CentralMomentsData ------------------------------------------------------------- *)

(* xarray.DataArray, wrap_xr.py:101-130 *)
Record xarr := XA { x_dims : list sname; x_val : tensor }.
(* wrap_xr.py:87-130 *)
Record cmdata := CX { cx_obj : xarr; cx_params : xparams }.
(* DataArray.shape, wrap_abc.py:152-157 *)
Definition x_shape (x : xarr) : list nat := tshape (x_val x).
(* wrap_abc.py:135-138 *)
Definition cx_mom_shape (c : cmdata) : res (list nat) := x_get_mom_shape (cx_params c) (x_dims (cx_obj c)) (x_shape (cx_obj c)).
(* wrap_abc.py:99-117 *)
Definition cx_checked (c : cmdata) : res cmdata :=
  rbind (x_get_mom (cx_params c) (x_dims (cx_obj c)) (x_shape (cx_obj c))) (fun mom =>
  if existsb (fun m => (m <=? 0)%Z) mom then Raise EValue else Ok c).
(* wrap_xr.py:101-130 *)
Definition cx_init (m : mp_arg) (mom_ndim : option Z) (mom_axes : option ints_arg) (mom_dims : option dims_arg) (obj : xarr) : res cmdata :=
  rbind (x_factory false m mom_ndim mom_dims mom_axes (ODataArray (x_dims obj)) (Some 1%Z)) (fun p =>
  rbind (x_check_data p (x_dims obj) (x_shape obj)) (fun _ => cx_checked (CX obj p))).
(* wrap_xr.py:250-311 *)
Definition x_as_arg (p : xparams) : mp_arg := MPXOpt (xp_ndim p) (xp_dims p).
(* core/xr_utils.py:160-162 contains_dims, and the comparison of moment shapes:
   wrap_xr.py:240-243, 291-295 *)
Definition cx_check_like (c : cmdata) (obj : xarr) : res unit :=
  rbind (iter_dims (cx_params c)) (fun m =>
  if forallb (fun d => smem d (x_dims obj)) m then
    rbind (x_get_mom_shape (cx_params c) (x_dims obj) (x_shape obj)) (fun s =>
    rbind (cx_mom_shape c) (fun own => raise_if_wrong_mom_shape s own))
  else Raise EValue).
(* DataArray[key]: positional; dimensions indexed by an integer vanish; newaxis is
   not accepted (IndexError)
   [called at wrap_xr.py:228-247] *)
Fixpoint kept_dims (r : list sel) (dims : list sname) : list sname :=
  match r, dims with
  | STake _ :: r, d :: dims => d :: kept_dims r dims
  | SFix _ :: r, _ :: dims => kept_dims r dims
  | _, _ => []
  end.
(* called at wrap_xr.py:228-247 *)
Definition x_getitem (ks : list key) (x : xarr) : res xarr :=
  if existsb (fun k => match k with KNew => true | _ => false end) ks then Raise EIndex
  else
  rbind (expand_keys (tndim (x_val x)) ks) (fun ks =>
  rbind (select ks (x_shape x)) (fun r =>
  Ok (XA (kept_dims r (x_dims x)) (tabulate (sel_shape r) (fun idx => tget (x_val x) (sel_source r idx)))))).
(* wrap_xr.py:228-249  __getitem__ *)
Definition cx_getitem (c : cmdata) (ks : list key) : res cmdata :=
  rbind (x_getitem ks (cx_obj c)) (fun obj => rbind (cx_check_like c obj) (fun _ => Ok (CX obj (cx_params c)))).
(* wrap_xr.py:251-312  new_like of a DataArray, fastpath=False *)
Definition sizes_eqb (a b : xarr) : bool :=
  (forallb (fun d => smem d (x_dims b)) (x_dims a) && forallb (fun d => smem d (x_dims a)) (x_dims b) &&
   forallb (fun d => match sizes (x_dims a) (x_shape a) d, sizes (x_dims b) (x_shape b) d with Ok p, Ok q => Nat.eqb p q | _, _ => false end) (x_dims a))%bool.
(* wrap_xr.py:250-311 *)
Definition cx_new_like (c : cmdata) (obj : xarr) (verify : bool) : res cmdata :=
  rbind (cx_check_like c obj) (fun _ =>
  if (verify && negb (sizes_eqb obj (cx_obj c)))%bool then Raise EValue
  else cx_init (x_as_arg (cx_params c)) None None None obj).
(* wrap_xr.py:189-199  all items of iter for a DataArray *)
Definition cx_iter (c : cmdata) : res (list cmdata) :=
  match xp_ndim (cx_params c) with
  | None => Raise EType
  | Some m =>
      if (Z.of_nat (tndim (x_val (cx_obj c))) <=? m)%Z then Raise EValue
      else mapR (fun k => rbind (x_getitem [KInt (Z.of_nat k)] (cx_obj c)) (fun x => cx_new_like c x false))
                (seq 0 (nth 0 (x_shape (cx_obj c)) 0))
  end.
(* DataArray.transpose(dims); None is the Ellipsis (xarray infix_dims)
   [names given twice, called at wrap_xr.py:1429-1467] *)
Definition sdup (l : list sname) : bool := negb (Nat.eqb (List.length (nodup string_dec l)) (List.length l)).
(* names without the Ellipsis, called at wrap_xr.py:1429-1467 *)
Definition given (l : list (option sname)) : list sname := flat_map (fun o => match o with Some d => [d] | None => [] end) l.
(* called at wrap_xr.py:1429-1467 *)
Definition infix_dims (supplied : list (option sname)) (all : list sname) : res (list sname) :=
  let names := given supplied in
  match List.length (filter (fun o => match o with None => true | _ => false end) supplied) with
  | O => if (forallb (fun d => smem d all) names && forallb (fun d => smem d names) all && negb (sdup names))%bool then Ok names else Raise EValue
  | 1 => if (sdup names || negb (forallb (fun d => smem d all) names))%bool then Raise EValue
         else Ok (flat_map (fun o => match o with Some d => [d] | None => filter (fun d => negb (smem d names)) all end) supplied)
  | _ => Raise EValue
  end.
(* called at wrap_xr.py:1429-1467, wrap_abc.py:577-591 *)
Definition x_transpose (dims : list (option sname)) (x : xarr) : res xarr :=
  rbind (infix_dims dims (x_dims x)) (fun ds =>
  rbind (mapR (get_axis_num (x_dims x)) ds) (fun order => Ok (XA ds (ttranspose order (x_val x))))).
(* wrap_abc.py:577-592  pipe with _reorder: moment dimensions last *)
Definition cx_pipe (c : cmdata) (f : xarr -> res xarr) (reorder verify : bool) : res cmdata :=
  rbind (f (cx_obj c)) (fun x =>
  rbind (iter_dims (cx_params c)) (fun m =>
  rbind (if reorder then x_transpose (None :: map Some m) x else Ok x) (fun x => cx_new_like c x verify))).
(* wrap_xr.py:1429-1467 *)
Definition cx_transpose (c : cmdata) (dims : list (option sname)) : res cmdata :=
  rbind (iter_dims (cx_params c)) (fun m =>
  cx_pipe c (x_transpose (filter (fun o => match o with Some d => negb (smem d m) | None => true end) dims ++ map Some m)) false false).
(* wrap_xr.py:1072-1080  rename of dimensions *)
Definition x_rename (f : sname -> sname) (x : xarr) : xarr := XA (map f (x_dims x)) (x_val x).
(* wrap_xr.py:1072-1080 *)
Definition cx_rename (f : sname -> sname) (c : cmdata) : cmdata := CX (x_rename f (cx_obj c)) (cx_params c).
(* wrap_xr.py:1470-1482 *)
Definition cx_to_array (c : cmdata) : res cmarray :=
  rbind (x_to_array (cx_params c) None) (fun p => Ok (CM (x_val (cx_obj c)) p)).

(* xr.concat: arrays are brought into the order of dimensions of the first; a new
   dimension comes first.  Arrays with other dimensions than the first (broadcast
   by xarray) are not modelled: ValueError here.
   [called at convert.py:1038-1047] *)
Definition x_concat (dim : sname) (xs : list xarr) : res xarr :=
  match xs with
  | [] => Raise EValue
  | x :: _ =>
      rbind (mapR (fun y => rbind (x_transpose (map Some (x_dims x)) y) (fun z => Ok (x_val z))) xs) (fun ts =>
      if smem dim (x_dims x) then
        rbind (np_concatenate (Z.of_nat (position String.eqb dim (x_dims x))) ts) (fun t => Ok (XA (x_dims x) t))
      else
        rbind (np_concatenate 0 (map (expand_dims [0]) ts)) (fun t => Ok (XA (dim :: x_dims x) t)))
  end.
(* moment_params.py:652  default_mom_params_xarray *)
Definition default_x_params : xparams := XP None None.
(* convert.py:1038-1047 *)
Definition concat_labelled (axis : marg axis_arg) (dim : marg sname) (xs : list xarr) : res xarr :=
  match xs with
  | [] => Raise EValue
  | x :: _ =>
      rbind (match dim with
             | Val d => if smem d (x_dims x)
                        then rbind (select_axis_dim default_x_params (XArr (x_dims x)) axis dim (Val (AInt 0)) Missing false) (fun r => Ok (snd r))
                        else Ok d
             | _ => rbind (select_axis_dim default_x_params (XArr (x_dims x)) axis dim (Val (AInt 0)) Missing false) (fun r => Ok (snd r))
             end) (fun d => x_concat d xs)
  end.
(* convert.py:1049-1057 *)
Definition cx_concat (axis : marg axis_arg) (dim : marg sname) (cs : list cmdata) : res cmdata :=
  match cs with
  | [] => Raise EValue
  | c :: _ => rbind (concat_labelled axis dim (map cx_obj cs)) (fun x => cx_init MPNone (xp_ndim (cx_params c)) None None x)
  end.
