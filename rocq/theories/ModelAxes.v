(* Model of axis handling and of reductions of arrays with several axes:
   core/array_utils.py (axis normalisation, moveaxis_order, keepdims),
   core/prepare.py:53-80, utils.py:73-166 (moveaxis for ndarrays),
   reduction.py:563-645 (_reduce_data), core/moment_params.py:274-318.

   An array is its shape and its elements in C order.  Strides, memory order
   and the out= argument are not modelled. *)
From Verif Require Import Base ModelKernels ModelIndex.

(* ---- axes ---------------------------------------------------------------- *)

(* axis argument: an integer, or a multiple of 1j
   [core/array_utils.py:47-64, core/typing.py AxisReduceWrap] *)
Inductive axis_arg := AInt (a : Z) | AComplex (a : Z).

(* numpy normalize_axis_index; AxisError is a ValueError
   [called at core/array_utils.py:53-64] *)
Definition np_normalize_axis_index (axis ndim : Z) : res nat :=
  if ((axis <? - ndim)%Z || (ndim <=? axis)%Z)%bool then Raise EValue
  else Ok (Z.to_nat (if (axis <? 0)%Z then axis + ndim else axis)).

(* array_utils.py:47-64 *)
Definition normalize_axis_index (axis : axis_arg) (ndim : nat) (mom_ndim : option nat) : res nat :=
  match axis with
  | AInt a => np_normalize_axis_index a (Z.of_nat ndim)
  | AComplex a => np_normalize_axis_index a
      (Z.of_nat ndim - match mom_ndim with Some m => Z.of_nat m | None => 0 end)
  end.

(* len(set(out)) != len(out)
   [core/array_utils.py:85-88] *)
Definition has_duplicates (l : list nat) : bool :=
  negb (Nat.eqb (length (nodup Nat.eq_dec l)) (length l)).

(* array_utils.py:67-90; a single axis is a list of one *)
Definition normalize_axis_tuple (axis : option (list axis_arg)) (ndim : nat) (mom_ndim : option nat)
    (allow_duplicate : bool) : res (list nat) :=
  match axis with
  | None => Ok (seq 0 (ndim - match mom_ndim with Some m => m | None => 0 end))
  | Some axis =>
      rbind (mapR (fun a => normalize_axis_index a ndim mom_ndim) axis) (fun out =>
      if (negb allow_duplicate && has_duplicates out)%bool then Raise EValue else Ok out)
  end.

(* list.insert for a nonnegative position
   [core/array_utils.py:120-121] *)
Definition insert_at {T} (l : list T) (i : nat) (x : T) : list T := firstn i l ++ x :: skipn i l.
(* "in" on lists of axes, as at core/array_utils.py:118 *)
Definition nat_mem (x : nat) (l : list nat) : bool := existsb (Nat.eqb x) l.
(* tuple comparison of (dest, src)
   [core/array_utils.py:120, sorted(zip(destination, source))] *)
Definition pair_le (p q : nat * nat) : bool :=
  (Nat.ltb (fst p) (fst q) || (Nat.eqb (fst p) (fst q) && Nat.leb (snd p) (snd q)))%bool.

(* array_utils.py:117-126  moveaxis_order after normalisation *)
Definition moveaxis_core (ndim : nat) (source destination : list nat) : res (list nat) :=
  if negb (Nat.eqb (length source) (length destination)) then Raise EValue
  else Ok (fold_left (fun order p => insert_at order (fst p) (snd p))
             (sort_by pair_le (combine destination source))
             (filter (fun n => negb (nat_mem n source)) (seq 0 ndim))).
(* array_utils.py:93-126  moveaxis_order with normalize=True *)
Definition moveaxis_order (ndim : nat) (source destination : list Z) : res (list nat) :=
  rbind (normalize_axis_tuple (Some (map AInt source)) ndim None false) (fun s =>
  rbind (normalize_axis_tuple (Some (map AInt destination)) ndim None false) (fun d =>
  moveaxis_core ndim s d)).

(* array_utils.py:129-146 *)
Definition positive_to_negative_index (index ndim : Z) : Z := if (index <? 0)%Z then index else (index - ndim)%Z.

(* moment_params.py:107-110, 157-159: axes -ndim .. -1 *)
Definition axes_last (mom_ndim : nat) : list Z := map (fun i => (Z.of_nat i - Z.of_nat mom_ndim)%Z) (seq 0 mom_ndim).

(* utils.py:73-166  moveaxis_order for ndarrays.  mom: mom_ndim and mom_axes of
   the parameter object, None when not given; MISSING axis is None, axis=None
   is Some None. *)
Definition user_moveaxis_core (ndim : nat) (mom : option (nat * list nat)) (axis dest : option (list axis_arg)) (allow : bool)
  : res (list nat) :=
  rbind (normalize_axis_tuple axis ndim (option_map fst mom) false) (fun axes0 =>
  rbind (normalize_axis_tuple dest ndim (option_map fst mom) false) (fun axes1 =>
  if (negb allow && match mom with
                    | Some (_, m) => existsb (fun a => nat_mem a m) (axes0 ++ axes1)
                    | None => false end)%bool
  then Raise EValue else moveaxis_core ndim axes0 axes1)).
(* utils.py:73-163, the part that finds the axes *)
Definition user_moveaxis_order (ndim : nat) (mom : option (nat * list Z))
    (axis dest : option (option (list axis_arg))) (to_end allow : bool) : res (list nat) :=
  rbind (match mom with
         | None => Ok None
         | Some (m, axes) => rbind (normalize_axis_tuple (Some (map AInt axes)) ndim None false) (fun a => Ok (Some (m, a)))
         end) (fun mom =>
  if to_end then
    rbind (match axis with
           | None => Ok []
           | Some a => normalize_axis_tuple a ndim (option_map fst mom) false
           end) (fun axis =>
    let dest := map AComplex (axes_last (length axis)) in
    let axis := map (fun a => AInt (Z.of_nat a)) axis in
    match mom with
    | None => user_moveaxis_core ndim mom (Some axis) (Some dest) true
    | Some (m, a) => user_moveaxis_core ndim mom (Some (axis ++ map (fun a => AInt (Z.of_nat a)) a))
                                        (Some (dest ++ map AInt (axes_last m))) true
    end)
  else match axis, dest with
       | Some a, Some d => user_moveaxis_core ndim mom a d allow
       | _, _ => Raise EType
       end).

(* ---- arrays ----------------------------------------------------------------- *)

(* numpy.ndarray: shape, and entries in C order; input of reduction.py:563-647 and the like *)
Record tensor := Tensor { tshape : list nat; tdata : list Qc }.
(* ndarray.ndim, as at reduction.py:577 *)
Definition tndim (t : tensor) : nat := length (tshape t).
(* number of entries of a shape, ndarray.size as at reduction.py:621 *)
Fixpoint size (s : list nat) : nat := match s with [] => 1 | n :: t => n * size t end.
(* offset of an index in C order
   [numpy indexing with a full index, as in _lib/push.py:96-102] *)
Fixpoint ravel (s idx : list nat) : nat :=
  match s, idx with
  | _ :: s', i :: idx' => i * size s' + ravel s' idx'
  | _, _ => 0
  end.
(* all indices in C order
   [the loop order of numpy gufuncs, called at reduction.py:630-645] *)
Fixpoint all_idx (s : list nat) : list (list nat) :=
  match s with
  | [] => [[]]
  | n :: s' => flat_map (fun i => map (cons i) (all_idx s')) (seq 0 n)
  end.
(* numpy indexing with a full index, as in the kernels _lib/push.py:96-102 *)
Definition tget (t : tensor) (idx : list nat) : Qc := nth (ravel (tshape t) idx) (tdata t) 0%Qc.
(* an array given by its entries; result of reduction.py:563-647 *)
Definition tabulate (s : list nat) (f : list nat -> Qc) : tensor := Tensor s (map f (all_idx s)).

(* where axis a stands in order
   [used for the transposition order, core/array_utils.py:92-122] *)
Definition index_of (a : nat) (order : list nat) : nat := position Nat.eqb a order.
(* ndarray.transpose
   [called at utils.py:320-327 and inside np.moveaxis] *)
Definition ttranspose (order : list nat) (t : tensor) : tensor :=
  tabulate (map (fun a => nth a (tshape t) 0) order)
    (fun idx => tget t (map (fun a => nth (index_of a order) idx 0) (seq 0 (tndim t)))).
(* np.moveaxis
   [called at core/prepare.py:74-78, reduction.py:607-645] *)
Definition np_moveaxis (source destination : list Z) (t : tensor) : res tensor :=
  rbind (moveaxis_order (tndim t) source destination) (fun order => Ok (ttranspose order t)).
(* x.reshape to x.shape[:-k] and -1, k > 0: same elements in C order
   [reduction.py:612-614] *)
Definition merge_last (k : nat) (t : tensor) : tensor :=
  let m := tndim t - k in
  Tensor (firstn m (tshape t) ++ [size (skipn m (tshape t))]) (tdata t).
(* np.expand_dims(x, axes) for normalised distinct axes: ones at axes
   [np.expand_dims, called at core/array_utils.py:216-225] *)
Fixpoint expand_shape (n : nat) (axes : list nat) (pos : nat) (s : list nat) : list nat :=
  match n with
  | O => []
  | S n' => if nat_mem pos axes then 1 :: expand_shape n' axes (S pos) s
            else match s with
                 | [] => []
                 | x :: s' => x :: expand_shape n' axes (S pos) s'
                 end
  end.
(* core/array_utils.py:216-225 optional_keepdims *)
Definition expand_dims (axes : list nat) (t : tensor) : tensor :=
  Tensor (expand_shape (tndim t + length axes) axes 0 (tshape t)) (tdata t).

(* ---- moment arrays inside arrays ------------------------------------------------ *)

(* how the kernels of one and of two variables read and write moment arrays
   [gufunc core dimensions (mom) and (mom0,mom1), _lib/push.py:88-95 and _lib/push_cov.py] *)
Record packer (A : Type) := Packer {
  pk_shape : list nat;
  pk_pack : (list nat -> Qc) -> A;
  pk_unpack : A -> list nat -> Qc
}.
Arguments pk_shape {A}. Arguments pk_pack {A}. Arguments pk_unpack {A}.
(* signature (sample,mom)->(mom), _lib/push.py:88-95 *)
Definition packer1 (n : nat) : packer arr :=
  Packer arr [S n] (fun f => map (fun i => f [i]) (seq 0 (S n))) (fun a idx => getq a (nth 0 idx 0)).
(* signature (sample,mom0,mom1)->(mom0,mom1), _lib/push_cov.py *)
Definition packer2 (n0 n1 : nat) : packer arr2 :=
  Packer arr2 [S n0; S n1] (fun f => map (fun i => map (fun j => f [i; j]) (seq 0 (S n1))) (seq 0 (S n0)))
    (fun a idx => get2 a (nth 0 idx 0) (nth 1 idx 0)).

Section NDim.
  Context {A V : Type} (K : pusher A V) (P : packer A).

  (* position p of an array of n axes: from the moment index when p is one of
     the moment axes, else the next outer index
     [numpy gufunc with axes=, called at reduction.py:618-630] *)
  Definition place (n : nat) (mom : list nat) (outer midx : list nat) : list nat :=
    map (fun p => if nat_mem p mom then nth (index_of p mom) midx 0
                  else nth (length (filter (fun q => negb (nat_mem q mom)) (seq 0 p))) outer 0)
        (seq 0 n).
  (* loop axes of a gufunc with axes=, called at reduction.py:618-630 *)
  Definition outer_axes (n : nat) (mom : list nat) : list nat := filter (fun p => negb (nat_mem p mom)) (seq 0 n).

  (* the reduction kernel as gufunc with axes=[(-1, *mom), mom]: loop over all
     axes but the last and the moment axes.  An axis outside the array, or a
     repeated one, is a ValueError.
     [call at reduction.py:618-630 of _lib/push.py:88-102] *)
  Definition gufunc_reduce (mom : list nat) (t : tensor) : res tensor :=
    let n := (tndim t - 1)%nat in
    if existsb (fun p => n <=? p)%nat mom then Raise EValue
    else
      let oshape := map (fun p => nth p (tshape t) 0) (outer_axes n mom) in
      let row outer f := pk_pack P (fun midx => tget t (place n mom outer midx ++ [f])) in
      rbind (mapR (fun outer => of_opt EZeroDiv (reduce_data K (map (row outer) (seq 0 (nth n (tshape t) 0)))))
                  (all_idx oshape)) (fun rows =>
      Ok (tabulate (firstn n (tshape t))
            (fun idx => pk_unpack P (nth (ravel oshape (map (fun p => nth p idx 0) (outer_axes n mom))) rows (p_zero K))
                                    (map (fun p => nth p idx 0) mom)))).

  (* reduction.py:563-645  _reduce_data, out=None; mom_axes as given *)
  Definition reduce_data_nd (mom_axes : list Z) (axis : option (list axis_arg)) (keepdims to_end : bool) (t : tensor) : res tensor :=
    let ndim := tndim t in
    let mom_ndim := length mom_axes in
    rbind (normalize_axis_tuple (Some (map AInt mom_axes)) ndim None false) (fun mom =>
    rbind (match axis with
           | None => Ok (filter (fun a => negb (nat_mem a mom)) (seq 0 ndim))
           | Some _ => normalize_axis_tuple axis ndim (Some mom_ndim) false
           end) (fun axes =>
    match axes with
    | [] => Ok t
    | _ :: _ =>
      let k := length axes in
      rbind (moveaxis_order ndim (map Z.of_nat axes) (axes_last k)) (fun order =>
      let t' := merge_last k (ttranspose order t) in
      let mom' := map (fun a => index_of a order) mom in
      rbind (gufunc_reduce mom' t') (fun out =>
      let out := if keepdims then expand_dims axes out else out in
      if to_end then
        (if keepdims then np_moveaxis (map Z.of_nat (axes ++ mom)) (axes_last (mom_ndim + k)) out
         else np_moveaxis (map Z.of_nat mom') (axes_last mom_ndim) out)
      else Ok out))
    end)).
End NDim.
