(* The arrays that functions allocate for their results: core/prepare.py:356-449, where order=
   decides whether the axes are first put in the order of the calculation. *)
From Verif Require Import Base BaseLemmas ModelPush ModelKernels ModelIndex ModelAxes ModelState ModelParams ModelNd.

(* order= after core/array_utils.py:34-43: "C", "F", or None *)
Inductive order_cf := OrderC | OrderF.
(* core/array_utils.py:34-43 arrayorder_to_arrayorder_cf: upper case is modelled, "A", "K" give None *)
Inductive order_arg := OrdC | OrdF | OrdA | OrdK.
(* core/array_utils.py:34-43 *)
Definition to_order_cf (o : option order_arg) : option order_cf :=
  match o with Some OrdC => Some OrderC | Some OrdF => Some OrderF | _ => None end.

(* where the bound i of a slice of n entries lies, as in data.shape[:axis], core/prepare.py:410 *)
Definition slice_bound (n : nat) (i : Z) : nat := Z.to_nat (if (i <? 0)%Z then i + Z.of_nat n else i).
(* ( *shape[:axis], new, *shape[axis + 1:]), core/prepare.py:410, 446 *)
Definition replaced_shape (s : list nat) (axis : Z) (new : nat) : list nat :=
  firstn (slice_bound (length s) axis) s ++ new :: skipn (slice_bound (length s) (axis + 1)) s.
(* shape of np.moveaxis(np.empty(s), source, destination), core/prepare.py:396, 425 *)
Definition moved_shape (s : list nat) (source destination : list Z) : res (list nat) :=
  rbind (moveaxis_order (length s) source destination) (fun order => Ok (map (fun a => nth a s 0) order)).

(* core/prepare.py:399-427 prepare_out_for_reduce_data_grouped: the shape of the array.
   normalize_axis_tuple is called twice, here and in np.moveaxis *)
Definition grouped_out_shape (s : list nat) (mom : list Z) (axis : Z) (new : nat) (order : option order_cf) : res (list nat) :=
  let n := length s in
  let m := length mom in
  match order with
  | Some _ => Ok (replaced_shape s axis new)
  | None =>
      let axes0 := axis :: mom in
      let axes1 := (Z.of_nat n - (Z.of_nat m + 1))%Z :: axes_last m in
      if list_eq_dec Z.eq_dec axes0 axes1 then Ok (replaced_shape s axis new)
      else
        rbind (normalize_axis_tuple (Some (map AInt axes0)) n None false) (fun axes0 =>
        rbind (get_mom_shape (AP (Some (Z.of_nat m)) (Some mom)) s) (fun mom_shape =>
        moved_shape (map (fun i => nth i s 0) (filter (fun i => negb (nat_mem i axes0)) (seq 0 n)) ++ new :: mom_shape)
          axes1 (map Z.of_nat axes0)))
  end.
(* core/prepare.py:430-449 optional_prepare_out_for_resample_data, out=None: the shape of the
   array if there is one *)
Definition resample_out_shape (s : list nat) (axis : Z) (new : nat) (order : option order_arg) : option (list nat) :=
  match to_order_cf order with None => None | Some _ => Some (replaced_shape s axis new) end.

(* core/prepare.py:363-396 prepare_out_from_values, out=None, with its three branches
   (ModelNd.out_from_values has the shape alone) *)
Definition values_out_shape (args : list tensor) (mom_shape : list nat) (axis_neg : Z) (axis_new_size : option nat) (order : option order_cf) : res (list nat) :=
  match args with
  | [] => Raise EIndex
  | x :: rest =>
      rbind (broadcast_shapes (tshape x :: map tshape (filter (fun a => Nat.ltb 1 (tndim a)) rest))) (fun val_shape =>
      rbind (np_normalize_axis_index axis_neg (Z.of_nat (length val_shape))) (fun axis =>
      match axis_new_size with
      | None => Ok (firstn axis val_shape ++ skipn (S axis) val_shape ++ mom_shape)
      | Some n =>
          if ((axis_neg =? -1)%Z || match order with Some _ => true | None => false end)%bool
          then Ok (firstn axis val_shape ++ [n] ++ skipn (S axis) val_shape ++ mom_shape)
          else moved_shape (firstn axis val_shape ++ skipn (S axis) val_shape ++ [n] ++ mom_shape)
                 [(- (Z.of_nat (length mom_shape) + 1))%Z] [Z.of_nat axis]
      end))
  end.

Section Alloc.
  Context {A V : Type} (K : pusher A V) (P : packer A).
  (* reduction.py:1027-1098 reduce_data_grouped with the array it allocates: the gufunc
     "(sample,mom),(sample),(group,mom)" of _lib/indexed.py:22-47 writes into it *)
  Definition reduce_data_grouped_alloc (order : option order_cf) (by_ : list Z) (axis : axis_arg) (mom_axes : list Z) (to_end : bool) (t : tensor) : res tensor :=
    rbind (prepare_data axis mom_axes to_end t) (fun '(a, mom, t) =>
    let n := dim_at t a in
    if negb (Nat.eqb (length by_) n) then Raise EValue
    else rbind (zmax by_) (fun mx =>
    if (mx + 1 <? 0)%Z then Raise EValue
    else
      let ngroup := Z.to_nat (mx + 1) in
      rbind (grouped_out_shape (tshape t) mom a ngroup order) (fun os =>
      rmap to_tensor (gufunc_inout (repeat (p_zero K) ngroup) (row_elem K P) [(t, a :: mom)] os (a :: mom) (fun out l =>
        of_opt EZeroDiv (reduce_data_grouped_into K (combine by_ (core_rows P n (acc l 0))) out)))))).
End Alloc.
