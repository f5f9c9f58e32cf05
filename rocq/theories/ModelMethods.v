(* Model of the methods of CentralMomentsArray that push onto the object, combine
   objects or make new ones: wrapper/wrap_np.py:364-574, 752-965,
   wrapper/wrap_abc.py:355-361, 486-524, 755-810, 866-1060.

   An object is its array and its moment parameters; methods that act in place
   return the object after the call.  The array after a call that raised, dtype,
   casting, order=, parallel= and out= are not modelled. *)
From Coq Require Import String.
From Verif Require Import Base ModelPush ModelKernels ModelIndex ModelAxes ModelState ModelParams ModelNd ModelSampler ModelWrap.

(* lengths of the core axes of a gufunc operand, as at wrap_np.py:447-453 *)
Definition core_shape (a : tensor * list nat) : list nat := map (fun p => nth p (tshape (fst a)) 0) (snd a).

Section Methods.
  Context {A V : Type} (K : pusher A V) (P : packer A) (R : reader V).
  (* whether an array that is written to may be stretched along an axis of length 1
     or a missing axis; numba and numpy decide it, not the code at wrap_np.py:397-412 *)
  Context (stretch : bool).

  (* a gufunc without outputs that writes into the array obj: operands with the
     lengths their core axes must have; every loop index reads and overwrites the
     moment array of obj it is broadcast to, in C order
     [calls at wrap_np.py:397-412, 447-453, 505-512, 570-572; signatures without -> in _lib/push.py:38-101] *)
  Definition gufunc_update (args : list (garg * list nat)) (obj : tensor) (axes : list Z)
      (f : A -> list (list nat -> Qc) -> res A) : res tensor :=
    rbind (mapR (fun a => core_axes (fst a)) args) (fun ins =>
    rbind (core_axes (obj, axes)) (fun o =>
    if negb (forallb (fun p => nats_eqb (core_shape (fst p)) (snd p)) (combine (ins ++ [o]) (map snd args ++ [pk_shape P])))
    then Raise EValue
    else
      let oloop := loop_shape o in
      rbind (broadcast_shapes (map loop_shape (ins ++ [o]))) (fun loop =>
      if negb (stretch || nats_eqb loop oloop) then Raise EValue
      else
      rbind (foldR (fun cells l =>
                      let k := ravel oloop (loop_index oloop l) in
                      rbind (f (nth k cells (p_zero K)) (map (fun a => core_elem a l) ins)) (fun b => Ok (upd cells k b)))
                   (all_idx loop) (map (fun l => pk_pack P (core_elem o l)) (all_idx oloop))) (fun cells =>
      Ok (tabulate (tshape obj)
            (fun idx => pk_unpack P (nth (ravel oloop (map (fun p => nth p idx 0) (outer_axes (tndim obj) (snd o)))) cells (p_zero K))
                          (map (fun p => nth p idx 0) (snd o)))))))).

  (* the core axes of operands without axes=: the last ones, as at wrap_np.py:397-412 *)
  Definition last_core (t : tensor) (shape : list nat) : garg * list nat := ((t, axes_last (List.length shape)), shape).
  (* return self
     [wrap_np.py:413, 461, 517, 573] *)
  Definition c_with (c : cmarray) (r : res tensor) : res cmarray := rbind r (fun obj => Ok (CM obj (c_params c))).

  (* wrap_np.py:364-413 push_data *)
  Definition c_push_data (c : cmarray) (data : tensor) (scale : option tensor) : res cmarray :=
    c_with c
      match scale with
      | None => gufunc_update [last_core data (pk_shape P)] (c_obj c) (axes_last (mom_ndim P))
                  (fun cur l => of_opt EZeroDiv (p_push_data K (pk_pack P (acc l 0)) cur))
      | Some s => gufunc_update [last_core data (pk_shape P); last_core s []] (c_obj c) (axes_last (mom_ndim P))
                    (fun cur l => of_opt EZeroDiv (p_push_data_scale K (pk_pack P (acc l 0)) (acc l 1 []) cur))
      end.
  (* wrap_np.py:416-461 push_datas *)
  Definition c_push_datas (c : cmarray) (axis : axis_arg) (mom_axes : option ints_arg) (datas : tensor) : res cmarray :=
    rbind (array_factory false MPNone (ap_ndim (c_params c)) mom_axes None) (fun p =>
    rbind (iter_axes p) (fun mom =>
    rbind (prepare_data axis mom true datas) (fun '(a, _, t) =>
    rbind (iter_axes (c_params c)) (fun own =>
    let n := dim_at t a in
    c_with c (gufunc_update [((t, a :: own), n :: pk_shape P)] (c_obj c) own
                (fun cur l => of_opt EZeroDiv (reduce_data_into K (core_rows P n (acc l 0)) cur))))))).
  (* wrap_np.py:464-517 push_val, wrap_abc.py:351-355 _check_y; weight None is the 0-d array 1 *)
  Definition c_push_val (c : cmarray) (x w : tensor) (y : list tensor) : res cmarray :=
    if negb (Nat.eqb (S (List.length y)) (mom_ndim P)) then Raise EValue
    else c_with c (gufunc_update (map (fun t => last_core t []) (x :: w :: y)) (c_obj c) (axes_last (mom_ndim P))
                     (fun cur l => of_opt EZeroDiv (p_push_val K (rd_val R (acc l 0 [] :: map (fun y => y []) (skipn 2 l))) (acc l 1 []) cur))).
  (* wrap_np.py:520-573 push_vals; weight None is the 0-d array 1 *)
  Definition c_push_vals (c : cmarray) (axis : axis_arg) (x w : tensor) (y : list tensor) : res cmarray :=
    rbind (prepare_values (S (mom_ndim P)) axis true x (w :: y)) (fun '(a, (x, others)) =>
    let n := dim_at x a in
    c_with c (gufunc_update (map (fun t => last_core t [n]) (x :: others)) (c_obj c) (axes_last (mom_ndim P))
                (fun cur l => of_opt EZeroDiv (reduce_vals_into K (core_samples R n l) cur)))).

  (* wrap_abc.py:486-492 _check_other of objects of the same class *)
  Definition c_check_other (c other : cmarray) : res unit :=
    rbind (c_mom_shape other) (fun s => rbind (c_mom_shape c) (fun own => raise_if_wrong_mom_shape s own)).
  (* wrap_abc.py:494-502 __iadd__ and __add__ (of a copy) *)
  Definition c_add (c other : cmarray) : res cmarray := rbind (c_check_other c other) (fun _ => c_push_data c (c_obj other) None).
  (* wrap_abc.py:504-512 __isub__ and __sub__ (of a copy) *)
  Definition c_sub (c other : cmarray) : res cmarray :=
    rbind (c_check_other c other) (fun _ => c_push_data c (c_obj other) (Some (Tensor [] [(-(1))%Qc]))).
  (* wrap_abc.py:514-522 __mul__ and __imul__: the entries with moment index 0 are multiplied *)
  Definition c_mul (c : cmarray) (s : Qc) : cmarray :=
    CM (tabulate (c_shape c) (fun idx =>
          if forallb (Nat.eqb 0) (skipn (tndim (c_obj c) - mom_ndim P) idx) then (tget (c_obj c) idx * s)%Qc else tget (c_obj c) idx))
       (c_params c).

  (* wrap_np.py:942-965 zeros; val_shape None is [], an int n is [n] *)
  Definition c_zeros (mom : ints_arg) (val_shape : list nat) : res cmarray :=
    rbind (array_factory_mom mom MPNone None None) (fun '(mom, p) =>
    c_init (as_arg p) None None (tabulate (val_shape ++ map (fun m => Z.to_nat (m + 1)) mom) (fun _ => 0%Qc))).

  (* axis argument of reduce: not given, None, one axis, a tuple
     [wrap_np.py:890-903, core/validate.py:199-218] *)
  Inductive raxis := RMissing | RNone | ROne (a : axis_arg) | RMany (l : list axis_arg).
  (* core/validate.py:211-218 validate_axis_mult *)
  Definition axis_mult (x : raxis) : res (option (list axis_arg)) :=
    match x with RMissing => Raise EType | RNone => Ok None | ROne a => Ok (Some [a]) | RMany l => Ok (Some l) end.
  (* core/validate.py:199-208 validate_axis; a tuple fails in normalize_axis_index *)
  Definition axis_one (x : raxis) : res axis_arg := match x with ROne a => Ok a | _ => Raise EType end.
  (* core/missing.py, arguments of select_ndat at wrap_abc.py:1049-1055 *)
  Definition axis_marg (x : raxis) : res (marg axis_arg) :=
    match x with RMissing => Ok Missing | RNone => Ok PyNone | ROne a => Ok (Val a) | RMany _ => Raise EType end.

  (* wrap_abc.py:1039-1060 _block_by *)
  Definition c_block_by (c : cmarray) (block : Z) (axis : raxis) : res (list Z) :=
    rbind (axis_marg axis) (fun x =>
    rbind (select_ndat_array (c_shape c) x (as_arg (c_params c)) None None) (fun n =>
    block_by (Z.of_nat n) block "drop_last")).
  (* wrap_np.py:890-939 reduce; _new_like makes no checks.  axes_to_end is not
     passed on without groups, keepdims not with groups *)
  Definition c_reduce (c : cmarray) (axis : raxis) (by_ : option (list Z)) (block : option Z) (to_end keepdims : bool) : res cmarray :=
    rbind (match by_, block with
           | None, Some b => rmap Some (c_block_by c b axis)
           | _, _ => Ok by_
           end) (fun by_ =>
    rbind (iter_axes (c_params c)) (fun mom =>
    c_with c
      match by_ with
      | None => rbind (axis_mult axis) (fun x => reduce_data_nd K P mom x keepdims false (c_obj c))
      | Some l => rbind (axis_one axis) (fun x => reduce_data_grouped_nd K P l x mom to_end (c_obj c))
      end)).
  (* wrap_abc.py:755-810 cumulative, wrap_np.py:577-635: an array *)
  Definition c_cumulative (c : cmarray) (axis : axis_arg) (to_end : bool) : res tensor :=
    rbind (iter_axes (c_params c)) (fun mom => cumulative_nd K P false axis mom to_end (c_obj c)).
  (* wrap_abc.py:866-965 resample_and_reduce with the table of frequencies of the sampler *)
  Definition c_resample_and_reduce (c : cmarray) (freq : tensor) (axis : axis_arg) (to_end : bool) : res cmarray :=
    rbind (iter_axes (c_params c)) (fun mom => c_with c (resample_data_nd K P freq axis mom to_end (c_obj c))).
  (* wrap_abc.py:968-1036 jackknife_and_reduce; data_reduced an array or the array of an object *)
  Definition c_jackknife_and_reduce (c : cmarray) (data_reduced : option tensor) (axis : axis_arg) (to_end : bool) : res cmarray :=
    rbind (iter_axes (c_params c)) (fun mom =>
    c_with c (jackknife_data_nd K P (option_map (fun r => (r, None)) data_reduced) axis mom to_end (c_obj c))).
End Methods.
