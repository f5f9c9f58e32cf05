(* Model of the functions that act along one axis of an array with several
   axes: numpy broadcasting and the gufunc loop, core/prepare.py:53-200,
   356-396, convert.py:504-545 (_cumulative), reduction.py:283-330 (_reduce_vals),
   1051-1098 (_reduce_data_grouped), 1505-1560 (_reduce_data_indexed),
   resample/resample.py:301-345, 558-600, 899-950, 1187-1245,
   rolling.py:298-321, 511-575, 787-856, 1087-1167, 1390-1450.

   Numbers are exact; dtype, casting, order=, parallel= and the out= argument of
   the user are not modelled.  The moment shape of the arrays is the one of the
   packer.  NaN in an output is None. *)
From Verif Require Import Base ModelPush ModelKernels ModelIndex ModelAxes.

(* ---- arrays with any entries ------------------------------------------------ *)

(* output arrays, whose entries may be nan: shape and entries in C order
   [numpy.ndarray, result of rolling.py:511-574 and the like] *)
Record grid (T : Type) := Grid { gshape : list nat; gdata : list T }.
Arguments Grid {T}. Arguments gshape {T}. Arguments gdata {T}.
(* an array given by its entries, result of convert.py:504-544 and the like *)
Definition gtabulate {T} (s : list nat) (f : list nat -> T) : grid T := Grid s (map f (all_idx s)).
(* numpy indexing with a full index, as in _lib/push.py:96-102 *)
Definition gget {T} (d : T) (g : grid T) (idx : list nat) : T := nth (ravel (gshape g) idx) (gdata g) d.
(* a result without nan, as of convert.py:504-544 *)
Definition to_tensor (g : grid Qc) : tensor := Tensor (gshape g) (gdata g).

(* ---- numpy broadcasting ------------------------------------------------------- *)

(* np.broadcast_shapes of two shapes, last axis first
   [gufunc calls, and core/prepare.py:374] *)
Fixpoint bcast_rev (a b : list nat) : res (list nat) :=
  match a, b with
  | [], b => Ok b
  | a, [] => Ok a
  | x :: a', y :: b' =>
      rbind (bcast_rev a' b') (fun r =>
      if Nat.eqb x y then Ok (x :: r)
      else if Nat.eqb x 1 then Ok (y :: r)
      else if Nat.eqb y 1 then Ok (x :: r) else Raise EValue)
  end.
(* np.broadcast_shapes, core/prepare.py:374 *)
Definition bcast (a b : list nat) : res (list nat) := rbind (bcast_rev (rev a) (rev b)) (fun r => Ok (rev r)).
(* core/prepare.py:374 and gufunc calls *)
Definition broadcast_shapes (l : list (list nat)) : res (list nat) := foldR bcast l [].

(* ---- the gufunc loop -------------------------------------------------------------- *)

(* numpy generalized ufunc with axes=: every operand has core axes, the others
   are loop axes, broadcast from the right.  An axis outside the array or a
   repeated one is a ValueError.
   [operands with axes=, as at convert.py:533-544] *)
Definition garg := (tensor * list Z)%type.
(* axes= of gufunc calls, as at convert.py:533-544 *)
Definition core_axes (a : garg) : res (tensor * list nat) :=
  rbind (normalize_axis_tuple (Some (map AInt (snd a))) (tndim (fst a)) None false) (fun c => Ok (fst a, c)).
(* loop dimensions of a gufunc operand, as at convert.py:533-544 *)
Definition loop_shape (a : tensor * list nat) : list nat :=
  map (fun p => nth p (tshape (fst a)) 0) (outer_axes (tndim (fst a)) (snd a)).
(* loop index of an operand: the last entries of the index of the loop, 0 along
   axes of length 1
   [broadcasting of gufunc operands, as at resample/resample.py:335-346] *)
Definition loop_index (own : list nat) (o : list nat) : list nat :=
  map (fun p => if Nat.eqb (fst p) 1 then 0 else snd p) (combine own (skipn (length o - length own) o)).
(* entry c of the core of an operand at loop index o
   [operand of a gufunc call, as at resample/resample.py:335-346] *)
Definition core_elem (a : tensor * list nat) (o c : list nat) : Qc :=
  tget (fst a) (place (tndim (fst a)) (snd a) (loop_index (loop_shape a) o) c).

(* a gufunc that allocates its output: core axes out_core of lengths cshape, one
   call of the kernel per loop index
   [calls at convert.py:533-544, resample/resample.py:335-346, 939-950, reduction.py:1080-1097, 1540-1563, rolling.py:555-567, 1145-1168] *)
Definition gufunc {T} (d : T) (args : list garg) (out_core : list Z) (cshape : list nat)
    (f : list (list nat -> Qc) -> res (list nat -> T)) : res (grid T) :=
  rbind (mapR core_axes args) (fun ins =>
  rbind (broadcast_shapes (map loop_shape ins)) (fun loop =>
  let n := length loop + length out_core in
  rbind (normalize_axis_tuple (Some (map AInt out_core)) n None false) (fun oc =>
  rbind (mapR (fun o => f (map (fun a => core_elem a o) ins)) (all_idx loop)) (fun rows =>
  Ok (gtabulate (place n oc loop cshape)
        (fun idx => nth (ravel loop (map (fun p => nth p idx 0) (outer_axes n oc))) rows (fun _ => d)
                        (map (fun p => nth p idx 0) oc))))))).

(* a gufunc without outputs that writes into its first operand, an array of
   shape oshape: every loop index reads and overwrites the cell of the first
   operand it is broadcast to, in C order
   [calls at reduction.py:313-328, resample/resample.py:615-627, rolling.py:837-849, 1435-1448; signatures without -> in _lib/push.py:38-44, _lib/resample.py:82-99, _lib/rolling.py:49-67] *)
Definition gufunc_inout {B T} (init : B) (get : B -> list nat -> T) (args : list garg) (oshape : list nat) (out_core : list Z)
    (f : B -> list (list nat -> Qc) -> res B) : res (grid T) :=
  rbind (mapR core_axes args) (fun ins =>
  rbind (normalize_axis_tuple (Some (map AInt out_core)) (length oshape) None false) (fun oc =>
  let oloop := map (fun p => nth p oshape 0) (outer_axes (length oshape) oc) in
  rbind (broadcast_shapes (oloop :: map loop_shape ins)) (fun loop =>
  rbind (foldR (fun cells o =>
                  let k := ravel oloop (loop_index oloop o) in
                  rbind (f (nth k cells init) (map (fun a => core_elem a o) ins)) (fun b => Ok (upd cells k b)))
               (all_idx loop) (repeat init (size oloop))) (fun cells =>
  Ok (gtabulate oshape
        (fun idx => get (nth (ravel oloop (map (fun p => nth p idx 0) (outer_axes (length oshape) oc))) cells init)
                        (map (fun p => nth p idx 0) oc))))))).

(* ---- preparing the operands -------------------------------------------------------- *)

(* x.shape[axis] with axis in range, as at resample/resample.py:320 *)
Definition dim_at (t : tensor) (axis : Z) : nat :=
  nth (Z.to_nat (if (axis <? 0)%Z then axis + Z.of_nat (tndim t) else axis)) (tshape t) 0.
(* data.shape[axis]: an entry of a tuple, IndexError outside
   [core/prepare.py:171, core/validate.py:63-69 raise_if_wrong_value] *)
Definition shape_at (t : tensor) (axis : Z) : res nat := match zread (tshape t) axis with Ok n => Ok n | Raise _ => Raise EIndex end.

(* core/prepare.py:53-80  prepare_data_for_reduction *)
Definition prepare_data (axis : axis_arg) (mom_axes : list Z) (to_end : bool) (t : tensor) : res (Z * list Z * tensor) :=
  let m := length mom_axes in
  rbind (normalize_axis_index axis (tndim t) (Some m)) (fun a =>
  if to_end then
    let axis_out := (Z.of_nat (tndim t) - (Z.of_nat m + 1))%Z in
    rbind (np_moveaxis (Z.of_nat a :: mom_axes) (axis_out :: axes_last m) t) (fun t' => Ok (axis_out, axes_last m, t'))
  else Ok (Z.of_nat a, mom_axes, t)).

(* np.broadcast_to(x, n) of a 0-d array
   [core/prepare.py:150-153] *)
Definition full (n : nat) (v : Qc) : tensor := tabulate [n] (fun _ => v).

(* core/prepare.py:130-180  prepare_secondary_value_for_reduction *)
Definition prepare_secondary (axis : Z) (nsamp : nat) (to_end : bool) (t : tensor) : res tensor :=
  if Nat.eqb (tndim t) 0 then Ok (full nsamp (tget t []))
  else
    rbind (if Nat.eqb (tndim t) 1 then Ok (t, (-1)%Z)
           else if (to_end && negb (axis =? -1)%Z)%bool
                then rbind (np_moveaxis [axis] [(-1)%Z] t) (fun u => Ok (u, (-1)%Z))
                else Ok (t, axis)) (fun r =>
    rbind (shape_at (fst r) (snd r)) (fun n => if Nat.eqb n nsamp then Ok (fst r) else Raise EValue)).

(* core/prepare.py:84-127  prepare_values_for_reduction *)
Definition prepare_values (narrays : nat) (axis : axis_arg) (to_end : bool) (x : tensor) (others : list tensor)
  : res (Z * (tensor * list tensor)) :=
  if negb (Nat.eqb (S (length others)) narrays) then Raise EValue
  else
    rbind (normalize_axis_index axis (tndim x) None) (fun a =>
    let nsamp := nth a (tshape x) 0 in
    let axis_neg := positive_to_negative_index (Z.of_nat a) (Z.of_nat (tndim x)) in
    rbind (if (to_end && negb (axis_neg =? -1)%Z)%bool then np_moveaxis [axis_neg] [(-1)%Z] x else Ok x) (fun x' =>
    rbind (mapR (prepare_secondary axis_neg nsamp to_end) others) (fun others' =>
    Ok (if to_end then (-1)%Z else axis_neg, (x', others'))))).

(* core/array_utils.py:145-147  get_axes_from_values *)
Definition value_axes (axis_neg : Z) (t : tensor) : list Z := [if Nat.eqb (tndim t) 1 then (-1)%Z else axis_neg].

(* core/prepare.py:356-396  prepare_out_from_values, out=None: the shape of the
   result.  The memory order, which is all that the last branch changes, is not
   modelled. *)
Definition out_from_values (args : list tensor) (mom_shape : list nat) (axis_neg : Z) (axis_new_size : option nat) : res (list nat) :=
  match args with
  | [] => Raise EIndex
  | x :: rest =>
      rbind (broadcast_shapes (tshape x :: map tshape (filter (fun a => Nat.ltb 1 (tndim a)) rest))) (fun val_shape =>
      rbind (np_normalize_axis_index axis_neg (Z.of_nat (length val_shape))) (fun axis =>
      Ok (firstn axis val_shape ++ (match axis_new_size with None => [] | Some n => [n] end) ++ skipn (S axis) val_shape ++ mom_shape)))
  end.

(* rolling.py:298-308  _pad_along_axis with fill_value 0; pad = -shift *)
Definition pad_along (axis : nat) (pad : nat) (t : tensor) : tensor :=
  let n := nth axis (tshape t) 0 in
  tabulate (upd (tshape t) axis (n + pad)) (fun idx => if Nat.ltb (nth axis idx 0) n then tget t idx else 0%Qc).
(* out[..., pad:, ...]
   [rolling.py:569-574] *)
Definition slice_from {T} (d : T) (axis : nat) (pad : nat) (g : grid T) : grid T :=
  gtabulate (upd (gshape g) axis (nth axis (gshape g) 0 - pad)) (fun idx => gget d g (upd idx axis (nth axis idx 0 + pad))).
(* rolling.py:311-321  _optional_zero_missing_weight: entries with index 0 at
   the moment axes that are nan become 0 *)
Definition zero_missing (mom : list nat) (zero_missing_weights : bool) (g : grid (option Qc)) : grid (option Qc) :=
  if zero_missing_weights then
    gtabulate (gshape g) (fun idx =>
      match gget None g idx with
      | None => if forallb (fun p => Nat.eqb (nth p idx 0) 0) mom then Some 0%Qc else None
      | v => v
      end)
  else g.

(* ---- functions of moment arrays -------------------------------------------------------- *)

Section Data.
  Context {A V : Type} (K : pusher A V) (P : packer A).

  (* the rows the kernel sees, and the entries it returns
     [gufunc signature (sample,mom), _lib/push.py:105-119] *)
  Definition core_rows (n : nat) (acc : list nat -> Qc) : list A :=
    map (fun i => pk_pack P (fun m => acc (i :: m))) (seq 0 n).
  (* output row of a gufunc, _lib/push.py:105-119 *)
  Definition row_elem (rows : list A) (c : list nat) : Qc := pk_unpack P (nth (hd 0 c) rows (p_zero K)) (tl c).
  (* output row of a gufunc that may hold nan, _lib/_rolling.py:41-45 *)
  Definition row_elem_opt (rows : list (option A)) (c : list nat) : option Qc :=
    match nth (hd 0 c) rows None with Some a => Some (pk_unpack P a (tl c)) | None => None end.
  (* operand i of the gufunc call, as at resample/resample.py:335-346 *)
  Definition acc (l : list (list nat -> Qc)) (i : nat) : list nat -> Qc := nth i l (fun _ => 0%Qc).

  (* x = call(...); return f(x), as in rolling.py:555-574 *)
  Definition rmap {X Y} (f : X -> Y) (r : res X) : res Y := rbind r (fun x => Ok (f x)).

  (* convert.py:470-545  cumulative *)
  Definition cumulative_nd (inverse : bool) (axis : axis_arg) (mom_axes : list Z) (to_end : bool) (t : tensor) : res tensor :=
    rbind (prepare_data axis mom_axes to_end t) (fun '(a, mom, t) =>
    let n := dim_at t a in
    rmap to_tensor (gufunc 0%Qc [(t, a :: mom)] (a :: mom) (n :: pk_shape P) (fun l =>
      rmap row_elem (of_opt EZeroDiv ((if inverse then cumulative_inverse K else cumulative K) (core_rows n (acc l 0))))))).

  (* resample/resample.py:302-346  _resample_data with freq = sampler.freq *)
  Definition resample_data_at (freq : tensor) (a : Z) (mom : list Z) (t : tensor) : res tensor :=
    let n := dim_at t a in
    rbind (shape_at freq (-2)) (fun nrep =>
    rbind (shape_at freq (-1)) (fun ncol =>
    if negb (Nat.eqb ncol n) then Raise EValue
    else rmap to_tensor (gufunc 0%Qc [(freq, [(-2)%Z; (-1)%Z]); (t, a :: mom)] (a :: mom) (nrep :: pk_shape P) (fun l =>
      rmap row_elem (of_opt EZeroDiv (resample_data K
        (map (fun i => map (fun j => acc l 0 [i; j]) (seq 0 n)) (seq 0 nrep)) (core_rows n (acc l 1)))))))).
  (* resample/resample.py:273-299  resample_data *)
  Definition resample_data_nd (freq : tensor) (axis : axis_arg) (mom_axes : list Z) (to_end : bool) (t : tensor) : res tensor :=
    rbind (prepare_data axis mom_axes to_end t) (fun '(a, mom, t) => resample_data_at freq a mom t).

  (* reduction.py:1027-1098  reduce_data_grouped; by has one axis *)
  Definition reduce_data_grouped_nd (by_ : list Z) (axis : axis_arg) (mom_axes : list Z) (to_end : bool) (t : tensor) : res tensor :=
    rbind (prepare_data axis mom_axes to_end t) (fun '(a, mom, t) =>
    let n := dim_at t a in
    if negb (Nat.eqb (length by_) n) then Raise EValue
    else rbind (zmax by_) (fun mx =>
    if (mx + 1 <? 0)%Z then Raise EValue
    else
      let ngroup := Z.to_nat (mx + 1) in
      rmap to_tensor (gufunc 0%Qc [(t, a :: mom)] (a :: mom) (ngroup :: pk_shape P) (fun l =>
        rmap row_elem (of_opt EZeroDiv (reduce_data_grouped_into K (combine by_ (core_rows n (acc l 0)))
                                          (repeat (p_zero K) ngroup))))))).

  (* reduction.py:1473-1560  reduce_data_indexed *)
  Definition reduce_data_indexed_nd (index start end_ : list Z) (scale : option (list Qc)) (axis : axis_arg) (mom_axes : list Z)
      (to_end : bool) (t : tensor) : res tensor :=
    rbind (prepare_data axis mom_axes to_end t) (fun '(a, mom, t) =>
    let n := dim_at t a in
    rbind (validate_index n index start end_) (fun _ =>
    rbind (match scale with
           | None => Ok (repeat 1%Qc (length index))
           | Some s => if Nat.eqb (length s) (length index) then Ok s else Raise EValue
           end) (fun scale =>
    rmap to_tensor (gufunc 0%Qc [(t, a :: mom)] (a :: mom) (length start :: pk_shape P) (fun l =>
      rmap row_elem (mapR (fun se => indexed_group K (core_rows n (acc l 0)) index scale (fst se) (snd se)) (combine start end_))))))).

  (* resample/resample.py:904-950  _jackknife_data *)
  Definition jackknife_data_at (red : garg) (a : Z) (mom : list Z) (t : tensor) : res tensor :=
    let n := dim_at t a in
    rmap to_tensor (gufunc 0%Qc [red; (t, a :: mom)] (a :: mom) (n :: pk_shape P) (fun l =>
      rmap row_elem (of_opt EZeroDiv (jackknife_data_from K (pk_pack P (acc l 0)) (core_rows n (acc l 1)))))).
  (* resample/resample.py:786-818, 870-901  jackknife_data.  data_reduced: None,
     or the array and its mom_axes_reduced *)
  Definition jackknife_data_nd (data_reduced : option (tensor * option (list Z))) (axis : axis_arg) (mom_axes : list Z)
      (to_end : bool) (t : tensor) : res tensor :=
    let m := length mom_axes in
    rbind (match data_reduced with
           | None => rmap (fun r => (r, axes_last m)) (reduce_data_nd K P mom_axes (Some [axis]) false true t)
           | Some (r, None) => Ok (r, axes_last m)
           | Some (r, Some ax) => Ok (r, ax)
           end) (fun red =>
    rbind (prepare_data axis mom_axes to_end t) (fun '(a, mom, t) => jackknife_data_at red a mom t)).

  (* rolling.py:482-575  rolling_data; min_periods None is window *)
  Definition rolling_data_nd (window : Z) (min_periods : option Z) (center zero_missing_weights : bool)
      (axis : axis_arg) (mom_axes : list Z) (to_end : bool) (t : tensor) : res (grid (option Qc)) :=
    rbind (prepare_data axis mom_axes to_end t) (fun '(a, mom, t) =>
    let shift := center_shift window in
    if (center && (- shift <? 0)%Z)%bool then Raise EValue
    else
      let pad := if center then Z.to_nat (- shift) else 0 in
      let an := Z.to_nat a in
      let t := if center then pad_along an pad t else t in
      let n := dim_at t a in
      rbind (normalize_axis_tuple (Some (map AInt mom)) (tndim t) None true) (fun momn =>
      rmap (zero_missing momn zero_missing_weights)
        (rmap (fun g => if center then slice_from None an pad g else g)
          (gufunc None [(t, a :: mom)] (a :: mom) (n :: pk_shape P) (fun l =>
            rmap row_elem_opt (of_opt EZeroDiv (rolling_data K (Z.to_nat window)
              (match min_periods with None => window | Some k => k end) (core_rows n (acc l 0))))))))).

  (* rolling.py:1087-1108  _prepare_alpha_array; alpha_axis MISSING is None *)
  Definition prepare_alpha (alpha_axis : option axis_arg) (ndat : nat) (to_end : bool) (alpha : tensor) : res (Z * tensor) :=
    if Nat.eqb (tndim alpha) 0 then Ok ((-1)%Z, full ndat (tget alpha []))
    else match alpha_axis with
    | Some x =>
        if Nat.eqb (tndim alpha) 1 then Ok ((-1)%Z, alpha)
        else rbind (normalize_axis_index x (tndim alpha) None) (fun a =>
             let a := positive_to_negative_index (Z.of_nat a) (Z.of_nat (tndim alpha)) in
             if (to_end && negb (a =? -1)%Z)%bool
             then rbind (np_moveaxis [a] [(-1)%Z] alpha) (fun u => Ok ((-1)%Z, u))
             else Ok (a, alpha))
    | None => Ok ((-1)%Z, alpha)
    end.

  (* rolling.py:1111-1168  _rolling_exp_data; alpha after prepare_alpha *)
  Definition rolling_exp_data_at (alpha : tensor) (aa : Z) (adjust : bool) (min_periods : option Z) (zero_missing_weights : bool)
      (a : Z) (mom : list Z) (t : tensor) : res (grid (option Qc)) :=
    let n := dim_at t a in
    rbind (shape_at alpha aa) (fun na =>
    if negb (Nat.eqb na n) then Raise EValue
    else
    rbind (gufunc None [(alpha, [aa]); (t, a :: mom)] (a :: mom) (n :: pk_shape P) (fun l =>
             rmap row_elem_opt (of_opt EZeroDiv (rolling_exp_data K adjust
               (match min_periods with None => 1%Z | Some k => Z.max 1 k end)
               (combine (map (fun i => acc l 0 [i]) (seq 0 n)) (core_rows n (acc l 1))))))) (fun g =>
    rmap (fun momn => zero_missing momn zero_missing_weights g) (normalize_axis_tuple (Some (map AInt mom)) (length (gshape g)) None true))).
  (* rolling.py:1054-1085  rolling_exp_data *)
  Definition rolling_exp_data_nd (alpha : tensor) (alpha_axis : option axis_arg) (adjust : bool) (min_periods : option Z)
      (zero_missing_weights : bool) (axis : axis_arg) (mom_axes : list Z) (to_end : bool) (t : tensor) : res (grid (option Qc)) :=
    rbind (prepare_data axis mom_axes to_end t) (fun '(a, mom, t) =>
    rbind (prepare_alpha alpha_axis (dim_at t a) false alpha) (fun '(aa, alpha) =>
    rolling_exp_data_at alpha aa adjust min_periods zero_missing_weights a mom t)).
End Data.

(* ---- functions of values ------------------------------------------------------------------- *)

(* the values of one sample, read from the arrays x, *y: one or two variables
   [*y of reduce_vals: gufunc signatures of _lib/push.py:38-51 and _lib/push_cov.py] *)
Record reader (V : Type) := Reader { rd_arity : nat; rd_val : list Qc -> V }.
Arguments rd_arity {V}. Arguments rd_val {V}.
(* _lib/push.py:38-51: x, w *)
Definition reader1 : reader Qc := Reader Qc 1 (fun l => nth 0 l 0%Qc).
(* _lib/push_cov.py, reduce_vals: x0, w, x1 *)
Definition reader2 : reader (Qc * Qc) := Reader (Qc * Qc) 2 (fun l => (nth 0 l 0%Qc, nth 1 l 0%Qc)).

Section Vals.
  Context {A V : Type} (K : pusher A V) (P : packer A) (R : reader V).

  (* samples from the operands x, w, *y
     [_lib/push.py:45-51] *)
  Definition core_samples (n : nat) (l : list (list nat -> Qc)) : list (V * Qc) :=
    map (fun i => (rd_val R (acc l 0 [i] :: map (fun y => y [i]) (skipn 2 l)), acc l 1 [i])) (seq 0 n).
  (* reduction.py:309-312 *)
  Definition with_axes (axis_neg : Z) (l : list tensor) : list garg := map (fun t => (t, value_axes axis_neg t)) l.
  (* mom_params.ndim, core/moment_params.py:115-128 *)
  Definition mom_ndim : nat := length (pk_shape P).

  (* reduction.py:217, 254-330  reduce_vals; weight None is the 0-d array 1 *)
  Definition reduce_vals_nd (axis : axis_arg) (x w : tensor) (y : list tensor) : res tensor :=
    rbind (prepare_values (S mom_ndim) axis false x (w :: y)) (fun '(axis_neg, (x, others)) =>
    let args := x :: others in
    let n := dim_at x axis_neg in
    rbind (out_from_values args (pk_shape P) axis_neg None) (fun oshape =>
    rmap to_tensor (gufunc_inout (p_zero K) (pk_unpack P) (with_axes axis_neg args) oshape (axes_last mom_ndim)
      (fun cur l => of_opt EZeroDiv (reduce_vals_into K (core_samples n l) cur))))).

  (* _lib/resample.py:100-111  resample_vals into out *)
  Definition resample_vals_into (freq : list (list Qc)) (xw : list (V * Qc)) (out : list A) : option (list A) :=
    mapM (fun p => foldM (fun o fs => let '(f, (x, w)) := fs in
                            if qeqb f 0 then Some o else p_push_val K x (w * f)%Qc o)
                         (combine (fst p) xw) (snd p)) (combine freq out).

  (* resample/resample.py:540-600  resample_vals with freq = sampler.freq *)
  Definition resample_vals_nd (freq : tensor) (axis : axis_arg) (to_end : bool) (x w : tensor) (y : list tensor) : res tensor :=
    rbind (prepare_values (S mom_ndim) axis to_end x (w :: y)) (fun '(axis_neg, (x, others)) =>
    let args := x :: others in
    let n := dim_at x axis_neg in
    rbind (shape_at freq 0) (fun nrep =>
    rbind (out_from_values args (pk_shape P) axis_neg (Some nrep)) (fun oshape =>
    rbind (shape_at freq (-1)) (fun ncol =>
    if negb (Nat.eqb ncol n) then Raise EValue
    else rmap to_tensor (gufunc_inout (repeat (p_zero K) nrep) (row_elem K P) ((freq, [(-2)%Z; (-1)%Z]) :: with_axes axis_neg args) oshape
      ((axis_neg - Z.of_nat mom_ndim)%Z :: axes_last mom_ndim)
      (fun cur l => of_opt EZeroDiv (resample_vals_into
         (map (fun i => map (fun j => acc l 0 [i; j]) (seq 0 n)) (seq 0 nrep)) (core_samples n (skipn 1 l)) cur))))))).

  (* resample/resample.py:1060-1091, 1158-1245  jackknife_vals *)
  Definition jackknife_vals_nd (data_reduced : option tensor) (axis : axis_arg) (to_end : bool) (x w : tensor) (y : list tensor) : res tensor :=
    rbind (match data_reduced with
           | None => reduce_vals_nd axis x w y
           | Some r => Ok r
           end) (fun red =>
    rbind (prepare_values (S mom_ndim) axis to_end x (w :: y)) (fun '(axis_neg, (x, others)) =>
    let args := x :: others in
    let n := dim_at x axis_neg in
    if negb (if list_eq_dec Nat.eq_dec (skipn (tndim red - mom_ndim) (tshape red)) (pk_shape P) then true else false) then Raise EValue
    else rmap to_tensor (gufunc 0%Qc ((red, axes_last mom_ndim) :: with_axes axis_neg args)
      ((axis_neg - Z.of_nat mom_ndim)%Z :: axes_last mom_ndim) (n :: pk_shape P)
      (fun l => rmap (row_elem K P) (of_opt EZeroDiv (jackknife_vals_from K (pk_pack P (acc l 0)) (core_samples n (skipn 1 l)))))))).

  (* rolling.py:753-856  rolling_vals.  The default sample of the kernel model is
     never read. *)
  Definition rolling_vals_nd (window : Z) (min_periods : option Z) (center zero_missing_weights : bool)
      (axis : axis_arg) (to_end : bool) (x w : tensor) (y : list tensor) : res (grid (option Qc)) :=
    rbind (prepare_values (S mom_ndim) axis to_end x (w :: y)) (fun '(axis_neg, (x, others)) =>
    let shift := center_shift window in
    if (center && (- shift <? 0)%Z)%bool then Raise EValue
    else
      let pad := if center then Z.to_nat (- shift) else 0 in
      let pos t := if Nat.eqb (tndim t) 1 then 0 else Z.to_nat (axis_neg + Z.of_nat (tndim t)) in
      let args := map (fun t => if center then pad_along (pos t) pad t else t) (x :: others) in
      let n := dim_at (nth 0 args x) axis_neg in
      rbind (out_from_values args (pk_shape P) axis_neg (Some n)) (fun oshape =>
      rmap (zero_missing (seq (length oshape - mom_ndim) mom_ndim) zero_missing_weights)
        (rmap (fun g => if center then slice_from None (Z.to_nat (axis_neg - Z.of_nat mom_ndim + Z.of_nat (length oshape))) pad g else g)
          (gufunc_inout [] (row_elem_opt P) (with_axes axis_neg args) oshape
            ((axis_neg - Z.of_nat mom_ndim)%Z :: axes_last mom_ndim)
            (fun _ l => of_opt EZeroDiv (rolling_vals K (rd_val R [], 0%Qc) (Z.to_nat window)
               (match min_periods with None => window | Some k => k end) (core_samples n l))))))).

  (* rolling.py:1356-1450  rolling_exp_vals: alpha is prepared like a weight, but
     does not take part in the shape of the result *)
  Definition rolling_exp_vals_nd (alpha : tensor) (adjust : bool) (min_periods : option Z) (zero_missing_weights : bool)
      (axis : axis_arg) (to_end : bool) (x w : tensor) (y : list tensor) : res (grid (option Qc)) :=
    rbind (prepare_values (S (S mom_ndim)) axis to_end x (w :: alpha :: y)) (fun '(axis_neg, (x, others)) =>
    match others with
    | w :: alpha :: y =>
      let args := x :: w :: y in
      let n := dim_at x axis_neg in
      rbind (out_from_values args (pk_shape P) axis_neg (Some n)) (fun oshape =>
      rmap (zero_missing (seq (length oshape - mom_ndim) mom_ndim) zero_missing_weights)
        (gufunc_inout [] (row_elem_opt P) (with_axes axis_neg (alpha :: args)) oshape
          ((axis_neg - Z.of_nat mom_ndim)%Z :: axes_last mom_ndim)
          (fun _ l => of_opt EZeroDiv (rolling_exp_vals K adjust
             (match min_periods with None => 1%Z | Some k => Z.max 1 k end)
             (combine (map (fun i => acc l 0 [i]) (seq 0 n)) (core_samples n (skipn 1 l)))))))
    | _ => Raise EValue
    end).
End Vals.
