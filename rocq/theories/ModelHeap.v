(* Model of numpy memory shared between CentralMomentsArray objects:
   wrapper/wrap_abc.py:204-210, 310-325, 494-518 (operators), 688-740
   (assign_moment), 1124-1209 (cmom, to_raw, rmom), wrapper/wrap_np.py:161-199
   (constructor, indexing), 253-302 (new_like), 364-410 (push_data),
   utils.py:760-780 (_assign_moment), reduction.py:590-591 and the push kernels of
   _lib/_push.py, _lib/_push_cov.py with their loads and stores.

   Memory is one list of numbers, an address is a position in it.  A row is the
   list of the addresses of the moments (in C order) at one outer position, so
   strides, reversed and overlapping views are all covered.  An array is the list
   of its rows, outer positions in C order. *)
From Verif Require Import Base ModelPush ModelPushCov ModelKernels.
Local Open Scope Qc_scope.

(* the memory the arrays self._obj live in, wrap_abc.py:99-117; see the head of the file *)
Definition mem := list Qc.
(* numpy views: addresses of the moments at one position, as pushed by wrap_np.py:363-412 *)
Definition hrow := list nat.
(* numpy views: the rows of self._obj, wrap_abc.py:99-117 *)
Definition harr := list hrow.

(* element i of a row
   [load in _lib/_push.py:72-181] *)
Definition hget (m : mem) (r : hrow) (i : nat) : Qc :=
  match nth_error r i with Some a => getq m a | None => 0 end.
(* store in _lib/_push.py:72-181 *)
Definition hset (m : mem) (r : hrow) (i : nat) (v : Qc) : mem :=
  match nth_error r i with Some a => upd m a v | None => m end.
(* all elements
   [reading an array, wrap_abc.py:193-201] *)
Definition hval (m : mem) (r : hrow) : list Qc := map (getq m) r.
(* r x c numbers in C order as a matrix
   [an array of shape (mom0, mom1) from its entries, _lib/_push_cov.py:99-256] *)
Definition chunk (r c : nat) (l : list Qc) : arr2 :=
  map (fun i => map (fun j => getq l (i * c + j)) (seq 0 c)) (seq 0 r).

(* _push.py:79-126 push_data (scale None) and 136-181 push_data_scale, data and
   out being rows in memory.  The flag tells whether the call ended without
   ZeroDivisionError. *)
Definition hpush1 (nmax : nat) (scale : option Qc) (d o : hrow) (m : mem) : mem * bool :=
  let w := match scale with None => hget m d 0 | Some s => hget m d 0 * s end in
  if qeqb w 0 then (m, true)
  else
    let order := (length o - 1)%nat in
    let m := hset m o 0 (hget m o 0 + w) in
    if qeqb (hget m o 0) 0 then (m, false)
    else
      let alpha := w / hget m o 0 in
      let one_alpha := 1 - alpha in
      let delta := hget m d 1 - hget m o 1 in
      let incr := delta * alpha in
      let m := hset m o 1 (hget m o 1 + incr) in
      if Nat.eqb order 1 then (m, true)
      else
        let m := fold_left
          (fun m a => hset m o a (data_entry nmax (hval m d) (hval m o) alpha one_alpha delta a))
          (desc_range order) m in
        (hset m o 2 (hget m d 2 * alpha + one_alpha * (hget m o 2 + delta * incr)), true).

(* position of out[i, j] in a row
   [subscript out[i, j] of _lib/_push_cov.py:99-256] *)
Definition at2 (n1 i j : nat) : nat := (i * S n1 + j)%nat.
(* _push_cov.py:106-175 push_data and 185-256 push_data_scale *)
Definition hpush2 (nmax n0 n1 : nat) (scale : option Qc) (d o : hrow) (m : mem) : mem * bool :=
  let w := match scale with None => hget m d (at2 n1 0 0) | Some s => hget m d (at2 n1 0 0) * s end in
  if qeqb w 0 then (m, true)
  else
    let m := hset m o (at2 n1 0 0) (hget m o (at2 n1 0 0) + w) in
    if qeqb (hget m o (at2 n1 0 0)) 0 then (m, false)
    else
      let alpha := w / hget m o (at2 n1 0 0) in
      let one_alpha := 1 - alpha in
      let delta0 := hget m d (at2 n1 1 0) - hget m o (at2 n1 1 0) in
      let delta1 := hget m d (at2 n1 0 1) - hget m o (at2 n1 0 1) in
      let incr0 := delta0 * alpha in
      let incr1 := delta1 * alpha in
      let m := hset m o (at2 n1 1 0) (hget m o (at2 n1 1 0) + incr0) in
      let m := hset m o (at2 n1 0 1) (hget m o (at2 n1 0 1) + incr1) in
      let a0_min := Nat.max 0 (2 - n1) in
      (fold_left (fun m a0 =>
         let a1_min := Nat.max 0 (2 - a0) in
         fold_left (fun m a1 =>
           hset m o (at2 n1 a0 a1)
             (cdata_entry nmax (chunk (S n0) (S n1) (hval m d)) (chunk (S n0) (S n1) (hval m o))
                          alpha one_alpha delta0 delta1 a0 a1))
           (down a1_min n1) m)
         (down a0_min n0) m, true).

(* the kernel for one or two variables: number of moments of a row, the numbers
   of a row as moments, push with optional scale
   [factory.py:234-269 factory_pusher] *)
Record hkernel (A : Type) := HKernel {
  hk_width : nat;
  hk_of : list Qc -> A;
  hk_push : option Qc -> hrow -> hrow -> mem -> mem * bool
}.
Arguments hk_width {A}. Arguments hk_of {A}. Arguments hk_push {A}.
(* _lib/_push.py:72-181 *)
Definition hkernel1 (nmax n : nat) : hkernel arr := HKernel arr (S n) (fun l => l) (hpush1 nmax).
(* _lib/_push_cov.py:99-256 *)
Definition hkernel2 (nmax n0 n1 : nat) : hkernel arr2 :=
  HKernel arr2 (S n0 * S n1) (chunk (S n0) (S n1)) (hpush2 nmax n0 n1).

Section Heap.
  Context {A : Type} (H : hkernel A).

  (* the outer loop of the gufunc, sequential: rows of data and out in pairs; an
     array with a single row is broadcast (out as well).  ValueError (None) when the
     numbers of rows do not fit.  Several outer axes are flattened; broadcasting
     along some of them only is not modelled.
     [call of the gufunc at wrap_np.py:392-412] *)
  Definition row_pairs (ds os : harr) : option (list (hrow * hrow)) :=
    if Nat.eqb (length ds) (length os) then Some (combine ds os)
    else match ds, os with
         | [d], _ => Some (map (fun o => (d, o)) os)
         | _, [o] => Some (map (fun d => (d, o)) ds)
         | _, _ => None
         end.
  (* the loop stops at the first row with ZeroDivisionError
     [numba loop over the gufunc positions, _lib/push.py:54-87] *)
  Fixpoint push_rows (scale : option Qc) (ps : list (hrow * hrow)) (m : mem) : mem * bool :=
    match ps with
    | [] => (m, true)
    | (d, o) :: t => let (m1, ok) := hk_push H scale d o m in
                     if ok then push_rows scale t m1 else (m1, false)
    end.
  (* wrap_np.py:363-412 push_data *)
  Definition push_array (scale : option Qc) (ds os : harr) (m : mem) : mem * bool :=
    match row_pairs ds os with
    | None => (m, false)
    | Some ps => push_rows scale ps m
    end.

  (* fresh memory for rows of numbers; a copy
     [np.empty and array.copy(), wrap_abc.py:306-327] *)
  Fixpoint alloc (vals : list (list Qc)) (m : mem) : mem * harr :=
    match vals with
    | [] => (m, [])
    | v :: t => let (m', a) := alloc t (m ++ v) in (m', seq (length m) (length v) :: a)
    end.
  (* entries of an array, wrap_abc.py:193-201 *)
  Definition values (m : mem) (a : harr) : list (list Qc) := map (hval m) a.
  (* wrap_abc.py:306-327 copy *)
  Definition copy_array (a : harr) (m : mem) : mem * harr := alloc (values m a) m.

  (* utils.py:774-775 out[indexer] = value: entries of the moment indexer with the
     value at each outer position *)
  Definition write_row (es : list (nat * Qc)) (r : hrow) (m : mem) : mem :=
    fold_left (fun m e => hset m r (fst e) (snd e)) es m.
  (* utils.py:760-782 over the rows of the array *)
  Fixpoint write_rows (es : nat -> list (nat * Qc)) (k : nat) (a : harr) (m : mem) : mem :=
    match a with
    | [] => m
    | r :: t => write_rows es (S k) t (write_row (es k) r m)
    end.

  (* memory and the arrays of the objects made so far
     [objects of a program using wrap_np.py] *)
  Record hst := HSt { smem : mem; sobjs : list harr }.

  (* operations of wrap_abc.py and wrap_np.py listed at the head of the file *)
  Inductive hop :=
    (* an object with memory of its own: zeros, an array of the caller's wrapped,
       the result of a kernel that allocates its output *)
    | HNew (vals : list (list Qc))
    (* new_like(obj=x.obj, copy), CentralMomentsArray(x.obj, copy=copy), copy():
       wrap_np.py:161-167 np.array(obj, copy=copy_if_needed(copy)).  copy=False is
       also x.reduce(axis=()) (reduction.py:590-591, _new_like), moveaxis and
       astype(copy=False) to the same dtype *)
    | HLike (i : nat) (copy : bool)
    (* wrap_np.py:186-199 x[slice] and iteration: a view of some rows *)
    | HView (i : nat) (rows : list nat)
    (* x[list of positions]: a copy *)
    | HTake (i : nat) (rows : list nat)
    (* wrap_abc.py:499-502, 509-512: x + y (scale None), x - y (scale -1) *)
    | HAdd (i j : nat) (scale : option Qc)
    (* wrap_abc.py:494-497, 504-507: x += y, x -= y; x.push_data(y.obj, scale=scale) *)
    | HIadd (i j : nat) (scale : option Qc)
    (* wrap_abc.py:688-740 x.assign_moment(..., copy=copy) *)
    | HAssign (i : nat) (es : nat -> list (nat * Qc)) (copy : bool)
    (* wrap_abc.py:514-518 x * s, x *= s *)
    | HMul (i : nat) (s : Qc)
    | HImul (i : nat) (s : Qc)
    (* a new array computed from the values of x: to_raw, reduce, cumulative, ... *)
    | HCompute (i : nat) (f : list (list Qc) -> list (list Qc))
    (* wrap_abc.py:1124-1149 cmom: assign_moment(weight=1, ave=0, copy=True) *)
    | HCmom (i : nat) (ave : list nat)
    (* wrap_abc.py:1151-1209 to_raw(weight) / rmom: a new array from moments_type,
       then assign_moment(weight=..., copy=False) on it *)
    | HRaw (i : nat) (f : list (list Qc) -> list (list Qc)) (weight : option Qc).

  (* a variable of a program using wrap_np.py *)
  Definition obj (s : hst) (i : nat) : option harr := nth_error (sobjs s) i.
  (* a new object, wrap_abc.py:204-210 _new_like *)
  Definition add_obj (m : mem) (s : hst) (a : harr) : hst := HSt m (sobjs s ++ [a]).
  (* numpy basic indexing, wrap_np.py:191-203 *)
  Definition pick_rows (rows : list nat) (a : harr) : harr :=
    flat_map (fun k => match nth_error a k with Some r => [r] | None => [] end) rows.
  (* wrap_abc.py:1102-1104 weight *)
  Definition weights (m : mem) (a : harr) (k : nat) : Qc := hget m (nth k a []) 0.

  (* one operation; the flag is false when it raised (or named no object)
     [wrap_abc.py:204-210, 306-327, 494-522, 696-751, 1124-1209 and wrap_np.py:136-412] *)
  Definition hstep (s : hst) (op : hop) : hst * bool :=
    let m := smem s in
    let with_obj i (f : harr -> hst * bool) := match obj s i with Some a => f a | None => (s, false) end in
    match op with
    | HNew vals => let (m', a) := alloc vals m in (add_obj m' s a, true)
    | HLike i copy => with_obj i (fun a =>
        if copy then let (m', a') := copy_array a m in (add_obj m' s a', true)
        else (add_obj m s a, true))
    | HView i rows => with_obj i (fun a => (add_obj m s (pick_rows rows a), true))
    | HTake i rows => with_obj i (fun a =>
        let (m', a') := copy_array (pick_rows rows a) m in (add_obj m' s a', true))
    | HAdd i j scale => with_obj i (fun a => with_obj j (fun b =>
        let (m1, a') := copy_array a m in
        let (m2, ok) := push_array scale b a' m1 in
        if ok then (add_obj m2 s a', true) else (HSt m2 (sobjs s), false)))
    | HIadd i j scale => with_obj i (fun a => with_obj j (fun b =>
        let (m', ok) := push_array scale b a m in (HSt m' (sobjs s), ok)))
    | HAssign i es copy => with_obj i (fun a =>
        if copy then let (m1, a') := copy_array a m in (add_obj (write_rows es 0 a' m1) s a', true)
        else (add_obj (write_rows es 0 a m) s a, true))
    | HMul i x => with_obj i (fun a =>
        let (m1, a') := copy_array a m in
        (add_obj (write_rows (fun k => [(0%nat, weights m a k * x)]) 0 a' m1) s a', true))
    | HImul i x => with_obj i (fun a =>
        (HSt (write_rows (fun k => [(0%nat, weights m a k * x)]) 0 a m) (sobjs s), true))
    | HCompute i f => with_obj i (fun a =>
        let (m', a') := alloc (f (values m a)) m in (add_obj m' s a', true))
    | HCmom i ave => with_obj i (fun a =>
        let (m1, a') := copy_array a m in
        (add_obj (write_rows (fun _ => (0%nat, 1) :: map (fun e => (e, 0)) ave) 0 a' m1) s a', true))
    | HRaw i f weight => with_obj i (fun a =>
        let (m1, a') := alloc (f (values m a)) m in
        let m2 := match weight with
                  | None => m1
                  | Some w => write_rows (fun _ => [(0%nat, w)]) 0 a' m1
                  end in
        (add_obj m2 s a', true))
    end.
  (* a program; it goes on after an exception was caught
     [programs over wrap_abc.py and wrap_np.py] *)
  Fixpoint hrun (ops : list hop) (s : hst) : hst :=
    match ops with [] => s | op :: t => hrun t (fst (hstep s op)) end.
  (* before any object of wrap_np.py is made *)
  Definition heap0 : hst := HSt [] [].
End Heap.
