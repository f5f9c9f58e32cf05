(* Model of the one-variable push kernels: src/cmomy/_lib/_push.py,
   src/cmomy/_lib/_binomial.py and the loops of src/cmomy/_lib/push.py.

   Simplifications common to the whole file: float32/float64 numbers become
   exact rationals; [None] is the ZeroDivisionError raised by the division
   w / out[0] with a zero total (numba's default error model, see
   tests/test_wrapper_xarray.py:62-63); it aborts the whole kernel call. *)
From Verif Require Import Base.
Local Open Scope Qc_scope.

(* _binomial.py:16-25  _binom.  The factorial quotient is exact. *)
Definition binom_entry (n k : nat) : Qc :=
  if Nat.ltb k n then qn (fact n) / (qn (fact k) * qn (fact (n - k)))
  else if Nat.eqb n k then 1
  else 0.

(* _binomial.py:28-35  factory_binomial: square table of size order+1. *)
Definition factory_binomial (order : nat) : arr2 :=
  map (fun n => map (fun k => binom_entry n k) (seq 0 (order + 1)))
      (seq 0 (order + 1)).

(* _binomial.py:37  BINOMIAL_FACTOR[a, b], the table for OPTIONS["nmax"].
   A read outside of the table (unchecked memory read in the compiled code)
   is 0 here; theorems assume the order does not exceed nmax. *)
Definition BF (nmax a b : nat) : Qc := get2 (factory_binomial nmax) a b.

(* Loop variables (tmp, delta_b, alpha_b, minus_b, one_alpha_b)
   [locals of _lib/_push.py:45-66, 98-124, 154-179] *)
Definition lvars := (Qc * Qc * Qc * Qc * Qc)%type.

(* _push.py:51-65  one pass of the inner loop of push_val *)
Definition val_step (nmax : nat) (out : arr) (alpha one_alpha delta : Qc) (a : nat)
           (v : lvars) (b : nat) : lvars :=
  let '(tmp, delta_b, alpha_b, minus_b, one_alpha_b) := v in
  let c := (a - b)%nat in
  (tmp + BF nmax a b * delta_b * (minus_b * alpha_b * one_alpha * getq out c),
   delta_b * delta,
   alpha_b * alpha,
   minus_b * (-(1)),
   one_alpha_b * one_alpha).

(* _push.py:44-67  body of "for a in range(order, 2, -1)" of push_val *)
Definition val_entry (nmax : nat) (out : arr) (alpha one_alpha delta : Qc) (a : nat) : Qc :=
  let '(tmp, delta_b, alpha_b, minus_b, one_alpha_b) :=
    fold_left (val_step nmax out alpha one_alpha delta a) (seq 0 (a - 1)) (0, 1, 1, 1, 1) in
  tmp + delta * alpha * one_alpha * delta_b * (- minus_b * alpha_b + one_alpha_b).

(* range(order, 2, -1)
   [_lib/_push.py:44, 97, 153] *)
Definition desc_range (order : nat) : list nat := rev (seq 3 (order - 2)).

(* _push.py:28-68  push_val *)
Definition push_val (nmax : nat) (x w : Qc) (out : arr) : option arr :=
  if qeqb w 0 then Some out
  else
    let order := (length out - 1)%nat in
    let out := upd out 0 (getq out 0 + w) in
    if qeqb (getq out 0) 0 then None
    else
      let alpha := w / getq out 0 in
      let one_alpha := 1 - alpha in
      let delta := x - getq out 1 in
      let incr := delta * alpha in
      let out := upd out 1 (getq out 1 + incr) in
      if Nat.eqb order 1 then Some out
      else
        let out := fold_left
          (fun o a => upd o a (val_entry nmax o alpha one_alpha delta a))
          (desc_range order) out in
        Some (upd out 2 (one_alpha * (getq out 2 + delta * incr))).

(* _push.py:104-120 and 160-176  inner loop of push_data / push_data_scale *)
Definition data_step (nmax : nat) (data out : arr) (alpha one_alpha delta : Qc) (a : nat)
           (v : lvars) (b : nat) : lvars :=
  let '(tmp, delta_b, alpha_b, minus_b, one_alpha_b) := v in
  let c := (a - b)%nat in
  (tmp + BF nmax a b * delta_b *
         (minus_b * alpha_b * one_alpha * getq out c
          + one_alpha_b * alpha * getq data c),
   delta_b * delta,
   alpha_b * alpha,
   minus_b * (-(1)),
   one_alpha_b * one_alpha).

(* _lib/_push.py:97-124 and 153-179: body of the loop over a *)
Definition data_entry (nmax : nat) (data out : arr) (alpha one_alpha delta : Qc) (a : nat) : Qc :=
  let '(tmp, delta_b, alpha_b, minus_b, one_alpha_b) :=
    fold_left (data_step nmax data out alpha one_alpha delta a) (seq 0 (a - 1)) (0, 1, 1, 1, 1) in
  tmp + delta * alpha * one_alpha * delta_b * (- minus_b * alpha_b + one_alpha_b).

(* _push.py:79-126  push_data *)
Definition push_data (nmax : nat) (data out : arr) : option arr :=
  let w := getq data 0 in
  if qeqb w 0 then Some out
  else
    let order := (length out - 1)%nat in
    let out := upd out 0 (getq out 0 + w) in
    if qeqb (getq out 0) 0 then None
    else
      let alpha := w / getq out 0 in
      let one_alpha := 1 - alpha in
      let delta := getq data 1 - getq out 1 in
      let incr := delta * alpha in
      let out := upd out 1 (getq out 1 + incr) in
      if Nat.eqb order 1 then Some out
      else
        let out := fold_left
          (fun o a => upd o a (data_entry nmax data o alpha one_alpha delta a))
          (desc_range order) out in
        Some (upd out 2 (getq data 2 * alpha + one_alpha * (getq out 2 + delta * incr))).

(* _push.py:136-181  push_data_scale (the same text with w = data[0] * scale) *)
Definition push_data_scale (nmax : nat) (data : arr) (scale : Qc) (out : arr) : option arr :=
  let w := getq data 0 * scale in
  if qeqb w 0 then Some out
  else
    let order := (length out - 1)%nat in
    let out := upd out 0 (getq out 0 + w) in
    if qeqb (getq out 0) 0 then None
    else
      let alpha := w / getq out 0 in
      let one_alpha := 1 - alpha in
      let delta := getq data 1 - getq out 1 in
      let incr := delta * alpha in
      let out := upd out 1 (getq out 1 + incr) in
      if Nat.eqb order 1 then Some out
      else
        let out := fold_left
          (fun o a => upd o a (data_entry nmax data o alpha one_alpha delta a))
          (desc_range order) out in
        Some (upd out 2 (getq data 2 * alpha + one_alpha * (getq out 2 + delta * incr))).

(* push.py:61-62 with data and out the same memory (a += a): every read of
   data[...] in _push.py:79-126 sees the writes already done to out. *)
Definition push_data_aliased (nmax : nat) (out : arr) : option arr :=
  let w := getq out 0 in
  if qeqb w 0 then Some out
  else
    let order := (length out - 1)%nat in
    let out := upd out 0 (getq out 0 + w) in
    if qeqb (getq out 0) 0 then None
    else
      let alpha := w / getq out 0 in
      let one_alpha := 1 - alpha in
      let delta := getq out 1 - getq out 1 in
      let incr := delta * alpha in
      let out := upd out 1 (getq out 1 + incr) in
      if Nat.eqb order 1 then Some out
      else
        let out := fold_left
          (fun o a => upd o a (data_entry nmax o o alpha one_alpha delta a))
          (desc_range order) out in
        Some (upd out 2 (getq out 2 * alpha + one_alpha * (getq out 2 + delta * incr))).
