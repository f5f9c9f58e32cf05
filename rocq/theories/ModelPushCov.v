(* Model of the two-variable push kernels: src/cmomy/_lib/_push_cov.py.
   Same simplifications as ModelPush. *)
From Verif Require Import Base ModelPush.
Local Open Scope Qc_scope.

(* _push_cov.py:60-92  inner b1 loop of push_val; variables
   (tmp, delta1_b1, alpha_bb, minus_bb, one_alpha_bb) *)
Definition cval_step1 (nmax : nat) (out : arr2) (alpha one_alpha delta1 delta0_b0 f0 : Qc)
           (a1 c0 : nat) (v : lvars) (b1 : nat) : lvars :=
  let '(tmp, delta1_b1, alpha_bb, minus_bb, one_alpha_bb) := v in
  let c1 := (a1 - b1)%nat in
  let cs := (c0 + c1)%nat in
  let tmp' :=
    if Nat.eqb cs 0 then
      tmp + delta0_b0 * delta1_b1 * (minus_bb * alpha_bb * one_alpha + one_alpha_bb * alpha)
    else if negb (Nat.eqb cs 1) then
      tmp + f0 * BF nmax a1 b1 * delta0_b0 * delta1_b1
            * (minus_bb * alpha_bb * one_alpha * get2 out c0 c1)
    else tmp in
  (tmp', delta1_b1 * delta1, alpha_bb * alpha, minus_bb * (-(1)), one_alpha_bb * one_alpha).

(* _push_cov.py:59-97  b0 loop of push_val; variables
   (tmp, delta0_b0, alpha_b0, minus_b0, one_alpha_b0) *)
Definition cval_step0 (nmax : nat) (out : arr2) (alpha one_alpha delta0 delta1 : Qc)
           (a0 a1 : nat) (v : lvars) (b0 : nat) : lvars :=
  let '(tmp, delta0_b0, alpha_b0, minus_b0, one_alpha_b0) := v in
  let c0 := (a0 - b0)%nat in
  let f0 := BF nmax a0 b0 in
  let '(tmp', _, _, _, _) :=
    fold_left (cval_step1 nmax out alpha one_alpha delta1 delta0_b0 f0 a1 c0)
              (seq 0 (a1 + 1)) (tmp, 1, alpha_b0, minus_b0, one_alpha_b0) in
  (tmp', delta0_b0 * delta0, alpha_b0 * alpha, minus_b0 * (-(1)), one_alpha_b0 * one_alpha).

(* _lib/_push_cov.py:54-96: body of the loops over a0, a1 *)
Definition cval_entry (nmax : nat) (out : arr2) (alpha one_alpha delta0 delta1 : Qc)
           (a0 a1 : nat) : Qc :=
  let '(tmp, _, _, _, _) :=
    fold_left (cval_step0 nmax out alpha one_alpha delta0 delta1 a0 a1)
              (seq 0 (a0 + 1)) (0, 1, 1, 1, 1) in tmp.

(* range(hi, lo - 1, -1)
   [_lib/_push_cov.py:50-53, 125-129, 206-210] *)
Definition down (lo hi : nat) : list nat := rev (seq lo (hi + 1 - lo)).

(* the two nested descending loops over (a0, a1) with in-place writes,
   _push_cov.py:50-53/96, 125-129/175, 206-210/256 *)
Definition nest_desc (order0 order1 : nat) (g : arr2 -> nat -> nat -> Qc) (out : arr2) : arr2 :=
  let a0_min := Nat.max 0 (2 - order1) in
  fold_left (fun o a0 =>
     let a1_min := Nat.max 0 (2 - a0) in
     fold_left (fun o a1 => upd2 o a0 a1 (g o a0 a1)) (down a1_min order1) o)
   (down a0_min order0) out.

(* number of columns, out.shape[1]
   [_lib/_push_cov.py:32-33] *)
Definition ncol (a : arr2) : nat := length (nth 0 a []).

(* _push_cov.py:27-96  push_val *)
Definition cpush_val (nmax : nat) (x : Qc * Qc) (w : Qc) (out : arr2) : option arr2 :=
  if qeqb w 0 then Some out
  else
    let '(x0, x1) := x in
    let order0 := (length out - 1)%nat in
    let order1 := (ncol out - 1)%nat in
    let out := upd2 out 0 0 (get2 out 0 0 + w) in
    if qeqb (get2 out 0 0) 0 then None
    else
      let alpha := w / get2 out 0 0 in
      let one_alpha := 1 - alpha in
      let delta0 := x0 - get2 out 1 0 in
      let delta1 := x1 - get2 out 0 1 in
      let incr0 := delta0 * alpha in
      let incr1 := delta1 * alpha in
      let out := upd2 out 1 0 (get2 out 1 0 + incr0) in
      let out := upd2 out 0 1 (get2 out 0 1 + incr1) in
      Some (nest_desc order0 order1
              (fun o a0 a1 => cval_entry nmax o alpha one_alpha delta0 delta1 a0 a1) out).

(* _push_cov.py:139-168 and 220-249  inner b1 loop of push_data(_scale) *)
Definition cdata_step1 (nmax : nat) (data out : arr2) (alpha one_alpha delta1 delta0_b0 f0 : Qc)
           (a1 c0 : nat) (v : lvars) (b1 : nat) : lvars :=
  let '(tmp, delta1_b1, alpha_bb, minus_bb, one_alpha_bb) := v in
  let c1 := (a1 - b1)%nat in
  let cs := (c0 + c1)%nat in
  let tmp' :=
    if Nat.eqb cs 0 then
      tmp + delta0_b0 * delta1_b1 * (minus_bb * alpha_bb * one_alpha + one_alpha_bb * alpha)
    else if negb (Nat.eqb cs 1) then
      tmp + f0 * BF nmax a1 b1 * delta0_b0 * delta1_b1
            * (minus_bb * alpha_bb * one_alpha * get2 out c0 c1
               + one_alpha_bb * alpha * get2 data c0 c1)
    else tmp in
  (tmp', delta1_b1 * delta1, alpha_bb * alpha, minus_bb * (-(1)), one_alpha_bb * one_alpha).

(* _lib/_push_cov.py:131-173 and 212-254: b0 loop *)
Definition cdata_step0 (nmax : nat) (data out : arr2) (alpha one_alpha delta0 delta1 : Qc)
           (a0 a1 : nat) (v : lvars) (b0 : nat) : lvars :=
  let '(tmp, delta0_b0, alpha_b0, minus_b0, one_alpha_b0) := v in
  let c0 := (a0 - b0)%nat in
  let f0 := BF nmax a0 b0 in
  let '(tmp', _, _, _, _) :=
    fold_left (cdata_step1 nmax data out alpha one_alpha delta1 delta0_b0 f0 a1 c0)
              (seq 0 (a1 + 1)) (tmp, 1, alpha_b0, minus_b0, one_alpha_b0) in
  (tmp', delta0_b0 * delta0, alpha_b0 * alpha, minus_b0 * (-(1)), one_alpha_b0 * one_alpha).

(* _lib/_push_cov.py:129-175 and 210-256: body of the loops over a0, a1 *)
Definition cdata_entry (nmax : nat) (data out : arr2) (alpha one_alpha delta0 delta1 : Qc)
           (a0 a1 : nat) : Qc :=
  let '(tmp, _, _, _, _) :=
    fold_left (cdata_step0 nmax data out alpha one_alpha delta0 delta1 a0 a1)
              (seq 0 (a0 + 1)) (0, 1, 1, 1, 1) in tmp.

(* _push_cov.py:106-175  push_data *)
Definition cpush_data (nmax : nat) (data out : arr2) : option arr2 :=
  let w := get2 data 0 0 in
  if qeqb w 0 then Some out
  else
    let order0 := (length out - 1)%nat in
    let order1 := (ncol out - 1)%nat in
    let out := upd2 out 0 0 (get2 out 0 0 + w) in
    if qeqb (get2 out 0 0) 0 then None
    else
      let alpha := w / get2 out 0 0 in
      let one_alpha := 1 - alpha in
      let delta0 := get2 data 1 0 - get2 out 1 0 in
      let delta1 := get2 data 0 1 - get2 out 0 1 in
      let incr0 := delta0 * alpha in
      let incr1 := delta1 * alpha in
      let out := upd2 out 1 0 (get2 out 1 0 + incr0) in
      let out := upd2 out 0 1 (get2 out 0 1 + incr1) in
      Some (nest_desc order0 order1
              (fun o a0 a1 => cdata_entry nmax data o alpha one_alpha delta0 delta1 a0 a1) out).

(* _push_cov.py:185-256  push_data_scale *)
Definition cpush_data_scale (nmax : nat) (data : arr2) (scale : Qc) (out : arr2) : option arr2 :=
  let w := get2 data 0 0 * scale in
  if qeqb w 0 then Some out
  else
    let order0 := (length out - 1)%nat in
    let order1 := (ncol out - 1)%nat in
    let out := upd2 out 0 0 (get2 out 0 0 + w) in
    if qeqb (get2 out 0 0) 0 then None
    else
      let alpha := w / get2 out 0 0 in
      let one_alpha := 1 - alpha in
      let delta0 := get2 data 1 0 - get2 out 1 0 in
      let delta1 := get2 data 0 1 - get2 out 0 1 in
      let incr0 := delta0 * alpha in
      let incr1 := delta1 * alpha in
      let out := upd2 out 1 0 (get2 out 1 0 + incr0) in
      let out := upd2 out 0 1 (get2 out 0 1 + incr1) in
      Some (nest_desc order0 order1
              (fun o a0 a1 => cdata_entry nmax data o alpha one_alpha delta0 delta1 a0 a1) out).
