(* Model of compiled kernels run by several threads: the *_parallel.py modules
   are the kernels of _lib/*.py compiled with target="parallel"
   (_lib/decorators.py:60-96, 129-138).  Numba then runs the outer loop of the
   gufunc, one call of the kernel body per outer position, on several threads.
   Every load and store of an array element is one atomic step; steps of
   different positions interleave in any way.  The memory model is sequentially
   consistent; how positions are grouped into chunks does not matter here. *)
From Verif Require Import Base ModelPush ModelIndex.

(* a kernel call: loads and stores of array elements, local variables and
   control flow in the continuations
   [a compiled kernel of _lib/*.py, _lib/decorators.py:60-96] *)
Inductive prog (L V : Type) :=
  | Done
  | Load (l : L) (k : V -> prog L V)
  | Store (l : L) (v : V) (k : prog L V).
Arguments Done {L V}. Arguments Load {L V}. Arguments Store {L V}.

Section Threads.
  Context {L V : Type} (dec : forall a b : L, {a = b} + {a <> b}).
  (* contents of the arrays passed to a kernel of _lib/push.py *)
  Definition memory := L -> V.
  (* a store, as in _lib/push.py:96-102 *)
  Definition mset (m : memory) (l : L) (v : V) : memory := fun x => if dec x l then v else m x.
  (* the call alone
     [a sequential kernel, _lib/decorators.py:60-96] *)
  Fixpoint alone (p : prog L V) (m : memory) : memory :=
    match p with
    | Done => m
    | Load l k => alone (k (m l)) m
    | Store l v k => alone k (mset m l v)
    end.
  (* one atomic step of one call
     [one load or store of a kernel, as in _lib/push.py:96-102] *)
  Definition step1 (p : prog L V) (m : memory) : option (prog L V * memory) :=
    match p with
    | Done => None
    | Load l k => Some (k (m l), m)
    | Store l v k => Some (k, mset m l v)
    end.
  (* a step of the whole: call number i does a step
     [target="parallel", _lib/decorators.py:60-96, 129-138] *)
  Inductive pool_step : list (prog L V) * memory -> list (prog L V) * memory -> Prop :=
    | pool_at i ps m p q m' : nth_error ps i = Some p -> step1 p m = Some (q, m') ->
        pool_step (ps, m) (upd ps i q, m').
  (* any number of steps of a kernel compiled by _lib/decorators.py:60-96 *)
  Inductive reach : list (prog L V) * memory -> list (prog L V) * memory -> Prop :=
    | reach_here s : reach s s
    | reach_step s1 s2 s3 : pool_step s1 s2 -> reach s2 s3 -> reach s1 s3.
  (* one call after the other, in order
     [target="cpu", _lib/decorators.py:60-96, 129-138] *)
  Definition in_order (ps : list (prog L V)) (m : memory) : memory := fold_left (fun m p => alone p m) ps m.
  (* all calls returned, _lib/decorators.py:60-96 *)
  Definition finished (ps : list (prog L V)) : Prop := Forall (fun p => p = Done) ps.

  (* loads and stores of lists of elements
     [a row read, _lib/push.py:96-102] *)
  Fixpoint loads (ls : list L) (k : list V -> prog L V) : prog L V :=
    match ls with [] => k [] | l :: t => Load l (fun v => loads t (fun vs => k (v :: vs))) end.
  (* a row written, _lib/push.py:96-102 *)
  Fixpoint stores (lvs : list (L * V)) (k : prog L V) : prog L V :=
    match lvs with [] => k | (l, v) :: t => Store l v (stores t k) end.
End Threads.

(* elements of arrays: of the input number b, of the output; outer position and
   offset in the core part
   [array elements in _lib/push.py:96-102, _lib/resample.py:23-48] *)
Inductive elem := In_ (b pos k : nat) | Out_ (pos k : nat).
(* are they the same element, _lib/push.py:96-102 *)
Definition elem_dec : forall a b : elem, {a = b} + {a <> b}.
Proof. decide equality; apply Nat.eq_dec. Defined.

(* _lib/push.py:96-102 reduce_data_fromzero at outer position pos, one variable of
   order n: out[...] = 0, then every row is pushed into out.  An input may be
   broadcast, so the outer position src of the rows is any function of pos.
   push_data is taken as loads of the row and of out, the computation, and
   stores of out; its own loads and stores are of the same elements, and none
   are seen by another call.  None: ZeroDivisionError, the call stops. *)
Fixpoint push_rows_task (nmax n src pos d todo : nat) : prog elem Qc :=
  match todo with
  | O => Done
  | S todo =>
      loads (map (fun k => In_ 0 src (d * S n + k)) (seq 0 (S n))) (fun row =>
      loads (map (Out_ pos) (seq 0 (S n))) (fun out =>
      match push_data nmax row out with
      | None => Done
      | Some out' => stores (combine (map (Out_ pos) (seq 0 (S n))) out') (push_rows_task nmax n src pos (S d) todo)
      end))
  end.
(* _lib/push.py:96-102 *)
Definition reduce_data_task (nmax n nrow src pos : nat) : prog elem Qc :=
  stores (combine (map (Out_ pos) (seq 0 (S n))) (zeros1 (S n))) (push_rows_task nmax n src pos 0 nrow).
(* _lib/push.py:72-74 reduce_data: the same without clearing out *)
Definition reduce_data_into_task (nmax n nrow src pos : nat) : prog elem Qc := push_rows_task nmax n src pos 0 nrow.

(* _lib/resample.py:23-36  freq_to_indices at replicate pos, statement by statement *)
Fixpoint freq_task (pos nsamp d : nat) (todo : nat) (count : Z) : prog elem Z :=
  match todo with
  | O => Done
  | S todo =>
      Load (In_ 0 pos d) (fun f =>
        let a := slice_bound nsamp count in
        let b := slice_bound nsamp (count + f)%Z in
        stores (map (fun k => (Out_ pos k, Z.of_nat d)) (seq a (b - a)))
               (freq_task pos nsamp (S d) todo (count + f)%Z))
  end.
(* _lib/resample.py:39-48  indices_to_freq at replicate pos: freq[indices[d]] += 1.
   An index outside of the row is a memory error; here the call stops. *)
Fixpoint count_task (pos ndat d : nat) (todo : nat) : prog elem Z :=
  match todo with
  | O => Done
  | S todo =>
      Load (In_ 0 pos d) (fun i =>
        let j := wrap ndat i in
        if ((j <? 0)%Z || (Z.of_nat ndat <=? j)%Z)%bool then Done
        else Load (Out_ pos (Z.to_nat j)) (fun v =>
             Store (Out_ pos (Z.to_nat j)) (v + 1)%Z (count_task pos ndat (S d) todo)))
  end.
