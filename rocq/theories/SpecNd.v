(* Specification vocabulary for functions along one axis of an array: numpy
   broadcasting, columns of an array of moments, samples read from several
   arrays. *)
From Verif Require Import Base BaseLemmas ModelPush ModelKernels ModelAxes ModelNd Spec SpecAxes.

(* ---- broadcasting -------------------------------------------------------------- *)

(* length of axis k counted from the end; axes an array does not have count as 1 *)
Definition from_end (s : list nat) (k : nat) : nat := nth k (rev s) 1.
(* c is the common shape of the shapes l *)
Definition broadcasts (l : list (list nat)) (c : list nat) : Prop :=
  (forall s, In s l -> length s <= length c) /\ (c = [] \/ exists s, In s l /\ length s = length c) /\
  forall k, k < length c ->
    (forall s, In s l -> from_end s k = from_end c k \/ from_end s k = 1) /\
    (from_end c k = 1 \/ exists s, In s l /\ from_end s k = from_end c k).

(* ---- output arrays ----------------------------------------------------------------- *)

Definition grid_ok {T} (g : grid T) : Prop := length (gdata g) = size (gshape g).
Definition of_tensor (t : tensor) : grid Qc := Grid (tshape t) (tdata t).

(* the axes of the result, named by the axes of the data: a the axis acted on, M
   the moment axes *)
Definition column_axes (to_end : bool) (n a : nat) (M : list nat) : list nat :=
  if to_end then except_nat (seq 0 n) (a :: M) ++ a :: M else seq 0 n.
(* out holds at every position the rows that run gives for the column there *)
Definition holds_columns {B T} (d : T) (val : B -> list nat -> T) (run : (nat -> nat) -> res (list B))
    (to_end : bool) (newlen a : nat) (M : list nat) (t : tensor) (out : grid T) : Prop :=
  let ax := column_axes to_end (tndim t) a M in
  let shape b := if Nat.eqb b a then newlen else shape_of t b in
  grid_ok out /\ gshape out = map shape ax /\
  forall env, inside shape ax env -> exists rows b,
    run env = Ok rows /\ nth_error rows (env a) = Some b /\ gget d out (map env ax) = val b (map env M).
(* the result is taken column by column, and raises what some column raises *)
Definition by_columns {B T} (d : T) (val : B -> list nat -> T) (run : (nat -> nat) -> res (list B))
    (to_end : bool) (newlen a : nat) (M : list nat) (t : tensor) (r : res (grid T)) : Prop :=
  match r with
  | Ok out => holds_columns d val run to_end newlen a M t out
  | Raise e => exists env, inside (shape_of t) (except_nat (seq 0 (tndim t)) (a :: M)) env /\ run env = Raise e
  end.
Definition by_columns_t {B} (val : B -> list nat -> Qc) run to_end newlen a M t (r : res tensor) : Prop :=
  by_columns (B:=B) 0%Qc val run to_end newlen a M t (match r with Ok out => Ok (of_tensor out) | Raise e => Raise e end).

(* entries of a row that may be missing; zero: missing weights are 0 *)
Definition row_entry {A} (P : packer A) (zero : bool) (row : option A) (m : list nat) : option Qc :=
  match row with
  | Some a => Some (pk_unpack P a m)
  | None => if (zero && forallb (Nat.eqb 0) m)%bool then Some 0%Qc else None
  end.

(* arguments of a function along axis a of an array with moment axes M *)
Definition axis_of_moments {A} (P : packer A) (mom_axes : list Z) (axis : axis_arg) (a : nat) (M : list nat) (t : tensor) : Prop :=
  tensor_ok t /\ Forall2 (is_axis (tndim t)) mom_axes M /\ names_axis (tndim t) (length M) axis a /\ NoDup (a :: M) /\
  map (shape_of t) M = pk_shape P.

(* ---- values --------------------------------------------------------------------------- *)

(* axes of arrays of values are named from the end: 0 is the last one *)
Definition dim_from_end (t : tensor) (k : nat) : nat := from_end (tshape t) k.
(* the entry of t for sample i at position env, when r is the axis of the
   samples: arrays of one axis are indexed by the sample, numbers are constant,
   axes of length 1 are stretched *)
Definition read_value (t : tensor) (r i : nat) (env : nat -> nat) : Qc :=
  match tndim t with
  | 0 => tget t []
  | 1 => tget t [i]
  | n => tget t (map (fun k => if Nat.eqb k r then i else if Nat.eqb (dim_from_end t k) 1 then 0 else env k) (rev (seq 0 n)))
  end.
(* the samples at position env *)
Definition samples_at {V} (R : reader V) (x w : tensor) (y : list tensor) (r : nat) (env : nat -> nat) : list (V * Qc) :=
  map (fun i => (rd_val R (map (fun t => read_value t r i env) (x :: y)), read_value w r i env)) (seq 0 (dim_from_end x r)).
(* arrays that take part in the shape of the result *)
Definition shaping (x : tensor) (others : list tensor) : list tensor := x :: filter (fun t => Nat.ltb 1 (tndim t)) others.

(* ---- arrays that accompany the data -------------------------------------------------------- *)

(* the axes of t other than C line up with the last of the axes L *)
Definition aligned_with (t : tensor) (C L : list nat) (p : nat) : nat :=
  let E := except_nat (seq 0 (tndim t)) C in nth (length L - length E + index_of p E) L 0.
Definition aligns (t : tensor) (C L : list nat) (shape : nat -> nat) : Prop :=
  let E := except_nat (seq 0 (tndim t)) C in
  tensor_ok t /\ NoDup C /\ (forall c, In c C -> c < tndim t) /\ length E <= length L /\
  forall p, In p E -> shape_of t p = shape (aligned_with t C L p) \/ shape_of t p = 1.
(* the entry with index c along the axes C at position env; axes of length 1 are stretched *)
Definition aligned_entry (t : tensor) (C L : list nat) (env : nat -> nat) (c : list nat) : Qc :=
  entry t (bind C c (fun p => if Nat.eqb (shape_of t p) 1 then 0 else env (aligned_with t C L p))).
(* the rows of an array with two axes *)
Definition table (t : tensor) : list (list Qc) :=
  map (fun i => map (fun j => tget t [i; j]) (seq 0 (shape_of t 1))) (seq 0 (shape_of t 0)).

(* the axis of the decay factors *)
Definition decay_axis (alpha : tensor) (alpha_axis : option axis_arg) (b : nat) : Prop :=
  match alpha_axis with
  | Some x => if Nat.eqb (tndim alpha) 1 then b = 0 else names_axis (tndim alpha) 0 x b
  | None => S b = tndim alpha
  end.
(* the decay factors at a position: a number, or the entries along axis b *)
Definition decays (alpha : tensor) (b n : nat) (L : list nat) (env : nat -> nat) : list Qc :=
  map (fun i => if Nat.eqb (tndim alpha) 0 then tget alpha [] else aligned_entry alpha [b] L env [i]) (seq 0 n).

(* ---- arrays of values ------------------------------------------------------------------------ *)

(* r, counted from the end, is the axis of the samples of x, and the other arrays
   have a number, a sample each, or the same number of samples along axis r *)
Definition samples_agree (x : tensor) (others : list tensor) (axis : axis_arg) (r : nat) : Prop :=
  tensor_ok x /\ (exists a, names_axis (tndim x) 0 axis a /\ a + r + 1 = tndim x) /\
  forall t, In t others -> tensor_ok t /\
    (tndim t = 0 \/ tndim t = 1 /\ dim_from_end t 0 = dim_from_end x r \/
     2 <= tndim t /\ r < tndim t /\ dim_from_end t r = dim_from_end x r).
(* an array with the shape of the values followed by the moment axes *)
Definition frame (shape mom_shape : list nat) : tensor := tabulate (shape ++ mom_shape) (fun _ => 0%Qc).
(* positions in an array of n axes, for axes counted from the end *)
Definition counted_from_end (n : nat) (env : nat -> nat) (k : nat) : nat := env (n - 1 - k).

(* kernels, layout of the moments and of the samples of one or two variables *)
Inductive values_array : forall {A V : Type}, pusher A V -> (A -> Prop) -> packer A -> reader V -> Prop :=
| va_one nmax n : 1 <= n <= nmax ->
    values_array (pusher1 nmax n) (fun a => length a = S n) (packer1 n) reader1
| va_two nmax n0 n1 : 1 <= n0 <= nmax -> 1 <= n1 <= nmax ->
    values_array (pusher2 nmax n0 n1) (shape2 (S n0) (S n1)) (packer2 n0 n1) reader2.
(* arguments of a function of values: x, weights w and the second variable y, if
   the moments have one, with samples along axis r from the end and common shape s *)
Definition values_ok {A} (P : packer A) (axis : axis_arg) (r : nat) (x w : tensor) (y : list tensor) (s : list nat) : Prop :=
  S (length y) = length (pk_shape P) /\ samples_agree x (w :: y) axis r /\ broadcasts (map tshape (shaping x (w :: y))) s.
(* the samples at the position env of an array of shape s *)
Definition samples_in {V} (R : reader V) (x w : tensor) (y : list tensor) (r : nat) (s : list nat) (env : nat -> nat) : list (V * Qc) :=
  samples_at R x w y r (counted_from_end (length s) env).
(* the same spelled out: pairs (value, weight), and ((x, y), weight) *)
Definition value_samples (x w : tensor) (r : nat) (s : list nat) (env : nat -> nat) : list (Qc * Qc) :=
  map (fun i => (read_value x r i (counted_from_end (length s) env), read_value w r i (counted_from_end (length s) env))) (seq 0 (dim_from_end x r)).
Definition pair_samples (x y w : tensor) (r : nat) (s : list nat) (env : nat -> nat) : list ((Qc * Qc) * Qc) :=
  map (fun i => ((read_value x r i (counted_from_end (length s) env), read_value y r i (counted_from_end (length s) env)),
                 read_value w r i (counted_from_end (length s) env))) (seq 0 (dim_from_end x r)).
(* results of a function of values, one row per sample, replicate, ... *)
Definition by_values {A B T} (P : packer A) (d : T) (val : B -> list nat -> T) (run : (nat -> nat) -> res (list B))
    (to_end : bool) (newlen r : nat) (s : list nat) (res_ : res (grid T)) : Prop :=
  by_columns d val run to_end newlen (length s - 1 - r) (seq (length s) (length (pk_shape P))) (frame s (pk_shape P)) res_.
Definition by_values_t {A B} (P : packer A) (val : B -> list nat -> Qc) run to_end newlen r s (res_ : res tensor) : Prop :=
  by_values (B:=B) P 0%Qc val run to_end newlen r s (match res_ with Ok out => Ok (of_tensor out) | Raise e => Raise e end).
