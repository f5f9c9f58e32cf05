(* Specification vocabulary for axes of arrays.  An environment gives an index
   to every axis, named by its position in the input array, so that entries of
   arrays with permuted axes can be compared. *)
From Coq Require Import Permutation.
From Verif Require Import Base BaseLemmas ModelKernels ModelAxes Spec.

(* z names axis a of an array of n axes *)
Definition is_axis (n : nat) (z : Z) (a : nat) : Prop :=
  a < n /\ (z = Z.of_nat a \/ z = (Z.of_nat a - Z.of_nat n)%Z).
(* the same for the axis argument of a reduction with m moment axes: multiples
   of 1j count only the axes in front of m trailing ones *)
Definition names_axis (n m : nat) (x : axis_arg) (a : nat) : Prop :=
  match x with AInt z => is_axis n z a | AComplex z => is_axis (n - m) z a end.
(* entries of a list not in another one, in order *)
Definition except {T} (dec : forall x y : T, {x = y} + {x <> y}) (l ex : list T) : list T :=
  filter (fun x => if in_dec dec x ex then false else true) l.
Notation except_nat := (except Nat.eq_dec).

Definition names_axes (n m : nat) (x : option (list axis_arg)) (M R : list nat) : Prop :=
  match x with
  | None => R = except_nat (seq 0 n) M
  | Some l => Forall2 (names_axis n m) l R
  end.

(* axes of a reduced array: R reduced axes, M moment axes of n axes *)
Definition out_axes (keepdims to_end : bool) (n : nat) (R M : list nat) : list nat :=
  match keepdims, to_end with
  | false, false => except_nat (seq 0 n) R
  | false, true => except_nat (seq 0 n) (R ++ M) ++ M
  | true, false => seq 0 n
  | true, true => except_nat (seq 0 n) (R ++ M) ++ R ++ M
  end.

(* indices env, with r at the axes R and m at the axes M *)
Definition bind (R r : list nat) (env : nat -> nat) (a : nat) : nat :=
  match find (fun p => Nat.eqb (fst p) a) (combine R r) with
  | Some p => snd p
  | None => env a
  end.
Definition inside (shape : nat -> nat) (ax : list nat) (env : nat -> nat) : Prop := forall a, In a ax -> env a < shape a.
Definition shape_of (t : tensor) (a : nat) : nat := nth a (tshape t) 0.
Definition entry (t : tensor) (env : nat -> nat) : Qc := tget t (map env (seq 0 (tndim t))).
Definition tensor_ok (t : tensor) : Prop := length (tdata t) = size (tshape t).

(* the moment array of t at env *)
Definition moment_at {A} (P : packer A) (t : tensor) (M : list nat) (env : nat -> nat) : A :=
  pk_pack P (fun m => entry t (bind M m env)).
(* the moment arrays of t at env along the axes R, in C order *)
Definition rows_along {A} (P : packer A) (t : tensor) (R M : list nat) (env : nat -> nat) : list A :=
  map (fun r => moment_at P t M (bind R r env)) (all_idx (map (shape_of t) R)).

(* out holds, at every position, the reduction of the rows of t at that position *)
Definition holds_reduction {A V} (K : pusher A V) (P : packer A) (keepdims to_end : bool) (R M : list nat) (t out : tensor) : Prop :=
  let ax := out_axes keepdims to_end (tndim t) R M in
  let shape a := if in_dec Nat.eq_dec a R then 1 else shape_of t a in
  tensor_ok out /\ tshape out = map shape ax /\
  forall env, inside shape ax env ->
    exists a, reduce_data K (rows_along P t R M env) = Some a /\ tget out (map env ax) = pk_unpack P a (map env M).

(* where source goes under moveaxis *)
Definition moves (n : nat) (source destination order : list nat) : Prop :=
  Permutation order (seq 0 n) /\
  Forall2 (fun s d => nth_error order d = Some s) source destination /\
  except_nat order source = except_nat (seq 0 n) source.

(* kernels, the shape of their moment arrays and how these lie in an array *)
Inductive moment_array : forall {A V : Type}, pusher A V -> (A -> Prop) -> packer A -> Prop :=
| ma_one nmax n : 1 <= n <= nmax ->
    moment_array (pusher1 nmax n) (fun a => length a = S n) (packer1 n)
| ma_two nmax n0 n1 : 1 <= n0 <= nmax -> 1 <= n1 <= nmax ->
    moment_array (pusher2 nmax n0 n1) (shape2 (S n0) (S n1)) (packer2 n0 n1).
(* t is an array with moment axes M of the shape of P and nonnegative weights *)
Definition moments_in {A V} (K : pusher A V) (P : packer A) (M : list nat) (t : tensor) : Prop :=
  tensor_ok t /\ NoDup M /\ (forall a, In a M -> a < tndim t) /\ map (shape_of t) M = pk_shape P /\
  forall env, inside (shape_of t) (seq 0 (tndim t)) env -> (0 <= p_wt K (moment_at P t M env))%Qc.
(* where the axes l stand in ax *)
Definition positions (ax l : list nat) : list nat := map (fun a => index_of a ax) l.
