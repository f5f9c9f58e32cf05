(* Arithmetic and array vocabulary shared by the model and the specification.
   Numbers are canonical rationals (exact arithmetic, no rounding). *)
From Coq Require Export List Arith ZArith Lia Bool.
From Coq Require Export QArith Qcanon.
Export ListNotations.
Close Scope Q_scope.
Open Scope nat_scope.

Delimit Scope Qc_scope with Qc.

(* ---- numbers ---------------------------------------------------------- *)

(* natural number as a rational *)
Definition qn (n : nat) : Qc := Q2Qc (inject_Z (Z.of_nat n)).
(* integer as a rational *)
Definition qz (z : Z) : Qc := Q2Qc (inject_Z z).
(* decidable equality test as a boolean *)
Definition qeqb (a b : Qc) : bool := Qeq_bool (this a) (this b).
(* strict order test as a boolean *)
Definition qltb (a b : Qc) : bool := negb (Qle_bool (this b) (this a)).

(* ---- sums ------------------------------------------------------------- *)

(* f 0 + ... + f (n-1) *)
Fixpoint sumn (f : nat -> Qc) (n : nat) : Qc :=
  match n with
  | O => 0%Qc
  | S m => (sumn f m + f m)%Qc
  end.

(* sum over a list *)
Definition suml {A} (f : A -> Qc) (l : list A) : Qc :=
  fold_right (fun a s => (f a + s)%Qc) 0%Qc l.

(* ---- arrays ----------------------------------------------------------- *)

(* one-dimensional array of numbers *)
Definition arr := list Qc.
(* two-dimensional array, list of rows *)
Definition arr2 := list (list Qc).

(* read a[i] *)
Definition getq (a : arr) (i : nat) : Qc := nth i a 0%Qc.

(* in place write of a[i] = v; no effect out of range *)
Fixpoint upd {A} (l : list A) (i : nat) (v : A) : list A :=
  match l, i with
  | [], _ => []
  | _ :: t, O => v :: t
  | h :: t, S j => h :: upd t j v
  end.

(* read a[i,j] *)
Definition get2 (m : arr2) (i j : nat) : Qc := nth j (nth i m []) 0%Qc.

(* in place write of a[i,j] = v *)
Definition upd2 (m : arr2) (i j : nat) (v : Qc) : arr2 :=
  upd m i (upd (nth i m []) j v).

(* zeros *)
Definition zeros1 (n : nat) : arr := repeat 0%Qc n.
Definition zeros2 (n m : nat) : arr2 := repeat (zeros1 m) n.

(* Pascal's triangle, used by specifications only *)
Fixpoint choose (n k : nat) : nat :=
  match n, k with
  | _, O => 1
  | O, S _ => 0
  | S m, S j => choose m (S j) + choose m j
  end.

(* sequencing of computations that can fail *)
Definition obind {A B} (o : option A) (f : A -> option B) : option B :=
  match o with Some a => f a | None => None end.

Fixpoint foldM {A B} (f : A -> B -> option A) (l : list B) (a : A) : option A :=
  match l with
  | [] => Some a
  | b :: t => obind (f a b) (fun a' => foldM f t a')
  end.

Fixpoint mapM {A B} (f : A -> option B) (l : list A) : option (list B) :=
  match l with
  | [] => Some []
  | a :: t => obind (f a) (fun b => obind (mapM f t) (fun r => Some (b :: r)))
  end.

(* exceptions as values *)
Inductive err := EZeroDiv | EValue | EType | EIndex | EKey | EMem | EAssert.
Inductive res (A : Type) := Ok (a : A) | Raise (e : err).
Arguments Ok {A}. Arguments Raise {A}.
Definition rbind {A B} (r : res A) (f : A -> res B) : res B :=
  match r with Ok a => f a | Raise e => Raise e end.
Definition of_opt {A} (e : err) (o : option A) : res A :=
  match o with Some a => Ok a | None => Raise e end.
