(* Specification vocabulary.  Nothing here mentions how the kernels work:
   weighted samples, their textbook moments, windows, and which pairs
   (kernel family, array shape) the statements are about. *)
From Verif Require Import Base BaseLemmas ModelKernels.
Local Open Scope Qc_scope.

(* ---- weighted samples of one variable: pairs (value, weight) -------------- *)

Definition W1 (s : list (Qc * Qc)) : Qc := suml (fun p => snd p) s.
Definition mean1 (s : list (Qc * Qc)) : Qc := suml (fun p => snd p * fst p) s / W1 s.
Definition central1 (s : list (Qc * Qc)) (k : nat) : Qc :=
  suml (fun p => snd p * (fst p - mean1 s) ^ k) s / W1 s.
(* [W, mean, c2, ..., cn] *)
Definition moments_of (n : nat) (s : list (Qc * Qc)) : arr :=
  W1 s :: mean1 s :: map (central1 s) (seq 2 (n - 1)).

(* ---- weighted samples of two variables: pairs ((x, y), weight) ------------ *)

Definition W2 (s : list ((Qc * Qc) * Qc)) : Qc := suml (fun p => snd p) s.
Definition meanx (s : list ((Qc * Qc) * Qc)) : Qc := suml (fun p => snd p * fst (fst p)) s / W2 s.
Definition meany (s : list ((Qc * Qc) * Qc)) : Qc := suml (fun p => snd p * snd (fst p)) s / W2 s.
Definition central2 (s : list ((Qc * Qc) * Qc)) (i j : nat) : Qc :=
  suml (fun p => snd p * ((fst (fst p) - meanx s) ^ i * (snd (fst p) - meany s) ^ j)) s / W2 s.
Definition comoment_entry (s : list ((Qc * Qc) * Qc)) (i j : nat) : Qc :=
  match i, j with
  | O, O => W2 s
  | S O, O => meanx s
  | O, S O => meany s
  | _, _ => central2 s i j
  end.
Definition comoments_of (n0 n1 : nat) (s : list ((Qc * Qc) * Qc)) : arr2 :=
  map (fun i => map (comoment_entry s i) (seq 0 (S n1))) (seq 0 (S n0)).

(* ---- guards ---------------------------------------------------------------- *)

(* no running total of weights is zero right after adding a nonzero weight *)
Definition running_ok (ws : list Qc) : Prop :=
  forall pre w post, ws = pre ++ w :: post -> w <> 0 -> suml (fun v => v) pre + w <> 0.

Definition all_zero (ws : list Qc) : Prop := Forall (fun w => w = 0) ws.
Definition all_nonneg (ws : list Qc) : Prop := Forall (fun w => 0 <= w) ws.

(* ---- the two kernel families ------------------------------------------------ *)

(* [moment_kernel K ok]: K is the family of push kernels for one variable of
   order n (arrays of n+1 entries) or two variables of orders n0, n1 (matrices
   (n0+1) x (n1+1)), with a binomial table large enough for these orders; ok is
   the shape of its moment arrays. *)
Inductive moment_kernel : forall {A V : Type}, pusher A V -> (A -> Prop) -> Prop :=
| mk_one nmax n : (1 <= n <= nmax)%nat ->
    moment_kernel (pusher1 nmax n) (fun a => length a = S n)
| mk_two nmax n0 n1 : (1 <= n0 <= nmax)%nat -> (1 <= n1 <= nmax)%nat ->
    moment_kernel (pusher2 nmax n0 n1) (shape2 (S n0) (S n1)).

(* rows of the right shape with nonnegative weight *)
Definition rows_ok {A V} (K : pusher A V) (ok : A -> Prop) (data : list A) : Prop :=
  Forall (fun d => ok d /\ 0 <= p_wt K d) data.
Definition total {A V} (K : pusher A V) (data : list A) : Qc := suml (fun d => p_wt K d) data.
(* multiply the weight of a row *)
Definition reweight {A V} (K : pusher A V) (f : Qc) (d : A) : A := p_setwt K (p_wt K d * f) d.
(* a row without weight carries no moments either *)
Definition clean {A V} (K : pusher A V) (d : A) : Prop := p_wt K d = 0 -> d = p_zero K.

(* ---- rolling ----------------------------------------------------------------- *)

(* data[max(0, j+1-window) : j+1] *)
Definition window_at {B} (window j : nat) (data : list B) : list B :=
  skipn (S j - window) (firstn (S j) data).
Definition nonzero_count (ws : list Qc) : nat := length (filter (fun w => negb (qeqb w 0)) ws).

(* f a * ... * f (b-1) *)
Definition prodr (f : nat -> Qc) (a b : nat) : Qc := fold_right (fun l p => f l * p) 1 (seq a (b - a)).
(* Exponential coefficients.  al l, w l: decay parameter and weight of row l. *)
Definition decay (al : nat -> Qc) (j i : nat) : Qc := prodr (fun l => 1 - al l) (S j) (S i).
(* last row before l with a nonzero weight *)
Fixpoint last_nonzero (w : nat -> Qc) (l : nat) : option nat :=
  match l with
  | O => None
  | S m => if qeqb (w m) 0 then last_nonzero w m else Some m
  end.
(* the normaliser used at row l without adjust *)
Definition exp_norm (al w : nat -> Qc) (l : nat) : Qc :=
  if qeqb (w l) 0 then 1
  else match last_nonzero w l with
       | None => al l
       | Some m => decay al m l + al l
       end.
(* coefficient of row j in output row i *)
Definition exp_coef (adjust : bool) (al w : nat -> Qc) (i j : nat) : Qc :=
  if adjust then decay al j i
  else if qeqb (w j) 0 then 0
  else al j / exp_norm al w j * prodr (fun l => (1 - al l) / exp_norm al w l) (S j) (S i).
