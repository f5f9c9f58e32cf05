(* Which entries of a moment array a name stands for. *)
From Coq Require Import String.
From Verif Require Import Base BaseLemmas.
Local Open Scope string_scope.

(* the entries (i, j) of each moment name, for one and for two variables (one
   variable: the array is the row 0) *)
Definition name_table (mom_ndim : nat) : list (string * (nat -> nat -> Prop)) :=
  if Nat.eqb mom_ndim 1 then
    [("all", fun _ _ => True);
     ("weight", fun _ j => j = 0);
     ("ave", fun _ j => j = 1); ("xave", fun _ j => j = 1);
     ("var", fun _ j => j = 2); ("cov", fun _ j => j = 2); ("xvar", fun _ j => j = 2)]
  else
    [("all", fun _ _ => True);
     ("weight", fun i j => i = 0 /\ j = 0);
     ("ave", fun i j => (i = 1 /\ j = 0) \/ (i = 0 /\ j = 1));
     ("var", fun i j => (i = 2 /\ j = 0) \/ (i = 0 /\ j = 2));
     ("cov", fun i j => i = 1 /\ j = 1);
     ("xave", fun i j => i = 1 /\ j = 0);
     ("yave", fun i j => i = 0 /\ j = 1);
     ("xvar", fun i j => i = 2 /\ j = 0);
     ("yvar", fun i j => i = 0 /\ j = 2);
     ("xmom_0", fun i _ => i = 0); ("xmom_1", fun i _ => i = 1);
     ("ymom_0", fun _ j => j = 0); ("ymom_1", fun _ j => j = 1)].

(* shape of a moment array *)
Definition mom_array (mom_ndim nrow ncol : nat) (a : arr2) : Prop :=
  shape2 nrow ncol a /\ 1 <= nrow /\ 1 <= ncol /\
  ((mom_ndim = 1 /\ nrow = 1) \/ mom_ndim = 2).
