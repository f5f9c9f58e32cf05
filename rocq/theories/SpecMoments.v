(* Specification vocabulary for conversion, selection and assignment of moments:
   moment arrays by position, entries by name, conversion as binomial sums. *)
From Coq Require Import String.
From Verif Require Import Base BaseLemmas ModelAxes ProofArrays SpecAxes SpecNd SpecMethods.
Local Notation length := List.length (only parsing).
Local Open Scope string_scope.

(* mom_axes name the axes M of t; L are the other axes in order *)
Definition moment_axes (mom_axes : list Z) (M L : list nat) (t : tensor) : Prop :=
  tensor_ok t /\ Forall2 (is_axis (tndim t)) mom_axes M /\ NoDup M /\ L = except_nat (seq 0 (tndim t)) M.
(* the entry with moment index m at position p of the other axes *)
Definition moment_entry (t : tensor) (M L p m : list nat) : Qc := entry t (bind M m (bind L p (fun _ => 0))).

(* what a name stands for in a moment array of shape s: the shape of the selection
   and the moment index at each place of it *)
Definition moment_names (squeeze : bool) (s : list nat) : list (string * (list nat * (list nat -> list nat))) :=
  match s with
  | [n] =>
      let kept i := if squeeze then ([], fun _ => [i]) else ([1], fun _ => [i]) in
      [("all", ([n], fun q => q)); ("weight", ([], fun _ => [0])); ("ave", kept 1); ("var", kept 2);
       ("xave", ([], fun _ => [1])); ("xvar", ([], fun _ => [2])); ("cov", ([], fun _ => [2]))]
  | [n0; n1] =>
      [("all", ([n0; n1], fun q => q)); ("weight", ([], fun _ => [0; 0]));
       ("ave", ([2], fun q => nth (hd 0 q) [[1; 0]; [0; 1]] [])); ("var", ([2], fun q => nth (hd 0 q) [[2; 0]; [0; 2]] []));
       ("xave", ([], fun _ => [1; 0])); ("xvar", ([], fun _ => [2; 0])); ("yave", ([], fun _ => [0; 1])); ("yvar", ([], fun _ => [0; 2]));
       ("cov", ([], fun _ => [1; 1]));
       ("xmom_0", ([n1], fun q => [0; hd 0 q])); ("xmom_1", ([n1], fun q => [1; hd 0 q]));
       ("ymom_0", ([n0], fun q => [hd 0 q; 0])); ("ymom_1", ([n0], fun q => [hd 0 q; 1]))]
  | _ => []
  end%list.
(* every entry of the selection exists *)
Definition all_exist (s sh : list nat) (at_ : list nat -> list nat) : Prop := forall q, valid sh q -> valid s (at_ q).

(* an array that can be written over positions of shape s: its axes beyond those of
   s have length 1, the others agree from the last one on or have length 1 *)
Definition fits_over (s : list nat) (v : tensor) : Prop :=
  Forall (eq 1) (firstn (tndim v - length s) (tshape v)) /\
  forall k, k < length s -> from_end (tshape v) k = from_end s k \/ from_end (tshape v) k = 1.
(* its entry at position l *)
Definition value_over (v : tensor) (l : list nat) : Qc := value_on (Tensor (skipn (tndim v - length l) (tshape v)) (tdata v)) l.

(* normalised moments: the weight counts as 1 *)
Local Open Scope Qc_scope.
Definition raw_normal (f : list nat -> Qc) (m : list nat) : Qc := if forallb (Nat.eqb 0) m then 1 else f m.
(* normalised central moments: those of order one are 0 *)
Definition central_normal (f : list nat -> Qc) (m : list nat) : Qc :=
  match fold_right Nat.add 0%nat m with O => 1 | S O => 0 | _ => f m end.
(* moments about a point at distance -d from the origin of g, by the binomial theorem *)
Definition moved_moment (d : list Qc) (g : list nat -> Qc) (m : list nat) : Qc :=
  match m, d with
  | [k], [x] => sumn (fun i => qn (choose k i) * x ^ i * g [(k - i)%nat]) (S k)
  | [k; l], [x; y] => sumn (fun i => sumn (fun j =>
      qn (choose k i) * qn (choose l j) * (x ^ i * y ^ j) * g [(k - i)%nat; (l - j)%nat]) (S l)) (S k)
  | _, _ => 0
  end.
(* averages of a moment array of n variables *)
Definition averages (n : nat) (f : list nat -> Qc) : list Qc :=
  match n with 1%nat => [f [1%nat]] | 2%nat => [f [1%nat; 0%nat]; f [0%nat; 1%nat]] | _ => [] end.
(* raw moments of central ones, central moments of raw ones; weight and averages are kept *)
Definition raw_of (f : list nat -> Qc) (m : list nat) : Qc :=
  if Nat.leb (fold_right Nat.add 0%nat m) 1 then f m else moved_moment (averages (length m) f) (central_normal f) m.
Definition central_of (f : list nat -> Qc) (m : list nat) : Qc :=
  if Nat.leb (fold_right Nat.add 0%nat m) 1 then f m else moved_moment (map Qcopp (averages (length m) f)) (raw_normal f) m.
(* moments of one weighted sample: the weight, the values, zeros *)
Definition one_sample_moment (vs : list Qc) (w : Qc) (m : list nat) : Qc :=
  match fold_right Nat.add 0%nat m with O => w | S O => nth (index_of 1 m) vs 0 | _ => 0 end.
