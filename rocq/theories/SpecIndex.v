(* Vocabulary for statements about indices, labels and blocks; independent of
   the model. *)
From Coq Require Import String Permutation Sorted.
From Verif Require Import Base.
Close Scope string_scope.

(* l[a:b] *)
Definition slice {T} (a b : nat) (l : list T) : list T := firstn (b - a) (skipn a l).

(* number of occurrences of z in l *)
Notation occ l z := (count_occ Z.eq_dec l z).

(* positions of a moment row list *)
Definition in_range (n : nat) (i : Z) : Prop := (0 <= i < Z.of_nat n)%Z.
Definition nonneg (l : list Z) : Prop := Forall (fun z => (0 <= z)%Z) l.
Definition zeros (l : list Z) : Prop := Forall (fun z => z = 0%Z) l.

(* every group slice lies inside index, every index inside the data *)
Definition index_safe (ndat : nat) (index start end_ : list Z) : Prop :=
  Forall (fun i => (0 <= i < Z.of_nat ndat)%Z) index /\ List.length start = List.length end_ /\
  Forall (fun se => (0 <= fst se <= snd se /\ snd se <= Z.of_nat (List.length index))%Z) (combine start end_).

(* argsort returns a permutation of the positions that sorts its argument *)
Definition sorts (argsort : list Z -> list nat) : Prop := forall c,
  Permutation (argsort c) (seq 0 (List.length c)) /\ StronglySorted Z.le (map (fun i => nth i c 0%Z) (argsort c)).
(* equal keys keep their order *)
Definition stable (argsort : list Z -> list nat) : Prop := forall c g,
  StronglySorted lt (filter (fun i => (nth i c 0 =? g)%Z) (argsort c)).

(* x occurs before any occurrence of y *)
Definition before {T} (l : list (option T)) (x y : T) : Prop :=
  exists l1 l2, l = l1 ++ Some x :: l2 /\ ~ In (Some y) l1.

(* positions carrying code g, in increasing order *)
Definition at_code (codes : list Z) (g : nat) : list nat :=
  filter (fun i => (nth i codes (-1) =? Z.of_nat g)%Z) (seq 0 (List.length codes)).

(* block id of position p when ndat samples are cut into blocks of size b; the
   remaining r = ndat mod b samples are dropped or added to the first or last block *)
Open Scope string_scope.
Definition block_code (ndat b : nat) (mode : string) (p : nat) : Z :=
  let r := (ndat mod b)%nat in
  if String.eqb mode "drop_first" then (if Nat.ltb p r then (-1)%Z else Z.of_nat ((p - r) / b))
  else if String.eqb mode "expand_first" then (if Nat.ltb p r then 0%Z else Z.of_nat ((p - r) / b))
  else if String.eqb mode "drop_last" then (if Nat.ltb p (ndat - r) then Z.of_nat (p / b) else (-1)%Z)
  else (if Nat.ltb p (ndat - r) then Z.of_nat (p / b) else Z.of_nat (ndat / b - 1)).
Definition block_mode (mode : string) : Prop :=
  In mode ["drop_first"; "drop_last"; "expand_first"; "expand_last"].
Close Scope string_scope.
