(* Specification vocabulary for out=. *)
From Verif Require Import Base ModelParams ModelWrap ModelNd ModelLabel Spec SpecAxes SpecNd PropLabelled.

(* run out is the content of the array passed as out=, result the result of the same
   call without it.  Whenever there is a result, an array of its shape is filled with
   its entries at their places, and an array of another shape is a ValueError. *)
Definition fills {T} (result : res (lgrid T)) (run : grid T -> res (grid T)) : Prop :=
  forall y, result = Ok y -> forall out,
    (gshape out = gshape (lg_val y) -> run out = Ok (lg_val y)) /\
    (gshape out <> gshape (lg_val y) -> run out = Raise EValue).

(* The same when the array may have another number of rows along axis a: with more
   rows the further ones are filled with zero, with fewer there is an AssertionError. *)
Definition fills_rows {T} (zero : T) (a : list sname -> nat) (result : res (lgrid T)) (run : grid T -> res (grid T)) : Prop :=
  forall y, result = Ok y -> forall out, let k := a (lg_dims y) in let s := gshape (lg_val y) in
    (forall n, gshape out = firstn k s ++ n :: skipn (S k) s ->
      (n < nth k s 0 -> run out = Raise EAssert) /\
      (nth k s 0 <= n -> exists g, run out = Ok g /\ grid_ok g /\ gshape g = gshape out /\
        forall i, Forall2 (fun n j => j < n) (gshape out) i -> gget zero g i = if Nat.ltb (nth k i 0) (nth k s 0) then gget zero (lg_val y) i else zero)) /\
    ((forall n, gshape out <> firstn k s ++ n :: skipn (S k) s) -> run out = Raise EValue).
(* The same for functions that take the sizes of the last m axes, the moments, from
   the array: result s is the result for these sizes. *)
Definition fills_order {T} (m : nat) (result : list nat -> res (lgrid T)) (run : grid T -> res (grid T)) : Prop :=
  forall out y, result (skipn (List.length (gshape out) - m) (gshape out)) = Ok y ->
    (gshape out = gshape (lg_val y) -> run out = Ok (lg_val y)) /\
    (gshape out <> gshape (lg_val y) -> run out = Raise EValue).

(* an operand without dimensions beyond those listed *)
Definition no_new_names (names : list sname) (o : xop) : Prop :=
  match o with Plain _ => True | Labelled z => x_ok z /\ incl (x_dims z) names end.
