(* Specification of the coordinates of results (C172-). *)
From Coq Require Import String.
From Verif Require Import Base ModelAxes ModelParams ModelNd ModelWrap ModelLabel ModelCoords PropLabelled.
Local Open Scope string_scope.
Local Open Scope nat_scope.

(* the label at an index for every name *)
Definition co_at {T} (dflt : T) (c : coord T) (env : sname -> nat) : T := gget dflt (co_val c) (map env (co_dims c)).
(* coordinates of x: different names, along dimensions of x; one with the name of a
   dimension is along it *)
Definition coords_of {T} (x : xarr) (cs : coords T) : Prop :=
  NoDup (map fst cs) /\
  forall n c, In (n, c) cs -> NoDup (co_dims c) /\ incl (co_dims c) (x_dims x) /\ gshape (co_val c) = map (dim_size x) (co_dims c) /\ (In n (x_dims x) -> co_dims c = [n]).
(* a name for the dimension d that no other coordinate has *)
Definition free_coord {T} (cs : coords T) (d rd : sname) : Prop := rd = d \/ ~ In rd (map fst cs).
(* the coordinates of the result are those in cs, taken along d at the positions row 0, ...,
   row (n - 1), where d is called rd *)
Definition taken {T} (dflt : T) (x : xarr) (d rd : sname) (n : nat) (row : nat -> nat) (cs cs' : coords T) : Prop :=
  Forall2 (fun c c' =>
    let name := fun m => if String.eqb m d then rd else m in
    let size := fun m => if String.eqb m d then n else dim_size x m in
    fst c' = name (fst c) /\ co_dims (snd c') = map name (co_dims (snd c)) /\ gshape (co_val (snd c')) = map size (co_dims (snd c)) /\
    forall env, (forall m, In m (co_dims (snd c)) -> env (name m) < size m) ->
      co_at dflt (snd c') env = co_at dflt (snd c) (fun m => if String.eqb m d then row (env rd) else env m)) cs cs'.
(* the coordinates of the result are those in cs that have none of the dimensions ds *)
Definition without {T} (ds : list sname) (cs cs' : coords T) : Prop :=
  NoDup (map fst cs') /\ forall n c, In (n, c) cs' <-> In (n, c) cs /\ forall d, In d ds -> ~ In d (co_dims c).
(* these, and labels for the dimension rd *)
Definition labelled_by {T} (ds : list sname) (rd : sname) (labels : list T) (cs cs' : coords T) : Prop :=
  exists kept, without ds cs kept /\ cs' = (kept ++ [(rd, Co [rd] (Grid [List.length labels] labels))])%list.
(* the first and the last position of v *)
Definition first_of {T} (d v : T) (l : list T) (i : nat) : Prop := i < List.length l /\ nth i l d = v /\ forall j, j < i -> nth j l d <> v.
Definition last_of {T} (d v : T) (l : list T) (i : nat) : Prop := i < List.length l /\ nth i l d = v /\ forall j, i < j < List.length l -> nth j l d <> v.

(* ---- several arguments ------------------------------------------------------------------ *)

(* one of the arguments has the coordinate c called n *)
Definition called {T} (l : list (coords T)) (n : sname) (c : coord T) : Prop := exists cs, In cs l /\ In (n, c) cs.
(* the coordinates of the arguments have different names and these sizes *)
Definition sized {T} (sz : sname -> nat) (l : list (coords T)) : Prop :=
  (forall cs, In cs l -> NoDup (map fst cs)) /\ forall n c, called l n c -> NoDup (co_dims c) /\ gshape (co_val c) = map sz (co_dims c).
(* labels along the dimension of the same name are equal *)
Definition same_indices {T} (l : list (coords T)) : Prop :=
  forall n a b, called l n a -> called l n b -> co_dims a = [n] -> co_dims b = [n] -> gdata (co_val a) = gdata (co_val b).
(* env is inside the arrays of all coordinates called n *)
Definition within {T} (sz : sname -> nat) (l : list (coords T)) (n : sname) (env : sname -> nat) : Prop := forall c m, called l n c -> In m (co_dims c) -> env m < sz m.
(* the coordinates of a result of several arguments: labels of dimensions; coordinates that
   one argument has; coordinates that all arguments that have them agree on *)
Definition merged {T} (dflt : T) (sz : sname -> nat) (l : list (coords T)) (cs' : coords T) : Prop :=
  let agree := fun n a b => forall env, within sz l n env -> co_at dflt a env = co_at dflt b env in
  NoDup (map fst cs') /\
  (forall n c', In (n, c') cs' -> NoDup (co_dims c') /\ gshape (co_val c') = map sz (co_dims c') /\ (exists c, called l n c) /\
     forall m, In m (co_dims c') -> exists b, called l n b /\ In m (co_dims b)) /\
  (forall n c, called l n c -> co_dims c = [n] -> exists c', In (n, c') cs' /\ co_dims c' = [n] /\ gdata (co_val c') = gdata (co_val c)) /\
  (forall n a l1 cs l2, l = (l1 ++ cs :: l2)%list -> In (n, a) cs -> (forall b, ~ called l1 n b) -> (forall b, ~ called l2 n b) -> In (n, a) cs') /\
  (forall n, (forall c, called l n c -> co_dims c <> [n]) ->
     (forall a, called l n a -> (forall b, called l n b -> agree n a b) ->
        exists c', In (n, c') cs' /\ (forall m, In m (co_dims c') <-> exists b, called l n b /\ In m (co_dims b)) /\
          forall env, within sz l n env -> co_at dflt c' env = co_at dflt a env) /\
     (forall a b, called l n a -> called l n b -> ~ agree n a b -> ~ In n (map fst cs'))).
(* r' is r with the coordinates of arguments with coordinates l, except those along ds *)
Definition joined {T B} (dflt : T) (sz : sname -> nat) (ds : list sname) (l : list (coords T)) (r : res B) (r' : res (B * coords T)) : Prop :=
  exists m cs', merged dflt sz l m /\ without ds m cs' /\ r' = rmap (fun b => (b, cs')) r.
(* two arguments have other labels along a dimension of both *)
Definition labels_differ {T} (l : list (coords T)) : Prop :=
  exists n a b, called l n a /\ called l n b /\ co_dims a = [n] /\ co_dims b = [n] /\ gdata (co_val a) <> gdata (co_val b).
(* the coordinates of an argument; arrays have none *)
Definition coords_given {T} (a : xop * coords T) : coords T := match a with (Labelled _, cs) => cs | (Plain _, _) => [] end.
(* the same coordinates: names, dimensions in some order, labels by the names of dimensions *)
Definition same_coords {T} (dflt : T) (sz : sname -> nat) (m m' : coords T) : Prop :=
  forall n c, In (n, c) m -> exists c', In (n, c') m' /\ (forall d, In d (co_dims c) <-> In d (co_dims c')) /\
    forall env, (forall d, In d (co_dims c) -> env d < sz d) -> co_at dflt c env = co_at dflt c' env.
