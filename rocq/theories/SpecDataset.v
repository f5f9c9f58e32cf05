(* Specification vocabulary for functions of Datasets: what happens to each variable. *)
From Coq Require Import String.
From Verif Require Import Base BaseLemmas ModelPush ModelKernels ModelAxes ModelParams ModelWrap ModelNd ModelLabel ModelDataset Spec SpecAxes SpecNd SpecLabel PropLabelled.
Local Open Scope string_scope.
Local Open Scope nat_scope.

(* equal sizes of equal dimensions *)
Definition sizes_agree (x y : xarr) : Prop := forall n, In n (x_dims x) -> In n (x_dims y) -> dim_size x n = dim_size y n.
(* a Dataset: distinct names, labelled arrays with equal sizes of equal dimensions *)
Definition set_ok (s : xset) : Prop :=
  NoDup (map fst s) /\ (forall v, In v s -> x_ok (snd v)) /\ forall v w, In v s -> In w s -> sizes_agree (snd v) (snd w).
(* x has all the dimensions ds *)
Definition has_names (ds : list sname) (x : xarr) : bool := forallb (fun n => smem n (x_dims x)) ds.
(* x passed on with the dimensions of order last, in this order; f acts on the entries *)
Definition passed_dims (order : list sname) (x : xarr) : list sname :=
  (except_name (x_dims x) order ++ filter (fun n => smem n (x_dims x)) order)%list.
Definition passed {T} (f : Qc -> T) (order : list sname) (x : xarr) : lgrid T :=
  let ds := passed_dims order x in
  LG ds (gtabulate (map (dim_size x) ds) (fun i => f (x_at x (name_bind ds i (fun _ => 0))))).
(* names for the moments *)
Definition moment_names (md : list sname) : Prop := NoDup md /\ (List.length md = 1 \/ List.length md = 2).
(* a result with the dimension d renamed, if a new name is given *)
Definition renamed_grid {T} (d : sname) (new : option sname) (g : lgrid T) : lgrid T :=
  match new with Some n => LG (map (fun m => if String.eqb m d then n else m) (lg_dims g)) (lg_val g) | None => g end.
(* the new name of d is d or no dimension of any variable *)
Definition new_free (d : sname) (new : option sname) (s : xset) : Prop :=
  forall n, new = Some n -> n <> d -> forall v, In v s -> ~ In n (x_dims (snd v)).
(* g and h have a dimension with different sizes *)
Definition clash {T} (g h : lgrid T) : Prop :=
  exists n a b, lookup n (combine (lg_dims g) (gshape (lg_val g))) = Some a /\ lookup n (combine (lg_dims h) (gshape (lg_val h))) = Some b /\ a <> b.

(* r holds the results of f for the variables of s, under the same names; if there is
   none, f raises for some variable, or two results do not go into one Dataset *)
Definition each_variable {T} (f : sname * xarr -> res (lgrid T)) (s : xset) (r : res (lset T)) : Prop :=
  match r with
  | Ok l => Forall2 (fun v w => fst w = fst v /\ f v = Ok (snd w)) s l /\ forall v w, In v l -> In w l -> ~ clash (snd v) (snd w)
  | Raise e => (exists v, In v s /\ f v = Raise e) \/
               (e = EValue /\ exists v w g h, In v s /\ In w s /\ f v = Ok g /\ f w = Ok h /\ clash g h)
  end.
(* the same when results always go into one Dataset *)
Definition each_alone {T} (f : sname * xarr -> res (lgrid T)) (s : xset) (r : res (lset T)) : Prop :=
  match r with
  | Ok l => Forall2 (fun v w => fst w = fst v /\ f v = Ok (snd w)) s l
  | Raise e => exists v, In v s /\ f v = Raise e
  end.

(* variables with the dimensions are arrays of moments *)
Definition moments_where {A} (P : packer A) (ds md : list sname) (s : xset) : Prop :=
  forall v, In v s -> has_names (ds ++ md) (snd v) = true -> labelled_moments P md (snd v).
(* the size of a dimension of the Dataset *)
Definition set_size (s : xset) (n : sname) : nat := match find (fun v => smem n (x_dims (snd v))) s with Some v => dim_size (snd v) n | None => 0 end.

(* ---- a second argument ------------------------------------------------------------------ *)

(* the argument for the variable number name *)
Definition its_part (name : sname) (a : dop) : xop :=
  match a with DSet t => match get_var name t with Some x => Labelled x | None => Plain (Tensor [0] []) end | DArr o => o end.
(* the argument for a variable has the dimensions ds; a plain array has no names *)
Definition part_has (ds : list sname) (name : sname) (a : dop) : bool :=
  match its_part name a with Labelled x => has_names ds x | Plain _ => true end.
(* the sizes of a second argument go with the Dataset; a Dataset has the same names *)
Definition fits (s : xset) (a : dop) : Prop :=
  match a with
  | DSet t => set_ok t /\ (forall n, In n (map fst s) <-> In n (map fst t)) /\ forall v w, In v s -> In w t -> sizes_agree (snd v) (snd w)
  | DArr (Labelled x) => x_ok x /\ forall v, In v s -> sizes_agree (snd v) x
  | DArr (Plain _) => True
  end.
