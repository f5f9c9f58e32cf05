(* Specification vocabulary for changes of the dimensions: everything is read by the names
   of dimensions. *)
From Coq Require Import String Permutation.
From Verif Require Import Base BaseLemmas ModelPush ModelKernels ModelIndex ModelAxes ModelParams ModelWrap ModelNd ModelLabel ModelDataset ModelShape Spec SpecAxes SpecNd SpecLabel SpecDataset PropLabelled.
Local Open Scope string_scope.
Local Open Scope nat_scope.

(* ds are dimensions of x that may be stacked to z *)
Definition stackable (z : sname) (ds : list sname) (x : xarr) : Prop :=
  ds <> [] /\ NoDup ds /\ incl ds (x_dims x) /\ ~ In z (x_dims x) /\ forall n, In n (x_dims x) -> ~ In n ds -> 0 < dim_size x n.
(* y is x with the dimensions ds run through, the last one fastest, along z *)
Definition stacked (z : sname) (ds : list sname) (x y : xarr) : Prop :=
  (forall n, In n (x_dims y) <-> n = z \/ In n (x_dims x) /\ ~ In n ds) /\
  dim_size y z = size (map (dim_size x) ds) /\ (forall n, In n (x_dims x) -> ~ In n ds -> dim_size y n = dim_size x n) /\
  forall env, x_inside y env -> exists i, nth_error (all_idx (map (dim_size x) ds)) (env z) = Some i /\ x_at y env = x_at x (name_bind ds i env).

(* an indexer takes from an axis of length n one position or a list of them *)
Inductive takes (n : nat) : ikey -> nat + list nat -> Prop :=
| takes_at i k : is_axis n i k -> takes n (IAt i) (inl k)
| takes_list l ks : Forall2 (is_axis n) l ks -> takes n (IList l) (inr ks)
| takes_slice a b c ks : slice_list n a b c = Ok ks -> takes n (ISlice a b c) (inr ks).
(* the positions of x where those of a selection come from *)
Definition moved (p : sname -> nat + list nat) (env : sname -> nat) (n : sname) : nat := at_pick (p n) (env n).
(* p selects from x as the indexers say, and everything where there is none *)
Definition selects (ix : list (sname * ikey)) (sz : sname -> nat) (dims : list sname) (p : sname -> nat + list nat) : Prop :=
  forall n, In n dims ->
    match find (fun q => String.eqb (fst q) n) ix with Some q => takes (sz n) (snd q) (p n) | None => p n = inr (seq 0 (sz n)) end.
(* g' holds the entries of g at the selected positions *)
Definition l_picked {T} (dflt : T) (p : sname -> nat + list nat) (sz : sname -> nat) (g g' : lgrid T) : Prop :=
  let keep := fun n => is_list (p n) in
  lg_dims g' = filter keep (lg_dims g) /\ grid_ok (lg_val g') /\ gshape (lg_val g') = map (fun n => List.length (list_of (p n))) (filter keep (lg_dims g)) /\
  forall env, inside_names (fun n => List.length (list_of (p n))) (lg_dims g') env -> l_at dflt g' env = l_at dflt g (moved p env) /\ inside_names sz (lg_dims g) (moved p env).
(* p, but everything of the n positions along d *)
Definition whole (d : sname) (n : nat) (p : sname -> nat + list nat) (m : sname) : nat + list nat := if String.eqb m d then inr (seq 0 n) else p m.

(* y is x with the dimensions ds along z, position k of z being the place number k of codes *)
Definition stacked_by (codes : list (list nat)) (z : sname) (ds : list sname) (x y : xarr) : Prop :=
  (forall n, In n (x_dims y) <-> n = z \/ In n (x_dims x) /\ ~ In n ds) /\
  dim_size y z = List.length codes /\ (forall n, In n (x_dims x) -> ~ In n ds -> dim_size y n = dim_size x n) /\
  forall env, x_inside y env -> exists i, nth_error codes (env z) = Some i /\ x_at y env = x_at x (name_bind ds i env).
(* the index of a stacked dimension has every place of its levels once *)
Definition full_index (ix : xindex) (x : xarr) (z : sname) : Prop :=
  NoDup (xi_names ix) /\ List.length (xi_names ix) = List.length (xi_sizes ix) /\ Permutation (xi_codes ix) (all_idx (xi_sizes ix)) /\
  dim_size x z = List.length (xi_codes ix) /\ forall n, In n (xi_names ix) -> In n (x_dims x) -> n = z.
(* y is x with the levels of ix in place of z *)
Definition unstacked (z : sname) (ix : xindex) (x y : xarr) : Prop :=
  map (dim_size y) (xi_names ix) = xi_sizes ix /\ (forall n, In n (x_dims x) -> n <> z -> dim_size y n = dim_size x n) /\
  forall env, x_inside y env -> exists k, nth_error (xi_codes ix) k = Some (map env (xi_names ix)) /\ x_at y env = x_at x (name_bind [z] [k] env).

(* s has a variable for each position along d of x, called by its label *)
Definition split_at (d : sname) (label : nat -> sname) (x : xarr) (s : xset) : Prop :=
  map fst s = map label (seq 0 (dim_size x d)) /\
  forall i, i < dim_size x d -> exists v, nth_error s i = Some (label i, v) /\ x_ok v /\
    (forall n, In n (x_dims v) <-> In n (x_dims x) /\ n <> d) /\ (forall n, In n (x_dims v) -> dim_size v n = dim_size x n) /\
    forall env, x_inside v env -> x_at v env = x_at x (name_bind [d] [i] env).
(* y has the variables of s, each repeated along the dimensions it lacks, along dim *)
Definition joined (dim : sname) (s : xset) (y : xarr) : Prop :=
  (forall n, In n (x_dims y) <-> n = dim \/ exists v, In v s /\ In n (x_dims (snd v))) /\
  dim_size y dim = List.length s /\ (forall v n, In v s -> In n (x_dims (snd v)) -> dim_size y n = dim_size (snd v) n) /\
  forall env, x_inside y env -> exists v, nth_error s (env dim) = Some v /\ x_at y env = x_at (snd v) env.
