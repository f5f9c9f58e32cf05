(* Specification vocabulary for functions of labelled arrays: everything is read
   by the names of dimensions, never by position. *)
From Coq Require Import String.
From Verif Require Import Base BaseLemmas ModelPush ModelKernels ModelAxes ModelParams ModelWrap ModelNd ModelLabel Spec SpecAxes SpecNd PropLabelled.
Local Open Scope string_scope.
Local Open Scope nat_scope.

Notation except_name := (except string_dec).
(* the indices env, but i at the names l *)
Definition name_bind (l : list sname) (i : list nat) (env : sname -> nat) (d : sname) : nat :=
  match find (fun p => String.eqb (fst p) d) (combine l i) with Some p => snd p | None => env d end.
(* env gives indices inside the sizes sz at the names dims *)
Definition inside_names (sz : sname -> nat) (dims : list sname) (env : sname -> nat) : Prop := forall n, In n dims -> env n < sz n.
(* the entry of a labelled result at env *)
Definition l_at {T} (d : T) (g : lgrid T) (env : sname -> nat) : T := gget d (lg_val g) (map env (lg_dims g)).

(* the moment array of x at env, and the moment arrays along the dimensions ds *)
Definition moments_named {A} (P : packer A) (x : xarr) (md : list sname) (env : sname -> nat) : A :=
  pk_pack P (fun m => x_at x (name_bind md m env)).
Definition rows_named {A} (P : packer A) (x : xarr) (ds md : list sname) (env : sname -> nat) : list A :=
  map (fun i => moments_named P x md (name_bind ds i env)) (all_idx (map (dim_size x) ds)).

(* dimensions of a result: rd stands for d; moments and rd last if asked for *)
Definition result_dims (to_end : bool) (dims : list sname) (d rd : sname) (md : list sname) : list sname :=
  if to_end then (except_name dims (d :: md) ++ rd :: md)%list else map (fun n => if String.eqb n d then rd else n) dims.
(* sizes of a result: newlen along rd *)
Definition result_size (sz : sname -> nat) (rd : sname) (newlen : nat) (n : sname) : nat := if String.eqb n rd then newlen else sz n.

(* g has dimensions dims of sizes sz and holds at every position the rows that run
   gives there *)
Definition holds_named {B T} (d : T) (val : B -> list nat -> T) (run : (sname -> nat) -> res (list B))
    (dims : list sname) (sz : sname -> nat) (rd : sname) (md : list sname) (g : lgrid T) : Prop :=
  lg_dims g = dims /\ grid_ok (lg_val g) /\ gshape (lg_val g) = map sz dims /\
  forall env, inside_names sz dims env -> exists rows b,
    run env = Ok rows /\ nth_error rows (env rd) = Some b /\ l_at d g env = val b (map env md).
(* the result is taken position by position, and raises what some position raises *)
Definition by_name {B T} (d : T) (val : B -> list nat -> T) (run : (sname -> nat) -> res (list B))
    (dims : list sname) (sz : sname -> nat) (rd : sname) (md : list sname) (r : res (lgrid T)) : Prop :=
  match r with
  | Ok g => holds_named d val run dims sz rd md g
  | Raise e => exists env, inside_names sz (except_name dims (rd :: md)) env /\ run env = Raise e
  end.

(* x is a labelled array with moment dimensions md of the shape of P *)
Definition labelled_moments {A} (P : packer A) (md : list sname) (x : xarr) : Prop :=
  x_ok x /\ NoDup md /\ incl md (x_dims x) /\ map (dim_size x) md = pk_shape P.
(* the parameters for moment dimensions md *)
Definition params_for (md : list sname) : xparams := XP (Some (Z.of_nat (List.length md))) (Some md).
(* axis= or dim= chooses the dimension d of x *)
Definition chooses (m : nat) (axis : marg axis_arg) (dim : marg sname) (d : sname) (x : xarr) : Prop :=
  (axis = Missing /\ dim = Val d /\ In d (x_dims x)) \/
  (dim = Missing /\ exists ax a, axis = Val ax /\ names_axis (List.length (x_dims x)) m ax a /\ nth_error (x_dims x) a = Some d).
