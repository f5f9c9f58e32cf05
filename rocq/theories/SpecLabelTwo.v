(* Specification vocabulary for functions of two labelled arrays. *)
From Coq Require Import String.
From Verif Require Import Base BaseLemmas ModelPush ModelKernels ModelAxes ModelParams ModelWrap ModelNd ModelLabel Spec SpecAxes SpecNd PropLabelled SpecLabel.
Local Open Scope string_scope.
Local Open Scope nat_scope.

(* freq is a table of nrep rows of ndat counts: a plain array of two axes, or a
   labelled one with the dimensions rep and d in any order *)
Definition counts_named (freq : xop) (rep d : sname) (nrep ndat : nat) : Prop :=
  match freq with
  | Plain t => tensor_ok t /\ tndim t = 2 /\ shape_of t 0 = nrep /\ shape_of t 1 = ndat
  | Labelled z => x_ok z /\ rep <> d /\ (forall n, In n (x_dims z) <-> n = rep \/ n = d) /\ dim_size z rep = nrep /\ dim_size z d = ndat
  end.
(* its rows *)
Definition counts_table (freq : xop) (rep d : sname) (nrep ndat : nat) : list (list Qc) :=
  map (fun i => map (fun j => match freq with
                              | Plain t => tget t [i; j]
                              | Labelled z => x_at z (fun n => if String.eqb n rep then i else j)
                              end) (seq 0 ndat)) (seq 0 nrep).

(* axis= or dim= chooses the dimensions ds of x, in this order *)
Definition chooses_many (md : list sname) (axis : marg (list axis_arg)) (dim : marg dims_arg) (ds : list sname) (x : xarr) : Prop :=
  incl ds (x_dims x) /\ NoDup ds /\ ds <> [] /\ (forall n, In n ds -> ~ In n md) /\
  ((axis = Missing /\ dim = PyNone /\ ds = except_name (x_dims x) md) \/
   (axis = Missing /\ (exists d, dim = Val (DStr d) /\ ds = [d])) \/
   (axis = Missing /\ (dim = Val (DSeq ds) \/ dim = Val (DIter ds))) \/
   (dim = Missing /\ axis = PyNone /\ ds = firstn (List.length (x_dims x) - List.length md) (x_dims x)) \/
   (dim = Missing /\ exists l axes, axis = Val l /\ Forall2 (names_axis (List.length (x_dims x)) (List.length md)) l axes /\
      Forall2 (fun a d => nth_error (x_dims x) a = Some d) axes ds)).
(* dimensions of the reduction along ds *)
Definition reduced_dims (keepdims to_end : bool) (dims ds md : list sname) : list sname :=
  match keepdims, to_end with
  | false, false => except_name dims ds
  | false, true => (except_name dims (ds ++ md) ++ md)%list
  | true, false => dims
  | true, true => (except_name dims (ds ++ md) ++ ds ++ md)%list
  end.
(* the result of a reduction along ds, position by position; a ZeroDivisionError if
   some position has one *)
Definition reduced_by_name {A V} (K : pusher A V) (P : packer A) (keepdims to_end : bool) (ds md : list sname) (x : xarr) (r : res (lgrid Qc)) : Prop :=
  let dims := reduced_dims keepdims to_end (x_dims x) ds md in
  let sz := fun n => if in_dec string_dec n ds then 1 else dim_size x n in
  match r with
  | Ok g => lg_dims g = dims /\ grid_ok (lg_val g) /\ gshape (lg_val g) = map sz dims /\
      forall env, inside_names sz dims env -> exists a,
        reduce_data K (rows_named P x ds md env) = Some a /\ l_at 0%Qc g env = pk_unpack P a (map env md)
  | Raise e => e = EZeroDiv /\ exists env, inside_names (dim_size x) (except_name (x_dims x) (ds ++ md)) env /\
      reduce_data K (rows_named P x ds md env) = None
  end.

(* the moments to take samples away from: a labelled array with dimensions among
   those of the data other than d, or a plain one whose axes but the moments, the
   last ones, line up with the last of these *)
Definition moments_given {A} (P : packer A) (md outer : list sname) (sz : sname -> nat) (red : xop) : Prop :=
  match red with
  | Labelled z => x_ok z /\ incl md (x_dims z) /\ incl (x_dims z) (outer ++ md) /\ forall n, In n (x_dims z) -> dim_size z n = sz n
  | Plain r => let C := seq (tndim r - List.length md) (List.length md) in
      List.length md <= tndim r /\ aligns r C (seq 0 (List.length outer)) (fun k => sz (nth k outer "")) /\ map (shape_of r) C = pk_shape P
  end.
Definition given_at {A} (P : packer A) (md outer : list sname) (red : xop) (env : sname -> nat) : A :=
  match red with
  | Labelled z => moments_named P z md env
  | Plain r => pk_pack P (aligned_entry r (seq (tndim r - List.length md) (List.length md)) (seq 0 (List.length outer)) (fun k => env (nth k outer "")))
  end.

(* the decay factors: a labelled array with the dimension d, and others among those
   of the data; a number; or a plain array with axis b along d whose other axes line
   up with the last dimensions outer *)
Definition decays_given (d : sname) (outer : list sname) (x : xarr) (alpha : xop) (alpha_axis : option axis_arg) (b : nat) : Prop :=
  match alpha with
  | Labelled z => x_ok z /\ In d (x_dims z) /\ incl (x_dims z) (outer ++ [d]) /\ forall n, In n (x_dims z) -> dim_size z n = dim_size x n
  | Plain t => tndim t = 0 \/ decay_axis t alpha_axis b /\ aligns t [b] (seq 0 (List.length outer)) (fun k => dim_size x (nth k outer "")) /\ shape_of t b = dim_size x d
  end.
Definition decays_named (d : sname) (outer : list sname) (x : xarr) (alpha : xop) (b : nat) (env : sname -> nat) : list Qc :=
  match alpha with
  | Labelled z => map (fun i => x_at z (name_bind [d] [i] env)) (seq 0 (dim_size x d))
  | Plain t => decays t b (dim_size x d) (seq 0 (List.length outer)) (fun k => env (nth k outer ""))
  end.
