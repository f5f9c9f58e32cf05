(* Specification vocabulary for conversion, selection and assignment of moments of
   labelled arrays: everything is read by the names of dimensions. *)
From Coq Require Import String.
From Verif Require Import Base BaseLemmas ModelAxes ModelParams ModelNd ModelWrap ModelLabel ModelMoments Spec SpecAxes SpecNd PropLabelled SpecLabel SpecMethodsX SpecMoments.
Local Open Scope string_scope.
Local Open Scope nat_scope.

(* x has one or two moment dimensions md *)
Definition has_moments (md : list sname) (x : xarr) : Prop :=
  x_ok x /\ NoDup md /\ (List.length md = 1 \/ List.length md = 2) /\ incl md (x_dims x).
(* the entry of x with moment index m, at env *)
Definition named_moment (x : xarr) (md : list sname) (env : sname -> nat) (m : list nat) : Qc := x_at x (name_bind md m env).
(* the result has the dimensions dims of sizes sz and the entries at_ *)
Definition result_is (dims : list sname) (sz : sname -> nat) (at_ : (sname -> nat) -> Qc) (r : res xarr) : Prop :=
  exists y, r = Ok y /\ x_ok y /\ x_dims y = dims /\ (forall n, In n dims -> dim_size y n = sz n) /\
    forall env, inside_names sz dims env -> x_at y env = at_ env.
(* sizes sz, but k at the names l *)
Definition sizes_with (l : list sname) (k : list nat) (sz : sname -> nat) : sname -> nat := name_bind l k sz.
(* new names for dimensions: distinct, and not among the dimensions that stay *)
Definition new_names (x : xarr) (md out : list sname) : Prop := NoDup out /\ forall n, In n out -> ~ In n (except_name (x_dims x) md).

(* the dimensions of a selection: dim_combined for averages and variances of several
   variables, the other moment dimension for moments with one index fixed *)
Definition selection_dims (md : list sname) (squeeze : bool) (combined : sname) (name : string) : list sname :=
  if string_dec name "all" then md
  else if in_dec string_dec name ["ave"; "var"] then match md, squeeze with [_], true => [] | _, _ => [combined] end
  else match md with
       | [a; b] => if in_dec string_dec name ["xmom_0"; "xmom_1"] then [b] else if in_dec string_dec name ["ymom_0"; "ymom_1"] then [a] else []
       | _ => []
       end.
(* averages and variances of several variables, or unsqueezed, have a dimension of
   their own *)
Definition own_dim (md : list sname) (squeeze : bool) (name : string) : Prop :=
  In name ["ave"; "var"] /\ (List.length md = 2 \/ squeeze = false).
(* a value for the selection of shape qs: an array that can be written over it, or a
   labelled array with all dimensions of the selection and some value dimensions *)
Definition value_suits (md : list sname) (squeeze : bool) (combined : sname) (outer : list sname) (sz : sname -> nat) (name : string) (qs : list nat) (v : xop) : Prop :=
  match v with
  | Plain t => fits_over (map sz outer ++ qs) t
  | Labelled z => lines_up (selection_dims md squeeze combined name) qs outer sz v
  end.
(* the value for place q of the selection at env *)
Definition value_for (md : list sname) (squeeze : bool) (combined : sname) (outer : list sname) (name : string) (v : xop) (env : sname -> nat) (q : list nat) : Qc :=
  match v with
  | Plain t => value_over t (map env outer ++ q)
  | Labelled z => x_at z (name_bind (selection_dims md squeeze combined name) q env)
  end.
(* moments f with new ones at the places of a selection *)
Definition set_moments (qs : list nat) (at_ : list nat -> list nat) (new : list nat -> Qc) (f : list nat -> Qc) (m : list nat) : Qc :=
  match find (fun q => if list_eq_dec Nat.eq_dec (at_ q) m then true else false) (all_idx qs) with Some q => new q | None => f m end.
(* assignments one after the other, s the shape of the moments; names without meaning
   are skipped *)
Fixpoint set_names (squeeze : bool) (s : list nat) (news : list (string * (list nat -> Qc))) (f : list nat -> Qc) : list nat -> Qc :=
  match news with
  | [] => f
  | (name, new) :: r => set_names squeeze s r
      (match find (fun e => String.eqb (fst e) name) (moment_names squeeze s) with Some (_, (qs, at_)) => set_moments qs at_ new f | None => f end)
  end.
(* the name of the dimension of averages and variances: not that of a value
   dimension; that of a moment dimension only if the sizes agree *)
Definition combined_ok (x : xarr) (md : list sname) (combined : sname) : Prop :=
  ~ In combined (except_name (x_dims x) md) /\ (In combined md -> dim_size x combined = List.length md).
(* the coordinates of that dimension, if given, are as many as there are variables *)
Definition coords_fit (md : list sname) (coords : option (list sname)) : Prop :=
  match coords with None => True | Some l => List.length l = List.length md end.
(* dim_combined= as given *)
Definition names_combined (md : list sname) (squeeze : bool) (x : xarr) (given : option sname) (combined : sname) (nv : string * xop) : Prop :=
  own_dim md squeeze (fst nv) -> (exists z, snd nv = Labelled z) -> given = Some combined /\ combined <> "" /\ combined_ok x md combined.

(* names for k new moment dimensions, as asked for or the default ones *)
Definition chosen_names (k : nat) (asked : option dims_arg) (out : list sname) : Prop :=
  List.length out = k /\ (asked = Some (DSeq out) \/ asked = None /\ out = firstn k ["mom_0"; "mom_1"] \/ exists d, asked = Some (DStr d) /\ out = [d]).
(* the input dimension d can stand aside under its temporary name *)
Definition can_stand_aside (x : xarr) (out : list sname) (d : sname) : Prop := ~ In ("_tmp_" ++ d) (x_dims x) /\ ~ In ("_tmp_" ++ d) out.
(* the dimensions of several operands in the order in which they are met *)
Definition met_dims (os : list xop) : list sname :=
  rev (nodup string_dec (rev (flat_map (fun o => match o with Labelled z => x_dims z | Plain _ => [] end) os))).
