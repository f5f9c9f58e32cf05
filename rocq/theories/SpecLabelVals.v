(* Specification vocabulary for functions of labelled arrays of values. *)
From Coq Require Import String.
From Verif Require Import Base BaseLemmas ModelPush ModelKernels ModelIndex ModelAxes ModelSelect ModelParams ModelWrap ModelNd ModelLabel Spec SpecAxes SpecNd PropLabelled SpecLabel SpecLabelTwo.
Local Open Scope string_scope.
Local Open Scope nat_scope.

(* the names of the labelled arrays among ops in the order in which they occur first *)
Definition all_names (ops : list xop) : list sname :=
  rev (nodup string_dec (rev (flat_map (fun o => match o with Labelled z => x_dims z | Plain _ => [] end) ops))).
Definition other_names (d : sname) (ops : list xop) : list sname := except_name (all_names ops) [d].
(* the axis of the samples of a plain array: its only axis, or axis r from the end *)
Definition plain_axis (t : tensor) (r : nat) : nat := if Nat.eqb (tndim t) 1 then 0 else tndim t - 1 - r.
(* o has samples: a labelled array with the dimension d and sizes sz; a number; or
   a plain array whose axes but that of the samples line up with the last names of
   outer *)
Definition value_given (d : sname) (outer : list sname) (sz : sname -> nat) (r : nat) (o : xop) : Prop :=
  match o with
  | Labelled z => x_ok z /\ In d (x_dims z) /\ forall n, In n (x_dims z) -> dim_size z n = sz n
  | Plain t => tndim t = 0 \/
      (tndim t = 1 \/ r < tndim t) /\ aligns t [plain_axis t r] (seq 0 (List.length outer)) (fun k => sz (nth k outer "")) /\ shape_of t (plain_axis t r) = sz d
  end.
(* the value of sample i at the position env *)
Definition value_at (d : sname) (outer : list sname) (r : nat) (o : xop) (env : sname -> nat) (i : nat) : Qc :=
  match o with
  | Labelled z => x_at z (name_bind [d] [i] env)
  | Plain t => if Nat.eqb (tndim t) 0 then tget t [] else aligned_entry t [plain_axis t r] (seq 0 (List.length outer)) (fun k => env (nth k outer "")) [i]
  end.
(* the samples at the position env *)
Definition samples_named {V} (R : reader V) (d : sname) (outer : list sname) (r n : nat) (x w : xop) (y : list xop) (env : sname -> nat) : list (V * Qc) :=
  map (fun i => (rd_val R (map (fun o => value_at d outer r o env i) (x :: y)), value_at d outer r w env i)) (seq 0 n).

(* axis number from the end of d *)
Definition from_last (d : sname) (x : xarr) : nat := List.length (x_dims x) - 1 - position String.eqb d (x_dims x).
(* operands of a function of values: x and others with samples along d; sz are the
   sizes of all names, md names for the moments that the operands do not have *)
Definition operands_given {A} (P : packer A) (d : sname) (md : list sname) (sz : sname -> nat) (x : xarr) (others : list xop) : Prop :=
  let ops := Labelled x :: others in
  (forall o, In o ops -> value_given d (other_names d ops) sz (from_last d x) o) /\
  NoDup md /\ (forall n, In n md -> ~ In n (all_names ops)) /\ map sz md = pk_shape P.
(* x, weights w and the second variable y if the moments have one *)
Definition values_given {A} (P : packer A) (d : sname) (md : list sname) (sz : sname -> nat) (x : xarr) (w : xop) (y : list xop) : Prop :=
  S (List.length y) = List.length (pk_shape P) /\ operands_given P d md sz x (w :: y).

(* dimensions of a result of one row per sample, replicate, ...: those x does not
   have first, unless asked for in the order of the operands *)
Definition values_dims (to_end : bool) (d rd : sname) (md : list sname) (x : xarr) (ops : list xop) : list sname :=
  if to_end then (other_names d ops ++ rd :: md)%list
  else (except_name (other_names d ops) (x_dims x) ++ map (fun n => if String.eqb n d then rd else n) (x_dims x) ++ md)%list.
(* the moments of all samples, position by position *)
Definition values_reduced {A V} (K : pusher A V) (P : packer A) (R : reader V) (d : sname) (md : list sname) (sz : sname -> nat) (x : xarr) (w : xop) (y : list xop)
    (res_ : res (lgrid Qc)) : Prop :=
  let ops := Labelled x :: w :: y in let outer := other_names d ops in
  let samples := samples_named R d outer (from_last d x) (sz d) (Labelled x) w y in
  match res_ with
  | Ok g => lg_dims g = (outer ++ md)%list /\ grid_ok (lg_val g) /\ gshape (lg_val g) = map sz (outer ++ md) /\
      forall env, inside_names sz (outer ++ md) env -> exists a, reduce_vals K (samples env) = Some a /\ l_at 0%Qc g env = pk_unpack P a (map env md)
  | Raise e => e = EZeroDiv /\ exists env, inside_names sz outer env /\ reduce_vals K (samples env) = None
  end.

(* a new name for d that none of names is *)
Definition name_free (d : sname) (new : option sname) (names : list sname) : Prop :=
  match new with None => True | Some n => n = d \/ ~ In n names end.
