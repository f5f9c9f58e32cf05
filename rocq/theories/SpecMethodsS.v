(* Specification vocabulary for objects that hold a Dataset: calls on the object are
   calls on its variables. *)
From Coq Require Import String.
From Verif Require Import Base BaseLemmas ModelPush ModelKernels ModelIndex ModelAccum ModelAxes ModelState ModelParams ModelNd ModelWrap ModelLabel ModelMethods ModelConstruct ModelMethodsX ModelDataset ModelMethodsS
  Spec SpecAxes SpecNd PropLabelled SpecLabel SpecLabelTwo SpecLabelVals SpecMethods SpecMethodsX SpecDataset.
Local Open Scope string_scope.
Local Open Scope nat_scope.

(* an object with moment dimensions md; at least one variable has moments, and they have
   at least two entries *)
Definition sholds (c : csdata) (md : list sname) : Prop :=
  set_ok (cs_obj c) /\ moment_names md /\ cs_params c = params_for md /\
  (exists v, In v (cs_obj c) /\ has_names md (snd v) = true) /\
  forall v n, In v (cs_obj c) -> has_names md (snd v) = true -> In n md -> 2 <= dim_size (snd v) n.
(* a variable as an object by itself *)
Definition by_itself (p : xparams) (x : xarr) : cmdata := CX x p.

(* calls of push methods of an object that holds a Dataset *)
Inductive set_call :=
| SData (d : dop) (scale : option tensor)                                                  (* c.push_data(d, scale=scale) *)
| SDatas (axis : marg axis_arg) (dim : marg sname) (mom_axes : option (list Z)) (d : dop)  (* c.push_datas(d, axis=axis, dim=dim, mom_axes=mom_axes) *)
| SVal (x w : dop) (y : list dop)                                                          (* c.push_val(x, *y, weight=w) *)
| SVals (axis : marg axis_arg) (dim : marg sname) (x w : dop) (y : list dop).               (* c.push_vals(x, *y, weight=w, axis=axis, dim=dim) *)
Definition run_set {A V} (K : pusher A V) (P : packer A) (R : reader V) (stretch : bool) (c : csdata) (call : set_call) : res csdata :=
  match call with
  | SData d scale => cs_push_data K P stretch c d scale
  | SDatas axis dim mom_axes d => cs_push_datas K P stretch c axis dim (option_map IIter mom_axes) d
  | SVal x w y => cs_push_val K P R stretch c x w y
  | SVals axis dim x w y => cs_push_vals K P R stretch c axis dim x w y
  end.
(* the same call for the variable number name *)
Definition call_for (name : sname) (call : set_call) : named_call :=
  match call with
  | SData d scale => NData (its_part name d) scale
  | SDatas axis dim mom_axes d => NDatas axis dim mom_axes (its_part name d)
  | SVal x w y => NVal (its_part name x) (its_part name w) (map (its_part name) y)
  | SVals axis dim x w y => NVals axis dim (its_part name x) (its_part name w) (map (its_part name) y)
  end.
(* the arguments of a call *)
Definition call_args (call : set_call) : list dop :=
  match call with SData d _ => [d] | SDatas _ _ _ d => [d] | SVal x w y => x :: w :: y | SVals _ _ x w y => x :: w :: y end.
(* the dimensions that all arguments of a call need; d is the one of the samples *)
Definition call_core (md : list sname) (d : sname) (call : set_call) : list sname :=
  match call with SData _ _ => md | SDatas _ _ _ _ => d :: md | SVal _ _ _ => [] | SVals _ _ _ _ _ => [d] end.
(* the variable takes part: it has the moments and its arguments have their dimensions *)
Definition takes_part (md : list sname) (d : sname) (call : set_call) (v : sname * xarr) : bool :=
  (has_names md (snd v) && forallb (part_has (call_core md d call) (fst v)) (call_args call))%bool.
(* the arguments go with the Dataset and with each other *)
Definition args_fit (s : xset) (l : list dop) : Prop :=
  (forall a, In a l -> fits s a) /\ forall a b x y, In a l -> In b l -> In x (arrays_of a) -> In y (arrays_of b) -> sizes_agree x y.
(* a plain argument is a number or has one axis *)
Definition narrow (a : dop) : Prop := match a with DArr (Plain t) => tndim t <= 1 | _ => True end.
(* the samples are along d: for a Dataset d is named; for a DataArray it is named or
   counted; plain arrays have their samples along an axis *)
Definition along_samples (md : list sname) (call : set_call) (d : sname) : Prop :=
  match call with
  | SDatas axis dim _ a =>
      match a with
      | DSet _ => axis = Missing /\ dim = Val d /\ ~ In d md
      | DArr (Labelled z) => chooses (List.length md) axis dim d z /\ ~ In d md
      | DArr (Plain _) => d = "_dummy123"
      end
  | SVals axis dim x w y =>
      match x with
      | DSet _ => axis = Missing /\ dim = Val d /\ Forall narrow (w :: y)
      | DArr (Labelled z) => chooses 0 axis dim d z
      | DArr (Plain _) => d = "_dummy123" /\ Forall (fun a => exists t, a = DArr (Plain t)) (w :: y)
      end
  | _ => True
  end.

(* r holds the results of f for the variables of c, under the same names; if there is
   none, f raises for some variable *)
Definition each_object (f : sname * xarr -> res cmdata) (c : csdata) (r : res csdata) : Prop :=
  match r with
  | Ok c' => cs_params c' = cs_params c /\ Forall2 (fun v w => fst w = fst v /\ f v = Ok (CX (snd w) (cs_params c))) (cs_obj c) (cs_obj c')
  | Raise e => exists v, In v (cs_obj c) /\ f v = Raise e
  end.
