(* Specification vocabulary for the methods of CentralMomentsData that push onto
   the object: everything labelled is read by the names of dimensions. *)
From Coq Require Import String.
From Verif Require Import Base BaseLemmas ModelPush ModelKernels ModelIndex ModelAccum ModelAxes ModelState ModelParams ModelNd ModelWrap ModelLabel ModelMethods ModelConstruct ModelMethodsX
  Spec SpecAxes SpecNd PropLabelled SpecLabel SpecLabelTwo SpecLabelVals SpecMethods.
Local Open Scope string_scope.
Local Open Scope nat_scope.

(* the shape t stretches to the shape s *)
Definition fits_shape (t s : list nat) : Prop := broadcasts [t; s] s.
(* o has entries for the names outer of sizes sz and for the names core of lengths
   cs: a labelled array has all of core and some of outer; the axes of a plain array
   are the last ones of outer, then core *)
Definition lines_up (core : list sname) (cs : list nat) (outer : list sname) (sz : sname -> nat) (o : xop) : Prop :=
  match o with
  | Labelled z => x_ok z /\ incl core (x_dims z) /\ incl (x_dims z) (outer ++ core) /\
      (forall n, In n (x_dims z) -> In n outer -> dim_size z n = sz n) /\ map (dim_size z) core = cs
  | Plain t => tensor_ok t /\ exists sd, tshape t = (sd ++ cs)%list /\ fits_shape sd (map sz outer)
  end.
(* the entry of o at env, c along core *)
Definition operand_at (core outer : list sname) (o : xop) (env : sname -> nat) (c : list nat) : Qc :=
  match o with
  | Labelled z => x_at z (name_bind core c env)
  | Plain t => tget t (stretched (firstn (tndim t - List.length core) (tshape t)) (map env outer) ++ c)
  end.
(* the moment array of o at env *)
Definition moments_at {A} (P : packer A) (md outer : list sname) (o : xop) (env : sname -> nat) : A := pk_pack P (operand_at md outer o env).

(* calls of push methods *)
Inductive named_call :=
| NData (d : xop) (scale : option tensor)                                                  (* c.push_data(d, scale=scale) *)
| NDatas (axis : marg axis_arg) (dim : marg sname) (mom_axes : option (list Z)) (d : xop)  (* c.push_datas(d, axis=axis, dim=dim, mom_axes=mom_axes) *)
| NVal (x w : xop) (y : list xop)                                                          (* c.push_val(x, *y, weight=w) *)
| NVals (axis : marg axis_arg) (dim : marg sname) (x w : xop) (y : list xop).               (* c.push_vals(x, *y, weight=w, axis=axis, dim=dim) *)
Definition run_named {A V} (K : pusher A V) (P : packer A) (R : reader V) (stretch : bool) (c : cmdata) (call : named_call) : res cmdata :=
  match call with
  | NData d scale => cx_push_data K P stretch c d scale
  | NDatas axis dim mom_axes d => cx_push_datas K P stretch c axis dim (option_map IIter mom_axes) d
  | NVal x w y => cx_push_val K P R stretch c x w y
  | NVals axis dim x w y => cx_push_vals K P R stretch c axis dim x w y
  end.
(* what a call does at each position of an object with moment dimensions md, the
   names outer of sizes sz and no others *)
Inductive named_call_at {A V} (P : packer A) (R : reader V) (md outer : list sname) (sz : sname -> nat) :
    named_call -> ((sname -> nat) -> push_op (A := A) (V := V)) -> Prop :=
| nc_data d : lines_up md (pk_shape P) outer sz d ->
    named_call_at P R md outer sz (NData d None) (fun env => PushData (moments_at P md outer d env))
| nc_scale d sc : lines_up md (pk_shape P) outer sz d -> fits_shape (tshape sc) (map sz outer) ->
    named_call_at P R md outer sz (NData d (Some sc)) (fun env => PushDataScale (moments_at P md outer d env) (value_on sc (map env outer)))
| nc_datas axis dim mom_axes d z : chooses (List.length md) axis dim d z -> ~ In d (outer ++ md) ->
    lines_up (d :: md) (dim_size z d :: pk_shape P) outer sz (Labelled z) ->
    named_call_at P R md outer sz (NDatas axis dim mom_axes (Labelled z)) (fun env => PushDatas (rows_named P z [d] md env))
| nc_plain_datas axis dim mom_axes mom a M L t : ~ In "_dummy123" (outer ++ md) -> mom = match mom_axes with Some l => l | None => axes_last (List.length (pk_shape P)) end ->
    axis_of_moments P mom axis a M t -> L = except_nat (seq 0 (tndim t)) (a :: M) -> fits_shape (map (shape_of t) L) (map sz outer) ->
    named_call_at P R md outer sz (NDatas (Val axis) dim mom_axes (Plain t))
      (fun env => PushDatas (rows_along P t [a] M (bind L (stretched (map (shape_of t) L) (map env outer)) (fun _ => 0))))
| nc_val x w y : S (List.length y) = List.length (pk_shape P) -> Forall (lines_up [] [] outer sz) (x :: w :: y) ->
    named_call_at P R md outer sz (NVal x w y)
      (fun env => PushVal (rd_val R (map (fun o => operand_at [] outer o env []) (x :: y))) (operand_at [] outer w env []))
| nc_vals axis dim d n z w y : S (List.length y) = List.length (pk_shape P) -> chooses 0 axis dim d z -> ~ In d (outer ++ md) -> dim_size z d = n ->
    (forall o, In o (Labelled z :: w :: y) -> value_given d outer (result_size sz d n) (from_last d z) o /\
       match o with Labelled u => incl (x_dims u) (outer ++ [d]) | Plain t => tensor_ok t end) ->
    named_call_at P R md outer sz (NVals axis dim (Labelled z) w y)
      (fun env => PushVals (samples_named R d outer (from_last d z) n (Labelled z) w y env))
| nc_plain_vals axis dim r x w y : ~ In "_dummy123" (outer ++ md) -> S (List.length y) = List.length (pk_shape P) -> samples_agree x (w :: y) axis r ->
    Forall (fun t => fits_shape (value_loop r t) (map sz outer)) (x :: w :: y) ->
    named_call_at P R md outer sz (NVals (Val axis) dim (Plain x) (Plain w) (map Plain y))
      (fun env => PushVals (samples_on R x w y r (map env outer))).

(* the outcome of a push that does at_ at every position: the moments come last, in
   the order md; sizes stay *)
Definition pushed_named {A V} (K : pusher A V) (P : packer A) (md : list sname) (x : xarr) (at_ : (sname -> nat) -> push_op (A := A) (V := V)) (r : res cmdata) : Prop :=
  let outer := except_name (x_dims x) md in
  match r with
  | Ok c => xholds c md /\ x_dims (cx_obj c) = (outer ++ md)%list /\ (forall n, In n (x_dims x) -> dim_size (cx_obj c) n = dim_size x n) /\
      forall env, inside_names (dim_size x) outer env ->
        run_op K (moments_named P x md env) (at_ env) = Some (moments_named P (cx_obj c) md env)
  | Raise e => e = EZeroDiv /\ exists env, inside_names (dim_size x) outer env /\ run_op K (moments_named P x md env) (at_ env) = None
  end.
