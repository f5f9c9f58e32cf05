(* Coordinates of several arguments: xr.apply_ufunc with join="exact" in push_data,
   push_datas, push_val, push_vals, + and - (wrapper/wrap_xr.py:368-608,
   wrapper/wrap_abc.py:486-512) and in reduce_vals (reduction.py:213-252).

   The order of the coordinates of a result is not modelled.  apply_ufunc_kwargs does not
   change join. *)
From Coq Require Import String.
From Verif Require Import Base ModelPush ModelKernels ModelIndex ModelAxes ModelState ModelSelect ModelParams ModelWrap ModelNd ModelLabel ModelMoments ModelMomentsX ModelOut ModelSampler ModelMethods ModelConstruct ModelMethodsX ModelShape ModelCoords.
Local Open Scope string_scope.
Local Open Scope list_scope.

Section Merge.
  Context {T : Type} (dflt : T) (eqb : T -> T -> bool).

  (* equality of arrays of labels
     [inside xr.apply_ufunc, called at wrap_xr.py:409] *)
  Definition labels_eqb (a b : list T) : bool := (Nat.eqb (List.length a) (List.length b) && forallb (fun p => eqb (fst p) (snd p)) (combine a b))%bool.
  (* a coordinate along the dimension of its name has an index
     [inside xr.apply_ufunc, called at wrap_xr.py:409] *)
  Definition is_index (n : sname) (c : coord T) : bool := match co_dims c with [m] => String.eqb m n | _ => false end.
  (* DataArray.coords[n]
     [inside xr.apply_ufunc, called at wrap_xr.py:409] *)
  Definition coord_named (n : sname) (cs : coords T) : option (coord T) := option_map snd (find (fun c => String.eqb (fst c) n) cs).
  (* deep_align with join="exact": two indices of a dimension that are not equal are a
     ValueError
     [inside xr.apply_ufunc, called at wrap_xr.py:409, 469, 520, 593, reduction.py:230] *)
  Definition exact_join (l : list (coords T)) : res unit :=
    if forallb (fun a => forallb (fun b => forallb (fun c =>
         if is_index (fst c) (snd c) then
           match coord_named (fst c) b with
           | Some c' => (negb (is_index (fst c) c') || labels_eqb (gdata (co_val (snd c))) (gdata (co_val c')))%bool
           | None => true
           end
         else true) a) l) l
    then Ok tt else Raise EValue.
  (* broadcast_dimension_size: the size of a dimension in the first coordinate that has it
     [inside xr.apply_ufunc, called at wrap_xr.py:409] *)
  Definition coord_size (es : list (coord T)) (n : sname) : nat :=
    match find (fun c => smem n (co_dims c)) es with Some c => nth (position String.eqb n (co_dims c)) (gshape (co_val c)) 0 | None => 0 end.
  (* Variable.set_dims, and transpose to these dimensions
     [inside xr.apply_ufunc, called at wrap_xr.py:409] *)
  Definition set_dims (dims : list sname) (sz : sname -> nat) (c : coord T) : grid T :=
    gtabulate (map sz dims) (fun idx => gget dflt (co_val c) (map (fun n => nth (position String.eqb n dims) idx 0) (co_dims c))).
  (* the names of a list, each once, in the order in which they come first
     [inside xr.apply_ufunc, called at wrap_xr.py:409] *)
  Definition once (l : list sname) : list sname := rev (nodup string_dec (rev l)).
  (* unique_variable with compat="minimal": coordinates that are equal after broadcasting;
     others are dropped
     [inside xr.apply_ufunc, called at wrap_xr.py:409] *)
  Definition unique_coord (es : list (coord T)) : option (coord T) :=
    match es with
    | [] => None
    | [c] => Some c
    | c :: rest =>
        let dims := once (flat_map co_dims es) in
        let g := set_dims dims (coord_size es) c in
        if forallb (fun b => labels_eqb (gdata g) (gdata (set_dims dims (coord_size es) b))) rest then Some (Co dims g) else None
    end.
  (* merge_collected: an index comes first
     [inside xr.apply_ufunc, called at wrap_xr.py:409] *)
  Definition merge_named (l : list (coords T)) (n : sname) : option (coord T) :=
    let es := flat_map (fun cs => match coord_named n cs with Some c => [c] | None => [] end) l in
    match find (is_index n) es with Some c => Some c | None => unique_coord es end.
  (* merge_coordinates_without_align
     [inside xr.apply_ufunc, called at wrap_xr.py:409, 469, 520, 593, reduction.py:230] *)
  Definition merge_coords (l : list (coords T)) : coords T :=
    flat_map (fun n => match merge_named l n with Some c => [(n, c)] | None => [] end) (once (flat_map (map fst) l)).
  (* apply_dataarray_vfunc: align, merge the coordinates, calculate; dropped is the input
     core dimensions that the output does not have
     [inside xr.apply_ufunc, called at wrap_xr.py:409, 469, 520, 593, reduction.py:230] *)
  Definition with_coords {B} (dropped : list sname) (l : list (coords T)) (r : res B) : res (B * coords T) :=
    rbind (exact_join l) (fun _ => rmap (fun b => (b, out_coords dropped (merge_coords l))) r).

  (* an argument with its coordinates; arrays have none
     [wrap_xr.py:409-421] *)
  Definition carg : Type := xop * coords T.
  (* wrap_xr.py:409-421 *)
  Definition arg_coords (a : carg) : coords T := match fst a with Labelled _ => snd a | Plain _ => [] end.

  Section Push.
    Context {A V : Type} (K : pusher A V) (P : packer A) (R : reader V) (stretch : bool).

    (* wrap_xr.py:368-421 push_data *)
    Definition cxc_push_data (c : cmdata) (cs : coords T) (data : carg) (scale : option tensor) : res (cmdata * coords T) :=
      with_coords [] [cs; arg_coords data] (cx_push_data K P stretch c (fst data) scale).
    (* wrap_xr.py:423-484 push_datas; the dimension of an array has a name that there is not *)
    Definition cxc_push_datas (c : cmdata) (cs : coords T) (axis : marg axis_arg) (dim : marg sname) (mom_axes : option ints_arg) (datas : carg) : res (cmdata * coords T) :=
      rbind (match fst datas with
             | Labelled z => rmap snd (select_axis_dim (cx_params c) (XArr (x_dims z)) axis dim Missing Missing false)
             | Plain _ => Ok dummy_dim
             end) (fun d => with_coords [d] [cs; arg_coords datas] (cx_push_datas K P stretch c axis dim mom_axes (fst datas))).
    (* wrap_xr.py:486-534 push_val *)
    Definition cxc_push_val (c : cmdata) (cs : coords T) (x w : carg) (y : list carg) : res (cmdata * coords T) :=
      with_coords [] (cs :: map arg_coords (x :: w :: y)) (cx_push_val K P R stretch c (fst x) (fst w) (map fst y)).
    (* wrap_xr.py:536-608 push_vals: with an array x the others are arrays *)
    Definition cxc_push_vals (c : cmdata) (cs : coords T) (axis : marg axis_arg) (dim : marg sname) (x w : carg) (y : list carg) : res (cmdata * coords T) :=
      match fst x with
      | Labelled z =>
          rbind (select_axis_dim default_x_params (XArr (x_dims z)) axis dim Missing Missing false) (fun '(_, d) =>
          with_coords [d] (cs :: map arg_coords (x :: w :: y)) (cx_push_vals K P R stretch c axis dim (fst x) (fst w) (map fst y)))
      | Plain _ => with_coords [dummy_dim] [cs] (cx_push_vals K P R stretch c axis dim (fst x) (fst w) (map fst y))
      end.
    (* wrap_abc.py:494-502 __iadd__ and __add__ *)
    Definition cxc_add (c : cmdata) (cs : coords T) (other : cmdata) (cs' : coords T) : res (cmdata * coords T) :=
      rbind (cx_check_other c other) (fun _ => cxc_push_data c cs (Labelled (cx_obj other), cs') None).
    (* wrap_abc.py:504-512 __isub__ and __sub__ *)
    Definition cxc_sub (c : cmdata) (cs : coords T) (other : cmdata) (cs' : coords T) : res (cmdata * coords T) :=
      rbind (cx_check_other c other) (fun _ => cxc_push_data c cs (Labelled (cx_obj other), cs') (Some (Tensor [] [(-(1))%Qc]))).
    (* reduction.py:213-252 reduce_vals *)
    Definition xc_reduce_vals (p : xparams) (axis : marg axis_arg) (dim : marg sname) (x : xarr) (cs : coords T) (w : carg) (y : list carg) : res (lgrid Qc * coords T) :=
      rbind (select_axis_dim default_x_params (XArr (x_dims x)) axis dim Missing Missing false) (fun '(_, d) =>
      with_coords [d] (cs :: map arg_coords (w :: y)) (x_reduce_vals K P R p axis dim x (fst w) (map fst y))).
  End Push.
End Merge.
