(* Coordinates of DataArrays in the functions that reduce along dimensions:
   core/xr_utils.py:83-127 (replace_coords_from_isel), reduction.py:487-541, 979-1025,
   1402-1468, convert.py:438-478, resample/resample.py:230-276, 829-863, rolling.py:440-480
   and wrapper/wrap_xr.py:768-853 (reduce with by= the name of a coordinate).

   A coordinate has a name, dimensions and labels of any type.  Index objects are not
   modelled apart from the labels they hold (a MultiIndex is not modelled), nor are attrs.
   The other arguments of the functions have no coordinates.  The new name of a dimension
   is not the name of a coordinate along other dimensions (xarray only renames then). *)
From Coq Require Import String.
From Verif Require Import Base ModelPush ModelKernels ModelIndex ModelAxes ModelState ModelSelect ModelParams ModelWrap ModelNd ModelLabel ModelMoments ModelMomentsX ModelOut ModelSampler ModelMethods ModelConstruct ModelMethodsX ModelShape.
Local Open Scope string_scope.
Local Open Scope list_scope.

(* core/typing.py:257 CoordsPolicy: "first", "last", "group" or None *)
Inductive policy := PFirst | PLast | PGroup | PNone.
(* a coordinate, values of DataArray.coords
   [core/xr_utils.py:110-125] *)
Record coord (T : Type) := Co { co_dims : list sname; co_val : grid T }.
Arguments Co {T}. Arguments co_dims {T}. Arguments co_val {T}.
(* DataArray.coords
   [core/xr_utils.py:110] *)
Definition coords (T : Type) := list (sname * coord T).

Section Coords.
  Context {T : Type} (dflt : T).

  (* coordinates of the result of apply_ufunc when one argument has coordinates: those
     without a dimension that is excluded, or that is a core dimension of the input only
     [build_output_coords_and_indexes, called at reduction.py:487, 979, 1402,
     resample/resample.py:230, 829, convert.py:438, rolling.py:440] *)
  Definition out_coords (dropped : list sname) (cs : coords T) : coords T :=
    filter (fun c => forallb (fun n => negb (smem n dropped)) (co_dims (snd c))) cs.
  (* isel of one coordinate with an array of integers
     [core/xr_utils.py:107-124] *)
  Definition isel_coord (d : sname) (rows : list Z) (c : coord T) : res (coord T) :=
    if smem d (co_dims c) then
      let a := position String.eqb d (co_dims c) in
      rbind (mapR (fun i => index_int i (nth a (gshape (co_val c)) 0)) rows) (fun rs =>
      Ok (Co (co_dims c) (gtabulate (upd (gshape (co_val c)) a (List.length rs))
            (fun idx => gget dflt (co_val c) (upd idx a (nth (nth a idx 0) rs 0))))))
    else Ok c.
  (* core/xr_utils.py:83-127 replace_coords_from_isel with indexers={d: rows} *)
  Definition replace_coords_from_isel (d : sname) (rows : list Z) (cs : coords T) : res (coords T) :=
    mapR (fun c => rmap (pair (fst c)) (isel_coord d rows (snd c))) cs.
  (* assign_coords({d: (d, labels)}); n is the size of the dimension
     [reduction.py:1022-1023, 1462-1463] *)
  Definition assign_coord (d : sname) (n : nat) (labels : list T) (cs : coords T) : res (coords T) :=
    if negb (Nat.eqb (List.length labels) n) then Raise EValue
    else Ok (filter (fun c => negb (String.eqb (fst c) d)) cs ++ [(d, Co [d] (Grid [n] labels))]).
  (* rename({old: new}) of the coordinates: two of the same name are a ValueError
     [reduction.py:1024-1025, 1467-1468, resample/resample.py:862-863] *)
  Definition rename_name (old new n : sname) : sname := if String.eqb n old then new else n.
  (* reduction.py:1024-1025, 1467-1468 *)
  Definition rename_coords (old : sname) (new : option sname) (cs : coords T) : res (coords T) :=
    match new with
    | None => Ok cs
    | Some new =>
        let l := map (fun c => (rename_name old new (fst c), Co (map (rename_name old new) (co_dims (snd c))) (co_val (snd c)))) cs in
        if sdup (map fst l) then Raise EValue else Ok l
    end.
  (* size of a dimension of a result, reduction.py:1022-1023 *)
  Definition lg_size {B} (g : lgrid B) (d : sname) : nat := nth (position String.eqb d (lg_dims g)) (gshape (lg_val g)) 0.

  Section Data.
    Context {A V : Type} (K : pusher A V) (P : packer A).

    (* reduction.py:1395-1470 reduce_data_indexed *)
    Definition xc_reduce_data_indexed (p : xparams) (index start end_ : list Z) (scale : option (list Qc)) (pol : policy) (groups : option (list T)) (group_dim : option sname)
        (axis : marg axis_arg) (dim : marg sname) (to_end : bool) (x : xarr) (cs : coords T) : res (lgrid Qc * coords T) :=
      rbind (x_reduce_data_indexed K P p index start end_ scale None axis dim to_end x) (fun g =>
      rbind (chosen_axis p axis dim x) (fun '(_, d) =>
      let kept := out_coords [d] cs in
      let select := fun at_ => rbind (mapR (fun z => rmap (fun i => nth i index 0%Z) (index_int z (List.length index))) at_) (fun rows => replace_coords_from_isel d rows cs) in
      rbind (match pol with
             | PFirst => select start
             | PLast => select (map (fun e => e - 1)%Z end_)
             | PGroup => match groups with Some l => assign_coord d (lg_size g d) l kept | None => Ok kept end
             | PNone => Ok kept
             end) (fun cs' =>
      rbind (opt_rename d group_dim g) (fun g => rmap (pair g) (rename_coords d group_dim cs'))))).
    (* reduction.py:964-1025 reduce_data_grouped *)
    Definition xc_reduce_data_grouped (p : xparams) (by_ : list Z) (groups : option (list T)) (group_dim : option sname) (axis : marg axis_arg) (dim : marg sname)
        (to_end : bool) (x : xarr) (cs : coords T) : res (lgrid Qc * coords T) :=
      rbind (x_reduce_data_grouped K P p by_ None axis dim to_end x) (fun g =>
      rbind (chosen_axis p axis dim x) (fun '(_, d) =>
      rbind (match groups with Some l => assign_coord d (lg_size g d) l (out_coords [d] cs) | None => Ok (out_coords [d] cs) end) (fun cs' =>
      rbind (opt_rename d group_dim g) (fun g => rmap (pair g) (rename_coords d group_dim cs'))))).
    (* reduction.py:433-541 reduce_data *)
    Definition xc_reduce_data (p : xparams) (axis : marg (list axis_arg)) (dim : marg dims_arg) (keepdims to_end : bool) (x : xarr) (cs : coords T) : res (lgrid Qc * coords T) :=
      rbind (x_reduce_data K P p axis dim keepdims to_end x) (fun g =>
      rbind (select_axis_dim_mult p (XArr (x_dims x)) axis dim Missing Missing false) (fun '(_, ds) => Ok (g, out_coords ds cs))).
    (* convert.py:423-478 cumulative *)
    Definition xc_cumulative (p : xparams) (inverse : bool) (axis : marg axis_arg) (dim : marg sname) (to_end : bool) (x : xarr) (cs : coords T) : res (lgrid Qc * coords T) :=
      rmap (fun g => (g, out_coords [] cs)) (x_cumulative K P p inverse axis dim to_end x).
    (* rolling.py:428-480 rolling_data *)
    Definition xc_rolling_data (p : xparams) (window : Z) (min_periods : option Z) (center zero : bool) (axis : marg axis_arg) (dim : marg sname) (to_end : bool) (x : xarr) (cs : coords T)
        : res (lgrid (option Qc) * coords T) :=
      rmap (fun g => (g, out_coords [] cs)) (x_rolling_data K P p window min_periods center zero axis dim to_end x).
    (* resample/resample.py:217-276 resample_data; d is a core dimension of the input only *)
    Definition xc_resample_data (p : xparams) (freq : xop) (rep_dim : sname) (axis : marg axis_arg) (dim : marg sname) (to_end : bool) (x : xarr) (cs : coords T) : res (lgrid Qc * coords T) :=
      rbind (x_resample_data K P p freq rep_dim axis dim to_end x) (fun g =>
      rbind (chosen_axis p axis dim x) (fun '(_, d) => Ok (g, out_coords (if String.eqb d rep_dim then [] else [d]) cs))).
    (* resample/resample.py:786-868 jackknife_data: the coordinates along the dimension are kept *)
    Definition xc_jackknife_data (p : xparams) (data_reduced : option (xop * option (list Z))) (rep_dim : option sname) (axis : marg axis_arg) (dim : marg sname) (to_end : bool)
        (x : xarr) (cs : coords T) : res (lgrid Qc * coords T) :=
      rbind (x_jackknife_data K P p data_reduced None axis dim to_end x) (fun g =>
      rbind (chosen_axis p axis dim x) (fun '(_, d) =>
      rbind (opt_rename d rep_dim g) (fun g => rmap (pair g) (rename_coords d rep_dim (out_coords [] cs))))).

    (* by= of reduce: integers, or the name of a coordinate
       [wrap_xr.py:790, 823] *)
    Inductive by_arg := ByCodes (l : list Z) | ByCoord (name : sname).
    Context (eqb leb : T -> T -> bool) (skip : T -> bool).
    (* integers as labels: range(n), and coordinates of dimensions that have none *)
    Context (of_nat : nat -> T).
    (* self._obj[by].to_numpy(): a coordinate with one dimension, or a range; labels of more
       dimensions are a TypeError of factorize
       [wrap_xr.py:791-793, 826] *)
    Definition coord_labels (name : sname) (x : xarr) (cs : coords T) : res (list T) :=
      match find (fun c => String.eqb (fst c) name) cs with
      | Some c => if Nat.eqb (List.length (co_dims (snd c))) 1 then Ok (gdata (co_val (snd c))) else Raise EType
      | None => match sizes (x_dims x) (x_shape x) name with Ok n => Ok (map of_nat (seq 0 n)) | Raise _ => Raise EKey end
      end.
    (* wrap_xr.py:768-853 reduce *)
    Definition cxc_reduce (argsort : list Z -> list nat) (c : cmdata) (cs : coords T) (axis : raxis) (dim : marg dims_arg) (by_ : option by_arg) (block : option Z)
        (pol : policy) (groups : option (list T)) (group_dim : option sname) (to_end keepdims : bool) : res (cmdata * coords T) :=
      let p := cx_params c in
      let x := cx_obj c in
      rbind (match by_, block with
             | None, Some b => rbind (cx_block_by c b axis dim) (fun l => rbind (zmax l) (fun mx =>
                 Ok (Some (ByCodes l), match groups with Some (_ :: _) => groups | _ => Some (map of_nat (seq 0 (Z.to_nat (mx + 1)))) end)))
             | _, _ => Ok (by_, groups)
             end) (fun '(by_, groups) =>
      rmap (fun '(g, cs') => (CX (to_xarr g) p, cs'))
        match by_ with
        | None => xc_reduce_data p (many_axes axis) dim keepdims false x cs
        | Some b =>
            rbind (axis_marg axis) (fun ax => rbind (one_dim dim) (fun d =>
            match pol with
            | PFirst | PLast =>
                rbind (match b with
                       | ByCodes l => Ok (let '((_, index), se) := factor_by_to_index Z.eqb Z.leb (fun v => (v <? 0)%Z) argsort (int_labels l) in (index, se))
                       | ByCoord name => rmap (fun l => let '((_, index), se) := factor_by_to_index eqb leb skip argsort (map Some l) in (index, se)) (coord_labels name x cs)
                       end) (fun '(index, (start, end_)) =>
                xc_reduce_data_indexed p index start end_ None pol groups group_dim ax d to_end x cs)
            | _ =>
                rbind (match b with
                       | ByCodes l => Ok (groups, l)
                       | ByCoord name => rmap (fun l => let (gs, codes) := factor_by eqb leb skip true (map Some l) in (match groups with None => Some gs | _ => groups end, codes)) (coord_labels name x cs)
                       end) (fun '(groups, codes) =>
                xc_reduce_data_grouped p codes groups group_dim ax d to_end x cs)
            end))
        end).
  End Data.

  (* DataArray.sel of a dimension with an index of different labels: the positions of the
     labels; others are a KeyError
     [called by pipe at wrap_xr.py:1378-1390] *)
  Definition sel_positions (eqb : T -> T -> bool) (index : list T) (labels : list T) : res (list Z) :=
    mapR (fun l => if existsb (eqb l) index then Ok (Z.of_nat (position eqb l index)) else Raise EKey) labels.
  (* wrap_xr.py:1299-1390 sel(d=label) *)
  Definition cx_sel_at (eqb : T -> T -> bool) (c : cmdata) (d : sname) (index : list T) (label : T) : res cmdata :=
    rbind (sel_positions eqb index [label]) (fun l => cx_isel c [(d, IAt (hd 0%Z l))]).
  (* wrap_xr.py:1299-1390 sel(d=[labels]) *)
  Definition cx_sel_list (eqb : T -> T -> bool) (c : cmdata) (d : sname) (index labels : list T) : res cmdata :=
    rbind (sel_positions eqb index labels) (fun l => cx_isel c [(d, IList l)]).
End Coords.
