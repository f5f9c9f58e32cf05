(* Model of core/moment_params.py and of the label part of core/validate.py:
   construction of moment parameters from an optional parameter object and
   explicit arguments, axes and dimensions of labelled data, selection of the
   axis to reduce over.

   Dimension names are strings.  A labelled array is represented by its list of
   dimensions and shape, a Dataset by its variables; coordinates and attributes
   are not modelled.  Errors are compared by type only. *)
From Coq Require Import String.
From Verif Require Import Base ModelIndex ModelAxes ModelState.
Local Open Scope string_scope.

(* Hashable names of dimensions, core/moment_params.py:363-376 *)
Notation sname := string (only parsing).
(* "in" on dimension names, core/moment_params.py:494-503 *)
Definition smem (x : sname) (l : list sname) : bool := existsb (String.eqb x) l.

(* ---- Python sequences ------------------------------------------------------ *)

(* seq[a] for an integer a
   [core/moment_params.py:326-341] *)
Definition py_get {T} (l : list T) (a : Z) : res T :=
  let i := (if (a <? 0)%Z then a + Z.of_nat (List.length l) else a)%Z in
  if (i <? 0)%Z then Raise EIndex else of_opt EIndex (nth_error l (Z.to_nat i)).

(* ---- arguments --------------------------------------------------------------- *)

(* dims argument: a str, a tuple or list, another iterable, not iterable
   [mom_dims of core/validate.py:222-254] *)
Inductive dims_arg := DStr (s : sname) | DSeq (l : list sname) | DIter (l : list sname) | DNot.
(* argument data/out: Dataset (dimensions of its variables in order), DataArray, other
   [data and out of core/validate.py:222-254] *)
Inductive out_arg := ODataset (vars : list (list sname)) | ODataArray (dims : list sname) | OOther.

(* moment_params.py:69-83 MomParamsDict: the outer option tells whether the key is present *)
Record mpdict := MPD {
  d_ndim : option (option Z);
  d_axes : option (option ints_arg);
  d_dims : option (option dims_arg) }.
(* mom_params argument: None, a dict, MomParams, and objects of the four classes of
   parameters.  Fields of the Optional classes may be None.
   [core/moment_params.py:85-125, 183-213, 344-396, 633-650] *)
Inductive mp_arg :=
| MPNone
| MPDict (d : mpdict)
| MPParams (ndim : option Z) (axes : option ints_arg) (dims : option dims_arg)
| MPArr (ndim : Z) (axes : list Z)
| MPArrOpt (ndim : option Z) (axes : option (list Z))
| MPX (ndim : Z) (dims : list sname)
| MPXOpt (ndim : option Z) (dims : option (list sname)).

(* moment_params.py:88-90 asdict, 236-239: the dict made from mom_params; dataclasses
   have all their fields as keys *)
Definition as_mpdict (m : mp_arg) : mpdict :=
  match m with
  | MPNone => MPD None None None
  | MPDict d => d
  | MPParams n a d => MPD (Some n) (Some a) (Some d)
  | MPArr n a => MPD (Some (Some n)) (Some (Some (IIter a))) None
  | MPArrOpt n a => MPD (Some n) (Some (option_map IIter a)) None
  | MPX n d => MPD (Some (Some n)) None (Some (Some (DSeq d)))
  | MPXOpt n d => MPD (Some n) None (Some (option_map DSeq d))
  end.
(* moment_params.py:241-242 and 429-430: if ndim is not None: mom_params["ndim"] = ndim *)
Definition set_ndim (ndim : option Z) (d : mpdict) : mpdict :=
  match ndim with Some n => MPD (Some (Some n)) (d_axes d) (d_dims d) | None => d end.
(* dict.setdefault
   [core/moment_params.py:243, 431-433] *)
Definition setdefault {T} (key : option T) (v : T) : option T := match key with Some x => Some x | None => Some v end.
(* a keyword argument with default None
   [core/moment_params.py:199-205, 378-386] *)
Definition kwarg {T} (key : option (option T)) : option T := match key with Some v => v | None => None end.

(* ---- arrays -------------------------------------------------------------------- *)

(* fields of MomParamsArray; both may be None for MomParamsArrayOptional
   [core/moment_params.py:183-198, 344-349] *)
Record aparams := AP { ap_ndim : option Z; ap_axes : option (list Z) }.

(* moment_params.py:193-213 MomParamsArray.from_params: dims is ignored *)
Definition array_from_params (ndim : option Z) (axes : option ints_arg) (default_ndim : option Z) : res aparams :=
  rbind (validate_mom_ndim_and_mom_axes ndim axes default_ndim) (fun p => Ok (AP (Some (fst p)) (Some (snd p)))).
(* moment_params.py:349-361 MomParamsArrayOptional.from_params *)
Definition array_optional_from_params (ndim : option Z) (axes : option ints_arg) (default_ndim : option Z) : res aparams :=
  match ndim, axes, default_ndim with
  | None, None, None => Ok (AP None None)
  | _, _, _ => array_from_params ndim axes default_ndim
  end.
(* isinstance(mom_params, cls) for cls = MomParamsArray and MomParamsArrayOptional;
   the latter is a subclass of the former
   [core/moment_params.py:228-234] *)
Definition is_array_params (optional : bool) (m : mp_arg) : option aparams :=
  match m with
  | MPArr n a => if optional then None else Some (AP (Some n) (Some a))
  | MPArrOpt n a => Some (AP n a)
  | _ => None
  end.
(* moment_params.py:215-245 factory; assert mom_params.ndim == ndim *)
Definition array_factory (optional : bool) (m : mp_arg) (ndim : option Z) (axes : option ints_arg) (default_ndim : option Z) : res aparams :=
  match is_array_params optional m with
  | Some p =>
      match ndim with
      | Some n => if match ap_ndim p with Some k => Z.eqb k n | None => false end then Ok p else Raise EAssert
      | None => Ok p
      end
  | None =>
      let d := set_ndim ndim (as_mpdict m) in
      let axes' := kwarg (setdefault (d_axes d) axes) in
      (if optional then array_optional_from_params else array_from_params) (kwarg (d_ndim d)) axes' default_ndim
  end.
(* moment_params.py:247-276 factory_mom: mom and parameters *)
Definition array_factory_mom (mom : ints_arg) (m : mp_arg) (axes : option ints_arg) (default_ndim : option Z) : res (list Z * aparams) :=
  rbind (validate_mom mom) (fun mom =>
  rbind (array_factory false m (Some (Z.of_nat (List.length mom))) axes default_ndim) (fun p => Ok (mom, p))).

(* moment_params.py:107-110, 155-157: _MOM_AXES_LAST[ndim] *)
Definition axes_last_of (ndim : option Z) : res (list Z) :=
  match ndim with
  | Some 1%Z => Ok [(-1)%Z]
  | Some 2%Z => Ok [(-2)%Z; (-1)%Z]
  | _ => Raise EKey
  end.
(* moment_params.py:278-280 *)
Definition axes_to_end (p : aparams) : res aparams := rbind (axes_last_of (ap_ndim p)) (fun a => Ok (AP (ap_ndim p) (Some a))).
(* moment_params.py:282-292 *)
Definition normalize_axes (p : aparams) (data_ndim : nat) : res aparams :=
  match ap_axes p with
  | None => Ok p
  | Some a => rbind (normalize_axis_tuple (Some (map AInt a)) data_ndim None false) (fun a =>
      Ok (AP (ap_ndim p) (Some (map Z.of_nat a))))
  end.
(* moment_params.py:320-324 *)
Definition raise_if_in_mom_axes (p : aparams) (axes : list Z) : res unit :=
  match ap_axes p with
  | None => Ok tt
  | Some m => if existsb (fun a => existsb (Z.eqb a) m) axes then Raise EValue else Ok tt
  end.
(* iterating over None is a TypeError
   [core/moment_params.py:326-341] *)
Definition iter_axes (p : aparams) : res (list Z) := match ap_axes p with Some a => Ok a | None => Raise EType end.
(* moment_params.py:326-332 get_mom_shape: every exception becomes ValueError *)
Definition get_mom_shape (p : aparams) (shape : list nat) : res (list nat) :=
  match rbind (iter_axes p) (fun axes => mapR (py_get shape) axes) with Ok s => Ok s | Raise _ => Raise EValue end.
(* moment_params.py:334-337 get_mom *)
Definition get_mom (p : aparams) (shape : list nat) : res (list Z) :=
  rbind (iter_axes p) (fun axes =>
  rbind (mapR (py_get shape) axes) (fun s => mom_shape_to_mom (IIter (map Z.of_nat s)))).
(* moment_params.py:173-181 check_data *)
Definition check_data (p : aparams) (shape : list nat) : res unit :=
  match get_mom p shape with Ok _ => Ok tt | Raise _ => Raise EValue end.
(* moment_params.py:339-341 get_val_shape (normalize_axis_tuple of None gives the leading axes) *)
Definition get_val_shape (p : aparams) (shape : list nat) : res (list nat) :=
  rbind (normalize_axis_tuple (option_map (map AInt) (ap_axes p)) (List.length shape) (option_map Z.to_nat (ap_ndim p)) false) (fun axes =>
  Ok (map (fun i => nth i shape 0) (filter (fun i => negb (nat_mem i axes)) (seq 0 (List.length shape))))).

(* ---- labelled data --------------------------------------------------------------- *)

(* core/moment_params.py:363-377 *)
Record xparams := XP { xp_ndim : option Z; xp_dims : option (list sname) }.

(* validate.py:222-254 validate_mom_dims; an empty Dataset (StopIteration) is rendered
   as a ValueError *)
Definition validate_mom_dims (dims : option dims_arg) (ndim : Z) (out : out_arg) (mom_axes : option (list Z)) : res (list sname) :=
  match dims with
  | None =>
      let from (l : list sname) := mapR (py_get l) (match mom_axes with None => last_axes ndim | Some a => a end) in
      match out with
      | ODataset [] => Raise EValue
      | ODataset (l :: _) => from l
      | ODataArray l => from l
      | OOther => Ok (if Z.eqb ndim 1 then ["mom_0"] else ["mom_0"; "mom_1"])
      end
  | Some a =>
      rbind (match a with DStr s => Ok [s] | DSeq l => Ok l | _ => Raise EType end) (fun v =>
      if Z.eqb (Z.of_nat (List.length v)) ndim then Ok v else Raise EValue)
  end.
(* validate.py:257-282 validate_mom_dims_and_mom_ndim *)
Definition validate_dims_ndim_axes (dims : option dims_arg) (ndim : option Z) (out : out_arg) (axes : option ints_arg) : res (list sname * Z) :=
  rbind (validate_mom_ndim_and_mom_axes ndim axes None) (fun p =>
  rbind (validate_mom_dims dims (fst p) out (Some (snd p))) (fun d => Ok (d, fst p))).
(* core/validate.py:257-282 *)
Definition validate_mom_dims_and_mom_ndim (dims : option dims_arg) (ndim : option Z) (out : out_arg)
    (default : option Z) (axes : option ints_arg) : res (list sname * Z) :=
  match ndim, axes with
  | None, None =>
      match dims with
      | Some a =>
          rbind (match a with DStr s => Ok [s] | DSeq l | DIter l => Ok l | DNot => Raise EType end) (fun l =>
          rbind (validate_mom_ndim (Some (Z.of_nat (List.length l))) None) (fun n => Ok (l, n)))
      | None =>
          match default with
          | Some d => validate_dims_ndim_axes None (Some d) out None
          | None => Raise EValue
          end
      end
  | _, _ => validate_dims_ndim_axes dims ndim out axes
  end.

(* moment_params.py:377-395 MomParamsXArray.from_params *)
Definition x_from_params (ndim : option Z) (dims : option dims_arg) (axes : option ints_arg) (data : out_arg) (default_ndim : option Z) : res xparams :=
  rbind (validate_mom_dims_and_mom_ndim dims ndim data default_ndim axes) (fun p => Ok (XP (Some (snd p)) (Some (fst p)))).
(* moment_params.py:638-649 MomParamsXArrayOptional.from_params *)
Definition x_optional_from_params (ndim : option Z) (dims : option dims_arg) (axes : option ints_arg) (data : out_arg) (default_ndim : option Z) : res xparams :=
  match ndim, dims, axes, default_ndim with
  | None, None, None, None => Ok (XP None None)
  | _, _, _, _ => x_from_params ndim dims axes data default_ndim
  end.
(* core/moment_params.py:410-420 *)
Definition is_x_params (optional : bool) (m : mp_arg) : option xparams :=
  match m with
  | MPX n d => if optional then None else Some (XP (Some n) (Some d))
  | MPXOpt n d => Some (XP n d)
  | _ => None
  end.
(* moment_params.py:397-433 factory *)
Definition x_factory (optional : bool) (m : mp_arg) (ndim : option Z) (dims : option dims_arg) (axes : option ints_arg)
    (data : out_arg) (default_ndim : option Z) : res xparams :=
  match is_x_params optional m with
  | Some p =>
      match ndim with
      | Some n => if match xp_ndim p with Some k => Z.eqb k n | None => false end then Ok p else Raise EAssert
      | None => Ok p
      end
  | None =>
      let d := set_ndim ndim (as_mpdict m) in
      (if optional then x_optional_from_params else x_from_params)
        (kwarg (d_ndim d)) (kwarg (setdefault (d_dims d) dims)) (kwarg (setdefault (d_axes d) axes)) data default_ndim
  end.

(* DataArray.get_axis_num
   [core/moment_params.py:455-463, 555-570] *)
Definition get_axis_num (dims : list sname) (d : sname) : res nat :=
  if smem d dims then Ok (position String.eqb d dims) else Raise EValue.
(* iterating over None is a TypeError
   [core/moment_params.py:455-479] *)
Definition iter_dims (p : xparams) : res (list sname) := match xp_dims p with Some d => Ok d | None => Raise EType end.
(* moment_params.py:455-463 get_axes, with and without data *)
Definition get_axes (p : xparams) (data : option (list sname)) : res (list Z) :=
  match data with
  | None => axes_last_of (xp_ndim p)
  | Some dims => rbind (iter_dims p) (fun d => rbind (mapR (get_axis_num dims) d) (fun a => Ok (map Z.of_nat a)))
  end.
(* moment_params.py:481-487 to_array *)
Definition x_to_array (p : xparams) (data : option (list sname)) : res aparams :=
  rbind (get_axes p data) (fun a => Ok (AP (xp_ndim p) (Some a))).
(* data.sizes[d]
   [core/moment_params.py:465-479] *)
Definition sizes (dims : list sname) (shape : list nat) (d : sname) : res nat :=
  if smem d dims then Ok (nth (position String.eqb d dims) shape 0) else Raise EKey.
(* moment_params.py:465-471, 473-476, 478-479 *)
Definition x_get_mom_shape (p : xparams) (dims : list sname) (shape : list nat) : res (list nat) :=
  match rbind (iter_dims p) (fun d => mapR (sizes dims shape) d) with Ok s => Ok s | Raise _ => Raise EValue end.
(* core/moment_params.py:473-476 *)
Definition x_get_mom (p : xparams) (dims : list sname) (shape : list nat) : res (list Z) :=
  rbind (iter_dims p) (fun d => rbind (mapR (sizes dims shape) d) (fun s => mom_shape_to_mom (IIter (map Z.of_nat s)))).
(* core/moment_params.py:173-181 *)
Definition x_check_data (p : xparams) (dims : list sname) (shape : list nat) : res unit :=
  match x_get_mom p dims shape with Ok _ => Ok tt | Raise _ => Raise EValue end.
(* "d not in None" is a TypeError
   [core/moment_params.py:478-479] *)
Definition x_get_val_shape (p : xparams) (dims : list sname) (shape : list nat) : res (list nat) :=
  match xp_dims p with
  | Some m => mapR (sizes dims shape) (filter (fun d => negb (smem d m)) dims)
  | None => match dims with [] => Ok [] | _ => Raise EType end
  end.

(* ---- selection of axis and dimension ------------------------------------------------ *)

(* core/missing.py: MISSING, None or a value *)
Inductive marg (T : Type) := Missing | PyNone | Val (v : T).
Arguments Missing {T}. Arguments PyNone {T}. Arguments Val {T} v.
(* axis is MISSING, core/moment_params.py:506-525 *)
Definition is_missing {T} (x : marg T) : bool := match x with Missing => true | _ => false end.
(* data of core/moment_params.py:527-631 *)
Inductive xdata := XSet (dims : list sname) | XArr (dims : list sname).

(* validate.py:165-175 *)
Definition validate_not_none {T} (x : marg T) : res unit := match x with PyNone => Raise EType | _ => Ok tt end.
(* moment_params.py:494-503 *)
Definition raise_if_dim_in_mom_dims (p : xparams) (dim : sname) : res unit :=
  match xp_dims p with Some m => if smem dim m then Raise EValue else Ok tt | None => Ok tt end.
(* moment_params.py:505-525 *)
Definition axis_dim_defaults {S T} (axis : marg S) (dim : marg T) (default_axis : marg S) (default_dim : marg T) : res (marg S * marg T) :=
  if (is_missing axis && is_missing dim)%bool then
    if (negb (is_missing default_axis) && is_missing default_dim)%bool then Ok (default_axis, dim)
    else if (is_missing default_axis && negb (is_missing default_dim))%bool then Ok (axis, default_dim)
    else Raise EValue
  else if (negb (is_missing axis) && negb (is_missing dim))%bool then Raise EValue
  else Ok (axis, dim).
(* a check before the result, core/moment_params.py:527-570 *)
Definition guard {T} (c : res unit) (r : res T) : res T := rbind c (fun _ => r).

(* moment_params.py:527-570 select_axis_dim *)
Definition select_axis_dim (p : xparams) (data : xdata) (axis : marg axis_arg) (dim : marg sname)
    (default_axis : marg axis_arg) (default_dim : marg sname) (allow : bool) : res (nat * sname) :=
  guard (validate_not_none axis) (
  guard (validate_not_none dim) (
  match data with
  | XSet _ =>
      match axis, dim with
      | Missing, Val d => guard (if allow then Ok tt else raise_if_dim_in_mom_dims p d) (Ok (0%nat, d))
      | _, _ => Raise EValue
      end
  | XArr dims =>
      guard (validate_not_none default_axis) (
      guard (validate_not_none default_dim) (
      rbind (axis_dim_defaults axis dim default_axis default_dim) (fun ad =>
      rbind (match ad with
             | (_, Val d) => rbind (get_axis_num dims d) (fun a => Ok (a, d))
             | (Val a, _) => rbind (normalize_axis_index a (List.length dims) (option_map Z.to_nat (xp_ndim p))) (fun a =>
                 rbind (of_opt EIndex (nth_error dims a)) (fun d => Ok (a, d)))
             | _ => Raise EType
             end) (fun r =>
      guard (if allow then Ok tt else raise_if_dim_in_mom_dims p (snd r)) (Ok r)))))
  end)).

(* axis and dim arguments of select_axis_dim_mult: None selects everything; a str is one
   dimension, otherwise an iterable
   [core/moment_params.py:572-631] *)
Definition dims_of_arg (d : dims_arg) : res (list sname) :=
  match d with DStr s => Ok [s] | DSeq l | DIter l => Ok l | DNot => Raise EType end.
(* core/moment_params.py:582-593 *)
Definition mom_dims_of (p : xparams) : list sname := match xp_dims p with Some m => m | None => [] end.
(* moment_params.py:582-586 *)
Definition get_dim_none (p : xparams) (dims : list sname) : list sname := filter (fun d => negb (smem d (mom_dims_of p))) dims.
(* moment_params.py:588-593 *)
Definition check_dim (p : xparams) (allow : bool) (ds : list sname) : res unit :=
  if (negb allow && existsb (fun d => smem d (mom_dims_of p)) ds)%bool then Raise EValue else Ok tt.
(* moment_params.py:572-631 *)
Definition select_axis_dim_mult (p : xparams) (data : xdata) (axis : marg (list axis_arg)) (dim : marg dims_arg)
    (default_axis : marg (list axis_arg)) (default_dim : marg dims_arg) (allow : bool) : res (list nat * list sname) :=
  match data with
  | XSet dims =>
      match axis, dim with
      | Missing, PyNone => Ok ([], get_dim_none p dims)
      | Missing, Val d => rbind (dims_of_arg d) (fun ds => guard (check_dim p allow ds) (Ok ([], ds)))
      | _, _ => Raise EValue
      end
  | XArr dims =>
      rbind (axis_dim_defaults axis dim default_axis default_dim) (fun ad =>
      rbind (match ad with
             | (_, PyNone) => let ds := get_dim_none p dims in rbind (mapR (get_axis_num dims) ds) (fun a => Ok (a, ds))
             | (_, Val d) => rbind (dims_of_arg d) (fun ds => rbind (mapR (get_axis_num dims) ds) (fun a => Ok (a, ds)))
             | (Missing, Missing) => Raise EType
             | (a, Missing) =>
                 rbind (normalize_axis_tuple (match a with Val a => Some a | _ => None end) (List.length dims)
                          (option_map Z.to_nat (xp_ndim p)) false) (fun a =>
                 rbind (mapR (fun i => of_opt EIndex (nth_error dims i)) a) (fun ds => Ok (a, ds)))
             end) (fun r =>
      guard (check_dim p allow (snd r)) (Ok r)))
  end.
