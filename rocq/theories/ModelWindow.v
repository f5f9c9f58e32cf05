(* Model of rolling.py:156-294, construct_rolling_window_array, and of the parts of
   xarray it calls: DataArray.rolling and DataArrayRolling.construct, i.e.
   Variable.rolling_window (pad, then sliding_window_view) and isel with strides.

   Entries are of any type T, so that fill_value may be nan (T = option Qc) or a
   number (T = Qc).  Coordinates, attributes, keep_attrs and **kwargs
   (min_periods) have no part in the entries. *)
From Coq Require Import String DecimalString.
From Verif Require Import Base ModelPush ModelKernels ModelIndex ModelAxes ModelState ModelParams ModelWrap ModelNd ModelLabel.
Local Open Scope string_scope.
Local Open Scope nat_scope.

(* an argument that is a scalar or a sequence
   [rolling.py:247-249] *)
Inductive scalar_or_seq (T : Type) := Scalar (v : T) | Seq (l : list T).
Arguments Scalar {T} v. Arguments Seq {T} l.
(* (window,) * nroll if isinstance(window, int) else window
   [rolling.py:247-249] *)
Definition per_dim {T} (n : nat) (a : scalar_or_seq T) : list T := match a with Scalar v => repeat v n | Seq l => l end.

(* one rolling dimension: its name, window, center, stride, name of the window dimension
   [rolling.py:264-275] *)
Record roll := Roll { r_dim : sname; r_win : Z; r_center : bool; r_stride : Z; r_name : sname }.
(* dict(zip(dim, ...)): a name given again replaces the values of the first
   [rolling.py:265-271] *)
Fixpoint dict_set (r : roll) (l : list roll) : list roll :=
  match l with
  | [] => [r]
  | q :: l => if String.eqb (r_dim q) (r_dim r) then r :: l else q :: dict_set r l
  end.
(* rolling.py:265-271 *)
Definition dict_zip (l : list roll) : list roll := fold_left (fun d r => dict_set r d) l [].
(* the roll of dimension d
   [rolling.py:265-271] *)
Definition roll_of (rs : list roll) (d : sname) : option roll := find (fun r => String.eqb (r_dim r) d) rs.

(* window as a number of entries
   [rolling.py:265] *)
Definition win (r : roll) : nat := Z.to_nat (r_win r).
(* padding in front: win // 2 if centered, else win - 1; win - 1 in all
   [Variable.rolling_window, called at rolling.py:268] *)
Definition roll_start (r : roll) : nat := if r_center r then win r / 2 else win r - 1.
(* Variable.pad(pads, mode="constant", constant_values=fill_value), called at rolling.py:268 *)
Definition roll_pad {T} (fill : T) (rs : list roll) (g : lgrid T) : lgrid T :=
  let sized := combine (lg_dims g) (gshape (lg_val g)) in
  let front d := match roll_of rs d with Some r => roll_start r | None => 0 end in
  LG (lg_dims g)
     (gtabulate (map (fun p => snd p + match roll_of rs (fst p) with Some r => win r - 1 | None => 0 end) sized)
        (fun idx =>
           if forallb (fun p => (Nat.leb (front (fst (fst p))) (snd p) && Nat.ltb (snd p) (front (fst (fst p)) + snd (fst p)))%bool) (combine sized idx)
           then gget fill (lg_val g) (map (fun p => snd p - front (fst p)) (combine (lg_dims g) idx))
           else fill)).
(* numpy sliding_window_view over the rolling dimensions: window axes last
   [Variable.rolling_window, called at rolling.py:268] *)
Definition roll_view {T} (d : T) (rs : list roll) (g : lgrid T) : res (lgrid T) :=
  let sized := combine (lg_dims g) (gshape (lg_val g)) in
  if existsb (fun p => match roll_of rs (fst p) with Some r => Nat.ltb (snd p) (win r) | None => false end) sized then Raise EValue
  else
    let n := List.length (lg_dims g) in
    Ok (LG (lg_dims g ++ map r_name rs)
          (gtabulate (map (fun p => snd p - match roll_of rs (fst p) with Some r => win r - 1 | None => 0 end) sized ++ map win rs)
             (fun idx =>
                let offset name := match find (fun q => String.eqb (r_dim (fst q)) name) (combine rs (skipn n idx)) with Some q => snd q | None => 0 end in
                gget d (lg_val g) (map (fun p => snd p + offset (fst p)) (combine (lg_dims g) (firstn n idx)))))).
(* x[::step]: number of entries and the entry number i
   [isel with slice(None, None, stride), called at rolling.py:268] *)
Definition step_length (n : nat) (s : Z) : nat := (n + (Z.abs_nat s - 1)) / Z.abs_nat s.
(* isel with slice(None, None, stride), called at rolling.py:268 *)
Definition step_entry (n : nat) (s : Z) (i : nat) : nat := if (0 <? s)%Z then i * Z.abs_nat s else n - 1 - i * Z.abs_nat s.
(* isel({dim: slice(None, None, stride)}); step 0 is a ValueError
   [DataArrayRolling.construct, called at rolling.py:268] *)
Definition roll_strided {T} (d : T) (rs : list roll) (g : lgrid T) : res (lgrid T) :=
  let sized := combine (lg_dims g) (gshape (lg_val g)) in
  if existsb (fun r => Z.eqb (r_stride r) 0) rs then Raise EValue
  else
    Ok (LG (lg_dims g)
          (gtabulate (map (fun p => match roll_of rs (fst p) with Some r => step_length (snd p) (r_stride r) | None => snd p end) sized)
             (fun idx => gget d (lg_val g)
                (map (fun p => match roll_of rs (fst (fst p)) with Some r => step_entry (snd (fst p)) (r_stride r) (snd p) | None => snd p end) (combine sized idx))))).
(* DataArray.transpose(window names, ...), rolling.py:277-279 *)
Definition l_transpose_strict {T} (d : T) (dims : list (option sname)) (g : lgrid T) : res (lgrid T) :=
  rbind (infix_dims dims (lg_dims g)) (fun ds =>
  rbind (mapR (get_axis_num (lg_dims g)) ds) (fun order => Ok (LG ds (gtranspose d order (lg_val g))))).

(* rolling.py:236-279  construct_rolling_window_array of a DataArray *)
Definition construct_windows_labelled {T} (fill : T) (p : xparams) (window : scalar_or_seq Z) (axis : marg (list axis_arg)) (dim : marg dims_arg)
    (center : scalar_or_seq bool) (stride : scalar_or_seq Z) (window_dim : option (scalar_or_seq sname)) (g : lgrid T) : res (lgrid T) :=
  rbind (select_axis_dim_mult p (XArr (lg_dims g)) axis dim Missing Missing false) (fun '(_, ds) =>
  let n := List.length ds in
  let ws := per_dim n window in
  let cs := per_dim n center in
  let ss := per_dim n stride in
  let names := match window_dim with None => map (append "rolling_") ds | Some (Scalar s) => [s] | Some (Seq l) => l end in
  if negb (Nat.eqb (List.length ws) n && Nat.eqb (List.length cs) n && Nat.eqb (List.length ss) n && Nat.eqb (List.length names) n)%bool then Raise EValue
  else
    let rs := dict_zip (map (fun '(((((d, w), c), s), m)) => Roll d w c s m) (combine (combine (combine (combine ds ws) cs) ss) names)) in
    if existsb (fun r => (r_win r <=? 0)%Z) rs then Raise EValue
    else
      rbind (roll_view fill rs (roll_pad fill rs g)) (fun g =>
      rbind (roll_strided fill rs g) (fun g =>
      l_transpose_strict fill (map Some names ++ [None]) g))).

(* xarray's names for the axes of an array without names: dim_0, dim_1, ...
   [xr.DataArray(x), rolling.py:282] *)
Definition auto_dim (i : nat) : sname := append "dim_" (NilZero.string_of_uint (Nat.to_uint i)).
(* xr.DataArray(x), rolling.py:282 *)
Definition auto_labelled {T} (g : grid T) : lgrid T := LG (map auto_dim (seq 0 (List.length (gshape g)))) g.
(* rolling.py:281-294  construct_rolling_window_array of an array: mom_dims,
   window_dim and mom_params are not handed on *)
Definition construct_windows {T} (fill : T) (window : scalar_or_seq Z) (axis : marg (list axis_arg)) (center : scalar_or_seq bool) (stride : scalar_or_seq Z)
    (mom_ndim : option Z) (mom_axes : option ints_arg) (mom_params : mp_arg) (g : grid T) : res (grid T) :=
  let x := auto_labelled g in
  rbind (x_factory true MPNone mom_ndim None mom_axes (ODataArray (lg_dims x)) None) (fun p =>
  rmap lg_val (construct_windows_labelled fill p window axis Missing center stride None x)).
