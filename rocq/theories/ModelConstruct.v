(* Model of the functions that make objects of class CentralMomentsArray and of the
   methods that read statistics from them: wrapper/constructors.py,
   wrapper/wrap_abc.py:647-751, 813-862, 1101-1209, wrapper/wrap_np.py:1082-1231.

   Arrays only (the branches for xarray objects are not modelled here); dtype,
   casting, copies, order= of new arrays, parallel= and out= are not modelled.
   Methods that act in place return the object after the call. *)
From Coq Require Import String DecimalString.
From Verif Require Import Base ModelPush ModelPushCov ModelKernels ModelIndex ModelAxes ModelState ModelParams ModelNd ModelWrap ModelMoments.
Local Open Scope string_scope.

(* ---- constructors.py ------------------------------------------------------------------ *)

(* constructors.py:158-189 wrap of an array *)
Definition c_wrap (m : mp_arg) (mom_ndim : option Z) (mom_axes : option ints_arg) (fastpath : bool) (obj : tensor) : res cmarray :=
  rbind (array_factory false m mom_ndim mom_axes (Some 1%Z)) (fun p =>
  if fastpath then Ok (CM obj p) else c_init (as_arg p) None None obj).
(* constructors.py:292-300 zeros_like *)
Definition c_zeros_like (c : cmarray) : res cmarray :=
  c_wrap (as_arg (c_params c)) None None false (tabulate (c_shape c) (fun _ => 0%Qc)).

(* the kernel, the layout of its moment array and the reader of its values are those
   of the orders mom; more than two orders do not pass validate_mom
   [constructors.py:422-443, 584-607; factory.py] *)
Definition with_mom {T} (nmax : nat) (mom : list Z) (f : forall A V, pusher A V -> packer A -> reader V -> res T) : res T :=
  match mom with
  | [n] => f _ _ (pusher1 nmax (Z.to_nat n)) (packer1 (Z.to_nat n)) reader1
  | [n0; n1] => f _ _ (pusher2 nmax (Z.to_nat n0) (Z.to_nat n1)) (packer2 (Z.to_nat n0) (Z.to_nat n1)) reader2
  | _ => Raise EValue
  end.
(* constructors.py:420-447 wrap_reduce_vals, without mom_params=; weight None is the
   0-d array 1 *)
Definition c_wrap_reduce_vals (nmax : nat) (mom : ints_arg) (axis : axis_arg) (x w : tensor) (y : list tensor) : res cmarray :=
  rbind (array_factory_mom mom MPNone None None) (fun '(mom, p) =>
  rbind (with_mom nmax mom (fun _ _ K P R => reduce_vals_nd K P R axis x w y)) (fun obj => c_wrap (as_arg p) None None true obj)).
(* constructors.py:582-613 wrap_resample_vals, without mom_params=, with the table of
   frequencies of the sampler *)
Definition c_wrap_resample_vals (nmax : nat) (mom : ints_arg) (freq : tensor) (axis : axis_arg) (to_end : bool) (x w : tensor) (y : list tensor) : res cmarray :=
  rbind (array_factory_mom mom MPNone None None) (fun '(mom, p) =>
  rbind (with_mom nmax mom (fun _ _ K P R => resample_vals_nd K P R freq axis to_end x w y)) (fun obj => c_wrap (as_arg p) None None true obj)).
(* constructors.py:758-782 wrap_raw; fastpath: the moment axes stay where they are *)
Definition c_wrap_raw (nmax : nat) (m : mp_arg) (mom_ndim : option Z) (mom_axes : option ints_arg) (order : bool) (raw : tensor) : res cmarray :=
  rbind (array_factory false m mom_ndim mom_axes (Some 1%Z)) (fun p =>
  rbind (iter_axes p) (fun a =>
  rbind (moments_type_nd nmax "central" a false order raw) (fun obj => c_wrap (as_arg p) None None true obj))).

(* ---- methods --------------------------------------------------------------------------- *)

(* wrap_abc.py:647-694 select_moment *)
Definition c_select_moment (c : cmarray) (name : string) (squeeze : bool) : res tensor :=
  rbind (iter_axes (c_params c)) (fun a => select_moment_nd name a squeeze (c_obj c)).
(* wrap_abc.py:697-751 assign_moment; _new_like makes no checks *)
Definition c_assign_moment (c : cmarray) (names : list (string * tensor)) (squeeze : bool) : res cmarray :=
  rbind (iter_axes (c_params c)) (fun a => rbind (assign_moment_nd names a squeeze (c_obj c)) (fun obj => Ok (CM obj (c_params c)))).
(* a Python number as an array, wrap_abc.py:1154-1159, 1209 *)
Definition number (q : Qc) : tensor := Tensor [] [q].
(* wrap_abc.py:1101-1103 *)
Definition c_weight (c : cmarray) : res tensor := c_select_moment c "weight" true.
(* wrap_abc.py:1105-1107 *)
Definition c_mean (c : cmarray) (squeeze : bool) : res tensor := c_select_moment c "ave" squeeze.
(* wrap_abc.py:1109-1111 *)
Definition c_var (c : cmarray) (squeeze : bool) : res tensor := c_select_moment c "var" squeeze.
(* wrap_abc.py:1119-1121 *)
Definition c_cov (c : cmarray) : res tensor := c_select_moment c "cov" true.
(* wrap_abc.py:1123-1148 cmom *)
Definition c_cmom (c : cmarray) : res tensor :=
  rbind (iter_axes (c_params c)) (fun a => assign_moment_nd [("weight", number 1); ("ave", number 0)] a true (c_obj c)).
(* wrap_abc.py:1150-1183 to_raw *)
Definition c_to_raw (nmax : nat) (c : cmarray) (weight : option tensor) : res tensor :=
  rbind (iter_axes (c_params c)) (fun a =>
  rbind (moments_type_nd nmax "raw" a false false (c_obj c)) (fun out =>
  match weight with None => Ok out | Some w => assign_moment_nd [("weight", w)] a true out end)).
(* wrap_abc.py:1185-1209 rmom *)
Definition c_rmom (nmax : nat) (c : cmarray) : res tensor := c_to_raw nmax c (Some (number 1)).
(* wrap_abc.py:330-333 _raise_if_not_mom_ndim_1 *)
Definition raise_if_not_mom_ndim_1 (c : cmarray) : res unit :=
  match ap_ndim (c_params c) with Some 1%Z => Ok tt | _ => Raise EValue end.
(* wrap_abc.py:813-862 moments_to_comoments *)
Definition c_moments_to_comoments (c : cmarray) (mom : list Z) : res cmarray :=
  rbind (raise_if_not_mom_ndim_1 c) (fun _ =>
  rbind (array_factory false MPNone (Some 2%Z) None None) (fun out =>
  rbind (array_factory false (as_arg (c_params c)) (Some 1%Z) None None) (fun p =>
  rbind (iter_axes p) (fun a =>
  rbind (moments_to_comoments_nd mom (hd 0%Z a) (c_obj c)) (fun obj => c_init (as_arg out) None None obj))))).
(* wrap_np.py:1082-1098 fill *)
Definition c_fill (c : cmarray) (v : Qc) : cmarray := CM (tabulate (c_shape c) (fun _ => v)) (c_params c).
(* wrap_np.py:1100-1114 zero *)
Definition c_zero (c : cmarray) : cmarray := c_fill c 0.

(* ---- to_dataarray ---------------------------------------------------------------------- *)

(* f"{s}_{i}", wrap_np.py:1196, 1208 *)
Definition numbered (s : string) (i : nat) : sname := s ++ "_" ++ NilEmpty.string_of_uint (Nat.to_uint i).
(* tuple(dims) of a str or an iterable, wrap_np.py:1197-1201, 1209-1213 *)
Definition dims_or (default : list sname) (d : option dims_arg) : res (list sname) :=
  match d with None => Ok default | Some d => dims_of_arg d end.
(* wrap_np.py:1186-1231 to_dataarray without template=, coords=, attrs= and name=;
   xarray.DataArray refuses a name given twice from version 2024.03 on (a warning
   before): not modelled, the array is made *)
Definition c_to_dataarray (c : cmarray) (dims mom_dims : option dims_arg) : res cmdata :=
  match ap_ndim (c_params c) with
  | None => Raise EType
  | Some m =>
      let ndim := tndim (c_obj c) in
      let val_ndim := (ndim - Z.to_nat m)%nat in
      rbind (dims_or (map (numbered "dim") (seq 0 val_ndim)) dims) (fun dims =>
      rbind (if Nat.eqb (List.length dims) ndim then Ok dims
             else if Nat.eqb (List.length dims) val_ndim then
               rbind (dims_or (map (numbered "mom") (seq 0 (Z.to_nat m))) mom_dims) (fun md =>
               if Nat.eqb (List.length md) (Z.to_nat m) then Ok (dims ++ md)%list else Raise EValue)
             else Raise EValue) (fun dims =>
      rbind (x_factory false MPNone (Some m) None None (ODataArray dims) None) (fun p => Ok (CX (XA dims (c_obj c)) p))))
  end.
(* the same with template=: the dimensions are those of the template, whose shape
   must be that of the array (ValueError otherwise)
   [wrap_np.py:1190-1191, 1226-1231; DataArray.copy] *)
Definition c_to_dataarray_like (c : cmarray) (template : xarr) : res cmdata :=
  match ap_ndim (c_params c) with
  | None => Raise EType
  | Some m =>
      if nats_eqb (x_shape template) (c_shape c)
      then rbind (x_factory false MPNone (Some m) None None (ODataArray (x_dims template)) None) (fun p => Ok (CX (XA (x_dims template) (c_obj c)) p))
      else Raise EValue
  end.
