(* Model of the properties of a CentralMomentsData object over a DataArray that tell its
   dimensions and shapes: wrapper/wrap_xr.py:1003-1021 and 1035-1038, wrapper/wrap_abc.py:152-179.
   A Dataset raises NotImplementedError in most of them and is left out. *)
From Coq Require Import String.
From Verif Require Import Base ModelKernels ModelIndex ModelAxes ModelParams ModelWrap.

(* wrap_xr.py:1003-1014 *)
Definition cx_dims (c : cmdata) : list sname := x_dims (cx_obj c).
(* "d not in None" is a TypeError
   [wrap_xr.py:1016-1021; mom_dims at 133-136] *)
Definition cx_val_dims (c : cmdata) : res (list sname) :=
  match xp_dims (cx_params c) with
  | Some m => Ok (filter (fun d => negb (smem d m)) (cx_dims c))
  | None => match cx_dims c with [] => Ok [] | _ => Raise EType end
  end.
(* wrap_abc.py:152-157 *)
Definition cx_shape (c : cmdata) : list nat := x_shape (cx_obj c).
(* wrap_abc.py:159-164 *)
Definition cx_val_shape (c : cmdata) : res (list nat) := x_get_val_shape (cx_params c) (cx_dims c) (cx_shape c).
(* wrap_abc.py:166-171 *)
Definition cx_ndim (c : cmdata) : nat := length (cx_shape c).
(* int - None is a TypeError
   [wrap_abc.py:173-178] *)
Definition cx_val_ndim (c : cmdata) : res Z :=
  match xp_ndim (cx_params c) with Some n => Ok (Z.of_nat (cx_ndim c) - n)%Z | None => Raise EType end.
(* obj.sizes[d]; a missing name is a KeyError
   [wrap_xr.py:1035-1038] *)
Definition cx_sizes (c : cmdata) (d : sname) : res nat := sizes (cx_dims c) (cx_shape c) d.
