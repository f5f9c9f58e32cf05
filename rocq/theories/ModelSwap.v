(* Model of the methods of CentralMomentsData that give dimensions of a DataArray other
   names: wrapper/wrap_xr.py:1072-1080 (rename), 1279-1297 (swap_dims).

   Arrays have no coordinates (a coordinate takes part in xarray's check that the new name
   is free), and two dimensions never get the same name: xarray stops there at a place
   that depends on its version; it is a ValueError here. *)
From Coq Require Import String.
From Verif Require Import Base ModelPush ModelKernels ModelIndex ModelAxes ModelParams ModelWrap.
Local Open Scope string_scope.
Local Open Scope nat_scope.

(* dims_dict.get(name, name)
   [xarray.DataArray.swap_dims, called by pipe at wrap_xr.py:1289-1297] *)
Definition new_name (l : list (sname * sname)) (n : sname) : sname :=
  match find (fun p => String.eqb (fst p) n) l with Some p => snd p | None => n end.
(* xarray.DataArray.swap_dims and rename: all names change at once; a name that is no
   dimension is a ValueError
   [called at wrap_xr.py:1078-1080, 1289-1297] *)
Definition x_swap_dims (l : list (sname * sname)) (x : xarr) : res xarr :=
  if negb (forallb (fun p => smem (fst p) (x_dims x)) l) then Raise EValue
  else if sdup (map (new_name l) (x_dims x)) then Raise EValue
  else Ok (x_rename (new_name l) x).
(* wrap_xr.py:1279-1297 *)
Definition cx_swap_dims (c : cmdata) (l : list (sname * sname)) (reorder : bool) : res cmdata := cx_pipe c (x_swap_dims l) reorder false.
(* wrap_xr.py:1072-1080 and wrap_abc.py:204-210 _new_like: no check of the new array *)
Definition cx_rename_dims (c : cmdata) (l : list (sname * sname)) : res cmdata :=
  rbind (x_swap_dims l (cx_obj c)) (fun x => Ok (CX x (cx_params c))).
