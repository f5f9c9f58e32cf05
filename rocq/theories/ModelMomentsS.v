(* Model of the functions that convert, select and assign moments of Datasets: the Dataset
   branches of convert.py:216-257 (moments_type), utils.py:459-522 (select_moment), 697-745
   (assign_moment), and the methods of CentralMomentsData with a Dataset that read
   statistics through them (wrapper/wrap_abc.py:514-522, 647-751, 1101-1209).

   As in ModelDataset variables have no coordinates; dtype, casting, keep_attrs, dask and
   out= are not modelled. *)
From Coq Require Import String.
From Verif Require Import Base ModelPush ModelConvert ModelKernels ModelIndex ModelAxes ModelState ModelParams ModelNd ModelWrap ModelLabel ModelMoments ModelConstruct ModelMomentsX ModelMethods ModelMethodsX ModelDataset ModelMethodsS.
Local Open Scope string_scope.

(* xr.apply_ufunc of a Dataset and a function of arrays, as at convert.py:226-254 *)
Definition s_apply (s : xset) (core : list sname) (others : list (dop * list sname)) (out_core : list sname) (f : list tensor -> res tensor) : res (lset Qc) :=
  ds_apply (fun q => q) s core others out_core [] (fun ts => rmap to_grid (f ts)).
(* the variables of a Dataset that is passed on, utils.py:460-462 *)
Definition s_same (s : xset) : lset Qc := map (fun v => (fst v, copied (fun q => q) (snd v))) s.

(* convert.py:216-257 moments_type; with axes_to_end the result of apply_ufunc *)
Definition ds_moments_type (nmax : nat) (to : string) (p : xparams) (to_end order : bool) (s : xset) : res (lset Qc) :=
  rbind (iter_dims p) (fun md =>
  rbind (array_axes p) (fun mom =>
  rbind (s_apply s md [] md (fun ts => moments_type_nd nmax to mom false order (arg 0 ts))) (fun r =>
  if to_end then Ok r else ds_transpose_like 0%Qc s (fun n => n) [] [] r))).

(* utils.py:459-522 select_moment; the coordinates of dim_combined are not kept *)
Definition ds_select_moment (p : xparams) (name : string) (squeeze : bool) (dim_combined : sname) (coords_combined : option (list sname)) (s : xset) : res (lset Qc) :=
  if String.eqb name "all" then Ok (s_same s)
  else
    rbind (iter_dims p) (fun md =>
    rbind (array_axes p) (fun mom =>
    rbind (if combines p name squeeze
           then match coords_combined with
                | Some l => match xp_ndim p with Some m => if Z.eqb (Z.of_nat (List.length l)) m then Ok [dim_combined] else Raise EValue | None => Raise EValue end
                | None => if match xp_ndim p with Some m => Z.eqb (Z.of_nat (List.length md)) m | None => false end then Ok [dim_combined] else Raise EValue
                end
           else Ok (kept_dims md name)) (fun out =>
    s_apply s md [] out (fun ts => select_moment_nd name mom squeeze (arg 0 ts))))).

(* utils.py:706-725 the core dimensions of a value; a Dataset is is_xarray *)
Definition ds_value_core (p : xparams) (md : list sname) (squeeze : bool) (dim_combined : option sname) (nv : string * dop) : list sname :=
  value_core p md squeeze dim_combined (fst nv) (match snd nv with DArr o => o | DSet _ => Labelled (XA [] (number 0)) end).
(* utils.py:697-745 assign_moment *)
Definition ds_assign_moment (p : xparams) (names : list (string * dop)) (squeeze : bool) (dim_combined : option sname) (s : xset) : res (lset Qc) :=
  rbind (iter_dims p) (fun md =>
  rbind (array_axes p) (fun mom =>
  s_apply s md (map (fun nv => (snd nv, ds_value_core p md squeeze dim_combined nv)) names) md
    (fun ts => assign_moment_nd (combine (map fst names) (tl ts)) mom squeeze (arg 0 ts)))).

(* ---- methods of CentralMomentsData with a Dataset ----------------------------------------- *)

(* wrap_abc.py:647-694 select_moment *)
Definition cs_select_moment (c : csdata) (name : string) (squeeze : bool) (dim_combined : sname) (coords_combined : option (list sname)) : res (lset Qc) :=
  ds_select_moment (cs_params c) name squeeze dim_combined coords_combined (cs_obj c).
(* wrap_abc.py:697-751 assign_moment *)
Definition cs_assign_moment (c : csdata) (names : list (string * dop)) (squeeze : bool) (dim_combined : option sname) : res csdata :=
  cs_with c (ds_assign_moment (cs_params c) names squeeze dim_combined (cs_obj c)).
(* wrap_abc.py:1101-1103 *)
Definition cs_weight (c : csdata) : res (lset Qc) := cs_select_moment c "weight" true "variable" None.
(* wrap_abc.py:1105-1107 *)
Definition cs_mean (c : csdata) (squeeze : bool) : res (lset Qc) := cs_select_moment c "ave" squeeze "variable" None.
(* wrap_abc.py:1109-1111 *)
Definition cs_var (c : csdata) (squeeze : bool) : res (lset Qc) := cs_select_moment c "var" squeeze "variable" None.
(* wrap_abc.py:1119-1121 *)
Definition cs_cov (c : csdata) : res (lset Qc) := cs_select_moment c "cov" true "variable" None.
(* wrap_abc.py:1123-1148 cmom *)
Definition cs_cmom (c : csdata) : res (lset Qc) :=
  ds_assign_moment (cs_params c) [("weight", DArr (Plain (number 1))); ("ave", DArr (Plain (number 0)))] true None (cs_obj c).
(* wrap_abc.py:1150-1183 to_raw *)
Definition cs_to_raw (nmax : nat) (c : csdata) (weight : option dop) : res (lset Qc) :=
  rbind (ds_moments_type nmax "raw" (cs_params c) false false (cs_obj c)) (fun out =>
  match weight with None => Ok out | Some w => ds_assign_moment (cs_params c) [("weight", w)] true None (to_xset out) end).
(* wrap_abc.py:1185-1209 rmom *)
Definition cs_rmom (nmax : nat) (c : csdata) : res (lset Qc) := cs_to_raw nmax c (Some (DArr (Plain (number 1)))).
(* x * scale of an array
   [wrap_abc.py:514-522] *)
Definition x_times (k : Qc) (x : xarr) : xarr := XA (x_dims x) (Tensor (x_shape x) (map (fun q => (q * k)%Qc) (tdata (x_val x)))).
(* wrap_abc.py:514-522 __mul__ and __imul__ of an object with a DataArray *)
Definition cx_mul (c : cmdata) (k : Qc) : res cmdata :=
  rbind (cx_weight c) (fun w => cx_assign_moment c [("weight", Labelled (x_times k w))] true None).
(* wrap_abc.py:514-522 __mul__ and __imul__; all variables of self.weight() are multiplied *)
Definition cs_mul (c : csdata) (k : Qc) : res csdata :=
  rbind (cs_weight c) (fun w => cs_assign_moment c [("weight", DSet (map (fun v => (fst v, x_times k (snd v))) (to_xset w)))] true None).
