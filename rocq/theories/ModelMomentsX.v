(* Model of the functions that convert, select and assign moments of labelled
   arrays: the DataArray branches of convert.py:216-257 (moments_type), 697-737
   (moments_to_comoments), 847-880 (comoments_to_moments), utils.py:459-522
   (select_moment), 697-745 (assign_moment), 933-985 (vals_to_data), and the methods
   of CentralMomentsData that read statistics through them
   (wrapper/wrap_abc.py:647-751, 813-862, 1101-1209).

   p is the parameter object made by MomParamsXArray.factory.  As in ModelLabel,
   arrays have no coordinates; dtype, casting, keep_attrs, dask and out= are not
   modelled, and copy= changes which array holds the result, not its entries. *)
From Coq Require Import String.
From Verif Require Import Base ModelPush ModelConvert ModelKernels ModelIndex ModelAxes ModelState ModelParams ModelNd ModelWrap ModelLabel ModelMoments ModelConstruct.
Local Open Scope string_scope.

(* xr.apply_ufunc of a function of arrays without excluded dimensions, as at convert.py:226-254 *)
Definition x_apply (args : list (xop * list sname)) (out_core : list sname) (f : list tensor -> res tensor) : res (lgrid Qc) :=
  apply_ufunc args out_core [] (fun ts => rmap to_grid (f ts)).
(* DataArray.rename({old: new}) of an array: a ValueError if old is no dimension or
   new is another one
   [convert.py:705-708, 855-861] *)
Definition x_rename_dim (old new : sname) (x : xarr) : res xarr :=
  if negb (smem old (x_dims x)) then Raise EValue
  else if (negb (String.eqb old new) && smem new (x_dims x))%bool then Raise EValue
  else Ok (x_rename (fun n => if String.eqb n old then new else n) x).
(* f"_tmp_{name}"
   [convert.py:707, 857] *)
Definition temporary (n : sname) : sname := "_tmp_" ++ n.

(* convert.py:216-257 moments_type *)
Definition x_moments_type (nmax : nat) (to : string) (p : xparams) (to_end order : bool) (x : xarr) : res xarr :=
  rbind (iter_dims p) (fun md =>
  rbind (array_axes p) (fun mom =>
  rmap to_xarr (rbind (x_apply [(Labelled x, md)] md (fun ts => moments_type_nd nmax to mom false order (arg 0 ts))) (finish 0%Qc to_end x)))).

(* convert.py:697-737 moments_to_comoments; output_sizes is evaluated before the call *)
Definition x_moments_to_comoments (p : xparams) (mom : list Z) (dims_out : option dims_arg) (x : xarr) : res xarr :=
  rbind (x_factory false MPNone (Some 2%Z) dims_out None OOther None) (fun po =>
  rbind (iter_dims po) (fun out =>
  rbind (iter_dims p) (fun md =>
  match md with
  | [] => Raise EIndex
  | d :: _ =>
      rbind (if smem d out then rmap (fun z => (temporary d, z)) (x_rename_dim d (temporary d) x) else Ok (d, x)) (fun '(d, x) =>
      rbind (sizes (x_dims x) (x_shape x) d) (fun n =>
      rbind (validate_mom_moments_to_comoments mom (Z.of_nat n - 1)) (fun _ =>
      rmap to_xarr (x_apply [(Labelled x, [d])] out (fun ts => moments_to_comoments_nd mom (-1) (arg 0 ts))))))
  end))).

(* convert.py:847-880 comoments_to_moments *)
Definition x_comoments_to_moments (junk : list nat -> Qc) (p : xparams) (dims_out : option dims_arg) (x : xarr) : res xarr :=
  rbind (x_factory false MPNone (Some 1%Z) dims_out None OOther None) (fun po =>
  rbind (iter_dims po) (fun out =>
  rbind (iter_dims p) (fun md =>
  match out with
  | [] => Raise EIndex
  | d :: _ =>
      rbind (if smem d md then rmap (fun z => (map (fun n => if String.eqb n d then temporary d else n) md, z)) (x_rename_dim d (temporary d) x)
             else Ok (md, x)) (fun '(md, x) =>
      rbind (mapR (sizes (x_dims x) (x_shape x)) md) (fun _ =>
      rmap to_xarr (x_apply [(Labelled x, md)] [d] (fun ts => comoments_to_moments_nd junk [-2; -1]%Z (arg 0 ts)))))
  end))).

(* name in {"ave", "var"} and (mom_params.ndim != 1 or not squeeze)
   [utils.py:475, 709-712] *)
Definition combines (p : xparams) (name : string) (squeeze : bool) : bool :=
  ((String.eqb name "ave" || String.eqb name "var") && (negb (match xp_ndim p with Some 1%Z => true | _ => false end) || negb squeeze))%bool.
(* mom_params.dims[1:] for xmom_, mom_params.dims[:1] for ymom_
   [utils.py:489-494, 715-722] *)
Definition kept_dims (md : list sname) (name : string) : list sname :=
  if prefix "xmom_" name then skipn 1 md else if prefix "ymom_" name then firstn 1 md else [].
(* utils.py:459-522 select_moment; the coordinates of dim_combined are not kept *)
Definition x_select_moment (p : xparams) (name : string) (squeeze : bool) (dim_combined : sname) (coords_combined : option (list sname)) (x : xarr) : res xarr :=
  if String.eqb name "all" then Ok x
  else
    rbind (iter_dims p) (fun md =>
    rbind (array_axes p) (fun mom =>
    rbind (if combines p name squeeze
           then match coords_combined with
                | Some l => match xp_ndim p with Some m => if Z.eqb (Z.of_nat (List.length l)) m then Ok [dim_combined] else Raise EValue | None => Raise EValue end
                | None => if match xp_ndim p with Some m => Z.eqb (Z.of_nat (List.length md)) m | None => false end then Ok [dim_combined] else Raise EValue
                end
           else Ok (kept_dims md name)) (fun out =>
    rmap to_xarr (x_apply [(Labelled x, md)] out (fun ts => select_moment_nd name mom squeeze (arg 0 ts)))))).

(* utils.py:706-725 the core dimensions of a value; dim_combined None or "" counts as not given *)
Definition value_core (p : xparams) (md : list sname) (squeeze : bool) (dim_combined : option sname) (name : string) (v : xop) : list sname :=
  match v with
  | Plain _ => []
  | Labelled _ =>
      match (if combines p name squeeze then dim_combined else None) with
      | Some (String _ _ as d) => [d]
      | _ => if prefix "xmom_" name then skipn 1 md
             else if prefix "ymom_" name then firstn 1 md
             else if String.eqb name "all" then md
             else []
      end
  end.
(* utils.py:697-745 assign_moment; the result is not transposed back *)
Definition x_assign_moment (p : xparams) (names : list (string * xop)) (squeeze : bool) (dim_combined : option sname) (x : xarr) : res xarr :=
  rbind (iter_dims p) (fun md =>
  rbind (array_axes p) (fun mom =>
  rmap to_xarr (x_apply ((Labelled x, md) :: map (fun nv => (snd nv, value_core p md squeeze dim_combined (fst nv) (snd nv))) names) md
                  (fun ts => assign_moment_nd (combine (map fst names) (tl ts)) mom squeeze (arg 0 ts))))).

(* utils.py:988-1026 _vals_to_data of arrays without out= *)
Definition vals_to_data_arrays (mom mom_axes : list Z) (x w : tensor) (y : list tensor) : res tensor :=
  rbind (broadcast_shapes (map tshape (x :: y ++ [w])%list)) (fun val_shape =>
  let zeros := tabulate (val_shape ++ map (fun m => Z.to_nat (m + 1)) mom)%list (fun _ => 0%Qc) in
  assign_moment_nd (("weight", w) :: ("xave", x) :: map (fun t => ("yave", t)) y)%list mom_axes true zeros).
(* utils.py:933-985 vals_to_data without out=; weight None is the 0-d array 1 *)
Definition x_vals_to_data (mom : ints_arg) (mp : mp_arg) (mom_dims : option dims_arg) (x : xarr) (w : xop) (y : list xop) : res xarr :=
  rbind (validate_mom mom) (fun mom =>
  rbind (x_factory false mp (Some (Z.of_nat (List.length mom))) mom_dims None OOther None) (fun p =>
  rbind (iter_dims p) (fun md =>
  rbind (array_axes p) (fun axes =>
  if negb (match xp_ndim p with Some m => Z.eqb (Z.of_nat (S (List.length y))) m | None => false end) then Raise EValue
  else rmap to_xarr (x_apply (map (fun o => (o, [])) (Labelled x :: w :: y)) md
                       (fun ts => vals_to_data_arrays mom axes (arg 0 ts) (arg 1 ts) (skipn 2 ts))))))).

(* ---- methods of CentralMomentsData ----------------------------------------------------- *)

(* wrap_abc.py:647-694 select_moment *)
Definition cx_select_moment (c : cmdata) (name : string) (squeeze : bool) (dim_combined : sname) (coords_combined : option (list sname)) : res xarr :=
  x_select_moment (cx_params c) name squeeze dim_combined coords_combined (cx_obj c).
(* wrap_abc.py:697-751 assign_moment; _new_like makes no checks *)
Definition cx_assign_moment (c : cmdata) (names : list (string * xop)) (squeeze : bool) (dim_combined : option sname) : res cmdata :=
  rmap (fun x => CX x (cx_params c)) (x_assign_moment (cx_params c) names squeeze dim_combined (cx_obj c)).
(* wrap_abc.py:1101-1103 *)
Definition cx_weight (c : cmdata) : res xarr := cx_select_moment c "weight" true "variable" None.
(* wrap_abc.py:1105-1107 *)
Definition cx_mean (c : cmdata) (squeeze : bool) : res xarr := cx_select_moment c "ave" squeeze "variable" None.
(* wrap_abc.py:1109-1111 *)
Definition cx_var (c : cmdata) (squeeze : bool) : res xarr := cx_select_moment c "var" squeeze "variable" None.
(* wrap_abc.py:1119-1121 *)
Definition cx_cov (c : cmdata) : res xarr := cx_select_moment c "cov" true "variable" None.
(* wrap_abc.py:1123-1148 cmom *)
Definition cx_cmom (c : cmdata) : res xarr :=
  x_assign_moment (cx_params c) [("weight", Plain (number 1)); ("ave", Plain (number 0))] true None (cx_obj c).
(* wrap_abc.py:1150-1183 to_raw *)
Definition cx_to_raw (nmax : nat) (c : cmdata) (weight : option xop) : res xarr :=
  rbind (x_moments_type nmax "raw" (cx_params c) false false (cx_obj c)) (fun out =>
  match weight with None => Ok out | Some w => x_assign_moment (cx_params c) [("weight", w)] true None out end).
(* wrap_abc.py:1185-1209 rmom *)
Definition cx_rmom (nmax : nat) (c : cmdata) : res xarr := cx_to_raw nmax c (Some (Plain (number 1))).
(* constructors.py:758-782 wrap_raw of a DataArray *)
Definition cx_wrap_raw (nmax : nat) (p : xparams) (raw : xarr) : res cmdata :=
  rmap (fun x => CX x p) (x_moments_type nmax "central" p false false raw).
