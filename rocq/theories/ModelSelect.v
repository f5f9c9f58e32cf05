(* Model of moment selection and assignment: src/cmomy/utils.py:310-366
   (moment_indexer), 543-556 (_select_moment), 760-782 (_assign_moment),
   996-1026 (_vals_to_data), and the accessors of wrapper/wrap_abc.py.
   One moment array at a time (the "..." of the index expressions covers the
   leading axes).  A one-variable array is stored as a matrix with one row. *)
From Coq Require Import String.
From Verif Require Import Base ModelConvert.
Local Open Scope Qc_scope.

(* entries an index expression selects, utils.py:310-366 *)
Definition cells := list (nat * nat).

(* utils.py:311-329  _MOMENT_INDEXER_1 / _MOMENT_INDEXER_2 and the special
   cases of moment_indexer (345-364), resolved against the number of rows and
   columns of the moment array; the second component is the shape of
   data[idx] (without the leading axes) *)
Open Scope string_scope.
(* utils.py:310-366 *)
Definition moment_indexer (name : string) (mom_ndim : nat) (squeeze : bool) (nrow ncol : nat)
  : res (cells * list nat) :=
  let one := Nat.eqb mom_ndim 1 in
  let row i := map (fun j => (i, j)) (seq 0 ncol) in
  let col j := map (fun i => (i, j)) (seq 0 nrow) in
  if String.eqb name "all" then
    Ok (flat_map row (seq 0 nrow), if one then [ncol] else [nrow; ncol])
  else if String.eqb name "ave" then
    Ok (if one then ([(0, 1)], if squeeze then [] else [1]) else ([(1, 0); (0, 1)], [2]))%nat
  else if String.eqb name "var" then
    Ok (if one then ([(0, 2)], if squeeze then [] else [1]) else ([(2, 0); (0, 2)], [2]))%nat
  else if one then
    (if String.eqb name "weight" then Ok ([(0, 0)], [])
     else if String.eqb name "cov" then Ok ([(0, 2)], [])
     else if String.eqb name "xave" then Ok ([(0, 1)], [])
     else if String.eqb name "xvar" then Ok ([(0, 2)], [])
     else Raise EValue)%nat
  else
    (if String.eqb name "weight" then Ok ([(0, 0)], [])
     else if String.eqb name "cov" then Ok ([(1, 1)], [])
     else if String.eqb name "xave" then Ok ([(1, 0)], [])
     else if String.eqb name "xvar" then Ok ([(2, 0)], [])
     else if String.eqb name "yave" then Ok ([(0, 1)], [])
     else if String.eqb name "yvar" then Ok ([(0, 2)], [])
     else if String.eqb name "xmom_0" then Ok (row 0, [ncol])
     else if String.eqb name "xmom_1" then Ok (row 1, [ncol])
     else if String.eqb name "ymom_0" then Ok (col 0, [nrow])
     else if String.eqb name "ymom_1" then Ok (col 1, [nrow])
     else Raise EValue)%nat.
Close Scope string_scope.

(* numpy bounds check of the integer indices: IndexError
   [data[idx] at utils.py:543-556, 775-776] *)
Definition in_bounds (nrow ncol : nat) (cs : cells) : bool :=
  forallb (fun c => (Nat.ltb (fst c) nrow && Nat.ltb (snd c) ncol)%bool) cs.
(* shape of the moment array, utils.py:543-556 *)
Definition nrows (a : arr2) : nat := length a.
(* shape of the moment array, utils.py:543-556 *)
Definition ncols (a : arr2) : nat := length (nth 0 a []).

(* utils.py:543-556 *)
Definition index_cells (name : string) (mom_ndim : nat) (squeeze : bool) (a : arr2) : res (cells * list nat) :=
  rbind (moment_indexer name mom_ndim squeeze (nrows a) (ncols a))
  (fun cs => if in_bounds (nrows a) (ncols a) (fst cs) then Ok cs else Raise EIndex).

(* utils.py:543-556  _select_moment: the entries in row-major order *)
Definition select_moment (name : string) (mom_ndim : nat) (squeeze : bool) (a : arr2) : res (list Qc) :=
  rbind (index_cells name mom_ndim squeeze a)
  (fun cs => Ok (map (fun c => get2 a (fst c) (snd c)) (fst cs))).

(* values on the right of out[idx] = value: a number, or as many numbers as
   entries (one number also fits any selection); other shapes do not broadcast.
   Broadcasting a row over a two-dimensional selection is not modelled.
   [utils.py:775-776] *)
Definition broadcast (v : list Qc) (n : nat) : res (list Qc) :=
  match v with
  | [x] => Ok (repeat x n)
  | _ => if Nat.eqb (List.length v) n then Ok v else Raise EValue
  end.
(* utils.py:775-776 *)
Definition write_cells (a : arr2) (cv : list ((nat * nat) * Qc)) : arr2 :=
  fold_left (fun o p => upd2 o (fst (fst p)) (snd (fst p)) (snd p)) cv a.

(* utils.py:775-776  one assignment *)
Definition assign_one (name : string) (mom_ndim : nat) (squeeze : bool) (v : list Qc) (a : arr2) : res arr2 :=
  rbind (index_cells name mom_ndim squeeze a) (fun cs =>
  rbind (broadcast v (List.length (fst cs))) (fun v => Ok (write_cells a (combine (fst cs) v)))).

(* utils.py:760-782  _assign_moment: the names in the order of the mapping *)
Fixpoint assign_moment (names : list (string * list Qc)) (mom_ndim : nat) (squeeze : bool) (a : arr2) : res arr2 :=
  match names with
  | [] => Ok a
  | (name, v) :: t => rbind (assign_one name mom_ndim squeeze v a) (assign_moment t mom_ndim squeeze)
  end.

Open Scope string_scope.
(* utils.py:996-1026  _vals_to_data for one sample: zeros of the moment shape,
   then weight, xave (and yave) *)
Definition vals_to_data1 (n : nat) (x w : Qc) : res arr2 :=
  assign_moment [("weight", [w]); ("xave", [x])] 1 true (zeros2 1 (S n)).
(* utils.py:996-1026 with mom_ndim 2 *)
Definition vals_to_data2 (n0 n1 : nat) (x y w : Qc) : res arr2 :=
  assign_moment [("weight", [w]); ("xave", [x]); ("yave", [y])] 2 true (zeros2 (S n0) (S n1)).

(* wrap_abc.py:1124-1149  cmom *)
Definition cmom (mom_ndim : nat) (a : arr2) : res arr2 :=
  assign_moment [("weight", [1]); ("ave", [0])] mom_ndim true a.
(* wrap_abc.py:1151-1184  to_raw: convert, then set the weight if given *)
Definition to_raw1 (nmax : nat) (weight : option Qc) (a : arr) : res arr2 :=
  match weight with
  | None => Ok [central_to_raw nmax a]
  | Some w => assign_moment [("weight", [w])] 1 true [central_to_raw nmax a]
  end.
(* wrap_abc.py:1151-1184 with mom_ndim 2 *)
Definition to_raw2 (nmax : nat) (weight : option Qc) (a : arr2) : res arr2 :=
  match weight with
  | None => Ok (central_to_raw2 nmax a)
  | Some w => assign_moment [("weight", [w])] 2 true (central_to_raw2 nmax a)
  end.
(* wrap_abc.py:1186-1209  rmom *)
Definition rmom1 (nmax : nat) (a : arr) : res arr2 := to_raw1 nmax (Some 1) a.
(* wrap_abc.py:1186-1209 with mom_ndim 2 *)
Definition rmom2 (nmax : nat) (a : arr2) : res arr2 := to_raw2 nmax (Some 1) a.
(* wrap_abc.py:1101-1122  weight, mean, var, cov (std is the root of var) *)
Definition acc_weight (mom_ndim : nat) (a : arr2) := select_moment "weight" mom_ndim true a.
(* wrap_abc.py:1106-1108 *)
Definition acc_mean (mom_ndim : nat) (a : arr2) := select_moment "ave" mom_ndim true a.
(* wrap_abc.py:1110-1112 *)
Definition acc_var (mom_ndim : nat) (a : arr2) := select_moment "var" mom_ndim true a.
(* wrap_abc.py:1120-1122 *)
Definition acc_cov (mom_ndim : nat) (a : arr2) := select_moment "cov" mom_ndim true a.
Close Scope string_scope.
