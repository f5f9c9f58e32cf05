(* Model of the functions that convert, select and assign moments of arrays with
   several axes: convert.py:145-298 (moments_type), 548-900
   (moments_to_comoments, comoments_to_moments), utils.py:310-556 (select_moment),
   560-785 (assign_moment), 790-1026 (vals_to_data).

   mom_axes are the axes of the parameter object.  dtype, casting and out= are
   not modelled; copy= changes which array holds the result, not its entries. *)
From Coq Require Import String.
From Verif Require Import Base ModelPush ModelConvert ModelKernels ModelIndex ModelAxes ModelState ModelParams ModelNd ModelWrap.
Local Notation length := List.length (only parsing).
Local Open Scope string_scope.

(* lengths of the core axes of a gufunc operand, as at convert.py:290-297 *)
Definition core_lengths (a : tensor * list nat) : list nat := map (fun p => nth p (tshape (fst a)) 0) (snd a).

(* one call of the kernel on a moment array with entries l; the kernels read
   entry 1 of every axis and the table of binomials without a check
   [_lib/convert.py:31-70, _lib/convert_cov.py:31-103, factory.py:453-467] *)
Definition convert_kernel (nmax : nat) (to : string) (s : list nat) (l : list nat -> Qc) : res (list nat -> Qc) :=
  if existsb (fun n => (Nat.ltb n 2 || Nat.ltb (S nmax) n)%bool) s then Raise EMem
  else
    match s with
    | [n] => let P := packer1 (n - 1) in
             Ok (pk_unpack P ((if String.eqb to "central" then raw_to_central nmax else central_to_raw nmax) (pk_pack P l)))
    | [n0; n1] => let P := packer2 (n0 - 1) (n1 - 1) in
                  Ok (pk_unpack P ((if String.eqb to "central" then raw_to_central2 nmax else central_to_raw2 nmax) (pk_pack P l)))
    | _ => Raise EValue
    end.
(* convert.py:145-298 moments_type of an array.  order: order= is "C" or "F", and
   the result is written to zeros of the shape of the input; an output of another
   shape is a ValueError *)
Definition moments_type_nd (nmax : nat) (to : string) (mom_axes : list Z) (to_end order : bool) (t : tensor) : res tensor :=
  let out_axes := if to_end then axes_last (length mom_axes) else mom_axes in
  rbind (core_axes (t, mom_axes)) (fun c =>
  rbind (normalize_axis_tuple (Some (map AInt out_axes)) (tndim t) None false) (fun oc =>
  if (order && negb (nats_eqb (place (tndim t) oc (loop_shape c) (core_lengths c)) (tshape t)))%bool then Raise EValue
  else rmap to_tensor (gufunc 0%Qc [(t, mom_axes)] out_axes (core_lengths c)
                         (fun l => convert_kernel nmax to (core_lengths c) (acc l 0))))).

(* convert.py:739-752 moments_to_comoments of an array *)
Definition moments_to_comoments_nd (mom : list Z) (mom_axis : Z) (t : tensor) : res tensor :=
  rbind (np_moveaxis [mom_axis] [(-1)%Z] t) (fun data =>
  let lead := firstn (tndim data - 1) (tshape data) in
  rbind (validate_mom_moments_to_comoments mom (Z.of_nat (last (tshape data) 0) - 1)) (fun mom =>
  Ok (tabulate (lead ++ [Z.to_nat (fst mom) + 1; Z.to_nat (snd mom) + 1])%list (fun idx =>
        let p := firstn (length lead) idx in
        tget data (p ++ [nth (length lead) idx 0 + nth (S (length lead)) idx 0])%list)))).

(* convert.py:891-897: the first entry (i, j) in C order with i + j = k, for every k < len *)
Definition comoment_sources (n0 n1 : nat) : list (option (list nat)) :=
  fold_left (fun src ij =>
               let k := nth 0 ij 0 + nth 1 ij 0 in
               match nth k src None with Some _ => src | None => upd src k (Some ij) end)
            (all_idx [n0; n1]) (repeat None (n0 + n1 - 1)).
(* convert.py:882-899 comoments_to_moments of an array; entries that are never
   assigned to are uninitialised, a negative length is a ValueError *)
Definition comoments_to_moments_nd (junk : list nat -> Qc) (mom_axes : list Z) (t : tensor) : res tensor :=
  rbind (np_moveaxis mom_axes [-2; -1]%Z t) (fun data =>
  let k := tndim data - 2 in
  let lead := firstn k (tshape data) in
  let n0 := nth k (tshape data) 0 in
  let n1 := nth (S k) (tshape data) 0 in
  if Nat.eqb (n0 + n1) 0 then Raise EValue
  else
    Ok (tabulate (lead ++ [n0 + n1 - 1])%list (fun idx =>
          match nth (nth k idx 0) (comoment_sources n0 n1) None with
          | Some ij => tget data (firstn k idx ++ ij)%list
          | None => junk idx
          end))).

(* parts of an index expression after "...": an integer, a list, a full slice
   [utils.py:310-329, 346-364] *)
Inductive pick := PI (i : nat) | PL (l : list nat) | PA.
(* utils.py:332-366 moment_indexer *)
Definition name_indexer (name : string) (mom_ndim : nat) (squeeze : bool) : res (list pick) :=
  let one := Nat.eqb mom_ndim 1 in
  if String.eqb name "all" then Ok []
  else if String.eqb name "ave" then Ok (if one then [if squeeze then PI 1 else PL [1]] else [PL [1; 0]; PL [0; 1]])
  else if String.eqb name "var" then Ok (if one then [if squeeze then PI 2 else PL [2]] else [PL [2; 0]; PL [0; 2]])
  else
    let table :=
      if one then [("weight", [PI 0]); ("cov", [PI 2]); ("xave", [PI 1]); ("xvar", [PI 2])]
      else [("weight", [PI 0; PI 0]); ("cov", [PI 1; PI 1]); ("xave", [PI 1; PI 0]); ("xvar", [PI 2; PI 0]);
            ("yave", [PI 0; PI 1]); ("yvar", [PI 0; PI 2]); ("xmom_0", [PI 0; PA]); ("xmom_1", [PI 1; PA]);
            ("ymom_0", [PA; PI 0]); ("ymom_1", [PA; PI 1])]%list in
    match find (fun p => String.eqb (fst p) name) table with Some p => Ok (snd p) | None => Raise EValue end.

(* numpy: an index outside an axis is an IndexError
   [data[idx] at utils.py:555-556, 777-778] *)
Definition pick_ok (p : pick) (n : nat) : bool :=
  match p with PI i => Nat.ltb i n | PL l => forallb (fun i => Nat.ltb i n) l | PA => true end.
(* lengths of the axes that replace the indexed ones: lists are adjacent and share one axis
   [data[idx] at utils.py:555-556, 777-778] *)
Fixpoint pick_shape (ps : list pick) (s : list nat) : list nat :=
  match ps, s with
  | PA :: ps', n :: s' => n :: pick_shape ps' s'
  | PL l :: ps', _ :: s' => match ps' with PL _ :: _ => [length l] | _ => length l :: pick_shape ps' s' end
  | PI _ :: ps', _ :: s' => pick_shape ps' s'
  | _, _ => []
  end.
(* the index of the array for index q of the selection
   [data[idx] at utils.py:555-556, 777-778] *)
Fixpoint pick_index (ps : list pick) (q : list nat) : list nat :=
  match ps with
  | [] => []
  | PI i :: ps' => i :: pick_index ps' q
  | PL l :: ps' => nth (hd 0 q) l 0 :: pick_index ps' (match ps' with PL _ :: _ => q | _ => tl q end)
  | PA :: ps' => hd 0 q :: pick_index ps' (tl q)
  end.
(* checks of data[..., *ps]; the number of axes covered by "..." and the shape of
   the selection
   [data[idx] at utils.py:555-556, 777-778] *)
Definition pick_checked (ps : list pick) (t : tensor) : res (nat * list nat) :=
  if Nat.ltb (tndim t) (length ps) then Raise EIndex
  else
    let k := tndim t - length ps in
    if negb (forallb (fun p => pick_ok (fst p) (snd p)) (combine ps (skipn k (tshape t)))) then Raise EIndex
    else Ok (k, (firstn k (tshape t) ++ (match ps with [] => [] | _ => pick_shape ps (skipn k (tshape t)) end))%list).
(* the index of the array for index pos of data[..., *ps]
   [data[idx] at utils.py:555-556, 777-778] *)
Definition pick_source (ps : list pick) (k : nat) (pos : list nat) : list nat := (firstn k pos ++ pick_index ps (skipn k pos))%list.
(* data[..., *ps]
   [utils.py:555-556] *)
Definition pick_get (ps : list pick) (t : tensor) : res tensor :=
  rbind (pick_checked ps t) (fun '(k, s) => Ok (tabulate s (fun pos => tget t (pick_source ps k pos)))).
(* leading axes of length 1 of a value with too many axes are dropped
   [out[idx] = value at utils.py:777-778] *)
Fixpoint drop_ones (k : nat) (s : list nat) : list nat :=
  match s with 1 :: s' => if Nat.ltb k (length s) then drop_ones k s' else s | _ => s end.
(* data[..., *ps] = value: the value is broadcast to the selection and written in C order
   [utils.py:777-778] *)
Definition pick_set (ps : list pick) (v t : tensor) : res tensor :=
  rbind (pick_checked ps t) (fun '(k, s) =>
  let vs := drop_ones (length s) (tshape v) in
  rbind (bcast vs s) (fun c =>
  if negb (nats_eqb c s) then Raise EValue
  else Ok (Tensor (tshape t)
             (fold_left (fun d pos => upd d (ravel (tshape t) (pick_source ps k pos)) (nth (ravel vs (loop_index vs pos)) (tdata v) 0%Qc))
                        (all_idx s) (tdata t))))).

(* mom_params.axes != mom_params_end.axes
   [utils.py:528-531, 771-774] *)
Definition mom_moved (mom_axes : list Z) : bool := if list_eq_dec Z.eq_dec mom_axes (axes_last (length mom_axes)) then false else true.
(* utils.py:524-556 select_moment of an array *)
Definition select_moment_nd (name : string) (mom_axes : list Z) (squeeze : bool) (t : tensor) : res tensor :=
  let m := length mom_axes in
  rbind (if mom_moved mom_axes then np_moveaxis mom_axes (axes_last m) t else Ok t) (fun t =>
  if Nat.ltb (tndim t) m then Raise EValue
  else rbind (name_indexer name m squeeze) (fun ps => pick_get ps t)).
(* utils.py:748-785 assign_moment of an array, the names in the order of the mapping *)
Definition assign_moment_nd (names : list (string * tensor)) (mom_axes : list Z) (squeeze : bool) (t : tensor) : res tensor :=
  let m := length mom_axes in
  rbind (if mom_moved mom_axes then np_moveaxis mom_axes (axes_last m) t else Ok t) (fun u =>
  rbind (foldR (fun u nv => rbind (name_indexer (fst nv) m squeeze) (fun ps => pick_set ps (snd nv) u)) names u) (fun u =>
  if mom_moved mom_axes then np_moveaxis (axes_last m) mom_axes u else Ok u)).

(* utils.py:980-1026 vals_to_data of arrays; weight None is the 0-d array 1 *)
Definition vals_to_data_nd (mom : ints_arg) (mp : mp_arg) (x w : tensor) (y : list tensor) : res tensor :=
  rbind (array_factory_mom mom mp None None) (fun '(mom, p) =>
  rbind (iter_axes p) (fun axes =>
  if negb (Nat.eqb (S (length y)) (length axes)) then Raise EValue
  else
    rbind (broadcast_shapes (map tshape (x :: y ++ [w])%list)) (fun val_shape =>
    let zeros := tabulate (val_shape ++ map (fun m => Z.to_nat (m + 1)) mom)%list (fun _ => 0%Qc) in
    assign_moment_nd (("weight", w) :: ("xave", x) :: map (fun t => ("yave", t)) y)%list axes true zeros))).
