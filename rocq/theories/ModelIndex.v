(* Model of index and label handling: resample/sampler.py (conversion of
   indices and frequency tables), _lib/resample.py:23-48, _lib/utils.py,
   _lib/indexed.py:69-96, reduction.py:652-793 (block_by, factor_by) and
   1102-1222 (factor_by_to_index, _validate_index), rolling.py:298-307, 513-575
   (centering).  Integers are Z (np.int64 without overflow). *)
From Coq Require Import String.
From Verif Require Import Base ModelKernels.

(* ---- element access in compiled code ----------------------------------------- *)

(* numba indexing of a[i]: a negative index counts from the end; no bounds
   check, so an access outside the array is a memory error
   [subscripts in _lib/resample.py:30-48, _lib/indexed.py:72-96, _lib/utils.py:17-51] *)
Definition wrap (n : nat) (i : Z) : Z := if (i <? 0)%Z then (i + Z.of_nat n)%Z else i.
(* loads in _lib/resample.py:45-48, _lib/indexed.py:80-96 *)
Definition zread {T} (l : list T) (i : Z) : res T :=
  let j := wrap (List.length l) i in
  if (j <? 0)%Z then Raise EMem
  else match nth_error l (Z.to_nat j) with Some x => Ok x | None => Raise EMem end.
(* stores in _lib/resample.py:45-48, _lib/utils.py:17-51 *)
Definition zwrite {T} (l : list T) (i : Z) (v : T) : res (list T) :=
  let j := wrap (List.length l) i in
  if ((j <? 0)%Z || (Z.of_nat (List.length l) <=? j)%Z)%bool then Raise EMem
  else Ok (upd l (Z.to_nat j) v).

(* loops that may raise, as in _lib/indexed.py:80-96 *)
Fixpoint foldR {A B} (f : A -> B -> res A) (l : list B) (a : A) : res A :=
  match l with [] => Ok a | b :: t => rbind (f a b) (foldR f t) end.
(* loops that may raise, results collected, as in core/array_utils.py:78-84 *)
Fixpoint mapR {A B} (f : A -> res B) (l : list A) : res (list B) :=
  match l with
  | [] => Ok []
  | a :: t => rbind (f a) (fun b => rbind (mapR f t) (fun r => Ok (b :: r)))
  end.

(* ---- indices and frequency tables ----------------------------------------------- *)

(* x.max() of an integer array; ValueError when empty
   [called at resample/sampler.py:805-817, reduction.py:1187-1195] *)
Definition zmax (l : list Z) : res Z :=
  match l with [] => Raise EValue | a :: t => Ok (fold_left Z.max t a) end.
(* x.min(); called at reduction.py:1187-1195 *)
Definition zmin (l : list Z) : res Z :=
  match l with [] => Raise EValue | a :: t => Ok (fold_left Z.min t a) end.
(* freq.sum(axis=1) at resample/sampler.py:735-743 *)
Definition zsum (l : list Z) : Z := fold_right Z.add 0%Z l.

(* _lib/resample.py:45-48  indices_to_freq for one replicate *)
Definition count_row (ndat : nat) (idx : list Z) : res (list Z) :=
  foldR (fun f i => rbind (zread f i) (fun v => zwrite f i (v + 1)%Z)) idx (repeat 0%Z ndat).
(* resample/sampler.py:776-817  indices_to_freq, ndat given (or indices.shape[1]) *)
Definition indices_to_freq (ndat : nat) (indices : list (list Z)) : res (list (list Z)) :=
  rbind (zmax (List.concat indices)) (fun m =>
  if (Z.of_nat ndat <=? m)%Z then Raise EValue else mapR (count_row ndat) indices).

(* l[a:b] = d with the usual rules for slice bounds
   [numpy slicing in numba, _lib/resample.py:36] *)
Definition slice_bound (n : nat) (v : Z) : nat :=
  Z.to_nat (if (v <? 0)%Z then Z.max 0 (v + Z.of_nat n) else Z.min v (Z.of_nat n)).
(* _lib/resample.py:36 *)
Definition slice_fill {T} (l : list T) (a b : Z) (d : T) : list T :=
  let n := List.length l in
  let a := slice_bound n a in
  let b := slice_bound n b in
  firstn a l ++ repeat d (b - a) ++ skipn (Nat.max a b) l.
(* _lib/resample.py:30-36  freq_to_indices for one replicate; junk is the
   uninitialised row of np.empty *)
Definition fill_row (junk : list Z) (freq : list Z) : list Z :=
  snd (fold_left (fun (st : (nat * Z) * list Z) f =>
         let '((d, count), out) := st in
         ((S d, (count + f)%Z), slice_fill out count (count + f)%Z (Z.of_nat d)))
       freq ((0%nat, 0%Z), junk)).
(* resample/sampler.py:700-759  freq_to_indices with shuffle=False *)
Definition freq_to_indices (junk : Z) (freq : list (list Z)) : res (list (list Z)) :=
  match freq with
  | [] => Raise EIndex
  | f0 :: _ =>
      let nsamp := zsum f0 in
      if forallb (fun f => Z.eqb (zsum f) nsamp) freq
      then if (nsamp <? 0)%Z then Raise EValue
           else Ok (map (fill_row (repeat junk (Z.to_nat nsamp))) freq)
      else Raise EValue
  end.

(* resample/sampler.py:822-861  jackknife_freq *)
Definition jackknife_freq (ndat : nat) : list (list Z) :=
  map (fun i => upd (repeat 1%Z ndat) i 0%Z) (seq 0 ndat).

(* _lib/utils.py:17-50  freq_to_index_start_end_scales.  State: next position,
   index, scale (uninitialised with junk, size = number of nonzero entries) *)
Definition fti_row (st : (Z * list Z * list Z)) (row : list Z) : res ((Z * list Z * list Z) * Z) :=
  rbind (foldR (fun (s : nat * Z * (Z * list Z * list Z)) f =>
           let '(k, count, (idx, index, scale)) := s in
           if (0 <? f)%Z
           then rbind (zwrite index idx (Z.of_nat k)) (fun index =>
                rbind (zwrite scale idx f) (fun scale =>
                Ok (S k, (count + 1)%Z, ((idx + 1)%Z, index, scale))))
           else Ok (S k, count, (idx, index, scale)))
         row (0%nat, 0%Z, st))
  (fun s => let '(_, count, st) := s in Ok (st, count)).
(* _lib/utils.py:31-49, the loop over groups *)
Fixpoint fti_groups (st : (Z * list Z * list Z)) (freq : list (list Z)) (start end_ : list Z)
  : res ((list Z * list Z) * (list Z * list Z)) :=
  match freq with
  | [] => let '(_, index, scale) := st in Ok ((index, start), (end_, scale))
  | row :: t =>
      let '(idx, _, _) := st in
      rbind (fti_row st row) (fun r =>
      let (st, count) := r in
      fti_groups st t (start ++ [idx]) (end_ ++ [(idx + count)%Z]))
  end.
(* np.count_nonzero at _lib/utils.py:25 *)
Definition count_nonzero (freq : list (list Z)) : nat :=
  List.length (filter (fun f => negb (Z.eqb f 0)) (List.concat freq)).
(* result ((index, start), (end, scale))
   [_lib/utils.py:17-51] *)
Definition freq_to_index_start_end_scales (junk : Z) (freq : list (list Z))
  : res ((list Z * list Z) * (list Z * list Z)) :=
  let size := count_nonzero freq in
  fti_groups (0%Z, repeat junk size, repeat junk size) freq [] [].

(* ---- index validation and the indexed kernel ------------------------------------- *)

(* reduction.py:1187-1195 *)
Definition validate_range (x : list Z) (upper : Z) : res unit :=
  rbind (zmin x) (fun mn => rbind (zmax x) (fun mx =>
  if (mn <? 0)%Z then Raise EValue else if (upper <=? mx)%Z then Raise EValue else Ok tt)).
(* reduction.py:1181-1222  _validate_index *)
Definition validate_index (ndat : nat) (index start end_ : list Z) : res unit :=
  let nindex := List.length index in
  rbind (if Nat.eqb nindex 0 then
           (if (existsb (fun z => negb (Z.eqb z 0)) start || existsb (fun z => negb (Z.eqb z 0)) end_)%bool
            then Raise EValue else Ok tt)
         else rbind (validate_range index (Z.of_nat ndat)) (fun _ =>
              rbind (validate_range start (Z.of_nat nindex)) (fun _ =>
              validate_range end_ (Z.of_nat nindex + 1))))
  (fun _ =>
  if negb (Nat.eqb (List.length start) (List.length end_)) then Raise EValue
  else if existsb (fun p => (snd p <? fst p)%Z) (combine start end_) then Raise EValue else Ok tt).

Section Indexed.
  Context {A V : Type} (K : pusher A V).
  Local Open Scope Qc_scope.

  (* _lib/indexed.py:80-96  one group of reduce_data_indexed_fromzero *)
  Definition indexed_group (data : list A) (index : list Z) (scale : list Qc) (start end_ : Z) : res A :=
    if (start <? end_)%Z then
      rbind (zread index start) (fun s => rbind (zread scale start) (fun f => rbind (zread data s) (fun d =>
      foldR (fun o (i : nat) =>
               rbind (zread index (start + 1 + Z.of_nat i)%Z) (fun s =>
               rbind (zread scale (start + 1 + Z.of_nat i)%Z) (fun f =>
               rbind (zread data s) (fun d => of_opt EZeroDiv (p_push_data_scale K d f o)))))
            (seq 0 (Z.to_nat (end_ - (start + 1))))
            (p_setwt K (p_wt K d * f) d))))
    else Ok (p_zero K).
  (* _lib/indexed.py:69-96 with the wrapper reduction.py:1408-1502, 1505-1560:
     scale None is all ones, otherwise it must be as long as index *)
  Definition reduce_data_indexed (data : list A) (index start end_ : list Z) (scale : option (list Qc)) : res (list A) :=
    rbind (validate_index (List.length data) index start end_) (fun _ =>
    rbind (match scale with
           | None => Ok (repeat 1 (List.length index))
           | Some s => if Nat.eqb (List.length s) (List.length index) then Ok s else Raise EValue
           end) (fun scale =>
    mapR (fun se => indexed_group data index scale (fst se) (snd se)) (combine start end_))).

  (* reduction.py:1567-1628  resample_data_indexed: resample through index,
     start, end and scales of the frequency table *)
  Definition resample_data_indexed (junk : Z) (freq : list (list Z)) (data : list A) : res (list A) :=
    rbind (freq_to_index_start_end_scales junk freq) (fun r =>
    let '((index, start), (end_, scale)) := r in
    reduce_data_indexed data index start end_ (Some (map qz scale))).
End Indexed.

(* ---- labels ------------------------------------------------------------------------ *)

Section Labels.
  (* labels with their equality and order tests; skip marks the values
     replaced by None (negative integers) *)
  Context {T : Type} (eqb leb : T -> T -> bool) (skip : T -> bool).

  (* pandas Index.get_indexer / list.index, as needed by pandas.factorize, reduction.py:799 *)
  Fixpoint position (x : T) (l : list T) : nat :=
    match l with [] => O | y :: t => if eqb x y then O else S (position x t) end.
  (* membership as needed by pandas.factorize, reduction.py:799 *)
  Definition mem (x : T) (l : list T) : bool := existsb (eqb x) l.
  (* sorting as needed by pandas.factorize, reduction.py:799 and sorted at core/array_utils.py:120 *)
  Fixpoint insert_by (le : T -> T -> bool) (x : T) (l : list T) : list T :=
    match l with [] => [x] | y :: t => if le x y then x :: l else y :: insert_by le x t end.
  (* sorting as needed by pandas.factorize, reduction.py:799 and sorted at core/array_utils.py:120 *)
  Definition sort_by (le : T -> T -> bool) (l : list T) : list T := fold_right (insert_by le) [] l.

  (* reduction.py:786-792  None or negative labels become None *)
  Definition normalize_label (x : option T) : option T :=
    match x with Some y => if skip y then None else Some y | None => None end.
  (* pandas.factorize on an object array: unique non-missing values in order
     of first appearance (sorted when sort), codes are positions, -1 if missing
     [called at reduction.py:799] *)
  Definition uniques (l : list (option T)) : list T :=
    fold_left (fun acc x => match x with
                            | Some y => if mem y acc then acc else acc ++ [y]
                            | None => acc
                            end) l [].
  (* called at reduction.py:799 *)
  Definition code_of (groups : list T) (x : option T) : Z :=
    match x with Some y => Z.of_nat (position y groups) | None => (-1)%Z end.
  (* reduction.py:721-805  factor_by *)
  Definition factor_by (sort : bool) (by_ : list (option T)) : list T * list Z :=
    let l := map normalize_label by_ in
    let u := uniques l in
    let groups := if sort then sort_by leb u else u in
    (groups, map (code_of groups) l).
End Labels.

(* np.where(keep)[0]
   [reduction.py:1157] *)
Definition where_ (keep : list bool) : list Z :=
  map Z.of_nat (filter (fun i => nth i keep false) (seq 0 (List.length keep))).
(* np.unique(sorted, return_index=True, return_counts=True): value, first
   position, count; for a sorted array these are its runs
   [reduction.py:1166-1168] *)
Fixpoint runs (pos : Z) (l : list Z) : list (Z * Z * Z) :=
  match l with
  | [] => []
  | x :: t =>
      match runs (pos + 1) t with
      | (y, s, c) :: r => if Z.eqb x y then (x, pos, (c + 1)%Z) :: r else (x, pos, 1%Z) :: (y, s, c) :: r
      | [] => [(x, pos, 1%Z)]
      end
  end.

Section LabelIndex.
  Context {T : Type} (eqb leb : T -> T -> bool) (skip : T -> bool).
  (* np.argsort(codes, **kwargs); which of the sorting permutations is returned
     depends on the algorithm, so it is a parameter *)
  Context (argsort : list Z -> list nat).
  (* reduction.py:1102-1178  factor_by_to_index: groups, index, start, end *)
  Definition factor_by_to_index (by_ : list (option T)) : (list T * list Z) * (list Z * list Z) :=
    let (groups, codes) := factor_by eqb leb skip true by_ in
    let keep := map (fun c => (0 <=? c)%Z) codes in
    let index := if forallb (fun b => b) keep then None else Some (where_ keep) in
    let codes := match index with None => codes | Some _ => filter (fun c => (0 <=? c)%Z) codes end in
    let perm := argsort codes in
    let sorted := map (fun i => nth i codes 0%Z) perm in
    let rs := runs 0 sorted in
    let start := map (fun r => snd (fst r)) rs in
    let end_ := map (fun r => (snd (fst r) + snd r)%Z) rs in
    let out := match index with
               | None => map Z.of_nat perm
               | Some ix => map (fun i => nth i ix 0%Z) perm
               end in
    ((groups, out), (start, end_)).
End LabelIndex.

(* ---- blocks -------------------------------------------------------------------------- *)

Open Scope string_scope.
(* reduction.py:652-719  block_by *)
Definition block_by (ndat block : Z) (mode : string) : res (list Z) :=
  if ((block <=? 0)%Z || (block =? ndat)%Z)%bool then
    (if (ndat <? 0)%Z then Raise EValue else Ok (repeat 0%Z (Z.to_nat ndat)))
  else if (ndat <? block)%Z then Raise EValue
  else if negb (String.eqb mode "drop_first" || String.eqb mode "drop_last" ||
                String.eqb mode "expand_first" || String.eqb mode "expand_last")%bool then Raise EValue
  else
    let nblock := Z.to_nat (ndat / block) in
    let by_ := flat_map (fun b => repeat (Z.of_nat b) (Z.to_nat block)) (seq 0 nblock) in
    if Nat.eqb (List.length by_) (Z.to_nat ndat) then Ok by_
    else
      let shift := (Z.to_nat ndat - List.length by_)%nat in
      let first := (String.eqb mode "drop_first" || String.eqb mode "expand_first")%bool in  (* mode.endswith("_first") *)
      let drop := (String.eqb mode "drop_first" || String.eqb mode "drop_last")%bool in      (* mode.startswith("drop") *)
      let fill := if drop then (-1)%Z else if first then nth 0 by_ 0%Z else last by_ 0%Z in
      Ok (if first then app (repeat fill shift) by_ else app by_ (repeat fill shift)).
Close Scope string_scope.

(* ---- centering ------------------------------------------------------------------------- *)

Section Center.
  Context {A V : Type} (K : pusher A V).
  (* rolling.py:530-532, 555, 569-573: pad with -shift zero rows at the end,
     run the trailing kernel, drop the first -shift rows.  shift = (-window // 2) + 1;
     a negative pad width is a ValueError.  min_periods None is window. *)
  Definition center_shift (window : Z) : Z := ((- window) / 2 + 1)%Z.
  (* rolling.py:511-574 with center=True *)
  Definition rolling_data_center (window : Z) (min_periods : option Z) (data : list A) : res (list (option A)) :=
    let shift := center_shift window in
    if (- shift <? 0)%Z then Raise EValue
    else
      let pad := Z.to_nat (- shift) in
      rbind (of_opt EZeroDiv (rolling_data K (Z.to_nat window) (match min_periods with None => window | Some m => m end)
                                (data ++ repeat (p_zero K) pad)))
      (fun rows => Ok (skipn pad rows)).
  (* rolling.py:810-856: the same for values; x, weight (and y) are padded with 0 *)
  Definition rolling_vals_center (zero : V) (window : Z) (min_periods : option Z) (xw : list (V * Qc)) : res (list (option A)) :=
    let shift := center_shift window in
    if (- shift <? 0)%Z then Raise EValue
    else
      let pad := Z.to_nat (- shift) in
      rbind (of_opt EZeroDiv (rolling_vals K (zero, 0%Qc) (Z.to_nat window) (match min_periods with None => window | Some m => m end)
                                (xw ++ repeat (zero, 0%Qc) pad)))
      (fun rows => Ok (skipn pad rows)).
End Center.
