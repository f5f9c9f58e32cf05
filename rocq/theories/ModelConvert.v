(* Model of the moment conversions: src/cmomy/_lib/convert.py,
   src/cmomy/_lib/convert_cov.py and the array parts of src/cmomy/convert.py.
   One moment array at a time: the leading axes are handled by the gufunc loop
   (and by "..." in the indexing expressions) element by element. *)
From Verif Require Import Base ModelPush.
Local Open Scope Qc_scope.

(* _lib/convert.py:36-45  entry n >= 2 of central_to_raw *)
Definition c2r_step (nmax : nat) (central : arr) (n : nat) (v : Qc * Qc) (i : nat) : Qc * Qc :=
  let (tmp, ave_i) := v in
  (tmp + getq central (n - i) * ave_i * BF nmax n i, ave_i * getq central 1).
(* _lib/convert.py:31-45, one entry of raw *)
Definition c2r_entry (nmax : nat) (central : arr) (n : nat) : Qc :=
  let (tmp, ave_i) := fold_left (c2r_step nmax central n) (seq 0 (n - 1)) (0, 1) in
  tmp + ave_i * getq central 1.
(* _lib/convert.py:31-45  central_to_raw; raw never aliases central (numpy
   copies overlapping operands of a gufunc) *)
Definition central_to_raw (nmax : nat) (central : arr) : arr :=
  getq central 0 :: getq central 1 ::
  map (c2r_entry nmax central) (seq 2 (length central - 2)).

(* _lib/convert.py:61-70 *)
Definition r2c_step (nmax : nat) (raw : arr) (n : nat) (v : Qc * Qc) (i : nat) : Qc * Qc :=
  let (tmp, ave_i) := v in
  (tmp + getq raw (n - i) * ave_i * BF nmax n i, ave_i * (- getq raw 1)).
(* _lib/convert.py:56-70, one entry of central *)
Definition r2c_entry (nmax : nat) (raw : arr) (n : nat) : Qc :=
  let (tmp, ave_i) := fold_left (r2c_step nmax raw n) (seq 0 (n - 1)) (0, 1) in
  tmp + getq raw 1 * ave_i * qn (n - 1).
(* _lib/convert.py:56-70  raw_to_central *)
Definition raw_to_central (nmax : nat) (raw : arr) : arr :=
  getq raw 0 :: getq raw 1 :: map (r2c_entry nmax raw) (seq 2 (length raw - 2)).

(* _lib/convert_cov.py:44-62  inner and outer loop of entry (n, m) *)
Definition cc2r_step1 (nmax : nat) (central : arr2) (n m i : nat) (ave_i : Qc) (v : Qc * Qc) (j : nat) : Qc * Qc :=
  let (tmp, ave_j) := v in
  let nm_ij := (n + m - (i + j))%nat in
  let tmp :=
    match nm_ij with
    | O => tmp + ave_i * ave_j
    | S O => tmp
    | _ => tmp + get2 central (n - i) (m - j) * ave_i * ave_j * BF nmax n i * BF nmax m j
    end in
  (tmp, ave_j * get2 central 0 1).
(* _lib/convert_cov.py:44-62, the loop over i *)
Definition cc2r_step0 (nmax : nat) (central : arr2) (n m : nat) (v : Qc * Qc) (i : nat) : Qc * Qc :=
  let (tmp, ave_i) := v in
  let (tmp, _) := fold_left (cc2r_step1 nmax central n m i ave_i) (seq 0 (m + 1)) (tmp, 1) in
  (tmp, ave_i * get2 central 1 0).
(* _lib/convert_cov.py:38-62, one entry of raw *)
Definition cc2r_entry (nmax : nat) (central : arr2) (n m : nat) : Qc :=
  if Nat.leb (n + m) 1 then get2 central n m
  else fst (fold_left (cc2r_step0 nmax central n m) (seq 0 (n + 1)) (0, 1)).
(* _lib/convert_cov.py:31-63  central_to_raw for two variables *)
Definition central_to_raw2 (nmax : nat) (central : arr2) : arr2 :=
  map (fun n => map (fun m => cc2r_entry nmax central n m) (seq 0 (length (nth 0 central []))))
      (seq 0 (length central)).

(* _lib/convert_cov.py:87-103 *)
Definition rr2c_step1 (nmax : nat) (raw : arr2) (n m i : nat) (ave_i : Qc) (v : Qc * Qc) (j : nat) : Qc * Qc :=
  let (tmp, ave_j) := v in
  let nm_ij := (n + m - (i + j))%nat in
  let tmp :=
    match nm_ij with
    | O => tmp + ave_i * ave_j
    | _ => tmp + get2 raw (n - i) (m - j) * ave_i * ave_j * BF nmax n i * BF nmax m j
    end in
  (tmp, ave_j * (- get2 raw 0 1)).
(* _lib/convert_cov.py:87-103, the loop over i *)
Definition rr2c_step0 (nmax : nat) (raw : arr2) (n m : nat) (v : Qc * Qc) (i : nat) : Qc * Qc :=
  let (tmp, ave_i) := v in
  let (tmp, _) := fold_left (rr2c_step1 nmax raw n m i ave_i) (seq 0 (m + 1)) (tmp, 1) in
  (tmp, ave_i * (- get2 raw 1 0)).
(* _lib/convert_cov.py:81-103, one entry of central *)
Definition rr2c_entry (nmax : nat) (raw : arr2) (n m : nat) : Qc :=
  if Nat.leb (n + m) 1 then get2 raw n m
  else fst (fold_left (rr2c_step0 nmax raw n m) (seq 0 (n + 1)) (0, 1)).
(* _lib/convert_cov.py:74-103  raw_to_central for two variables *)
Definition raw_to_central2 (nmax : nat) (raw : arr2) : arr2 :=
  map (fun n => map (fun m => rr2c_entry nmax raw n m) (seq 0 (length (nth 0 raw []))))
      (seq 0 (length raw)).

(* convert.py:548-567  _validate_mom_moments_to_comoments; mom is the sequence
   of integers passed by the caller *)
Definition validate_mom_moments_to_comoments (mom : list Z) (mom_orig : Z) : res (Z * Z) :=
  match mom with
  | [m0; m1] =>
      let out := if (m0 <? 0)%Z then ((mom_orig - m1)%Z, m1)
                 else if (m1 <? 0)%Z then (m0, (mom_orig - m0)%Z)
                 else (m0, m1) in
      if ((fst out <? 1)%Z || (snd out <? 1)%Z || (mom_orig <? fst out + snd out)%Z)%bool
      then Raise EValue else Ok out
  | _ => Raise EValue
  end.

(* convert.py:740-752  moments_to_comoments: out[i, j] = data[i + j] *)
Definition moments_to_comoments (mom : list Z) (data : arr) : res arr2 :=
  rbind (validate_mom_moments_to_comoments mom (Z.of_nat (length data) - 1))
  (fun out => Ok (map (fun i => map (fun j => getq data (i + j)) (seq 0 (Z.to_nat (snd out) + 1)))
                      (seq 0 (Z.to_nat (fst out) + 1)))).

(* convert.py:886-898  comoments_to_moments: entries visited in row-major
   order, the first entry with i + j = k is kept.  out starts uninitialised
   (np.empty); every position is written when the input has a row and a column. *)
Definition ctm_step (data : arr2) (st : arr * list bool) (ij : nat * nat) : arr * list bool :=
  let (out, sampled) := st in
  let k := (fst ij + snd ij)%nat in
  if nth k sampled false then st
  else (upd out k (get2 data (fst ij) (snd ij)), upd sampled k true).
(* convert.py:787-897 *)
Definition comoments_to_moments (junk : Qc) (data : arr2) : arr :=
  let nrow := length data in
  let ncol := length (nth 0 data []) in
  let new_mom_len := (nrow + ncol - 1)%nat in
  fst (fold_left (ctm_step data)
         (flat_map (fun i => map (fun j => (i, j)) (seq 0 ncol)) (seq 0 nrow))
         (repeat junk new_mom_len, repeat false (new_mom_len + 1))).
