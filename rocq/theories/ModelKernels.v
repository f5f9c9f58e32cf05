(* Model of the kernels built on the push operations.  The source has each of
   these loops twice, once for one variable (push.py, resample.py, indexed.py,
   _rolling.py) and once for two (push_cov.py, resample_cov.py, indexed_cov.py,
   _rolling_cov.py); the texts are identical up to the array rank, so the model
   is written once over the record of primitive operations they call, and
   instantiated twice ([pusher1], [pusher2]).  *_parallel.py contain the same
   text with the compilation target "parallel". *)
From Verif Require Import Base ModelPush ModelPushCov.
Local Open Scope Qc_scope.

(* the names imported as _push in the kernel files, plus reading and writing
   the weight entry (out[0] or out[0, 0]) and the zero array of the right shape
   [_lib/push.py:18-20, _lib/resample.py:17-20, _lib/indexed.py, _lib/_rolling.py: import of _push or _push_cov] *)
Record pusher (A V : Type) := Pusher {
  p_zero : A;                                       (* np.zeros(mom_shape) *)
  p_wt : A -> Qc;                                   (* a[0] / a[0, 0] *)
  p_setwt : Qc -> A -> A;                           (* a[0] = v / a[0, 0] = v *)
  p_push_data : A -> A -> option A;                 (* push_data(data, out) *)
  p_push_data_scale : A -> Qc -> A -> option A;     (* push_data_scale(data, scale, out) *)
  p_push_val : V -> Qc -> A -> option A             (* push_val(x, w, out) *)
}.
Arguments p_zero {A V}. Arguments p_wt {A V}. Arguments p_setwt {A V}.
Arguments p_push_data {A V}. Arguments p_push_data_scale {A V}. Arguments p_push_val {A V}.

(* one variable of order n, binomial table of size nmax
   [_lib/_push.py] *)
Definition pusher1 (nmax n : nat) : pusher arr Qc :=
  Pusher arr Qc (zeros1 (S n)) (fun a => getq a 0) (fun v a => upd a 0 v)
         (push_data nmax) (push_data_scale nmax) (push_val nmax).

(* two variables of orders n0, n1
   [_lib/_push_cov.py] *)
Definition pusher2 (nmax n0 n1 : nat) : pusher arr2 (Qc * Qc) :=
  Pusher arr2 (Qc * Qc) (zeros2 (S n0) (S n1)) (fun a => get2 a 0 0) (fun v a => upd2 a 0 0 v)
         (cpush_data nmax) (cpush_data_scale nmax) (cpush_val nmax).

Section Kernels.
  Context {A V : Type} (K : pusher A V).

  (* _lib/push.py:45-51 reduce_vals: push every (x, w) into out *)
  Definition reduce_vals_into (xw : list (V * Qc)) (out : A) : option A :=
    foldM (fun o s => p_push_val K (fst s) (snd s) o) xw out.

  (* reduction.py:283-330 _reduce_vals: out.fill(0.0), then the kernel *)
  Definition reduce_vals (xw : list (V * Qc)) : option A := reduce_vals_into xw (p_zero K).

  (* _lib/push.py:72-74 reduce_data: push every row into out *)
  Definition reduce_data_into (data : list A) (out : A) : option A :=
    foldM (fun o d => p_push_data K d o) data out.

  (* _lib/push.py:96-102 reduce_data_fromzero *)
  Definition reduce_data (data : list A) : option A := reduce_data_into data (p_zero K).

  (* _lib/push.py:113-119 cumulative: out = data, then row i-1 is pushed into row i *)
  Fixpoint cumulative_from (prev : A) (rest : list A) : option (list A) :=
    match rest with
    | [] => Some []
    | d :: t => obind (p_push_data K prev d) (fun o =>
                obind (cumulative_from o t) (fun r => Some (o :: r)))
    end.
  (* _lib/push.py:113-119 *)
  Definition cumulative (data : list A) : option (list A) :=
    match data with
    | [] => Some []
    | d :: t => obind (cumulative_from d t) (fun r => Some (d :: r))
    end.

  (* _lib/push.py:130-136 cumulative_inverse: out = data, then data[i-1] (not the
     updated row) is removed from row i *)
  Fixpoint cumulative_inverse_from (prev : A) (rest : list A) : option (list A) :=
    match rest with
    | [] => Some []
    | d :: t => obind (p_push_data_scale K prev (-(1)) d) (fun o =>
                obind (cumulative_inverse_from d t) (fun r => Some (o :: r)))
    end.
  (* _lib/push.py:130-136 *)
  Definition cumulative_inverse (data : list A) : option (list A) :=
    match data with
    | [] => Some []
    | d :: t => obind (cumulative_inverse_from d t) (fun r => Some (d :: r))
    end.

  (* _lib/resample.py:66-79 one replicate: skip to the first nonzero frequency,
     copy that row and multiply its weight, push the rest scaled *)
  Fixpoint resample_row (fd : list (Qc * A)) : option A :=
    match fd with
    | [] => Some (p_zero K)
    | (f, d) :: t =>
        if qeqb f 0 then resample_row t
        else foldM (fun o (s : Qc * A) =>
                      let (f', d') := s in
                      if qeqb f' 0 then Some o else p_push_data_scale K d' f' o)
                   t (p_setwt K (p_wt K d * f) d)
    end.
  (* _lib/resample.py:58-79 resample_data_fromzero; the gufunc signature makes every
     row of freq as long as data *)
  Definition resample_data (freq : list (list Qc)) (data : list A) : option (list A) :=
    mapM (fun row => resample_row (combine row data)) freq.

  (* _lib/resample.py:100-111 resample_vals for one replicate, out filled with zeros
     by resample/resample.py:_resample_vals *)
  Definition resample_vals_row (fx : list (Qc * (V * Qc))) : option A :=
    foldM (fun o (s : Qc * (V * Qc)) =>
             let '(f, (x, w)) := s in
             if qeqb f 0 then Some o else p_push_val K x (w * f) o)
          fx (p_zero K).
  (* _lib/resample.py:100-111, all replicates *)
  Definition resample_vals (freq : list (list Qc)) (xw : list (V * Qc)) : option (list A) :=
    mapM (fun row => resample_vals_row (combine row xw)) freq.

  (* _lib/resample.py:126-136 jackknife_data_fromzero *)
  Definition jackknife_data_from (data_reduced : A) (data : list A) : option (list A) :=
    mapM (fun d => p_push_data_scale K d (-(1)) data_reduced) data.
  (* resample/resample.py:jackknife_data with data_reduced=None: reduce first
     [resample/resample.py:870-950] *)
  Definition jackknife_data (data : list A) : option (list A) :=
    obind (reduce_data data) (fun r => jackknife_data_from r data).

  (* _lib/resample.py:147-157 jackknife_vals_fromzero *)
  Definition jackknife_vals_from (data_reduced : A) (xw : list (V * Qc)) : option (list A) :=
    mapM (fun s => p_push_val K (fst s) (- snd s) data_reduced) xw.
  (* resample/resample.py:1158-1245 *)
  Definition jackknife_vals (xw : list (V * Qc)) : option (list A) :=
    obind (reduce_vals xw) (fun r => jackknife_vals_from r xw).

  (* _lib/indexed.py:38-47 reduce_data_grouped into out (a list of group rows);
     group codes are integers, negative codes are skipped *)
  Definition grouped_step (out : list A) (s : Z * A) : option (list A) :=
    let (g, d) := s in
    if (0 <=? g)%Z
    then obind (p_push_data K d (nth (Z.to_nat g) out (p_zero K)))
               (fun r => Some (upd out (Z.to_nat g) r))
    else Some out.
  (* _lib/indexed.py:38-47, the loop *)
  Definition reduce_data_grouped_into (gd : list (Z * A)) (out : list A) : option (list A) :=
    foldM grouped_step gd out.
  (* reduction.py:1051-1098 _reduce_data_grouped with out=None: by must be as
     long as data; out has by.max()+1 rows (an error when by is empty or the
     maximum is below -1), filled with zeros. *)
  Definition reduce_data_grouped (by_ : list Z) (data : list A) : res (list A) :=
    if negb (Nat.eqb (length by_) (length data)) then Raise EValue
    else match by_ with
    | [] => Raise EValue
    | b :: t =>
        let m := fold_left Z.max t b in
        if (m + 1 <? 0)%Z then Raise EValue
        else of_opt EZeroDiv
               (reduce_data_grouped_into (combine by_ data) (repeat (p_zero K) (Z.to_nat (m + 1))))
    end.

  (* _lib/_rolling.py:29-72 rolling_data.  State: (dummy_mom, count, rows written so
     far); a row is None when filled with nan. *)
  Definition rstate := (A * Z * list (option A))%type.
  (* _lib/_rolling.py:41-45, 68-72 *)
  Definition emit (min_count : Z) (dummy : A) (count : Z) (rows : list (option A)) : rstate :=
    (dummy, count, rows ++ [if (min_count <=? count)%Z then Some dummy else None]).

  (* _lib/_rolling.py:36-45 *)
  Definition roll_grow (min_count : Z) (data : list A) (st : rstate) (i : nat) : option rstate :=
    let '(dummy, count, rows) := st in
    let d := nth i data (p_zero K) in
    if qeqb (p_wt K d) 0 then Some (emit min_count dummy count rows)
    else obind (p_push_data K d dummy) (fun dummy => Some (emit min_count dummy (count + 1) rows)).

  (* _lib/_rolling.py:47-72 *)
  Definition roll_slide (window : nat) (min_count : Z) (data : list A) (st : rstate) (i : nat) : option rstate :=
    let '(dummy, count, rows) := st in
    let d := nth i data (p_zero K) in
    let dold := nth (i - window) data (p_zero K) in
    obind (if qeqb (p_wt K d) 0 then Some (dummy, count)
           else obind (p_push_data K d dummy) (fun dummy => Some (dummy, (count + 1)%Z)))
    (fun '(dummy, count) =>
    obind (if qeqb (p_wt K dold) 0 then Some (dummy, count)
           else if qltb (p_wt K dold) (p_wt K dummy)
                then obind (p_push_data_scale K dold (-(1)) dummy) (fun dummy => Some (dummy, (count - 1)%Z))
                else Some (p_zero K, (count - 1)%Z))
    (fun '(dummy, count) => Some (emit min_count dummy count rows))).

  (* _lib/_rolling.py:22-72 *)
  Definition rolling_data_core (window : nat) (min_count : Z) (data : list A) : option (list (option A)) :=
    let nsamp := length data in
    obind (foldM (roll_grow min_count data) (seq 0 (Nat.min window nsamp)) (p_zero K, 0%Z, []))
    (fun st => obind (foldM (roll_slide window min_count data) (seq window (nsamp - window)) st)
    (fun '(_, _, rows) => Some rows)).

  (* _lib/rolling.py:39-46 min_count = max(min_count, 1) *)
  Definition rolling_data (window : nat) (min_count : Z) (data : list A) : option (list (option A)) :=
    rolling_data_core window (Z.max min_count 1) data.

  (* _lib/_rolling.py:94-141 rolling_vals *)
  Definition rollv_grow (dflt : V * Qc) (min_count : Z) (xw : list (V * Qc)) (st : rstate) (i : nat) : option rstate :=
    let '(dummy, count, rows) := st in
    let (x, w) := nth i xw dflt in
    if qeqb w 0 then Some (emit min_count dummy count rows)
    else obind (p_push_val K x w dummy) (fun dummy => Some (emit min_count dummy (count + 1) rows)).
  (* _lib/_rolling.py:113-141 *)
  Definition rollv_slide (dflt : V * Qc) (window : nat) (min_count : Z) (xw : list (V * Qc)) (st : rstate) (i : nat) : option rstate :=
    let '(dummy, count, rows) := st in
    let (x, w) := nth i xw dflt in
    let (xold, wold) := nth (i - window) xw dflt in
    obind (if qeqb w 0 then Some (dummy, count)
           else obind (p_push_val K x w dummy) (fun dummy => Some (dummy, (count + 1)%Z)))
    (fun '(dummy, count) =>
    obind (if qeqb wold 0 then Some (dummy, count)
           else if qltb wold (p_wt K dummy)
                then obind (p_push_val K xold (- wold) dummy) (fun dummy => Some (dummy, (count - 1)%Z))
                else Some (p_zero K, (count - 1)%Z))
    (fun '(dummy, count) => Some (emit min_count dummy count rows))).
  (* the default value is only for the totality of nth: all reads are in range
     [_lib/_rolling.py:75-141] *)
  Definition rolling_vals_core (dflt : V * Qc) (window : nat) (min_count : Z) (xw : list (V * Qc)) : option (list (option A)) :=
    let nsamp := length xw in
    obind (foldM (rollv_grow dflt min_count xw) (seq 0 (Nat.min window nsamp)) (p_zero K, 0%Z, []))
    (fun st => obind (foldM (rollv_slide dflt window min_count xw) (seq window (nsamp - window)) st)
    (fun '(_, _, rows) => Some rows)).
  (* _lib/rolling.py:68-77 *)
  Definition rolling_vals (dflt : V * Qc) (window : nat) (min_count : Z) (xw : list (V * Qc)) : option (list (option A)) :=
    rolling_vals_core dflt window (Z.max min_count 1) xw.

  (* _lib/_rolling.py:163-199 rolling_exp_data; state (dummy_mom, count, old_weight,
     rows).  A zero old_weight in line 193 is [None]: a ZeroDivisionError, as for
     every other division by zero in compiled code (error_model='python'). *)
  Definition estate := (A * Z * Qc * list (option A))%type.
  (* _lib/_rolling.py:163-199, one sample *)
  Definition rexp_step (adjust : bool) (min_count : Z) (st : estate) (ad : Qc * A) : option estate :=
    let '(dummy, count, old_weight, rows) := st in
    let '(alphai, d) := ad in
    let decay := 1 - alphai in
    let old_weight := old_weight * decay in
    let dummy := p_setwt K (p_wt K dummy * decay) dummy in
    obind
      (if qeqb (p_wt K d) 0 then Some (dummy, count, old_weight)
       else
         let scale := if adjust then 1 else alphai in
         obind (p_push_data_scale K d scale dummy) (fun dummy =>
         if adjust then Some (dummy, (count + 1)%Z, old_weight)
         else
           let old_weight := old_weight + alphai in
           if qeqb old_weight 0 then None
           else Some (p_setwt K (p_wt K dummy / old_weight) dummy, (count + 1)%Z, 1)))
      (fun '(dummy, count, old_weight) =>
         Some (dummy, count, old_weight,
               rows ++ [if (min_count <=? count)%Z then Some dummy else None])).
  (* _lib/_rolling.py:144-199 and _lib/rolling.py:100-109 *)
  Definition rolling_exp_data (adjust : bool) (min_count : Z) (ad : list (Qc * A)) : option (list (option A)) :=
    obind (foldM (rexp_step adjust (Z.max min_count 1)) ad (p_zero K, 0%Z, 0, []))
          (fun '(_, _, _, rows) => Some rows).

  (* _lib/_rolling.py:223-261 rolling_exp_vals *)
  Definition rexpv_step (adjust : bool) (min_count : Z) (st : estate) (ad : Qc * (V * Qc)) : option estate :=
    let '(dummy, count, old_weight, rows) := st in
    let '(alphai, (x, wi)) := ad in
    let decay := 1 - alphai in
    let old_weight := old_weight * decay in
    let dummy := p_setwt K (p_wt K dummy * decay) dummy in
    obind
      (if qeqb wi 0 then Some (dummy, count, old_weight)
       else
         let scale := if adjust then wi else wi * alphai in
         obind (p_push_val K x scale dummy) (fun dummy =>
         if adjust then Some (dummy, (count + 1)%Z, old_weight)
         else
           let old_weight := old_weight + alphai in
           if qeqb old_weight 0 then None
           else Some (p_setwt K (p_wt K dummy / old_weight) dummy, (count + 1)%Z, 1)))
      (fun '(dummy, count, old_weight) =>
         Some (dummy, count, old_weight,
               rows ++ [if (min_count <=? count)%Z then Some dummy else None])).
  (* _lib/_rolling.py:202-261 and _lib/rolling.py:133-145 *)
  Definition rolling_exp_vals (adjust : bool) (min_count : Z) (ad : list (Qc * (V * Qc))) : option (list (option A)) :=
    obind (foldM (rexpv_step adjust (Z.max min_count 1)) ad (p_zero K, 0%Z, 0, []))
          (fun '(_, _, _, rows) => Some rows).

End Kernels.

(* _lib/rolling.py:166-205 rolling_exp_var_bias_correction (exists once).  State
   (sum_weight, sum_weight_2, old_weight, rows); None inside a row is nan. *)
Definition vbias_step (adjust : bool) (st : Qc * Qc * Qc * list (option Qc)) (wa : Qc * Qc)
  : option (Qc * Qc * Qc * list (option Qc)) :=
  let '(s1, s2, old, rows) := st in
  let '(wi, alphai) := wa in
  let decay := 1 - alphai in
  let s1 := s1 * decay in
  let s2 := s2 * (decay * decay) in
  let old := old * decay in
  obind
    (if qeqb wi 0 then Some (s1, s2, old)
     else
       let nw := if adjust then 1 else alphai in
       let s1 := s1 + wi * nw in
       let s2 := s2 + wi * (nw ^ 2) in
       if adjust then Some (s1, s2, old)
       else
         let old := old + nw in
         if qeqb old 0 then None
         else Some (s1 / old, s2 / (old ^ 2), 1))
    (fun '(s1, s2, old) =>
       let num := s1 * s1 in
       let den := num - s2 in
       Some (s1, s2, old, rows ++ [if qltb 0 den then Some (num / den) else None])).
(* _lib/rolling.py:166-205 *)
Definition rolling_exp_var_bias_correction (adjust : bool) (wa : list (Qc * Qc)) : option (list (option Qc)) :=
  obind (foldM (vbias_step adjust) wa (0, 0, 0, [])) (fun '(_, _, _, rows) => Some rows).
