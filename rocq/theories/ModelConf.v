(* Model of confidence_interval.py and core/prob.py: bootstrap confidence intervals
   of one column of resampled values (the code runs column by column:
   np.quantile(axis=...), _quantile_along_axis).  Floating point numbers are exact
   rationals together with inf, -inf and nan where the code produces them. *)
From Coq Require Import String Ascii Qround.
From Verif Require Import Base ModelIndex.
Local Open Scope Qc_scope.

(* a <= b, np.quantile as called at confidence_interval.py:354-384 *)
Definition qleb (a b : Qc) : bool := negb (qltb b a).
(* the constant 0.5 of numpy _lerp, np.quantile as called at confidence_interval.py:354-384 *)
Definition half : Qc := 1 / qn 2.

(* ---- np.quantile, method "linear" ------------------------------------------------ *)

(* sorted[i], the last element beyond the end (numpy _get_indexes takes -1 above
   bounds)
   [np.quantile as called at confidence_interval.py:354-384] *)
Definition pick (s : list Qc) (i : nat) : Qc := nth (Nat.min i (List.length s - 1)) s 0.
(* numpy _lerp
   [np.quantile as called at confidence_interval.py:354-384] *)
Definition lerp (a b t : Qc) : Qc :=
  if qleb half t then b - (b - a) * (1 - t) else a + (b - a) * t.
(* virtual index (n - 1) * q between its floor and the next one
   [np.quantile as called at confidence_interval.py:354-384, method linear] *)
Definition quantile_sorted (s : list Qc) (q : Qc) : Qc :=
  let h := qn (List.length s - 1) * q in
  let k := Z.to_nat (Qfloor (this h)) in
  lerp (pick s k) (pick s (S k)) (h - qn k).
(* np.quantile(x, q) for one q: ValueError unless 0 <= q <= 1, IndexError for an
   empty array
   [called at confidence_interval.py:354-384] *)
Definition quantile (x : list Qc) (q : Qc) : res Qc :=
  if qltb q 0 || qltb 1 q then Raise EValue
  else match x with
       | [] => Raise EIndex
       | _ => Ok (quantile_sorted (sort_by qleb x) q)
       end.

(* ---- floating point values -------------------------------------------------------- *)

(* np.float64 of the levels, confidence_interval.py:292-306 and core/prob.py:19-73 *)
Inductive num := Fin (q : Qc) | PInf | NInf | NaN.
(* float64 arithmetic of confidence_interval.py:292-306 *)
Definition nneg (x : num) : num :=
  match x with Fin q => Fin (- q) | PInf => NInf | NInf => PInf | NaN => NaN end.
(* float64 arithmetic of confidence_interval.py:292-306 *)
Definition nadd (x y : num) : num :=
  match x, y with
  | Fin a, Fin b => Fin (a + b)
  | NaN, _ | _, NaN => NaN
  | PInf, NInf | NInf, PInf => NaN
  | PInf, _ | _, PInf => PInf
  | NInf, _ | _, NInf => NInf
  end.
(* infinity with the sign of q (nan for 0 * inf)
   [float64 arithmetic of confidence_interval.py:292-306] *)
Definition inf_of (q : Qc) : num := if qeqb q 0 then NaN else if qltb 0 q then PInf else NInf.
(* float64 arithmetic of confidence_interval.py:292-306 *)
Definition nmul (x y : num) : num :=
  match x, y with
  | Fin a, Fin b => Fin (a * b)
  | NaN, _ | _, NaN => NaN
  | PInf, PInf | NInf, NInf => PInf
  | PInf, NInf | NInf, PInf => NInf
  | Fin a, PInf | PInf, Fin a => inf_of a
  | Fin a, NInf | NInf, Fin a => nneg (inf_of a)
  end.
(* numpy division; a zero divisor counts as +0
   [float64 arithmetic of confidence_interval.py:292-306] *)
Definition ndiv (x y : num) : num :=
  match x, y with
  | NaN, _ | _, NaN => NaN
  | Fin a, Fin b => if qeqb b 0 then inf_of a else Fin (a / b)
  | Fin _, _ => Fin 0
  | PInf, Fin b => if qltb b 0 then NInf else PInf
  | NInf, Fin b => if qltb b 0 then PInf else NInf
  | _, _ => NaN
  end.

(* ---- prob.py ------------------------------------------------------------------------ *)

(* decimal number z / 10^e, for the literals of core/prob.py:42-69 *)
Definition dec (z : Z) (e : nat) : Qc := qz z / qz (10 ^ Z.of_nat e).
Section Prob.
  (* sqrt(-2 log p) of the tails, and whatever memory np.empty_like hands out *)
  Context (root : Qc -> Qc) (junk : num).
  (* prob.py:42-48, 63-69 rational function of the tails *)
  Definition tail (o : Qc) : Qc :=
    (((((dec (-7784894002430293) 18 * o - dec 3223964580411365 16) * o
        - dec 2400758277161838 15) * o - dec 2549732539343734 15) * o
        + dec 4374664141464968 15) * o + dec 2938163982698783 15)
    / ((((dec 7784695709041462 18 * o + dec 3224671290700398 16) * o
        + dec 2445134137142996 15) * o + dec 3754408661907416 15) * o + 1).
  (* prob.py:50-58 *)
  Definition central (o : Qc) : Qc :=
    let sq := o * o in
    (((((dec (-3969683028665376) 14 * sq + dec 2209460984245205 13) * sq
        - dec 2759285104469687 13) * sq + dec 1383577518672690 13) * sq
        - dec 3066479806614716 14) * sq + dec 2506628277459239 15) * o
    / (((((dec (-5447609879822406) 14 * sq + dec 1615858368580409 13) * sq
        - dec 1556989798598866 13) * sq + dec 6680131188771972 14) * sq
        - dec 1328068155288572 14) * sq + 1).
  (* prob.py:36-73 ndtri(p), one entry: the masks are tried on every entry, an entry
     no mask selects keeps the value of np.empty_like *)
  Definition ndtri (p : Qc) : num :=
    let out := junk in
    let out := if qltb p (dec 2425 5) && qltb 0 p then Fin (tail (root p)) else out in
    let out := if qleb (dec 2425 5) p && qleb p (dec 97575 5) then Fin (central (p - dec 5 1)) else out in
    let out := if qltb (dec 97575 5) p && qltb p 1 then Fin (- tail (root (1 - p))) else out in
    let out := if qeqb p 0 then NInf else out in
    if qeqb p 1 then PInf else out.
End Prob.

(* ---- confidence_interval.py ----------------------------------------------------------- *)

(* confidence_interval.py:337-341 _percentile_of_score *)
Definition percentile_of_score (a : list Qc) (score : Qc) : Qc :=
  (qn (List.length (filter (fun x => qltb x score) a)) + qn (List.length (filter (fun x => qleb x score) a)))
  / (qn 2 * qn (List.length a)).

(* confidence_interval.py:199-202 alphas from alpha: a number or a list of numbers *)
Inductive alpha_arg := Level (alpha : Qc) | Levels (alphas : list Qc).
(* confidence_interval.py:199-202 *)
Definition alphas_of (a : alpha_arg) : list Qc :=
  match a with Level x => [x * dec 5 1; 1 - x * dec 5 1] | Levels l => l end.

Section Interval.
  (* den ** 1.5, ndtr and ndtri of core/prob.py *)
  Context (pow15 : Qc -> Qc) (ndtr_fin : Qc -> Qc) (ndtri_ : Qc -> num).

  (* prob.py:19-25: erf of the infinities is +-1 *)
  Definition ndtr (x : num) : num :=
    match x with Fin q => Fin (ndtr_fin q) | PInf => Fin 1 | NInf => Fin 0 | NaN => NaN end.

  (* confidence_interval.py:327-334 _compute_a *)
  Definition mean (x : list Qc) : Qc := suml (fun t => t) x / qn (List.length x).
  (* confidence_interval.py:327-334 *)
  Definition compute_a (jack : list Qc) : num :=
    let delta := map (fun t => mean jack - t) jack in
    let n := suml (fun d => d * d * d) delta in
    let d := suml (fun d => d * d) delta in
    ndiv (Fin n) (Fin (qn 6 * pow15 d)).

  (* confidence_interval.py:344-350 _compute_z0 *)
  Definition compute_z0 (hat : Qc) (boot : list Qc) : num := ndtri_ (percentile_of_score boot hat).

  (* confidence_interval.py:303-306 avals for one alpha *)
  Definition bca_level (a z0 : num) (alpha : Qc) : num :=
    let zs := nadd z0 (ndtri_ alpha) in
    ndtr (nadd z0 (ndiv zs (nadd (Fin 1) (nneg (nmul a zs))))).
  (* np.isnan at confidence_interval.py:354-384 *)
  Definition is_nan (x : num) : bool := match x with NaN => true | _ => false end.

  (* confidence_interval.py:354-384 _quantile_along_axis for one column: nan for the column if one level is
     nan, otherwise np.quantile (levels beyond [0, 1] raise) *)
  Definition quantile_num (boot : list Qc) (level : num) : res num :=
    match level with
    | Fin q => match quantile boot q with Ok v => Ok (Fin v) | Raise e => Raise e end
    | _ => Raise EValue
    end.
  (* confidence_interval.py:354-384, all levels *)
  Definition quantile_along_axis (boot : list Qc) (levels : list num) : res (list num) :=
    if existsb is_nan levels then Ok (map (fun _ => NaN) levels)
    else mapR (quantile_num boot) levels.

  (* str.lower on ASCII
     [method.lower() at confidence_interval.py:283-285] *)
  Definition lower_char (c : ascii) : ascii :=
    let n := nat_of_ascii c in
    if Nat.leb 65 n && Nat.leb n 90 then ascii_of_nat (n + 32) else c.
  (* method.lower() at confidence_interval.py:283-285 *)
  Fixpoint lower (s : string) : string :=
    match s with EmptyString => EmptyString | String c t => String (lower_char c) (lower t) end.

  (* confidence_interval.py:273-314 _bootstrap_confidence_interval.  theta_jack is needed for bca only; None
     makes np.asarray(None, dtype) a scalar nan whose mean(axis=...) raises AxisError
     (a ValueError). *)
  Definition interval (boot : list Qc) (hat : option Qc) (jack : option (list Qc))
      (alphas : list Qc) (method : string) : res (list num) :=
    let method_ := lower method in
    let needs_hat := String.eqb method_ "basic" || String.eqb method_ "bca" in
    match (if needs_hat then match hat with None => Raise EValue | Some h => Ok h end else Ok 0) with
    | Raise e => Raise e
    | Ok h =>
        if String.eqb method_ "bca" then
          match jack with
          | None => Raise EValue
          | Some j =>
              let a := compute_a j in
              let z0 := compute_z0 h boot in
              quantile_along_axis boot (map (bca_level a z0) alphas)
          end
        else
          match mapR (quantile boot) alphas with
          | Raise e => Raise e
          | Ok ci =>
              Ok (map Fin (if String.eqb method_ "basic" then map (fun c => qn 2 * h - c) (rev ci) else ci))
          end
    end.
  (* confidence_interval.py:198-202, 258-270 bootstrap_confidence_interval on numpy arrays *)
  Definition bootstrap_confidence_interval (boot : list Qc) (hat : option Qc) (jack : option (list Qc))
      (alpha : alpha_arg) (method : string) : res (list num) :=
    interval boot hat jack (alphas_of alpha) method.
  (* confidence_interval.py:204-256 the xarray branch: theta_hat and theta_jack are passed on only for the
     exact names "basic" and "bca", TypeError unless they are xarray objects (which
     here means Some: what is not an xarray object is None) *)
  Definition bootstrap_confidence_interval_xarray (boot : list Qc) (hat : option Qc) (jack : option (list Qc))
      (alpha : alpha_arg) (method : string) : res (list num) :=
    let basic := String.eqb method "basic" in
    let bca := String.eqb method "bca" in
    if (basic || bca) && match hat with None => true | _ => false end then Raise EType
    else if bca && match jack with None => true | _ => false end then Raise EType
    else interval boot (if basic || bca then hat else None) (if bca then jack else None) (alphas_of alpha) method.
End Interval.
