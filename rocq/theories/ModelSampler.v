(* Model of resample/sampler.py: IndexSampler with its lazily computed
   attributes, factory_sampler, random_indices, random_freq, select_ndat.

   Random numbers: Generator.choice and Generator.shuffle are parameters which
   depend on the stream and its position only (ModelState.draw); every call
   draws once.  Tables carry their number of columns so that tables without
   rows have a shape.  A Dataset of tables is the list of its variables. *)
From Coq Require Import String.
From Verif Require Import Base ModelIndex ModelAxes ModelState ModelParams.

(* computations with the random state
   [functions of resample/sampler.py that draw random numbers] *)
Definition rnd (T : Type) := rstate -> rstate * res T.
(* a value, no draw, as resample/sampler.py:80-111 *)
Definition ret {T} (x : res T) : rnd T := fun st => (st, x).
(* one statement after another, as resample/sampler.py:495-520 *)
Definition sbind {S T} (x : rnd S) (f : S -> rnd T) : rnd T :=
  fun st => match x st with (st1, Ok s) => f s st1 | (st1, Raise e) => (st1, Raise e) end.
(* a loop, one after the other, resample/sampler.py:586-603 *)
Fixpoint mapS {S T} (f : S -> rnd T) (l : list S) : rnd (list T) :=
  match l with
  | [] => ret (Ok [])
  | a :: t => sbind (f a) (fun b => sbind (mapS f t) (fun r => ret (Ok (b :: r))))
  end.

(* arrays of indices or freq, resample/sampler.py:58-111 *)
Record table := Tab { t_cols : nat; t_rows : list (list Z) }.
(* ndarray or DataArray, or Dataset
   [resample/sampler.py:58-111] *)
Inductive tables := One (t : table) | Many (l : list table).
(* resample/sampler.py:132-142 *)
Definition first_table (t : tables) : res table :=
  match t with One t => Ok t | Many (t :: _) => Ok t | Many [] => Raise EValue end.

(* resample/sampler.py:58-101 *)
Record sampler := Sampler {
  s_indices : option tables;
  s_freq : option tables;
  s_ndat : option nat;
  s_shuffle : bool;
  s_rng : seedarg;
  s_labelled : bool }.

(* arguments of factory_sampler that a mapping may contain as well; None is "not given",
   with defaults paired=True, replace=True, shuffle=False, rng=None
   [resample/sampler.py:328-350] *)
Record fargs := FArgs {
  f_freq : option tables; f_indices : option tables; f_nrep : option Z; f_ndat : option nat;
  f_nsamp : option Z; f_paired : option bool; f_rng : option seedarg; f_replace : option bool; f_shuffle : option bool }.
(* default values, resample/sampler.py:328-350 *)
Definition dflt {T} (d : T) (x : option T) : T := match x with Some v => v | None => d end.
(* resample/sampler.py:328-350 *)
Definition no_args : fargs := FArgs None None None None None None None None None.
(* data argument: result of select_ndat on it; an array, a DataArray, or a Dataset with, for
   every variable, whether it has the reduced and the moment dimensions
   [resample/sampler.py:235-325] *)
Inductive data_kind := KArray | KDataArray | KDataset (vars : list bool).
(* resample/sampler.py:235-325 *)
Record data_arg := Data { da_ndat : res nat; da_kind : data_kind }.
(* resample/sampler.py:400-490 *)
Inductive sampler_arg := SANone | SAObj (s : sampler) | SATable (t : tables) (labelled : bool) | SAInt (n : Z) | SAMap (m : fargs).

Section Sampler.
  (* uninitialised memory; values of choice(ndat, (nrep, nsamp), replace) and of the order
     used by shuffle, for a stream and position *)
  Variable junk : Z.
  Variable choice : source * nat -> bool -> Z -> nat -> nat -> list (list Z).
  Variable shuffled : source * nat -> nat -> list nat.

  (* random numbers of a generator, used at resample/sampler.py:512-520 *)
  Definition drawn (g : nat) : rnd (source * nat) :=
    fun st => let (st1, d) := draw g st in (st1, match d with Some x => Ok x | None => Raise EType end).

  (* numpy Generator.choice(ndat, size=(nrep, nsamp), replace)
     [called at resample/sampler.py:512-520] *)
  Definition np_choice (g : nat) (ndat nrep nsamp : Z) (replace : bool) : rnd table :=
    if ((nrep <? 0)%Z || (nsamp <? 0)%Z)%bool then ret (Raise EValue)
    else if ((ndat <=? 0)%Z && negb (Z.eqb (nrep * nsamp) 0))%bool then ret (Raise EValue)
    else if (negb replace && (ndat <? nrep * nsamp)%Z)%bool then ret (Raise EValue)
    else sbind (drawn g) (fun d => ret (Ok (Tab (Z.to_nat nsamp) (choice d replace ndat (Z.to_nat nrep) (Z.to_nat nsamp))))).
  (* resample/sampler.py:495-520 random_indices *)
  Definition random_indices (nrep ndat : Z) (nsamp : option Z) (rng : seedarg) (replace : bool) : rnd table :=
    sbind (validate_rng rng) (fun g => np_choice g ndat nrep (dflt ndat nsamp) replace).

  (* indices_to_freq, resample/sampler.py:776-817, per table; labelled: "ndat or indices.sizes[dim]" *)
  Definition table_to_freq (labelled : bool) (ndat : nat) (t : table) : res table :=
    let ndat := if (labelled && Nat.eqb ndat 0)%bool then t_cols t else ndat in
    rbind (indices_to_freq ndat (t_rows t)) (fun r => Ok (Tab ndat r)).
  (* core/xr_utils.py / xr.apply_ufunc over the variables, resample/sampler.py:745-759, 806-817 *)
  Definition tables_map (f : table -> rnd table) (t : tables) : rnd tables :=
    match t with
    | One t => sbind (f t) (fun r => ret (Ok (One r)))
    | Many l => sbind (mapS f l) (fun r => ret (Ok (Many r)))
    end.
  (* resample/sampler.py:700-759 freq_to_indices, 745-758: rng.shuffle(indices, axis=1) reorders the columns *)
  Definition table_to_indices (shuffle : bool) (rng : seedarg) (t : table) : rnd table :=
    match freq_to_indices junk (t_rows t) with
    | Raise e => ret (Raise e)
    | Ok rows =>
        let nsamp := match rows with r :: _ => List.length r | [] => 0%nat end in
        if shuffle then
          sbind (validate_rng rng) (fun g => sbind (drawn g) (fun d =>
          ret (Ok (Tab nsamp (map (fun r => map (fun k => nth k r 0%Z) (shuffled d nsamp)) rows)))))
        else ret (Ok (Tab nsamp rows))
    end.

  (* resample/sampler.py:523-553 random_freq *)
  Definition random_freq (nrep ndat : Z) (nsamp : option Z) (rng : seedarg) (replace : bool) : rnd table :=
    sbind (random_indices nrep ndat nsamp rng replace) (fun t => ret (table_to_freq false (Z.to_nat ndat) t)).

  (* ---- attributes: new sampler and value ------------------------------------------- *)

  (* resample/sampler.py:156-158 *)
  Definition shape0 (t : tables) : res nat := rbind (first_table t) (fun t => Ok (List.length (t_rows t))).
  (* resample/sampler.py:150-154 *)
  Definition shape1 (t : tables) : res nat := rbind (first_table t) (fun t => Ok (t_cols t)).
  (* resample/sampler.py:144-148 _first: freq if there is one.  With neither freq nor indices the properties
     call each other without end (RecursionError, rendered as EMem) *)
  Definition first_known (s : sampler) : res tables :=
    match s_freq s, s_indices s with
    | Some f, _ => Ok f
    | None, Some i => Ok i
    | None, None => Raise EMem
    end.
  (* resample/sampler.py:150-154 ndat *)
  Definition get_ndat (s : sampler) : sampler * res nat :=
    match s_ndat s with
    | Some n => (s, Ok n)
    | None => match rbind (first_known s) shape1 with
              | Ok n => (Sampler (s_indices s) (s_freq s) (Some n) (s_shuffle s) (s_rng s) (s_labelled s), Ok n)
              | Raise e => (s, Raise e)
              end
    end.
  (* resample/sampler.py:156-158 nrep *)
  Definition get_nrep (s : sampler) : sampler * res nat := (s, rbind (first_known s) shape0).
  (* resample/sampler.py:114-121 freq *)
  Definition get_freq (s : sampler) : rnd (sampler * res tables) :=
    match s_freq s with
    | Some f => ret (Ok (s, Ok f))
    | None =>
        match s_indices s with
        | None => ret (Ok (s, Raise EMem))
        | Some i =>
            let (s1, n) := get_ndat s in
            match n with
            | Raise e => ret (Ok (s1, Raise e))
            | Ok n => fun st =>
                match tables_map (fun t => ret (table_to_freq (s_labelled s) n t)) i st with
                | (st1, Ok f) => (st1, Ok (Sampler (s_indices s1) (Some f) (s_ndat s1) (s_shuffle s1) (s_rng s1) (s_labelled s1), Ok f))
                | (st1, Raise e) => (st1, Ok (s1, Raise e))
                end
            end
        end
    end.
  (* resample/sampler.py:123-129 indices *)
  Definition get_indices (s : sampler) : rnd (sampler * res tables) :=
    match s_indices s with
    | Some i => ret (Ok (s, Ok i))
    | None =>
        match s_freq s with
        | None => ret (Ok (s, Raise EMem))
        | Some f => fun st =>
            match tables_map (table_to_indices (s_shuffle s) (s_rng s)) f st with
            | (st1, Ok i) => (st1, Ok (Sampler (Some i) (s_freq s) (s_ndat s) (s_shuffle s) (s_rng s) (s_labelled s), Ok i))
            | (st1, Raise e) => (st1, Ok (s, Raise e))
            end
        end
    end.

  (* a program reading attributes of one sampler
     [properties of resample/sampler.py:114-158] *)
  Inductive access := AFreq | AIndices | ANdat | ANrep.
  (* results of resample/sampler.py:114-158 *)
  Inductive value := VTables (t : tables) | VNat (n : nat).
  (* resample/sampler.py:114-158 *)
  Definition read (a : access) (s : sampler) (st : rstate) : rstate * sampler * res value :=
    match a with
    | AFreq => match get_freq s st with
               | (st1, Ok (s1, r)) => (st1, s1, rbind r (fun t => Ok (VTables t)))
               | (st1, Raise e) => (st1, s, Raise e)
               end
    | AIndices => match get_indices s st with
                  | (st1, Ok (s1, r)) => (st1, s1, rbind r (fun t => Ok (VTables t)))
                  | (st1, Raise e) => (st1, s, Raise e)
                  end
    | ANdat => let (s1, r) := get_ndat s in (st, s1, rbind r (fun n => Ok (VNat n)))
    | ANrep => let (s1, r) := get_nrep s in (st, s1, rbind r (fun n => Ok (VNat n)))
    end.
  (* a program reading properties, resample/sampler.py:114-158 *)
  Fixpoint reads (l : list access) (s : sampler) (st : rstate) : rstate * sampler * list (res value) :=
    match l with
    | [] => (st, s, [])
    | a :: t => let '(st1, s1, v) := read a s st in
                let '(st2, s2, vs) := reads t s1 st1 in (st2, s2, v :: vs)
    end.

  (* ---- constructors -------------------------------------------------------------------- *)

  (* resample/sampler.py:80-111 __init__ with fastpath=False, _check *)
  Definition new_sampler (indices freq : option tables) (ndat : option nat) (shuffle : bool) (rng : seedarg) (labelled : bool) : res sampler :=
    let s := Sampler indices freq ndat shuffle rng labelled in
    match indices, freq with
    | None, None => Raise EValue
    | _, _ =>
        match ndat, freq with
        | Some n, Some f => rbind (shape1 f) (fun k => if Nat.eqb k n then Ok s else Raise EValue)
        | _, _ => Ok s
        end
    end.
  (* resample/sampler.py:163-195 from_params *)
  Definition from_params (nrep : Z) (ndat : nat) (nsamp : option Z) (rng : seedarg) (replace : bool) : rnd sampler :=
    sbind (random_indices nrep (Z.of_nat ndat) nsamp rng replace) (fun t =>
    ret (Ok (Sampler (Some (One t)) None (Some ndat) false SNone false))).
  (* resample/sampler.py:557-603 _randsamp_indices_dataarray_or_dataset; from_data does not pass replace *)
  Definition randsamp_labelled (kind : data_kind) (nrep : Z) (ndat : nat) (nsamp : option Z) (paired : bool) (rng : seedarg) : rnd tables :=
    sbind (validate_rng rng) (fun g =>
    let one := random_indices nrep (Z.of_nat ndat) nsamp (SGen g) true in
    match kind, paired with
    | KDataset vars, false =>
        sbind (mapS (fun _ => one) (filter (fun b => b) vars)) (fun l =>
        ret (Ok (match l with [t] => One t | _ => Many l end)))
    | _, _ => sbind one (fun t => ret (Ok (One t)))
    end).
  (* resample/sampler.py:228-325 from_data *)
  Definition from_data (d : data_arg) (nrep : Z) (nsamp : option Z) (paired : bool) (rng : seedarg) (replace : bool) : rnd sampler :=
    sbind (ret (da_ndat d)) (fun ndat =>
    match da_kind d with
    | KArray => sbind (random_indices nrep (Z.of_nat ndat) nsamp rng replace) (fun t =>
        ret (Ok (Sampler (Some (One t)) None (Some ndat) false SNone false)))
    | kind => sbind (randsamp_labelled kind nrep ndat nsamp paired rng) (fun t =>
        ret (Ok (Sampler (Some t) None (Some ndat) false SNone true)))
    end).
    (* resample/sampler.py:418-458: sampler is None *)
  Definition factory_none (a : fargs) (labelled : bool) (data : option data_arg) : rnd sampler :=
    match f_indices a, f_freq a with
    | None, None =>
        match f_nrep a with
        | Some nrep =>
            match f_ndat a, data with
            | Some ndat, _ => from_params nrep ndat (f_nsamp a) (dflt SNone (f_rng a)) (dflt true (f_replace a))
            | None, Some d => from_data d nrep (f_nsamp a) (dflt true (f_paired a)) (dflt SNone (f_rng a)) (dflt true (f_replace a))
            | None, None => ret (Raise EValue)
            end
        | None => ret (Raise EValue)
        end
    | i, f => ret (new_sampler i f (f_ndat a) false (dflt SNone (f_rng a)) labelled)
    end.
  (* resample/sampler.py:328-490 factory_sampler; labelled tells whether tables inside a are xarray objects *)
  Definition factory_sampler (sampler : sampler_arg) (a : fargs) (labelled : bool) (data : option data_arg) : rnd ModelSampler.sampler :=
    match sampler with
    | SAObj s => ret (Ok s)
    | SANone => factory_none a labelled data
    | SATable t lab => ret (new_sampler None (Some t) (f_ndat a) (dflt false (f_shuffle a)) (dflt SNone (f_rng a)) lab)
    | SAInt n => factory_none (FArgs None None (Some n) None None None None None None) labelled data
    | SAMap m => factory_none m labelled data
    end.
End Sampler.

(* ---- select_ndat, 607-665 --------------------------------------------------------------- *)

(* resample/sampler.py:607-680 for arrays *)
Definition select_ndat_array (shape : list nat) (axis : marg axis_arg) (m : mp_arg) (mom_ndim : option Z) (mom_axes : option ints_arg) : res nat :=
  match axis with
  | Val x =>
      rbind (array_factory true m mom_ndim mom_axes None) (fun p =>
      rbind (normalize_axes p (List.length shape)) (fun p =>
      rbind (normalize_axis_index x (List.length shape) (option_map Z.to_nat (ap_ndim p))) (fun a =>
      guard (raise_if_in_mom_axes p [Z.of_nat a]) (of_opt EIndex (nth_error shape a)))))
  | _ => Raise EType
  end.
(* resample/sampler.py:607-680 for DataArray *)
Definition select_ndat_dataarray (dims : list string) (shape : list nat) (axis : marg axis_arg) (dim : marg string)
    (m : mp_arg) (mom_ndim : option Z) (mom_axes : option ints_arg) (mom_dims : option dims_arg) : res nat :=
  rbind (x_factory true m mom_ndim mom_dims mom_axes (ODataArray dims) None) (fun p =>
  rbind (select_axis_dim p (XArr dims) axis dim Missing Missing false) (fun r => sizes dims shape (snd r))).
