(* Model of the process-wide state of the package and of argument validation:
   options.py, random.py, factory.py:197-240 and the cached factories
   factory.py:243-570, _lib/decorators.py:20-56, 129-138,
   core/array_utils.py:148-202 (select_dtype), core/validate.py,
   core/utils.py:40-94. *)
From Coq Require Import String.
From Verif Require Import Base ModelIndex.
Local Open Scope string_scope.

(* ---- options.py ------------------------------------------------------------- *)

(* values of options: int, bool (a subclass of int), anything else
   [options.py:34-47] *)
Inductive pyval := PInt (z : Z) | PBool (b : bool) | PObj (n : nat).

(* dict with string keys, in insertion order
   [options.py:17-31] *)
Definition dict := list (string * pyval).
(* key in OPTIONS, OPTIONS[key], options.py:64-73 *)
Fixpoint dget (k : string) (d : dict) : option pyval :=
  match d with
  | [] => None
  | (k', v) :: t => if String.eqb k k' then Some v else dget k t
  end.
(* d[k] = v
   [options.py:64-73] *)
Fixpoint dset (k : string) (v : pyval) (d : dict) : dict :=
  match d with
  | [] => [(k, v)]
  | (k', v') :: t => if String.eqb k k' then (k', v) :: t else (k', v') :: dset k v t
  end.
(* d.update(new)
   [options.py:76-81] *)
Definition dupdate (d new : dict) : dict := fold_left (fun d kv => dset (fst kv) (snd kv) d) new d.

(* options.py:34-39: isinstance(x, bool), isinstance(x, int) *)
Definition isbool (v : pyval) : bool := match v with PBool _ => true | _ => false end.
(* options.py:38-39 *)
Definition isint (v : pyval) : bool := match v with PInt _ | PBool _ => true | PObj _ => false end.
(* options.py:42-47  _VALIDATORS; keys without validator accept everything *)
Definition validates (k : string) (v : pyval) : bool :=
  if String.eqb k "nmax" then isint v
  else if String.eqb k "parallel" then isbool v
  else if String.eqb k "cache" then isbool v
  else if String.eqb k "fastmath" then isbool v
  else true.

(* options.py:17-31  OPTIONS for given environment values *)
Definition OPTIONS0 (nmax : Z) (cache parallel fastmath : bool) : dict :=
  [("nmax", PInt nmax); ("cache", PBool cache); ("parallel", PBool parallel); ("fastmath", PBool fastmath)].

(* options.py:64-73  the loop over kwargs, returning self.old *)
Fixpoint set_options_loop (opts kw old : dict) : res dict :=
  match kw with
  | [] => Ok old
  | (k, v) :: t =>
      match dget k opts with
      | None => Raise EValue
      | Some cur => if validates k v then set_options_loop opts t (dset k cur old) else Raise EValue
      end
  end.
(* options.py:76-81; _SETTERS is empty *)
Definition apply_update (opts d : dict) : dict := dupdate opts d.
(* options.py:64-74  __init__: OPTIONS afterwards, and self.old or the exception *)
Definition set_options_init (opts kw : dict) : dict * res dict :=
  match set_options_loop opts kw [] with
  | Raise e => (opts, Raise e)
  | Ok old => (apply_update opts kw, Ok old)
  end.
(* options.py:86-87 *)
Definition set_options_exit (opts old : dict) : dict := apply_update opts old.

(* programs using options: set_options(...) alone, in a with statement, raise
   [users of options.py:52-87] *)
Inductive oprog :=
  | OSkip | OFail
  | OSeq (p q : oprog)
  | OTry (p : oprog)           (* try: p except: pass *)
  | OSet (kw : dict)
  | OWith (kw : dict) (body : oprog).
(* OPTIONS afterwards, and whether an exception leaves the program;
   __exit__ returns None, so exceptions propagate
   [the with statement on options.py:52-87] *)
Fixpoint orun (p : oprog) (opts : dict) : dict * bool :=
  match p with
  | OSkip => (opts, false)
  | OFail => (opts, true)
  | OSeq p q => let (o, f) := orun p opts in if f then (o, true) else orun q o
  | OTry p => (fst (orun p opts), false)
  | OSet kw => match set_options_init opts kw with (o, Ok _) => (o, false) | (o, Raise _) => (o, true) end
  | OWith kw body =>
      match set_options_init opts kw with
      | (o, Raise _) => (o, true)
      | (o, Ok old) => let (o', f) := orun body o in (set_options_exit o' old, f)
      end
  end.
(* contexts created and left in any order
   [users of options.py:52-87] *)
Inductive octx := CNew (kw : dict) | CExit (i : nat).
(* options.py:64-87 *)
Definition ostep (st : dict * list dict) (c : octx) : dict * list dict :=
  let (opts, ctxs) := st in
  match c with
  | CNew kw => match set_options_init opts kw with
               | (o, Ok old) => (o, (ctxs ++ [old])%list)
               | (o, Raise _) => (o, ctxs)
               end
  | CExit i => (set_options_exit opts (nth i ctxs []), ctxs)
  end.

(* ---- random.py ------------------------------------------------------------- *)

(* a generator: where its stream comes from and how many numbers were drawn
   [numpy Generator, random.py:26-108] *)
Inductive source := Entropy (n : nat) | Seeded (s : Z).
(* random.py:20-47 *)
Record rstate := RState { heap : list (source * nat); internal : option nat }.
(* seed argument: None, an int, a Generator (its place in the heap) or
   something numpy rejects
   [random.py:49-108] *)
Inductive seedarg := SNone | SSeed (s : Z) | SGen (g : nat) | SBad.
(* np.random.default_rng: a Generator is returned unchanged; otherwise a new
   generator; negative integers are a ValueError
   [called at random.py:80-108] *)
Definition np_default_rng (seed : seedarg) (st : rstate) : rstate * res nat :=
  let new src := (RState (heap st ++ [(src, 0)])%list (internal st), Ok (List.length (heap st))) in
  match seed with
  | SGen g => (st, Ok g)
  | SNone => new (Entropy (List.length (heap st)))
  | SSeed s => if (s <? 0)%Z then (st, Raise EValue) else new (Seeded s)
  | SBad => (st, Raise EType)
  end.
(* random.py:27-35 *)
Definition set_internal_rng (g : nat) (st : rstate) : rstate := RState (heap st) (Some g).
(* random.py:38-43 *)
Definition get_internal_rng (st : rstate) : res nat :=
  match internal st with Some g => Ok g | None => Raise EValue end.
(* random.py:50-87 *)
Definition default_rng (seed : seedarg) (st : rstate) : rstate * res nat :=
  match seed with
  | SGen g => (st, Ok g)
  | SNone =>
      match internal st with
      | Some _ => (st, get_internal_rng st)
      | None => let (st1, r) := np_default_rng SNone st in
                match r with
                | Ok g => let st2 := set_internal_rng g st1 in (st2, get_internal_rng st2)
                | Raise e => (st1, Raise e)
                end
      end
  | _ => let (st1, r) := np_default_rng seed st in
         match r with
         | Ok g => let st2 := set_internal_rng g st1 in (st2, get_internal_rng st2)
         | Raise e => (st1, Raise e)
         end
  end.
(* random.py:90-108 *)
Definition validate_rng (rng : seedarg) (st : rstate) : rstate * res nat :=
  match rng with SNone => default_rng SNone st | _ => np_default_rng rng st end.
(* one number drawn from generator g: stream and position stand for the value
   [users of random.py:91-108, as resample/sampler.py:512-520] *)
Definition draw (g : nat) (st : rstate) : rstate * option (source * nat) :=
  match nth_error (heap st) g with
  | None => (st, None)
  | Some (src, k) => (RState (upd (heap st) g (src, S k)) (internal st), Some (src, k))
  end.
(* users of random.py *)
Inductive rop := RDefault (s : seedarg) | RValidate (s : seedarg) | RSet (g : nat) | RGet | RDraw (g : nat).
(* random.py:26-108 *)
Definition rstep (op : rop) (st : rstate) : rstate :=
  match op with
  | RDefault s => fst (default_rng s st)
  | RValidate s => fst (validate_rng s st)
  | RSet g => set_internal_rng g st
  | RGet => st
  | RDraw g => fst (draw g st)
  end.
(* a program using random.py *)
Definition rrun (ops : list rop) (st : rstate) : rstate := fold_left (fun st op => rstep op st) ops st.
(* random.py:20-23 after import *)
Definition rng0 : rstate := RState [] None.

(* ---- factory.py: choice of parallel kernels ------------------------------------ *)

(* a factory call is cached under (factory, mom_ndim, parallel); the target of a
   kernel module is fixed when it is first imported.  true = parallel.
   [factory.py:243-573] *)
Definition fkey := (nat * nat * bool)%type.
(* lru_cache lookup, factory.py:243-573 *)
Definition fkey_eqb (a b : fkey) : bool :=
  (Nat.eqb (fst (fst a)) (fst (fst b)) && Nat.eqb (snd (fst a)) (snd (fst b)) && Bool.eqb (snd a) (snd b))%bool.
(* factory.py:197-573, options.py:17-31 *)
Record pstate := PState {
  opt_parallel : bool;               (* OPTIONS["parallel"] *)
  safe_cache : option bool;          (* lru_cache of _safe_threadpool *)
  fcache : list (fkey * bool);       (* lru_cache of the factories: module chosen *)
  targets : list (fkey * bool)       (* imported parallel modules: compiled for target parallel *)
}.
(* lru_cache lookup and sys.modules, factory.py:243-573 *)
Fixpoint flook (k : fkey) (l : list (fkey * bool)) : option bool :=
  match l with [] => None | (k', b) :: t => if fkey_eqb k k' then Some b else flook k t end.
(* factory.py:199-203 with decorators.py:20-28; unsafe: the calling thread is a
   ThreadPoolExecutor thread and the numba threading layer is workqueue *)
Definition safe_threadpool (unsafe : bool) (st : pstate) : pstate * bool :=
  match safe_cache st with
  | Some b => (st, b)
  | None => (PState (opt_parallel st) (Some (negb unsafe)) (fcache st) (targets st), negb unsafe)
  end.
(* factory.py:206-217: and does not evaluate its right operand if the left is False *)
Definition supports_parallel (unsafe : bool) (st : pstate) : pstate * bool :=
  if opt_parallel st then safe_threadpool unsafe st else (st, false).
(* factory.py:221-231, cutoff 10_000 *)
Definition parallel_heuristic (parallel : option bool) (size : option Z) (cutoff : Z) (unsafe : bool) (st : pstate)
  : pstate * bool :=
  match parallel with
  | Some true => supports_parallel unsafe st
  | Some false => (st, false)
  | None =>
      match size with
      | None => (st, false)
      | Some n => let (st, b) := supports_parallel unsafe st in (st, (b && (cutoff <? n)%Z)%bool)
      end
  end.
(* factory.py:243-573: several factories take their functions from one kernel
   module, whose name is "push", "resample", "indexed" or "rolling" (0 .. 3), with
   "_cov" for two variables and "_parallel".  Factories are numbered: 0 pusher,
   1 reduce_vals, 2 reduce_data, 3 cumulative, 4 cumulative inverse,
   5 freq_to_indices, 6 indices_to_freq, 7 resample_vals, 8 resample_data,
   9 jackknife_vals, 10 jackknife_data, 11 reduce_data_grouped,
   12 reduce_data_indexed, 13 rolling_vals, 14 rolling_data, 15 rolling_exp_vals,
   16 rolling_exp_data.  5 and 6 have no mom_ndim; for them nd is 1. *)
Definition module_of (f : nat) : nat :=
  if Nat.ltb f 5 then 0 else if Nat.ltb f 11 then 1 else if Nat.ltb f 13 then 2 else 3.
(* import of a kernel module: decorators.py:129-138 _get_target *)
Definition import_module (f nd : nat) (par unsafe : bool) (st : pstate) : pstate :=
  if par then
    match flook (module_of f, nd, true) (targets st) with
    | Some _ => st
    | None => PState (opt_parallel st) (safe_cache st) (fcache st) (((module_of f, nd, true), negb unsafe) :: targets st)
    end
  else st.
(* factory.py:243-268 and the like: f tells which factory, nd is mom_ndim *)
Definition factory (f nd : nat) (parallel unsafe : bool) (st : pstate) : pstate * bool :=
  match flook (f, nd, parallel) (fcache st) with
  | Some b => (st, b)
  | None =>
      let (st, b) := if parallel then supports_parallel unsafe st else (st, false) in
      let st := import_module f nd b unsafe st in
      (PState (opt_parallel st) (safe_cache st) (((f, nd, parallel), b) :: fcache st) (targets st), b)
  end.
(* factory_x(mom_ndim=nd, parallel=parallel_heuristic(parallel, size=size)),
   as in reduction.py:619-622, convert.py:533-536, wrapper/wrap_abc.py:357-361, ... *)
Definition public_kernel (f nd : nat) (parallel : option bool) (size : option Z) (unsafe : bool) (st : pstate)
  : pstate * bool :=
  let (st, p) := parallel_heuristic parallel size 10000 unsafe st in factory f nd p unsafe st.
(* is the compiled kernel that runs a multithreaded one?
   [_lib/decorators.py:129-138] *)
Definition runs_parallel (f nd : nat) (st : pstate) (b : bool) : bool :=
  (b && match flook (module_of f, nd, true) (targets st) with Some t => t | None => false end)%bool.
(* users of factory.py:197-573 *)
Inductive pop :=
  | POption (b : bool)                                                (* set_options(parallel=b) *)
  | PPublic (f nd : nat) (parallel : option bool) (size : option Z) (unsafe : bool)
  | PHeuristic (parallel : option bool) (size : option Z) (unsafe : bool)
  | PFactory (f nd : nat) (parallel unsafe : bool).                   (* direct call of a factory *)
(* factory.py:197-573 *)
Definition pstep (op : pop) (st : pstate) : pstate :=
  match op with
  | POption b => PState b (safe_cache st) (fcache st) (targets st)
  | PPublic f nd p s u => fst (public_kernel f nd p s u st)
  | PHeuristic p s u => fst (parallel_heuristic p s 10000 u st)
  | PFactory f nd p u => fst (factory f nd p u st)
  end.
(* a program, factory.py:197-573 *)
Definition prun (ops : list pop) (st : pstate) : pstate := fold_left (fun st op => pstep op st) ops st.
(* after import of the package
   [options.py:17-31, factory.py:197-203] *)
Definition par0 (parallel : bool) : pstate := PState parallel None [] [].

(* ---- dtypes -------------------------------------------------------------------- *)

(* the swapped dtypes have the other byte order
   [core/array_utils.py:150] *)
Inductive dtype := F32 | F64 | F32swapped | F64swapped | DOther (n : nat).
(* dtype argument: None, something np.dtype accepts, something it rejects
   [core/array_utils.py:176-202] *)
Inductive dtype_arg := DNone | DGiven (d : dtype) | DBad.
(* argument x: Dataset, object with a dtype attribute, object without
   [core/array_utils.py:176-202] *)
Inductive x_arg := XDataset | XTyped (d : dtype) | XPlain.
(* array_utils.py:150, dtype in _ALLOWED_FLOAT_DTYPES *)
Definition allowed_dtype (d : dtype) : bool := match d with F32 | F64 => true | _ => false end.
(* core/array_utils.py:195-202 *)
Definition check_dtype (d : dtype) : res (option dtype) := if allowed_dtype d then Ok (Some d) else Raise EValue.
(* array_utils.py:176-202; out is the dtype of the out array *)
Definition select_dtype (x : x_arg) (out : option dtype) (dt : dtype_arg) : res (option dtype) :=
  match x with
  | XDataset => match dt with DNone => Ok None | DGiven d => check_dtype d | DBad => Raise EType end
  | _ => match out with
         | Some d => check_dtype d
         | None => match dt with
                   | DGiven d => check_dtype d
                   | DBad => Raise EType
                   | DNone => check_dtype (match x with XTyped d => d | _ => F64 end)
                   end
         end
  end.
(* validate.py:122-157: compares dtype.type, which does not see the byte order *)
Definition validate_floating_dtype (dt : dtype_arg) : res (option dtype) :=
  match dt with
  | DNone => Ok None
  | DBad => Raise EType
  | DGiven d => match d with DOther _ => Raise EValue | _ => Ok (Some d) end
  end.

(* ---- core/validate.py and core/utils.py ---------------------------------------- *)

(* int, iterable of int, not iterable
   [core/validate.py:82-128] *)
Inductive ints_arg := IInt (z : Z) | IIter (l : list Z) | INot.
(* validate.py:73-80 *)
Definition is_mom_ndim (n : Z) : bool := (Z.eqb n 1 || Z.eqb n 2)%bool.
(* core/validate.py:77-79 *)
Definition is_mom_tuple (l : list Z) : bool :=
  ((Nat.eqb (List.length l) 1 || Nat.eqb (List.length l) 2) && forallb (fun m => (0 <? m)%Z) l)%bool.
(* validate.py:83-94 *)
Definition validate_mom_ndim (n : option Z) (default : option Z) : res Z :=
  match n with
  | Some n => if is_mom_ndim n then Ok n else Raise EValue
  | None => match default with Some d => Ok d | None => Raise EValue end
  end.
(* validate.py:97-113 *)
Definition validate_mom (mom : ints_arg) : res (list Z) :=
  match mom with
  | INot => Raise EType
  | IInt z => if is_mom_tuple [z] then Ok [z] else Raise EValue
  | IIter l => if is_mom_tuple l then Ok l else Raise EValue
  end.
(* validate.py:116-128 *)
Definition validate_mom_axes (axes : ints_arg) : res (list Z) :=
  match axes with
  | INot => Raise EType
  | IInt z => Ok [z]
  | IIter l => if (Nat.eqb (List.length l) 1 || Nat.eqb (List.length l) 2)%bool then Ok l else Raise EValue
  end.
(* range(-n, 0)
   [core/validate.py:178-196] *)
Definition last_axes (n : Z) : list Z := map (fun i => (Z.of_nat i - n)%Z) (seq 0 (Z.to_nat n)).
(* validate.py:173-190, moment_params.py:193-213 (MomParamsArray.from_params) *)
Definition validate_mom_ndim_and_mom_axes (ndim : option Z) (axes : option ints_arg) (default : option Z)
  : res (Z * list Z) :=
  match axes with
  | None => rbind (validate_mom_ndim ndim default) (fun n => Ok (n, last_axes n))
  | Some a => rbind (validate_mom_axes a) (fun a =>
      let n := Z.of_nat (List.length a) in
      match ndim with
      | None => Ok (n, a)
      | Some m => if Z.eqb n m then Ok (m, a) else Raise EValue
      end)
  end.
(* core/utils.py:41-55 *)
Definition mom_to_mom_ndim (mom : ints_arg) : res Z :=
  match mom with
  | INot => Raise EType
  | IInt _ => validate_mom_ndim (Some 1%Z) None
  | IIter l => validate_mom_ndim (Some (Z.of_nat (List.length l))) None
  end.
(* core/utils.py:58-83: a mom_ndim of 0 is false in "if mom_ndim and ..." *)
Definition select_mom_ndim (mom : option ints_arg) (ndim : option Z) : res Z :=
  match mom with
  | Some mom => rbind (mom_to_mom_ndim mom) (fun n =>
      match ndim with
      | Some m => if (negb (Z.eqb m 0) && negb (Z.eqb n m))%bool then Raise EValue
                  else validate_mom_ndim (Some n) None
      | None => validate_mom_ndim (Some n) None
      end)
  | None => match ndim with None => Raise EType | Some m => validate_mom_ndim (Some m) None end
  end.
(* core/utils.py:85-94 *)
Definition mom_to_mom_shape (mom : ints_arg) : res (list Z) :=
  rbind (validate_mom mom) (fun l => Ok (map (fun m => (m + 1)%Z) l)).
(* core/utils.py:91-94 *)
Definition mom_shape_to_mom (shape : ints_arg) : res (list Z) :=
  rbind (validate_mom shape) (fun l => Ok (map (fun m => (m - 1)%Z) l)).

(* ---- _binomial.py:37  BINOMIAL_FACTOR is made when the first kernel module is
   imported, from OPTIONS["nmax"] of that moment ---------------------------------- *)
(* _lib/_binomial.py:27-37 *)
Record tstate := TState { t_nmax : nat; t_table : option nat }.
(* options.py:52-87 and _lib/_binomial.py:37 *)
Inductive top := TSet (nmax : nat) | TKernel.     (* set_options(nmax=..), first or later use of a kernel *)
(* _lib/_binomial.py:37 *)
Definition tstep (st : tstate) (op : top) : tstate :=
  match op with
  | TSet n => TState n (t_table st)
  | TKernel => match t_table st with
               | Some _ => st
               | None => TState (t_nmax st) (Some (t_nmax st))
               end
  end.
