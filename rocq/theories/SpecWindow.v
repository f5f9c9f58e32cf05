(* Specification vocabulary for arrays of rolling windows: which entry of the data
   every place of every window shows. *)
From Coq Require Import String.
From Verif Require Import Base ModelPush ModelKernels ModelIndex ModelAxes ModelState ModelParams ModelWrap ModelNd ModelLabel ModelWindow Spec SpecAxes SpecNd SpecLabel PropParams.
Local Open Scope string_scope.
Local Open Scope nat_scope.

(* axis= or dim= names the dimensions ds of an array with dimensions dims, none of
   them a moment dimension of p *)
Definition selects (p : xparams) (axis : marg (list axis_arg)) (dim : marg dims_arg) (dims ds : list sname) : Prop :=
  exists axes, Forall2 (fun a d => nth_error dims a = Some d) axes ds /\ (forall d, In d ds -> ~ is_moment p d) /\
   ((axis = Missing /\ dim = PyNone /\ ds = filter (fun d => negb (smem d (mom_dims_of p))) dims) \/
    (axis = Missing /\ exists x, dim = Val x /\ (listed_dims x = Some ds \/ x = DIter ds)) \/
    (dim = Missing /\ axis = PyNone /\ axes = seq 0 (List.length dims - counted p)) \/
    (dim = Missing /\ exists x, axis = Val x /\ NoDup axes /\ Forall2 (names_axis (List.length dims) (counted p)) x axes)).
(* a scalar or a sequence stands for the values l of n dimensions *)
Definition stands_for {T} (n : nat) (a : scalar_or_seq T) (l : list T) : Prop := a = Seq l \/ exists v, a = Scalar v /\ l = repeat v n.
(* names of the window dimensions *)
Definition window_names (a : option (scalar_or_seq sname)) (ds names : list sname) : Prop :=
  (a = None /\ names = map (append "rolling_") ds) \/ a = Some (Seq names) \/ (exists s, a = Some (Scalar s) /\ names = [s]).

(* the position a window belongs to: every stride-th one, from the end if stride < 0 *)
Definition position_of (n : nat) (r : roll) (i : nat) : Z := ((if 0 <? r_stride r then 0 else Z.of_nat n - 1) + r_stride r * Z.of_nat i)%Z.
(* the window at position q has the entries q - before .. q - before + window - 1 *)
Definition before (r : roll) : Z := if r_center r then (r_win r / 2)%Z else (r_win r - 1)%Z.
Definition source (n : nat) (r : roll) (env : sname -> nat) : Z :=
  (position_of n r (env (r_dim r)) - before r + Z.of_nat (env (r_name r)))%Z.
(* sizes of the result *)
Definition window_size (rs : list roll) (sz : sname -> nat) (n : sname) : nat :=
  match find (fun r => String.eqb (r_name r) n) rs with
  | Some r => Z.to_nat (r_win r)
  | None => match find (fun r => String.eqb (r_dim r) n) rs with
            | Some r => S ((sz n - 1) / Z.abs_nat (r_stride r))
            | None => sz n
            end
  end.
(* out shows in every window the entries of g, and fill where there are none *)
Definition shows_windows {T} (fill : T) (rs : list roll) (sz : sname -> nat) (g out : lgrid T) : Prop :=
  lg_dims out = (map r_name rs ++ lg_dims g)%list /\ grid_ok (lg_val out) /\
  gshape (lg_val out) = map (window_size rs sz) (lg_dims out) /\
  forall env, inside_names (window_size rs sz) (lg_dims out) env ->
    ((forall r, In r rs -> (0 <= source (sz (r_dim r)) r env < Z.of_nat (sz (r_dim r)))%Z) ->
       l_at fill out env = l_at fill g (name_bind (map r_dim rs) (map (fun r => Z.to_nat (source (sz (r_dim r)) r env)) rs) env)) /\
    ((exists r, In r rs /\ ~ (0 <= source (sz (r_dim r)) r env < Z.of_nat (sz (r_dim r)))%Z) -> l_at fill out env = fill).

(* mom_ndim= and mom_axes= of an array with n axes name the axes M, or nothing *)
Definition told_moments (n : nat) (mom_ndim : option Z) (mom_axes : option ints_arg) (M : list nat) : Prop :=
  (mom_ndim = None /\ mom_axes = None /\ M = []) \/
  exists l, Forall2 (is_axis n) l M /\ (List.length l = 1 \/ List.length l = 2) /\
    ((mom_axes = Some (IIter l) \/ exists z, l = [z] /\ mom_axes = Some (IInt z)) /\ (mom_ndim = None \/ mom_ndim = Some (Z.of_nat (List.length l))) \/
     mom_axes = None /\ mom_ndim = Some (Z.of_nat (List.length l)) /\ l = axes_last (List.length l)).
(* axis= names the axes A of an array with n axes, M of them moment axes *)
Definition rolls_axes (n : nat) (axis : marg (list axis_arg)) (M A : list nat) : Prop :=
  NoDup A /\ (forall a, In a A -> a < n /\ ~ In a M) /\
  ((axis = PyNone /\ A = seq 0 (n - List.length M)) \/ exists l, axis = Val l /\ Forall2 (names_axis n (List.length M)) l A).
(* entry of the data shown at place j of the window with index i along an axis of length n *)
Definition source_at (n : nat) (w : Z) (center : bool) (s : Z) (i j : nat) : Z :=
  ((if 0 <? s then 0 else Z.of_nat n - 1) + s * Z.of_nat i - (if center then w / 2 else w - 1) + Z.of_nat j)%Z.
(* the windows of axis number k of A are axis k of out; the axes of g follow *)
Definition array_windows {T} (fill : T) (A : list nat) (ws : list Z) (cs : list bool) (ss : list Z) (g out : grid T) : Prop :=
  let n := List.length (gshape g) in
  let len a := nth a (gshape g) 0 in
  let left a := if in_dec Nat.eq_dec a A then S ((len a - 1) / Z.abs_nat (nth (index_of a A) ss 0%Z)) else len a in
  let src (env : nat -> nat) (j : list nat) (k : nat) : Z := source_at (len (nth k A 0)) (nth k ws 0%Z) (nth k cs false) (nth k ss 0%Z) (env (nth k A 0)) (nth k j 0) in
  grid_ok out /\ gshape out = (map Z.to_nat ws ++ map left (seq 0 n))%list /\
  forall env j, inside left (seq 0 n) env -> Forall2 lt j (map Z.to_nat ws) ->
    ((forall k, k < List.length A -> (0 <= src env j k < Z.of_nat (len (nth k A 0%nat)))%Z) ->
       gget fill out (j ++ map env (seq 0 n)) = gget fill g (map (SpecAxes.bind A (map (fun k => Z.to_nat (src env j k)) (seq 0 (List.length A))) env) (seq 0 n))) /\
    ((exists k, k < List.length A /\ ~ (0 <= src env j k < Z.of_nat (len (nth k A 0%nat)))%Z) -> gget fill out (j ++ map env (seq 0 n)) = fill).
