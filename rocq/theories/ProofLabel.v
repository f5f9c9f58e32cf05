(* Lemmas about functions of labelled arrays: xarray.apply_ufunc and transposes by
   name. *)
From Coq Require Import String Permutation.
From Verif Require Import Base BaseLemmas ModelPush ModelKernels ModelIndex ModelAxes ModelParams ModelWrap ModelNd ModelLabel Spec SpecAxes SpecNd SpecLabel
  ProofAxes ProofArrays ProofNd PropAxes PropParams PropWrap PropLabelled PropNd.
Local Open Scope string_scope.
Local Open Scope nat_scope.

(* ---- names ----------------------------------------------------------------------------- *)

Lemma smem_false d l : smem d l = false <-> ~ In d l.
Proof. rewrite <- smem_In. destruct (smem d l); split; congruence. Qed.
Lemma filter_all {X} (f : X -> bool) l : (forall x, In x l -> f x = true) -> filter f l = l.
Proof. induction l as [|a l IH]; intros H; [reflexivity|]. cbn [filter]. rewrite (H a) by now left. f_equal. apply IH. intros x Hx. apply H. now right. Qed.
Lemma filter_none {X} (f : X -> bool) l : (forall x, In x l -> f x = false) -> filter f l = [].
Proof. induction l as [|a l IH]; intros H; [reflexivity|]. cbn [filter]. rewrite (H a) by now left. apply IH. intros x Hx. apply H. now right. Qed.
Lemma filter_names l ex : filter (fun d => negb (smem d ex)) l = except_name l ex.
Proof.
  unfold except. apply filter_ext. intros a. destruct (in_dec string_dec a ex) as [H|H]; [apply smem_In in H|apply smem_false in H]; now rewrite H.
Qed.
Lemma except_name_In l ex d : In d (except_name l ex) <-> In d l /\ ~ In d ex.
Proof. unfold except. rewrite filter_In. destruct (in_dec string_dec d ex); split; intros [H1 H2]; split; auto; try discriminate; tauto. Qed.
Lemma name_bind_out l i env d : ~ In d l -> name_bind l i env d = env d.
Proof.
  unfold name_bind. revert i. induction l as [|a l IH]; intros i H; [reflexivity|]. destruct i as [|j i]; [reflexivity|]. cbn [combine find fst].
  destruct (String.eqb_spec a d) as [->|N]; [elim H; now left|]. apply IH. intros Q. apply H. now right.
Qed.
Lemma name_bind_in l i env k : NoDup l -> List.length i = List.length l -> k < List.length l -> name_bind l i env (nth k l "") = nth k i 0.
Proof.
  unfold name_bind. revert i k. induction l as [|a l IH]; intros i k N L H; [inversion H|]. destruct i as [|j i]; [discriminate|]. cbn [combine find fst]. inversion N as [|? ? Na Nl]; subst.
  destruct k as [|k]; cbn [nth].
  - now rewrite String.eqb_refl.
  - destruct (String.eqb_spec a (nth k l "")) as [E|E]; [elim Na; rewrite E; apply nth_In; cbn in H; lia|]. apply IH; auto; cbn in *; lia.
Qed.
Lemma map_name_bind l i env : NoDup l -> List.length i = List.length l -> map (name_bind l i env) l = i.
Proof.
  intros N L. rewrite map_named. transitivity (map (fun a => nth a i 0) (seq 0 (List.length l))); [|now apply map_nth_seq].
  apply map_ext_in. intros a Ha. apply in_seq in Ha. apply name_bind_in; auto; lia.
Qed.
Lemma name_bind_ext l i e e' d : e d = e' d -> name_bind l i e d = name_bind l i e' d.
Proof. unfold name_bind. now destruct (find _ _). Qed.
Lemma NoDup_app_iff {X} (a b : list X) : NoDup (a ++ b) <-> NoDup a /\ NoDup b /\ forall x, In x a -> ~ In x b.
Proof.
  induction a as [|x a IH]; cbn; [split; [intros H; repeat split; auto; constructor|tauto]|]. rewrite !NoDup_cons_iff, IH, in_app_iff. split.
  - intros (H1 & H2 & H3 & H4). repeat split; auto. intros y [<-|Hy]; auto.
  - intros ((H1 & H2) & H3 & H4). repeat split; auto. intros [H|H]; [tauto|]. eapply H4; eauto. 
Qed.

(* ---- broadcast_compat -------------------------------------------------------------------- *)

(* sizes and indices for names x may not have *)
Definition sizes_of (x : xarr) (n : sname) : nat := if smem n (x_dims x) then dim_size x n else 1.
Definition idx_of (x : xarr) (env : sname -> nat) (n : sname) : nat := if smem n (x_dims x) then env n else 0.
(* t has the entries of x, with axes of length 1 for names x does not have *)
Definition placed (x : xarr) (l : list sname) (t : tensor) : Prop :=
  tensor_ok t /\ tshape t = map (sizes_of x) l /\ forall env, x_inside x env -> tget t (map (idx_of x env) l) = x_at x env.
(* l from the first name of old on *)
Fixpoint trim (old l : list sname) : list sname := match l with [] => [] | n :: r => if smem n old then n :: r else trim old r end.
Lemma trim_spec old l : exists pre, l = (pre ++ trim old l)%list /\ forall n, In n pre -> ~ In n old.
Proof.
  induction l as [|n l (pre & E & H)]; [exists []; split; [reflexivity|intros n []]|]. cbn [trim]. destruct (smem n old) eqn:S.
  - exists []. split; [reflexivity|intros m []].
  - exists (n :: pre). split; [cbn; now rewrite <- E|]. intros m [<-|Hm]; [now apply smem_false|auto].
Qed.
Lemma trim_all old l : incl l old -> trim old l = l.
Proof. destruct l as [|n l]; [reflexivity|]. intros H. cbn [trim]. assert (I : In n old) by (apply H; now left). apply smem_In in I. now rewrite I. Qed.
Lemma trim_filter old l : filter (fun n => smem n old) (trim old l) = filter (fun n => smem n old) l.
Proof. induction l as [|n l IH]; [reflexivity|]. cbn [trim]. destruct (smem n old) eqn:S; [reflexivity|]. cbn [filter]. now rewrite S. Qed.

Lemma key_parts_trim old l core : incl core old -> key_parts old (l ++ core) false = key_parts old (trim old l ++ core) true.
Proof.
  intros I. induction l as [|n l IH].
  - cbn [trim app]. destruct core as [|c core]; [reflexivity|]. cbn [key_parts]. assert (S : In c old) by (apply I; now left). apply smem_In in S. now rewrite S.
  - cbn [app key_parts trim]. destruct (smem n old) eqn:S; [cbn [app key_parts]; now rewrite S|exact IH].
Qed.
Lemma select_parts old (sz : sname -> nat) l : select (key_parts old l true) (map sz (filter (fun n => smem n old) l)) =
  Ok (map (fun n => if smem n old then STake (seq 0 (sz n)) else SNew) l).
Proof.
  induction l as [|n l IH]; [reflexivity|]. cbn [key_parts filter map]. destruct (smem n old) eqn:S; cbn [map].
  - unfold ModelWrap.full at 1. cbn [select]. rewrite slice_full. cbn [rbind]. now rewrite IH.
  - cbn [select]. now rewrite IH.
Qed.
Lemma parts_shape old (sz : sname -> nat) l : sel_shape (map (fun n => if smem n old then STake (seq 0 (sz n)) else SNew) l) = map (fun n => if smem n old then sz n else 1) l.
Proof. induction l as [|n l IH]; [reflexivity|]. cbn [map]. destruct (smem n old); cbn [sel_shape]; rewrite IH; [now rewrite seq_length|reflexivity]. Qed.
Lemma parts_source old (sz env : sname -> nat) l : (forall n, In n l -> In n old -> env n < sz n) ->
  sel_source (map (fun n => if smem n old then STake (seq 0 (sz n)) else SNew) l) (map (fun n => if smem n old then env n else 0) l) = map env (filter (fun n => smem n old) l).
Proof.
  induction l as [|n l IH]; intros H; [reflexivity|]. cbn [map filter]. destruct (smem n old) eqn:S; cbn [sel_source hd tl map].
  - rewrite seq_nth by (apply H; [now left|now apply smem_In]). cbn. f_equal. apply IH. intros m Hm. apply H. now right.
  - apply IH. intros m Hm. apply H. now right.
Qed.
Lemma parts_keys old l : filter is_dots (key_parts old l true) = [] /\ consumed (key_parts old l true) = List.length (filter (fun n => smem n old) l).
Proof. induction l as [|n l (I1 & I2)]; [split; reflexivity|]. cbn [key_parts filter]. unfold consumed in *. destruct (smem n old); cbn; auto. Qed.
Lemma expand_exact n ks : filter is_dots ks = [] -> consumed ks = n -> expand_keys n ks = Ok ks.
Proof.
  intros D C. unfold expand_keys. rewrite D, C. change (1 <? List.length (@nil key)) with false. cbv iota. rewrite Nat.ltb_irrefl.
  assert (X : forall ks, filter is_dots ks = [] -> existsb is_dots ks = false /\ flat_map (fun k => if is_dots k then repeat ModelWrap.full 0 else [k]) ks = ks).
  { clear. induction ks as [|k ks IH]; [split; reflexivity|]. cbn [filter existsb flat_map]. destruct (is_dots k); [discriminate|]. intros H. destruct (IH H) as [E1 E2]. rewrite E2. now split. }
  destruct (X ks D) as [X1 X2]. rewrite X1, Nat.sub_diag, flat_map_app, X2. cbn. now rewrite app_nil_r.
Qed.

Lemma filter_le {X} (f : X -> bool) l : List.length (filter f l) <= List.length l.
Proof. induction l as [|a l IH]; [cbn; lia|]. cbn [filter]. destruct (f a); cbn; lia. Qed.
Lemma filter_incl_all {X} (f : X -> bool) l : List.length (filter f l) = List.length l -> forall x, In x l -> f x = true.
Proof.
  induction l as [|a l IH]; [intros _ x []|]. cbn [filter]. intros H x. pose proof (filter_le f l). destruct (f a) eqn:E; cbn in H; [|lia].
  intros [<-|Hx]; [exact E|]. apply IH; auto.
Qed.
Lemma broadcast_placed x bdims core : x_ok x -> NoDup (bdims ++ core) -> incl (x_dims x) (bdims ++ core) -> incl core (x_dims x) ->
  exists t, broadcast_compat bdims core x = Ok t /\ placed x (trim (x_dims x) bdims ++ core) t.
Proof.
  intros H N I C. pose proof H as (Ho & Nx & Lx). unfold broadcast_compat. destruct (list_eq_dec string_dec (bdims ++ core) (x_dims x)) as [E|E].
  { eexists. split; [reflexivity|]. assert (T : trim (x_dims x) bdims = bdims) by (apply trim_all; rewrite <- E; intros n Hn; apply in_or_app; now left).
    rewrite T, E. split; [exact Ho|]. split.
    - change (tshape (x_val x)) with (x_shape x). rewrite (shape_named x H). apply map_ext_in. intros n Hn. unfold sizes_of. apply smem_In in Hn. now rewrite Hn.
    - intros env _. unfold x_at. f_equal. apply map_ext_in. intros n Hn. unfold idx_of. apply smem_In in Hn. now rewrite Hn. }
  assert (X : existsb (fun d => negb (smem d (bdims ++ core))) (x_dims x) = false).
  { apply Bool.not_true_is_false. rewrite existsb_exists. intros (d & Hd & F). apply I, smem_In in Hd. rewrite Hd in F. discriminate. }
  rewrite X. set (re := (filter (fun d => smem d (x_dims x)) bdims ++ core)%list).
  assert (Nre : NoDup re).
  { apply NoDup_app_iff in N. destruct N as (N1 & N2 & N3). apply NoDup_app_iff. split; [now apply NoDup_filter|]. split; [exact N2|]. intros d Hd. apply filter_In in Hd. apply N3, Hd. }
  assert (Hre : forall d, In d re <-> In d (x_dims x)).
  { intros d. unfold re. rewrite in_app_iff, filter_In, smem_In. split; [intros [[_ Q]|Q]; auto|]. intros Q. destruct (in_app_or _ _ _ (I d Q)); auto. }
  assert (Pre : Permutation re (x_dims x)) by (now apply NoDup_Permutation).
  destruct (axis_nums_incl (x_dims x) re) as (order & Eo); [intros d; apply Hre|]. rewrite Eo. cbn [rbind]. rewrite (proj2 (sdup_false re) Nre).
  destruct (transpose_named x re order H Pre Eo) as [Hy Sy]. cbv zeta in Hy, Sy. set (y := XA re (ttranspose order (x_val x))) in *.
  assert (Fre : filter (fun n => smem n (x_dims x)) (trim (x_dims x) bdims ++ core) = re).
  { rewrite filter_app, trim_filter. unfold re. f_equal. apply filter_all. intros n Hn. now apply smem_In, C. }
  assert (Sh : tshape (ttranspose order (x_val x)) = map (dim_size x) re).
  { change (x_shape y = map (dim_size x) re). rewrite (shape_named y Hy). apply map_ext_in. intros n Hn. symmetry. apply Sy. now apply Hre. }
  assert (Rd : forall env, x_inside x env -> tget (ttranspose order (x_val x)) (map env re) = x_at x env).
  { intros env He. symmetry. exact (proj2 (proj2 Sy) env He). }
  destruct (list_eq_dec string_dec (bdims ++ core) re) as [Er|Er].
  { eexists. split; [reflexivity|]. assert (All : incl bdims (x_dims x)).
    { unfold re in Er. apply app_inv_tail in Er. intros d Hd. apply smem_In. apply filter_incl_all with (f := fun d => smem d (x_dims x)) (l := bdims); [now rewrite <- Er|exact Hd]. }
    rewrite (trim_all _ _ All), Er. split; [exact (proj1 Hy)|]. rewrite Sh. split.
    - apply map_ext_in. intros n Hn. unfold sizes_of. apply Hre, smem_In in Hn. now rewrite Hn.
    - intros env He. rewrite <- (Rd env He). f_equal. apply map_ext_in. intros n Hn. unfold idx_of. apply Hre, smem_In in Hn. now rewrite Hn. }
  rewrite (key_parts_trim _ _ _ C). set (l := (trim (x_dims x) bdims ++ core)%list) in *. unfold np_getitem. destruct (parts_keys (x_dims x) l) as [D1 D2].
  rewrite expand_exact; [|exact D1|rewrite D2, Fre; unfold tndim; rewrite Sh, map_length; reflexivity]. cbn [rbind]. rewrite Sh, <- Fre, select_parts. cbn [rbind].
  eexists. split; [reflexivity|]. split; [apply tabulate_ok|]. split; [unfold tabulate; cbn [tshape]; apply parts_shape|].
  intros env He. rewrite tget_tabulate.
  - rewrite <- (Rd env He). f_equal. rewrite <- Fre. apply parts_source. intros n _ Hn. now apply He.
  - rewrite parts_shape. clear -He. unfold idx_of. induction l as [|n l IH]; [constructor|]. cbn [map]. constructor; [|exact IH].
    destruct (smem n (x_dims x)) eqn:S; [|lia]. apply He. now apply smem_In.
Qed.
Lemma broadcast_perm x bdims core : x_ok x -> Permutation (bdims ++ core) (x_dims x) ->
  exists t, broadcast_compat bdims core x = Ok t /\ x_ok (XA (bdims ++ core) t) /\ x_same x (XA (bdims ++ core) t).
Proof.
  intros H Pm. assert (N : NoDup (bdims ++ core)) by (eapply Permutation_NoDup; [symmetry; exact Pm|apply H]).
  assert (I : forall d, In d (bdims ++ core) <-> In d (x_dims x)) by (intros d; split; apply Permutation_in; [exact Pm|now symmetry]).
  destruct (broadcast_placed x bdims core H N) as (t & E & T1 & T2 & T3); [intros d; apply I|intros d Hd; apply I, in_or_app; now right|].
  exists t. split; [exact E|]. rewrite trim_all in T2, T3 by (intros d Hd; apply I, in_or_app; now left).
  assert (Si : tshape t = map (dim_size x) (bdims ++ core)).
  { rewrite T2. apply map_ext_in. intros n Hn. unfold sizes_of. apply I, smem_In in Hn. now rewrite Hn. }
  assert (Hy : x_ok (XA (bdims ++ core) t)).
  { split; [exact T1|]. split; [exact N|]. unfold x_shape. cbn [x_dims x_val]. rewrite Si. now rewrite map_length. }
  split; [exact Hy|]. split; [intros d; now rewrite I|]. split.
  - intros d Hd. unfold dim_size at 2, x_shape. cbn [x_dims x_val]. apply I in Hd. destruct (pos_lt _ d Hd) as [P1 P2]. rewrite Si.
    rewrite (nth_indep _ 0 (dim_size x "")) by (now rewrite map_length). rewrite map_nth. now rewrite P2.
  - intros env He. rewrite <- (T3 env He). unfold x_at. cbn [x_val x_dims]. f_equal. apply map_ext_in. intros n Hn. unfold idx_of. apply I, smem_In in Hn. now rewrite Hn.
Qed.

(* ---- transposes of results ------------------------------------------------------------------ *)

Definition l_named {T} (sz : sname -> nat) (dims : list sname) (g : lgrid T) : Prop :=
  lg_dims g = dims /\ grid_ok (lg_val g) /\ gshape (lg_val g) = map sz dims.
Lemma inside_names_valid sz dims env : inside_names sz dims env -> valid (map sz dims) (map env dims).
Proof.
  intros H. induction dims as [|a t IH]; [constructor|]. cbn. constructor; [apply H; now left|]. apply IH. intros b Hb. apply H. now right.
Qed.
Lemma gtranspose_named {T} (d : T) sz dims ds order (g : grid T) : NoDup dims -> Permutation ds dims -> mapR (get_axis_num dims) ds = Ok order ->
  grid_ok g -> gshape g = map sz dims ->
  grid_ok (gtranspose d order g) /\ gshape (gtranspose d order g) = map sz ds /\
  forall env, inside_names sz dims env -> gget d (gtranspose d order g) (map env ds) = gget d g (map env dims).
Proof.
  intros N Pm E Hg Sg. apply axis_nums in E; [|exact N].
  assert (Eo : order = map (fun d => position String.eqb d dims) ds).
  { clear -E N. induction E as [|a n order ds H E IH]; [reflexivity|]. cbn [map]. f_equal; [|exact IH]. symmetry. now apply position_unique. }
  assert (Id : forall n, In n ds -> In n dims) by (intros n; now apply Permutation_in).
  assert (Sh : map (fun a => nth a (gshape g) 0) order = map sz ds).
  { rewrite Eo, map_map. apply map_ext_in. intros n Hn. rewrite Sg. destruct (pos_lt dims n (Id n Hn)) as [P1 P2].
    rewrite (nth_indep _ 0 (sz "")) by (now rewrite map_length). rewrite map_nth. now rewrite P2. }
  split; [apply gtabulate_ok|]. split; [exact Sh|]. intros env He. unfold gtranspose. rewrite gget_gtabulate.
  2: { rewrite Sh. apply inside_names_valid. intros n Hn. now apply He, Id. }
  f_equal. rewrite Sg, map_length. rewrite (map_named env dims). apply map_ext_in. intros a Ha. apply in_seq in Ha.
  assert (Io : In a order).
  { rewrite Eo. apply in_map_iff. exists (nth a dims ""). split; [apply pos_nth; auto; lia|]. apply (Permutation_in _ (Permutation_sym Pm)). apply nth_In. lia. }
  destruct (index_of_lt a order Io) as [P1 P2]. assert (L : List.length order = List.length ds) by (rewrite Eo; apply map_length).
  rewrite (nth_indep _ 0 (env "")) by (rewrite map_length; lia). rewrite map_nth. f_equal.
  set (k := index_of a order) in *. rewrite Eo in P2. rewrite (nth_indep _ 0 (position String.eqb "" dims)) in P2 by (rewrite map_length; lia).
  rewrite (map_nth (fun d => position String.eqb d dims)) in P2. rewrite <- P2. symmetry. apply pos_lt. apply Id, nth_In. lia.
Qed.
Lemma infix_front l all : NoDup l -> incl l all -> infix_dims (None :: map Some l) all = Ok (except_name all l ++ l)%list.
Proof.
  intros N I. unfold infix_dims. cbn [given flat_map app filter]. change (flat_map (fun o : option sname => match o with Some d => [d] | None => [] end) (map Some l)) with (given (map Some l)).
  rewrite given_some, no_dots. cbn [List.length]. rewrite (proj2 (sdup_false l) N), (proj2 (forallb_incl l all) I). cbn [orb negb]. f_equal. rewrite filter_names. f_equal. apply flat_some.
Qed.
Lemma infix_exact l all : NoDup l -> incl l all -> incl all l -> infix_dims (map Some l) all = Ok l.
Proof.
  intros N I J. unfold infix_dims. rewrite given_some, no_dots. cbn [List.length]. now rewrite (proj2 (sdup_false l) N), (proj2 (forallb_incl l all) I), (proj2 (forallb_incl all l) J).
Qed.
Lemma known_some (all l : list sname) : filter (fun o => match o with Some n => smem n all | None => true end) (map Some l) = map Some (filter (fun n => smem n all) l).
Proof. induction l as [|n l IH]; [reflexivity|]. cbn [map filter]. rewrite IH. now destruct (smem n all). Qed.
Lemma l_transpose_ok {T} (d : T) supplied sz dims ds (g : lgrid T) : l_named sz dims g -> NoDup dims ->
  infix_dims (filter (fun o => match o with Some n => smem n dims | None => true end) supplied) dims = Ok ds ->
  exists g', l_transpose d supplied g = Ok g' /\ l_named sz ds g' /\ Permutation ds dims /\
    forall env, inside_names sz dims env -> l_at d g' env = l_at d g env.
Proof.
  intros (E & Hg & Sg) N I. unfold l_transpose. rewrite E, I. cbn [rbind]. destruct (infix_ok _ _ _ N I) as [Pm _].
  destruct (axis_nums_incl dims ds) as (order & Eo); [intros n; now apply Permutation_in|]. rewrite Eo. cbn [rbind].
  destruct (gtranspose_named d sz dims ds order (lg_val g) N Pm Eo Hg Sg) as (G1 & G2 & G3).
  eexists. split; [reflexivity|]. split; [split; [reflexivity|]; now split|]. split; [exact Pm|].
  intros env He. unfold l_at. cbn [lg_val lg_dims]. rewrite E. now apply G3.
Qed.
(* dimensions of the template that the result has go last, in the order of the template *)
Lemma transpose_like_ok {T} (d : T) template replace remove append sz dims (g : lgrid T) : l_named sz dims g -> NoDup dims ->
  let L := filter (fun n => smem n dims) (map replace (except_name template remove) ++ append) in NoDup L ->
  exists g', transpose_like d template replace remove append g = Ok g' /\ l_named sz (except_name dims L ++ L) g' /\
    forall env, inside_names sz dims env -> l_at d g' env = l_at d g env.
Proof.
  intros H N L NL. unfold transpose_like. rewrite filter_names, <- map_app.
  destruct (l_transpose_ok d (None :: map Some (map replace (except_name template remove) ++ append)) sz dims (except_name dims L ++ L) g H N) as (g' & E & G & _ & F).
  - cbn [filter]. rewrite known_some. fold L. apply infix_front; [exact NL|]. intros n Hn. apply filter_In in Hn. now apply smem_In.
  - exists g'. auto.
Qed.

(* ---- sizes of the dimensions ---------------------------------------------------------------------- *)

(* names in the order in which they are met first *)
Definition first_seen (l : list sname) : list sname := rev (nodup string_dec (rev l)).
Lemma first_seen_In l n : In n (first_seen l) <-> In n l.
Proof. unfold first_seen. now rewrite <- in_rev, nodup_In, <- in_rev. Qed.
Lemma first_seen_NoDup l : NoDup (first_seen l).
Proof. apply NoDup_rev, NoDup_nodup. Qed.
Lemma first_seen_snoc l n : first_seen (l ++ [n]) = if smem n l then first_seen l else (first_seen l ++ [n])%list.
Proof.
  unfold first_seen. rewrite rev_app_distr. cbn [rev app nodup]. destruct (in_dec string_dec n (rev l)) as [H|H].
  - apply in_rev, smem_In in H. now rewrite H.
  - assert (X : smem n l = false) by (apply smem_false; now rewrite in_rev). rewrite X. reflexivity.
Qed.
Lemma first_seen_fixed l : NoDup l -> first_seen l = l.
Proof. intros N. unfold first_seen. rewrite nodup_fixed_point by now apply NoDup_rev. apply rev_involutive. Qed.
Lemma lookup_tab (SZ : sname -> nat) l n : lookup n (map (fun n => (n, SZ n)) l) = if smem n l then Some (SZ n) else None.
Proof.
  unfold lookup. induction l as [|a l IH]; [reflexivity|]. cbn [map find fst]. change (smem n (a :: l)) with (String.eqb n a || smem n l)%bool. rewrite (String.eqb_sym n a). destruct (String.eqb_spec a n) as [->|E]; [reflexivity|exact IH].
Qed.
Lemma unify_ok excl SZ pre l : (forall n, In n l -> ~ In n excl -> True) ->
  foldR (unify_dim excl) (map (fun n => (n, SZ n)) l) (map (fun n => (n, SZ n)) (first_seen (except_name pre excl))) =
  Ok (map (fun n => (n, SZ n)) (first_seen (except_name (pre ++ l) excl))).
Proof.
  intros _. revert pre. induction l as [|n l IH]; intros pre; [cbn; now rewrite app_nil_r|].
  replace (pre ++ n :: l)%list with ((pre ++ [n]) ++ l)%list by now rewrite <- app_assoc. cbn [map foldR]. rewrite <- IH. unfold unify_dim at 1. cbn [fst snd].
  assert (Ex : except_name (pre ++ [n]) excl = if smem n excl then except_name pre excl else (except_name pre excl ++ [n])%list).
  { unfold except. rewrite filter_app. cbn [filter]. destruct (in_dec string_dec n excl) as [H|H]; [apply smem_In in H|apply smem_false in H]; rewrite H; [apply app_nil_r|reflexivity]. }
  rewrite Ex. destruct (smem n excl); cbn [rbind]; [reflexivity|]. rewrite lookup_tab, first_seen_snoc.
  assert (X : smem n (first_seen (except_name pre excl)) = smem n (except_name pre excl)).
  { destruct (smem n (except_name pre excl)) eqn:S; [now apply smem_In, first_seen_In, smem_In|]. apply smem_false. rewrite first_seen_In. now apply smem_false. }
  rewrite X. destruct (smem n (except_name pre excl)); [rewrite Nat.eqb_refl|]; cbn [rbind]; [reflexivity|]. f_equal. now rewrite map_app.
Qed.
Lemma combine_named x : x_ok x -> combine (x_dims x) (x_shape x) = map (fun n => (n, dim_size x n)) (x_dims x).
Proof. intros H. rewrite (shape_named x H). generalize (x_dims x). intros l. induction l as [|n l IH]; [reflexivity|]. cbn. now rewrite IH. Qed.
(* the arrays are well-formed and agree about the sizes of dimensions that are not excluded *)
Definition agree (excl : list sname) (SZ : sname -> nat) (xs : list xarr) : Prop :=
  forall x, In x xs -> x_ok x /\ forall n, In n (x_dims x) -> ~ In n excl -> dim_size x n = SZ n.
Lemma unify_same excl SZ SZ' l s : (forall n, In n l -> ~ In n excl -> SZ n = SZ' n) ->
  foldR (unify_dim excl) (map (fun n => (n, SZ n)) l) s = foldR (unify_dim excl) (map (fun n => (n, SZ' n)) l) s.
Proof.
  revert s. induction l as [|n l IH]; intros s H; [reflexivity|]. cbn [map foldR]. unfold unify_dim at 1 3. cbn [fst snd].
  destruct (smem n excl) eqn:S; cbn [rbind]; [apply IH; intros m Hm; apply H; now right|].
  rewrite (H n (or_introl eq_refl) (proj1 (smem_false _ _) S)). destruct (match lookup n s with Some _ => _ | None => _ end); cbn [rbind]; [|reflexivity]. apply IH. intros m Hm. apply H. now right.
Qed.
Lemma unified_ok excl SZ xs : agree excl SZ xs ->
  unified_dim_sizes excl xs = Ok (map (fun n => (n, SZ n)) (first_seen (except_name (flat_map x_dims xs) excl))).
Proof.
  intros H. unfold unified_dim_sizes.
  assert (G : forall xs pre, agree excl SZ xs -> foldR (fun sz x => if sdup (x_dims x) then Raise EValue else foldR (unify_dim excl) (combine (x_dims x) (x_shape x)) sz) xs
    (map (fun n => (n, SZ n)) (first_seen (except_name pre excl))) = Ok (map (fun n => (n, SZ n)) (first_seen (except_name (pre ++ flat_map x_dims xs) excl)))).
  { clear. induction xs as [|x xs IH]; intros pre H; [cbn; now rewrite app_nil_r|]. cbn [foldR flat_map]. destruct (H x (or_introl eq_refl)) as [Hx Sx].
    rewrite (proj2 (sdup_false _) (proj1 (proj2 Hx))), (combine_named x Hx), (unify_same excl _ SZ) by exact Sx. rewrite unify_ok by auto. cbn [rbind].
    rewrite IH by (intros y Hy; apply H; now right). now rewrite app_assoc. }
  exact (G xs [] H).
Qed.
(* otherwise a ValueError *)
Lemma unify_err excl l s e : foldR (unify_dim excl) l s = Raise e -> e = EValue.
Proof.
  revert s. induction l as [|p l IH]; intros s; [discriminate|]. cbn [foldR]. unfold unify_dim at 1. destruct (smem _ _); cbn [rbind]; [apply IH|].
  destruct (lookup _ _); [destruct (Nat.eqb _ _)|]; cbn [rbind]; try apply IH. now intros [= <-].
Qed.

(* ---- apply_ufunc -------------------------------------------------------------------------------------- *)

(* dimensions that are not core dimensions, in the order in which they are met *)
Definition outer_dims (excl core : list sname) (xs : list xarr) : list sname := except_name (first_seen (except_name (flat_map x_dims xs) excl)) core.
Lemma apply_ufunc_eq {T} (args : list (xop * list sname)) out_core excl (f : list tensor -> res (grid T)) SZ ts :
  let xs := labelled_of (map fst args) in let outer := outer_dims excl (flat_map snd args ++ out_core) xs in
  agree excl SZ xs ->
  mapR (fun a => match fst a with Labelled x => broadcast_compat outer (snd a) x | Plain t => Ok t end) args = Ok ts ->
  (forall g, f ts = Ok g -> List.length (gshape g) = List.length (outer ++ out_core) /\
     forall n k, In (n, k) (combine (outer ++ out_core) (gshape g)) -> ~ In n excl -> In n (flat_map x_dims xs) -> k = SZ n) ->
  apply_ufunc args out_core excl f = rmap (LG (outer ++ out_core)) (f ts).
Proof.
  intros xs outer H E F. unfold apply_ufunc. fold xs. rewrite (unified_ok excl SZ xs H). cbn [rbind]. rewrite map_map. cbn [fst]. rewrite map_id, filter_names. fold (outer_dims excl (flat_map snd args ++ out_core) xs). fold outer.
  rewrite E. cbn [rbind]. destruct (f ts) as [g|e] eqn:Ef; cbn [rbind]; [|reflexivity]. destruct (F g eq_refl) as [F1 F2]. rewrite F1, Nat.eqb_refl. cbn [negb].
  destruct (existsb _ _) eqn:X; [|reflexivity]. exfalso. apply existsb_exists in X. destruct X as ([n k] & Hp & X). cbn [fst snd] in X. rewrite lookup_tab in X.
  destruct (smem n _) eqn:S; [|discriminate]. apply smem_In in S. rewrite first_seen_In, except_name_In in S. rewrite (F2 n k Hp) in X by tauto. rewrite Nat.eqb_refl in X. discriminate.
Qed.
(* a result whose sizes do not fit those of the operands *)
Lemma apply_ufunc_size {T} (args : list (xop * list sname)) out_core excl (f : list tensor -> res (grid T)) SZ ts g n k :
  let xs := labelled_of (map fst args) in let outer := outer_dims excl (flat_map snd args ++ out_core) xs in
  agree excl SZ xs ->
  mapR (fun a => match fst a with Labelled x => broadcast_compat outer (snd a) x | Plain t => Ok t end) args = Ok ts -> f ts = Ok g ->
  In (n, k) (combine (outer ++ out_core) (gshape g)) -> ~ In n excl -> In n (flat_map x_dims xs) -> k <> SZ n ->
  apply_ufunc args out_core excl f = Raise EValue.
Proof.
  intros xs outer H E F I1 I2 I3 D. unfold apply_ufunc. fold xs. rewrite (unified_ok excl SZ xs H). cbn [rbind]. rewrite map_map. cbn [fst]. rewrite map_id, filter_names. fold (outer_dims excl (flat_map snd args ++ out_core) xs). fold outer.
  rewrite E. cbn [rbind]. rewrite F. cbn [rbind]. destruct (negb _); [reflexivity|]. destruct (existsb _ _) eqn:X; [reflexivity|]. exfalso. rewrite <- Bool.not_true_iff_false in X. apply X. apply existsb_exists. exists (n, k). split; [exact I1|]. cbn [fst snd].
  rewrite lookup_tab. assert (S : smem n (first_seen (except_name (flat_map x_dims xs) excl)) = true) by (apply smem_In; rewrite first_seen_In, except_name_In; auto).
  rewrite S. destruct (Nat.eqb_spec (SZ n) k); [congruence|reflexivity].
Qed.

(* ---- from positions to names --------------------------------------------------------------------------- *)

Lemma nth_map_dims (sz : sname -> nat) dims k : k < List.length dims -> nth k (map sz dims) 0 = sz (nth k dims "").
Proof. intros H. rewrite (nth_indep _ 0 (sz "")) by (now rewrite map_length). apply map_nth. Qed.
Lemma dim_size_nth y k : x_ok y -> k < List.length (x_dims y) -> shape_of (x_val y) k = dim_size y (nth k (x_dims y) "").
Proof. intros H L. unfold shape_of. change (tshape (x_val y)) with (x_shape y). rewrite (shape_named y H). now apply nth_map_dims. Qed.
Lemma except_seq a m : except_nat (seq 0 (a + S m)) (a :: seq (S a) m) = seq 0 a.
Proof.
  replace (seq 0 (a + S m)) with (seq 0 a ++ a :: seq (S a) m)%list by (rewrite seq_app; reflexivity). unfold except. rewrite filter_app.
  rewrite (filter_all _ (seq 0 a)), (filter_none _ (a :: seq (S a) m)); [apply app_nil_r| |].
  - intros k Hk. destruct (in_dec _ _ _); tauto.
  - intros k Hk. apply in_seq in Hk. destruct (in_dec Nat.eq_dec k (a :: seq (S a) m)) as [[<-|H]|H]; [lia|apply in_seq in H; lia|reflexivity].
Qed.
Lemma map_seq_shift {T} (f : nat -> T) a n : map f (seq a n) = map (fun k => f (a + k)) (seq 0 n).
Proof. revert a f. induction n as [|n IH]; intros a f; [reflexivity|]. cbn [seq map]. rewrite Nat.add_0_r. f_equal. rewrite IH, (IH 1). apply map_ext. intros k. f_equal. lia. Qed.
Lemma map_three {T} (f : nat -> T) a m : map f (seq 0 (a + S m)) = (map f (seq 0 a) ++ f a :: map (fun k => f (S a + k)) (seq 0 m))%list.
Proof. rewrite seq_app, map_app. f_equal. cbn [seq map]. f_equal. apply (map_seq_shift f (S a) m). Qed.

Lemma valid_nth s idx : valid s idx -> forall k, k < List.length s -> nth k idx 0 < nth k s 0.
Proof. intros H. induction H as [|n i s idx Hi H IH]; intros k L; [inversion L|]. destruct k as [|k]; [exact Hi|]. apply IH. cbn in L. lia. Qed.

Section Columns.
  Variables (outer md : list sname) (d : sname) (y : xarr).
  Hypothesis Hy : x_ok y.
  Hypothesis Dy : x_dims y = (outer ++ d :: md)%list.
  Let a := List.length outer.
  Let M := seq (S a) (List.length md).
  Let t := x_val y.

  Lemma y_ndim : tndim t = a + S (List.length md).
  Proof. unfold t, tndim. change (tshape (x_val y)) with (x_shape y). rewrite <- (proj2 (proj2 Hy)), Dy, app_length. reflexivity. Qed.
  Lemma y_outer k : k < a -> shape_of t k = dim_size y (nth k outer "").
  Proof. intros H. unfold t. rewrite dim_size_nth by (auto; rewrite Dy, app_length; unfold a in H; lia). rewrite Dy, app_nth1 by exact H. reflexivity. Qed.
  Lemma y_dim : shape_of t a = dim_size y d.
  Proof. unfold t. rewrite dim_size_nth by (auto; rewrite Dy, app_length; cbn; unfold a; lia). rewrite Dy, app_nth2 by (unfold a; lia). unfold a. now rewrite Nat.sub_diag. Qed.
  Lemma y_mom k : k < List.length md -> shape_of t (S a + k) = dim_size y (nth k md "").
  Proof.
    intros H. unfold t. rewrite dim_size_nth by (auto; rewrite Dy, app_length; cbn; unfold a; lia). rewrite Dy, app_nth2 by (unfold a; lia).
    unfold a. replace (S (List.length outer) + k - List.length outer) with (S k) by lia. reflexivity.
  Qed.
  Lemma y_moments : map (shape_of t) M = map (dim_size y) md.
  Proof. unfold M. rewrite map_seq_shift, (map_named (dim_size y) md). apply map_ext_in. intros k Hk. apply in_seq in Hk. apply y_mom. lia. Qed.
  Lemma y_axes : Forall2 (is_axis (tndim t)) (axes_last (List.length md)) M /\ names_axis (tndim t) (List.length md) (AInt (- (Z.of_nat (List.length md) + 1))) a /\ NoDup (a :: M).
  Proof.
    rewrite y_ndim. split; [apply axes_last_positions; [lia|]; unfold M; f_equal; lia|]. split; [split; [lia|right; lia]|].
    unfold M. constructor; [rewrite in_seq; lia|apply seq_NoDup].
  Qed.
  (* what the position by position result means by name *)
  Lemma columns_named {B T} (dflt : T) (val : B -> list nat -> T) run run' rd newlen r : NoDup (outer ++ rd :: md) ->
    by_columns dflt val run false newlen a M t r ->
    (forall e env, (forall k, k < a -> e k = env (nth k outer "")) -> inside_names (dim_size y) outer env -> run e = run' env) ->
    by_name dflt val run' (outer ++ rd :: md) (result_size (dim_size y) rd newlen) rd md (rmap (LG (outer ++ rd :: md)) r).
  Proof.
    intros N H R. apply NoDup_app_iff in N. destruct N as (N1 & N2 & N3). inversion N2 as [|? ? N4 N5]; subst.
    assert (So : forall n, In n outer -> result_size (dim_size y) rd newlen n = dim_size y n).
    { intros n Hn. unfold result_size. destruct (String.eqb_spec n rd) as [->|]; [|reflexivity]. elim (N3 rd Hn). now left. }
    assert (Sm : forall n, In n md -> result_size (dim_size y) rd newlen n = dim_size y n).
    { intros n Hn. unfold result_size. destruct (String.eqb_spec n rd) as [->|]; [|reflexivity]. tauto. }
    assert (Sr : result_size (dim_size y) rd newlen rd = newlen) by (unfold result_size; now rewrite String.eqb_refl).
    destruct r as [g|e]; cbn [rmap rbind by_name by_columns] in *.
    - destruct H as (H1 & H2 & H3). cbn [column_axes] in H2, H3. rewrite y_ndim in H2, H3.
      assert (Sg : gshape g = map (result_size (dim_size y) rd newlen) (outer ++ rd :: md)).
      { rewrite H2, map_three, map_app. cbn [map]. rewrite Nat.eqb_refl, Sr. f_equal; [|f_equal].
        - rewrite (map_named _ outer). apply map_ext_in. intros k Hk. apply in_seq in Hk. destruct (Nat.eqb_spec k a); [lia|]. rewrite So by (apply nth_In; unfold a in Hk; lia). apply y_outer. lia.
        - rewrite (map_named _ md). apply map_ext_in. intros k Hk. apply in_seq in Hk. destruct (Nat.eqb_spec (S a + k) a); [lia|]. rewrite Sm by (apply nth_In; lia). apply y_mom. lia. }
      split; [reflexivity|]. split; [exact H1|]. split; [exact Sg|]. intros env He.
      set (ns := (outer ++ rd :: md)%list) in *. set (e := fun k => env (nth k ns "")).
      assert (Ea : nth a ns "" = rd) by (unfold ns; rewrite app_nth2 by (unfold a; lia); unfold a; now rewrite Nat.sub_diag).
      assert (Ln : List.length ns = a + S (List.length md)) by (unfold ns; rewrite app_length; reflexivity).
      assert (Ie : inside (fun b => if b =? a then newlen else shape_of t b) (seq 0 (a + S (List.length md))) e).
      { intros k Hk. apply in_seq in Hk. pose proof (f_equal (fun l => nth k l 0) H2) as Q. cbv beta in Q. rewrite Sg, nth_map_dims in Q by lia.
        rewrite (nth_map_in _ _ _ _ 0), seq_nth in Q by (rewrite ?seq_length; lia). cbn [Nat.add] in Q. rewrite <- Q. unfold e. apply He. apply nth_In. lia. }
      destruct (H3 e Ie) as (rows & b & E1 & E2 & E3). exists rows, b. split; [|split].
      + rewrite <- E1. symmetry. apply R.
        * intros k Hk. unfold e, ns. now rewrite app_nth1.
        * intros n Hn. rewrite <- So by exact Hn. apply He. apply in_or_app. now left.
      + unfold e in E2. now rewrite Ea in E2.
      + unfold l_at. cbn [lg_val lg_dims]. rewrite (map_named env ns), Ln. fold e. rewrite E3. f_equal. unfold M. rewrite map_seq_shift, (map_named env md). apply map_ext_in. intros k Hk. apply in_seq in Hk.
        unfold e, ns. rewrite app_nth2 by (unfold a; lia). unfold a. replace (S (List.length outer) + k - List.length outer) with (S k) by lia. reflexivity.
    - destruct H as (e0 & I & E). rewrite y_ndim in I. unfold M in I. rewrite except_seq in I. exists (fun n => e0 (position String.eqb n outer)).
      assert (Io : inside_names (dim_size y) outer (fun n => e0 (position String.eqb n outer))).
      { intros n Hn. destruct (pos_lt outer n Hn) as [P1 P2]. rewrite <- P2 at 2. rewrite <- y_outer by exact P1. apply I. apply in_seq. unfold a. lia. }
      split.
      + intros n Hn. apply except_name_In in Hn. destruct Hn as [Hn Hn']. apply in_app_or in Hn. destruct Hn as [Hn|Hn]; [|tauto]. rewrite So by exact Hn. now apply Io.
      + rewrite <- E. symmetry. apply R; [|exact Io]. intros k Hk. now rewrite pos_nth.
  Qed.

  Context {A : Type} (P : packer A) (HP : packer_ok P).
  Hypothesis Pm : map (dim_size y) md = pk_shape P.
  Lemma y_axis_of_moments : axis_of_moments P (axes_last (List.length md)) (AInt (- (Z.of_nat (List.length md) + 1))) a M t.
  Proof.
    destruct y_axes as (A1 & A2 & A3). split; [apply Hy|]. split; [exact A1|]. split; [unfold M at 1; now rewrite seq_length|]. split; [exact A3|]. rewrite y_moments. exact Pm.
  Qed.
  (* entries by position and by name *)
  Lemma entry_named x e env i m : x_same x y -> (forall k, k < a -> e k = env (nth k outer "")) -> inside_names (dim_size y) outer env ->
    i < dim_size y d -> valid (pk_shape P) m -> entry t (bind M m (bind [a] [i] e)) = x_at x (name_bind md m (name_bind [d] [i] env)).
  Proof.
    intros Sxy E I Hi Hm. pose proof (proj1 (proj2 Hy)) as N. rewrite Dy in N. apply NoDup_app_iff in N. destruct N as (N1 & N2 & N3). inversion N2 as [|? ? N4 N5]; subst.
    destruct y_axes as (_ & _ & Na). inversion Na as [|? ? Na1 Na2]; subst.
    assert (Lm : List.length m = List.length md) by (apply valid_length in Hm; rewrite <- Pm, map_length in Hm; exact Hm).
    set (env' := name_bind md m (name_bind [d] [i] env)).
    assert (Eo : forall n, In n outer -> env' n = env n).
    { intros n Hn. unfold env'. rewrite !name_bind_out; [reflexivity| |]; [intros [<-|[]]|intros Q]; apply (N3 _ Hn); [now left|now right]. }
    assert (Ed : env' d = i) by (unfold env'; rewrite name_bind_out by exact N4; exact (name_bind_in [d] [i] env 0 (NoDup_cons _ (@in_nil _ d) (NoDup_nil _)) eq_refl Nat.lt_0_1)).
    assert (Em : forall k, k < List.length md -> env' (nth k md "") = nth k m 0) by (intros k Hk; apply name_bind_in; auto).
    assert (In' : x_inside y env').
    { intros n Hn. rewrite Dy in Hn. apply in_app_or in Hn. destruct Hn as [Hn|[<-|Hn]].
      - rewrite Eo by exact Hn. now apply I.
      - now rewrite Ed.
      - destruct (pos_lt md n Hn) as [P1 P2]. rewrite <- P2, Em by exact P1. rewrite <- nth_map_dims by exact P1. rewrite Pm. apply valid_nth; [exact Hm|]. rewrite <- Pm, map_length. exact P1. }
    assert (Ix : x_inside x env') by (intros n Hn; rewrite (proj1 (proj2 Sxy) n Hn); apply In', (proj1 Sxy), Hn).
    rewrite (proj2 (proj2 Sxy) env' Ix). unfold x_at, entry. fold t. f_equal. rewrite y_ndim, Dy, map_three, map_app. cbn [map]. f_equal; [|f_equal].
    - rewrite (map_named env' outer). apply map_ext_in. intros k Hk. apply in_seq in Hk. rewrite !bind_out; [|intros [Q|[]]; lia|unfold M; rewrite in_seq; lia].
      rewrite E by lia. symmetry. apply Eo, nth_In. unfold a in Hk. lia.
    - rewrite bind_out by exact Na1. rewrite Ed. rewrite bind_in; [|repeat constructor; intros []|reflexivity|now left]. unfold index_of. cbn [position]. now rewrite Nat.eqb_refl.
    - rewrite (map_named env' md). apply map_ext_in. intros k Hk. apply in_seq in Hk. rewrite Em by lia.
      assert (Q : nth k M 0 = S a + k) by (unfold M; rewrite seq_nth by lia; reflexivity). rewrite <- Q. rewrite bind_in; [|exact Na2|unfold M; rewrite seq_length; exact Lm|].
      + f_equal. apply index_of_nth; [exact Na2|]. unfold M. rewrite seq_length. lia.
      + apply nth_In. unfold M. rewrite seq_length. lia.
  Qed.
  Lemma rows_match x e env : x_same x y -> (forall k, k < a -> e k = env (nth k outer "")) -> inside_names (dim_size y) outer env ->
    rows_along P t [a] M e = rows_named P x [d] md env.
  Proof.
    intros S E I. unfold rows_along, rows_named. cbn [map]. rewrite y_dim. assert (Sd : dim_size x d = dim_size y d).
    { apply (proj1 (proj2 S)). apply (proj1 S). rewrite Dy. apply in_or_app. right. now left. }
    rewrite Sd. apply map_ext_in. intros r Hr. apply all_idx_valid in Hr. inversion Hr as [|? i ? r' Hi Hr']; subst. inversion Hr'; subst.
    unfold moment_at, moments_named. apply (proj1 HP). intros m Hm. now apply entry_named.
  Qed.
End Columns.

(* ---- results by name ------------------------------------------------------------------------------------ *)

Lemma by_name_ext {B T} (dflt : T) (val : B -> list nat -> T) run run' dims sz sz' rd md r :
  (forall n, In n dims -> sz n = sz' n) ->
  (forall env, inside_names sz (except_name dims (rd :: md)) env -> run env = run' env) ->
  by_name dflt val run dims sz rd md r -> by_name dflt val run' dims sz' rd md r.
Proof.
  intros S R. destruct r as [g|e]; cbn [by_name].
  - intros (H1 & H2 & H3 & H4). split; [exact H1|]. split; [exact H2|]. split; [rewrite H3; now apply map_ext_in|].
    intros env He. assert (He' : inside_names sz dims env) by (intros n Hn; rewrite S by exact Hn; now apply He).
    destruct (H4 env He') as (rows & b & E1 & E2). exists rows, b. split; [|exact E2]. rewrite <- R; [exact E1|]. intros n Hn. apply He'. now apply except_name_In in Hn.
  - intros (env & I & E). exists env. split; [|rewrite <- R; [exact E|exact I]]. intros n Hn. rewrite <- S by (now apply except_name_In in Hn). now apply I.
Qed.
Lemma holds_perm {B T} (dflt : T) (val : B -> list nat -> T) run dims ds sz rd md g g' :
  holds_named dflt val run dims sz rd md g -> l_named sz ds g' -> (forall n, In n dims -> In n ds) ->
  (forall env, inside_names sz dims env -> l_at dflt g' env = l_at dflt g env) -> holds_named dflt val run ds sz rd md g'.
Proof.
  intros (H1 & H2 & H3 & H4) (G1 & G2 & G3) I F. split; [exact G1|]. split; [exact G2|]. split; [exact G3|].
  intros env He. assert (He' : inside_names sz dims env) by (intros n Hn; apply He, I, Hn). destruct (H4 env He') as (rows & b & E1 & E2 & E3).
  exists rows, b. rewrite F by exact He'. auto.
Qed.
Lemma holds_l_named {B T} (dflt : T) (val : B -> list nat -> T) run dims sz rd md g : holds_named dflt val run dims sz rd md g -> l_named sz dims g.
Proof. intros (H1 & H2 & H3 & _). split; [exact H1|]. now split. Qed.
(* transposing *)
Lemma by_name_transpose {B T} (dflt : T) (val : B -> list nat -> T) run dims ds sz rd md r F :
  (forall n, In n dims <-> In n ds) ->
  (forall g, l_named sz dims g -> exists g', F g = Ok g' /\ l_named sz ds g' /\ forall env, inside_names sz dims env -> l_at dflt g' env = l_at dflt g env) ->
  by_name dflt val run dims sz rd md r -> by_name dflt val run ds sz rd md (rbind r F).
Proof.
  intros I HF. destruct r as [g|e]; cbn [rbind by_name].
  - intros H. destruct (HF g (holds_l_named _ _ _ _ _ _ _ _ H)) as (g' & -> & G1 & G2). apply (holds_perm dflt val run dims ds sz rd md g g' H G1); [intros n; apply I|exact G2].
  - intros (env & J & E). exists env. split; [|exact E]. intros n Hn. apply J. apply except_name_In in Hn. apply except_name_In. now rewrite I.
Qed.

Section LabelledMoments.
  Context {A : Type} (P : packer A) (HP : packer_ok P).
  Variables (x : xarr) (md : list sname) (d : sname).
  Hypothesis HM : labelled_moments P md x.
  Hypothesis Hd : In d (x_dims x).
  Hypothesis Nd : ~ In d md.
  Let dims := x_dims x.
  Let outer := except_name dims (d :: md).

  Lemma lm_perm : Permutation (outer ++ d :: md) dims.
  Proof.
    destruct HM as (Hx & Nm & Im & _). destruct Hx as (_ & Nx & _). unfold outer. apply NoDup_Permutation; [|exact Nx|].
    - apply NoDup_app_iff. split; [now apply NoDup_filter|]. split; [now constructor|]. intros n Hn. now apply except_name_In in Hn.
    - intros n. rewrite in_app_iff, except_name_In. destruct (in_dec string_dec n (d :: md)) as [H|H]; [|tauto].
      split; [intros _|tauto]. destruct H as [<-|H]; [exact Hd|now apply Im].
  Qed.
  Lemma lm_In n : In n (outer ++ d :: md) <-> In n dims.
  Proof. split; apply Permutation_in; [apply lm_perm|apply Permutation_sym, lm_perm]. Qed.
  Lemma lm_NoDup : NoDup (outer ++ d :: md).
  Proof. eapply Permutation_NoDup; [apply Permutation_sym, lm_perm|]. apply HM. Qed.
  Lemma lm_data : exists t, broadcast_compat outer (d :: md) x = Ok t /\ x_ok (XA (outer ++ d :: md) t) /\ x_same x (XA (outer ++ d :: md) t).
  Proof. apply broadcast_perm; [apply HM|apply lm_perm]. Qed.
  Lemma lm_len : List.length md = List.length (pk_shape P).
  Proof. destruct HM as (_ & _ & _ & E). rewrite <- E. now rewrite map_length. Qed.
  Lemma lm_moments y : x_same x y -> map (dim_size y) md = pk_shape P.
  Proof. intros S. destruct HM as (_ & _ & I & E). rewrite <- E. apply map_ext_in. intros n Hn. symmetry. apply S. now apply I. Qed.
  Lemma rows_named_ext env env' : (forall n, In n outer -> env n = env' n) -> rows_named P x [d] md env = rows_named P x [d] md env'.
  Proof.
    intros H. destruct HM as (Hx & Nm & Im & Em). unfold rows_named. apply map_ext_in. intros r Hr. apply all_idx_valid, valid_length in Hr. cbn in Hr.
    unfold moments_named. apply (proj1 HP). intros m Hm. apply valid_length in Hm. unfold x_at. f_equal. apply map_ext_in. intros n Hn.
    destruct (in_dec string_dec n md) as [Q|Q].
    - destruct (pos_lt md n Q) as [P1 P2]. rewrite <- P2. rewrite !name_bind_in; auto; rewrite lm_len; exact Hm.
    - rewrite !(name_bind_out md) by exact Q. destruct (string_dec n d) as [->|Q'].
      + unfold name_bind. destruct r as [|i r]; [discriminate|]. cbn. now rewrite String.eqb_refl.
      + rewrite !name_bind_out by (intros [E|[]]; congruence). apply H. apply except_name_In. split; [exact Hn|]. intros [E|E]; [congruence|tauto].
  Qed.

  (* transposing back: the dimensions of the data in their order, rd in place of d *)
  Lemma back_named {T} (dflt : T) sz rd (g : lgrid T) : (rd = d \/ ~ In rd dims) -> l_named sz (outer ++ rd :: md) g ->
    exists g', transpose_like dflt dims (fun n => if String.eqb n d then rd else n) [] [] g = Ok g' /\
      l_named sz (result_dims false dims d rd md) g' /\ forall env, inside_names sz (outer ++ rd :: md) env -> l_at dflt g' env = l_at dflt g env.
  Proof.
    intros Hr G. pose proof lm_NoDup as N. pose proof (proj1 (proj2 (proj1 HM))) as Nx. fold dims in Nx.
    set (rep := fun n => if String.eqb n d then rd else n).
    assert (Inj : forall a b, In a dims -> In b dims -> rep a = rep b -> a = b).
    { intros a b Ha Hb. unfold rep. destruct (String.eqb_spec a d) as [->|], (String.eqb_spec b d) as [->|]; try congruence; intros E; subst; destruct Hr as [Q|Q]; congruence. }
    assert (Nr : NoDup (map rep dims)) by (now apply NoDup_map_in).
    assert (No : NoDup (outer ++ rd :: md)).
    { apply NoDup_app_iff in N. destruct N as (N1 & N2 & N3). inversion N2; subst. apply NoDup_app_iff. split; [exact N1|]. split.
      - constructor; [|assumption]. destruct Hr as [->|Hr]; [assumption|]. intros Q. apply Hr. now apply HM.
      - intros n Hn [->|Q]; [|now apply (N3 n Hn); right]. destruct Hr as [->|Hr]; [now apply (N3 d Hn); left|]. apply Hr. now apply except_name_In in Hn. }
    assert (Same : forall n, In n (map rep dims) <-> In n (outer ++ rd :: md)).
    { intros n. rewrite in_map_iff. split.
      - intros (m & <- & Hm). unfold rep. destruct (String.eqb_spec m d) as [->|Q]; [apply in_or_app; right; now left|].
        apply lm_In, in_app_or in Hm. apply in_or_app. destruct Hm as [Hm|[->|Hm]]; [now left|congruence|right; now right].
      - intros Hn. apply in_app_or in Hn. destruct Hn as [Hn|[<-|Hn]].
        + exists n. apply except_name_In in Hn. unfold rep. destruct (String.eqb_spec n d) as [->|]; [destruct Hn as [_ Hn]; elim Hn; now left|]. tauto.
        + exists d. unfold rep. rewrite String.eqb_refl. auto.
        + exists n. unfold rep. destruct (String.eqb_spec n d) as [->|]; [tauto|]. split; [reflexivity|]. now apply HM. }
    assert (FL : filter (fun n => smem n (outer ++ rd :: md)) (map rep (except_name dims []) ++ []) = map rep dims).
    { rewrite app_nil_r. unfold except. rewrite (filter_all _ dims) by (intros; reflexivity). apply filter_all. intros n Hn. now apply smem_In, Same. }
    destruct (transpose_like_ok dflt dims rep [] [] sz (outer ++ rd :: md) g G No) as (g' & E & G' & F).
    { cbv zeta. now rewrite FL. }
    cbv zeta in G'. rewrite FL in G'. exists g'. split; [exact E|]. split; [|exact F].
    assert (X : except_name (outer ++ rd :: md) (map rep dims) = []) by (apply filter_none; intros n Hn; apply Same in Hn; destruct (in_dec _ _ _); tauto).
    rewrite X in G'. exact G'.
  Qed.
  Lemma result_dims_In rd n : (rd = d \/ ~ In rd dims) -> In n (outer ++ rd :: md) <-> In n (result_dims false dims d rd md).
  Proof.
    intros Hr. cbn [result_dims]. rewrite in_map_iff. split.
    - intros Hn. apply in_app_or in Hn. destruct Hn as [Hn|[<-|Hn]].
      + exists n. apply except_name_In in Hn. destruct (String.eqb_spec n d) as [->|]; [destruct Hn as [_ Hn]; elim Hn; now left|]. tauto.
      + exists d. rewrite String.eqb_refl. auto.
      + exists n. destruct (String.eqb_spec n d) as [->|]; [tauto|]. split; [reflexivity|]. now apply HM.
    - intros (m & <- & Hm). destruct (String.eqb_spec m d) as [->|Q]; [apply in_or_app; right; now left|].
      apply lm_In, in_app_or in Hm. apply in_or_app. destruct Hm as [Hm|[->|Hm]]; [now left|congruence|right; now right].
  Qed.
  Lemma result_dims_same to_end : result_dims to_end dims d d md = if to_end then (outer ++ d :: md)%list else dims.
  Proof.
    destruct to_end; [reflexivity|]. cbn [result_dims]. rewrite <- (map_id dims) at 2. apply map_ext. intros n. destruct (String.eqb_spec n d); congruence.
  Qed.
  (* finish of a result that keeps the name d *)
  Lemma finish_by_name {B T} (dflt : T) (val : B -> list nat -> T) run sz to_end r :
    by_name dflt val run (outer ++ d :: md) sz d md r -> by_name dflt val run (result_dims to_end dims d d md) sz d md (rbind r (finish dflt to_end x)).
  Proof.
    intros H. destruct to_end; [destruct r; exact H|]. cbn [finish]. apply (by_name_transpose dflt val run (outer ++ d :: md)); [intros n; apply result_dims_In; now left| |exact H].
    intros g Hg. destruct (back_named dflt sz d g (or_introl eq_refl) Hg) as (g' & E & G). exists g'. split; [|exact G]. rewrite <- E. unfold finish, transpose_like. fold dims.
    rewrite (map_ext (fun n => if String.eqb n d then d else n) (fun n => n)) by (intros n; destruct (String.eqb_spec n d); congruence). reflexivity.
  Qed.
End LabelledMoments.

Lemma ma_ndim {A V} (K : pusher A V) ok P : moment_array K ok P -> List.length (pk_shape P) = 1 \/ List.length (pk_shape P) = 2.
Proof. intros H. destruct H; cbn; auto. Qed.
Lemma chooses_select x md axis dim d : NoDup (x_dims x) -> ~ In d md -> chooses (List.length md) axis dim d x ->
  exists a, nth_error (x_dims x) a = Some d /\ select_axis_dim (params_for md) (XArr (x_dims x)) axis dim Missing Missing false = Ok (a, d).
Proof.
  intros N Nd H.
  assert (C : counted (params_for md) = List.length md) by (unfold counted, params_for; cbn; apply Nat2Z.id).
  assert (M : ~ is_moment (params_for md) d) by exact Nd.
  destruct H as [(-> & -> & Hd)|(-> & ax & a & -> & Ha & E)].
  - destruct (pos_lt _ _ Hd) as [P1 P2]. exists (position String.eqb d (x_dims x)). assert (E : nth_error (x_dims x) (position String.eqb d (x_dims x)) = Some d) by (rewrite <- P2 at 2; now apply nth_error_nth').
    split; [exact E|]. apply select_axis_dim_exact; [exact N|]. auto.
  - exists a. split; [exact E|]. apply select_axis_dim_exact; [exact N|]. split; [exact E|]. split; [auto|]. left. exists ax. rewrite C. auto.
Qed.
Lemma with_dim_eq {X} x md axis dim d (f : nat -> sname -> list sname -> list Z -> axis_arg -> res X) :
  NoDup (x_dims x) -> ~ In d md -> List.length md = 1 \/ List.length md = 2 -> chooses (List.length md) axis dim d x ->
  exists a, nth_error (x_dims x) a = Some d /\
    with_dim (params_for md) axis dim x f = f a d (d :: md) (axes_last (List.length md)) (AInt (- (Z.of_nat (List.length md) + 1))).
Proof.
  intros N Nd L H. destruct (chooses_select x md axis dim d N Nd H) as (a & E1 & E2). exists a. split; [exact E1|].
  unfold with_dim. rewrite E2. cbn [rbind]. unfold core_dims, iter_dims, array_axes, x_to_array, get_axes, neg_axis. cbn [xp_dims xp_ndim params_for rbind app].
  destruct L as [L|L]; rewrite L; reflexivity.
Qed.
Lemma chooses_dim x m axis dim d : chooses m axis dim d x -> In d (x_dims x).
Proof. intros [(_ & _ & H)|(_ & ax & a & _ & _ & E)]; [exact H|]. eapply nth_error_In; eauto. Qed.

Lemma filter_twice {X} (f g : X -> bool) l : filter f (filter g l) = filter (fun x => (g x && f x)%bool) l.
Proof. induction l as [|a l IH]; [reflexivity|]. cbn [filter]. destruct (g a); cbn [andb filter]; now rewrite IH. Qed.
Lemma combine_map_r {X Y} (f : X -> Y) l : combine l (map f l) = map (fun x => (x, f x)) l.
Proof. induction l as [|a l IH]; [reflexivity|]. cbn. now rewrite IH. Qed.
Section OneOperand.
  Context {A : Type} (P : packer A) (HP : packer_ok P) {B T : Type}.
  Variables (x : xarr) (md : list sname) (d : sname).
  Hypothesis HM : labelled_moments P md x.
  Hypothesis Hd : In d (x_dims x).
  Hypothesis Nd : ~ In d md.
  Let dims := x_dims x.
  Let outer := except_name dims (d :: md).

  Lemma outer_dims_one excl : excl = [] \/ excl = [d] -> outer_dims excl ((d :: md) ++ d :: md) [x] = outer.
  Proof.
    intros He. unfold outer_dims. cbn [flat_map]. rewrite app_nil_r. fold dims. pose proof (proj1 (proj2 (proj1 HM))) as Nx. fold dims in Nx.
    rewrite first_seen_fixed by (now apply NoDup_filter). unfold outer, except. rewrite filter_twice. apply filter_ext. intros n.
    destruct He as [->| ->].
    - destruct (in_dec string_dec n []) as [[]|_]. cbn [andb].
      destruct (in_dec string_dec n ((d :: md) ++ d :: md)) as [H|H], (in_dec string_dec n (d :: md)) as [H'|H']; try reflexivity; exfalso; rewrite in_app_iff in H; tauto.
    - destruct (in_dec string_dec n [d]) as [H0|H0]; cbn [andb];
      destruct (in_dec string_dec n ((d :: md) ++ d :: md)) as [H|H], (in_dec string_dec n (d :: md)) as [H'|H']; try reflexivity; exfalso; rewrite in_app_iff in H; cbn in *; tauto.
  Qed.
  (* a function along d of one labelled array *)
  Lemma one_operand (dflt : T) (val : B -> list nat -> T) (F : list A -> res (list B)) (f : tensor -> res (grid T)) newlen excl to_end :
    (excl = [] /\ newlen = dim_size x d \/ excl = [d]) ->
    (forall t a M, axis_of_moments P (axes_last (List.length md)) (AInt (- (Z.of_nat (List.length md) + 1))) a M t -> shape_of t a = dim_size x d ->
       by_columns dflt val (fun e => F (rows_along P t [a] M e)) false newlen a M t (f t)) ->
    by_name dflt val (fun env => F (rows_named P x [d] md env)) (result_dims to_end dims d d md) (result_size (dim_size x) d newlen) d md
      (rbind (apply_ufunc [(Labelled x, d :: md)] (d :: md) excl (fun ts => f (arg 0 ts))) (finish dflt to_end x)).
  Proof.
    intros He Hf. apply (finish_by_name P); auto. fold dims outer.
    destruct (lm_data P x md d HM Hd Nd) as (t & E & Hy & Sy). fold dims outer in E, Hy, Sy. set (y := XA (outer ++ d :: md) t) in *.
    assert (Pm : map (dim_size y) md = pk_shape P) by (exact (lm_moments P x md HM y Sy)).
    pose proof (y_axis_of_moments outer md d y Hy eq_refl P Pm) as HA. cbv zeta in HA. cbn [x_val] in HA.
    assert (Sd : shape_of t (List.length outer) = dim_size x d).
    { etransitivity; [exact (y_dim outer md d y Hy eq_refl)|]. symmetry. now apply Sy. }
    specialize (Hf t _ _ HA Sd).
    assert (N : NoDup (outer ++ d :: md)) by (exact (lm_NoDup P x md d HM Hd Nd)).
    pose proof (columns_named outer md d y Hy eq_refl dflt val _ (fun env => F (rows_named P x [d] md env)) d newlen (f t) N Hf) as C.
    assert (C' : by_name dflt val (fun env => F (rows_named P x [d] md env)) (outer ++ d :: md) (result_size (dim_size y) d newlen) d md (rmap (LG (outer ++ d :: md)) (f t))).
    { apply C. intros e env He' Hi. f_equal. apply (rows_match outer md d y Hy eq_refl P HP Pm x e env Sy He' Hi). }
    clear C.
    assert (Sz : forall n, In n (outer ++ d :: md) -> result_size (dim_size y) d newlen n = result_size (dim_size x) d newlen n).
    { intros n Hn. unfold result_size. destruct (String.eqb n d); [reflexivity|]. symmetry. apply Sy. now apply (lm_In P x md d HM Hd Nd). }
    apply (by_name_ext dflt val _ (fun env => F (rows_named P x [d] md env)) _ _ (result_size (dim_size x) d newlen)) in C'; [|exact Sz|reflexivity].
    rewrite (apply_ufunc_eq [(Labelled x, d :: md)] (d :: md) excl (fun ts => f (arg 0 ts)) (dim_size x) [t]).
    - cbv zeta. cbn [flat_map fst snd labelled_of map]. rewrite app_nil_r, outer_dims_one by tauto. exact C'.
    - intros z [<-|[]]. split; [apply HM|auto].
    - cbn [map flat_map fst snd labelled_of app]. rewrite app_nil_r, outer_dims_one by tauto. cbn [mapR fst snd]. rewrite E. reflexivity.
    - cbn [map flat_map fst snd labelled_of app arg nth]. rewrite !app_nil_r, outer_dims_one by tauto. intros g Eg. rewrite Eg in C'. cbn [rmap rbind by_name] in C'. destruct C' as (_ & _ & Sg & _). cbn [lg_val] in Sg. rewrite Sg, map_length. split; [reflexivity|].
      intros n k Hk Hn _. rewrite combine_map_r in Hk. apply in_map_iff in Hk. destruct Hk as (n' & Q & _). inversion Q; subst. unfold result_size. destruct (String.eqb_spec n d) as [->|]; [|reflexivity].
      destruct He as [[_ ->]| ->]; [reflexivity|]. elim Hn. now left.
  Qed.
  Lemma one_operand_same (dflt : T) (val : B -> list nat -> T) (F : list A -> res (list B)) (f : tensor -> res (grid T)) to_end :
    (forall t a M, axis_of_moments P (axes_last (List.length md)) (AInt (- (Z.of_nat (List.length md) + 1))) a M t -> shape_of t a = dim_size x d ->
       by_columns dflt val (fun e => F (rows_along P t [a] M e)) false (shape_of t a) a M t (f t)) ->
    by_name dflt val (fun env => F (rows_named P x [d] md env)) (result_dims to_end dims d d md) (dim_size x) d md
      (rbind (apply_ufunc [(Labelled x, d :: md)] (d :: md) [] (fun ts => f (arg 0 ts))) (finish dflt to_end x)).
  Proof.
    intros H. eapply by_name_ext; [| |apply (one_operand dflt val F f (dim_size x d) [] to_end); [now left|]].
    - intros n _. unfold result_size. destruct (String.eqb_spec n d); congruence.
    - reflexivity.
    - intros t a M HA Sd. rewrite <- Sd at 1. now apply H.
  Qed.
  Lemma one_operand_raise (dflt : T) (f : tensor -> res (grid T)) e excl to_end :
    excl = [] \/ excl = [d] ->
    (forall t a M, axis_of_moments P (axes_last (List.length md)) (AInt (- (Z.of_nat (List.length md) + 1))) a M t -> shape_of t a = dim_size x d -> f t = Raise e) ->
    rbind (apply_ufunc [(Labelled x, d :: md)] (d :: md) excl (fun ts => f (arg 0 ts))) (finish dflt to_end x) = Raise e.
  Proof.
    intros He Hf.
    destruct (lm_data P x md d HM Hd Nd) as (t & E & Hy & Sy). fold dims outer in E, Hy, Sy. set (y := XA (outer ++ d :: md) t) in *.
    assert (Pm : map (dim_size y) md = pk_shape P) by (exact (lm_moments P x md HM y Sy)).
    pose proof (y_axis_of_moments outer md d y Hy eq_refl P Pm) as HA. cbv zeta in HA. cbn [x_val] in HA.
    assert (Sd : shape_of t (List.length outer) = dim_size x d).
    { etransitivity; [exact (y_dim outer md d y Hy eq_refl)|]. symmetry. now apply Sy. }
    specialize (Hf t _ _ HA Sd).
    rewrite (apply_ufunc_eq [(Labelled x, d :: md)] (d :: md) excl (fun ts => f (arg 0 ts)) (dim_size x) [t]).
    - cbn [arg nth]. rewrite Hf. reflexivity.
    - intros z [<-|[]]. split; [apply HM|auto].
    - cbn [map flat_map fst snd labelled_of app]. rewrite app_nil_r, outer_dims_one by tauto. cbn [mapR fst snd]. rewrite E. reflexivity.
    - cbn [arg nth]. rewrite Hf. discriminate.
  Qed.
  (* renaming d in the result *)
  Lemma rename_by_name (dflt : T) (val : B -> list nat -> T) run newlen to_end r new :
    (forall env env', (forall n, In n outer -> env n = env' n) -> run env = run env') ->
    let rd := match new with Some n => n | None => d end in
    (rd = d \/ ~ In rd dims) ->
    by_name dflt val run (result_dims to_end dims d d md) (result_size (dim_size x) d newlen) d md r ->
    by_name dflt val run (result_dims to_end dims d rd md) (result_size (dim_size x) rd newlen) rd md (rbind r (opt_rename d new)).
  Proof.
    intros Rx rd Hr H. destruct new as [n|]; cbn [rd opt_rename]; [|destruct r; exact H]. subst rd. cbv zeta in *.
    destruct (string_dec n d) as [->|Q].
    { destruct r as [g|e]; [|exact H]. cbn [rbind opt_rename]. unfold l_rename. rewrite String.eqb_refl. cbn [negb andb]. rewrite (map_ext _ (fun n => n)), map_id by (intros n; destruct (String.eqb_spec n d); congruence). now destruct g. }
    destruct Hr as [|Hr]; [congruence|].
    set (rep := fun m => if String.eqb m d then n else m).
    assert (Dm : map rep (result_dims to_end dims d d md) = result_dims to_end dims d n md).
    { pose proof (result_dims_same x md d to_end) as RS; fold dims outer in RS; rewrite RS; clear RS. destruct to_end; [|reflexivity]. cbn [result_dims]. rewrite map_app. cbn [map]. replace (rep d) with n by (unfold rep; now rewrite String.eqb_refl). f_equal; [|f_equal].
      - transitivity (map (fun m => m) outer); [|apply map_id]. apply map_ext_in. intros m Hm. apply except_name_In in Hm. unfold rep. destruct (String.eqb_spec m d) as [->|]; [|reflexivity]. destruct Hm as [_ Hm]. elim Hm. now left.
      - transitivity (map (fun m => m) md); [|apply map_id]. apply map_ext_in. intros m Hm. unfold rep. destruct (String.eqb_spec m d) as [->|]; [tauto|reflexivity]. }
    assert (Ir : forall m, In m (result_dims to_end dims d d md) <-> In m dims).
    { intros m. pose proof (result_dims_same x md d to_end) as RS; fold dims outer in RS; rewrite RS; clear RS. destruct to_end; [|reflexivity]. apply (lm_In P x md d HM Hd Nd). }
    assert (Rn : forall m, In m dims -> m <> n) by (intros m Hm ->; tauto).
    destruct r as [g|e]; cbn [rbind by_name] in *.
    - destruct H as (H1 & H2 & H3 & H4). cbn [opt_rename]. unfold l_rename. rewrite H1. assert (Sn : smem n (result_dims to_end dims d d md) = false) by (apply smem_false; rewrite Ir; exact Hr).
      rewrite Sn, Bool.andb_false_r. cbn [by_name]. split; [exact Dm|]. cbn [lg_val lg_dims]. split; [exact H2|].
      assert (Rs : forall m, In m dims -> result_size (dim_size x) n newlen (rep m) = result_size (dim_size x) d newlen m).
      { intros m Hm. unfold rep, result_size. destruct (String.eqb_spec m d) as [->|]; [now rewrite String.eqb_refl|]. destruct (String.eqb_spec m n) as [->|]; [tauto|reflexivity]. }
      split; [rewrite H3, <- Dm, map_map; apply map_ext_in; intros m Hm; symmetry; now apply Rs, Ir|].
      intros env He. set (env' := fun m => env (rep m)).
      assert (He' : inside_names (result_size (dim_size x) d newlen) (result_dims to_end dims d d md) env').
      { intros m Hm. unfold env'. rewrite <- Rs by now apply Ir. apply He. rewrite <- Dm. now apply in_map. }
      destruct (H4 env' He') as (rows & b & E1 & E2 & E3). exists rows, b. split; [|split].
      + rewrite <- E1. apply Rx. intros m Hm. apply except_name_In in Hm. unfold env', rep. destruct (String.eqb_spec m d) as [->|]; [|reflexivity]. destruct Hm as [_ Hm]. elim Hm. now left.
      + rewrite <- E2. f_equal. unfold env', rep. now rewrite String.eqb_refl.
      + unfold l_at in *. cbn [lg_val lg_dims]. rewrite H1 in E3. rewrite map_map. change (map (fun x0 => env (if String.eqb x0 d then n else x0))) with (map env'). rewrite E3. f_equal. apply map_ext_in. intros m Hm. unfold env', rep. destruct (String.eqb_spec m d) as [->|]; [tauto|reflexivity].
    - destruct H as (env & I & E). exists env. split; [|exact E]. intros m Hm. apply except_name_In in Hm. destruct Hm as [Hm1 Hm2].
      assert (Hmd : m <> d). { intros ->. rewrite <- Dm in Hm1. apply in_map_iff in Hm1. destruct Hm1 as (m' & E' & _). unfold rep in E'. destruct (String.eqb_spec m' d); congruence. }
      assert (Q' : result_size (dim_size x) n newlen m = result_size (dim_size x) d newlen m).
      { unfold result_size. destruct (String.eqb_spec m n) as [->|]; [elim Hm2; now left|]. destruct (String.eqb_spec m d); congruence. }
      rewrite Q'. apply I. apply except_name_In. split; [|intros [->|Hn]; [congruence|apply Hm2; now right]].
      rewrite <- Dm in Hm1. apply in_map_iff in Hm1. destruct Hm1 as (m' & E' & Hm'). unfold rep in E'. destruct (String.eqb_spec m' d); [subst; elim Hm2; now left|]. now subst.
  Qed.
  (* a name the data have already *)
  Lemma rename_collides (dflt : T) (val : B -> list nat -> T) run newlen to_end r n :
    by_name dflt val run (result_dims to_end dims d d md) (result_size (dim_size x) d newlen) d md r ->
    n <> d -> In n dims -> exists e, rbind r (opt_rename d (Some n)) = Raise e /\ (forall g, r = Ok g -> e = EValue).
  Proof.
    intros H Q I. destruct r as [g|e]; cbn [rbind opt_rename]; [|exists e; split; [reflexivity|discriminate]]. exists EValue. split; [|auto].
    cbn [by_name] in H. destruct H as (H1 & _). cbn [opt_rename]. unfold l_rename. rewrite H1. destruct (String.eqb_spec d n); [congruence|]. cbn [negb andb].
    assert (S : smem n (result_dims to_end dims d d md) = true). { apply smem_In. pose proof (result_dims_same x md d to_end) as RS; fold dims outer in RS; rewrite RS; clear RS. destruct to_end; [|exact I]. now apply (lm_In P x md d HM Hd Nd). }
    now rewrite S.
  Qed.
End OneOperand.
