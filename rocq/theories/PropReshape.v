(* Wrapper objects as containers of moment arrays, continued: new_like, pipe,
   reshape, resample, moveaxis and concat of CentralMomentsArray (C59, C60). *)
From Coq Require Import String Permutation.
From Verif Require Import Base BaseLemmas Checks ModelKernels ModelIndex ModelAxes ModelState ModelParams ModelWrap SpecAxes ProofAxes ProofArrays PropAxes PropParams PropWrap.
Local Open Scope string_scope.
Local Open Scope nat_scope.

(* ---- new_like ---------------------------------------------------------------------- *)

(* an object with the parameters of c passes construction unchanged *)
Lemma init_same c vs ms t vs' : holds c vs ms -> tensor_ok t -> tshape t = (vs' ++ ms)%list ->
  c_init (as_arg (c_params c)) None None t = Ok (CM t (c_params c)) /\ holds (CM t (c_params c)) vs' ms.
Proof.
  intros (_ & _ & L & M2 & P) Ht Es. rewrite P. split; [|repeat split; auto].
  unfold c_init, as_arg, array_factory. cbn [ap_ndim ap_axes is_array_params rbind].
  assert (G : mapR (py_get (tshape t)) (axes_last (List.length ms)) = Ok ms) by (rewrite Es; now apply last_axes_get).
  destruct (checked_iff t (Some (Z.of_nat (List.length ms))) _ _ G L) as [C _]. destruct (C M2) as [C1 C2]. rewrite C1. cbn [rbind].
  unfold axes_to_end. cbn [ap_ndim]. rewrite axes_last_of_nat by exact L. cbn [rbind ap_axes].
  rewrite (proj2 (axes_eqb_eq _ _) eq_refl). cbn [rbind fst snd]. exact C2.
Qed.
(* new_like takes an array exactly when it ends in the moment shape of c (and, with
   verify, has the shape of c); it is kept as it is.  Anything else: ValueError. *)
Theorem new_like_exact : forall c vs ms t verify, holds c vs ms -> tensor_ok t ->
  (exists vs', tshape t = (vs' ++ ms)%list /\ (verify = true -> vs' = vs) /\
     c_new_like c (Some t) verify = Ok (CM t (c_params c)) /\ holds (CM t (c_params c)) vs' ms) \/
  (~ (exists vs', tshape t = (vs' ++ ms)%list /\ (verify = true -> vs' = vs)) /\ c_new_like c (Some t) verify = Raise EValue).
Proof.
  intros c vs ms t verify H Ht. unfold c_new_like. destruct (c_check_like c t) as [[]|e] eqn:E; cbn [rbind].
  - apply (check_like_ok _ _ _ _ H) in E. destruct E as (vs' & E).
    assert (Q : nats_eqb (tshape t) (c_shape c) = true <-> vs' = vs).
    { rewrite nats_eqb_eq, E. pose proof H as (_ & -> & _). split; [apply app_inv_tail|now intros ->]. }
    destruct (verify && negb (nats_eqb (tshape t) (c_shape c)))%bool eqn:B.
    + right. split; [|reflexivity]. apply Bool.andb_true_iff in B. destruct B as [Bv B]. intros (v & E' & V). specialize (V Bv).
      assert (v = vs') by (apply (app_inv_tail ms); congruence). subst. rewrite (proj2 Q eq_refl) in B. discriminate.
    + left. exists vs'. destruct (init_same c vs ms t vs' H Ht E) as [I1 I2]. split; [exact E|]. split; [|split; assumption].
      intros ->. cbn [andb] in B. apply Q. now apply Bool.negb_false_iff.
  - right. rewrite (check_like_err _ _ _ _ _ H E). split; [|reflexivity]. intros (v & E' & _).
    assert (X : c_check_like c t = Ok tt) by (apply (check_like_ok _ _ _ _ H); eauto). congruence.
Qed.
(* without an array: zeros of the same shape *)
Theorem new_like_zeros : forall c vs ms verify, holds c vs ms ->
  exists c', c_new_like c None verify = Ok c' /\ holds c' vs ms /\
    forall idx midx, valid vs idx -> valid ms midx -> mom_entry c' idx midx = 0%Qc.
Proof.
  intros c vs ms verify H. unfold c_new_like. pose proof H as (_ & Hs & _). rewrite Hs.
  destruct (init_same c vs ms (tabulate (vs ++ ms) (fun _ => 0%Qc)) vs H (tabulate_ok _ _) eq_refl) as [I1 I2].
  eexists. split; [exact I1|]. split; [exact I2|]. intros idx midx V1 V2. unfold mom_entry. cbn [c_obj]. apply tget_tabulate. now apply Forall2_app.
Qed.
(* pipe: the function's array in an object with the same parameters *)
Theorem pipe_exact : forall c vs ms f verify, holds c vs ms ->
  (forall t, f (c_obj c) = Ok t -> tensor_ok t) ->
  (forall t vs', f (c_obj c) = Ok t -> tshape t = (vs' ++ ms)%list -> (verify = true -> vs' = vs) -> c_pipe c f verify = Ok (CM t (c_params c))) /\
  (forall c', c_pipe c f verify = Ok c' -> exists t vs', f (c_obj c) = Ok t /\ c' = CM t (c_params c) /\ holds c' vs' ms /\ (verify = true -> vs' = vs)) /\
  (forall e, f (c_obj c) = Raise e -> c_pipe c f verify = Raise e).
Proof.
  intros c vs ms f verify H Hf. unfold c_pipe. split; [|split].
  - intros t vs' E Es V. rewrite E. cbn [rbind]. destruct (new_like_exact c vs ms t verify H (Hf t E)) as [(v & Ev & _ & N & _)|[N _]]; [exact N|]. elim N. eauto.
  - intros c' E. apply rbind_ok in E. destruct E as (t & E & F). destruct (new_like_exact c vs ms t verify H (Hf t E)) as [(v & Ev & V & N & Hn)|[_ N]]; [|congruence].
    rewrite N in F. inversion F; subst c'. exists t, v. auto.
  - intros e E. now rewrite E.
Qed.

(* ---- reshape ------------------------------------------------------------------------- *)

Lemma size_map_nat s : map Z.to_nat (filter (fun z => (0 <=? z)%Z) (map Z.of_nat s)) = s.
Proof. induction s as [|n s IH]; [reflexivity|]. cbn [map filter]. destruct (Z.leb_spec 0 (Z.of_nat n)); [|lia]. cbn [map]. now rewrite Nat2Z.id, IH. Qed.
Lemma no_negative s : filter (fun z => (z <? 0)%Z) (map Z.of_nat s) = [].
Proof. induction s as [|n s IH]; [reflexivity|]. cbn [map filter]. destruct (Z.ltb_spec (Z.of_nat n) 0); [lia|]. exact IH. Qed.
Lemma to_of_nat s : map Z.to_nat (map Z.of_nat s) = s.
Proof. rewrite map_map. rewrite <- (map_id s) at 2. apply map_ext. intros. apply Nat2Z.id. Qed.
Lemma size_pos s : Forall (fun n => 2 <= n) s -> 0 < size s.
Proof. induction 1 as [|n s H _ IH]; cbn; nia. Qed.
Lemma not_scalar c vs ms : holds c vs ms -> raise_if_scalar c = if Nat.eqb (List.length vs) 0 then Raise EValue else Ok tt.
Proof.
  intros H. unfold raise_if_scalar. rewrite (holds_ndim _ _ _ H). destruct H as (_ & _ & _ & _ & ->). cbn [ap_ndim].
  destruct (Nat.eqb_spec (List.length vs) 0), (Z.leb_spec (Z.of_nat (List.length vs + List.length ms)) (Z.of_nat (List.length ms))); try reflexivity; lia.
Qed.
Lemma reshape_known total s ms : size (s ++ ms) = total -> reshape_to total (map Z.of_nat s ++ map Z.of_nat ms) = Ok (s ++ ms)%list.
Proof.
  intros H. unfold reshape_to. rewrite <- map_app, no_negative, size_map_nat. cbn [List.length]. rewrite H, Nat.eqb_refl. now rewrite to_of_nat.
Qed.
(* the object with the same elements and another value shape *)
Definition reshaped (c c' : cmarray) (vs vs' ms : list nat) : Prop :=
  holds c' vs' ms /\
  forall idx idx' midx, valid vs idx -> valid vs' idx' -> valid ms midx -> ravel vs idx = ravel vs' idx' ->
    mom_entry c' idx' midx = mom_entry c idx midx.
Lemma reshape_result c vs vs' ms : holds c vs ms -> size vs' = size vs ->
  exists c', c_new_like c (Some (Tensor (vs' ++ ms) (tdata (c_obj c)))) false = Ok c' /\ reshaped c c' vs vs' ms.
Proof.
  intros H E. pose proof H as (Ho & Hs & L & M2 & P). unfold c_shape in Hs.
  assert (Ht : tensor_ok (Tensor (vs' ++ ms) (tdata (c_obj c)))).
  { unfold tensor_ok in *. cbn [tdata tshape]. rewrite Ho, Hs, !size_app. now rewrite E. }
  destruct (new_like_exact c vs ms _ false H Ht) as [(v & Ev & _ & N & Hn)|[N _]].
  2: { elim N. exists vs'. split; [reflexivity|discriminate]. }
  cbn [tshape] in Ev. apply app_inv_tail in Ev. subst v. eexists. split; [exact N|]. split; [exact Hn|].
  intros idx idx' midx V V' Vm R. unfold mom_entry, tget. cbn [c_obj tshape tdata]. rewrite Hs.
  rewrite !ravel_app by (symmetry; now apply valid_length). now rewrite R.
Qed.
(* reshape changes the value shape only.  The lengths must have the same product;
   moment arrays stay in C order. *)
Theorem reshape_values : forall c vs vs' ms, holds c vs ms -> vs <> [] ->
  (size vs' = size vs -> exists c', c_reshape c (map Z.of_nat vs') = Ok c' /\ reshaped c c' vs vs' ms) /\
  (size vs' <> size vs -> c_reshape c (map Z.of_nat vs') = Raise EValue).
Proof.
  intros c vs vs' ms H V. unfold c_reshape. rewrite (not_scalar _ _ _ H). destruct vs as [|n vs]; [congruence|]. cbn [List.length Nat.eqb rbind].
  rewrite (holds_mom_shape _ _ _ H). cbn [rbind]. unfold np_reshape. pose proof H as (Ho & Hs & L & M2 & P). unfold c_shape in Hs. rewrite Hs. split; intros E.
  - rewrite reshape_known by (rewrite !size_app; now rewrite E). cbn [rbind]. now apply reshape_result.
  - unfold reshape_to. rewrite <- map_app, no_negative, size_map_nat. cbn [List.length]. destruct (Nat.eqb_spec (size (vs' ++ ms)) (size ((n :: vs) ++ ms))) as [X|X]; [|reflexivity].
    exfalso. apply E. rewrite !size_app in X. pose proof (size_pos _ M2). nia.
Qed.
(* one length may be left to be computed *)
Theorem reshape_infer : forall c vs a b ms, holds c vs ms -> vs <> [] ->
  (forall k, size (a ++ b) <> 0 -> k * size (a ++ b) = size vs ->
     exists c', c_reshape c (map Z.of_nat a ++ [-1]%Z ++ map Z.of_nat b)%list = Ok c' /\ reshaped c c' vs (a ++ k :: b) ms) /\
  ((forall k, size (a ++ b) <> 0 -> k * size (a ++ b) <> size vs) -> c_reshape c (map Z.of_nat a ++ [-1]%Z ++ map Z.of_nat b)%list = Raise EValue).
Proof.
  intros c vs a b ms H V. unfold c_reshape. rewrite (not_scalar _ _ _ H). destruct vs as [|n vs]; [congruence|]. cbn [List.length Nat.eqb rbind].
  rewrite (holds_mom_shape _ _ _ H). cbn [rbind]. unfold np_reshape. pose proof H as (Ho & Hs & L & M2 & P). unfold c_shape in Hs. rewrite Hs. set (w := n :: vs) in *.
  unfold reshape_to. pose proof (size_pos _ M2) as Mp. rewrite <- !app_assoc, <- map_app. rewrite !filter_app, !no_negative. cbn [app filter].
  change ((-1 <? 0)%Z) with true. change ((0 <=? -1)%Z) with false. cbv iota. cbn [List.length app]. rewrite <- filter_app, <- map_app, size_map_nat.
  assert (Es : size (a ++ b ++ ms) = size (a ++ b) * size ms) by (rewrite app_assoc; apply size_app). rewrite Es, !size_app in *.
  split.
  - intros k Hk E. assert (E' : size w * size ms = k * (size a * size b * size ms)) by nia.
    assert (Z0 : size a * size b * size ms <> 0) by nia. rewrite E'.
    destruct (Nat.eqb_spec (size a * size b * size ms) 0); [lia|]. rewrite Nat.mod_mul by exact Z0. cbn [Nat.eqb negb orb]. rewrite Nat.div_mul by exact Z0.
    assert (Em : map (fun z => if (z <? 0)%Z then k else Z.to_nat z) (map Z.of_nat a ++ (-1)%Z :: map Z.of_nat (b ++ ms))%list = ((a ++ k :: b) ++ ms)%list).
    { assert (G : forall l, map (fun z => if (z <? 0)%Z then k else Z.to_nat z) (map Z.of_nat l) = l).
      { intros l. rewrite map_map. rewrite <- (map_id l) at 2. apply map_ext. intros x. destruct (Z.ltb_spec (Z.of_nat x) 0); [lia|apply Nat2Z.id]. }
      rewrite map_app. cbn [map]. change ((-1 <? 0)%Z) with true. cbv iota. rewrite !G, <- app_assoc. reflexivity. }
    rewrite Em. cbn [rbind]. apply reshape_result; [exact H|]. rewrite size_app. cbn [size]. nia.
  - intros N. destruct (Nat.eqb_spec (size a * size b * size ms) 0) as [Z0|Z0]; [reflexivity|]. cbn [orb].
    destruct (Nat.eqb_spec ((size w * size ms) mod (size a * size b * size ms)) 0) as [D|D]; [|reflexivity]. exfalso.
    apply Nat.mod_divides in D; [|exact Z0]. destruct D as [k D]. apply (N k); nia.
Qed.
(* two unknown lengths, or no value axes at all: ValueError *)
Theorem reshape_raises : forall c vs ms shape, holds c vs ms ->
  vs = [] \/ 2 <= List.length (filter (fun z => (z <? 0)%Z) shape) -> c_reshape c shape = Raise EValue.
Proof.
  intros c vs ms shape H [-> | L]; unfold c_reshape; rewrite (not_scalar _ _ _ H); [reflexivity|].
  destruct (Nat.eqb (List.length vs) 0); [reflexivity|]. cbn [rbind]. rewrite (holds_mom_shape _ _ _ H). cbn [rbind].
  unfold np_reshape, reshape_to. rewrite filter_app, no_negative, app_nil_r.
  destruct (List.length (filter (fun z => (z <? 0)%Z) shape)) as [|[|k]]; try lia. reflexivity.
Qed.

(* ---- moveaxis ------------------------------------------------------------------------- *)

Lemma seq_values v m : seq 0 (v + m) = (seq 0 v ++ seq v m)%list.
Proof. apply seq_app. Qed.
Lemma map_nth_values (vs ms : list nat) l : (forall a, In a l -> a < List.length vs) -> map (fun a => nth a (vs ++ ms) 0) l = map (fun a => nth a vs 0) l.
Proof. intros H. apply map_ext_in. intros a Ha. apply app_nth1. auto. Qed.
Lemma map_nth_moments (vs ms : list nat) : map (fun a => nth a (vs ++ ms) 0) (seq (List.length vs) (List.length ms)) = ms.
Proof.
  transitivity (map (fun a => nth a ms 0) (seq 0 (List.length ms))); [|now apply map_nth_seq].
  rewrite <- (Nat.add_0_r (List.length vs)) at 1. rewrite <- seq_shift_add, map_map. apply map_ext_in. intros a Ha. rewrite app_nth2 by lia. f_equal. lia.
Qed.
(* permuting value axes moves whole moment arrays *)
Lemma transpose_values t vs ms o : tensor_ok t -> tshape t = (vs ++ ms)%list -> Permutation o (seq 0 (List.length vs)) ->
  let u := ttranspose (o ++ seq (List.length vs) (List.length ms)) t in
  tensor_ok u /\ tshape u = (map (fun a => nth a vs 0) o ++ ms)%list /\
  forall env midx, inside (fun a => nth a vs 0) (seq 0 (List.length vs)) env -> valid ms midx ->
    tget u (map env o ++ midx) = tget t (map env (seq 0 (List.length vs)) ++ midx).
Proof.
  intros Ho Es P u. set (v := List.length vs) in *. set (m := List.length ms) in *.
  assert (En : tndim t = v + m) by (unfold tndim; rewrite Es, app_length; reflexivity).
  pose proof (view_self t Ho) as V. rewrite En in V.
  assert (P' : Permutation (o ++ seq v m) (seq 0 (List.length (seq 0 (v + m))))) by (rewrite seq_length, seq_values; now apply Permutation_app_tail).
  pose proof (transpose_view t _ _ _ _ V P') as (Hu & Su & Fu). fold u in Hu, Su, Fu.
  destruct (perm_range _ _ P) as (No & Lo & Ro).
  assert (Id : map (fun p => nth p (seq 0 (v + m)) 0) (o ++ seq v m) = (o ++ seq v m)%list).
  { apply map_nth_seq_id. intros a Ha. apply in_app_or in Ha. destruct Ha as [Ha|Ha]; [apply Ro in Ha; lia|apply in_seq in Ha; lia]. }
  rewrite Id in Su, Fu. split; [exact Hu|]. split.
  - rewrite Su. unfold shape_of. rewrite Es, map_app. f_equal; [|apply map_nth_moments]. apply map_nth_values. intros a Ha. now apply Ro.
  - intros env midx I Vm. pose proof (valid_length _ _ Vm) as Lm.
    set (e := fun a => if a <? v then env a else nth (a - v) midx 0).
    assert (Ev : forall l, (forall a, In a l -> a < v) -> map e l = map env l).
    { intros l Hl. apply map_ext_in. intros a Ha. unfold e. specialize (Hl a Ha). destruct (Nat.ltb_spec a v); [reflexivity|lia]. }
    assert (Em : map e (seq v m) = midx).
    { transitivity (map (fun a => nth a midx 0) (seq 0 m)); [|now apply map_nth_seq]. rewrite <- (Nat.add_0_r v), <- seq_shift_add, map_map. apply map_ext_in. intros a Ha. unfold e.
      destruct (Nat.ltb_spec (v + a) v); [lia|]. f_equal. lia. }
    assert (Ie : inside (shape_of t) (o ++ seq v m) e).
    { intros a Ha. unfold shape_of. rewrite Es. unfold e. apply in_app_or in Ha. destruct (Nat.ltb_spec a v) as [Hv|Hv].
      - rewrite app_nth1 by exact Hv. apply I. apply in_seq. lia.
      - destruct Ha as [Ha|Ha]; [apply Ro in Ha; lia|]. apply in_seq in Ha. rewrite app_nth2 by exact Hv. fold v.
        assert (Q : forall (s idx : list nat) k, valid s idx -> k < List.length s -> nth k idx 0 < nth k s 0).
        { intros s idx k Vs. revert k. induction Vs as [|x y s idx Hxy Vs IH]; intros [|k] Hk; cbn in *; try lia. apply IH. lia. }
        apply Q; [exact Vm|]. unfold m in Ha. lia. }
    specialize (Fu e Ie). rewrite map_app, Em in Fu. rewrite Ev in Fu by (intros a; apply Ro). rewrite Fu. unfold entry. rewrite En, seq_values, map_app, Em.
    rewrite Ev by (intros a Ha; apply in_seq in Ha; lia). reflexivity.
Qed.
Lemma moves_values v m s d o : (forall a, In a s -> a < v) -> (forall a, In a d -> a < v) -> moves v s d o -> moves (v + m) s d (o ++ seq v m).
Proof.
  intros Hs Hd (P & F & E). destruct (perm_range _ _ P) as (_ & Lo & _). split; [|split].
  - rewrite seq_values. now apply Permutation_app_tail.
  - clear P E Hs. induction F as [|x y s d H F IH]; constructor.
    + rewrite nth_error_app1; [exact H|]. rewrite Lo. apply Hd. now left.
    + apply IH. intros a Ha. apply Hd. now right.
  - rewrite seq_values, !except_app, E. reflexivity.
Qed.
Lemma holds_axes c vs ms : holds c vs ms ->
  Forall2 (is_axis (List.length vs + List.length ms)) (axes_last (List.length ms)) (seq (List.length vs) (List.length ms)).
Proof. intros H. pose proof (axes_last_named (List.length vs + List.length ms) (List.length ms) ltac:(lia)) as A. now rewrite Nat.add_sub in A. Qed.
(* the value axes of c' are those of c in the order o, with their moment arrays *)
Definition permuted (c c' : cmarray) (vs ms o : list nat) : Prop :=
  Permutation o (seq 0 (List.length vs)) /\ holds c' (map (fun a => nth a vs 0) o) ms /\
  forall env midx, inside (fun a => nth a vs 0) (seq 0 (List.length vs)) env -> valid ms midx ->
    mom_entry c' (map env o) midx = mom_entry c (map env (seq 0 (List.length vs))) midx.
Lemma permuted_new_like c vs ms o : holds c vs ms -> Permutation o (seq 0 (List.length vs)) ->
  exists c', c_new_like c (Some (ttranspose (o ++ seq (List.length vs) (List.length ms)) (c_obj c))) false = Ok c' /\ permuted c c' vs ms o.
Proof.
  intros H P. pose proof H as (Ho & Hs & _). destruct (transpose_values (c_obj c) vs ms o Ho Hs P) as (Hu & Su & Fu).
  destruct (new_like_exact c vs ms _ false H Hu) as [(w & Ew & _ & N & Hn)|[N _]]; [|elim N; eexists; split; [exact Su|discriminate]].
  rewrite Su in Ew. apply app_inv_tail in Ew. subst w. eexists. split; [exact N|]. split; [exact P|]. split; [exact Hn|]. exact Fu.
Qed.
(* moveaxis permutes the value axes as documented (the order [moves] determines)
   and leaves the moments last; a moment axis in the arguments is a ValueError *)
Theorem moveaxis_values : forall c vs ms axis dest s d, holds c vs ms -> let n := List.length vs + List.length ms in
  Forall2 (names_axis n (List.length ms)) axis s -> Forall2 (names_axis n (List.length ms)) dest d -> NoDup s -> NoDup d ->
  ((forall a, In a (s ++ d)%list -> a < List.length vs) -> List.length s = List.length d ->
     exists o c', c_moveaxis c (Some (Some axis)) (Some (Some dest)) false = Ok c' /\ moves (List.length vs) s d o /\ permuted c c' vs ms o) /\
  ((exists a, In a (s ++ d)%list /\ List.length vs <= a) -> c_moveaxis c (Some (Some axis)) (Some (Some dest)) false = Raise EValue).
Proof.
  intros c vs ms axis dest s d H n As Ad Ns Nd. unfold c_moveaxis. rewrite (holds_ndim _ _ _ H). fold n. pose proof H as (_ & _ & L & _ & P). rewrite P. cbn [ap_ndim ap_axes].
  rewrite Nat2Z.id. pose proof (holds_axes _ _ _ H) as HA. fold n in HA. set (v := List.length vs) in *. set (m := List.length ms) in *.
  assert (Lm : List.length (axes_last m) = m) by (unfold axes_last; now rewrite map_length, seq_length).
  split.
  - intros B Ll. unfold user_moveaxis_order. rewrite (names_nat n _ _ HA (seq_NoDup _ _)). cbn [rbind]. unfold user_moveaxis_core. cbn [option_map fst].
    assert (E1 : normalize_axis_tuple (Some axis) n (Some m) false = Ok s) by (now apply normalize_tuple_ok).
    assert (E2 : normalize_axis_tuple (Some dest) n (Some m) false = Ok d) by (now apply normalize_tuple_ok).
    rewrite E1, E2. cbn [rbind negb andb].
    assert (X : existsb (fun a => nat_mem a (seq v m)) (s ++ d) = false).
    { destruct (existsb _ _) eqn:X; [|reflexivity]. apply existsb_exists in X. destruct X as (a & Ha & Hm). apply nat_mem_In, in_seq in Hm. specialize (B a Ha). lia. }
    rewrite X. assert (Bs : forall a, In a s -> a < v) by (intros; apply B, in_or_app; auto). assert (Bd : forall a, In a d -> a < v) by (intros; apply B, in_or_app; auto).
    destruct (moveaxis_core_moves v s d Ll Ns Nd Bs Bd) as (o & _ & Mo).
    destruct (moveaxis_core_moves n s d Ll Ns Nd) as (o' & E' & Mo'); [intros a Ha; specialize (Bs a Ha); unfold n; lia|intros a Ha; specialize (Bd a Ha); unfold n; lia|].
    assert (o' = o ++ seq v m)%list.
    { apply (moves_unique n s d); [exact Nd|intros a Ha; specialize (Bd a Ha); unfold n; lia|exact Mo'|]. now apply moves_values. }
    subst o'. rewrite E'. cbn [rbind]. destruct (permuted_new_like c vs ms o H (proj1 Mo)) as (c' & N & Hp). exists o, c'. auto.
  - intros (a & Ha & Hv). pose proof (moveaxis_rejects_moment_axes n (axes_last m) axis dest (seq v m) s d HA (seq_NoDup _ _)) as Q. rewrite seq_length, Lm in Q. rewrite Q; auto.
     exists a. split; [|exact Ha]. apply in_seq.
      assert (a < n); [|unfold n in *; lia]. apply in_app_or in Ha.
      assert (Q2 : forall x r, Forall2 (names_axis n m) x r -> forall b, In b r -> b < n) by (intros x r F; induction F as [|y b x r Hy F IH]; intros b' Hb; [destruct Hb|destruct Hb as [<-|Hb]; [eapply names_axis_lt; eauto|auto]]).
      destruct Ha; eauto.
Qed.
(* axes_to_end: the given value axes go last, in the given order *)
Theorem moveaxis_to_end_values : forall c vs ms axis R, holds c vs ms -> let n := List.length vs + List.length ms in
  Forall2 (names_axis n (List.length ms)) axis R -> NoDup R ->
  ((forall a, In a R -> a < List.length vs) ->
     exists c', c_moveaxis c (Some (Some axis)) None true = Ok c' /\ permuted c c' vs ms (except_nat (seq 0 (List.length vs)) R ++ R)%list) /\
  ((exists a, In a R /\ List.length vs <= a) -> c_moveaxis c (Some (Some axis)) None true = Raise EValue).
Proof.
  intros c vs ms axis R H n AR NR. unfold c_moveaxis. rewrite (holds_ndim _ _ _ H). fold n. pose proof H as (_ & _ & L & _ & P). rewrite P. cbn [ap_ndim ap_axes].
  rewrite Nat2Z.id. pose proof (holds_axes _ _ _ H) as HA. fold n in HA. set (v := List.length vs) in *. set (m := List.length ms) in *.
  assert (Lm : List.length (axes_last m) = m) by (unfold axes_last; now rewrite map_length, seq_length).
  split.
  - intros B. assert (ND : NoDup (R ++ seq v m)) by (apply NoDup_app_; [exact NR|apply seq_NoDup|]; intros a Ha Hb; apply in_seq in Hb; specialize (B a Ha); lia).
    pose proof (moveaxis_axes_to_end n (axes_last m) axis (seq v m) R HA (seq_NoDup _ _)) as Q. rewrite seq_length, Lm in Q. rewrite Q by assumption.
    cbn [rbind].
    assert (E : except_nat (seq 0 n) (R ++ seq v m) = except_nat (seq 0 v) R).
    { unfold n. rewrite seq_values, except_app. rewrite (except_all Nat.eq_dec (seq v m)) by (intros; apply in_or_app; auto). rewrite app_nil_r.
      apply except_ext. intros x Hx. rewrite in_app_iff. split; [intros [Y|Y]; [exact Y|]|auto]. apply in_seq in Hx, Y. lia. }
    rewrite E, app_assoc. apply permuted_new_like; [exact H|]. apply except_perm; assumption.
  - intros (a & Ha & Hv). unfold user_moveaxis_order. rewrite (names_nat n _ _ HA (seq_NoDup _ _)). cbn [rbind option_map fst].
    assert (E1 : normalize_axis_tuple (Some axis) n (Some m) false = Ok R) by (now apply normalize_tuple_ok). rewrite E1. cbn [rbind].
    unfold user_moveaxis_core. cbn [option_map fst].
    assert (BR : forall b, In b R -> b < n) by (clear -AR; induction AR as [|y b x r Hy F IH]; intros b' Hb; [destruct Hb|destruct Hb as [<-|Hb]; [eapply names_axis_lt; eauto|auto]]).
    destruct (normalize_axis_tuple (Some (map (fun a => AInt (Z.of_nat a)) R ++ map (fun a => AInt (Z.of_nat a)) (seq v m))%list) n (Some m) false) as [x|e] eqn:E.
    2: { rewrite (normalize_tuple_err _ _ _ _ _ E). reflexivity. }
    exfalso. apply normalize_tuple_ok in E. destruct E as [E N]. cbn [mnum] in E. rewrite <- map_app in E.
    assert (x = R ++ seq v m)%list.
    { assert (Q : forall l, (forall b, In b l -> b < n) -> forall x, Forall2 (names_axis n m) (map (fun a => AInt (Z.of_nat a)) l) x -> x = l).
      { induction l as [|b l IH]; intros Hl y Hy; inversion Hy; subst; [reflexivity|]. f_equal.
        - eapply is_axis_fun; [eassumption|]. apply is_axis_self. apply Hl. now left.
        - apply IH; [|assumption]. intros q Hq. apply Hl. now right. }
      apply Q; [|exact E]. intros b Hb. apply in_app_or in Hb. destruct Hb as [Hb|Hb]; [auto|apply in_seq in Hb; unfold n; lia]. }
    subst x. apply NoDup_app_parts in N. destruct N as (_ & _ & D). apply (D a Ha). apply in_seq. specialize (BR a Ha). unfold n in BR. lia.
Qed.

(* ---- resample ------------------------------------------------------------------------- *)

Lemma index_int_ok z n i : index_int z n = Ok i <-> is_axis n z i.
Proof.
  unfold index_int, is_axis. cbv zeta. destruct (Z.ltb_spec z 0); 
    [destruct (Z.ltb_spec (z + Z.of_nat n) 0), (Z.leb_spec (Z.of_nat n) (z + Z.of_nat n))|destruct (Z.ltb_spec z 0), (Z.leb_spec (Z.of_nat n) z)];
    cbn [orb]; split; intros E; try discriminate; try lia; try (inversion E; subst; lia); f_equal; lia.
Qed.
Lemma index_ints n l ix : Forall2 (is_axis n) l ix -> mapR (fun z => index_int z n) l = Ok ix.
Proof. intros F. apply mapR_Forall2. eapply Forall2_imp_; [|exact F]. intros z i. apply index_int_ok. Qed.
Lemma firstn_app_len {T} (a b : list T) k : k = List.length a -> firstn k (a ++ b) = a.
Proof. intros ->. now rewrite firstn_app, firstn_all, Nat.sub_diag, app_nil_r. Qed.
Lemma skipn_app_len {T} (a b : list T) k : k = List.length a -> skipn k (a ++ b) = b.
Proof. intros ->. now rewrite skipn_app, skipn_all, Nat.sub_diag. Qed.
Lemma np_take_spec t p n q ishape indices ix : tshape t = (p ++ n :: q)%list -> Forall2 (is_axis n) indices ix -> 
  exists u, np_take ishape indices (List.length p) t = Ok u /\ tensor_ok u /\ tshape u = (p ++ ishape ++ q)%list /\
    forall i1 j i2, valid p i1 -> valid ishape j -> valid q i2 -> tget u (i1 ++ j ++ i2) = tget t (i1 ++ nth (ravel ishape j) ix 0 :: i2).
Proof.
  intros Es F. unfold np_take. rewrite Es. rewrite app_nth2, Nat.sub_diag by lia. cbn [nth]. rewrite (index_ints _ _ _ F). cbn [rbind].
  rewrite firstn_app_len by reflexivity.
  assert (Sk : skipn (S (List.length p)) (p ++ n :: q) = q) by (change (n :: q) with ([n] ++ q)%list; rewrite app_assoc; apply skipn_app_len; rewrite app_length; cbn; lia).
  rewrite Sk. eexists. split; [reflexivity|]. split; [apply tabulate_ok|]. split; [reflexivity|]. intros i1 j i2 V1 Vj V2.
  pose proof (valid_length _ _ V1) as L1. pose proof (valid_length _ _ Vj) as Lj.
  rewrite tget_tabulate by (repeat apply Forall2_app; assumption).
  rewrite firstn_app_len by auto. rewrite (skipn_app_len i1) by auto. rewrite firstn_app_len by auto.
  rewrite (app_assoc i1 j i2), skipn_app_len by (rewrite app_length; lia). reflexivity.
Qed.
Lemma valid_nth_lt (s idx : list nat) k : valid s idx -> k < List.length s -> nth k idx 0 < nth k s 0.
Proof. intros Vs. revert k. induction Vs as [|x y s idx Hxy Vs IH]; intros [|k] Hk; cbn in *; try lia. apply IH. lia. Qed.
(* the index list names a position for every entry of the index array *)
Lemma drawn_lt n (ishape : list nat) (indices : list Z) ix j : Forall2 (is_axis n) indices ix -> List.length indices = size ishape -> valid ishape j -> nth (ravel ishape j) ix 0 < n.
Proof.
  intros F L V. pose proof (ravel_lt _ _ V). pose proof (Forall2_len _ _ _ F) as L'. assert (In (nth (ravel ishape j) ix 0) ix) by (apply nth_In; lia).
  exact (is_axis_range _ _ _ F _ H0).
Qed.
Lemma except_one p k : except_nat (seq 0 (p + S k)) [p] = (seq 0 p ++ seq (S p) k)%list.
Proof.
  rewrite seq_values, except_app. cbn [seq]. change (p :: seq (S p) k) with ([p] ++ seq (S p) k)%list. rewrite except_app.
  rewrite (except_all Nat.eq_dec [p]) by auto. cbn [app]. rewrite !except_none; [reflexivity| |]; intros x Hx [->|[]]; apply in_seq in Hx; lia.
Qed.
Lemma nth_mid (p : list nat) n q : map (fun a => nth a (p ++ n :: q) 0) (seq 0 (List.length p)) = p /\ map (fun a => nth a (p ++ n :: q) 0) (seq (S (List.length p)) (List.length q)) = q /\
  nth (List.length p) (p ++ n :: q) 0 = n.
Proof.
  split; [|split].
  - rewrite map_nth_values by (intros a Ha; apply in_seq in Ha; lia). now apply map_nth_seq.
  - change (n :: q) with ([n] ++ q)%list. rewrite app_assoc. replace (S (List.length p)) with (List.length (p ++ [n])) by (rewrite app_length; cbn; lia). apply map_nth_moments.
  - rewrite app_nth2, Nat.sub_diag by lia. reflexivity.
Qed.
(* Resampling a value axis: position j of the index array holds the moment array at
   the drawn index, in place of the axis or (last) behind the other value axes. *)
Theorem resample_values : forall c p n q ms ishape indices ix axis (last : bool), holds c (p ++ n :: q) ms ->
  names_axis (List.length (p ++ n :: q) + List.length ms) (List.length ms) axis (List.length p) ->
  Forall2 (is_axis n) indices ix -> List.length indices = size ishape ->
  exists c', c_resample c ishape indices axis last = Ok c' /\
    holds c' (if last then p ++ q ++ ishape else p ++ ishape ++ q)%list ms /\
    forall i1 j i2 midx, valid p i1 -> valid ishape j -> valid q i2 -> valid ms midx ->
      mom_entry c' (if last then i1 ++ i2 ++ j else i1 ++ j ++ i2)%list midx = mom_entry c (i1 ++ nth (ravel ishape j) ix 0 :: i2)%list midx.
Proof.
  intros c p n q ms ishape indices ix axis last H A F Li. pose proof H as (Ho & Hs & L & M2 & P). unfold c_shape in Hs. unfold c_resample. rewrite (not_scalar _ _ _ H).
  assert (Ev : List.length (p ++ n :: q) = List.length p + S (List.length q)) by (rewrite app_length; reflexivity).
  destruct (Nat.eqb_spec (List.length (p ++ n :: q)) 0); [lia|]. cbn [rbind]. rewrite (holds_ndim _ _ _ H), P. cbn [ap_ndim option_map]. rewrite Nat2Z.id.
  rewrite (proj2 (normalize_index_ok axis _ (Some (List.length ms)) (List.length p)) A). cbn [rbind].
  set (v := List.length (p ++ n :: q)) in *.
  replace (Z.of_nat (v + List.length ms) - Z.of_nat (List.length ms) - 1)%Z with (Z.of_nat (v - 1)) by lia.
  (* the result, for the array [t] with the axis at [P] *)
  assert (Fin : forall t p' q', tensor_ok t -> tshape t = (p' ++ n :: q' ++ ms)%list ->
     exists c', rbind (np_take ishape indices (List.length p') t) (fun obj => c_new_like c (Some obj) false) = Ok c' /\ holds c' (p' ++ ishape ++ q') ms /\
       forall i1 j i2 midx, valid p' i1 -> valid ishape j -> valid q' i2 -> valid ms midx ->
         mom_entry c' (i1 ++ j ++ i2) midx = tget t (i1 ++ nth (ravel ishape j) ix 0 :: i2 ++ midx)).
  { intros t p' q' Ht Et. destruct (np_take_spec t p' n (q' ++ ms) ishape indices ix Et F) as (u & Eu & Ou & Su & Fu). rewrite Eu. cbn [rbind].
    assert (Su' : tshape u = ((p' ++ ishape ++ q') ++ ms)%list) by (rewrite Su, !app_assoc; reflexivity).
    destruct (new_like_exact c _ ms u false H Ou) as [(w & Ew & _ & N & Hn)|[N _]]; [|elim N; eexists; split; [exact Su'|discriminate]].
    rewrite Su' in Ew. apply app_inv_tail in Ew. subst w. eexists. split; [exact N|]. split; [exact Hn|]. intros i1 j i2 midx V1 Vj V2 Vm. unfold mom_entry. cbn [c_obj].
    rewrite <- !app_assoc. apply Fu; auto. now apply Forall2_app. }
  destruct last; cbn [andb].
  - destruct (Z.eqb_spec (Z.of_nat (List.length p)) (Z.of_nat (v - 1))) as [E|E]; cbn [negb rbind fst snd].
    + assert (q = []) as -> by (destruct q; [reflexivity|cbn [List.length] in Ev; lia]).
      destruct (Fin (c_obj c) p [] Ho) as (c' & N & Hn & Fn); [rewrite Hs, <- app_assoc; reflexivity|]. exists c'. rewrite app_nil_r in Hn. split; [exact N|]. split; [exact Hn|].
      intros i1 j i2 midx V1 Vj V2 Vm. inversion V2; subst i2. cbn [app]. specialize (Fn i1 j [] midx V1 Vj V2 Vm). rewrite app_nil_r in Fn. rewrite Fn. unfold mom_entry. now rewrite <- app_assoc.
    + set (o := (except_nat (seq 0 v) [List.length p] ++ [List.length p])%list).
      assert (B1 : List.length p < v) by lia. assert (B2 : v - 1 < v) by lia.
      destruct (moveaxis_core_moves v [List.length p] [v - 1]) as (o1 & _ & Mo1); [reflexivity|repeat constructor; auto|repeat constructor; auto|intros a [<-|[]]; exact B1|intros a [<-|[]]; exact B2|].
      assert (Eo1 : o1 = o). { apply moves_last; [repeat constructor; auto|intros a [<-|[]]; exact B1|]. exact Mo1. }
      subst o1. destruct (moveaxis_order_spec (v + List.length ms) [Z.of_nat (List.length p)] [Z.of_nat (v - 1)] [List.length p] [v - 1]) as (o2 & Eo2 & Mo2).
      1, 2: constructor; [apply is_axis_self; lia|constructor]. 1, 2: repeat constructor; auto. 1: reflexivity.
      assert (o2 = o ++ seq v (List.length ms))%list.
      { apply (moves_unique (v + List.length ms) [List.length p] [v - 1]); [repeat constructor; auto|intros a [<-|[]]; lia|exact Mo2|].
        apply moves_values; [intros a [<-|[]]; lia|intros a [<-|[]]; lia|exact Mo1]. }
      subst o2. unfold np_moveaxis. rewrite (holds_ndim _ _ _ H). fold v. rewrite Eo2. cbn [rbind fst snd].
      destruct (transpose_values (c_obj c) (p ++ n :: q) ms o Ho Hs (proj1 Mo1)) as (Hu & Su & Fu). fold v in Hu, Su, Fu.
      destruct (nth_mid p n q) as (N1 & N2 & N3).
      assert (So : map (fun a => nth a (p ++ n :: q) 0) o = (p ++ q ++ [n])%list) by (unfold o; rewrite Ev, except_one, !map_app; cbn [map]; now rewrite N1, N2, N3, <- app_assoc).
      rewrite So in Su.
      replace (Z.to_nat (Z.of_nat (v - 1))) with (List.length (p ++ q)) by (rewrite app_length; lia).
      destruct (Fin _ (p ++ q)%list [] Hu) as (c' & N & Hn & Fn); [rewrite Su, <- !app_assoc; reflexivity|].
      exists c'. rewrite app_nil_r, <- app_assoc in Hn. split; [exact N|]. split; [exact Hn|]. intros i1 j i2 midx V1 Vj V2 Vm.
      pose proof (Fn (i1 ++ i2)%list j [] midx (Forall2_app V1 V2) Vj (Forall2_nil _) Vm) as G. rewrite app_nil_r, <- app_assoc in G. rewrite G. cbn [app].
      set (k := nth (ravel ishape j) ix 0). assert (Hk : k < n) by (eapply drawn_lt; eauto).
      set (env := fun a => nth a (i1 ++ k :: i2) 0).
      pose proof (valid_length _ _ V1) as L1. pose proof (valid_length _ _ V2) as L2. destruct (nth_mid i1 k i2) as (K1 & K2 & K3). rewrite L1 in K1, K2, K3. rewrite L2 in K2.
      assert (G1 : map env o = (i1 ++ i2 ++ [k])%list).
      { unfold o. rewrite Ev, except_one, !map_app. cbn [map]. unfold env. now rewrite K1, K2, K3, <- app_assoc. }
      assert (G2 : map env (seq 0 v) = (i1 ++ k :: i2)%list) by (apply map_nth_seq; rewrite app_length; cbn [List.length]; lia).
      assert (Ie : inside (fun a => nth a (p ++ n :: q) 0) (seq 0 v) env).
      { intros a Ha. apply in_seq in Ha. unfold env. apply valid_nth_lt; [|lia]. apply Forall2_app; [exact V1|]. constructor; assumption. }
      specialize (Fu env midx Ie Vm). rewrite G1, G2 in Fu. unfold mom_entry. rewrite <- Fu. rewrite <- !app_assoc. reflexivity.
  - cbn [rbind fst snd]. destruct (Fin (c_obj c) p q Ho) as (c' & N & Hn & Fn); [rewrite Hs, <- app_assoc; reflexivity|]. exists c'. split; [exact N|]. split; [exact Hn|].
    intros i1 j i2 midx V1 Vj V2 Vm. rewrite Fn by auto. unfold mom_entry. now rewrite <- app_assoc.
Qed.
(* an index outside the axis is an IndexError; without value axes a ValueError *)
Theorem resample_raises : forall c vs ms ishape indices axis, holds c vs ms ->
  (vs = [] -> forall last, c_resample c ishape indices axis last = Raise EValue) /\
  (forall a, vs <> [] -> names_axis (List.length vs + List.length ms) (List.length ms) axis a -> a < List.length vs ->
     (exists z, In z indices /\ forall k, ~ is_axis (nth a vs 0) z k) -> c_resample c ishape indices axis false = Raise EIndex).
Proof.
  intros c vs ms ishape indices axis H. split.
  - intros -> last. unfold c_resample. now rewrite (not_scalar _ _ _ H).
  - intros a V A B (z & Hz & N). unfold c_resample. rewrite (not_scalar _ _ _ H). destruct (Nat.eqb_spec (List.length vs) 0) as [E|E]; [destruct vs; [congruence|discriminate]|].
    cbn [rbind]. pose proof H as (Ho & Hs & _ & _ & P). unfold c_shape in Hs. rewrite (holds_ndim _ _ _ H), P. cbn [ap_ndim option_map]. rewrite Nat2Z.id.
    rewrite (proj2 (normalize_index_ok axis _ (Some (List.length ms)) a) A). cbn [rbind andb fst snd]. unfold np_take. rewrite Hs, app_nth1 by exact B.
    destruct (mapR (fun z => index_int z (nth a vs 0)) indices) as [r|e] eqn:E'; cbn [rbind].
    + exfalso. apply mapR_Forall2 in E'. clear -E' Hz N. induction E' as [|x y l r Hxy F IH]; [destruct Hz|]. destruct Hz as [->|Hz]; [apply (N y); now apply index_int_ok|auto].
    + f_equal. eapply (mapR_err_all EIndex); [|exact E']. intros z' e'. unfold index_int. cbv zeta. destruct (_ || _)%bool; congruence.
Qed.
(* The default axis (-1) counts moment axes: it never draws values.  The result is
   accepted if the last length of the index array is the number of moments. *)
Theorem resample_default_takes_moments : forall c vs m ishape indices ix, holds c vs [m] -> vs <> [] ->
  Forall2 (is_axis m) indices ix -> List.length indices = size ishape ->
  (forall r, ishape = (r ++ [m])%list -> exists c', c_resample c ishape indices resample_default_axis false = Ok c' /\ holds c' (vs ++ r) [m] /\
     forall i j x, valid vs i -> valid r j -> x < m -> mom_entry c' (i ++ j) [x] = mom_entry c i [nth (ravel ishape (j ++ [x])) ix 0]) /\
  ((~ exists w, (vs ++ ishape)%list = (w ++ [m])%list) -> c_resample c ishape indices resample_default_axis false = Raise EValue).
Proof.
  intros c vs m ishape indices ix H V F L. unfold c_resample, resample_default_axis. rewrite (not_scalar _ _ _ H). destruct (Nat.eqb_spec (List.length vs) 0) as [E|E]; [destruct vs; [congruence|discriminate]|].
  cbn [rbind]. pose proof H as (Ho & Hs & _ & _ & P). unfold c_shape in Hs. rewrite (holds_ndim _ _ _ H), P. cbn [ap_ndim option_map List.length].
  assert (A : normalize_axis_index (AInt (-1)) (List.length vs + 1) (Some (Z.to_nat (Z.of_nat 1))) = Ok (List.length vs)) by (apply normalize_index_ok; cbn; unfold is_axis; lia).
  rewrite A. cbn [rbind andb fst snd]. destruct (np_take_spec (c_obj c) vs m [] ishape indices ix Hs F) as (u & Eu & Ou & Su & Fu). rewrite Eu. cbn [rbind]. rewrite app_nil_r in Su.
  destruct (new_like_exact c vs [m] u false H Ou) as [(w & Ew & _ & N & Hn)|[N N']].
  - split; [|intros X; elim X; exists w; now rewrite <- Su]. intros r ->. eexists. split; [exact N|].
    rewrite Su, app_assoc in Ew. apply app_inv_tail in Ew. subst w. split; [exact Hn|]. intros i j x Vi Vj Vx. unfold mom_entry. cbn [c_obj].
    assert (Vjx : valid (r ++ [m]) (j ++ [x])) by (apply Forall2_app; [exact Vj|repeat constructor; exact Vx]).
    pose proof (Fu i (j ++ [x])%list [] Vi Vjx (Forall2_nil _)) as G. rewrite app_nil_r in G. rewrite <- app_assoc. exact G.
  - split; [|intros _; exact N']. intros r ->. elim N. exists (vs ++ r)%list. split; [now rewrite Su, app_assoc|discriminate].
Qed.
(* so drawing values with the default axis can silently permute moments instead *)
Theorem resample_default_axis_refuted : exists c c', holds c [3] [3] /\
  c_resample c [2; 3] [0; 1; 2; 2; 0; 1]%Z resample_default_axis false = Ok c' /\ holds c' [3; 2] [3] /\
  (forall i x, i < 3 -> x < 3 -> mom_entry c' [i; 0] [x] = mom_entry c [i] [x] /\ mom_entry c' [i; 1] [x] = mom_entry c [i] [nth x [2; 0; 1] 0]) /\
  forall i, i < 3 -> exists j, j < 3 /\ forall k, k < 3 -> mom_entry c' [i; 1] [j] <> mom_entry c [k] [j].
Proof.
  exists (CM square (AP (Some 1%Z) (Some [-1]%Z))). eexists. split; [repeat split; cbn; auto; repeat constructor; lia|].
  split; [reflexivity|]. split; [repeat split; cbn; auto; repeat constructor; lia|]. split.
  - intros [|[|[|i]]] [|[|[|x]]] H1 H2; try (exfalso; lia); split; reflexivity.
  - intros i Hi. exists 0. split; [lia|]. intros k Hk E. revert E. destruct i as [|[|[|i]]]; try (exfalso; lia); destruct k as [|[|[|k]]]; try (exfalso; lia); discriminate.
Qed.
Definition scalar3 : tensor := Tensor [3] [qz 2; qz 5; qz 1].
Definition values3 : tensor := Tensor [2; 3; 3] (map (fun k => qz (Z.of_nat k)) (seq 0 18)).
Definition mp1 : aparams := AP (Some 1%Z) (Some [-1]%Z).
Lemma values3_holds : holds (CM values3 mp1) [2; 3] [3].
Proof. repeat split; cbn; auto; repeat constructor; lia. Qed.
Example new_like_ex : let c := CM values3 mp1 in
  (exists c', c_new_like c (Some square) false = Ok c') /\ c_new_like c (Some square) true = Raise EValue /\
  c_new_like c (Some (Tensor [2] [qz 1; qz 2])) false = Raise EValue /\
  (exists c', c_pipe c (fun t => Ok (ttranspose [1; 0; 2] t)) false = Ok c') /\
  c_pipe c (fun t => Ok (ttranspose [1; 0; 2] t)) true = Raise EValue.
Proof. cbv zeta. repeat split; try (eexists; reflexivity); reflexivity. Qed.
Example reshape_ex : let c := CM values3 mp1 in
  (exists c', c_reshape c [3; 2]%Z = Ok c' /\ mom_entry c' [1; 1] [2] = mom_entry c [1; 0] [2]) /\
  (exists c', c_reshape c [-1]%Z = Ok c' /\ c_shape c' = [6; 3]) /\
  c_reshape c [4]%Z = Raise EValue /\ c_reshape c [-1; 4]%Z = Raise EValue /\ c_reshape c [-1; -1]%Z = Raise EValue /\
  c_reshape (CM scalar3 mp1) [1]%Z = Raise EValue.
Proof. cbv zeta. repeat split; try (eexists; split; reflexivity); reflexivity. Qed.
Example moveaxis_values_ex : let c := CM values3 mp1 in
  (exists c', c_moveaxis c (Some (Some [AInt 0])) (Some (Some [AComplex (-1)])) false = Ok c' /\ c_shape c' = [3; 2; 3] /\ mom_entry c' [2; 1] [0] = mom_entry c [1; 2] [0]) /\
  (exists c', c_moveaxis c (Some (Some [AInt 0])) None true = Ok c' /\ c_shape c' = [3; 2; 3]) /\
  c_moveaxis c (Some (Some [AInt 0])) (Some (Some [AInt (-1)])) false = Raise EValue /\
  c_moveaxis c (Some (Some [AInt (-1)])) None true = Raise EValue.
Proof. cbv zeta. repeat split; try (eexists; repeat split; reflexivity); reflexivity. Qed.
Example resample_ex : let c := CM values3 mp1 in
  (exists c', c_resample c [2; 2] [1; 0; -1; 1]%Z (AInt 0) false = Ok c' /\ c_shape c' = [2; 2; 3; 3] /\ mom_entry c' [0; 1; 2] [1] = mom_entry c [0; 2] [1]) /\
  (exists c', c_resample c [2; 2] [1; 0; -1; 1]%Z (AInt 0) true = Ok c' /\ c_shape c' = [3; 2; 2; 3] /\ mom_entry c' [2; 0; 1] [1] = mom_entry c [0; 2] [1]) /\
  c_resample c [2] [1; 2]%Z (AInt 0) false = Raise EIndex /\
  c_resample c [4] [0; 1; 2; 0]%Z resample_default_axis false = Raise EValue.
Proof. cbv zeta. repeat split; try (eexists; repeat split; reflexivity); reflexivity. Qed.
