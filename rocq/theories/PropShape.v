(* stack, unstack and isel of labelled arrays and objects, read by the names of dimensions. *)
From Coq Require Import String Permutation.
From Verif Require Import Base BaseLemmas Checks ModelPush ModelPushCov ModelKernels ModelIndex ModelAxes ModelSelect ModelParams ModelWrap ModelNd ModelLabel ModelDataset ModelShape
  Spec SpecAxes SpecNd SpecLabel SpecLabelTwo SpecDataset SpecShape ProofAxes ProofArrays ProofIndex ProofNd PropAxes PropParams PropWrap PropReshape PropLabelled PropMethodsUse ProofLabel.
Local Open Scope string_scope.
Local Open Scope nat_scope.

(* ---- stack ------------------------------------------------------------------------------ *)

Lemma reshape_last s k : size s <> 0 -> reshape_to (size s * k) (map Z.of_nat s ++ [(-1)%Z]) = Ok (s ++ [k])%list.
Proof.
  intros H. unfold reshape_to. rewrite !filter_app, no_negative. cbn [app filter]. change (-1 <? 0)%Z with true. change (0 <=? -1)%Z with false. cbn [List.length].
  rewrite app_nil_r, size_map_nat. destruct (Nat.eqb_spec (size s) 0); [contradiction|]. cbn [orb]. rewrite Nat.mul_comm, Nat.mod_mul by exact H. cbn [Nat.eqb negb].
  rewrite map_app, map_map. cbn [map]. change (-1 <? 0)%Z with true. cbv iota. rewrite Nat.div_mul by exact H. repeat f_equal.
  rewrite <- (map_id s) at 2. apply map_ext. intros m. destruct (Z.ltb_spec (Z.of_nat m) 0); [lia|apply Nat2Z.id].
Qed.
Lemma reshape_last_empty s k : size s = 0 -> reshape_to k (map Z.of_nat s ++ [(-1)%Z]) = Raise EValue.
Proof.
  intros H. unfold reshape_to. rewrite !filter_app, no_negative. cbn [app filter]. change (-1 <? 0)%Z with true. change (0 <=? -1)%Z with false. cbn [List.length].
  rewrite app_nil_r, size_map_nat, H. reflexivity.
Qed.
Lemma size_zero s : size s = 0 <-> In 0 s.
Proof. induction s as [|n s IH]; cbn [size In]; [lia|]. rewrite Nat.eq_mul_0, IH. tauto. Qed.
Lemma nth_error_all_idx s k : k < size s -> exists i, nth_error (all_idx s) k = Some i /\ valid s i /\ ravel s i = k.
Proof.
  intros H. exists (nth k (all_idx s) []). split; [apply nth_error_nth'; now rewrite all_idx_length|]. split.
  - apply all_idx_valid, nth_In. now rewrite all_idx_length.
  - now apply all_idx_nth_ravel.
Qed.
Lemma dim_size_tail x n : x_ok x -> dim_size x n = nth (position String.eqb n (x_dims x)) (map (dim_size x) (x_dims x)) 0.
Proof. intros H. unfold dim_size at 1. now rewrite (shape_named x H). Qed.
(* sizes of an array given with a list of names *)
Lemma dim_size_of dims (sz : sname -> nat) data n : NoDup dims -> In n dims -> dim_size (XA dims (Tensor (map sz dims) data)) n = sz n.
Proof.
  intros N I. unfold dim_size, x_shape. cbn [x_dims x_val tshape]. destruct (pos_lt dims n I) as [P1 P2].
  rewrite (nth_indep _ 0 (sz "")) by (now rewrite map_length). now rewrite map_nth, P2.
Qed.
Lemma name_bind_map ds i env : NoDup ds -> List.length i = List.length ds -> forall l, NoDup l -> (forall n, In n l -> ~ In n ds) ->
  map (name_bind ds i env) (l ++ ds) = (map env l ++ i)%list.
Proof.
  intros N L l _ D. rewrite map_app, map_name_bind by auto. f_equal. apply map_ext_in. intros n Hn. apply name_bind_out. now apply D.
Qed.
Definition stack_order (ds : list sname) (x : xarr) : list sname := (except_name (x_dims x) ds ++ ds)%list.
Lemma stack_order_ok ds x : x_ok x -> NoDup ds -> incl ds (x_dims x) -> NoDup (stack_order ds x) /\ incl (stack_order ds x) (x_dims x) /\ incl (x_dims x) (stack_order ds x).
Proof.
  intros (_ & N & _) Nd I. unfold stack_order. split; [|split].
  - apply NoDup_app_; [now apply NoDup_filter|exact Nd|]. intros n Hn. now apply except_name_In in Hn.
  - apply incl_app; [|exact I]. intros n Hn. now apply except_name_In in Hn.
  - intros n Hn. apply in_app_iff. destruct (in_dec string_dec n ds); [now right|left]. now apply except_name_In.
Qed.
Theorem x_stack_named : forall z ds x, x_ok x -> stackable z ds x ->
  exists y, x_stack z ds x = Ok y /\ x_ok y /\ stacked z ds x y /\ x_dims y = (except_name (x_dims x) ds ++ [z])%list.
Proof.
  intros z ds x H (Ne & Nd & I & Z & Pos). pose proof H as (Ho & N & L). unfold x_stack. rewrite (proj2 (forallb_incl ds (x_dims x)) I). cbn [negb].
  assert (Zf : smem z (x_dims x) = false) by now apply smem_false. rewrite Zf. rewrite filter_names. set (other := except_name (x_dims x) ds).
  destruct (stack_order_ok ds x H Nd I) as (S1 & S2 & S3). unfold stack_order in *. fold other in S1, S2, S3.
  destruct (x_transpose_ok _ x _ H (infix_exact _ _ S1 S2 S3)) as (u & Eu & Du). rewrite Eu. cbn [rbind]. destruct (x_transpose_same _ _ _ H Eu) as (Hu & (U1 & U2 & U3) & _).
  assert (Su : x_shape u = (map (dim_size x) other ++ map (dim_size x) ds)%list).
  { rewrite (shape_named u Hu), Du, <- map_app. apply map_ext_in. intros n Hn. symmetry. apply U2. now apply S2. }
  rewrite Su. replace (List.length other) with (List.length (map (dim_size x) other)) by apply map_length. rewrite firstn_app, Nat.sub_diag, firstn_all. cbn [firstn]. rewrite app_nil_r.
  unfold np_reshape. fold (x_shape u). rewrite Su, size_app, reshape_last.
  2: { intros Q. apply size_zero in Q. apply in_map_iff in Q as (n & Q & In_). apply except_name_In in In_ as [J1 J2]. specialize (Pos n J1 J2). lia. }
  cbn [rbind]. eexists. split; [reflexivity|]. set (sz := fun n => if String.eqb n z then size (map (dim_size x) ds) else dim_size x n).
  assert (No : ~ In z other) by (intros Q; apply except_name_In in Q; tauto).
  assert (Sh : (map (dim_size x) other ++ [size (map (dim_size x) ds)])%list = map sz (other ++ [z])).
  { rewrite map_app. cbn [map]. f_equal; [|unfold sz; now rewrite String.eqb_refl]. apply map_ext_in. intros n Hn. unfold sz. destruct (String.eqb_spec n z); [now subst|reflexivity]. }
  assert (Ny : NoDup (other ++ [z])) by (apply NoDup_app_; [now apply NoDup_filter|constructor; [intros []|constructor]|intros n Hn [<-|[]]; contradiction]).
  rewrite Sh. set (y := XA _ _). assert (Sz : forall n, In n (other ++ [z]) -> dim_size y n = sz n) by (intros n Hn; now apply dim_size_of).
  assert (Lu : List.length (tdata (x_val u)) = size (x_shape u)) by apply Hu.
  assert (Hy : x_ok y).
  { split; [|split]; [|exact Ny|unfold x_shape, y; cbn [x_dims x_val tshape]; now rewrite map_length]. unfold tensor_ok, y. cbn [x_val tdata tshape]. rewrite Lu, Su, <- Sh, !size_app. cbn [size]. lia. }
  split; [exact Hy|]. split; [|reflexivity]. split; [|split; [|split]].
  - intros n. cbn [y x_dims]. rewrite in_app_iff. unfold other. rewrite except_name_In. cbn [In]. intuition congruence.
  - rewrite Sz by (apply in_app_iff; right; now left). unfold sz. now rewrite String.eqb_refl.
  - intros n J1 J2. rewrite Sz by (apply in_app_iff; left; now apply except_name_In). unfold sz. destruct (String.eqb_spec n z); [subst; contradiction|reflexivity].
  - intros env Iy. assert (Iz : env z < size (map (dim_size x) ds)).
    { assert (Q : In z (x_dims y)) by (cbn [y x_dims]; apply in_app_iff; right; now left). specialize (Iy z Q). rewrite Sz in Iy by exact Q. unfold sz in Iy. now rewrite String.eqb_refl in Iy. }
    destruct (nth_error_all_idx _ _ Iz) as (i & E1 & V & R). exists i. split; [exact E1|].
    assert (Li : List.length i = List.length ds) by (rewrite <- (map_length (dim_size x) ds); exact (valid_length _ _ V)).
    assert (Ix : x_inside x (name_bind ds i env)).
    { intros n Hn. destruct (in_dec string_dec n ds) as [J|J].
      - destruct (In_nth ds n "" J) as (k & K1 & <-). rewrite name_bind_in by (auto; lia). pose proof (valid_nth _ _ V k ltac:(now rewrite map_length)) as Q. now rewrite nth_map_dims in Q.
      - rewrite name_bind_out by exact J. assert (Q : In n (x_dims y)) by (cbn [y x_dims]; apply in_app_iff; left; now apply except_name_In). specialize (Iy n Q). rewrite Sz in Iy by exact Q. unfold sz in Iy.
        destruct (String.eqb_spec n z); [subst; contradiction|exact Iy]. }
    rewrite (U3 _ Ix). unfold x_at. rewrite Du. rewrite name_bind_map by first [assumption | now apply NoDup_filter | intros n Hn; now apply except_name_In in Hn].
    unfold tget, y. cbn [x_val x_dims tshape tdata]. fold (x_shape u). rewrite Su, <- Sh, (map_app env). cbn [map]. rewrite !ravel_app by (now rewrite !map_length). cbn [ravel size]. rewrite R. f_equal. lia.
Qed.
Lemma x_at_agree x e e' : (forall n, In n (x_dims x) -> e n = e' n) -> x_at x e = x_at x e'.
Proof. intros H. unfold x_at. f_equal. now apply map_ext_in. Qed.
Lemma name_bind_any l i e e' n : NoDup l -> List.length i = List.length l -> In n l -> name_bind l i e n = name_bind l i e' n.
Proof. intros N L I. destruct (In_nth l n "" I) as (k & K1 & <-). now rewrite !name_bind_in. Qed.
Lemma x_inside_ext x e e' : (forall n, In n (x_dims x) -> e n = e' n) -> x_inside x e -> x_inside x e'.
Proof. intros H I n Hn. rewrite <- H by exact Hn. now apply I. Qed.
Lemma stacked_same z ds x y y' : stacked z ds x y -> x_same y y' -> stackable z ds x -> stacked z ds x y'.
Proof.
  intros (S1 & S2 & S3 & S4) (T1 & T2 & T3) (_ & _ & I & Z & _). split; [|split; [|split]].
  - intros n. rewrite <- T1. apply S1.
  - rewrite <- T2; [exact S2|]. apply S1. now left.
  - intros n J1 J2. rewrite <- T2; [now apply S3|]. apply S1. now right.
  - intros env Iy. assert (Iy' : x_inside y env) by (intros n Hn; rewrite T2 by exact Hn; apply Iy; now apply T1). destruct (S4 env Iy') as (i & E1 & E2). exists i. split; [exact E1|]. now rewrite <- T3.
Qed.
Lemma transpose_all_error l x : ~ NoDup l -> x_ok x -> exists e, x_transpose (map Some l) x = Raise e.
Proof.
  intros N H. unfold x_transpose. destruct (infix_dims _ _) as [ds|e] eqn:E; cbn [rbind]; [|eauto]. exfalso. apply N. destruct (infix_ok _ _ _ (proj1 (proj2 H)) E) as (_ & Q & _). now rewrite given_some in Q.
Qed.
(* Dimensions of values may be stacked, nothing else: the object has them, last one
   fastest, along the new dimension, the moments last. *)
Theorem stack_named : forall c md z ds, xholds c md -> ds <> [] ->
  (stackable z ds (cx_obj c) -> (forall n, In n ds -> ~ In n md) ->
   exists y, cx_stack c z ds = Ok (CX y (cx_params c)) /\ xholds (CX y (cx_params c)) md /\ stacked z ds (cx_obj c) y /\
     x_dims y = (except_name (x_dims (cx_obj c)) (ds ++ md) ++ z :: md)%list) /\
  (~ (stackable z ds (cx_obj c) /\ forall n, In n ds -> ~ In n md) -> exists e, cx_stack c z ds = Raise e).
Proof.
  intros c md z ds H Ne. pose proof H as (Ho & Nm & Lm & Im & Sm & P). set (x := cx_obj c) in *. split.
  - intros St D. pose proof St as (_ & Nd & Id & Zn & _). destruct (x_stack_named z ds x Ho St) as (u & Eu & Hu & Su & Du).
    assert (Iu : incl md (x_dims u)) by (intros n Hn; apply Su; right; split; [now apply Im|]; intros Q; now apply (D n Q)).
    assert (Mu : forall n, In n md -> dim_size u n = dim_size (cx_obj c) n) by (intros n Hn; apply Su; [now apply Im|]; intros Q; now apply (D n Q)).
    destruct (x_pipe_reorders c md (x_stack z ds) u false H Eu Hu Iu Mu eq_refl) as (_ & y & Ey & Hy & Ty & Dy). exists y. split; [exact Ey|]. split; [exact Hy|]. split; [now apply (stacked_same z ds x u y)|].
    rewrite Dy, Du, filter_app. cbn [filter]. assert (Zm : smem z md = false) by (apply smem_false; intros Q; apply Zn; now apply Im). rewrite Zm. cbn [negb]. rewrite <- app_assoc. cbn [app]. f_equal.
    rewrite filter_names. unfold except. rewrite filter_twice. apply filter_ext. intros n. destruct (in_dec string_dec n ds), (in_dec string_dec n md), (in_dec string_dec n (ds ++ md)) as [Q|Q]; try reflexivity; rewrite in_app_iff in Q; tauto.
  - intros X. unfold cx_stack, cx_pipe. fold x. destruct (x_stack z ds x) as [u|e] eqn:Eu; cbn [rbind]; [|eauto]. unfold iter_dims. rewrite P. cbn [xp_dims rbind].
    unfold x_stack in Eu. destruct (forallb _ ds) eqn:F; cbn [negb] in Eu; [|discriminate Eu]. apply forallb_incl in F. destruct (smem z (x_dims x)) eqn:Zs; [discriminate Eu|]. apply smem_false in Zs. rewrite filter_names in Eu. set (other := except_name (x_dims x) ds) in *.
    assert (Nd : NoDup ds \/ ~ NoDup ds) by (destruct (sdup ds) eqn:Sd; [right; intros Q; apply sdup_false in Q; congruence|left; now apply sdup_false]). destruct Nd as [Nd|Nd].
    2: { destruct (transpose_all_error (other ++ ds) x) as [e Ee]; [intros Q; apply Nd; now apply NoDup_app_iff in Q|exact Ho|]. rewrite Ee in Eu. discriminate Eu. }
    destruct (stack_order_ok ds x Ho Nd F) as (S1 & S2 & S3). unfold stack_order in *. fold other in S1, S2, S3.
    destruct (x_transpose_ok _ x _ Ho (infix_exact _ _ S1 S2 S3)) as (v & Ev & Dv). rewrite Ev in Eu. cbn [rbind] in Eu. destruct (x_transpose_same _ _ _ Ho Ev) as (Hv & (V1 & V2 & V3) & _).
    assert (Sv : x_shape v = (map (dim_size x) other ++ map (dim_size x) ds)%list) by (rewrite (shape_named v Hv), Dv, <- map_app; apply map_ext_in; intros n Hn; symmetry; apply V2; now apply S2).
    rewrite Sv in Eu. replace (List.length other) with (List.length (map (dim_size x) other)) in Eu by apply map_length. rewrite firstn_app, Nat.sub_diag, firstn_all in Eu. cbn [firstn] in Eu. rewrite app_nil_r in Eu.
    unfold np_reshape in Eu. destruct (Nat.eq_dec (size (map (dim_size x) other)) 0) as [Q|Q]; [rewrite (reshape_last_empty _ _ Q) in Eu; discriminate Eu|].
    destruct (reshape_to _ _) as [s|]; [|discriminate Eu]. cbn [rbind] in Eu. injection Eu as <-.
    assert (Hm : ~ forall n, In n ds -> ~ In n md).
    { intros D. apply X. split; [|exact D]. repeat split; auto. intros n J1 J2. destruct (dim_size x n) as [|k] eqn:E; [|lia]. elim Q. apply size_zero. rewrite <- E. apply in_map. now apply except_name_In. }
    exists EValue. assert (Ei : infix_dims (None :: map Some md) (other ++ [z]) = Raise EValue).
    { destruct (infix_dims _ _) as [l|e] eqn:E; [|now rewrite (infix_err _ _ _ E)]. exfalso. apply Hm. intros n J1 J2. assert (No : NoDup (other ++ [z])) by (apply NoDup_app_; [apply NoDup_filter, Ho|constructor; [intros []|constructor]|intros a Ha [<-|[]]; apply except_name_In in Ha; tauto]).
      destruct (infix_ok _ _ _ No E) as (_ & _ & Q2).
      assert (Gn : given (None :: map Some md) = md) by (change (given (None :: map Some md)) with (given (map Some md)); apply given_some). rewrite Gn in Q2. specialize (Q2 n J2). apply in_app_iff in Q2 as [Q2|[<-|[]]]; [|now apply Zs, Im]. apply except_name_In in Q2. tauto. }
    unfold x_transpose. cbn [x_dims]. rewrite Ei. reflexivity.
Qed.

(* ---- stacking and reducing -------------------------------------------------------------- *)

Lemma all_idx_seq s : all_idx s = map (fun k => nth k (all_idx s) []) (seq 0 (size s)).
Proof. symmetry. apply map_nth_seq. symmetry. apply all_idx_length. Qed.
Lemma all_idx_one n : all_idx [n] = map (fun i => [i]) (seq 0 n).
Proof. cbn [all_idx map]. induction (seq 0 n) as [|i l IH]; [reflexivity|]. cbn [flat_map map app]. now rewrite IH. Qed.
Lemma stacked_rows {A} (P : packer A) z ds md x y env : packer_ok P -> labelled_moments P md x -> NoDup ds -> incl ds (x_dims x) -> ~ In z (x_dims x) -> (forall n, In n ds -> ~ In n md) ->
  stacked z ds x y -> inside_names (dim_size x) (except_name (x_dims x) (ds ++ md)) env ->
  rows_named P y [z] md env = rows_named P x ds md env.
Proof.
  intros HP (Hx & Nm & Im & Mm) Nd Id Zn D (S1 & S2 & S3 & S4) Ie. unfold rows_named. cbn [map]. rewrite S2, all_idx_one, map_map. rewrite (all_idx_seq (map (dim_size x) ds)), map_map.
  apply map_ext_in. intros k Hk. apply in_seq in Hk. unfold moments_named. apply HP. intros m Vm. assert (Lm : List.length m = List.length md) by (rewrite <- (map_length (dim_size x) md), Mm; exact (valid_length _ _ Vm)).
  set (E := name_bind md m (name_bind [z] [k] env)). assert (Zm : ~ In z md) by (intros Q; apply Zn; now apply Im).
  assert (Ez : E z = k) by (unfold E; rewrite name_bind_out by exact Zm; unfold name_bind; cbn; now rewrite String.eqb_refl).
  assert (Vm' : forall n, In n md -> name_bind md m env n < dim_size x n).
  { intros n Hn. destruct (In_nth md n "" Hn) as (j & J1 & <-). rewrite name_bind_in by auto. rewrite <- Mm in Vm. pose proof (valid_nth _ _ Vm j ltac:(now rewrite map_length)) as Q. now rewrite nth_map_dims in Q. }
  assert (Eo : forall n, n <> z -> ~ In n md -> E n = env n).
  { intros n H1 H2. unfold E. rewrite name_bind_out by exact H2. apply name_bind_out. intros [Q|[]]. now apply H1. }
  assert (Em : forall n, In n md -> E n = name_bind md m env n) by (intros n Hn; now apply name_bind_any).
  assert (Iy : x_inside y E).
  { intros n Hn. apply S1 in Hn as [->|[H1 H2]]; [rewrite Ez, S2; lia|]. rewrite S3 by auto. destruct (in_dec string_dec n md) as [M|M]; [rewrite Em by exact M; now apply Vm'|].
    rewrite Eo by (auto; intros ->; contradiction). apply Ie. apply except_name_In. split; [exact H1|]. rewrite in_app_iff. tauto. }
  destruct (S4 E Iy) as (i & E1 & E2). rewrite E2. rewrite Ez in E1. rewrite (nth_error_nth _ _ [] E1).
  assert (Li : List.length i = List.length ds). { apply nth_error_In in E1. apply all_idx_valid in E1. rewrite <- (map_length (dim_size x) ds). exact (valid_length _ _ E1). }
  apply x_at_agree. intros n Hn. destruct (in_dec string_dec n ds) as [J|J].
  - rewrite (name_bind_any ds i E env n) by auto. now rewrite (name_bind_out md) by now apply D.
  - rewrite (name_bind_out ds i E n J). destruct (in_dec string_dec n md) as [M|M]; [rewrite Em by exact M; now apply name_bind_any|].
    rewrite Eo by (auto; intros ->; contradiction). rewrite (name_bind_out md) by exact M. now rewrite name_bind_out.
Qed.
