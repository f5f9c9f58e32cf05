(* Proofs about functions of the moments of labelled arrays. *)
From Coq Require Import String Permutation.
From Verif Require Import Base BaseLemmas ModelPush ModelKernels ModelIndex ModelAxes ModelState ModelParams ModelNd ModelWrap ModelLabel ModelMoments ModelMomentsX
  Spec SpecAxes SpecNd PropLabelled SpecLabel SpecMethodsX SpecMoments SpecMomentsX
  ProofAxes ProofArrays ProofNd PropParams ProofLabel ProofLabelMany PropLabelJack ProofMethodsX ProofMoments PropMoments PropSelect PropAssign.
Local Open Scope string_scope.
Local Open Scope nat_scope.

(* ---- one labelled array, with more operands ------------------------------------------- *)
Section Applied.
  Context (x : xarr) (md : list sname).
  Hypothesis Hx : x_ok x.
  Hypothesis Nm : NoDup md.
  Hypothesis Im : incl md (x_dims x).
  Let outer := except_name (x_dims x) md.
  Let sz := dim_size x.

  Lemma xm_perm : Permutation (outer ++ md) (x_dims x).
  Proof.
    destruct Hx as (_ & N & _). apply NoDup_Permutation; [|exact N|].
    - apply NoDup_app_iff. split; [now apply NoDup_filter|]. split; [exact Nm|]. intros n Hn. apply except_name_In in Hn. tauto.
    - intros n. rewrite in_app_iff. unfold outer. rewrite except_name_In. destruct (in_dec string_dec n md) as [Q|Q]; [|tauto]. split; [intros _; now apply Im|tauto].
  Qed.
  Lemma xm_In n : In n (outer ++ md) <-> In n (x_dims x).
  Proof. split; apply Permutation_in; [apply xm_perm|symmetry; apply xm_perm]. Qed.
  Lemma xm_NoDup : NoDup (outer ++ md).
  Proof. eapply Permutation_NoDup; [symmetry; apply xm_perm|]. apply Hx. Qed.
  Lemma xm_outer n : In n outer -> In n (x_dims x) /\ ~ In n md.
  Proof. unfold outer. now rewrite except_name_In. Qed.
  Lemma xm_inside env m : inside_names sz outer env -> valid (map sz md) m -> x_inside x (name_bind md m env).
  Proof.
    intros He Vm n Hn. assert (Lm : List.length m = List.length md) by (rewrite (valid_length _ _ Vm); apply map_length). destruct (in_dec string_dec n md) as [Q|Q].
    - destruct (In_nth _ _ "" Q) as (k & Hk & En). rewrite <- En at 1. rewrite name_bind_in by auto. rewrite <- En. change (dim_size x (nth k md "")) with (sz (nth k md "")). rewrite <- (nth_map_dims sz md k Hk).
      apply valid_nth; [exact Vm|now rewrite map_length].
    - rewrite name_bind_out by exact Q. apply He. unfold outer. now rewrite except_name_In.
  Qed.
  (* the array handed to the function *)
  Lemma xm_data : exists t, broadcast_compat outer md x = Ok t /\ tensor_ok t /\ tshape t = (map sz outer ++ map sz md)%list /\
    forall env m, inside_names sz outer env -> valid (map sz md) m -> tget t (map env outer ++ m) = named_moment x md env m.
  Proof.
    destruct (broadcast_perm x outer md Hx xm_perm) as (t & E & Hy & Sy). set (y := XA (outer ++ md) t) in *. exists t. split; [exact E|]. split; [apply Hy|]. split.
    - transitivity (map (dim_size y) (outer ++ md)); [exact (shape_named y Hy)|]. rewrite map_app. f_equal; apply map_ext_in; intros n Hn; symmetry; apply Sy; apply xm_In, in_or_app; auto.
    - intros env m He Vm. unfold named_moment. rewrite (proj2 (proj2 Sy) _ (xm_inside env m He Vm)). unfold x_at. cbn [y x_dims x_val]. rewrite map_app. f_equal. f_equal.
      + apply map_ext_in. intros n Hn. symmetry. apply name_bind_out. now apply xm_outer in Hn.
      + symmetry. apply map_name_bind; [exact Nm|]. rewrite (valid_length _ _ Vm). apply map_length.
  Qed.

  Variables (args : list (xop * list sname)) (SZ : sname -> nat) (ts : list tensor) (oc : list sname) (t0 : tensor).
  Hypothesis SZo : forall n, In n (x_dims x) -> SZ n = sz n.
  Hypothesis Ha : forall z, In z (labelled_of (map fst args)) -> x_ok z /\ (forall n, In n (x_dims z) -> dim_size z n = SZ n) /\
    forall n, In n (x_dims z) -> In n (x_dims x) \/ In n (flat_map snd args).
  Hypothesis Hcore : forall n, In n (flat_map snd args) -> ~ In n outer.
  Hypothesis Hoc : forall n, In n oc -> ~ In n outer.
  Hypothesis Noc : NoDup oc.
  Hypothesis E0 : broadcast_compat outer md x = Ok t0.
  Hypothesis Ets : mapR (fun a : xop * list sname => match fst a with Labelled z => broadcast_compat outer (snd a) z | Plain t => Ok t end) args = Ok ts.

  Lemma xm_outer_dims : outer_dims [] (flat_map snd ((Labelled x, md) :: args) ++ oc) (labelled_of (map fst ((Labelled x, md) :: args))) = outer.
  Proof.
    cbn [flat_map snd map fst]. change (labelled_of (Labelled x :: map fst args)) with (x :: labelled_of (map fst args)). apply outer_dims_more with (drop := md); [apply Hx|reflexivity|intros n []|intros n Hn; rewrite <- app_assoc; apply in_or_app; now left| |].
    - intros n Hn Hd. destruct (in_dec string_dec n md) as [Q|Q]; [exact Q|]. exfalso. assert (O : In n outer) by (unfold outer; now rewrite except_name_In). rewrite <- app_assoc, !in_app_iff in Hn. destruct Hn as [Hn|[Hn|Hn]]; [tauto|now apply (Hcore n)|now apply (Hoc n)].
    - intros z n Hz Hn. destruct (Ha z Hz) as (_ & _ & D). destruct (D n Hn) as [Q|Q]; [now left|right]. rewrite <- app_assoc, !in_app_iff. tauto.
  Qed.
  Lemma xm_agree : agree [] SZ (labelled_of (map fst ((Labelled x, md) :: args))).
  Proof.
    intros z Hz. change (labelled_of (map fst ((Labelled x, md) :: args))) with (x :: labelled_of (map fst args)) in Hz. destruct Hz as [<-|Hz].
    - split; [exact Hx|]. intros n Hn _. symmetry. now apply SZo.
    - destruct (Ha z Hz) as (D1 & D2 & _). split; [exact D1|]. intros n Hn _. now apply D2.
  Qed.
  Lemma xm_tensors : mapR (fun a : xop * list sname => match fst a with Labelled z => broadcast_compat outer (snd a) z | Plain t => Ok t end) ((Labelled x, md) :: args) = Ok (t0 :: ts).
  Proof. cbn [mapR fst snd]. rewrite E0. cbn [rbind]. now rewrite Ets. Qed.
  Lemma apply_result f out osz : f (t0 :: ts) = Ok out -> tshape out = map osz (outer ++ oc) -> (forall n, In n outer -> osz n = sz n) ->
    (forall n, In n oc -> In n (flat_map x_dims (x :: labelled_of (map fst args))) -> osz n = SZ n) ->
    x_apply ((Labelled x, md) :: args) oc f = Ok (LG (outer ++ oc) (to_grid out)).
  Proof.
    intros Ef So Oo Oc. unfold x_apply. rewrite (apply_ufunc_eq _ _ _ _ SZ (t0 :: ts)); [rewrite xm_outer_dims, Ef; reflexivity|exact xm_agree|rewrite xm_outer_dims; exact xm_tensors|].
    rewrite xm_outer_dims, Ef. cbn [rmap rbind]. intros g Eg. injection Eg as <-. change (gshape (to_grid out)) with (tshape out). rewrite So, map_length. split; [reflexivity|].
    intros n k Hk _ Hn. apply in_combine_map in Hk. destruct Hk as [Hk ->]. apply in_app_or in Hk. destruct Hk as [Hk|Hk].
    - rewrite (Oo n Hk). symmetry. apply SZo. now apply xm_outer.
    - now apply Oc.
  Qed.
  Lemma apply_raises f e : f (t0 :: ts) = Raise e -> x_apply ((Labelled x, md) :: args) oc f = Raise e.
  Proof.
    intros Ef. unfold x_apply. rewrite (apply_ufunc_eq _ _ _ _ SZ (t0 :: ts)); [rewrite Ef; reflexivity|exact xm_agree|rewrite xm_outer_dims; exact xm_tensors|].
    rewrite Ef. discriminate.
  Qed.
  (* the array behind a result *)
  Lemma apply_is f out osz at_ : f (t0 :: ts) = Ok out -> tensor_ok out -> tshape out = map osz (outer ++ oc) -> (forall n, In n outer -> osz n = sz n) ->
    (forall n, In n oc -> In n (flat_map x_dims (x :: labelled_of (map fst args))) -> osz n = SZ n) ->
    (forall env, inside_names osz (outer ++ oc) env -> tget out (map env outer ++ map env oc) = at_ env) ->
    result_is (outer ++ oc) osz at_ (rmap to_xarr (x_apply ((Labelled x, md) :: args) oc f)).
  Proof.
    intros Ef To So Oo Oc At. rewrite (apply_result f out osz Ef So Oo Oc). cbn [rmap rbind]. eexists. split; [reflexivity|].
    assert (NN : NoDup (outer ++ oc)).
    { pose proof xm_NoDup as N. apply NoDup_app_iff in N. destruct N as (N1 & _). apply NoDup_app_iff. split; [exact N1|]. split; [exact Noc|]. intros n Hn Hc. now apply (Hoc n). }
    assert (LN : l_named osz (outer ++ oc) (LG (outer ++ oc) (to_grid out))) by (split; [reflexivity|split; [exact To|exact So]]).
    destruct (to_xarr_named _ _ _ LN NN) as (A & B & C). split; [exact A|]. split; [exact B|]. split; [exact C|].
    intros env He. unfold x_at. rewrite B, map_app. rewrite <- (At env He). destruct out. reflexivity.
  Qed.
End Applied.

Lemma moments_params md : List.length md = 1 \/ List.length md = 2 ->
  iter_dims (params_for md) = Ok md /\ array_axes (params_for md) = Ok (axes_last (List.length md)).
Proof. intros [L|L]; (split; [reflexivity|]); unfold array_axes, x_to_array, get_axes, params_for; cbn [xp_ndim]; rewrite L; reflexivity. Qed.

(* ---- the order of dimensions restored --------------------------------------------------- *)
Lemma finished_is x md sz at_ (to_end : bool) (r : res (lgrid Qc)) : x_ok x -> NoDup md -> incl md (x_dims x) ->
  result_is (except_name (x_dims x) md ++ md) sz at_ (rmap to_xarr r) ->
  result_is (if to_end then (except_name (x_dims x) md ++ md)%list else x_dims x) sz at_ (rmap to_xarr (rbind r (finish 0%Qc to_end x))).
Proof.
  intros Hx Nm Im (y & Ey & Hy & Dy & Sy & Ay). destruct r as [g|]; [|discriminate]. cbn [rmap rbind] in Ey |- *.
  destruct to_end; [cbn [finish rmap rbind]; exists y; auto|]. injection Ey as <-. set (dims := (except_name (x_dims x) md ++ md)%list) in *.
  assert (NN : NoDup dims) by (apply xm_NoDup; auto).
  assert (LN : l_named sz dims g).
  { change (lg_dims g = dims) in Dy. split; [exact Dy|]. split; [exact (proj1 Hy)|]. change (x_shape (to_xarr g) = map sz dims). rewrite (shape_named _ Hy). change (x_dims (to_xarr g)) with (lg_dims g). rewrite Dy. apply map_ext_in. intros n Hn. now apply Sy. }
  assert (FL : filter (fun n => smem n dims) (map (fun n => n) (except_name (x_dims x) []) ++ []) = x_dims x).
  { rewrite app_nil_r, map_id. unfold except. rewrite (filter_all _ (x_dims x)) by (intros; reflexivity). apply filter_all. intros n Hn. now apply smem_In, xm_In. }
  cbn [finish]. destruct (transpose_like_ok 0%Qc (x_dims x) (fun n => n) [] [] sz dims g LN NN) as (g' & E & G' & F); [cbv zeta; rewrite FL; apply Hx|].
  cbv zeta in G'. rewrite FL in G'. assert (X : except_name dims (x_dims x) = []).
  { apply filter_none. intros n Hn. apply xm_In in Hn; auto. destruct (in_dec _ _ _); tauto. }
  rewrite X in G'. cbn [app] in G'. rewrite E. cbn [rmap rbind]. exists (to_xarr g'). split; [reflexivity|].
  destruct (to_xarr_named _ _ _ G' (proj1 (proj2 Hx))) as (A & B & C). split; [exact A|]. split; [exact B|]. split; [exact C|].
  intros env He. assert (He' : inside_names sz dims env) by (intros n Hn; apply He; now apply xm_In in Hn).
  rewrite <- (Ay env He'). specialize (F env He'). unfold l_at in F. unfold x_at. cbn [to_xarr x_dims x_val]. exact F.
Qed.

(* ---- one labelled array ------------------------------------------------------------------ *)
Section OneArray.
  Context (x : xarr) (md : list sname).
  Hypothesis HM : has_moments md x.
  Let outer := except_name (x_dims x) md.
  Let sz := dim_size x.
  Let M := seq (List.length outer) (List.length md).
  Let L := seq 0 (List.length outer).

  Lemma one_array oc f : new_names x md oc -> exists t,
    tensor_ok t /\ tshape t = (map sz outer ++ map sz md)%list /\ moment_axes (axes_last (List.length md)) M L t /\
    map (shape_of t) L = map sz outer /\ map (shape_of t) M = map sz md /\
    (forall env m, inside_names sz outer env -> valid (map sz md) m -> moment_entry t M L (map env outer) m = named_moment x md env m) /\
    (forall out osz at_, f [t] = Ok out -> tensor_ok out -> tshape out = (map sz outer ++ map osz oc)%list -> (forall n, In n outer -> osz n = sz n) ->
      (forall n, In n oc -> In n (x_dims x) -> osz n = sz n) ->
      (forall env, inside_names osz (outer ++ oc) env -> tget out (map env outer ++ map env oc) = at_ env) ->
      result_is (outer ++ oc) osz at_ (rmap to_xarr (x_apply [(Labelled x, md)] oc f))) /\
    (forall e, f [t] = Raise e -> x_apply [(Labelled x, md)] oc f = Raise e).
  Proof.
    intros [No Ho]. destruct HM as (Hx & Nm & Lm & Im). destruct (xm_data x md Hx Nm Im) as (t & E & T1 & T2 & T3). exists t.
    assert (A : moment_axes (axes_last (List.length md)) M L t).
    { pose proof (last_moment_axes (map sz outer) (map sz md) t T1 T2) as A. rewrite !map_length in A. exact A. }
    destruct (last_shapes (map sz outer) (map sz md) t T2) as [S1 S2]. rewrite (map_length sz outer) in S1. rewrite (map_length sz outer), (map_length sz md) in S2.
    split; [exact T1|]. split; [exact T2|]. split; [exact A|]. split; [exact S1|]. split; [exact S2|]. split; [|split].
    - intros env m He Vm. rewrite <- (T3 env m He Vm). pose proof (last_moment_entry (map sz outer) (map sz md) t (map env outer) m T2) as Q. rewrite !map_length in Q. apply Q; [reflexivity|]. rewrite (valid_length _ _ Vm). apply map_length.
    - intros out osz at_ Ef To So Oo Oc At. apply (apply_is x md Hx Nm Im [] (dim_size x) [] oc t) with (out := out); auto.
      + intros z [].
      + fold outer. fold sz in So. rewrite map_app, So. f_equal. apply map_ext_in. intros n Hn. symmetry. now apply Oo.
      + intros n Hn Hd. cbn [flat_map labelled_of map fst] in Hd. rewrite app_nil_r in Hd. now apply Oc.
    - intros e Ef. apply (apply_raises x md Hx [] (dim_size x) [] oc t); auto. intros z [].
  Qed.
  (* a position of the other dimensions *)
  Lemma position_env env : inside_names sz outer env -> valid (map sz outer) (map env outer).
  Proof. apply inside_names_valid. Qed.
End OneArray.

(* dimensions that are missing, or taken *)
Lemma not_incl (l m : list sname) : ~ incl l m -> exists n, In n l /\ ~ In n m.
Proof.
  induction l as [|a l IH]; intros N; [elim N; intros n []|]. destruct (in_dec string_dec a m) as [I|I]; [|exists a; split; [now left|exact I]].
  destruct IH as (n & H1 & H2); [intros C; apply N; intros n [<-|Hn]; auto|]. exists n. split; [now right|exact H2].
Qed.
Lemma apply_missing x md oc f : x_ok x -> ~ incl md (x_dims x) -> x_apply [(Labelled x, md)] oc f = Raise EValue.
Proof.
  intros Hx N. unfold x_apply, apply_ufunc. cbn [map fst labelled_of flat_map app snd].
  rewrite (unified_ok [] (dim_size x) [x]) by (intros z [<-|[]]; split; [exact Hx|reflexivity]). cbn [rbind mapR fst snd]. rewrite app_nil_r. set (bdims := filter _ _).
  assert (X : broadcast_compat bdims md x = Raise EValue); [|now rewrite X].
  unfold broadcast_compat. destruct (list_eq_dec string_dec (bdims ++ md) (x_dims x)) as [Q|Q]; [elim N; rewrite <- Q; intros n Hn; apply in_or_app; now right|].
  destruct (existsb _ _); [reflexivity|]. set (re := (filter _ bdims ++ md)%list).
  assert (Y : mapR (get_axis_num (x_dims x)) re = Raise EValue); [|now rewrite Y].
  assert (Z : exists n, In n re /\ ~ In n (x_dims x)).
  { destruct (not_incl md (x_dims x) N) as (n & H1 & H2). exists n. split; [apply in_or_app; now right|exact H2]. }
  clear - Z. destruct Z as (n & H1 & H2). induction re as [|a l IH]; [destruct H1|]. cbn [mapR]. unfold get_axis_num at 1. destruct (smem a (x_dims x)) eqn:S; [|reflexivity].
  destruct H1 as [->|H1]; [apply smem_In in S; tauto|]. cbn [rbind]. now rewrite IH.
Qed.
Lemma apply_taken x md oc f n : x_ok x -> In n oc -> In n (x_dims x) -> ~ In n md -> x_apply [(Labelled x, md)] oc f = Raise EValue.
Proof.
  intros Hx I1 I2 I3. unfold x_apply, apply_ufunc. cbn [map fst labelled_of flat_map app snd].
  rewrite (unified_ok [] (dim_size x) [x]) by (intros z [<-|[]]; split; [exact Hx|reflexivity]). cbn [rbind mapR fst snd]. rewrite app_nil_r.
  rewrite (broadcast_extra _ md x n); auto. intros Q. apply filter_In in Q. destruct Q as [_ Q]. apply Bool.negb_true_iff, smem_false in Q. apply Q. apply in_or_app. now right.
Qed.
(* labelled arrays with the same dimensions and entries are the same *)
Lemma x_ext x y : x_ok x -> x_ok y -> x_dims x = x_dims y -> (forall n, In n (x_dims x) -> dim_size x n = dim_size y n) ->
  (forall env, x_inside x env -> x_at x env = x_at y env) -> x = y.
Proof.
  intros Hx Hy Ed Es Ea. destruct x as [dx tx], y as [dy ty]. cbn [x_dims] in *. subst dy. f_equal.
  assert (Sh : tshape tx = tshape ty).
  { change (x_shape (XA dx tx) = x_shape (XA dx ty)). rewrite (shape_named _ Hx), (shape_named _ Hy). apply map_ext_in. exact Es. }
  apply tensor_ext; [apply Hx|apply Hy|exact Sh|]. intros i Vi. pose proof Hx as (_ & N & L). cbn [x_dims x_shape x_val] in N, L. unfold x_shape in L. cbn [x_val] in L.
  assert (Li : List.length i = List.length dx) by (rewrite L; now apply valid_length).
  specialize (Ea (name_bind dx i (fun _ => 0))). unfold x_at in Ea. cbn [x_dims x_val] in Ea. rewrite map_name_bind in Ea by auto. apply Ea.
  intros n Hn. cbn [x_dims] in Hn. destruct (In_nth _ _ "" Hn) as (k & Hk & En). rewrite <- En at 1. rewrite name_bind_in by auto. rewrite <- En.
  rewrite <- (nth_map_dims (dim_size (XA dx tx)) dx k Hk). change dx with (x_dims (XA dx tx)) at 2. rewrite <- (shape_named _ Hx). apply valid_nth; [exact Vi|]. cbn [x_shape x_val] in *. unfold x_shape. cbn [x_val]. lia.
Qed.
