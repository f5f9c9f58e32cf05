(* Proofs about the methods of CentralMomentsData that push onto the object. *)
From Coq Require Import String Permutation.
From Verif Require Import Base BaseLemmas ModelPush ModelKernels ModelIndex ModelAccum ModelAxes ModelState ModelParams ModelNd ModelWrap ModelLabel ModelMethods ModelConstruct ModelMethodsX
  Spec SpecAxes SpecNd PropWrap PropLabelled PropNd PropNdVals SpecLabel SpecLabelTwo SpecLabelVals SpecMethods SpecMethodsX
  Laws ProofAxes ProofArrays ProofMulti ProofNd PropParams ProofNdVals ProofLabel ProofLabelMany ProofLabelVals ProofMethods PropMethods PropMethodsUse.
Local Open Scope string_scope.
Local Open Scope nat_scope.

Lemma in_combine_map (f : sname -> nat) l n k : In (n, k) (combine l (map f l)) -> In n l /\ k = f n.
Proof. induction l as [|m l IH]; [intros []|]. cbn [map combine]. intros [E|H]; [injection E as <- <-; split; [now left|reflexivity]|]. destruct (IH H). split; [now right|assumption]. Qed.
Lemma broadcasts_all l s : (forall t, In t l -> fits_shape t s) -> broadcasts (l ++ [s]) s.
Proof.
  intros H. split; [|split].
  - intros t Ht. apply in_app_or in Ht. destruct Ht as [Ht|[<-|[]]]; [|lia]. apply (H t Ht). now left.
  - right. exists s. split; [apply in_or_app; right; now left|reflexivity].
  - intros k Hk. split; [|right; exists s; split; [apply in_or_app; right; now left|reflexivity]].
    intros t Ht. apply in_app_or in Ht. destruct Ht as [Ht|[<-|[]]]; [|now left]. apply (H t Ht); [exact Hk|now left].
Qed.
Lemma fits_by_position sd (outer : list sname) (sz : sname -> nat) : List.length sd <= List.length outer ->
  (forall k, k < List.length sd -> nth k sd 0 = sz (nth (List.length outer - List.length sd + k) outer "") \/ nth k sd 0 = 1) -> fits_shape sd (map sz outer).
Proof.
  intros L H. unfold fits_shape, broadcasts. rewrite map_length. split; [|split].
  - intros t [<-|[<-|[]]]; [exact L|now rewrite map_length].
  - right. exists (map sz outer). split; [right; now left|apply map_length].
  - intros k Hk. split; [|right; exists (map sz outer); split; [right; now left|reflexivity]].
    intros t [<-|[<-|[]]]; [|now left]. destruct (Nat.lt_ge_cases k (List.length sd)) as [Q|Q].
    + rewrite !from_end_nth by (rewrite ?map_length; lia). rewrite map_length, nth_map_dims by lia. destruct (H (List.length sd - 1 - k)) as [E|E]; [lia| |right].
      * left. replace (List.length sd - 1 - k) with (List.length sd - 1 - k) in E by lia. rewrite <- (Nat.sub_add_distr _ 1 k). rewrite Nat.sub_add_distr, E. do 2 f_equal. lia.
      * exact E.
    + right. now apply from_end_out.
Qed.
(* a labelled operand as the array handed to the function *)
Lemma operand_tensor core cs outer sz o : lines_up core cs outer sz o -> NoDup (outer ++ core) -> List.length core = List.length cs ->
  exists t sd, match o with Labelled z => broadcast_compat outer core z | Plain t => Ok t end = Ok t /\ tshape t = (sd ++ cs)%list /\ fits_shape sd (map sz outer) /\
    forall env c, inside_names sz outer env -> valid cs c -> tget t (stretched sd (map env outer) ++ c) = operand_at core outer o env c.
Proof.
  intros H N Lc. destruct o as [z|t]; cbn [lines_up] in H.
  2: { destruct H as (_ & sd & E & F). exists t, sd. split; [reflexivity|]. split; [exact E|]. split; [exact F|]. intros env c _ _. cbn [operand_at].
    unfold tndim. rewrite E, app_length, Lc. replace (List.length sd + List.length cs - List.length cs) with (List.length sd) by lia.
    now rewrite firstn_app, Nat.sub_diag, firstn_O, app_nil_r, firstn_all. }
  destruct H as (Hz & I1 & I2 & Sz & Ecs). destruct (broadcast_placed z outer core Hz N I2 I1) as (t & E & T1 & T2 & T3).
  destruct (trim_spec (x_dims z) outer) as (pre & Ep & Hpre). set (tr := trim (x_dims z) outer) in *.
  assert (Ic : map (sizes_of z) core = cs). { rewrite <- Ecs. apply map_ext_in. intros n Hn. unfold sizes_of. apply I1, smem_In in Hn. now rewrite Hn. }
  exists t, (map (sizes_of z) tr). split; [exact E|]. split; [now rewrite T2, map_app, Ic|].
  assert (Lo : List.length outer = List.length pre + List.length tr) by (rewrite Ep at 1; apply app_length).
  assert (Nt : forall k, k < List.length tr -> nth (List.length outer - List.length tr + k) outer "" = nth k tr "").
  { intros k Hk. rewrite Ep at 2. rewrite app_nth2 by lia. f_equal. lia. }
  assert (Io : forall k, k < List.length tr -> In (nth k tr "") outer) by (intros k Hk; rewrite Ep; apply in_or_app; right; now apply nth_In).
  split.
  - apply fits_by_position; rewrite map_length; [lia|]. intros k Hk. rewrite Nt by exact Hk. rewrite (nth_map_dims (sizes_of z)) by exact Hk. unfold sizes_of.
    destruct (smem (nth k tr "") (x_dims z)) eqn:S1; [|now right]. left. apply Sz; [now apply smem_In|now apply Io].
  - intros env c He Hc. cbn [operand_at].
    assert (Lc' : List.length c = List.length core) by (rewrite Lc; now apply valid_length).
    apply NoDup_app_iff in N. destruct N as (N1 & N2 & N3).
    assert (X : x_inside z (name_bind core c env)).
    { intros n Hn. destruct (in_dec string_dec n core) as [Q|Q].
      - destruct (In_nth _ _ "" Q) as (k & Hk & En). rewrite <- En at 1. rewrite name_bind_in by auto. rewrite <- En. rewrite <- Ecs in Hc. rewrite <- (nth_map_dims (dim_size z) core k Hk).
        apply valid_nth; [exact Hc|now rewrite map_length].
      - rewrite name_bind_out by exact Q. assert (O : In n outer) by (specialize (I2 n Hn); apply in_app_or in I2; tauto). rewrite (Sz n Hn O). now apply He. }
    rewrite <- (T3 _ X), map_app. f_equal. f_equal.
    + apply (nth_ext _ _ 0 0); [rewrite stretched_length, !map_length by (rewrite !map_length; lia); reflexivity|].
      intros k Hk. rewrite stretched_length, map_length in Hk by (rewrite !map_length; lia). rewrite stretched_nth by (rewrite !map_length; lia).
      rewrite !map_length, (nth_map_dims (sizes_of z)) by exact Hk. rewrite (nth_map_dims env) by lia. rewrite Nt by exact Hk. rewrite (nth_map_dims (idx_of z (name_bind core c env))) by exact Hk.
      unfold sizes_of, idx_of. pose proof (Io k Hk) as O. set (n := nth k tr "") in *. rewrite name_bind_out by (intros Q; now apply (N3 n)).
      destruct (smem n (x_dims z)) eqn:S1; [|reflexivity]. destruct (Nat.eqb_spec (dim_size z n) 1) as [E1|E1]; [|reflexivity].
      specialize (He n O). rewrite <- (Sz n) in He by (auto; now apply smem_In). lia.
    + rewrite <- (map_name_bind core c env N2 Lc') at 1. apply map_ext_in. intros n Hn. unfold idx_of. apply I1, smem_In in Hn. now rewrite Hn.
Qed.

(* ---- the object -------------------------------------------------------------------- *)
Section Update.
  Context {A V : Type} (K : pusher A V) (ok : A -> Prop) (P : packer A) (R : reader V).
  Hypothesis VA : values_array K ok P R.
  Let MA : moment_array K ok P := va_array K ok P R VA.
  Context (stretch : bool) (c : cmdata) (md : list sname).
  Hypothesis HC : xholds c md.
  Let x := cx_obj c.
  Hypothesis HS : map (dim_size x) md = pk_shape P.
  Let outer := except_name (x_dims x) md.
  Let sz := dim_size x.

  Lemma obj_params : iter_dims (cx_params c) = Ok md.
  Proof. destruct HC as (_ & _ & _ & _ & _ & ->). reflexivity. Qed.
  Lemma outer_perm : Permutation (outer ++ md) (x_dims x).
  Proof.
    destruct HC as ((_ & N & _) & Nm & _ & I & _). apply NoDup_Permutation; [|exact N|].
    - apply NoDup_app_iff. split; [now apply NoDup_filter|]. split; [exact Nm|]. intros n Hn. apply except_name_In in Hn. tauto.
    - intros n. rewrite in_app_iff. unfold outer. rewrite except_name_In. destruct (in_dec string_dec n md) as [Q|Q]; [|tauto]. split; [intros _; now apply I|tauto].
  Qed.
  Lemma outer_md_NoDup : NoDup (outer ++ md).
  Proof. eapply Permutation_NoDup; [symmetry; apply outer_perm|]. apply HC. Qed.
  Lemma md_length : List.length md = List.length (pk_shape P).
  Proof. rewrite <- HS. now rewrite map_length. Qed.

  (* by position and by name *)
  Lemma moments_cell (u : xarr) t env : x_ok u -> x_dims u = (outer ++ md)%list -> x_val u = t -> moments_named P u md env = mom_cell P t (map env outer).
  Proof.
    intros Hu Ed Et. apply (proj1 (ma_packer _ _ _ MA)). intros m Vm. unfold x_at. rewrite Ed, Et, map_app. pose proof outer_md_NoDup as N. apply NoDup_app_iff in N. destruct N as (_ & N2 & N3).
    f_equal. f_equal; [|apply map_name_bind; [exact N2|rewrite md_length; now apply valid_length]].
    apply map_ext_in. intros n Hn. apply name_bind_out. intros Q. now apply (N3 n).
  Qed.
  Lemma inside_bind (u : xarr) env m : x_same x u -> inside_names sz outer env -> valid (pk_shape P) m -> x_inside x (name_bind md m env).
  Proof.
    intros _ He Vm n Hn. destruct (in_dec string_dec n md) as [Q|Q].
    - destruct (In_nth _ _ "" Q) as (k & Hk & En). rewrite <- En at 1. rewrite name_bind_in; [|apply HC|rewrite md_length; now apply valid_length|exact Hk]. rewrite <- En, <- (nth_map_dims (dim_size x) md k Hk).
      apply valid_nth; [rewrite HS; exact Vm|now rewrite map_length].
    - rewrite name_bind_out by exact Q. apply He. unfold outer. now rewrite except_name_In.
  Qed.
  Lemma moments_same (u : xarr) env : x_same x u -> inside_names sz outer env -> moments_named P x md env = moments_named P u md env.
  Proof.
    intros Su He. apply (proj1 (ma_packer _ _ _ MA)). intros m Vm. apply (proj2 (proj2 Su)). now apply (inside_bind u).
  Qed.

  Variables (args : list (xop * list sname)) (SZ : sname -> nat) (ts : list tensor).
  Hypothesis SZo : forall n, In n (x_dims x) -> SZ n = sz n.
  Hypothesis Ha : forall z, In z (labelled_of (map fst args)) -> x_ok z /\ (forall n, In n (x_dims z) -> dim_size z n = SZ n) /\
    forall n, In n (x_dims z) -> In n (x_dims x) \/ In n (flat_map snd args).
  Hypothesis Hcore : forall n, In n (flat_map snd args) -> ~ In n outer.
  Hypothesis Ets : mapR (fun a : xop * list sname => match fst a with Labelled z => broadcast_compat outer (snd a) z | Plain t => Ok t end) args = Ok ts.

  Lemma update_named (f : tensor -> list tensor -> res tensor) (ops : list operand_of) g at_ :
    (forall out, f out ts = gufunc_update K P stretch (map fst ops) out (axes_last (mom_ndim P)) g) ->
    Forall (fun o : operand_of => op_reads (fst (fst o)) (fst (snd o)) (snd (fst o)) (snd (snd o)) /\ fits_shape (fst (snd o)) (map sz outer)) ops ->
    (forall l, op_ok ok (at_ l)) ->
    (forall env cur es, inside_names sz outer env ->
       Forall2 (fun e (o : operand_of) => forall c, valid (snd (fst o)) c -> e c = snd (snd o) (stretched (fst (snd o)) (map env outer)) c) es ops ->
       g cur es = of_opt EZeroDiv (run_op K cur (at_ env))) ->
    pushed_named K P md x at_ (x_update c md args f).
  Proof.
    intros Ef RO Hok Hg. pose proof outer_md_NoDup as NN. pose proof HC as (Hx & Nm & Lm & Im & Fm & Ep).
    destruct (broadcast_perm x outer md Hx outer_perm) as (t0 & E0 & Hy & Sy). set (y := XA (outer ++ md) t0) in *.
    set (s := map sz outer).
    assert (Sh : tshape t0 = (s ++ pk_shape P)%list).
    { transitivity (map (dim_size y) (outer ++ md)); [exact (shape_named y Hy)|]. rewrite map_app, <- HS. unfold s. f_equal; apply map_ext_in; intros n Hn; symmetry; apply Sy.
      - apply except_name_In in Hn. tauto.
      - now apply Im. }
    set (c0 := CM t0 (AP (Some (Z.of_nat (List.length (pk_shape P)))) (Some (axes_last (List.length (pk_shape P)))))).
    assert (H0 : holds c0 s (pk_shape P)).
    { split; [exact (proj1 Hy)|]. split; [exact Sh|]. split; [rewrite <- md_length; exact Lm|]. split; [|reflexivity].
      rewrite <- HS. clear - Fm. induction Fm; constructor; auto. }
    (* the environment of a position *)
    set (env_of := fun l => name_bind outer l (fun _ => 0)).
    assert (EE : forall l, valid s l -> inside_names sz outer (env_of l) /\ map (env_of l) outer = l).
    { intros l Vl. pose proof NN as N. apply NoDup_app_iff in N. destruct N as (N1 & _).
      assert (Ll : List.length l = List.length outer) by (rewrite (valid_length _ _ Vl); apply map_length).
      split; [|now apply map_name_bind]. intros n Hn. destruct (In_nth _ _ "" Hn) as (k & Hk & En). unfold env_of. rewrite <- En at 1. rewrite name_bind_in by auto. rewrite <- En, <- (nth_map_dims sz outer k Hk).
      apply valid_nth; [exact Vl|now rewrite map_length]. }
    assert (AT : forall env, inside_names sz outer env -> forall cur, run_op K cur (at_ env) = run_op K cur (at_ (env_of (map env outer)))).
    { intros env He cur. assert (Vl : valid s (map env outer)) by now apply inside_names_valid. destruct (EE _ Vl) as [E1 E2].
      set (es := map (fun o : operand_of => snd (snd o) (stretched (fst (snd o)) (map env outer))) ops).
      assert (F : Forall2 (fun e (o : operand_of) => forall c, valid (snd (fst o)) c -> e c = snd (snd o) (stretched (fst (snd o)) (map env outer)) c) es ops).
      { unfold es. clear. induction ops as [|o l IH]; constructor; auto. }
      pose proof (Hg env cur es He F) as G1. pose proof (Hg (env_of (map env outer)) cur es E1) as G2. rewrite E2 in G2. specialize (G2 F). rewrite G1 in G2.
      destruct (run_op K cur (at_ env)), (run_op K cur (at_ (env_of (map env outer)))); cbn in G2; congruence. }
    (* the call *)
    assert (EO : outer_dims [] (flat_map snd ((Labelled x, md) :: args) ++ md) (labelled_of (map fst ((Labelled x, md) :: args))) = outer).
    { cbn [flat_map snd map fst]. change (labelled_of (Labelled x :: map fst args)) with (x :: labelled_of (map fst args)). apply outer_dims_more with (drop := md); [apply Hx|reflexivity|intros n []|intros n Hn; rewrite <- app_assoc; apply in_or_app; now left| |].
      - intros n Hn Hd. destruct (in_dec string_dec n md) as [Q|Q]; [exact Q|]. exfalso. rewrite <- app_assoc, !in_app_iff in Hn. destruct Hn as [Hn|[Hn|Hn]]; try tauto. apply (Hcore n Hn). unfold outer. now rewrite except_name_In.
      - intros z n Hz Hn. destruct (Ha z Hz) as (_ & _ & D). destruct (D n Hn) as [Q|Q]; [now left|right]. rewrite <- app_assoc, !in_app_iff. tauto. }
    pose proof (run_update K ok P R VA stretch c0 s s H0 (or_intror eq_refl) ops g (fun l => at_ (env_of l))) as X.
    assert (RO' : Forall (fun o : operand_of => op_reads (fst (fst o)) (fst (snd o)) (snd (fst o)) (snd (snd o))) ops) by (eapply Forall_impl; [|exact RO]; cbn; tauto).
    specialize (X RO'). specialize (X ltac:(apply broadcasts_all; intros u Hu; apply in_map_iff in Hu; destruct Hu as (o & <- & Ho); rewrite Forall_forall in RO; now apply RO)).
    specialize (X ltac:(intros l; apply Hok)).
    assert (Hg' : forall l cur es, valid s l -> Forall2 (fun e (o : operand_of) => forall c, valid (snd (fst o)) c -> e c = snd (snd o) (stretched (fst (snd o)) l) c) es ops ->
      g cur es = of_opt EZeroDiv (run_op K cur (at_ (env_of l)))).
    { intros l cur es Vl H. destruct (EE l Vl) as [E1 E2]. apply Hg; [exact E1|]. rewrite E2. exact H. }
    specialize (X Hg'). cbn [c_obj c0] in X.
    unfold x_update. fold x. rewrite (apply_ufunc_eq _ _ _ _ SZ (t0 :: ts)).
    - rewrite EO. cbn [arg nth tl]. rewrite Ef. unfold c_with in X. destruct (gufunc_update _ _ _ _ _ _ _) as [out|e]; cbn [rbind rmap cx_with pushed_named runs_at] in *; cbn [c_obj] in X.
      + destruct X as (Ho & Xr). destruct Ho as (T1 & T2 & _). cbn [c_obj c_shape] in T1, T2. unfold c_shape in T2. cbn [c_obj] in T2.
        set (u := to_xarr (LG (outer ++ md) (to_grid out))). assert (Eu : x_dims u = (outer ++ md)%list /\ x_val u = out) by (split; [reflexivity|destruct out; reflexivity]). destruct Eu as [Eu1 Eu2].
        assert (Hu : x_ok u). { split; [now rewrite Eu2|]. rewrite Eu1. split; [exact NN|]. unfold x_shape. rewrite Eu2, T2, app_length, app_length, md_length. unfold s. now rewrite map_length. }
        assert (Su : forall n, In n (x_dims x) -> dim_size u n = dim_size x n).
        { intros n Hn. assert (Q : In n (outer ++ md)) by (apply (Permutation_in _ (Permutation_sym outer_perm)); exact Hn). rewrite (proj1 (proj2 Sy) n Hn). unfold dim_size, x_shape. rewrite Eu1, Eu2. cbn [y x_dims x_val]. now rewrite T2, Sh. }
        split; [|split; [reflexivity|split; [exact Su|]]].
        * split; [exact Hu|]. split; [exact Nm|]. split; [exact Lm|]. split; [intros n Hn; apply in_or_app; now right|]. split; [|exact Ep].
          apply Forall_forall. intros n Hn. change (2 <= dim_size u n). rewrite Su by now apply Im. rewrite Forall_forall in Fm. now apply Fm.
        * intros env He. rewrite (AT env He), (moments_same y env Sy He), (moments_cell y t0 env Hy eq_refl eq_refl). cbn [cx_obj]. fold u. rewrite (moments_cell u out env Hu Eu1 Eu2).
          assert (Vl : valid s (map env outer)) by now apply inside_names_valid. specialize (Xr _ Vl). rewrite (landing_self _ _ Vl) in Xr. cbn [map] in Xr. unfold run_ops in Xr. cbn [foldM c_obj c0] in Xr.
          destruct (run_op K (mom_cell P t0 (map env outer)) (at_ (env_of (map env outer)))) as [a|]; [exact Xr|discriminate].
      + destruct X as [-> (p & Vp & Xr)]. split; [reflexivity|]. destruct (EE p Vp) as [E1 E2]. exists (env_of p). split; [exact E1|].
        rewrite (moments_same y _ Sy E1), (moments_cell y t0 _ Hy eq_refl eq_refl), E2. rewrite (landing_self _ _ Vp) in Xr. cbn [map] in Xr. unfold run_ops in Xr. cbn [foldM c_obj c0] in Xr.
        destruct (run_op K (mom_cell P t0 p) (at_ (env_of p))) as [a|]; [discriminate|reflexivity].
    - intros z Hz. change (labelled_of (map fst ((Labelled x, md) :: args))) with (x :: labelled_of (map fst args)) in Hz. destruct Hz as [<-|Hz].
      + split; [exact Hx|]. intros n Hn _. symmetry. now apply SZo.
      + destruct (Ha z Hz) as (D1 & D2 & _). split; [exact D1|]. intros n Hn _. now apply D2.
    - rewrite EO. cbn [mapR fst snd]. rewrite E0. cbn [rbind]. now rewrite Ets.
    - rewrite EO. cbn [arg nth tl]. rewrite Ef. intros gr Eg. unfold c_with in X. destruct (gufunc_update _ _ _ _ _ _ _) as [out|e]; cbn [rmap rbind] in Eg; [|discriminate].
      assert (Q0 : gr = to_grid out) by congruence. subst gr. cbn [rbind runs_at] in X. destruct X as [(_ & T2 & _) _]. unfold c_shape in T2. cbn [c_obj] in T2. change (gshape (to_grid out)) with (tshape out). rewrite T2. split.
      + rewrite !app_length, md_length. unfold s. now rewrite map_length.
      + intros n k Hp _ Hn. rewrite <- Sh in Hp. change (tshape t0) with (x_shape y) in Hp. rewrite (shape_named y Hy) in Hp. cbn [y x_dims] in Hp. fold y in Hp. apply in_combine_map in Hp.
        destruct Hp as [Hp ->]. assert (Q : In n (x_dims x)) by (eapply Permutation_in; [apply outer_perm|exact Hp]). rewrite (SZo n Q). symmetry. now apply Sy.
  Qed.
End Update.

(* ---- operands ---------------------------------------------------------------------- *)

(* arrays with their broadcast axes, for operands with the names core *)
Lemma operands_tensors core cs outer sz os : Forall (lines_up core cs outer sz) os -> NoDup (outer ++ core) -> List.length core = List.length cs ->
  exists l : list (tensor * list nat),
    mapR (fun a : xop * list sname => match fst a with Labelled z => broadcast_compat outer (snd a) z | Plain t => Ok t end) (map (fun o => (o, core)) os) = Ok (map fst l) /\
    Forall2 (fun q o => tshape (fst q) = (snd q ++ cs)%list /\ fits_shape (snd q) (map sz outer) /\
      forall env c, inside_names sz outer env -> valid cs c -> tget (fst q) (stretched (snd q) (map env outer) ++ c) = operand_at core outer o env c) l os.
Proof.
  intros F N L. induction F as [|o os H F (l & E & G)]; [exists []; split; [reflexivity|constructor]|].
  destruct (operand_tensor core cs outer sz o H N L) as (t & sd & E1 & E2 & E3 & E4). exists ((t, sd) :: l). split; [|constructor; [auto|exact G]].
  cbn [map mapR fst snd]. rewrite E1. cbn [rbind]. rewrite E. reflexivity.
Qed.

(* an array of values whose samples come last *)
Lemma value_tensor d outer sz n r o t : ~ In d outer -> fits_value d outer (result_size sz d n) r o t ->
  exists sd, tshape t = (sd ++ [n])%list /\ fits_shape sd (map sz outer) /\
    forall env i, inside_names sz outer env -> i < n -> tget t (stretched sd (map env outer) ++ [i]) = value_at d outer r o env i.
Proof.
  intros Nd (_ & c & E1 & (A1 & A2 & A3 & A4 & A5) & E3 & E4). set (a := List.length outer) in *.
  assert (Sd : result_size sz d n d = n) by (unfold result_size; now rewrite String.eqb_refl). rewrite Sd in *.
  assert (So : forall m, In m outer -> result_size sz d n m = sz m) by (intros m Hm; unfold result_size; destruct (String.eqb_spec m d) as [->|]; [tauto|reflexivity]).
  assert (Ee : except_nat (seq 0 (tndim t)) [c] = seq 0 c). { rewrite <- E1. replace (S c) with (c + 1) by lia. change [c] with (seq c 1). apply except_seq_last. }
  rewrite Ee, !seq_length in A4. set (sd := firstn c (tshape t)).
  assert (Lsd : List.length sd = c) by (unfold sd; rewrite firstn_length; unfold tndim in E1; lia).
  assert (Es : tshape t = (sd ++ [n])%list).
  { rewrite <- (firstn_skipn c (tshape t)) at 1. f_equal. unfold shape_of in E3. unfold tndim in E1. assert (Lk : List.length (skipn c (tshape t)) = 1) by (rewrite skipn_length; lia).
    destruct (skipn c (tshape t)) as [|u [|]] eqn:Q; try discriminate. f_equal. rewrite <- E3. rewrite <- (firstn_skipn c (tshape t)), Q. rewrite app_nth2 by (fold sd; lia). fold sd. now rewrite Lsd, Nat.sub_diag. }
  assert (Dk : forall k, k < c -> nth k sd 0 = shape_of t k) by (intros k Hk; unfold shape_of; rewrite Es, app_nth1 by lia; reflexivity).
  assert (Al : forall k, k < c -> aligned_with t [c] (seq 0 a) k = a - c + k).
  { intros k Hk. unfold aligned_with. rewrite Ee, !seq_length, index_of_front by lia. rewrite seq_nth by lia. reflexivity. }
  exists sd. split; [exact Es|]. split.
  - apply fits_by_position; rewrite Lsd; [fold a; lia|]. intros k Hk. rewrite (Dk k Hk). destruct (A5 k) as [Q|Q]; [rewrite Ee; apply in_seq; lia|left|now right].
    rewrite Q, (Al k Hk). fold a. apply So, nth_In. fold a. lia.
  - intros env i He Hi. rewrite <- (E4 (fun k => env (nth k outer "")) env i (fun _ _ => eq_refl)); [| |exact Hi]; [|intros m Hm; rewrite So by exact Hm; now apply He].
    rewrite (read_aligned t c a _ i A1 E1 A4). unfold aligned_entry, entry. f_equal. rewrite <- E1.
    replace (S c) with (c + 1) by lia. rewrite seq_app, map_app. cbn [seq map plus]. f_equal.
    + apply (nth_ext _ _ 0 0); [rewrite stretched_length, map_length, seq_length by (rewrite map_length; fold a; lia); exact Lsd|].
      intros k Hk. rewrite stretched_length in Hk by (rewrite map_length; fold a; lia). rewrite stretched_nth by (rewrite ?map_length; fold a; lia). rewrite Lsd in *.
      rewrite (nth_map_in _ _ _ _ 0) by (now rewrite seq_length). rewrite seq_nth by exact Hk. cbn [plus]. rewrite bind_out by (intros [Q|[]]; lia). rewrite (Dk k Hk).
      rewrite map_length. fold a. rewrite (nth_map_dims env) by (fold a; lia). rewrite (Al k Hk). reflexivity.
    + f_equal. unfold bind. cbn [combine find fst snd]. now rewrite Nat.eqb_refl.
Qed.
Lemma values_tensors d outer sz n r os : ~ In d outer -> NoDup outer ->
  (forall o, In o os -> value_given d outer (result_size sz d n) r o /\ match o with Labelled u => incl (x_dims u) (outer ++ [d]) | Plain t => tensor_ok t end) ->
  exists os' (l : list (tensor * list nat)),
    mapR (fun o => match o with Labelled _ => Ok o | Plain t => rmap Plain (prepare_secondary (-1 - Z.of_nat r) n true t) end) os = Ok os' /\ labelled_of os' = labelled_of os /\
    mapR (fun a : xop * list sname => match fst a with Labelled z => broadcast_compat outer (snd a) z | Plain t => Ok t end) (map (fun o => (o, [d])) os') = Ok (map fst l) /\
    Forall2 (fun q o => tshape (fst q) = (snd q ++ [n])%list /\ fits_shape (snd q) (map sz outer) /\
      forall env i, inside_names sz outer env -> i < n -> tget (fst q) (stretched (snd q) (map env outer) ++ [i]) = value_at d outer r o env i) l os.
Proof.
  intros Nd N H. induction os as [|o os IH]; [exists [], []; repeat (split; [reflexivity|]); constructor|].
  destruct IH as (os' & l & E1 & E2 & E3 & E4); [intros o' Ho; apply H; now right|].
  destruct (H o (or_introl eq_refl)) as [G1 G2].
  assert (ND : NoDup (outer ++ [d])) by (apply NoDup_app_iff; split; [exact N|]; split; [repeat constructor; intros []|]; intros m Hm [->|[]]; tauto).
  destruct (ProofLabelVals.value_prepared d outer (result_size sz d n) r o G1 ND) as (o' & t & P1 & P2 & P3 & P4); [destruct o; [exact G2|intros m []]|].
  assert (Sd : result_size sz d n d = n) by (unfold result_size; now rewrite String.eqb_refl). rewrite Sd in P1.
  destruct (value_tensor d outer sz n r o t Nd P4) as (sd & Q). exists (o' :: os'), ((t, sd) :: l).
  cbn [mapR map fst snd]. rewrite P1, P3. cbn [rbind]. rewrite E1, E3. cbn [rbind]. split; [reflexivity|]. split; [|split; [reflexivity|now constructor]].
  change (labelled_of (o' :: os')) with (labelled_of ([o'] ++ os')). change (labelled_of (o :: os)) with (labelled_of ([o] ++ os)). rewrite !labelled_of_app. now rewrite P2, E2.
Qed.

(* rows of a plain array *)
Lemma prepared_rows {A} (P : packer A) mom axis a M L t : axis_of_moments P mom axis a M t -> L = except_nat (seq 0 (tndim t)) (a :: M) ->
  exists za mom' t', prepare_data axis mom true t = Ok (za, mom', t') /\ tshape t' = (map (shape_of t) L ++ shape_of t a :: pk_shape P)%list /\
    forall p i m, valid (map (shape_of t) L) p -> i < shape_of t a -> valid (pk_shape P) m ->
      tget t' (p ++ i :: m) = entry t (bind M m (bind [a] [i] (bind L p (fun _ => 0)))).
Proof.
  intros HA EL. destruct (prepare_data_view P mom axis true a M t HA) as (za & mom' & t' & Ep & Vt & _ & _). cbn zeta in *. exists za, mom', t'. split; [exact Ep|].
  destruct HA as (Td & FM & NA & ND & SM). cbn [column_axes] in *. rewrite <- EL in *.
  assert (Bd : forall b, In b (a :: M) -> b < tndim t) by (intros b [<-|Hb]; [now apply names_axis_lt in NA|]; apply (is_axis_range _ _ _ FM); exact Hb).
  assert (NDL : NoDup (L ++ a :: M)).
  { pose proof (column_axes_perm true (tndim t) a M ND Bd) as X. cbn [column_axes] in X. rewrite <- EL in X. apply (perm_range _ _ X). }
  destruct Vt as (Tt & Ts & Tv). split; [rewrite Ts, map_app; cbn [map]; now rewrite SM|]. intros p i m Vp Hi Vm.
  pose proof (valid_length _ _ Vp) as Lp. rewrite map_length in Lp. pose proof (valid_length _ _ Vm) as Lm. assert (LM : List.length M = List.length (pk_shape P)) by (rewrite <- SM; now rewrite map_length).
  set (env := bind M m (bind [a] [i] (bind L p (fun _ => 0)))).
  inversion ND as [|? ? Na NM]; subst x l. destruct (NoDup_app_parts _ _ NDL) as (NL & _ & DL).
  assert (E1 : map env L = p).
  { transitivity (map (bind L p (fun _ => 0)) L); [|now apply map_bind]. apply map_ext_in. intros b Hb. unfold env.
    rewrite bind_out by (intros C; apply (DL b Hb); now right). apply bind_out. intros [<-|[]]. apply (DL a Hb). now left. }
  assert (E2 : env a = i) by (unfold env; rewrite bind_out by exact Na; unfold bind; cbn; now rewrite Nat.eqb_refl).
  assert (E3 : map env M = m) by (apply map_bind; [exact NM|congruence]).
  rewrite <- Tv.
  - f_equal. rewrite map_app. cbn [map]. now rewrite E1, E2, E3.
  - assert (Vb : valid (map (shape_of t) (L ++ a :: M)) (map env (L ++ a :: M))).
    { rewrite !map_app. cbn [map]. rewrite E1, E2, E3, SM. apply Forall2_app; [exact Vp|]. constructor; [lia|exact Vm]. }
    intros b Hb. revert b Hb. now apply valid_env.
Qed.
