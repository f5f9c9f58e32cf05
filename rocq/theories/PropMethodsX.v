(* Push methods of CentralMomentsData by the names of dimensions (C133, C134). *)
From Coq Require Import String Permutation.
From Verif Require Import Base BaseLemmas ModelPush ModelKernels ModelIndex ModelAccum ModelAxes ModelState ModelParams ModelNd ModelWrap ModelLabel ModelMethods ModelConstruct ModelMethodsX
  Spec SpecAxes SpecNd PropWrap PropLabelled PropNd PropNdVals SpecLabel SpecLabelTwo SpecLabelVals SpecMethods SpecMethodsX
  Laws ProofAxes ProofArrays ProofMulti ProofNd PropParams ProofNdVals ProofLabel ProofLabelMany ProofLabelVals ProofMethods PropMethods PropMethodsUse PropLabelVals ProofMethodsX.
Local Open Scope string_scope.
Local Open Scope nat_scope.

Section Named.
  Context {A V : Type} (K : pusher A V) (ok : A -> Prop) (P : packer A) (R : reader V).
  Hypothesis VA : values_array K ok P R.
  Let MA : moment_array K ok P := va_array K ok P R VA.
  Context (stretch : bool) (c : cmdata) (md : list sname).
  Hypothesis HC : xholds c md.
  Let x := cx_obj c.
  Hypothesis HS : map (dim_size x) md = pk_shape P.
  Let outer := except_name (x_dims x) md.
  Let sz := dim_size x.
  Let ND : NoDup (outer ++ md) := outer_md_NoDup c md HC.
  Let Lmd : List.length md = List.length (pk_shape P) := md_length P c md HS.

  Lemma size_of_moments z n : map (dim_size z) md = pk_shape P -> In n md -> dim_size z n = sz n.
  Proof. intros E Hn. rewrite <- HS in E. unfold sz. fold x. revert n Hn. apply map_ext_in_iff. exact E. Qed.
  Lemma outer_disjoint n : In n md -> ~ In n outer.
  Proof. intros H Q. apply except_name_In in Q. tauto. Qed.

  Lemma push_data_named d scale at_ : named_call_at P R md outer sz (NData d scale) at_ -> pushed_named K P md x at_ (cx_push_data K P stretch c d scale).
  Proof.
    intros H. unfold cx_push_data. rewrite (obj_params c md HC). cbn [rbind].
    assert (LU : lines_up md (pk_shape P) outer sz d) by (now inversion H).
    destruct (operand_tensor md (pk_shape P) outer sz d LU ND Lmd) as (t & sd & E1 & E2 & E3 & E4).
    assert (G : forall z, In z (labelled_of (map fst [(d, md)])) -> x_ok z /\ (forall n, In n (x_dims z) -> dim_size z n = sz n) /\
      forall n, In n (x_dims z) -> In n (x_dims x) \/ In n (flat_map snd [(d, md)])).
    { cbn [map fst]. intros z Hz. apply labelled_of_In in Hz. destruct Hz as [->|[]]. destruct LU as (L1 & L2 & L3 & L4 & L5). split; [exact L1|].
      assert (X : forall n, In n (x_dims z) -> In n outer \/ In n md) by (intros n Hn; apply in_app_or; now apply L3). split.
      - intros n Hn. destruct (X n Hn) as [Q|Q]; [now apply L4|now apply size_of_moments].
      - intros n Hn. cbn [flat_map snd]. rewrite app_nil_r. destruct (X n Hn) as [Q|Q]; [left; apply except_name_In in Q; tauto|now right]. }
    assert (Hcore : forall n, In n (flat_map snd [(d, md)]) -> ~ In n outer) by (cbn [flat_map snd]; rewrite app_nil_r; exact outer_disjoint).
    assert (Ets : mapR (fun a : xop * list sname => match fst a with Labelled z => broadcast_compat outer (snd a) z | Plain t => Ok t end) [(d, md)] = Ok [t]).
    { cbn [mapR fst snd]. rewrite E1. reflexivity. }
    assert (PK : forall env (e : list nat -> Qc), inside_names sz outer env -> (forall m, valid (pk_shape P) m -> e m = tget t (stretched sd (map env outer) ++ m)) ->
      pk_pack P e = moments_at P md outer d env).
    { intros env e He Hm. unfold moments_at. apply (proj1 (ma_packer _ _ _ MA)). intros m Vm. rewrite (Hm m Vm). now apply E4. }
    inversion H as [d' LU'|d' sc LU' Fs| | | | |]; subst d' scale at_.
    - apply (update_named K ok P R VA stretch c md HC HS [(d, md)] sz [t] (fun _ _ => eq_refl) G Hcore Ets _ [op_last t sd (pk_shape P)] (fun cur l => of_opt EZeroDiv (p_push_data K (pk_pack P (acc l 0)) cur))).
      + intros out. reflexivity.
      + constructor; [|constructor]. split; [now apply op_last_reads|exact E3].
      + intros l. apply (ma_pack_ok _ _ _ MA).
      + intros env cur es He F. inversion F as [|e o es' os He' F']; subst. inversion F'; subst. cbn [run_op]. unfold acc. cbn [nth]. do 2 f_equal. now apply PK.
    - apply (update_named K ok P R VA stretch c md HC HS [(d, md)] sz [t] (fun _ _ => eq_refl) G Hcore Ets _ [op_last t sd (pk_shape P); op_last sc (tshape sc) []]
        (fun cur l => of_opt EZeroDiv (p_push_data_scale K (pk_pack P (acc l 0)) (acc l 1 []) cur))).
      + intros out. reflexivity.
      + constructor; [split; [now apply op_last_reads|exact E3]|]. constructor; [|constructor]. split; [apply op_last_reads; now rewrite app_nil_r|exact Fs].
      + intros l. apply (ma_pack_ok _ _ _ MA).
      + intros env cur es He F. inversion F as [|e o es' os He' F']; subst. inversion F' as [|e1 o1 es1 os1 He1 F1]; subst. inversion F1; subst. cbn [run_op]. unfold acc. cbn [nth].
        rewrite (He1 [] ltac:(constructor)). cbn [op_last fst snd]. rewrite app_nil_r. unfold value_on. do 2 f_equal. now apply PK.
  Qed.

  Lemma push_rows_update d z' t sd n rows : NoDup (outer ++ d :: md) ->
    match z' with Labelled z => x_ok z /\ incl (x_dims z) (outer ++ d :: md) /\ (forall n', In n' (x_dims z) -> dim_size z n' = result_size sz d n n') | Plain _ => True end ->
    match z' with Labelled z => broadcast_compat outer (d :: md) z | Plain t => Ok t end = Ok t -> tshape t = (sd ++ n :: pk_shape P)%list -> fits_shape sd (map sz outer) ->
    (forall env, Forall ok (rows env)) ->
    (forall env, inside_names sz outer env -> rows env = map (fun i => pk_pack P (fun m => tget t (stretched sd (map env outer) ++ i :: m))) (seq 0 n)) ->
    pushed_named K P md x (fun env => PushDatas (rows env)) (x_update c md [(z', d :: md)] (update_datas K P stretch)).
  Proof.
    intros N Hz E1 E2 E3 Ok_ E4.
    assert (Nd : ~ In d outer /\ ~ In d md).
    { apply NoDup_app_iff in N. destruct N as (_ & N2 & N3). inversion N2; subst. split; [|assumption]. intros Q. apply (N3 d Q). now left. }
    assert (G : forall z, In z (labelled_of (map fst [(z', d :: md)])) -> x_ok z /\ (forall n', In n' (x_dims z) -> dim_size z n' = result_size sz d n n') /\
      forall n', In n' (x_dims z) -> In n' (x_dims x) \/ In n' (flat_map snd [(z', d :: md)])).
    { cbn [map fst]. intros z Hz'. apply labelled_of_In in Hz'. destruct Hz' as [->|[]]. destruct Hz as (L1 & L2 & L3). split; [exact L1|]. split; [exact L3|].
      intros n' Hn. cbn [flat_map snd]. rewrite app_nil_r. specialize (L2 n' Hn). apply in_app_or in L2. destruct L2 as [Q|Q]; [left; apply except_name_In in Q; tauto|now right]. }
    assert (SZo : forall n', In n' (x_dims x) -> result_size sz d n n' = sz n').
    { intros n' Hn. unfold result_size. destruct (String.eqb_spec n' d) as [->|]; [|reflexivity]. exfalso. apply (proj1 Nd). unfold outer. rewrite except_name_In. tauto. }
    assert (Hcore : forall n', In n' (flat_map snd [(z', d :: md)]) -> ~ In n' outer).
    { cbn [flat_map snd]. rewrite app_nil_r. intros n' [<-|Hn]; [tauto|now apply outer_disjoint]. }
    assert (Ets : mapR (fun a : xop * list sname => match fst a with Labelled z => broadcast_compat outer (snd a) z | Plain t => Ok t end) [(z', d :: md)] = Ok [t]).
    { cbn [mapR fst snd]. rewrite E1. reflexivity. }
    assert (En : nth (tndim t - S (mom_ndim P)) (tshape t) 0 = n).
    { unfold tndim, mom_ndim. rewrite E2, app_length. cbn [List.length]. rewrite app_nth2 by lia. now replace (_ - _ - _) with 0 by lia. }
    apply (update_named K ok P R VA stretch c md HC HS _ (result_size sz d n) [t] SZo G Hcore Ets _ [op_last t sd (n :: pk_shape P)]
      (fun cur l => of_opt EZeroDiv (reduce_data_into K (core_rows P n (acc l 0)) cur))).
    - intros out. unfold update_datas. cbn [arg nth]. rewrite En. reflexivity.
    - constructor; [|constructor]. split; [now apply op_last_reads|exact E3].
    - intros l. cbn [op_ok]. apply Ok_.
    - intros env cur es He F. inversion F as [|e o es' os He' F']; subst. inversion F'; subst. cbn [run_op]. unfold acc. cbn [nth]. do 2 f_equal. rewrite (E4 env He). unfold core_rows.
      apply map_ext_in. intros i Hi. apply in_seq in Hi. apply (proj1 (ma_packer _ _ _ MA)). intros m Vm. rewrite He' by (constructor; [lia|exact Vm]). reflexivity.
  Qed.
  Lemma all_idx_one n : all_idx [n] = map (fun i => [i]) (seq 0 n).
  Proof. unfold all_idx. induction (seq 0 n) as [|i l IH]; [reflexivity|]. cbn [flat_map map app]. now rewrite <- IH. Qed.
  Lemma pk_sizes : Forall (fun n => 2 <= n) (pk_shape P).
  Proof. rewrite <- HS. apply Forall_map. apply HC. Qed.
  Lemma push_datas_named axis dim mom_axes d at_ : named_call_at P R md outer sz (NDatas axis dim mom_axes d) at_ ->
    pushed_named K P md x at_ (cx_push_datas K P stretch c axis dim (option_map IIter mom_axes) d).
  Proof.
    intros H. unfold cx_push_datas. rewrite (obj_params c md HC). cbn [rbind]. pose proof HC as (_ & Nm & Lm & _ & _ & Ep).
    inversion H as [| |axis' dim' ma d' z Hch Hd LU|axis' dim' ma mom a M L t Dm Em HA EL Fs| | |]; subst.
    - change (cx_params c = params_for md) in Ep. rewrite Ep. pose proof LU as (L1 & L2 & L3 & L4 & L5). 
      destruct (chooses_select z md axis dim d' (proj1 (proj2 L1))) as (a & _ & E); [intros Q; apply Hd, in_or_app; now right|exact Hch|]. rewrite E. cbn [rbind].
      assert (N : NoDup (outer ++ d' :: md)).
      { apply NoDup_app_iff in ND. destruct ND as (N1 & N2 & N3). apply NoDup_app_iff. split; [exact N1|]. split; [constructor; [intros Q; apply Hd, in_or_app; now right|exact N2]|].
        intros n Hn [<-|Q]; [apply Hd, in_or_app; now left|now apply (N3 n)]. }
      destruct (operand_tensor (d' :: md) (dim_size z d' :: pk_shape P) outer sz (Labelled z) LU N) as (t & sd & E1 & E2 & E3 & E4); [cbn [List.length]; now rewrite Lmd|].
      apply (push_rows_update d' (Labelled z) t sd (dim_size z d')); auto.
      + split; [exact L1|]. split; [exact L3|]. intros n Hn. unfold result_size. destruct (String.eqb_spec n d') as [->|Q]; [reflexivity|]. specialize (L3 n Hn). apply in_app_or in L3.
        destruct L3 as [Q'|[Q'|Q']]; [now apply L4|congruence|]. cbn [map] in L5. injection L5 as L5. now apply size_of_moments.
      + intros env. apply Forall_forall. intros r Hr. unfold rows_named in Hr. apply in_map_iff in Hr. destruct Hr as (i & <- & _). apply (ma_pack_ok _ _ _ MA).
      + intros env He. unfold rows_named. cbn [map]. rewrite all_idx_one, map_map. apply map_ext_in. intros i Hi. apply in_seq in Hi. apply (proj1 (ma_packer _ _ _ MA)). intros m Vm.
        rewrite E4; [|exact He|constructor; [lia|exact Vm]]. cbn [operand_at]. unfold x_at. f_equal. apply map_ext. intros n. unfold name_bind. cbn [combine find fst snd].
        destruct (String.eqb_spec d' n) as [->|Q]; [|reflexivity]. destruct (find _ (combine md m)) as [[n' k]|] eqn:Ef; [|reflexivity]. exfalso.
        apply find_some in Ef. destruct Ef as [Ef1 Ef2]. apply in_combine_l in Ef1. cbn [fst] in Ef2. apply String.eqb_eq in Ef2. subst n'. apply Hd, in_or_app. now right.
    - assert (LM : List.length M = List.length (pk_shape P)) by (destruct HA as (_ & _ & _ & _ & X); rewrite <- X; now rewrite map_length).
      set (mom := match mom_axes with Some l => l | None => axes_last (List.length (pk_shape P)) end) in *.
      assert (Lmom : List.length mom = List.length (pk_shape P)) by (destruct HA as (_ & X & _); rewrite (Forall2_len _ _ _ X); exact LM).
      assert (EF : array_factory false MPNone (xp_ndim (cx_params c)) (option_map IIter mom_axes) None = Ok (AP (Some (Z.of_nat (List.length (pk_shape P)))) (Some mom))).
      { rewrite Ep, Lmd in *. cbn [xp_ndim].
        apply (factory_axes P (CM (tabulate (pk_shape P) (fun _ => 0%Qc)) (AP (Some (Z.of_nat (List.length (pk_shape P)))) (Some (axes_last (List.length (pk_shape P)))))) []); [|reflexivity|exact Lmom].
        split; [apply tabulate_ok|]. split; [reflexivity|]. split; [exact Lm|]. split; [exact pk_sizes|reflexivity]. }
      rewrite EF. cbn [rbind iter_axes ap_axes given_axis].
      destruct (prepared_rows P mom axis' a M _ t HA eq_refl) as (za & mom' & t' & Epd & Es & Ev). rewrite Epd. cbn [rbind].
      set (L := except_nat (seq 0 (tndim t)) (a :: M)) in *.
      apply (push_rows_update dummy_dim (Plain t') t' (map (shape_of t) L) (shape_of t a)); auto.
      + apply NoDup_app_iff in ND. destruct ND as (N1 & N2 & N3). apply NoDup_app_iff. split; [exact N1|]. split; [constructor; [intros Q; apply Dm, in_or_app; now right|exact N2]|].
        intros n Hn [<-|Q]; [apply Dm, in_or_app; now left|now apply (N3 n)].
      + intros env. apply Forall_forall. intros r Hr. unfold rows_along in Hr. apply in_map_iff in Hr. destruct Hr as (i & <- & _). apply (ma_pack_ok _ _ _ MA).
      + intros env He. unfold rows_along. cbn [map]. rewrite all_idx_one, map_map. apply map_ext_in. intros i Hi. apply in_seq in Hi. apply (proj1 (ma_packer _ _ _ MA)). intros m Vm.
        rewrite Ev; [reflexivity| |lia|exact Vm]. eapply stretched_valid; [exact Fs|now left|]. now apply inside_names_valid.
  Qed.

  Lemma push_val_named a w y at_ : named_call_at P R md outer sz (NVal a w y) at_ -> pushed_named K P md x at_ (cx_push_val K P R stretch c a w y).
  Proof.
    intros H. inversion H as [| | | |a' w' y' Ly F| |]; subst. unfold cx_push_val, mom_ndim. rewrite (proj2 (Nat.eqb_eq _ _) Ly). cbn [negb]. rewrite (obj_params c md HC). cbn [rbind].
    assert (N0 : NoDup (outer ++ [])) by (rewrite app_nil_r; apply NoDup_app_iff in ND; apply ND).
    destruct (operands_tensors [] [] outer sz (a :: w :: y) F N0 eq_refl) as (l & Ets & FL).
    assert (LO : forall z, In z (labelled_of (map fst (map (fun o => (o, @nil sname)) (a :: w :: y)))) -> x_ok z /\ (forall n, In n (x_dims z) -> dim_size z n = sz n) /\
      forall n, In n (x_dims z) -> In n (x_dims x) \/ In n (flat_map snd (map (fun o => (o, @nil sname)) (a :: w :: y)))).
    { rewrite map_map. cbn [fst]. rewrite map_id. intros z Hz. apply labelled_of_In in Hz. rewrite Forall_forall in F. destruct (F _ Hz) as (L1 & L2 & L3 & L4 & L5). rewrite app_nil_r in L3.
      split; [exact L1|]. split; [intros n Hn; apply L4; auto|]. intros n Hn. left. specialize (L3 n Hn). apply except_name_In in L3. tauto. }
    assert (Hc0 : forall n, In n (flat_map snd (map (fun o => (o, @nil sname)) (a :: w :: y))) -> ~ In n outer).
    { intros n Hn. apply in_flat_map in Hn. destruct Hn as (q & H1 & H2). apply in_map_iff in H1. destruct H1 as (o & <- & _). destruct H2. }
    apply (update_named K ok P R VA stretch c md HC HS _ sz (map fst l) (fun _ _ => eq_refl) LO Hc0 Ets _ (map (fun q => op_last (fst q) (snd q) []) l)
      (fun cur l => of_opt EZeroDiv (p_push_val K (rd_val R (acc l 0 [] :: map (fun y => y []) (skipn 2 l))) (acc l 1 []) cur))).
    - intros out. unfold update_val. rewrite !map_map. reflexivity.
    - apply Forall_forall. intros o Ho. apply in_map_iff in Ho. destruct Ho as (q & <- & Hq). destruct (Forall2_left _ _ _ _ FL Hq) as (o & _ & E1 & E2 & _). split; [now apply op_last_reads|exact E2].
    - intros l0. exact I.
    - intros env cur es He F2. cbn [run_op].
      assert (EV : map (fun e : list nat -> Qc => e []) es = map (fun o => operand_at [] outer o env []) (a :: w :: y)).
      { clear - FL F2 He. revert es F2. induction FL as [|q o l os (E1 & E2 & E3) FL IH]; intros es F2; cbn [map] in F2; [inversion F2; reflexivity|].
        inversion F2 as [|e o' es' os' He' F2']; subst. cbn [map]. rewrite (IH _ F2'). f_equal. rewrite (He' [] ltac:(constructor)). cbn [op_last fst snd]. apply E3; [exact He|constructor]. }
      destruct es as [|ex [|ew ey]]; try discriminate. cbn [map] in EV. injection EV as V1 V2 V3. unfold acc. cbn [nth skipn map]. rewrite V1, V2. do 4 f_equal. exact V3.
  Qed.

  (* values with their samples last *)
  Lemma push_samples_update d os n (ops : list operand_of) (ts : list tensor) smp : ~ In d (outer ++ md) -> 
    (forall z, In z (labelled_of os) -> x_ok z /\ incl (x_dims z) (outer ++ [d]) /\ forall n', In n' (x_dims z) -> dim_size z n' = result_size sz d n n') ->
    mapR (fun a : xop * list sname => match fst a with Labelled z => broadcast_compat outer (snd a) z | Plain t => Ok t end) (map (fun o => (o, [d])) os) = Ok ts ->
    nth (tndim (arg 0 ts) - 1) (tshape (arg 0 ts)) 0 = n -> map (fun t => last_core t [n]) ts = map fst ops ->
    Forall (fun o : operand_of => op_reads (fst (fst o)) (fst (snd o)) (snd (fst o)) (snd (snd o)) /\ fits_shape (fst (snd o)) (map sz outer)) ops ->
    (forall env es, inside_names sz outer env ->
      Forall2 (fun e (o : operand_of) => forall c, valid (snd (fst o)) c -> e c = snd (snd o) (stretched (fst (snd o)) (map env outer)) c) es ops ->
      core_samples R n es = smp env) ->
    pushed_named K P md x (fun env => PushVals (smp env)) (x_update c md (map (fun o => (o, [d])) os) (update_vals K P R stretch)).
  Proof.
    intros Nd HL Ets En Em RO Hs.
    assert (G : forall z, In z (labelled_of (map fst (map (fun o => (o, [d])) os))) -> x_ok z /\ (forall n', In n' (x_dims z) -> dim_size z n' = result_size sz d n n') /\
      forall n', In n' (x_dims z) -> In n' (x_dims x) \/ In n' (flat_map snd (map (fun o => (o, [d])) os))).
    { rewrite map_map. cbn [fst]. rewrite map_id. intros z Hz. destruct (HL z Hz) as (L1 & L2 & L3). split; [exact L1|]. split; [exact L3|]. intros n' Hn. specialize (L2 n' Hn).
      apply in_app_or in L2. destruct L2 as [Q|[<-|[]]]; [left; apply except_name_In in Q; tauto|right]. apply labelled_of_In in Hz. apply in_flat_map. exists (Labelled z, [d]). split; [|now left].
      now apply (in_map (fun o => (o, [d]))). }
    assert (SZo : forall n', In n' (x_dims x) -> result_size sz d n n' = sz n').
    { intros n' Hn. unfold result_size. destruct (String.eqb_spec n' d) as [->|]; [|reflexivity]. exfalso. apply Nd. rewrite in_app_iff. unfold outer. rewrite except_name_In. destruct (in_dec string_dec d md); tauto. }
    assert (Hcore : forall n', In n' (flat_map snd (map (fun o => (o, [d])) os)) -> ~ In n' outer).
    { intros n' Hn. apply in_flat_map in Hn. destruct Hn as (q & H1 & H2). apply in_map_iff in H1. destruct H1 as (o & <- & _). destruct H2 as [<-|[]]. intros Q. apply Nd, in_or_app. now left. }
    apply (update_named K ok P R VA stretch c md HC HS _ (result_size sz d n) ts SZo G Hcore Ets _ ops (fun cur l => of_opt EZeroDiv (reduce_vals_into K (core_samples R n l) cur))).
    - intros out. unfold update_vals. cbv zeta. rewrite En, Em. reflexivity.
    - exact RO.
    - intros l. exact I.
    - intros env cur es He F. cbn [run_op]. now rewrite (Hs env es He F).
  Qed.
  Lemma push_vals_named axis dim a w y at_ : named_call_at P R md outer sz (NVals axis dim a w y) at_ -> pushed_named K P md x at_ (cx_push_vals K P R stretch c axis dim a w y).
  Proof.
    intros H. unfold cx_push_vals. rewrite (obj_params c md HC). cbn [rbind].
    inversion H as [| | | | |axis' dim' d n z w' y' Ly Hch Hd Hn HG|axis' dim' r a' w' y' Dm Ly HA Fs]; subst; cbn [rbind].
    - set (n := dim_size z d) in *. destruct (HG (Labelled z) (or_introl eq_refl)) as [(Hz & Hdz & Hsz) Iz].
      assert (N1 : NoDup outer) by (apply NoDup_app_iff in ND; apply ND).
      assert (Nd : ~ In d outer) by (intros Q; apply Hd, in_or_app; now left).
      destruct (values_tensors d outer sz n (from_last d z) (Labelled z :: w :: y) Nd N1 HG) as (os & l & Eo & El & Et & FL).
      cbn [mapR] in Eo. destruct (mapR (fun o => match o with Labelled _ => Ok o | Plain t => rmap Plain (prepare_secondary (-1 - Z.of_nat (from_last d z)) n true t) end) (w :: y)) as [os'|] eqn:Eo'; cbn [mapR] in Eo'; rewrite ?Eo' in Eo; cbn [rbind] in Eo; [|discriminate].
      injection Eo as <-.
      rewrite (xprepare_eq (S (mom_ndim P)) axis dim d z (w :: y) os' Hch Hz); [|unfold mom_ndim; cbn [List.length]; now rewrite Ly|exact Eo']. cbn [rmap rbind].
      pose proof FL as FL'. inversion FL' as [|q0 o0 l0 os0 (Q1 & Q2 & Q3) FL0]; subst.
      apply (push_samples_update d (Labelled z :: os') n (map (fun q => op_last (fst q) (snd q) [n]) (q0 :: l0)) (map fst (q0 :: l0))); auto.
      + rewrite El. intros u Hu. apply labelled_of_In in Hu. destruct (HG _ Hu) as [(U1 & U2 & U3) U4]. auto.
      + cbn [map arg nth]. unfold tndim. rewrite Q1, app_length. cbn [List.length]. rewrite app_nth2 by lia. now replace (_ - _ - _) with 0 by lia.
      + rewrite !map_map. reflexivity.
      + apply Forall_forall. intros o Ho. apply in_map_iff in Ho. destruct Ho as (q & <- & Hq). destruct (Forall2_left _ _ _ _ FL Hq) as (o & _ & E1 & E2 & _). split; [now apply op_last_reads|exact E2].
      + intros env es He F.
        assert (EV : forall i, i < n -> map (fun e : list nat -> Qc => e [i]) es = map (fun o => value_at d outer (from_last d z) o env i) (Labelled z :: w :: y)).
        { intros i Hi. clear - FL F He Hi. revert es F. induction FL as [|q o l os (E1 & E2 & E3) FL IH]; intros es F; cbn [map] in F; [inversion F; reflexivity|].
          inversion F as [|e o' es' os' He' F2']; subst. cbn [map]. rewrite (IH _ F2'). f_equal. rewrite (He' [i]) by (constructor; [exact Hi|constructor]). cbn [op_last fst snd]. now apply E3. }
        unfold core_samples, samples_named. apply map_ext_in. intros i Hi. apply in_seq in Hi. specialize (EV i (proj2 Hi)). destruct es as [|ex [|ew ey]]; try discriminate. cbn [map] in EV. injection EV as V1 V2 V3.
        unfold acc. cbn [nth skipn map]. rewrite V1, V2. do 3 f_equal. exact V3.
    - assert (Ln : Nat.eqb (S (List.length (Plain w' :: map Plain y'))) (S (mom_ndim P)) = true) by (unfold mom_ndim; cbn [List.length]; rewrite map_length, Ly; apply Nat.eqb_refl).
      rewrite Ln. cbn [negb given_axis rbind].
      assert (Ea : map as_plain (Plain w' :: map Plain y') = w' :: y') by (cbn [map as_plain]; rewrite map_map; cbn [as_plain]; now rewrite map_id). rewrite Ea.
      destruct (prepare_values_reads axis' r a' (w' :: y') HA) as (ux & us & Epv & Ed & Lu & RO). unfold mom_ndim. rewrite <- Ly. cbn [List.length] in Epv. rewrite Epv. cbn [rmap rbind].
      destruct us as [|uw uy]; [discriminate|]. assert (LY : List.length uy = List.length y') by (cbn [List.length] in Lu; lia). set (n := dim_from_end a' r) in *.
      apply (push_samples_update dummy_dim (map Plain (ux :: uw :: uy)) n (map (fun p => op_value r n (fst p) (snd p)) (combine (a' :: w' :: y') (ux :: uw :: uy))) (ux :: uw :: uy)).
      + exact Dm.
      + intros z Hz. exfalso. apply labelled_of_In, in_map_iff in Hz. destruct Hz as (t & Q & _). discriminate.
      + rewrite map_map. clear. generalize (ux :: uw :: uy). induction l as [|t l IH]; [reflexivity|]. cbn [map mapR fst]. cbn [rbind]. now rewrite IH.
      + cbn [arg nth]. rewrite <- Ed. unfold dim_at. change ((-1) <? 0)%Z with true. cbv iota. f_equal. lia.
      + rewrite map_map. cbn [combine map op_value fst snd]. do 2 f_equal. clear - LY. revert uy LY. induction y' as [|t y IH]; intros [|u uy] L; try discriminate; [reflexivity|].
        cbn [combine map op_value fst snd]. f_equal. apply IH. cbn in L. lia.
      + rewrite Forall_forall in RO, Fs. apply Forall_forall. intros o Ho. split; [now apply RO|]. apply in_map_iff in Ho. destruct Ho as ([t u] & <- & Ho). cbn [fst snd op_value]. apply Fs. eapply in_combine_l; exact Ho.
      + intros env es He F. now apply (samples_seen R r a' w' y' ux uw uy (map env outer) es LY F).
  Qed.

  Theorem push_call_named call at_ : named_call_at P R md outer sz call at_ -> pushed_named K P md x at_ (run_named K P R stretch c call).
  Proof.
    intros H. destruct call as [d scale|axis dim ma d|a w y|axis dim a w y]; cbn [run_named];
      [now apply push_data_named|now apply push_datas_named|now apply push_val_named|now apply push_vals_named].
  Qed.
End Named.
