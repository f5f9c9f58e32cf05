(* Sums and multiples of objects that hold a DataArray (C192). *)
From Coq Require Import String Permutation.
From Verif Require Import Base BaseLemmas ModelPush ModelKernels ModelIndex ModelAccum ModelAxes ModelState ModelParams ModelNd ModelWrap ModelLabel ModelMoments ModelMethods ModelMethodsX ModelMomentsX ModelDataset ModelMethodsS ModelMomentsS
  Spec SpecAxes SpecNd PropLabelled SpecLabel SpecMethods SpecMethodsX SpecMoments SpecMomentsX Laws ProofKernels ProofSpec
  ProofAxes ProofArrays ProofMulti ProofNd ProofNdVals PropReduce PropNd PropNdVals PropNdUse PropWrap ProofMethods PropMethods PropMethodsArith PropParams ProofLabel ProofLabelMany PropLabelJack ProofMethodsX PropMethodsX PropMethodsXMore ProofMomentsX PropMomentsX PropStatsX PropStatsS SpecDataset SpecMethodsS ProofDataset PropDataset PropMethodsS PropMethodsSMore.
Local Open Scope string_scope.
Local Open Scope nat_scope.

Section Arith.
  Context {A V : Type} (K : pusher A V) (ok : A -> Prop) (P : packer A) (R : reader V).
  Hypothesis VA : values_array K ok P R.
  Let MA : moment_array K ok P := va_array K ok P R VA.
  Context (stretch : bool).
  Local Notation at_ c md env := (moments_named P (cx_obj c) md env).
  Local Notation inside c md env := (inside_names (dim_size (cx_obj c)) (except_name (x_dims (cx_obj c)) md) env).

  Lemma multiple_named c md k : xholds c md -> map (dim_size (cx_obj c)) md = pk_shape P ->
    exists r, cx_mul c k = Ok r /\ combined_named P (fun env => Some (acc_mul K (at_ c md env) k)) md (cx_obj c) (Ok r).
  Proof.
    intros H Es. pose proof (object_moments c md H) as HM. pose proof (object_positive c md H) as Pos. pose proof H as (Hx & Nm & Lm & Im & H2 & Hp). destruct c as [x p]. cbn [cx_obj cx_params] in *. subst p.
    destruct (mul_named x md k HM Pos) as (y & Ey & Oy & Dy & Sy & Ay). exists (CX y (params_for md)). split; [exact Ey|]. cbn [combined_named cx_obj].
    assert (Iy : incl md (x_dims y)) by (rewrite Dy; intros n Hn; apply in_or_app; now right).
    split; [|split; [exact Dy|split; [exact Sy|]]].
    - split; [exact Oy|]. split; [exact Nm|]. split; [exact Lm|]. split; [exact Iy|]. split; [|reflexivity]. cbn [cx_obj]. rewrite Forall_forall in *. intros n Hn. rewrite Sy by now apply Im. now apply H2.
    - intros env He. f_equal. unfold moments_named. rewrite <- (pack_mul K ok P MA). apply (proj1 (ma_packer _ _ _ MA)). intros m Vm. rewrite <- Es in Vm.
      assert (Lmm : List.length m = List.length md) by (rewrite (valid_length _ _ Vm); apply map_length).
      assert (Hi : x_inside x (name_bind md m env)).
      { intros n Hn. destruct (in_dec string_dec n md) as [I|I]; [|rewrite name_bind_out by exact I; apply He; now apply except_name_In].
        destruct (In_nth _ _ "" I) as (j & Hj & <-). rewrite name_bind_in by assumption. rewrite <- (nth_map_dims (dim_size x) md j Hj). apply valid_nth; [exact Vm|now rewrite map_length]. }
      rewrite (Ay _ Hi). unfold weight_times. rewrite moment_here by exact Nm. rewrite map_name_bind by assumption. reflexivity.
  Qed.

  Lemma alike_self c md : xholds c md -> map (dim_size (cx_obj c)) md = pk_shape P -> alike P c c md.
  Proof. intros H Es. repeat (split; [assumption|]). split; [tauto|reflexivity]. Qed.
  (* c + c is c * 2 *)
  Theorem add_named_to_itself c md : xholds c md -> map (dim_size (cx_obj c)) md = pk_shape P -> agree_named (cx_add K P stretch c c) (cx_mul c (1 + 1)%Qc).
  Proof.
    intros H Es. pose proof (alike_self c md H Es) as HA. destruct (multiple_named c md (1 + 1)%Qc H Es) as (r & -> & Cr).
    apply (combined_agree K ok P R VA _ _ c c md _ _ HA (add_named K ok P R VA stretch c md c md (alike_addable P _ _ _ HA)) Cr).
    intros env He. apply (acc_add_self K ok (ma_kernel _ _ _ MA)). apply (named_ok K ok P R VA).
  Qed.
  Lemma multiple_addable c o o' md k : addable P c md o md -> cx_mul o k = Ok o' -> addable P c md o' md /\ forall env, inside c md env -> at_ o' md env = acc_mul K (at_ o md env) k.
  Proof.
    intros (H1 & H2 & H3 & H4 & _ & H6 & H7 & H8) E. destruct (multiple_named o md k H2 H4) as (r & Er & C). rewrite E in Er. injection Er as <-.
    destruct (combined_alike P _ o md o' H2 H4 C) as [(_ & A2 & _ & A4 & A5) X].
    assert (S : map (dim_size (cx_obj o')) md = pk_shape P) by (rewrite <- H4; apply map_ext_in; intros n Hn; symmetry; apply A5; now apply H6).
    split.
    - repeat (split; [assumption|]). split; [apply A2|]. split; [intros n Hn; apply H7; now apply A4|]. intros n Hn. apply A4 in Hn. rewrite <- A5 by exact Hn. now apply H8.
    - intros env He. assert (He' : inside o md env) by (intros n Hn; apply except_name_In in Hn; destruct Hn as [Hn Nn]; rewrite H8 by exact Hn; apply He; apply except_name_In; split; [now apply H7|exact Nn]). specialize (X env He'). congruence.
  Qed.
  (* c - o is c + o * (-1); o may lack dimensions of c *)
  Theorem subtract_named_is_add_of_negative c o md : addable P c md o md ->
    agree_named (cx_sub K P stretch c o) (rbind (cx_mul o (-(1))%Qc) (fun o' => cx_add K P stretch c o')).
  Proof.
    intros H. destruct (multiple_named o md (-(1))%Qc) as (o' & Eo & _); [apply H|apply H|]. rewrite Eo. cbn [rbind]. destruct (multiple_addable c o o' md _ H Eo) as [H' X].
    assert (HA : alike P c c md) by (apply alike_self; apply H).
    apply (combined_agree K ok P R VA _ _ c c md _ _ HA (subtract_named K ok P R VA stretch c md o md H) (add_named K ok P R VA stretch c md o' md H')).
    intros env He. rewrite (X env He). apply (acc_sub_mul K ok (ma_kernel _ _ _ MA)). apply (named_ok K ok P R VA).
  Qed.
  (* c * k + o * k is (c + o) * k *)
  Theorem multiply_named_distributes c o md k : addable P c md o md -> k <> 0%Qc ->
    agree_named (rbind (cx_mul c k) (fun c' => rbind (cx_mul o k) (fun o' => cx_add K P stretch c' o'))) (rbind (cx_add K P stretch c o) (fun r => cx_mul r k)).
  Proof.
    intros H Nk. pose proof H as (H1 & H2 & H3 & H4 & _). destruct (multiple_named o md k H2 H4) as (o' & Eo & _). destruct (multiple_named c md k H1 H3) as (c' & Ec & Cc). rewrite Eo, Ec. cbn [rbind].
    destruct (multiple_addable c o o' md k H Eo) as [H' Xo]. destruct (combined_alike P _ c md c' H1 H3 Cc) as [Ac Xc]. pose proof (alike_sym P _ _ _ Ac) as Ac'.
    assert (H'' : addable P c' md o' md).
    { destruct H' as (_ & G2 & _ & G4 & G5 & G6 & G7 & G8). destruct Ac' as (B1 & _ & B3 & B4 & B5). repeat (split; [assumption|]). split; [intros n Hn; apply B4; now apply G7|]. intros n Hn. rewrite G8 by exact Hn. symmetry. apply B5. apply B4. now apply G7. }
    pose proof (add_named K ok P R VA stretch c' md o' md H'') as Y. pose proof (add_named K ok P R VA stretch c md o md H) as X.
    assert (Z : combined_named P (fun env => option_map (fun r => acc_mul K r k) (acc_add K (at_ c md env) (at_ o md env))) md (cx_obj c) (rbind (cx_add K P stretch c o) (fun r => cx_mul r k))).
    { destruct (cx_add K P stretch c o) as [r|e]; cbn [rbind].
      - destruct (combined_alike P _ c md r H1 H3 X) as [Ar Xr]. pose proof (alike_sym P _ _ _ Ar) as (R1 & _ & R3 & R4 & R5). destruct (multiple_named r md k R1 R3) as (q & Eq & Cq). rewrite Eq.
        destruct X as (_ & D1 & S1 & _). destruct Cq as (Q1 & Q2 & Q3 & Q4). cbn [combined_named]. split; [exact Q1|]. split; [|split].
        + rewrite Q2, D1. f_equal. unfold except at 1. rewrite filter_app, (filter_none _ md), app_nil_r by (intros n Hn; destruct (in_dec string_dec n md); [reflexivity|contradiction]).
          apply filter_all. intros n Hn. apply except_name_In in Hn. destruct (in_dec string_dec n md); [tauto|reflexivity].
        + intros n Hn. rewrite Q3 by now apply R4. now apply S1.
        + intros env He. rewrite (Xr env He). cbn [option_map]. apply Q4. now apply (alike_inside P c r md env Ar).
      - destruct X as [-> (env & He & X)]. split; [reflexivity|]. exists env. split; [exact He|]. now rewrite X. }
    apply (combined_agree K ok P R VA _ _ c' c md _ _ Ac' Y Z). intros env He. apply (alike_inside P c' c md env Ac') in He. rewrite (Xo env He). specialize (Xc env He). injection Xc as <-. apply (acc_mul_add K ok (ma_kernel _ _ _ MA)); auto; apply (named_ok K ok P R VA).
  Qed.
  (* (a + b) + c is a + (b + c) *)
  Theorem add_named_associative a b c md : alike P a b md -> alike P b c md ->
    (forall env, inside a md env -> clean K (at_ a md env) /\ clean K (at_ b md env) /\ clean K (at_ c md env) /\
       (0 <= p_wt K (at_ a md env) /\ 0 <= p_wt K (at_ b md env) /\ 0 <= p_wt K (at_ c md env))%Qc) ->
    exists ab bc r r', cx_add K P stretch a b = Ok ab /\ cx_add K P stretch b c = Ok bc /\ cx_add K P stretch ab c = Ok r /\ cx_add K P stretch a bc = Ok r' /\ x_same (cx_obj r) (cx_obj r').
  Proof.
    intros Hab Hbc H. pose proof (alike_trans P _ _ _ _ Hab Hbc) as Hac.
    assert (AS : forall env, inside a md env -> exists ab bc r, acc_add K (at_ a md env) (at_ b md env) = Some ab /\ acc_add K (at_ b md env) (at_ c md env) = Some bc /\ acc_add K ab (at_ c md env) = Some r /\ acc_add K (at_ a md env) bc = Some r).
    { intros env He. destruct (H env He) as (C1 & C2 & C3 & W1 & W2 & W3). apply (add_associative K ok (ma_kernel _ _ _ MA)); auto; apply (named_ok K ok P R VA). }
    assert (G : forall x y, alike P a x md -> alike P x y md -> (forall env, inside a md env -> acc_add K (at_ x md env) (at_ y md env) <> None) ->
      exists r, cx_add K P stretch x y = Ok r /\ alike P x r md /\ forall env, inside a md env -> acc_add K (at_ x md env) (at_ y md env) = Some (at_ r md env)).
    { intros x y Ax Axy N. pose proof (add_named K ok P R VA stretch x md y md (alike_addable P _ _ _ Axy)) as X. destruct (cx_add K P stretch x y) as [r|e].
      - destruct (combined_alike P _ x md r (proj1 Axy) (proj1 (proj2 (proj2 Axy))) X) as [B1 B2]. exists r. split; [reflexivity|]. split; [exact B1|]. intros env He. apply B2. now apply (alike_inside P a x md env Ax).
      - exfalso. destruct X as [_ (env & He & X)]. exact (N env (alike_inside P x a md env (alike_sym P _ _ _ Ax) He) X). }
    pose proof (alike_trans P _ _ _ _ Hab (alike_sym P _ _ _ Hab)) as Haa.
    destruct (G a b Haa Hab) as (ab & E1 & A1 & X1). { intros env He. destruct (AS env He) as (? & ? & ? & E & _). congruence. }
    destruct (G b c Hab Hbc) as (bc & E2 & A2 & X2). { intros env He. destruct (AS env He) as (? & ? & ? & _ & E & _). congruence. }
    assert (AS' : forall env, inside a md env -> exists r, acc_add K (at_ ab md env) (at_ c md env) = Some r /\ acc_add K (at_ a md env) (at_ bc md env) = Some r).
    { intros env He. destruct (AS env He) as (x & y & r & B1 & B2 & B3 & B4). rewrite (X1 env He) in B1. rewrite (X2 env He) in B2. injection B1 as <-. injection B2 as <-. eauto. }
    destruct (G ab c A1 (alike_trans P _ _ _ _ (alike_sym P _ _ _ A1) Hac)) as (r & E3 & A3 & X3). { intros env He. destruct (AS' env He) as (? & E & _). congruence. }
    destruct (G a bc Haa (alike_trans P _ _ _ _ Hab A2)) as (r' & E4 & A4 & X4). { intros env He. destruct (AS' env He) as (? & _ & E). congruence. }
    exists ab, bc, r, r'. repeat (split; [assumption|]).
    pose proof (alike_trans P _ _ _ _ A1 A3) as Ar. pose proof (alike_trans P _ _ _ _ (alike_sym P _ _ _ Ar) A4) as (G1 & G2 & G3 & G4 & G5).
    apply (same_by_moments K ok P R VA r r' md); auto. intros env He. apply (alike_inside P r a md env (alike_sym P _ _ _ Ar)) in He. specialize (X3 env He). specialize (X4 env He). destruct (AS' env He) as (? & B1 & B2). congruence.
  Qed.

  (* the same for an object that holds a Dataset, variable by variable *)
  Theorem add_set_to_itself c md : sholds c md -> (forall v, In v (cs_obj c) -> has_names md (snd v) = true -> map (dim_size (snd v)) md = pk_shape P) ->
    exists r r', cs_add K P stretch c c = Ok r /\ cs_mul c (1 + 1)%Qc = Ok r' /\ Forall2 (fun v w => fst v = fst w /\ x_same (snd v) (snd w)) (cs_obj r) (cs_obj r').
  Proof.
    intros H Sh. pose proof H as (Hs & Hm & Ep & (v0 & Iv0 & M0) & Two).
    assert (Hv : forall v, In v (cs_obj c) -> has_names md (snd v) = true -> xholds (CX (snd v) (params_for md)) md).
    { intros v Iv M. split; [now apply Hs|]. split; [apply Hm|]. split; [apply Hm|]. split; [now apply has_names_In|]. split; [|reflexivity]. rewrite Forall_forall. intros n Hn. now apply (Two v n). }
    assert (Self : forall v, In v (cs_obj c) -> get_var (fst v) (cs_obj c) = Some (snd v)) by (intros v Iv; apply get_var_In; [apply Hs|exact Iv]).
    assert (Pr : set_pair c c md).
    { split; [exact H|]. split; [exact H|]. split; [split; [exact Hs|]; split; [tauto|apply Hs]|]. exists v0. split; [exact Iv0|]. split; [exact M0|]. unfold part_has. cbn [its_part]. now rewrite (Self v0 Iv0). }
    pose proof (add_set K P stretch R c c md Pr) as X.
    destruct (mul_set (cs_obj c) md Hs Hm) with (k := (1 + 1)%Qc) as (t & Et & Ot & Ft).
    { intros v Iv M. pose proof (object_positive _ _ (Hv v Iv M)) as Q. exact Q. }
    assert (Ec : CS (cs_obj c) (params_for md) = c) by (destruct c as [ob pa]; cbn [cs_obj cs_params] in *; now rewrite Ep). rewrite Ec in Et.
    assert (Each : forall v, In v (cs_obj c) -> exists a, (if (has_names md (snd v) && part_has md (fst v) (DSet (cs_obj c)))%bool then cx_add K P stretch (by_itself (cs_params c) (snd v)) (other_part c (fst v)) else Ok (by_itself (cs_params c) (snd v))) = Ok a /\
      forall w, (if has_names md (snd v) then is_multiple md (1 + 1)%Qc (snd v) w else w = snd v) -> x_same (cx_obj a) w).
    { intros v Iv. unfold part_has, other_part. cbn [its_part]. rewrite (Self v Iv). unfold by_itself. rewrite Ep. destruct (has_names md (snd v)) eqn:M; cbn [andb].
      - pose proof (add_named_to_itself _ md (Hv v Iv M) (Sh v Iv M)) as G. destruct (mul_named (snd v) md (1 + 1)%Qc) as (y & Ey & My); [now apply (object_moments (CX (snd v) (params_for md)) md (Hv v Iv M))|apply (object_positive _ _ (Hv v Iv M))|].
        rewrite Ey in G. destruct (cx_add K P stretch _ _) as [a|e]; [|destruct G]. exists a. split; [reflexivity|]. cbn [agree_named cx_obj] in G. intros w Mw. 
        destruct G as (G1 & G2 & G3). destruct My as (Y0 & Y1 & Y2 & Y3), Mw as (W0 & W1 & W2 & W3). pose proof (object_moments (CX (snd v) (params_for md)) md (Hv v Iv M)) as (_ & N1 & N2 & N3). cbn [cx_obj] in N3.
        assert (D : forall n, In n (x_dims (cx_obj a)) -> In n (x_dims (snd v))) by (intros n Hn; apply G1 in Hn; rewrite Y1 in Hn; apply in_app_or in Hn; destruct Hn as [Hn|Hn]; [now apply except_name_In in Hn|now apply N3]).
        split; [intros n; rewrite W1, <- Y1; apply G1|]. split; [intros n Hn; rewrite (W2 n (D n Hn)), <- (Y2 n (D n Hn)); now apply G2|]. intros env He. rewrite (G3 env He).
        assert (Hx : x_inside (snd v) env).
        { intros n Hn. assert (Hn' : In n (x_dims (cx_obj a))). { apply G1. rewrite Y1. apply in_or_app. destruct (in_dec string_dec n md) as [I|I]; [now right|left; now apply except_name_In]. } rewrite <- Y2 by exact Hn. rewrite <- G2 by exact Hn'. now apply He. }
        rewrite (Y3 env Hx), (W3 env Hx). reflexivity.
      - exists (CX (snd v) (params_for md)). split; [reflexivity|]. intros w ->. split; [tauto|]. split; reflexivity. }
    destruct (cs_add K P stretch c c) as [r|e].
    2: { exfalso. destruct X as (v & Iv & Xv). destruct (Each v Iv) as (a & Ea & _). congruence. }
    exists r, (CS t (params_for md)). split; [reflexivity|]. split; [exact Et|]. destruct X as [_ X]. cbn [cs_obj].
    assert (G : forall s', incl s' (cs_obj c) -> forall l t', Forall2 (fun v w => fst w = fst v /\ (if (has_names md (snd v) && part_has md (fst v) (DSet (cs_obj c)))%bool then cx_add K P stretch (by_itself (cs_params c) (snd v)) (other_part c (fst v)) else Ok (by_itself (cs_params c) (snd v))) = Ok (CX (snd w) (cs_params c))) s' l ->
      Forall2 (fun v w => fst w = fst v /\ if has_names md (snd v) then is_multiple md (1 + 1)%Qc (snd v) (snd w) else snd w = snd v) s' t' -> Forall2 (fun v w => fst v = fst w /\ x_same (snd v) (snd w)) l t').
    { induction s' as [|v s' IH]; intros Is l t' F1 F2; inversion F1 as [|? w ? l' (E1 & E2) F1']; inversion F2 as [|? u ? t'' (E3 & E4) F2']; subst; constructor; [|apply (IH (fun a Ha => Is a (or_intror Ha))); assumption].
      split; [congruence|]. destruct (Each v (Is v (or_introl eq_refl))) as (a & Ea & Sa). rewrite E2 in Ea. injection Ea as <-. now apply Sa. }
    exact (G (cs_obj c) (incl_refl _) _ _ X Ft).
  Qed.
End Arith.
