(* Methods of CentralMomentsData that reduce along dimensions, by name (C138, C139). *)
From Coq Require Import String Permutation Sorted.
From Verif Require Import Base BaseLemmas ModelPush ModelKernels ModelIndex ModelAccum ModelAxes ModelState ModelSelect ModelParams ModelNd ModelSampler ModelWrap ModelLabel ModelMethods ModelConstruct ModelMethodsX
  Spec SpecAxes SpecNd SpecIndex ProofSpec PropReduce PropKernels PropWrap PropLabelled PropNd PropNdVals PropNdUse PropNdValsUse SpecLabel SpecLabelTwo SpecLabelVals SpecMethods SpecMethodsX
  Laws ProofAxes ProofArrays ProofMulti ProofNd PropParams ProofIndex ProofLabels PropIndex PropSampler ProofNdVals ProofLabel ProofLabelMany PropLabel PropLabelReduce PropLabelTwo PropLabelJack
  ProofLabelVals ProofMethods PropMethods PropMethodsUse PropMethodsArith PropMethodsReduce PropLabelVals PropConstructMake ProofMethodsX PropMethodsX PropMethodsXUse.
Local Open Scope string_scope.
Local Open Scope nat_scope.

(* axis= or dim= of reduce(by=) names the dimension d of x *)
Definition along (m : nat) (axis : raxis) (dim : marg dims_arg) (d : sname) (x : xarr) : Prop :=
  (axis = RMissing /\ dim = Val (DStr d) /\ In d (x_dims x)) \/
  (dim = Missing /\ exists ax a, axis = ROne ax /\ names_axis (List.length (x_dims x)) m ax a /\ nth_error (x_dims x) a = Some d).
Lemma along_chooses m axis dim d x : along m axis dim d x -> exists ax dd, axis_marg axis = Ok ax /\ one_dim dim = Ok dd /\ chooses m ax dd d x.
Proof.
  intros [(-> & -> & H)|(-> & ax & a & -> & H1 & H2)]; cbn [axis_marg one_dim]; eexists; eexists; (split; [reflexivity|]); (split; [reflexivity|]); [left; auto|right; eauto 6].
Qed.
(* weights of the moment arrays of x *)
Definition nonneg_named {A V} (K : pusher A V) (P : packer A) (md : list sname) (x : xarr) : Prop :=
  forall env, inside_names (dim_size x) (except_name (x_dims x) md) env -> (0 <= p_wt K (moments_named P x md env))%Qc.
(* the rows with label v *)
Definition rows_with {B} (v : Z) (by_ : list Z) (rows : list B) : list B := map snd (filter (fun p => (fst p =? v)%Z) (combine by_ rows)).

(* the labels that occur and are not negative, in order *)
Definition distinct_labels (by_ groups : list Z) : Prop := StronglySorted Z.lt groups /\ forall v, In v groups <-> In v by_ /\ (0 <= v)%Z.

Lemma sorted_lt l : StronglySorted (fun a b => (a <=? b)%Z = true) l -> NoDup l -> StronglySorted Z.lt l.
Proof.
  induction 1 as [|a l H IH F]; intros N; constructor; inversion N; subst; [auto|]. apply Forall_forall. intros b Hb. rewrite Forall_forall in F. specialize (F b Hb). apply Z.leb_le in F.
  assert (a <> b) by (intros ->; contradiction). lia.
Qed.
Lemma sorted_unique : forall l l', StronglySorted Z.lt l -> StronglySorted Z.lt l' -> (forall v, In v l <-> In v l') -> l = l'.
Proof.
  induction l as [|a l IH]; intros [|b l'] S1 S2 E.
  - reflexivity.
  - exfalso. apply (E b). now left.
  - exfalso. apply (E a). now left.
  - inversion S1 as [|? ? S1' F1]; inversion S2 as [|? ? S2' F2]; subst. rewrite Forall_forall in F1, F2.
    assert (X : a = b).
    { assert (Ha : In a (b :: l')) by (apply E; now left). assert (Hb : In b (a :: l)) by (apply E; now left). destruct Ha as [Q|Ha]; [auto|]. destruct Hb as [Q|Hb]; [auto|]. specialize (F1 b Hb). specialize (F2 a Ha). lia. }
    subst b. f_equal. apply IH; auto. intros v. split; intros Hv.
    + assert (Q : In v (a :: l')) by (apply E; now right). destruct Q as [<-|Q]; [|exact Q]. specialize (F1 a Hv). lia.
    + assert (Q : In v (a :: l)) by (apply E; now right). destruct Q as [<-|Q]; [|exact Q]. specialize (F2 a Hv). lia.
Qed.
Lemma filter_combine_nth {B C} (f : B -> bool) (g : C -> bool) (d : B) (e : C) : forall (l : list B) (l' : list C) {D} (rows : list D), List.length l = List.length l' ->
  (forall i, i < List.length l -> f (nth i l d) = g (nth i l' e)) ->
  map snd (filter (fun p => f (fst p)) (combine l rows)) = map snd (filter (fun p => g (fst p)) (combine l' rows)).
Proof.
  induction l as [|a l IH]; intros [|b l'] D rows L H; try discriminate; [reflexivity|]. destruct rows as [|r rows]; [reflexivity|]. cbn [combine filter fst].
  rewrite (H 0 ltac:(cbn; lia) : f a = g b). assert (X : forall i, i < List.length l -> f (nth i l d) = g (nth i l' e)) by (intros i Hi; apply (H (S i)); cbn; lia).
  destruct (g b); cbn [map snd]; [f_equal|]; apply IH; auto.
Qed.

Section Labels.
  Context {A V : Type} (K : pusher A V) (ok : A -> Prop).
  Hypothesis HK : moment_kernel K ok.
  Variable argsort : list Z -> list nat.
  Hypothesis Hs : sorts argsort.
  Local Notation neg := (fun v => (v <? 0)%Z).
  Variables (by_ groups index start end_ : list Z).
  Hypothesis Hne : by_ <> [].
  Hypothesis Ef : factor_by_to_index Z.eqb Z.leb neg argsort (int_labels by_) = ((groups, index), (start, end_)).
  Let codes := snd (factor_by Z.eqb Z.leb neg true (int_labels by_)).

  Lemma label_facts : distinct_labels by_ groups /\ List.length start = List.length groups /\ List.length codes = List.length by_ /\
    (forall i, i < List.length by_ -> (nth i codes (-1) = -1 /\ nth i by_ 0 < 0)%Z \/ exists k, nth i codes (-1)%Z = Z.of_nat k /\ k < List.length groups /\ nth k groups 0%Z = nth i by_ 0%Z).
  Proof.
    destruct (factor_by_to_index_partition Z.eqb Z.leb neg Z.eqb_eq argsort Hs _ _ _ _ _ Ef) as (E1 & E2 & _).
    assert (E : factor_by Z.eqb Z.leb neg true (int_labels by_) = (groups, codes)) by (unfold codes; rewrite E1; now destruct (factor_by _ _ _ _ _)).
    destruct (factor_by_codes_and_groups Z.eqb Z.leb neg Z.eqb_eq true _ _ _ E) as (N & L & C1 & C2 & C3). unfold int_labels in L. rewrite map_length in L.
    assert (CN : forall i, i < List.length by_ -> (nth i codes (-1) = -1 /\ nth i by_ 0 < 0)%Z \/ exists k, nth i codes (-1)%Z = Z.of_nat k /\ k < List.length groups /\ nth k groups 0%Z = nth i by_ 0%Z).
    { intros i Hi. assert (Eb : nth_error (int_labels by_) i = Some (Some (nth i by_ 0%Z))) by (unfold int_labels; rewrite nth_error_map, (nth_error_nth' by_ 0%Z Hi); reflexivity).
      destruct (Z.ltb_spec (nth i by_ 0%Z) 0) as [Q|Q].
      - left. split; [|exact Q]. apply nth_error_nth. apply (C2 i _ Eb). right. exists (nth i by_ 0%Z). split; [reflexivity|]. now apply Z.ltb_lt.
      - right. destruct (C1 i _ Eb) as (k & K1 & K2); [now apply Z.ltb_ge|]. exists k. split; [now apply nth_error_nth|]. split; [apply nth_error_Some; congruence|]. now apply nth_error_nth. }
    split; [split|split; [exact E2|split; [exact L|exact CN]]].
    - apply sorted_lt; [|exact N]. rewrite E1. apply factor_by_sorted_groups.
      + intros a b. rewrite !Z.leb_le. lia.
      + intros a b c. rewrite !Z.leb_le. lia.
    - intros v. split.
      + intros Hv. destruct (In_nth _ _ 0%Z Hv) as (k & Hk & <-). destruct (C3 k Hk) as (i & Hi). assert (Li : i < List.length by_) by (rewrite <- L; apply nth_error_Some; congruence).
        apply (nth_error_nth _ _ (-1)%Z) in Hi. destruct (CN i Li) as [[Q _]|(k' & K1 & K2 & K3)]; [lia|]. assert (k = k') by lia. subst k'. split; [rewrite K3; now apply nth_In|].
        rewrite K3. destruct (Z.ltb_spec (nth i by_ 0%Z) 0) as [Q|Q]; [|exact Q]. exfalso.
        assert (Eb : nth_error (int_labels by_) i = Some (Some (nth i by_ 0%Z))) by (unfold int_labels; rewrite nth_error_map, (nth_error_nth' by_ 0%Z Li); reflexivity).
        assert (X : nth_error codes i = Some (-1)%Z) by (apply (C2 i _ Eb); right; exists (nth i by_ 0%Z); split; [reflexivity|now apply Z.ltb_lt]). apply (nth_error_nth _ _ (-1)%Z) in X. lia.
      + intros [Hv Pv]. destruct (In_nth _ _ 0%Z Hv) as (i & Hi & <-). destruct (CN i Hi) as [[_ Q]|(k & K1 & K2 & K3)]; [lia|]. rewrite <- K3. now apply nth_In.
  Qed.
  Lemma members_labels {B} (rows : list B) k : k < List.length groups -> members k codes rows = rows_with (nth k groups 0%Z) by_ rows.
  Proof.
    intros Hk. destruct label_facts as ((D1 & D2) & _ & L & CN). unfold members, rows_with. apply (filter_combine_nth (fun c => (c =? Z.of_nat k)%Z) (fun c => (c =? nth k groups 0)%Z) (-1)%Z 0%Z); [exact L|].
    intros i Hi. rewrite L in Hi. assert (Pk : (0 <= nth k groups 0)%Z) by (apply D2; now apply nth_In).
    destruct (CN i Hi) as [[-> Q]|(k' & -> & K2 & K3)].
    - destruct (Z.eqb_spec (-1) (Z.of_nat k)), (Z.eqb_spec (nth i by_ 0%Z) (nth k groups 0%Z)); try reflexivity; lia.
    - rewrite <- K3. destruct (Z.eqb_spec (Z.of_nat k') (Z.of_nat k)) as [Q|Q], (Z.eqb_spec (nth k' groups 0%Z) (nth k groups 0%Z)) as [Q'|Q']; try reflexivity.
      + apply Nat2Z.inj in Q. subst. congruence.
      + exfalso. apply Q. f_equal. assert (N : NoDup groups). { clear - D1. induction D1 as [|a l S IH F]; constructor; [|exact IH]. intros Q. rewrite Forall_forall in F. specialize (F a Q). lia. }
        apply (proj1 (NoDup_nth groups 0%Z) N); assumption.
  Qed.
  Lemma indexed_by_labels data : rows_ok K ok data -> List.length by_ = List.length data ->
    exists ri, reduce_data_indexed K data index start end_ None = Ok ri /\ List.length ri = List.length groups /\
      forall k, k < List.length groups -> total K (rows_with (nth k groups 0%Z) by_ data) <> 0%Qc ->
        reduce_data K (rows_with (nth k groups 0%Z) by_ data) = Some (nth k ri (p_zero K)).
  Proof.
    intros R L. destruct label_facts as ((D1 & D2) & _ & Lc & CN).
    assert (Li : List.length (int_labels by_) = List.length data) by (unfold int_labels; now rewrite map_length).
    assert (Ni : int_labels by_ <> []) by (destruct by_; [congruence|discriminate]).
    destruct (indexed_equals_grouped K ok HK Z.eqb Z.leb neg Z.eqb_eq argsort Hs _ data _ _ _ _ R Li Ni Ef) as (ri & rg & E1 & E2 & L1 & L2 & G). fold codes in E2, G.
    exists ri. split; [exact E1|]. split; [exact L1|]. intros k Hk T. rewrite <- members_labels in T |- * by exact Hk. rewrite (G k Hk T).
    assert (Nc : codes <> []) by (intros Q; rewrite Q in Lc; destruct by_; [congruence|discriminate]). destruct (zmax_ok codes Nc) as (m & _ & M1 & M2).
    assert (Mm : (-1 <= m)%Z). { destruct (In_nth _ _ (-1)%Z M1) as (i & Hi & <-). rewrite Lc in Hi. destruct (CN i Hi) as [[-> _]|(k' & -> & _)]; lia. }
    destruct (grouped_rows_are_group_reductions K ok HK codes data m ltac:(congruence) R (conj M1 M2) Mm) as (rg' & E3 & _ & G'). rewrite E2 in E3. injection E3 as <-.
    apply G'. now rewrite L2.
  Qed.
End Labels.

Section Objects.
  Context {A V : Type} (K : pusher A V) (ok : A -> Prop) (P : packer A).
  Hypothesis MA : moment_array K ok P.
  Context (c : cmdata) (md : list sname).
  Hypothesis HC : xholds c md.
  Let x := cx_obj c.
  Hypothesis HS : map (dim_size x) md = pk_shape P.

  Lemma lm_object : labelled_moments P md x.
  Proof. destruct HC as (H1 & H2 & _ & H4 & _). split; [exact H1|]. split; [exact H2|]. split; [exact H4|exact HS]. Qed.
  Lemma params_object : cx_params c = params_for md.
  Proof. apply HC. Qed.

  Lemma moments_bind (u : xarr) m env : List.length m = List.length md -> moments_named P u md (name_bind md m env) = moments_named P u md env.
  Proof.
    intros L. apply (proj1 (ma_packer _ _ _ MA)). intros m' Vm. unfold x_at. f_equal. apply map_ext. intros n. destruct (in_dec string_dec n md) as [Q|Q]; [|now rewrite !(name_bind_out md _ _ _ Q)].
    destruct (In_nth _ _ "" Q) as (k & Hk & <-). assert (Lm : List.length m' = List.length md) by (rewrite (valid_length _ _ Vm), <- HS; apply map_length). rewrite !name_bind_in; auto; apply HC.
  Qed.
  Lemma rows_bind ds m env : (forall n, In n ds -> ~ In n md) -> List.length m = List.length md -> rows_named P x ds md (name_bind md m env) = rows_named P x ds md env.
  Proof.
    intros D L. apply map_ext. intros i. apply (proj1 (ma_packer _ _ _ MA)). intros m' Vm. unfold x_at. f_equal. apply map_ext. intros n.
    assert (Lm : List.length m' = List.length md) by (rewrite (valid_length _ _ Vm), <- HS; apply map_length). destruct (in_dec string_dec n md) as [Q|Q].
    - destruct (In_nth _ _ "" Q) as (k & Hk & <-). rewrite !name_bind_in; auto; apply HC.
    - rewrite !(name_bind_out md _ _ _ Q). apply name_bind_ext. now apply name_bind_out.
  Qed.
  Lemma rows_all_ok ds env : Forall ok (rows_named P x ds md env).
  Proof. unfold rows_named. apply Forall_map, Forall_forall. intros i _. apply (ma_pack_ok _ _ _ MA). Qed.
  Lemma rows_nonneg d env : In d (x_dims x) -> ~ In d md -> nonneg_named K P md x -> inside_names (dim_size x) (except_name (x_dims x) (d :: md)) env -> rows_ok K ok (rows_named P x [d] md env).
  Proof.
    intros Hd Nd W He. unfold rows_named, rows_ok. apply Forall_map, Forall_forall. intros i Hi. split; [apply (ma_pack_ok _ _ _ MA)|]. apply W.
    cbn [map] in Hi. rewrite all_idx_one in Hi. apply in_map_iff in Hi. destruct Hi as (j & <- & Hj). apply in_seq in Hj.
    intros n Hn. apply except_name_In in Hn. destruct Hn as [Hn Nm]. destruct (string_dec n d) as [->|Q].
    - rewrite (name_bind_in [d] [j] env 0) with (d := d) || (unfold name_bind; cbn [combine find fst]; rewrite String.eqb_refl; cbn [snd]). lia.
    - rewrite name_bind_out by (intros [E|[]]; congruence). apply He. apply except_name_In. split; [exact Hn|]. intros [E|E]; [congruence|contradiction].
  Qed.
  Lemma rows_length d env : List.length (rows_named P x [d] md env) = dim_size x d.
  Proof. unfold rows_named. rewrite map_length. cbn [map]. now rewrite all_idx_one, map_length, seq_length. Qed.

  (* an array of moments as an object *)
  Lemma object_of_moments dims sz (g : lgrid Qc) (val : (sname -> nat) -> A) :
    NoDup dims -> incl md dims -> (forall n, In n md -> sz n = dim_size x n) ->
    lg_dims g = dims -> grid_ok (lg_val g) -> gshape (lg_val g) = map sz dims ->
    (forall env, inside_names sz dims env -> l_at 0%Qc g env = pk_unpack P (val env) (map env md)) ->
    (forall env m, valid (pk_shape P) m -> inside_names sz (except_name dims md) env -> val (name_bind md m env) = val env) ->
    let r := CX (to_xarr g) (cx_params c) in
    xholds r md /\ x_dims (cx_obj r) = dims /\ (forall n, In n dims -> dim_size (cx_obj r) n = sz n) /\
    forall env, inside_names sz (except_name dims md) env -> ok (val env) -> moments_named P (cx_obj r) md env = val env.
  Proof.
    intros N I Sm Ed Go Es At Bv r. pose proof HC as (_ & Nm & Lm & _ & Fm & Ep). destruct g as [gd gv]. cbn [lg_dims lg_val] in *. subst gd.
    assert (Hr : x_ok (cx_obj r)).
    { split; [exact Go|]. split; [exact N|]. change (List.length dims = List.length (gshape gv)). now rewrite Es, map_length. }
    assert (Sz : forall n, In n dims -> dim_size (cx_obj r) n = sz n).
    { apply map_ext_in_iff. rewrite <- Es. symmetry. exact (shape_named _ Hr). }
    split; [|split; [reflexivity|split; [exact Sz|]]].
    - split; [exact Hr|]. split; [exact Nm|]. split; [exact Lm|]. split; [exact I|]. split; [|exact Ep].
      apply Forall_forall. intros n Hn. rewrite Sz by now apply I. rewrite Sm by exact Hn. rewrite Forall_forall in Fm. now apply Fm.
    - intros env He Ov. unfold moments_named. rewrite (proj1 (ma_packer _ _ _ MA) _ (pk_unpack P (val env))); [now apply (ma_pack_unpack K ok P MA)|].
      intros m Vm. assert (Lmm : List.length m = List.length md) by (rewrite (valid_length _ _ Vm), <- HS; apply map_length).
      assert (Ie : inside_names sz dims (name_bind md m env)).
      { intros n Hn. destruct (in_dec string_dec n md) as [Q|Q].
        - destruct (In_nth _ _ "" Q) as (k & Hk & En). rewrite <- En at 1. rewrite name_bind_in by auto. rewrite Sm by exact Q. rewrite <- En, <- (nth_map_dims (dim_size x) md k Hk), HS.
          apply valid_nth; [exact Vm|]. rewrite <- HS, map_length. exact Hk.
        - rewrite name_bind_out by exact Q. apply He. now apply except_name_In. }
      pose proof (At _ Ie) as Q. rewrite (Bv env m Vm He), (map_name_bind md m env Nm Lmm) in Q. rewrite <- Q. reflexivity.
  Qed.

  Lemma some_moments : exists m, valid (pk_shape P) m.
  Proof.
    exists (map (fun _ => 0) (pk_shape P)). destruct MA; cbn; repeat (apply Forall2_cons; [lia|]); apply Forall2_nil.
  Qed.
  Lemma bind_inside sz dims env m : (forall n, In n md -> sz n = dim_size x n) -> valid (pk_shape P) m -> inside_names sz (except_name dims md) env -> inside_names sz dims (name_bind md m env).
  Proof.
    intros Sm Vm He n Hn. assert (Lmm : List.length m = List.length md) by (rewrite (valid_length _ _ Vm), <- HS; apply map_length). destruct (in_dec string_dec n md) as [Q|Q].
    - destruct (In_nth _ _ "" Q) as (k & Hk & En). rewrite <- En at 1. rewrite name_bind_in; [|apply HC|exact Lmm|exact Hk]. rewrite Sm by exact Q. rewrite <- En, <- (nth_map_dims (dim_size x) md k Hk), HS.
      apply valid_nth; [exact Vm|]. rewrite <- HS, map_length. exact Hk.
    - rewrite name_bind_out by exact Q. apply He. now apply except_name_In.
  Qed.

  (* an object whose rows along rd are those of run *)
  Definition rows_object (run : (sname -> nat) -> res (list A)) (dims : list sname) (sz : sname -> nat) (rd : sname) (r : res cmdata) : Prop :=
    match r with
    | Ok o => xholds o md /\ x_dims (cx_obj o) = dims /\ (forall n, In n dims -> dim_size (cx_obj o) n = sz n) /\
        forall env, inside_names sz (except_name dims md) env -> exists rows b, run env = Ok rows /\ nth_error rows (env rd) = Some b /\ (ok b -> moments_named P (cx_obj o) md env = b)
    | Raise e => exists env, inside_names sz (except_name dims (rd :: md)) env /\ run env = Raise e
    end.
  Lemma object_of_rows run dims sz rd (r : res (lgrid Qc)) :
    NoDup dims -> incl md dims -> ~ In rd md -> (forall n, In n md -> sz n = dim_size x n) ->
    (forall env m, List.length m = List.length md -> run (name_bind md m env) = run env) ->
    by_name 0%Qc (pk_unpack P) run dims sz rd md r -> rows_object run dims sz rd (cx_with c r).
  Proof.
    intros N I Nr Sm Hb H. destruct r as [g|e]; cbn [cx_with rmap rbind by_name rows_object] in *; [|exact H]. destruct H as (Ed & Go & Es & At).
    set (val := fun env => match run env with Ok rows => nth (env rd) rows (p_zero K) | Raise _ => p_zero K end).
    assert (RE : forall env, inside_names sz (except_name dims md) env -> exists rows, run env = Ok rows /\ nth_error rows (env rd) = Some (val env)).
    { intros env He. destruct some_moments as (m & Vm). assert (Lmm : List.length m = List.length md) by (rewrite (valid_length _ _ Vm), <- HS; apply map_length).
      destruct (At _ (bind_inside sz dims env m Sm Vm He)) as (rows & b & E1 & E2 & _). rewrite Hb in E1 by exact Lmm. rewrite name_bind_out in E2 by exact Nr. exists rows. split; [exact E1|].
      unfold val. rewrite E1, E2. f_equal. symmetry. now apply nth_error_nth. }
    destruct (object_of_moments dims sz g val N I Sm Ed Go Es) as (R1 & R2 & R3 & R4).
    - intros env He. destruct (At env He) as (rows & b & E1 & E2 & E3). rewrite E3. unfold val. rewrite E1. f_equal. symmetry. now apply nth_error_nth.
    - intros env m Vm He. unfold val. rewrite Hb by (rewrite (valid_length _ _ Vm), <- HS; apply map_length). now rewrite name_bind_out.
    - split; [exact R1|]. split; [exact R2|]. split; [exact R3|]. intros env He. destruct (RE env He) as (rows & E1 & E2). exists rows, (val env). split; [exact E1|]. split; [exact E2|]. intros Ov. now rewrite R4.
  Qed.
  (* ... when what run gives is known *)
  Lemma rows_object_known run dims sz rd r (C : (sname -> nat) -> Prop) (Q : (sname -> nat) -> A -> Prop) : rows_object run dims sz rd r ->
    (forall env, inside_names sz (except_name dims (rd :: md)) env -> exists rows, run env = Ok rows /\ forall b, nth_error rows (env rd) = Some b -> C env -> ok b /\ Q env b) ->
    exists o, r = Ok o /\ xholds o md /\ x_dims (cx_obj o) = dims /\ (forall n, In n dims -> dim_size (cx_obj o) n = sz n) /\
      forall env, inside_names sz (except_name dims md) env -> C env -> Q env (moments_named P (cx_obj o) md env).
  Proof.
    intros H HQ. destruct r as [o|e]; cbn [rows_object] in H.
    - exists o. split; [reflexivity|]. destruct H as (H1 & H2 & H3 & H4). repeat (split; [assumption|]). intros env He Hc. destruct (H4 env He) as (rows & b & E1 & E2 & E5).
      destruct (HQ env) as (rows' & E3 & E4); [intros n Hn; apply except_name_In in Hn; apply He, except_name_In; split; [tauto|]; intros Q'; apply (proj2 Hn); now right|].
      rewrite E1 in E3. injection E3 as <-. destruct (E4 b E2 Hc) as [Ob Qb]. now rewrite (E5 Ob).
    - exfalso. destruct H as (env & He & E). destruct (HQ env He) as (rows & E' & _). congruence.
  Qed.

  (* C138: reduce without groups, by name *)
  Definition reduced_object (keepdims : bool) (ds : list sname) (r : res cmdata) : Prop :=
    let dims := reduced_dims keepdims false (x_dims x) ds md in
    let sz := fun n => if in_dec string_dec n ds then 1 else dim_size x n in
    match r with
    | Ok o => xholds o md /\ x_dims (cx_obj o) = dims /\ (forall n, In n dims -> dim_size (cx_obj o) n = sz n) /\
        forall env, inside_names sz (except_name dims md) env -> reduce_data K (rows_named P x ds md env) = Some (moments_named P (cx_obj o) md env)
    | Raise e => e = EZeroDiv /\ exists env, inside_names (dim_size x) (except_name (x_dims x) (ds ++ md)) env /\ reduce_data K (rows_named P x ds md env) = None
    end.
  Theorem reduce_object_named argsort axis dim ds first group_dim to_end keepdims : chooses_many md (many_axes axis) dim ds x ->
    reduced_object keepdims ds (cx_reduce K P argsort c axis dim None None first group_dim to_end keepdims).
  Proof.
    intros HCh. unfold cx_reduce. cbn [rbind]. rewrite params_object. fold x. pose proof (reduce_named K ok P MA md (many_axes axis) dim ds keepdims false x lm_object HCh) as X.
    unfold reduced_by_name in X. unfold reduced_object. cbv zeta in X |- *. pose proof HCh as (I1 & I2 & _ & I4 & _).
    set (dims := reduced_dims keepdims false (x_dims x) ds md) in *. set (sz := fun n => if in_dec string_dec n ds then 1 else dim_size x n) in *.
    assert (Nx : NoDup (x_dims x)) by apply HC. assert (Im : incl md (x_dims x)) by apply HC.
    assert (N : NoDup dims) by (unfold dims, reduced_dims; destruct keepdims; [exact Nx|now apply NoDup_filter]).
    assert (Id : incl md dims).
    { intros n Hn. unfold dims, reduced_dims. destruct keepdims; [now apply Im|]. apply except_name_In. split; [now apply Im|]. intros Q. now apply (I4 n Q). }
    assert (Sm : forall n, In n md -> sz n = dim_size x n) by (intros n Hn; unfold sz; destruct (in_dec string_dec n ds) as [Q|Q]; [elim (I4 n Q Hn)|reflexivity]).
    destruct (x_reduce_data K P (params_for md) (many_axes axis) dim keepdims false x) as [g|e]; cbn [cx_with rmap rbind]; [|exact X]. destruct X as (Ed & Go & Es & At).
    set (val := fun env => match reduce_data K (rows_named P x ds md env) with Some a => a | None => p_zero K end).
    assert (RE : forall env, inside_names sz (except_name dims md) env -> reduce_data K (rows_named P x ds md env) = Some (val env)).
    { intros env He. destruct some_moments as (m & Vm). assert (Lmm : List.length m = List.length md) by (rewrite (valid_length _ _ Vm), <- HS; apply map_length).
      destruct (At _ (bind_inside sz dims env m Sm Vm He)) as (a & E1 & _). rewrite rows_bind in E1 by auto. unfold val. now rewrite E1. }
    destruct (object_of_moments dims sz g val N Id Sm Ed Go Es) as (R1 & R2 & R3 & R4).
    - intros env He. destruct (At env He) as (a & E1 & E2). rewrite E2. unfold val. now rewrite E1.
    - intros env m Vm He. unfold val. now rewrite rows_bind by (auto; rewrite (valid_length _ _ Vm), <- HS; apply map_length).
    - split; [exact R1|]. split; [exact R2|]. split; [exact R3|]. intros env He. rewrite (RE env He). rewrite R4; [reflexivity|exact He|]. eapply (reduce_is_ok K ok P MA); [apply rows_all_ok|exact (RE env He)].
  Qed.

  (* the object that a function of the rows along d gives, its rows along rd *)
  Definition along_object (to_end : bool) (d rd : sname) (newlen : nat) (C : (sname -> nat) -> Prop) (Q : (sname -> nat) -> A -> Prop) (r : res cmdata) : Prop :=
    exists o, r = Ok o /\ xholds o md /\ x_dims (cx_obj o) = result_dims to_end (x_dims x) d rd md /\
      (forall n, In n (x_dims (cx_obj o)) -> dim_size (cx_obj o) n = result_size (dim_size x) rd newlen n) /\
      forall env, inside_names (dim_size (cx_obj o)) (except_name (x_dims (cx_obj o)) md) env -> C env -> Q env (moments_named P (cx_obj o) md env).

  Section Along.
    Variable d : sname.
    Hypothesis Hd : In d (x_dims x).
    Hypothesis Nd : ~ In d md.
    Variable rd : sname.
    Hypothesis Fr : rd = d \/ ~ In rd (x_dims x).
    Lemma rd_moment : ~ In rd md.
    Proof. destruct Fr as [->|F]; [exact Nd|]. intros Q. apply F. now apply HC. Qed.
    Lemma result_dims_all to_end n : In n (result_dims to_end (x_dims x) d rd md) <-> In n (except_name (x_dims x) (d :: md) ++ rd :: md).
    Proof. destruct to_end; [reflexivity|]. symmetry. now apply (result_dims_In P x md d lm_object Hd Nd). Qed.
    Lemma result_dims_NoDup to_end : NoDup (result_dims to_end (x_dims x) d rd md).
    Proof.
      assert (Nx : NoDup (x_dims x)) by apply HC. assert (Nm : NoDup md) by apply HC. destruct to_end; cbn [result_dims].
      - apply NoDup_app_iff. split; [now apply NoDup_filter|]. split; [constructor; [apply rd_moment|exact Nm]|]. intros n Hn Q. apply except_name_In in Hn. destruct Hn as [H1 H2].
        destruct Q as [<-|Q]; [|apply H2; now right]. destruct Fr as [E|F]; [apply H2; now left|contradiction].
      - clear - Nx Fr. induction (x_dims x) as [|a l IH]; [constructor|]. inversion Nx; subst. cbn [map]. constructor.
        + intros Q. apply in_map_iff in Q. destruct Q as (b & E & Hb). destruct (String.eqb_spec b d) as [Eb|Nb], (String.eqb_spec a d) as [Ea|Na].
          * congruence.
          * destruct Fr as [F|F]; [congruence|]. apply F. left. congruence.
          * destruct Fr as [F|F]; [congruence|]. apply F. right. congruence.
          * congruence.
        + apply IH; try assumption. destruct Fr as [E|F]; [now left|]. right. intros Q. apply F. now right.
    Qed.
    Lemma outside_inside to_end newlen env : inside_names (result_size (dim_size x) rd newlen) (except_name (result_dims to_end (x_dims x) d rd md) (rd :: md)) env ->
      inside_names (dim_size x) (except_name (x_dims x) (d :: md)) env.
    Proof.
      intros I n Hn. assert (Nr : n <> rd). { intros ->. apply except_name_In in Hn. destruct Hn as [H1 H2]. destruct Fr as [E|F]; [apply H2; now left|contradiction]. }
      assert (X : In n (except_name (result_dims to_end (x_dims x) d rd md) (rd :: md))).
      { apply except_name_In. rewrite result_dims_all, in_app_iff. split; [now left|]. apply except_name_In in Hn. intros [Q|Q]; [congruence|]. apply (proj2 Hn). now right. }
      specialize (I n X). unfold result_size in I. destruct (String.eqb_spec n rd); [contradiction|exact I].
    Qed.
    Lemma object_along (F : list A -> res (list A)) to_end newlen r (C : (sname -> nat) -> Prop) (Q : (sname -> nat) -> A -> Prop) :
      by_name 0%Qc (pk_unpack P) (fun env => F (rows_named P x [d] md env)) (result_dims to_end (x_dims x) d rd md) (result_size (dim_size x) rd newlen) rd md r ->
      (forall env, inside_names (dim_size x) (except_name (x_dims x) (d :: md)) env ->
         exists rows, F (rows_named P x [d] md env) = Ok rows /\ forall b, nth_error rows (env rd) = Some b -> C env -> ok b /\ Q env b) ->
      along_object to_end d rd newlen C Q (cx_with c r).
    Proof.
      intros H HQ. assert (Im : incl md (result_dims to_end (x_dims x) d rd md)) by (intros n Hn; apply result_dims_all, in_or_app; right; now right).
      assert (RO : rows_object (fun env => F (rows_named P x [d] md env)) (result_dims to_end (x_dims x) d rd md) (result_size (dim_size x) rd newlen) rd (cx_with c r)).
      { apply object_of_rows; [apply result_dims_NoDup|exact Im|apply rd_moment| | |exact H].
        - intros n Hn. unfold result_size. destruct (String.eqb_spec n rd) as [->|]; [elim (rd_moment Hn)|reflexivity].
        - intros env m L. f_equal. apply rows_bind; [|exact L]. intros n [<-|[]]. exact Nd. }
      destruct (rows_object_known _ _ _ _ _ C Q RO) as (o & E & H1 & H2 & H3 & H4).
      - intros env I. apply HQ. now apply (outside_inside to_end newlen).
      - exists o. split; [exact E|]. split; [exact H1|]. split; [exact H2|]. rewrite H2. split; [exact H3|]. intros env I. apply H4. intros n Hn. rewrite <- H3; [now apply I|]. apply except_name_In in Hn. tauto.
    Qed.
  End Along.

  Lemma incl_ok (l l' : list A) : incl l l' -> Forall ok l' -> Forall ok l.
  Proof. intros I F. rewrite Forall_forall in *. auto. Qed.
  Lemma rows_with_incl {B} v by_ (l : list B) : incl (rows_with v by_ l) l.
  Proof. intros b Hb. unfold rows_with in Hb. apply in_map_iff in Hb. destruct Hb as ([z b'] & <- & Hb). apply filter_In in Hb. destruct Hb as [Hb _]. now apply in_combine_r in Hb. Qed.
  (* C139: coords_policy="group": row k has the moments with label k *)
  Theorem reduce_object_grouped_named argsort axis dim d by_ m block group_dim to_end keepdims : along (List.length md) axis dim d x -> ~ In d md ->
    List.length by_ = dim_size x d -> zmax_of m by_ -> (-1 <= m)%Z -> free_name x d group_dim -> nonneg_named K P md x ->
    let rd := renamed d group_dim in
    along_object to_end d rd (Z.to_nat (m + 1)) (fun _ => True)
      (fun env a => reduce_data K (rows_with (Z.of_nat (env rd)) by_ (rows_named P x [d] md env)) = Some a)
      (cx_reduce K P argsort c axis dim (Some by_) block false group_dim to_end keepdims).
  Proof.
    intros HA Nd L Hm Pm Fr W rd. destruct (along_chooses _ _ _ _ _ HA) as (ax & dd & E1 & E2 & HCh). pose proof (chooses_dim _ _ _ _ _ HCh) as Hd.
    unfold cx_reduce. cbn [rbind]. rewrite E1, E2. cbn [rbind]. rewrite params_object. fold x.
    assert (Nb : by_ <> []) by (destruct Hm as [Q _]; intros ->; destruct Q).
    assert (Ez : zmax by_ = Ok m). { destruct (zmax_ok by_ Nb) as (m' & E & M1 & M2). rewrite E. f_equal. destruct Hm as [M3 M4]. rewrite Forall_forall in M2, M4. specialize (M2 m M3). specialize (M4 m' M1). lia. }
    pose proof (grouped_named K ok P MA by_ group_dim md ax dd d to_end x lm_object HCh Nd) as G. cbv zeta in G. rewrite Ez in G. destruct G as (G & _ & _). specialize (G L Pm Fr).
    apply (object_along d Hd Nd rd Fr (reduce_data_grouped K by_) to_end _ _ _ _ G). intros env He.
    destruct (grouped_rows_are_group_reductions K ok (ma_kernel _ _ _ MA) by_ (rows_named P x [d] md env) m ltac:(now rewrite rows_length) (rows_nonneg d env Hd Nd W He) Hm Pm) as (rows & R1 & R2 & R3).
    exists rows. split; [exact R1|]. intros b Hb _. assert (Hk : env rd < List.length rows) by (apply nth_error_Some; congruence).
    assert (X : reduce_data K (rows_with (Z.of_nat (env rd)) by_ (rows_named P x [d] md env)) = Some b). { apply (nth_error_nth _ _ (p_zero K)) in Hb. rewrite <- Hb. apply R3. lia. }
    split; [|exact X]. eapply (reduce_is_ok K ok P MA); [|exact X]. eapply incl_ok; [apply rows_with_incl|apply rows_all_ok].
  Qed.

  (* C139: coords_policy="first" or "last": row k has the moments of the label k of those
     that occur *)
  Lemma index_valid argsort by_ groups index start end_ n : sorts argsort -> by_ <> [] -> List.length by_ = n ->
    factor_by_to_index Z.eqb Z.leb (fun v => (v <? 0)%Z) argsort (int_labels by_) = ((groups, index), (start, end_)) -> validate_index n index start end_ = Ok tt.
  Proof.
    intros Hs Hne L Ef. destruct (kernel_laws K ok (ma_kernel _ _ _ MA)) as (I & LW & EL).
    destruct (indexed_by_labels K ok (ma_kernel _ _ _ MA) argsort Hs by_ groups index start end_ Hne Ef (repeat (p_zero K) n)) as (ri & E & _).
    - apply Forall_forall. intros a Ha. apply repeat_spec in Ha. subst a. split; [apply EL; apply (l_wf_zero _ _ LW)|]. rewrite (l_wt_zero _ _ LW). apply Qcle_refl.
    - now rewrite repeat_length.
    - unfold reduce_data_indexed in E. rewrite repeat_length in E. destruct (validate_index n index start end_) as [[]|e]; [reflexivity|discriminate].
  Qed.
  Theorem reduce_object_labels_named argsort axis dim d by_ groups block group_dim to_end keepdims : sorts argsort -> along (List.length md) axis dim d x -> ~ In d md ->
    List.length by_ = dim_size x d -> by_ <> [] -> distinct_labels by_ groups -> free_name x d group_dim -> nonneg_named K P md x ->
    let rd := renamed d group_dim in
    let row := fun env => rows_with (nth (env rd) groups 0%Z) by_ (rows_named P x [d] md env) in
    along_object to_end d rd (List.length groups) (fun env => total K (row env) <> 0%Qc) (fun env a => reduce_data K (row env) = Some a)
      (cx_reduce K P argsort c axis dim (Some by_) block true group_dim to_end keepdims).
  Proof.
    intros Hs HA Nd L Hne HG Fr W rd row. destruct (along_chooses _ _ _ _ _ HA) as (ax & dd & E1 & E2 & HCh). pose proof (chooses_dim _ _ _ _ _ HCh) as Hd.
    unfold cx_reduce. cbn [rbind]. rewrite E1, E2. cbn [rbind]. rewrite params_object. fold x.
    destruct (factor_by_to_index Z.eqb Z.leb (fun v => (v <? 0)%Z) argsort (int_labels by_)) as [[groups' index] [start end_]] eqn:Ef.
    destruct (label_facts argsort Hs by_ groups' index start end_ Ef) as (HG' & Ls & _).
    assert (Eg : groups' = groups). { apply sorted_unique; [apply HG'|apply HG|]. intros v. rewrite (proj2 HG' v), (proj2 HG v). tauto. } subst groups'.
    pose proof (index_valid argsort by_ groups index start end_ _ Hs Hne L Ef) as Vi.
    pose proof (indexed_named K ok P MA index start end_ None group_dim md ax dd d to_end x lm_object HCh Nd) as G. cbv zeta in G. destruct G as (G & _ & _).
    specialize (G (conj Vi (fun s (E : None = Some s) => match E with end)) Fr). rewrite Ls in G.
    apply (object_along d Hd Nd rd Fr (fun rows => reduce_data_indexed K rows index start end_ None) to_end _ _ _ _ G). intros env He.
    destruct (indexed_by_labels K ok (ma_kernel _ _ _ MA) argsort Hs by_ groups index start end_ Hne Ef (rows_named P x [d] md env) (rows_nonneg d env Hd Nd W He) ltac:(now rewrite rows_length)) as (ri & R1 & R2 & R3).
    exists ri. split; [exact R1|]. intros b Hb HT. assert (Hk : env rd < List.length ri) by (apply nth_error_Some; congruence).
    assert (X : reduce_data K (row env) = Some b). { apply (nth_error_nth _ _ (p_zero K)) in Hb. rewrite <- Hb. apply R3; [lia|exact HT]. }
    split; [|exact X]. eapply (reduce_is_ok K ok P MA); [|exact X]. eapply incl_ok; [apply rows_with_incl|apply rows_all_ok].
  Qed.

  (* C140: blocks of consecutive moments; what is left over is dropped *)
  Lemma block_by_named axis dim d block : along (List.length md) axis dim d x -> ~ In d md -> cx_block_by c block axis dim = block_by (Z.of_nat (dim_size x d)) block "drop_last".
  Proof.
    intros HA Nd. destruct (along_chooses _ _ _ _ _ HA) as (ax & dd & E1 & E2 & HCh). pose proof (chooses_dim _ _ _ _ _ HCh) as Hd.
    unfold cx_block_by. rewrite E1, E2. cbn [rbind]. unfold select_ndat_dataarray. rewrite params_object. fold x.
    assert (E : x_factory true (x_as_arg (params_for md)) None None None (ODataArray (x_dims x)) None = Ok (params_for md)).
    { reflexivity. }
    rewrite E. cbn [rbind]. destruct (chooses_select x md ax dd d) as (a & _ & Es); [apply HC|exact Nd|exact HCh|]. rewrite Es. cbn [rbind snd]. now rewrite sizes_named.
  Qed.

  Definition drop_code (n block p : nat) : Z := if Nat.ltb p (n - n mod block) then Z.of_nat (p / block) else (-1)%Z.
  Lemma drop_block n block k {B} (l : list B) : 0 < block <= n -> k < n / block -> List.length l = n ->
    rows_with (Z.of_nat k) (map (drop_code n block) (seq 0 n)) l = firstn block (skipn (block * k) l).
  Proof.
    intros Hb Hk Ll. pose proof (Nat.div_mod n block ltac:(lia)) as DM. pose proof (Nat.mod_upper_bound n block ltac:(lia)) as MU. set (q := n / block) in *.
    unfold rows_with. replace (seq 0 n) with (seq 0 (List.length l)) by now rewrite Ll. rewrite (interval_members (drop_code n block) k (block * k) (block * k + block)); [|lia|].
    - rewrite Nat.max_0_l, Nat.sub_0_r. f_equal. lia.
    - intros i. unfold drop_code. destruct (Nat.ltb_spec i (n - n mod block)) as [C|C].
      + destruct (Z.eqb_spec (Z.of_nat (i / block)) (Z.of_nat k)) as [G|G].
        * apply Nat2Z.inj in G. pose proof (Nat.div_mod i block ltac:(lia)) as DI. pose proof (Nat.mod_upper_bound i block ltac:(lia)) as MI. rewrite G in DI.
          destruct (Nat.leb_spec (block * k) i), (Nat.ltb_spec i (block * k + block)); cbn; lia || reflexivity.
        * destruct (Nat.leb_spec (block * k) i) as [D1|D1], (Nat.ltb_spec i (block * k + block)) as [D2|D2]; cbn; try reflexivity. exfalso. apply G. f_equal.
          symmetry. apply (Nat.div_unique i block k (i - block * k)); lia.
      + destruct (Z.eqb_spec (-1) (Z.of_nat k)); [lia|]. destruct (Nat.leb_spec (block * k) i), (Nat.ltb_spec i (block * k + block)); cbn; try reflexivity. exfalso. nia.
  Qed.
  Lemma drop_codes n block : 0 < block <= n ->
    zmax_of (Z.of_nat (n / block) - 1) (map (drop_code n block) (seq 0 n)) /\ distinct_labels (map (drop_code n block) (seq 0 n)) (map Z.of_nat (seq 0 (n / block))).
  Proof.
    intros Hb. pose proof (Nat.div_mod n block ltac:(lia)) as DM. pose proof (Nat.mod_upper_bound n block ltac:(lia)) as MU.
    assert (Q : 0 < n / block) by (apply Nat.div_str_pos; lia). set (q := n / block) in *.
    assert (FB : forall p, p < n - n mod block -> p / block < q) by (intros p Hp; apply Nat.div_lt_upper_bound; lia).
    assert (In_q : forall k, k < q -> In (Z.of_nat k) (map (drop_code n block) (seq 0 n))).
    { intros k Hk. apply in_map_iff. exists (k * block). split; [|apply in_seq; nia]. unfold drop_code. destruct (Nat.ltb_spec (k * block) (n - n mod block)) as [_|C]; [|nia]. rewrite Nat.div_mul by lia. reflexivity. }
    assert (Le : forall z, In z (map (drop_code n block) (seq 0 n)) -> (z < Z.of_nat q)%Z).
    { intros z Hz. apply in_map_iff in Hz. destruct Hz as (p & <- & Hp). unfold drop_code. destruct (Nat.ltb_spec p (n - n mod block)) as [C|C]; [|lia]. specialize (FB p C). lia. }
    split; [split|split].
    - replace (Z.of_nat q - 1)%Z with (Z.of_nat (q - 1)) by lia. apply In_q. lia.
    - apply Forall_forall. intros z Hz. specialize (Le z Hz). lia.
    - generalize 0 as st. clear. intros st. revert st. induction q as [|q IH]; intros st; cbn; constructor; [apply IH|]. apply Forall_forall. intros z Hz. apply in_map_iff in Hz. destruct Hz as (k & <- & Hk). apply in_seq in Hk. lia.
    - intros v. split.
      + intros Hv. apply in_map_iff in Hv. destruct Hv as (k & <- & Hk). apply in_seq in Hk. split; [apply In_q; lia|lia].
      + intros [Hv Pv]. specialize (Le v Hv). apply in_map_iff. exists (Z.to_nat v). split; [lia|]. apply in_seq. lia.
  Qed.
  Theorem reduce_object_blocks_named argsort axis dim d block (first : bool) group_dim to_end keepdims : sorts argsort -> along (List.length md) axis dim d x -> ~ In d md ->
    0 < block <= dim_size x d -> free_name x d group_dim -> nonneg_named K P md x ->
    let rd := renamed d group_dim in
    let row := fun env => firstn block (skipn (block * env rd) (rows_named P x [d] md env)) in
    along_object to_end d rd (dim_size x d / block) (fun env => first = true -> total K (row env) <> 0%Qc) (fun env a => reduce_data K (row env) = Some a)
      (cx_reduce K P argsort c axis dim None (Some (Z.of_nat block)) first group_dim to_end keepdims).
  Proof.
    intros Hs HA Nd Hb Fr W rd row. set (n := dim_size x d) in *. destruct (drop_codes n block Hb) as [HZ HG]. pose proof (Nat.div_str_pos n block ltac:(lia)) as Q.
    assert (Lb : List.length (map (drop_code n block) (seq 0 n)) = n) by now rewrite map_length, seq_length.
    assert (E : cx_reduce K P argsort c axis dim None (Some (Z.of_nat block)) first group_dim to_end keepdims = cx_reduce K P argsort c axis dim (Some (map (drop_code n block) (seq 0 n))) None first group_dim to_end keepdims).
    { unfold cx_reduce at 1. rewrite (block_by_named axis dim d _ HA Nd). fold n. rewrite block_by_codes by (try exact Hb; unfold block_mode; cbn; auto). reflexivity. }
    rewrite E. clear E. assert (Hd : In d (x_dims x)) by (destruct (along_chooses _ _ _ _ _ HA) as (ax & dd & _ & _ & HCh); exact (chooses_dim _ _ _ _ _ HCh)).
    assert (Er : forall o, x_dims o = result_dims to_end (x_dims x) d rd md -> (forall n', In n' (x_dims o) -> dim_size o n' = result_size (dim_size x) rd (n / block) n') ->
       forall env, inside_names (dim_size o) (except_name (x_dims o) md) env -> env rd < n / block).
    { intros o E1 E2 env I. assert (X : In rd (x_dims o)) by (rewrite E1; apply (result_dims_all d Hd Nd rd Fr), in_or_app; right; now left).
      specialize (I rd). rewrite E2 in I by exact X. unfold result_size in I. rewrite String.eqb_refl in I. apply I. apply except_name_In. split; [exact X|]. apply (rd_moment d Nd rd Fr). }
    destruct first.
    - assert (Ne : map (drop_code n block) (seq 0 n) <> []) by (intros X; rewrite X in Lb; cbn in Lb; lia).
      pose proof (reduce_object_labels_named argsort axis dim d _ _ None group_dim to_end keepdims Hs HA Nd Lb Ne HG Fr W) as X. cbv zeta in X. fold rd in X. rewrite map_length, seq_length in X.
      destruct X as (o & X1 & X2 & X3 & X4 & X5). exists o. repeat (split; [assumption|]). intros env I Ht. specialize (X5 env I). pose proof (Er _ X3 X4 env I) as Hk.
      rewrite (nth_map_in _ _ _ _ 0) in X5 by (now rewrite seq_length). rewrite seq_nth in X5 by exact Hk. cbn [Nat.add] in X5. rewrite drop_block in X5 by (try exact Hb; try exact Hk; apply rows_length). apply X5. now apply Ht.
    - pose proof (reduce_object_grouped_named argsort axis dim d _ _ None group_dim to_end keepdims HA Nd Lb HZ ltac:(lia) Fr W) as X. cbv zeta in X. fold rd in X.
      replace (Z.to_nat (Z.of_nat (n / block) - 1 + 1)) with (n / block) in X by lia.
      destruct X as (o & X1 & X2 & X3 & X4 & X5). exists o. repeat (split; [assumption|]). intros env I _. specialize (X5 env I Logic.I). pose proof (Er _ X3 X4 env I) as Hk.
      rewrite drop_block in X5 by (try exact Hb; try exact Hk; apply rows_length). exact X5.
  Qed.

  (* C141: resample_and_reduce, jackknife_and_reduce, cumulative *)
  Theorem resample_object_named freq rep nrep axis dim d to_end : chooses (List.length md) axis dim d x -> ~ In d md ->
    counts_named freq rep d nrep (dim_size x d) -> ~ In rep (x_dims x) -> Forall all_nonneg (counts_table freq rep d nrep (dim_size x d)) -> nonneg_named K P md x ->
    let row := fun env => selected K (nth (env rep) (counts_table freq rep d nrep (dim_size x d)) []) (rows_named P x [d] md env) in
    along_object to_end d rep nrep (fun env => total K (row env) <> 0%Qc) (fun env a => reduce_data K (row env) = Some a)
      (cx_resample_and_reduce K P c freq rep axis dim to_end).
  Proof.
    intros HCh Nd HF Nr Hp W row. pose proof (chooses_dim _ _ _ _ _ HCh) as Hd. unfold cx_resample_and_reduce. rewrite params_object. fold x.
    pose proof (resample_named K ok P MA freq rep nrep (dim_size x d) md axis dim d to_end x lm_object HCh Nd HF) as G. cbv zeta in G. destruct G as (G & _ & _). specialize (G eq_refl (or_introl Nr)).
    apply (object_along d Hd Nd rep (or_intror Nr) (fun rows => of_opt EZeroDiv (resample_data K (counts_table freq rep d nrep (dim_size x d)) rows)) to_end _ _ _ _ G). intros env He.
    destruct (resample_data_is_weighted_reduction K ok (ma_kernel _ _ _ MA) _ _ (rows_nonneg d env Hd Nd W He) Hp) as (rows & R1 & R2 & R3).
    exists rows. split; [now rewrite R1|]. intros b Hb HT. assert (Hk : env rep < List.length rows) by (apply nth_error_Some; congruence).
    assert (X : reduce_data K (row env) = Some b). { apply (nth_error_nth _ _ (p_zero K)) in Hb. rewrite <- Hb. apply R3; [lia|exact HT]. }
    split; [|exact X]. eapply (reduce_is_ok K ok P MA); [|exact X]. unfold row, selected. apply Forall_forall. intros y Hy. apply in_map_iff in Hy. destruct Hy as ([k y'] & <- & Hy). apply in_combine_r in Hy.
    pose proof (rows_all_ok [d] env) as F. rewrite Forall_forall in F. specialize (F _ Hy). cbn [fst snd]. unfold reweight. destruct (kernel_laws K ok (ma_kernel _ _ _ MA)) as (I & LW & EL). apply EL. apply EL in F. now apply (l_wf_setwt _ _ LW).
  Qed.
  Theorem jackknife_object_named rep_dim axis dim d to_end : chooses (List.length md) axis dim d x -> ~ In d md -> free_name x d rep_dim -> nonneg_named K P md x ->
    (forall env, inside_names (dim_size x) (except_name (x_dims x) (d :: md)) env ->
       Forall (fun a => p_wt K a = 0%Qc \/ total K (rows_named P x [d] md env) <> p_wt K a) (rows_named P x [d] md env)) ->
    let rd := renamed d rep_dim in
    along_object to_end d rd (dim_size x d) (fun _ => True) (fun env a => reduce_data K (without (env rd) (rows_named P x [d] md env)) = Some a)
      (cx_jackknife_and_reduce K P c None rep_dim axis dim to_end).
  Proof.
    intros HCh Nd Fr W HJ rd. pose proof (chooses_dim _ _ _ _ _ HCh) as Hd. unfold cx_jackknife_and_reduce. rewrite params_object. fold x. cbn [option_map].
    pose proof (jackknife_named K ok P MA rep_dim md axis dim d to_end x lm_object HCh Nd) as G. cbv zeta in G. destruct G as (G & _). specialize (G Fr).
    apply (object_along d Hd Nd rd Fr (fun rows => of_opt EZeroDiv (jackknife_data K rows)) to_end _ _ _ _ G). intros env He.
    destruct (jackknife_rows_leave_one_out K ok (ma_kernel _ _ _ MA) _ (rows_nonneg d env Hd Nd W He) (HJ env He)) as (rows & R1 & R2 & R3).
    exists rows. split; [now rewrite R1|]. intros b Hb _. assert (Hk : env rd < List.length rows) by (apply nth_error_Some; congruence).
    assert (X : reduce_data K (without (env rd) (rows_named P x [d] md env)) = Some b). { apply (nth_error_nth _ _ (p_zero K)) in Hb. rewrite <- Hb. apply R3. lia. }
    split; [|exact X]. eapply (reduce_is_ok K ok P MA); [|exact X]. eapply incl_ok; [|apply (rows_all_ok [d] env)]. unfold without. intros y Hy. apply in_app_or in Hy.
    destruct Hy as [Hy|Hy]; [rewrite <- (firstn_skipn (env rd))|rewrite <- (firstn_skipn (S (env rd)))]; apply in_or_app; [now left|now right].
  Qed.
  (* with data_reduced= each replicate leaves its row out of the given moments *)
  Theorem jackknife_object_given_named red rep_dim axis dim d to_end : chooses (List.length md) axis dim d x -> ~ In d md -> free_name x d rep_dim ->
    let outer := except_name (x_dims x) (d :: md) in let rd := renamed d rep_dim in moments_given P md outer (dim_size x) red ->
    exists r, cx_jackknife_and_reduce K P c (Some red) rep_dim axis dim to_end = cx_with c r /\
      by_name 0%Qc (pk_unpack P) (fun env => of_opt EZeroDiv (mapM (fun row => p_push_data_scale K row (-(1))%Qc (given_at P md outer red env)) (rows_named P x [d] md env)))
        (result_dims to_end (x_dims x) d rd md) (result_size (dim_size x) rd (dim_size x d)) rd md r.
  Proof.
    intros HCh Nd Fr outer rd HG. eexists. unfold cx_jackknife_and_reduce. rewrite params_object. fold x. cbn [option_map]. split; [reflexivity|].
    pose proof (jackknife_given_named K ok P MA red rep_dim md axis dim d to_end x lm_object HCh Nd) as G. cbv zeta in G. destruct G as (G & _). destruct (G HG) as [G' _]. exact (G' Fr).
  Qed.
  (* several dimensions cannot be grouped *)
  Theorem reduce_object_groups_one_dim argsort axis ds by_ block first group_dim to_end keepdims :
    exists e, cx_reduce K P argsort c axis (Val (DSeq ds)) (Some by_) block first group_dim to_end keepdims = Raise e.
  Proof. unfold cx_reduce. cbn [rbind]. destruct (axis_marg axis) as [ax|e]; cbn; eexists; reflexivity. Qed.
  Theorem cumulative_object_named axis dim d to_end : chooses (List.length md) axis dim d x -> ~ In d md -> nonneg_named K P md x ->
    let row := fun env => firstn (S (env d)) (rows_named P x [d] md env) in
    along_object to_end d d (dim_size x d) (fun env => total K (row env) <> 0%Qc) (fun env a => reduce_data K (row env) = Some a) (cx_with c (cx_cumulative K P c axis dim to_end)).
  Proof.
    intros HCh Nd W row. pose proof (chooses_dim _ _ _ _ _ HCh) as Hd. unfold cx_cumulative. rewrite params_object. fold x.
    pose proof (cumulative_named K ok P MA false md axis dim d to_end x lm_object HCh Nd) as G. cbn beta iota in G.
    apply (object_along d Hd Nd d (or_introl eq_refl) (fun rows => of_opt EZeroDiv (cumulative K rows))).
    - eapply by_name_ext; [| |exact G]; [|reflexivity]. intros n _. unfold result_size. destruct (String.eqb_spec n d); congruence.
    - intros env He. destruct (cumulative_rows_are_prefix_reductions K ok (ma_kernel _ _ _ MA) _ (rows_nonneg d env Hd Nd W He)) as (rows & R1 & R2 & R3).
      exists rows. split; [now rewrite R1|]. intros b Hb HT. assert (Hk : env d < List.length rows) by (apply nth_error_Some; congruence).
      assert (X : reduce_data K (row env) = Some b). { apply (nth_error_nth _ _ (p_zero K)) in Hb. rewrite <- Hb. apply R3; [lia|exact HT]. }
      split; [|exact X]. eapply (reduce_is_ok K ok P MA); [|exact X]. apply Forall_firstn_, rows_all_ok.
  Qed.
End Objects.
