(* Coordinates of the results of reduce of objects that hold a DataArray (C174, C175). *)
From Coq Require Import String Permutation Sorted.
From Verif Require Import Base BaseLemmas ModelPush ModelKernels ModelIndex ModelAccum ModelAxes ModelState ModelSelect ModelParams ModelNd ModelWrap ModelLabel ModelOut ModelMethods ModelConstruct ModelMethodsX ModelShape ModelCoords
  Spec SpecAxes SpecNd SpecIndex PropLabelled PropNd SpecLabel SpecLabelTwo PropKernels PropLabelReduce Laws ProofAxes ProofArrays ProofNd PropParams ProofIndex ProofLabels PropIndex ProofLabel ProofLabelMany PropLabel PropLabelTwo
  PropMethodsXReduce SpecCoords PropCoords.
Local Open Scope string_scope.
Local Open Scope nat_scope.

(* the different labels of rows that are not skipped, in order *)
Definition sorted_labels {T} (leb : T -> T -> bool) (skip : T -> bool) (labels groups : list T) : Prop :=
  NoDup groups /\ StronglySorted (fun a b => leb a b = true) groups /\ forall v, In v groups <-> In v labels /\ skip v = false.
(* the positions of the labels among these; -1 for a label that is skipped *)
Definition label_codes {T} (skip : T -> bool) (labels groups : list T) (codes : list Z) : Prop :=
  Forall2 (fun v z => (skip v = true /\ z = (-1)%Z) \/ (skip v = false /\ exists k, z = Z.of_nat k /\ nth_error groups k = Some v)) labels codes.

Lemma hd_filter_first (f : nat -> bool) : forall n a, (exists i, a <= i < a + n /\ f i = true) ->
  let h := hd 0 (filter f (seq a n)) in a <= h < a + n /\ f h = true /\ forall j, a <= j < h -> f j = false.
Proof.
  induction n as [|n IH]; intros a (i & Hi & Fi) h; [lia|]. unfold h. cbn [seq filter]. destruct (f a) eqn:Fa.
  - cbn [hd]. split; [lia|]. split; [exact Fa|]. intros; lia.
  - destruct (IH (S a)) as (I1 & I2 & I3). { exists i. split; [|exact Fi]. destruct (Nat.eq_dec i a); [congruence|lia]. }
    split; [lia|]. split; [exact I2|]. intros j Hj. destruct (Nat.eq_dec j a) as [->|]; [exact Fa|]. apply I3. lia.
Qed.
Lemma last_filter_last (f : nat -> bool) : forall n a, (exists i, a <= i < a + n /\ f i = true) ->
  let h := last (filter f (seq a n)) 0 in a <= h < a + n /\ f h = true /\ forall j, h < j < a + n -> f j = false.
Proof.
  induction n as [|n IH]; intros a (i & Hi & Fi) h; [lia|]. unfold h. rewrite seq_S, filter_app. cbn [filter]. destruct (f (a + n)) eqn:Fa.
  - rewrite last_last. split; [lia|]. split; [exact Fa|]. intros; lia.
  - rewrite app_nil_r. destruct (IH a) as (I1 & I2 & I3). { exists i. split; [|exact Fi]. destruct (Nat.eq_dec i (a + n)); [congruence|lia]. }
    split; [lia|]. split; [exact I2|]. intros j Hj. destruct (Nat.eq_dec j (a + n)) as [->|]; [exact Fa|]. apply I3. lia.
Qed.
Lemma hd_map {B C} (f : B -> C) b l : l <> [] -> hd (f b) (map f l) = f (hd b l).
Proof. now destruct l. Qed.
Lemma last_map {B C} (f : B -> C) b l : last (map f l) (f b) = f (last l b).
Proof. induction l as [|a [|a' l] IH]; [reflexivity|reflexivity|]. exact IH. Qed.
Lemma hd_In {B} (b : B) l : l <> [] -> In (hd b l) l.
Proof. destruct l; [easy|]. intros _. now left. Qed.
Lemma last_In {B} (b : B) l : l <> [] -> In (last l b) l.
Proof. intros H. destruct (exists_last H) as (l' & a & ->). rewrite last_last. apply in_or_app. right. now left. Qed.

Lemma Forall2_nth_iff {B C} (R : B -> C -> Prop) d e : forall l l', Forall2 R l l' <-> List.length l = List.length l' /\ forall i, i < List.length l -> R (nth i l d) (nth i l' e).
Proof.
  induction l as [|a l IH]; intros [|b l']; split; intros H; try (inversion H; fail); try (split; [reflexivity|cbn; lia]); try (destruct H as [H _]; discriminate H); try apply Forall2_nil; try apply Forall2_cons.
  - inversion H; subst. apply IH in H5. destruct H5 as [L R']. split; [cbn; lia|]. intros [|i] Hi; [assumption|]. apply R'. cbn in Hi. lia.
  - exact (proj2 H 0 ltac:(cbn; lia)).
  - apply IH. destruct H as [L R']. split; [now injection L|]. intros i Hi. apply (R' (S i)). cbn. lia.
Qed.

Section Rows.
  Context {T : Type} (eqb leb : T -> T -> bool) (skip : T -> bool) (b0 : T).
  Hypothesis He : forall a b, eqb a b = true <-> a = b.
  Variable labels : list T.

  Lemma factor_labels groups codes : factor_by eqb leb skip true (map Some labels) = (groups, codes) -> label_codes skip labels groups codes /\
    NoDup groups /\ (forall v, In v groups <-> In v labels /\ skip v = false).
  Proof.
    intros E. destruct (factor_by_codes_and_groups eqb leb skip He true _ _ _ E) as (N & L & C1 & C2 & C3). rewrite map_length in L.
    assert (LC : label_codes skip labels groups codes).
    { apply (Forall2_nth_iff _ b0 (-1)%Z). split; [now rewrite L|]. intros i Hi. assert (Ei : nth_error (map Some labels) i = Some (Some (nth i labels b0))) by (rewrite nth_error_map, (nth_error_nth' labels b0 Hi); reflexivity).
      destruct (skip (nth i labels b0)) eqn:S.
      - left. split; [reflexivity|]. apply nth_error_nth. apply (C2 i _ Ei). right. eauto.
      - right. split; [reflexivity|]. destruct (C1 i _ Ei S) as (k & K1 & K2). exists k. split; [now apply nth_error_nth|exact K2]. }
    split; [exact LC|]. split; [exact N|]. intros v. split.
    - intros Hv. destruct (In_nth_error _ _ Hv) as (k & Hk). destruct (C3 k) as (i & Hi); [apply nth_error_Some; congruence|].
      assert (X : forall l c j, label_codes skip l groups c -> nth_error c j = Some (Z.of_nat k) -> In v l /\ skip v = false).
      { clear -Hk N. intros l c j F. revert j. induction F as [|u z l c H F IH]; intros [|j] Hj; try discriminate Hj; cbn [nth_error] in Hj.
        - injection Hj as ->. destruct H as [[_ Q]|(S & k' & Q & G)]; [lia|]. assert (k' = k) by lia. subst k'. rewrite Hk in G. injection G as <-. split; [now left|exact S].
        - destruct (IH j Hj). split; [now right|assumption]. }
      exact (X _ _ _ LC Hi).
    - intros [Hv S]. destruct (In_nth_error _ _ Hv) as (i & Hi). destruct (C1 i v) as (k & _ & K2); [now rewrite nth_error_map, Hi|exact S|]. eapply nth_error_In. exact K2.
  Qed.
  Lemma code_label groups codes i k : label_codes skip labels groups codes -> NoDup groups -> (forall v, In v groups <-> In v labels /\ skip v = false) -> i < List.length labels -> k < List.length groups ->
    (nth i codes (-1)%Z = Z.of_nat k <-> nth i labels b0 = nth k groups b0).
  Proof.
    intros F N G Hi Hk. apply (Forall2_nth_iff _ b0 (-1)%Z) in F. destruct F as [L F]. specialize (F i Hi). destruct F as [[S Q]|(S & k' & Q & Gk)].
    - split; intros X; [lia|]. exfalso. assert (In (nth k groups b0) groups) by now apply nth_In. apply G in H. rewrite <- X in H. destruct H. congruence.
    - pose proof (nth_error_nth _ _ b0 Gk) as Gn. assert (k' < List.length groups) by (apply nth_error_Some; congruence). split; intros X.
      + assert (k' = k) by lia. subst k'. now rewrite Gn.
      + assert (k' = k); [|lia]. rewrite <- Gn in X. apply (proj1 (NoDup_nth groups b0) N) in X; auto.
  Qed.
  Lemma label_rows argsort groups index start end_ : sorts argsort -> factor_by_to_index eqb leb skip argsort (map Some labels) = ((groups, index), (start, end_)) ->
    List.length start = List.length groups /\ forall k, k < List.length groups ->
      let g := slice (Z.to_nat (nth k start 0%Z)) (Z.to_nat (nth k end_ 0%Z)) index in
      (nth k start 0 < nth k end_ 0)%Z /\
      (let r := Z.to_nat (hd 0%Z g) in r < List.length labels /\ nth r labels b0 = nth k groups b0 /\ (stable argsort -> first_of b0 (nth k groups b0) labels r)) /\
      (let r := Z.to_nat (last g 0%Z) in r < List.length labels /\ nth r labels b0 = nth k groups b0 /\ (stable argsort -> last_of b0 (nth k groups b0) labels r)).
  Proof.
    intros Hs Ef. destruct (factor_by_to_index_partition eqb leb skip He argsort Hs _ _ _ _ _ Ef) as (E1 & E2 & E3 & _ & E5).
    set (codes := snd (factor_by eqb leb skip true (map Some labels))) in *. assert (E : factor_by eqb leb skip true (map Some labels) = (groups, codes)) by (unfold codes; rewrite E1; now destruct (factor_by _ _ _ _ _)).
    destruct (factor_labels groups codes E) as (F & N & G). assert (L : List.length codes = List.length labels) by (symmetry; exact (proj1 (proj1 (Forall2_nth_iff _ b0 (-1)%Z _ _) F))).
    split; [exact E2|]. intros k Hk g. destruct (E5 k Hk) as (B1 & B2 & _ & _ & Pm & St). fold g in Pm, St. split; [lia|].
    assert (At : forall i, In i (at_code codes k) -> i < List.length labels /\ nth i labels b0 = nth k groups b0).
    { intros i Hi. unfold at_code in Hi. apply filter_In in Hi. destruct Hi as [I1 I2]. apply in_seq in I1. apply Z.eqb_eq in I2. split; [lia|]. apply (code_label groups codes i k F N G); [lia|exact Hk|exact I2]. }
    assert (Ne : g <> []). { intros Q. apply (f_equal (@List.length Z)) in Q. unfold g, slice in Q. rewrite firstn_length_le in Q by (rewrite skipn_length; lia). cbn in Q. lia. }
    assert (Ng : forall z, In z g -> Z.to_nat z < List.length labels /\ nth (Z.to_nat z) labels b0 = nth k groups b0).
    { intros z Hz. apply (Permutation_in _ Pm) in Hz. apply in_map_iff in Hz. destruct Hz as (i & <- & Hi). rewrite Nat2Z.id. now apply At. }
    assert (Na : at_code codes k <> []). { intros Q. rewrite Q in Pm. apply Permutation_sym, Permutation_nil in Pm. contradiction. }
    assert (Ex : exists i, 0 <= i < 0 + List.length codes /\ (nth i codes (-1) =? Z.of_nat k)%Z = true).
    { destruct (at_code codes k) as [|i l] eqn:Q; [easy|]. exists i. assert (I : In i (at_code codes k)) by (rewrite Q; now left). unfold at_code in I. apply filter_In in I. destruct I as [I1 I2]. apply in_seq in I1. split; [lia|exact I2]. }
    split.
    - intros r. destruct (Ng (hd 0%Z g) (hd_In _ _ Ne)) as [R1 R2]. split; [exact R1|]. split; [exact R2|]. intros S. split; [exact R1|]. split; [exact R2|]. intros j Hj Q.
      unfold r in Hj. rewrite (St S) in Hj. change 0%Z with (Z.of_nat 0) in Hj. rewrite (hd_map Z.of_nat 0 _ Na), Nat2Z.id in Hj.
      destruct (hd_filter_first _ _ _ Ex) as (H1 & _ & H3). fold (at_code codes k) in H1, H3. specialize (H3 j (conj (Nat.le_0_l j) Hj)). cbv beta in H3. apply Z.eqb_neq in H3. apply H3. apply (code_label groups codes j k F N G); [lia|exact Hk|exact Q].
    - intros r. destruct (Ng (last g 0%Z) (last_In _ _ Ne)) as [R1 R2]. split; [exact R1|]. split; [exact R2|]. intros S. split; [exact R1|]. split; [exact R2|]. intros j Hj Q.
      unfold r in Hj. rewrite (St S) in Hj. change 0%Z with (Z.of_nat 0) in Hj. rewrite last_map, Nat2Z.id in Hj.
      destruct (last_filter_last _ _ _ Ex) as (H1 & _ & H3). fold (at_code codes k) in H1, H3. specialize (H3 j ltac:(lia)). cbv beta in H3. apply Z.eqb_neq in H3. apply H3. apply (code_label groups codes j k F N G); [lia|exact Hk|exact Q].
  Qed.
End Rows.

(* the codes of labels are labels with the same rows *)
Lemma strongly_sorted_seq : forall n st, StronglySorted Z.lt (map Z.of_nat (seq st n)).
Proof. induction n as [|n IH]; intros st; cbn; constructor; [apply IH|]. apply Forall_forall. intros z Hz. apply in_map_iff in Hz. destruct Hz as (k & <- & Hk). apply in_seq in Hk. lia. Qed.
Lemma recode {T} (eqb leb : T -> T -> bool) skip (b0 : T) labels groups codes : (forall a b, eqb a b = true <-> a = b) ->
  factor_by eqb leb skip true (map Some labels) = (groups, codes) ->
  factor_by Z.eqb Z.leb (fun v => (v <? 0)%Z) true (int_labels codes) = (map Z.of_nat (seq 0 (List.length groups)), codes).
Proof.
  intros He E. destruct (factor_labels eqb leb skip b0 He labels groups codes E) as (F & N & G). destruct (factor_by_codes_and_groups eqb leb skip He true _ _ _ E) as (_ & _ & _ & _ & C3).
  destruct (factor_by Z.eqb Z.leb (fun v => (v <? 0)%Z) true (int_labels codes)) as [g2 c2] eqn:E2.
  destruct (factor_labels Z.eqb Z.leb (fun v => (v <? 0)%Z) 0%Z Z.eqb_eq codes g2 c2 E2) as (F2 & N2 & G2).
  assert (S2 : StronglySorted Z.lt g2).
  { apply sorted_lt; [|exact N2]. replace g2 with (fst (factor_by Z.eqb Z.leb (fun v => (v <? 0)%Z) true (int_labels codes))) by now rewrite E2. apply factor_by_sorted_groups; intros a b; [rewrite !Z.leb_le; lia|intros c; rewrite !Z.leb_le; lia]. }
  assert (RC : forall z, In z codes -> z = (-1)%Z \/ exists k, z = Z.of_nat k /\ k < List.length groups).
  { clear -F. induction F as [|v z l c H _ IH]; intros z' Hz; [destruct Hz|]. destruct Hz as [<-|Hz]; [|now apply IH]. destruct H as [[_ Q]|(_ & k & Q & K)]; [now left|]. right. exists k. split; [exact Q|]. apply nth_error_Some. congruence. }
  assert (Eg : g2 = map Z.of_nat (seq 0 (List.length groups))).
  { apply sorted_unique; [exact S2|apply strongly_sorted_seq|]. intros v. rewrite G2, in_map_iff. split.
    - intros [Hv Pv]. apply Z.ltb_ge in Pv. destruct (RC v Hv) as [Q|(k & Q & K)]; [lia|]. exists k. split; [lia|]. apply in_seq. lia.
    - intros (k & <- & Hk). apply in_seq in Hk. destruct (C3 k) as (i & Hi); [lia|]. split; [eapply nth_error_In; exact Hi|]. apply Z.ltb_ge. lia. }
  f_equal; [exact Eg|]. rewrite Eg in F2. clear -F2 RC. unfold label_codes in F2. induction F2 as [|v z l c H _ IH]; [reflexivity|].
  f_equal; [|apply IH; intros; apply RC; now right]. destruct H as [[Q ->]|(_ & k & -> & K)].
  - destruct (RC v (or_introl eq_refl)) as [->|(k & -> & _)]; [reflexivity|]. apply Z.ltb_lt in Q. lia.
  - assert (L : k < List.length groups) by (rewrite <- (seq_length (List.length groups) 0), <- (map_length Z.of_nat); apply nth_error_Some; congruence).
    apply (nth_error_nth _ _ 0%Z) in K. rewrite (nth_map_in _ _ _ _ 0) in K by (now rewrite seq_length). rewrite seq_nth in K by exact L. cbn in K. now symmetry.
Qed.
Lemma recode_index {T} (eqb leb : T -> T -> bool) skip (b0 : T) argsort labels groups index se : (forall a b, eqb a b = true <-> a = b) ->
  factor_by_to_index eqb leb skip argsort (map Some labels) = ((groups, index), se) ->
  let codes := snd (factor_by eqb leb skip true (map Some labels)) in
  factor_by_to_index Z.eqb Z.leb (fun v => (v <? 0)%Z) argsort (int_labels codes) = ((map Z.of_nat (seq 0 (List.length groups)), index), se).
Proof.
  intros He E codes. unfold factor_by_to_index in *. destruct (factor_by eqb leb skip true (map Some labels)) as [g c] eqn:Ef. unfold codes. cbn [snd].
  rewrite (recode eqb leb skip b0 labels g c He Ef). injection E as <- <- <-. reflexivity.
Qed.

Section Object.
  Context {T : Type} (dflt : T) {A V : Type} (K : pusher A V) (ok : A -> Prop) (P : packer A).
  Hypothesis MA : moment_array K ok P.
  Context (c : cmdata) (md : list sname) (cs : coords T).
  Hypothesis HC : xholds c md.
  Let x := cx_obj c.
  Hypothesis HS : map (dim_size x) md = pk_shape P.
  Hypothesis HD : coords_of x cs.
  Context (eqb leb : T -> T -> bool) (skip : T -> bool) (of_nat : nat -> T).
  Variable argsort : list Z -> list nat.
  Hypothesis Hs : sorts argsort.
  Context (axis : raxis) (dim : marg dims_arg) (d : sname).
  Hypothesis HA : along (List.length md) axis dim d x.
  Hypothesis Nd : ~ In d md.
  Context (gd : option sname).
  Let rd := renamed d gd.
  Hypothesis Fr : free_coord cs d rd.
  Local Notation neg := (fun v => (v <? 0)%Z).

  (* the coordinates of the result are taken at rows with the labels of the groups *)
  Definition chosen_rows {L} (l0 : L) (labels groups : list L) (best : L -> nat -> Prop) (r : res (cmdata * coords T)) (values : res cmdata) : Prop :=
    exists cs' row, taken dflt x d rd (List.length groups) row cs cs' /\
      (forall k, k < List.length groups -> row k < List.length labels /\ nth (row k) labels l0 = nth k groups l0 /\ (stable argsort -> best (nth k groups l0) (row k))) /\
      r = rmap (fun o => (o, cs')) values.

  Lemma rows_chosen {L} (leqb lleb : L -> L -> bool) lskip (l0 : L) labels groups index start end_ lab ax dd to_end : (forall a b, leqb a b = true <-> a = b) ->
    factor_by_to_index leqb lleb lskip argsort (map Some labels) = ((groups, index), (start, end_)) -> validate_index (dim_size x d) index start end_ = Ok tt -> chooses (List.length md) ax dd d x ->
    let f := fun '(g, cs') => (CX (to_xarr g) (cx_params c), cs') in
    let values := cx_with c (x_reduce_data_indexed K P (params_for md) index start end_ None gd ax dd to_end x) in
    chosen_rows l0 labels groups (fun v i => first_of l0 v labels i) (rmap f (xc_reduce_data_indexed dflt K P (params_for md) index start end_ None PFirst lab gd ax dd to_end x cs)) values /\
    chosen_rows l0 labels groups (fun v i => last_of l0 v labels i) (rmap f (xc_reduce_data_indexed dflt K P (params_for md) index start end_ None PLast lab gd ax dd to_end x cs)) values.
  Proof.
    intros He Ef Ev HCh f values. destruct (label_rows leqb lleb lskip l0 He labels argsort groups index start end_ Hs Ef) as (Ll & R).
    destruct (indexed_coords dflt K P md index start end_ None lab gd ax dd d to_end x cs (proj1 (proj2 (proj1 HC))) HCh Nd HD Fr Ev) as ((c1 & T1 & E1) & (c2 & T2 & E2)).
    { intros k Hk. apply R. now rewrite <- Ll. }
    rewrite Ll in T1, T2. rewrite E1, E2. split; [exists c1|exists c2]; eexists; (split; [eassumption|]); split.
    - intros k Hk. apply R. exact Hk.
    - unfold values, cx_with. destruct (x_reduce_data_indexed K P (params_for md) index start end_ None gd ax dd to_end x); reflexivity.
    - intros k Hk. apply R. exact Hk.
    - unfold values, cx_with. destruct (x_reduce_data_indexed K P (params_for md) index start end_ None gd ax dd to_end x); reflexivity.
  Qed.
  Let params : cx_params c = params_for md.
  Proof. exact (params_object c md HC). Qed.

  (* C174 *)
  Theorem reduce_by_integers_coords by_ groups block lab to_end keepdims : List.length by_ = dim_size x d -> by_ <> [] -> distinct_labels by_ groups ->
    let r := fun pol => cxc_reduce dflt K P eqb leb skip of_nat argsort c cs axis dim (Some (ByCodes by_)) block pol lab gd to_end keepdims in
    let values := cx_reduce K P argsort c axis dim (Some by_) block true gd to_end keepdims in
    chosen_rows 0%Z by_ groups (fun v i => first_of 0%Z v by_ i) (r PFirst) values /\ chosen_rows 0%Z by_ groups (fun v i => last_of 0%Z v by_ i) (r PLast) values.
  Proof.
    intros L Hne HG r values. destruct (along_chooses _ _ _ _ _ HA) as (ax & dd & E1 & E2 & HCh).
    destruct (factor_by_to_index Z.eqb Z.leb neg argsort (int_labels by_)) as [[groups' index] [start end_]] eqn:Ef.
    destruct (label_facts argsort Hs by_ groups' index start end_ Ef) as (HG' & Ls & _).
    assert (Eg : groups' = groups). { apply sorted_unique; [apply HG'|apply HG|]. intros v. rewrite (proj2 HG' v), (proj2 HG v). tauto. } subst groups'.
    pose proof (index_valid K ok P MA argsort by_ groups index start end_ _ Hs Hne L Ef) as Vi.
    unfold r, values, cxc_reduce, cx_reduce. cbn [rbind]. rewrite E1, E2. cbn [rbind]. rewrite Ef, params. cbn [rbind].
    pose proof (rows_chosen Z.eqb Z.leb neg 0%Z by_ groups index start end_ lab ax dd to_end Z.eqb_eq Ef Vi HCh) as X. cbv zeta in X. rewrite params in X. exact X.
  Qed.

  (* the labels of a coordinate along d, or of a dimension without one *)
  Definition labels_named (name : sname) (labels : list T) : Prop :=
    (exists co, In (name, co) cs /\ co_dims co = [d] /\ gdata (co_val co) = labels) \/ (name = d /\ ~ In d (map fst cs) /\ labels = map of_nat (seq 0 (dim_size x d))).
  Lemma labels_found name labels : labels_named name labels -> coord_labels of_nat name x cs = Ok labels.
  Proof.
    unfold coord_labels. intros [(co & I & E1 & E2)|(-> & Nn & ->)].
    - destruct (find (fun c0 => String.eqb (fst c0) name) cs) as [[n' co']|] eqn:F.
      + apply find_some in F. destruct F as [F1 F2]. cbn [fst] in F2. apply String.eqb_eq in F2. subst n'.
        assert (co' = co). { destruct HD as [N _]. clear -N F1 I. induction cs as [|[n q] l IH]; [destruct I|]. inversion N; subst. cbn [fst] in *. destruct I as [I|I], F1 as [F1|F1]; try congruence; [injection I as -> ->; elim H1; apply (in_map fst) in F1; exact F1|injection F1 as -> ->; elim H1; apply (in_map fst) in I; exact I|now apply IH]. }
        subst co'. cbn [snd]. rewrite E1. cbn [List.length Nat.eqb]. now rewrite E2.
      + exfalso. pose proof (find_none _ _ F _ I) as Q. cbn [fst] in Q. rewrite String.eqb_refl in Q. discriminate Q.
    - destruct (find (fun c0 => String.eqb (fst c0) d) cs) as [[n' co']|] eqn:F.
      + exfalso. apply find_some in F. destruct F as [F1 F2]. cbn [fst] in F2. apply String.eqb_eq in F2. subst n'. apply Nn. apply (in_map fst) in F1. exact F1.
      + destruct (along_chooses _ _ _ _ _ HA) as (ax & dd & _ & _ & HCh). now rewrite (sizes_named x d (chooses_dim _ _ _ _ _ HCh)).
  Qed.

  (* C175 *)
  Theorem reduce_by_name_coords name labels : (forall a b, eqb a b = true <-> a = b) -> (forall a b, leb a b = true \/ leb b a = true) -> (forall a b e, leb a b = true -> leb b e = true -> leb a e = true) ->
    labels_named name labels -> List.length labels = dim_size x d -> labels <> [] ->
    exists groups codes, sorted_labels leb skip labels groups /\ label_codes skip labels groups codes /\
      forall block to_end keepdims,
        let r := fun pol lab => cxc_reduce dflt K P eqb leb skip of_nat argsort c cs axis dim (Some (ByCoord name)) block pol lab gd to_end keepdims in
        let values := fun first => cx_reduce K P argsort c axis dim (Some codes) block first gd to_end keepdims in
        (forall lab, chosen_rows dflt labels groups (fun v i => first_of dflt v labels i) (r PFirst lab) (values true) /\ chosen_rows dflt labels groups (fun v i => last_of dflt v labels i) (r PLast lab) (values true)) /\
        (forall pol, pol = PGroup \/ pol = PNone -> exists cs', labelled_by [d] rd groups cs cs' /\ r pol None = rmap (fun o => (o, cs')) (values false)) /\
        (forall pol lab, pol = PGroup \/ pol = PNone -> List.length lab = List.length groups -> exists cs', labelled_by [d] rd lab cs cs' /\ r pol (Some lab) = rmap (fun o => (o, cs')) (values false)).
  Proof.
    intros He Ht Htr HN Ll Hne. destruct (along_chooses _ _ _ _ _ HA) as (ax & dd & E1 & E2 & HCh).
    destruct (factor_by eqb leb skip true (map Some labels)) as [groups codes] eqn:E. exists groups, codes.
    destruct (factor_labels eqb leb skip dflt He labels groups codes E) as (F & N & G).
    assert (Lc : List.length codes = List.length labels) by (symmetry; exact (proj1 (proj1 (Forall2_nth_iff _ dflt (-1)%Z _ _) F))).
    assert (Hnc : codes <> []) by (intros Q; subst codes; destruct labels; [easy|discriminate Lc]).
    split. { split; [exact N|]. split; [|exact G]. replace groups with (fst (factor_by eqb leb skip true (map Some labels))) by now rewrite E. now apply factor_by_sorted_groups. }
    split; [exact F|]. intros block to_end keepdims r values.
    assert (Unfold : forall lab pol, pol = PGroup \/ pol = PNone -> r pol lab = rmap (fun '(g, cs') => (CX (to_xarr g) (params_for md), cs'))
       (xc_reduce_data_grouped K P (params_for md) codes (match lab with None => Some groups | _ => lab end) gd ax dd to_end x cs)).
    { intros lab pol Hp. unfold r, cxc_reduce. fold x. destruct Hp as [-> | ->]; cbn [rbind]; rewrite E1, E2, params; cbn [rbind]; rewrite (labels_found name labels HN); cbn [rmap rbind]; rewrite E; reflexivity. }
    assert (Grouped : forall pol lab lab', pol = PGroup \/ pol = PNone -> lab' = match lab with None => groups | Some l => l end -> List.length lab' = List.length groups ->
       exists cs', labelled_by [d] rd lab' cs cs' /\ r pol lab = rmap (fun o => (o, cs')) (values false)).
    { intros pol lab lab' Hp El L'. rewrite (Unfold lab pol Hp). replace (match lab with None => Some groups | _ => lab end) with (Some lab') by (destruct lab; now rewrite El).
      destruct (factor_by_codes_and_groups eqb leb skip He true _ _ _ E) as (_ & _ & _ & _ & C3).
      assert (HZ : zmax_of (Z.of_nat (List.length groups) - 1) codes).
      { assert (Up : Forall (fun z => (z <= Z.of_nat (List.length groups) - 1)%Z) codes).
        { clear -F. induction F as [|v z l c' H _ IH]; constructor; [|exact IH]. destruct H as [[_ ->]|(_ & k & -> & Kk)]; [lia|]. assert (k < List.length groups) by (apply nth_error_Some; congruence). lia. }
        split; [|exact Up]. destruct (List.length groups) as [|n] eqn:Lg.
        - destruct groups; [|discriminate Lg]. destruct codes as [|z codes']; [easy|]. inversion F as [|v z' l c' H]; subst. left. destruct H as [[_ ->]|(_ & k & _ & Kk)]; [reflexivity|]. destruct k; discriminate Kk.
        - destruct (C3 n ltac:(lia)) as (i & Hi). apply nth_error_In in Hi. replace (Z.of_nat (S n) - 1)%Z with (Z.of_nat n) by lia. exact Hi. }
      destruct (named_groups_coords dflt K P md x cs (proj1 (proj2 (proj1 HC))) HD ax dd d HCh Nd ok lab' gd to_end MA (lm_object P c md HC HS) Fr) as [X _].
      destruct (X codes _ HZ ltac:(lia) ltac:(lia)) as [X1 _]. destruct X1 as (cs' & R1 & R2); [lia|]. exists cs'. split; [exact R1|]. rewrite R2.
      unfold values, cx_reduce, cx_with. cbn [rbind]. rewrite E1, E2, params. cbn [rbind]. fold x. destruct (x_reduce_data_grouped K P (params_for md) codes gd ax dd to_end x); reflexivity. }
    split; [|split; [intros pol Hp; now apply (Grouped pol None)|intros pol lab Hp L'; now apply (Grouped pol (Some lab))]].
    intros lab. destruct (factor_by_to_index eqb leb skip argsort (map Some labels)) as [[groups' index] [start end_]] eqn:Ef.
    pose proof (recode_index eqb leb skip dflt argsort labels groups' index (start, end_) He Ef) as Er. cbv zeta in Er. rewrite E in Er. cbn [snd] in Er.
    assert (groups' = groups). { unfold factor_by_to_index in Ef. rewrite E in Ef. now injection Ef. } subst groups'.
    pose proof (index_valid K ok P MA argsort codes _ index start end_ _ Hs Hnc (eq_trans Lc Ll) Er) as Vi.
    unfold r, values, cxc_reduce, cx_reduce. cbn [rbind]. fold x. rewrite E1, E2. cbn [rbind]. rewrite Er, params, (labels_found name labels HN). cbn [rmap rbind]. rewrite Ef. cbn [rbind].
    pose proof (rows_chosen eqb leb skip dflt labels groups index start end_ lab ax dd to_end He Ef Vi HCh) as X. cbv zeta in X. rewrite params in X. exact X.
  Qed.
  (* the labels of another array *)
  Theorem reduce_by_unknown_name name block pol lab to_end keepdims : ~ In name (map fst cs) -> ~ In name (x_dims x) -> exists e, cxc_reduce dflt K P eqb leb skip of_nat argsort c cs axis dim (Some (ByCoord name)) block pol lab gd to_end keepdims = Raise e /\ e = EKey.
  Proof.
    intros N1 N2. exists EKey. split; [|reflexivity]. destruct (along_chooses _ _ _ _ _ HA) as (ax & dd & E1 & E2 & HCh).
    assert (E : coord_labels of_nat name x cs = Raise EKey).
    { unfold coord_labels. destruct (find (fun c0 => String.eqb (fst c0) name) cs) as [[n' co']|] eqn:F.
      - exfalso. apply find_some in F. destruct F as [F1 F2]. cbn [fst] in F2. apply String.eqb_eq in F2. subst n'. apply N1. apply (in_map fst) in F1. exact F1.
      - destruct (sizes (x_dims x) (x_shape x) name) eqn:S; [|reflexivity]. exfalso. apply N2. unfold sizes in S. destruct (smem name (x_dims x)) eqn:Q; [now apply smem_In|discriminate S]. }
    unfold cxc_reduce. fold x. rewrite E1, E2. cbn [rbind]. rewrite E. destruct pol; reflexivity.
  Qed.

  (* C176: blocks *)
  Theorem reduce_blocks_coords block to_end keepdims : 0 < block <= dim_size x d ->
    let nb := dim_size x d / block in
    let r := fun pol lab => cxc_reduce dflt K P eqb leb skip of_nat argsort c cs axis dim None (Some (Z.of_nat block)) pol lab gd to_end keepdims in
    let values := fun first => cx_reduce K P argsort c axis dim None (Some (Z.of_nat block)) first gd to_end keepdims in
    let at_ := fun pol pos => forall lab, exists cs' row, taken dflt x d rd nb row cs cs' /\
      (forall k, k < nb -> block * k <= row k < block * k + block /\ (stable argsort -> row k = pos k)) /\ r pol lab = rmap (fun o => (o, cs')) (values true) in
    at_ PFirst (fun k => block * k) /\ at_ PLast (fun k => block * k + (block - 1)) /\
    (forall pol, pol = PGroup \/ pol = PNone -> exists cs', labelled_by [d] rd (map of_nat (seq 0 nb)) cs cs' /\ r pol None = rmap (fun o => (o, cs')) (values false)) /\
    (forall pol lab, pol = PGroup \/ pol = PNone -> lab <> [] -> List.length lab = nb -> exists cs', labelled_by [d] rd lab cs cs' /\ r pol (Some lab) = rmap (fun o => (o, cs')) (values false)).
  Proof.
    intros Hb nb r values at_. set (n := dim_size x d) in *. destruct (drop_codes n block Hb) as [HZ HG]. pose proof (Nat.div_str_pos n block ltac:(lia)) as Qp. fold nb in HZ, HG, Qp.
    pose proof (Nat.div_mod n block ltac:(lia)) as DM. pose proof (Nat.mod_upper_bound n block ltac:(lia)) as MU. fold nb in DM.
    set (codes := map (drop_code n block) (seq 0 n)) in *. assert (Lb : List.length codes = n) by (unfold codes; now rewrite map_length, seq_length).
    assert (Ne : codes <> []) by (intros X; rewrite X in Lb; cbn in Lb; lia).
    assert (Eb : cx_block_by c (Z.of_nat block) axis dim = Ok codes).
    { rewrite (block_by_named c md HC axis dim d _ HA Nd). fold x n. rewrite block_by_codes by (try exact Hb; unfold block_mode; cbn; auto). reflexivity. }
    assert (Ez : zmax codes = Ok (Z.of_nat nb - 1)%Z).
    { destruct (zmax_ok codes Ne) as (m' & E & M1 & M2). rewrite E. f_equal. destruct HZ as [M3 M4]. rewrite Forall_forall in M2, M4. specialize (M2 _ M3). specialize (M4 m' M1). lia. }
    assert (Ev : forall first, values first = cx_reduce K P argsort c axis dim (Some codes) None first gd to_end keepdims) by (intros first; unfold values, cx_reduce; rewrite Eb; reflexivity).
    assert (El : forall lab, exists lab', forall pol, r pol lab = cxc_reduce dflt K P eqb leb skip of_nat argsort c cs axis dim (Some (ByCodes codes)) None pol lab' gd to_end keepdims).
    { intros lab. eexists. intros pol. unfold r, cxc_reduce. rewrite Eb. cbn [rbind]. rewrite Ez. cbn [rbind]. reflexivity. }
    assert (Cd : forall i, i < n -> nth i codes 0%Z = drop_code n block i) by (intros i Hi; unfold codes; rewrite (nth_map_in _ _ _ _ 0) by (now rewrite seq_length); now rewrite seq_nth).
    assert (Hit : forall k i, k < nb -> i < n -> (nth i codes 0%Z = Z.of_nat k <-> block * k <= i < block * k + block)).
    { intros k i Hk Hi. rewrite (Cd i Hi). unfold drop_code. destruct (Nat.ltb_spec i (n - n mod block)) as [C|C].
      - split; intros G.
        + apply Nat2Z.inj in G. pose proof (Nat.div_mod i block ltac:(lia)) as DI. pose proof (Nat.mod_upper_bound i block ltac:(lia)) as MI. rewrite G in DI. lia.
        + f_equal. symmetry. apply (Nat.div_unique i block k (i - block * k)); lia.
      - split; intros G; [lia|]. exfalso. nia. }
    assert (Lg : List.length (map Z.of_nat (seq 0 nb)) = nb) by now rewrite map_length, seq_length.
    assert (Ng : forall k, k < nb -> nth k (map Z.of_nat (seq 0 nb)) 0%Z = Z.of_nat k) by (intros k Hk; rewrite (nth_map_in _ _ _ _ 0) by (now rewrite seq_length); now rewrite seq_nth).
    split; [|split].
    - intros lab. destruct (El lab) as (lab' & Er). rewrite (Er PFirst), Ev. destruct (reduce_by_integers_coords codes _ None lab' to_end keepdims Lb Ne HG) as [(cs' & row & T1 & R & E) _]. rewrite Lg in T1, R.
      exists cs', row. split; [exact T1|]. split; [|exact E]. intros k Hk. destruct (R k Hk) as (R1 & R2 & R3). rewrite (Ng k Hk) in R2, R3. rewrite Lb in R1. apply (Hit k _ Hk R1) in R2. split; [exact R2|]. intros S. destruct (R3 S) as (_ & _ & F).
      destruct (Nat.eq_dec (row k) (block * k)) as [|Q]; [assumption|]. exfalso. apply (F (block * k) ltac:(lia)). apply Hit; nia.
    - intros lab. destruct (El lab) as (lab' & Er). rewrite (Er PLast), Ev. destruct (reduce_by_integers_coords codes _ None lab' to_end keepdims Lb Ne HG) as [_ (cs' & row & T1 & R & E)]. rewrite Lg in T1, R.
      exists cs', row. split; [exact T1|]. split; [|exact E]. intros k Hk. destruct (R k Hk) as (R1 & R2 & R3). rewrite (Ng k Hk) in R2, R3. rewrite Lb in R1. apply (Hit k _ Hk R1) in R2. split; [exact R2|]. intros S. destruct (R3 S) as (_ & _ & F).
      destruct (Nat.eq_dec (row k) (block * k + (block - 1))) as [|Q]; [assumption|]. exfalso. apply (F (block * k + (block - 1))); [rewrite Lb; nia|]. apply Hit; nia.
    - assert (X : forall pol lab lab', pol = PGroup \/ pol = PNone -> match lab with Some (_ :: _) => lab | _ => Some (map of_nat (seq 0 nb)) end = Some lab' -> List.length lab' = nb ->
        exists cs', labelled_by [d] rd lab' cs cs' /\ r pol lab = rmap (fun o => (o, cs')) (values false)).
      { intros pol lab lab' Hp Elab L'. destruct (along_chooses _ _ _ _ _ HA) as (ax & dd & E1 & E2 & HCh).
        destruct (named_groups_coords dflt K P md x cs (proj1 (proj2 (proj1 HC))) HD ax dd d HCh Nd ok lab' gd to_end MA (lm_object P c md HC HS) Fr) as [Y _].
        destruct (Y codes _ HZ ltac:(lia) Lb) as [Y1 _]. destruct Y1 as (cs' & R1 & R2); [lia|]. exists cs'. split; [exact R1|]. rewrite Ev. unfold r, cxc_reduce, cx_reduce, cx_with. rewrite Eb. cbn [rbind]. rewrite Ez. cbn [rbind].
        replace (Z.to_nat (Z.of_nat nb - 1 + 1)) with nb by lia. rewrite Elab, E1, E2, params. cbn [rbind]. fold x. destruct Hp as [-> | ->]; rewrite R2; destruct (x_reduce_data_grouped K P (params_for md) codes gd ax dd to_end x); reflexivity. }
      split; [intros pol Hp; apply (X pol None); [exact Hp|reflexivity|now rewrite map_length, seq_length]|intros pol lab Hp Hn Hl; apply (X pol (Some lab)); [exact Hp|now destruct lab|exact Hl]].
  Qed.
End Object.

(* without groups *)
Theorem reduce_whole_coords : forall {T} (dflt : T) {A V} (K : pusher A V) (P : packer A) c md (cs : coords T) eqb leb skip of_nat argsort axis dim (ds : list sname) pol lab gd to_end keepdims,
  xholds c md -> coords_of (cx_obj c) cs -> chooses_many md (many_axes axis) dim ds (cx_obj c) ->
  exists cs', without ds cs cs' /\ cxc_reduce dflt K P eqb leb skip of_nat argsort c cs axis dim None None pol lab gd to_end keepdims =
    rmap (fun o => (o, cs')) (cx_reduce K P argsort c axis dim None None true gd to_end keepdims).
Proof.
  intros T dflt A V K P c md cs eqb leb skip of_nat argsort axis dim ds pol lab gd to_end keepdims HC HD H. pose proof (params_object c md HC) as Ep.
  destruct (reduced_coords K P md (cx_obj c) cs (proj1 (proj2 (proj1 HC))) HD (many_axes axis) dim ds keepdims false H) as (cs' & R1 & R2). exists cs'. split; [exact R1|].
  unfold cxc_reduce, cx_reduce, cx_with. cbn [rbind]. rewrite Ep, R2. destruct (x_reduce_data K P (params_for md) (many_axes axis) dim keepdims false (cx_obj c)); reflexivity.
Qed.

(* C177: sel is isel at the positions of the labels *)
Theorem sel_is_isel : forall {T} (eqb : T -> T -> bool), (forall a b, eqb a b = true <-> a = b) -> forall c d index, NoDup index ->
  (forall i label, nth_error index i = Some label -> cx_sel_at eqb c d index label = cx_isel c [(d, IAt (Z.of_nat i))]) /\
  (forall label, ~ In label index -> cx_sel_at eqb c d index label = Raise EKey) /\
  (forall is labels, Forall2 (fun i label => nth_error index i = Some label) is labels -> cx_sel_list eqb c d index labels = cx_isel c [(d, IList (map Z.of_nat is))]) /\
  (forall labels, ~ incl labels index -> cx_sel_list eqb c d index labels = Raise EKey).
Proof.
  intros T eqb He c d index N. 
  assert (Hit : forall i label, nth_error index i = Some label -> existsb (eqb label) index = true /\ position eqb label index = i).
  { intros i label H. split; [apply existsb_exists; exists label; split; [now apply nth_error_In in H|now apply He]|]. now apply (ProofLabels.position_nth eqb He index N). }
  assert (Mis : forall label, ~ In label index -> existsb (eqb label) index = false).
  { intros label H. apply not_true_is_false. intros Q. apply existsb_exists in Q. destruct Q as (y & Hy & Q). apply He in Q. subst y. contradiction. }
  split; [|split; [|split]].
  - intros i label H. destruct (Hit i label H) as [E1 E2]. unfold cx_sel_at, sel_positions. cbn [mapR]. rewrite E1, E2. reflexivity.
  - intros label H. unfold cx_sel_at, sel_positions. cbn [mapR]. rewrite (Mis label H). reflexivity.
  - intros is labels F. assert (E : sel_positions eqb index labels = Ok (map Z.of_nat is)).
    { unfold sel_positions. induction F as [|i label is labels H _ IH]; [reflexivity|]. destruct (Hit i label H) as [E1 E2]. cbn [mapR]. rewrite E1, E2. cbn [rbind]. rewrite IH. reflexivity. }
    unfold cx_sel_list. rewrite E. reflexivity.
  - intros labels H. assert (E : sel_positions eqb index labels = Raise EKey).
    { unfold sel_positions. induction labels as [|l labels IH]; [elim H; intros a []|]. cbn [mapR]. destruct (existsb (eqb l) index) eqn:Q; [|reflexivity]. cbn [rbind]. rewrite IH; [reflexivity|].
      intros I. apply H. intros a [<-|Ha]; [|now apply I]. apply existsb_exists in Q. destruct Q as (y & Hy & Q). apply He in Q. now subst y. }
    unfold cx_sel_list. rewrite E. reflexivity.
Qed.
