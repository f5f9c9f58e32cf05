(* Coordinates of several arguments (C181 to C183). *)
From Coq Require Import String Permutation Sorted.
From Verif Require Import Base BaseLemmas ModelPush ModelKernels ModelIndex ModelAccum ModelAxes ModelState ModelSelect ModelParams ModelNd ModelWrap ModelLabel ModelOut ModelMethods ModelConstruct ModelMethodsX ModelShape ModelCoords ModelCoordsPush
  Spec SpecAxes SpecNd SpecIndex PropLabelled PropNd SpecLabel SpecLabelTwo PropKernels PropLabelReduce Laws ProofAxes ProofArrays ProofNd PropParams ProofIndex ProofLabels PropIndex ProofLabel ProofLabelMany PropLabel PropLabelTwo PropLabelVals
  PropMethodsXReduce SpecCoords PropCoords PropCoordsReduce.
Local Open Scope string_scope.
Local Open Scope nat_scope.

Lemma once_In n l : In n (once l) <-> In n l.
Proof. unfold once. rewrite <- in_rev, nodup_In, <- in_rev. tauto. Qed.
Lemma once_NoDup l : NoDup (once l).
Proof. unfold once. apply NoDup_rev, NoDup_nodup. Qed.
Lemma forallb_other {A} (f : A -> bool) l : forallb f l = false -> exists b, In b l /\ f b = false.
Proof. induction l as [|a l IH]; cbn; [discriminate|]. destruct (f a) eqn:E; [|intros _; exists a; auto]. intros H. destruct (IH H) as (b & H1 & H2). eauto. Qed.

Lemma names_once {B} (n : sname) (a b : B) l : NoDup (map fst l) -> In (n, a) l -> In (n, b) l -> a = b.
Proof.
  induction l as [|[k x] t IH]; intros N H1 H2; [destruct H1|]. inversion N as [|? ? Hk N']; subst. cbn [fst] in Hk.
  destruct H1 as [H1|H1], H2 as [H2|H2]; [congruence| | |now apply IH]; [injection H1 as -> _; apply (in_map fst) in H2|injection H2 as -> _; apply (in_map fst) in H1]; contradiction.
Qed.

Lemma chooses_select_vals x axis dim d : NoDup (x_dims x) -> chooses 0 axis dim d x -> exists a, select_axis_dim default_x_params (XArr (x_dims x)) axis dim Missing Missing false = Ok (a, d).
Proof.
  intros N HC. exists (position String.eqb d (x_dims x)). pose proof (chooses_dim _ _ _ _ _ HC) as Hd. apply select_axis_dim_exact; [exact N|]. destruct (pos_lt _ _ Hd) as [P1 P2]. split; [rewrite <- P2 at 2; now apply nth_error_nth'|]. split; [right; intros []|].
  destruct HC as [(H1 & H2 & _)|(H1 & ax & a & H2 & H3 & H4)]; [right; auto|]. left. exists ax. split; [exact H2|]. split; [exact H1|]. rewrite (PropLabelVals.position_nth _ a d N H4). exact H3.
Qed.

Section Merge.
  Context {T : Type} (dflt : T) (eqb : T -> T -> bool).
  Hypothesis He : forall a b, eqb a b = true <-> a = b.

  Lemma labels_eqb_eq : forall a b, labels_eqb eqb a b = true <-> a = b.
  Proof.
    unfold labels_eqb. induction a as [|x a IH]; intros [|y b]; cbn [List.length Nat.eqb combine forallb]; try (split; [discriminate|discriminate]); [split; auto|].
    cbn [fst snd]. split.
    - intros H. apply andb_true_iff in H. destruct H as [H1 H2]. apply andb_true_iff in H2. destruct H2 as [H2 H3]. apply He in H2. f_equal; [exact H2|]. apply IH. now rewrite H1, H3.
    - intros [= -> ->]. rewrite Nat.eqb_refl. rewrite (proj2 (He y y) eq_refl). cbn [andb]. pose proof (proj2 (IH b) eq_refl) as X. apply andb_true_iff in X. now destruct X as [_ ->].
  Qed.
  Lemma is_index_iff n (c : coord T) : is_index n c = true <-> co_dims c = [n].
  Proof. unfold is_index. destruct (co_dims c) as [|m [|]]; split; intros H; try discriminate H; [apply String.eqb_eq in H; now subst|injection H as ->; apply String.eqb_refl]. Qed.
  Lemma coord_named_iff n cs (c : coord T) : NoDup (map fst cs) -> coord_named n cs = Some c <-> In (n, c) cs.
  Proof.
    unfold coord_named. induction cs as [|[m q] cs IH]; intros N; cbn [find option_map fst]; [split; [discriminate|intros []]|]. inversion N as [|? ? Hm N']; subst. cbn [fst] in *. destruct (String.eqb_spec m n) as [->|D].
    - cbn [option_map snd]. split; [intros [= ->]; now left|]. intros [[= ->]|H]; [reflexivity|]. elim Hm. apply (in_map fst) in H. exact H.
    - rewrite (IH N'). split; [now right|]. intros [[= ? ?]|H]; [contradiction|exact H].
  Qed.

  Section List.
    Variable l : list (coords T).
    Variable sz : sname -> nat.
    Hypothesis HZ : sized sz l.

    Lemma exact_join_same : same_indices l -> exact_join eqb l = Ok tt.
    Proof.
      intros S. unfold exact_join. match goal with |- (if ?b then _ else _) = _ => enough (b = true) as -> by reflexivity end.
      apply forallb_forall. intros a Ha. apply forallb_forall. intros b Hb. apply forallb_forall. intros [n c] Hc. cbn [fst snd]. destruct (is_index n c) eqn:I; [|reflexivity]. destruct (coord_named n b) as [c'|] eqn:E; [|reflexivity].
      apply coord_named_iff in E; [|now apply HZ]. destruct (is_index n c') eqn:I'; [|reflexivity]. cbn [negb orb]. apply labels_eqb_eq. apply (S n); [exists a; auto|exists b; auto|now apply is_index_iff|now apply is_index_iff].
    Qed.
    Lemma exact_join_other n a b : called l n a -> called l n b -> co_dims a = [n] -> co_dims b = [n] -> gdata (co_val a) <> gdata (co_val b) -> exact_join eqb l = Raise EValue.
    Proof.
      intros (ca & A1 & A2) (cb & B1 & B2) Da Db H. unfold exact_join. match goal with |- (if ?b then _ else _) = _ => destruct b eqn:E; [|reflexivity] end. exfalso.
      rewrite forallb_forall in E. specialize (E ca A1). rewrite forallb_forall in E. specialize (E cb B1). rewrite forallb_forall in E. specialize (E (n, a) A2). cbn [fst snd] in E.
      apply is_index_iff in Da. rewrite Da in E. rewrite (proj2 (coord_named_iff n cb b (proj1 HZ cb B1)) B2) in E. apply is_index_iff in Db. rewrite Db in E. cbn [negb orb] in E. apply labels_eqb_eq in E. contradiction.
    Qed.

    Section Named.
      Variable n : sname.
      Let es := flat_map (fun cs => match coord_named n cs with Some c => [c] | None => [] end) l.
      Lemma es_called c : In c es <-> called l n c.
      Proof.
        unfold es. rewrite in_flat_map. split.
        - intros (cs & Hcs & H). exists cs. split; [exact Hcs|]. destruct (coord_named n cs) as [c'|] eqn:E; [|destruct H]. destruct H as [<-|[]]. apply coord_named_iff; [now apply HZ|exact E].
        - intros (cs & Hcs & H). exists cs. split; [exact Hcs|]. apply coord_named_iff in H; [|now apply HZ]. rewrite H. now left.
      Qed.
      Let D := once (flat_map co_dims es).
      Lemma D_iff m : In m D <-> exists b, called l n b /\ In m (co_dims b).
      Proof.
        unfold D. rewrite once_In, in_flat_map. split; intros (c & H1 & H2); exists c; (split; [now apply es_called|exact H2]).
      Qed.
      Lemma size_D m : In m D -> coord_size es m = sz m.
      Proof.
        intros H. unfold coord_size. destruct (find (fun c => smem m (co_dims c)) es) as [c|] eqn:F.
        - apply find_some in F. destruct F as [F1 F2]. apply smem_In in F2. apply es_called in F1. destruct (proj2 HZ n c F1) as [N S]. rewrite S. destruct (pos_lt _ _ F2) as [P1 P2]. rewrite (nth_indep _ 0 (sz "")) by (now rewrite map_length). now rewrite map_nth, P2.
        - exfalso. unfold D in H. rewrite once_In, in_flat_map in H. destruct H as (c & H1 & H2). apply (find_none _ _ F) in H1. apply smem_In in H2. congruence.
      Qed.
      Lemma shape_D : map (coord_size es) D = map sz D.
      Proof. apply map_ext_in. intros m. apply size_D. Qed.
      Lemma set_dims_at c env : called l n c -> within sz l n env -> gget dflt (set_dims dflt D (coord_size es) c) (map env D) = co_at dflt c env.
      Proof.
        intros Hc W. unfold set_dims. rewrite gget_gtabulate.
        - unfold co_at. f_equal. apply map_ext_in. intros m Hm. assert (I : In m D) by (apply D_iff; eauto). destruct (pos_lt _ _ I) as [P1 P2]. rewrite (nth_indep _ 0 (env "")) by (now rewrite map_length). now rewrite map_nth, P2.
        - rewrite shape_D. apply inside_names_valid. intros m Hm. apply D_iff in Hm. destruct Hm as (b & H1 & H2). now apply (W b).
      Qed.
      Lemma within_D i : valid (map sz D) i -> within sz l n (name_bind D i (fun _ => 0)).
      Proof.
        intros Hi c m Hc Hm. assert (I : In m D) by (apply D_iff; eauto). destruct (In_nth _ _ "" I) as (k & Hk & En). pose proof (valid_length _ _ Hi) as L. rewrite map_length in L. rewrite <- En at 1. rewrite name_bind_in by (first [apply once_NoDup | assumption]).
        rewrite <- En, <- (nth_map_dims sz D k Hk). apply valid_nth; [exact Hi|now rewrite map_length].
      Qed.
      Let agree a b := forall env, within sz l n env -> co_at dflt a env = co_at dflt b env.
      Lemma set_dims_agree a b : called l n a -> called l n b -> gdata (set_dims dflt D (coord_size es) a) = gdata (set_dims dflt D (coord_size es) b) <-> agree a b.
      Proof.
        intros Ha Hb. split.
        - intros E env W. rewrite <- (set_dims_at a env Ha W), <- (set_dims_at b env Hb W). unfold gget. rewrite E. reflexivity.
        - intros Ag. unfold set_dims, gtabulate. cbn [gdata]. apply map_ext_in. intros i Hi. apply all_idx_valid in Hi. rewrite shape_D in Hi. pose proof (valid_length _ _ Hi) as L. rewrite map_length in L.
          specialize (Ag _ (within_D i Hi)). unfold co_at in Ag. 
          assert (X : forall c, called l n c -> map (name_bind D i (fun _ => 0)) (co_dims c) = map (fun m => nth (position String.eqb m D) i 0) (co_dims c)).
          { intros c Hc. apply map_ext_in. intros m Hm. assert (I : In m D) by (apply D_iff; eauto). destruct (pos_lt _ _ I) as [P1 P2]. rewrite <- P2 at 1. apply name_bind_in; first [apply once_NoDup | assumption]. }
          rewrite <- (X a Ha), <- (X b Hb). exact Ag.
      Qed.
      Lemma merge_named_spec :
        match merge_named dflt eqb l n with
        | Some c' => (exists c, called l n c) /\
            ((called l n c' /\ co_dims c' = [n]) \/
             (NoDup (co_dims c') /\ (forall c, called l n c -> co_dims c <> [n]) /\ (forall a b, called l n a -> called l n b -> agree a b) /\
              (forall m, In m (co_dims c') <-> exists b, called l n b /\ In m (co_dims b)) /\ gshape (co_val c') = map sz (co_dims c') /\ forall a env, called l n a -> within sz l n env -> co_at dflt c' env = co_at dflt a env))
        | None => (forall c, called l n c -> co_dims c <> [n]) /\ ((forall c, ~ called l n c) \/ exists a b, called l n a /\ called l n b /\ ~ agree a b)
        end.
      Proof.
        unfold merge_named. fold es. pose proof es_called as EC. pose proof set_dims_agree as SA. pose proof set_dims_at as SD. pose proof shape_D as ShD. pose proof D_iff as DI. unfold D in SA, SD, ShD, DI. clear D. clearbody es. destruct (find (is_index n) es) as [c|] eqn:F.
        - apply find_some in F. destruct F as [F1 F2]. apply EC in F1. apply is_index_iff in F2. split; [eauto|]. left. auto.
        - assert (NI : forall c, called l n c -> co_dims c <> [n]). { intros c Hc E. apply EC in Hc. apply (find_none _ _ F) in Hc. apply is_index_iff in E. congruence. }
          destruct es as [|c [|c2 rest]]; cbn [unique_coord].
          + split; [exact NI|]. left. intros c Hc. apply EC in Hc. destruct Hc.
          + assert (Hc : forall a, called l n a <-> a = c) by (intros a; rewrite <- EC; cbn; intuition congruence).
            assert (Hcc : called l n c) by now apply Hc. split; [eauto|]. right. split; [apply (proj2 HZ n c Hcc)|]. split; [exact NI|]. split; [intros a b Ha Hb; apply Hc in Ha, Hb; subst; intros env _; reflexivity|].
            split; [intros m; split; [eauto|intros (b & Hb & Hm); apply Hc in Hb; now subst b]|]. split; [apply (proj2 HZ n c Hcc)|]. intros a env Ha _. apply Hc in Ha. now subst a.
          + assert (Ea : forall a, called l n a <-> In a (c :: c2 :: rest)) by (intros a; rewrite <- EC; tauto).
            assert (Hc : called l n c) by (apply Ea; now left).
            destruct (forallb _ (c2 :: rest)) eqn:Fa.
            * rewrite forallb_forall in Fa. assert (Ag : forall a, called l n a -> agree c a). { intros a Ha. pose proof Ha as Ha'. apply Ea in Ha'. destruct Ha' as [<-|Ha']; [intros env _; reflexivity|]. specialize (Fa a Ha'). apply labels_eqb_eq in Fa. apply SA; auto. }
              split; [eauto|]. right. split; [apply once_NoDup|]. split; [exact NI|]. split; [intros a b Ha Hb env W; rewrite <- (Ag a Ha env W); now apply Ag|]. cbn [co_dims co_val]. split; [exact DI|]. split; [exact ShD|].
              intros a env Ha W. unfold co_at at 1. cbn [co_dims co_val]. rewrite SD by auto. now apply Ag.
            * split; [exact NI|]. right. apply forallb_other in Fa. destruct Fa as (b & Hb & E). assert (Hb' : called l n b) by (apply Ea; now right). exists c, b. split; [exact Hc|]. split; [exact Hb'|]. intros Ag. apply SA in Ag; auto. apply labels_eqb_eq in Ag. congruence.
      Qed.
    End Named.

    Lemma merge_in n c' : In (n, c') (merge_coords dflt eqb l) <-> (exists c, called l n c) /\ merge_named dflt eqb l n = Some c'.
    Proof.
      unfold merge_coords. rewrite in_flat_map. split.
      - intros (m & Hm & H). destruct (merge_named dflt eqb l m) as [q|] eqn:E; [|destruct H]. destruct H as [[= <- <-]|[]]. split; [|exact E]. pose proof (merge_named_spec m) as S. rewrite E in S. apply S.
      - intros ((c & cs & H1 & H2) & E). exists n. rewrite E. split; [|now left]. apply once_In, in_flat_map. exists cs. split; [exact H1|]. apply (in_map fst) in H2. exact H2.
    Qed.
    Lemma merge_names : NoDup (map fst (merge_coords dflt eqb l)).
    Proof.
      unfold merge_coords. generalize (once_NoDup (flat_map (map fst) l)). generalize (once (flat_map (map fst) l)). induction l0 as [|n t IH]; intros N; [constructor|]. inversion N as [|? ? Hn Nt]; subst. cbn [flat_map]. destruct (merge_named dflt eqb l n); [|now apply IH].
      cbn [app map fst]. constructor; [|now apply IH]. intros H. apply Hn. apply in_map_iff in H. destruct H as ([m q] & E & H). cbn in E. subst m. apply in_flat_map in H. destruct H as (m & Hm & H). destruct (merge_named dflt eqb l m); [|destruct H]. destruct H as [[= <- _]|[]]. exact Hm.
    Qed.
    Lemma merge_merged : same_indices l -> merged dflt sz l (merge_coords dflt eqb l).
    Proof.
      intros SI. split; [exact merge_names|]. split; [|split; [|split]].
      - intros n c' H. apply merge_in in H. destruct H as [H1 H2]. pose proof (merge_named_spec n) as S. rewrite H2 in S. destruct S as (_ & [[S1 S2]|(S1 & _ & _ & S2 & S3 & _)]).
        + destruct (proj2 HZ n c' S1). split; [assumption|]. split; [assumption|]. split; [eauto|]. intros m Hm. exists c'. auto.
        + split; [exact S1|]. split; [exact S3|]. split; [exact H1|]. intros m. apply S2.
      - intros n c Hc D. pose proof (merge_named_spec n) as S. destruct (merge_named dflt eqb l n) as [c'|] eqn:E; [|elim (proj1 S c Hc D)].
        destruct S as (_ & [[S1 S2]|(_ & S & _)]); [|elim (S c Hc D)]. exists c'. split; [apply merge_in; eauto|]. split; [exact S2|]. apply (SI n); auto.
      - intros n a l1 cs l2 El Ha H1 H2. apply merge_in. assert (Hl : called l n a) by (exists cs; split; [rewrite El; apply in_elt|exact Ha]). split; [eauto|].
        assert (Nn : forall l', (forall cs', In cs' l' -> In cs' l) -> (forall b, ~ called l' n b) -> flat_map (fun cs => match coord_named n cs with Some c => [c] | None => [] end) l' = []).
        { induction l' as [|q l' IH]; intros Hs H; [reflexivity|]. cbn [flat_map]. rewrite IH; [|intros; apply Hs; now right|intros b (cs' & Q1 & Q2); apply (H b); exists cs'; split; [now right|exact Q2]].
          destruct (coord_named n q) as [b|] eqn:E; [|reflexivity]. apply coord_named_iff in E; [|apply HZ, Hs; now left]. elim (H b). exists q. split; [now left|exact E]. }
        unfold merge_named. replace (flat_map (fun cs => match coord_named n cs with Some c => [c] | None => [] end) l) with [a].
        + cbn [find]. destruct (is_index n a); reflexivity.
        + rewrite El, flat_map_app. cbn [flat_map]. rewrite (Nn l1), (Nn l2); auto; try (intros cs' H; rewrite El; apply in_or_app; auto; right; now right).
          rewrite (proj2 (coord_named_iff n cs a ltac:(apply HZ; rewrite El; apply in_elt)) Ha). reflexivity.
      - intros n NI. pose proof (merge_named_spec n) as S. split.
        + intros a Ha Ag. destruct (merge_named dflt eqb l n) as [c'|] eqn:E.
          * destruct S as (_ & [[S1 S2]|(_ & _ & _ & S3 & S4 & S5)]); [elim (NI c' S1 S2)|]. exists c'. split; [apply merge_in; eauto|]. split; [exact S3|]. intros env W. now apply S5.
          * destruct S as (_ & [S|(x & y & Hx & Hy & S)]); [elim (S a Ha)|]. elim S. intros env W. rewrite <- (Ag x Hx env W). now apply Ag.
        + intros a b Ha Hb Na H. apply in_map_iff in H. destruct H as ([m q] & Eq & H). cbn in Eq. subst m. apply merge_in in H. destruct H as [_ E]. rewrite E in S.
          destruct S as (_ & [[S1 S2]|(_ & _ & S2 & _)]); [elim (NI q S1 S2)|]. apply Na. now apply S2.
    Qed.
    Lemma with_coords_joined {B} dropped (r : res B) : same_indices l -> joined dflt sz dropped l r (with_coords dflt eqb dropped l r).
    Proof.
      intros SI. exists (merge_coords dflt eqb l), (out_coords dropped (merge_coords dflt eqb l)). split; [now apply merge_merged|]. split; [apply out_coords_without, merge_names|]. unfold with_coords. now rewrite (exact_join_same SI).
    Qed.
    Lemma with_coords_differ {B} dropped (r : res B) : labels_differ l -> with_coords dflt eqb dropped l r = Raise EValue.
    Proof. intros (n & a & b & H1 & H2 & H3 & H4 & H5). unfold with_coords. now rewrite (exact_join_other n a b). Qed.
  End List.
  Lemma given_coords (a : xop * coords T) : arg_coords a = coords_given a.
  Proof. now destruct a as [[] ]. Qed.
  Lemma given_all (l : list (xop * coords T)) : map arg_coords l = map coords_given l.
  Proof. apply map_ext, given_coords. Qed.

  (* the coordinates do not depend on the order of the arguments *)
  Theorem merged_any_order sz l l' m m' : sized sz l -> same_indices l -> (forall cs, In cs l <-> In cs l') -> merged dflt sz l m -> merged dflt sz l' m' -> same_coords dflt sz m m'.
  Proof.
    intros HZ SI Hl (M1 & M2 & M3 & M4 & M5) (M1' & M2' & M3' & M4' & M5') n c Hc. destruct (M2 n c Hc) as (Nc & Sc & (a & Ha) & Uc).
    assert (Cl : forall b, called l n b <-> called l' n b) by (intros b; split; intros (cs & H1 & H2); exists cs; (split; [now apply Hl|exact H2])).
    assert (Wl : forall env, within sz l n env <-> within sz l' n env) by (intros env; split; intros W b k Hb; apply W; now apply Cl).
    assert (Dec : (exists q, called l n q /\ co_dims q = [n]) \/ (forall q, called l n q -> co_dims q <> [n])).
    { clear -HZ. assert (X : forall k, (forall cs, In cs k -> In cs l) -> (exists q, called k n q /\ co_dims q = [n]) \/ (forall q, called k n q -> co_dims q <> [n])).
      { induction k as [|cs k IH]; intros Hk; [right; intros q (? & [] & _)|]. destruct IH as [(q & (cs' & Q1 & Q2) & Q3)|IH]; [intros; apply Hk; now right|left; exists q; split; [exists cs'; split; [now right|exact Q2]|exact Q3]|].
        destruct (coord_named n cs) as [q|] eqn:E.
        - assert (Hq : In (n, q) cs) by (apply coord_named_iff; [apply HZ, Hk; now left|exact E]). destruct (is_index n q) eqn:I.
          + left. exists q. split; [exists cs; split; [now left|exact Hq]|now apply is_index_iff].
          + right. intros q' (cs' & [<-|Q1] & Q2) D; [|apply (IH q'); [exists cs'; auto|exact D]]. apply coord_named_iff in Q2; [|apply HZ, Hk; now left]. rewrite E in Q2. injection Q2 as <-. apply is_index_iff in D. congruence.
        - right. intros q' (cs' & [<-|Q1] & Q2) D; [|apply (IH q'); [exists cs'; auto|exact D]]. apply coord_named_iff in Q2; [|apply HZ, Hk; now left]. congruence. }
      apply X. auto. }
    destruct Dec as [(q & Hq & Dq)|NI].
    - destruct (M3 n q Hq Dq) as (c1 & I1 & D1 & E1). apply Cl in Hq. destruct (M3' n q Hq Dq) as (c2 & I2 & D2 & E2).
      pose proof (names_once n c1 c m M1 I1 Hc) as Q. 
      subst c1. exists c2. split; [exact I2|]. split; [intros d; now rewrite D1, D2|]. intros env _. destruct (M2' n c2 I2) as (_ & Sc2 & _). unfold co_at, gget. now rewrite E1, E2, Sc, Sc2, D1, D2.
    - assert (Ag : forall x y, called l n x -> called l n y -> forall env, within sz l n env -> co_at dflt x env = co_at dflt y env).
      { intros x y Hx Hy env W. destruct (eqb (co_at dflt x env) (co_at dflt y env)) eqn:E; [now apply He|]. exfalso. apply (proj2 (M5 n NI) x y Hx Hy); [|apply (in_map fst) in Hc; exact Hc]. intros Q. rewrite (Q env W) in E. rewrite (proj2 (He _ _) eq_refl) in E. discriminate E. }
      destruct (proj1 (M5 n NI) a Ha (fun b Hb => Ag a b Ha Hb)) as (c1 & I1 & D1 & E1).
      assert (NI' : forall q, called l' n q -> co_dims q <> [n]) by (intros q Hq; apply NI; now apply Cl).
      destruct (proj1 (M5' n NI') a (proj1 (Cl a) Ha)) as (c2 & I2 & D2 & E2). { intros b Hb env W. apply Ag; [exact Ha|now apply Cl|now apply Wl]. }
      pose proof (names_once n c1 c m M1 I1 Hc) as Q. 
      subst c1. exists c2. split; [exact I2|]. split.
      + intros d. rewrite D1, D2. split; intros (b & H1 & H2); exists b; (split; [now apply Cl|exact H2]).
      + intros env W. assert (W' : within sz l n env). { intros b d Hb Hd. apply W. apply D1. eauto. } rewrite (E1 env W'). symmetry. apply E2. now apply Wl.
  Qed.

  (* coordinates of an array, merged with others that fit it, are coordinates of this array *)
  Theorem merged_fit (x : xarr) l m : Forall (coords_of x) l -> sized (dim_size x) l /\ (merged dflt (dim_size x) l m -> coords_of x m).
  Proof.
    intros F. rewrite Forall_forall in F. split; [split; [intros cs H; apply (F cs H)|intros n c (cs & H1 & H2); destruct (proj2 (F cs H1) n c H2) as (? & ? & ? & ?); auto]|].
    intros (M1 & M2 & M3 & _). split; [exact M1|]. intros n c H. destruct (M2 n c H) as (N & S & (q & cs & Hq & Iq) & U). split; [exact N|]. split; [|split; [exact S|]].
    - intros k Hk. destruct (U k Hk) as (b & (cs' & Hb & Ib) & Kb). destruct (proj2 (F cs' Hb) n b Ib) as (_ & I & _). now apply I.
    - intros Hn. destruct (proj2 (F cs Hq) n q Iq) as (_ & _ & _ & Dq). destruct (M3 n q) as (c' & I' & D' & _); [exists cs; auto|now apply Dq|]. now rewrite (names_once n c c' m M1 H I').
  Qed.

  Section Push.
    Context {A V : Type} (K : pusher A V) (P : packer A) (R : reader V) (stretch : bool) (sz : sname -> nat).

    (* C181: push_data of labels that differ is a ValueError; otherwise the object has the
       coordinates of both *)
    Theorem push_data_coords c cs data scale : let l := [cs; coords_given data] in sized sz l ->
      (labels_differ l -> cxc_push_data dflt eqb K P stretch c cs data scale = Raise EValue) /\
      (same_indices l -> joined dflt sz [] l (cx_push_data K P stretch c (fst data) scale) (cxc_push_data dflt eqb K P stretch c cs data scale)).
    Proof.
      intros l HZ. unfold cxc_push_data. rewrite given_coords. fold l. split; intros H; [now apply (with_coords_differ l sz)|now apply with_coords_joined].
    Qed.
    Theorem push_datas_coords c md cs axis dim mom_axes z zs d : cx_params c = params_for md -> NoDup (x_dims z) -> ~ In d md -> chooses (List.length md) axis dim d z -> sized sz [cs; zs] ->
      (labels_differ [cs; zs] -> cxc_push_datas dflt eqb K P stretch c cs axis dim mom_axes (Labelled z, zs) = Raise EValue) /\
      (same_indices [cs; zs] -> joined dflt sz [d] [cs; zs] (cx_push_datas K P stretch c axis dim mom_axes (Labelled z)) (cxc_push_datas dflt eqb K P stretch c cs axis dim mom_axes (Labelled z, zs))).
    Proof.
      intros Ep Nz Nd HD HZ. unfold cxc_push_datas. cbn [fst arg_coords snd]. destruct (chooses_select z md axis dim d Nz Nd HD) as (a & _ & Es). rewrite Ep, Es. cbn [rmap rbind snd].
      split; intros H; [now apply (with_coords_differ _ sz)|now apply with_coords_joined].
    Qed.
    Theorem push_val_coords c cs x w y : let l := cs :: map coords_given (x :: w :: y) in sized sz l ->
      (labels_differ l -> cxc_push_val dflt eqb K P R stretch c cs x w y = Raise EValue) /\
      (same_indices l -> joined dflt sz [] l (cx_push_val K P R stretch c (fst x) (fst w) (map fst y)) (cxc_push_val dflt eqb K P R stretch c cs x w y)).
    Proof.
      intros l HZ. unfold cxc_push_val. rewrite given_all. fold l. split; intros H; [now apply (with_coords_differ l sz)|now apply with_coords_joined].
    Qed.
    Theorem push_vals_coords c cs axis dim z zs w y d : let l := cs :: zs :: map coords_given (w :: y) in NoDup (x_dims z) -> chooses 0 axis dim d z -> sized sz l ->
      (labels_differ l -> cxc_push_vals dflt eqb K P R stretch c cs axis dim (Labelled z, zs) w y = Raise EValue) /\
      (same_indices l -> joined dflt sz [d] l (cx_push_vals K P R stretch c axis dim (Labelled z) (fst w) (map fst y)) (cxc_push_vals dflt eqb K P R stretch c cs axis dim (Labelled z, zs) w y)).
    Proof.
      intros l Nz HD HZ. unfold cxc_push_vals. cbn [fst]. destruct (chooses_select_vals z axis dim d Nz HD) as (a & Es). rewrite Es. cbn [rbind]. rewrite given_all. cbn [map coords_given]. fold (map (@coords_given T) (w :: y)). fold l.
      split; intros H; [now apply (with_coords_differ l sz)|now apply with_coords_joined].
    Qed.
    Theorem reduce_vals_coords p axis dim x cs w y d : let l := cs :: map coords_given (w :: y) in NoDup (x_dims x) -> chooses 0 axis dim d x -> sized sz l ->
      (labels_differ l -> xc_reduce_vals dflt eqb K P R p axis dim x cs w y = Raise EValue) /\
      (same_indices l -> joined dflt sz [d] l (x_reduce_vals K P R p axis dim x (fst w) (map fst y)) (xc_reduce_vals dflt eqb K P R p axis dim x cs w y)).
    Proof.
      intros l Nz HD HZ. unfold xc_reduce_vals. destruct (chooses_select_vals x axis dim d Nz HD) as (a & Es). rewrite Es. cbn [rbind]. rewrite given_all. fold l.
      split; intros H; [now apply (with_coords_differ l sz)|now apply with_coords_joined].
    Qed.
    (* arrays have no coordinates *)
    Theorem push_arrays_coords c cs axis dim mom_axes t x w y : sized sz [cs] -> (forall n q, In (n, q) cs -> ~ In "_dummy123" (co_dims q)) -> ~ In "_dummy123" (map fst cs) ->
      (exists cs', (forall n q, In (n, q) cs' <-> In (n, q) cs) /\
         cxc_push_datas dflt eqb K P stretch c cs axis dim mom_axes (Plain t, []) = rmap (fun b => (b, cs')) (cx_push_datas K P stretch c axis dim mom_axes (Plain t))) /\
      (exists cs', (forall n q, In (n, q) cs' <-> In (n, q) cs) /\
         cxc_push_vals dflt eqb K P R stretch c cs axis dim (Plain x, []) w y = rmap (fun b => (b, cs')) (cx_push_vals K P R stretch c axis dim (Plain x) (fst w) (map fst y))).
    Proof.
      intros HZ Nd Nn.
      assert (SI1 : same_indices [cs]). { intros n a b (c1 & [<-|[]] & Ha) (c2 & [<-|[]] & Hb) _ _. now rewrite (names_once n a b cs (proj1 HZ cs (or_introl eq_refl)) Ha Hb). }
      assert (Z2 : sized sz [cs; []]).
      { split; [intros q [<-|[<-|[]]]; [apply HZ; now left|constructor]|]. intros n q (c1 & [<-|[<-|[]]] & Hq); [|destruct Hq]. apply (proj2 HZ n q). exists cs. split; [now left|exact Hq]. }
      assert (SI2 : same_indices [cs; []]).
      { intros n a b (c1 & H1 & Ha) (c2 & H2 & Hb) _ _. assert (Ia : In (n, a) cs) by (destruct H1 as [<-|[<-|[]]]; [exact Ha|destruct Ha]). assert (Ib : In (n, b) cs) by (destruct H2 as [<-|[<-|[]]]; [exact Hb|destruct Hb]).
        now rewrite (names_once n a b cs (proj1 HZ cs (or_introl eq_refl)) Ia Ib). }
      assert (Same : forall l2 m, (forall n b, ~ called l2 n b) -> sized sz (cs :: l2) -> merged dflt sz (cs :: l2) m -> forall n q, In (n, q) m <-> In (n, q) cs).
      { intros l2 m E HZ' (M1 & M2 & _ & M4 & _) n q. assert (F : In (n, q) cs -> In (n, q) m) by (intros H; apply (M4 n q [] cs l2); auto; intros b (? & [] & _)).
        split; [|exact F]. intros H. destruct (M2 n q H) as (_ & _ & (b & cs' & [<-|Hc] & Hb) & _); [|elim (E n b); exists cs'; auto]. 
        pose proof (M4 n b [] cs l2 eq_refl Hb) as X. rewrite (names_once n q b m M1 H); [exact Hb|]. apply X; [intros b' (? & [] & _)|apply E]. }
      assert (Wo : forall m cs', (forall n q, In (n, q) m <-> In (n, q) cs) -> SpecCoords.without ["_dummy123"] m cs' -> forall n q, In (n, q) cs' <-> In (n, q) cs).
      { intros m cs' E W n q. rewrite (proj2 W n q), E. split; [tauto|]. intros H. split; [exact H|]. intros d [<-|[]]. now apply (Nd n). }
      split.
      - unfold cxc_push_datas. cbn [fst rbind arg_coords]. destruct (with_coords_joined [cs; []] sz Z2 [dummy_dim] (cx_push_datas K P stretch c axis dim mom_axes (Plain t)) SI2) as (m & cs' & M & W & E). exists cs'. split; [|exact E].
        apply (Wo m); [|exact W]. apply (Same [[]]); auto. intros n b (? & [<-|[]] & []).
      - unfold cxc_push_vals. cbn [fst]. destruct (with_coords_joined [cs] sz HZ [dummy_dim] (cx_push_vals K P R stretch c axis dim (Plain x) (fst w) (map fst y)) SI1) as (m & cs' & M & W & E). exists cs'. split; [|exact E].
        apply (Wo m); [|exact W]. apply (Same []); auto. intros n b (? & [] & _).
    Qed.

    Theorem sums_coords c cs d ds : sized sz [cs; ds] ->
      (labels_differ [cs; ds] -> cx_check_other c d = Ok tt -> cxc_add dflt eqb K P stretch c cs d ds = Raise EValue /\ cxc_sub dflt eqb K P stretch c cs d ds = Raise EValue) /\
      (same_indices [cs; ds] -> joined dflt sz [] [cs; ds] (cx_add K P stretch c d) (cxc_add dflt eqb K P stretch c cs d ds) /\ joined dflt sz [] [cs; ds] (cx_sub K P stretch c d) (cxc_sub dflt eqb K P stretch c cs d ds)).
    Proof.
      intros HZ. unfold cxc_add, cxc_sub, cx_add, cx_sub. destruct (cx_check_other c d) as [[]|e]; cbn [rbind].
      - destruct (push_data_coords c cs (Labelled (cx_obj d), ds) None HZ) as [A1 A2]. destruct (push_data_coords c cs (Labelled (cx_obj d), ds) (Some (Tensor [] [(-(1))%Qc])) HZ) as [B1 B2]. cbn [coords_given fst] in *. split; intros H; [intros _|]; split; auto.
      - split; [intros _ Q; discriminate Q|]. intros SI. destruct (with_coords_joined [cs; ds] sz HZ [] (@Raise cmdata e) SI) as (m & cs' & M & W & _). split; exists m, cs'; auto.
    Qed.
    (* C183: c + d and d + c have the same coordinates *)
    Theorem sum_coords_any_order c cs d ds c1 m1 c2 m2 : sized sz [cs; ds] -> cxc_add dflt eqb K P stretch c cs d ds = Ok (c1, m1) -> cxc_add dflt eqb K P stretch d ds c cs = Ok (c2, m2) ->
      NoDup (map fst m1) /\ NoDup (map fst m2) /\ same_coords dflt sz m1 m2 /\ same_coords dflt sz m2 m1.
    Proof.
      intros HZ E1 E2. assert (Hl : forall q, In q [cs; ds] <-> In q [ds; cs]) by (intros q; cbn; tauto).
      assert (Cl : forall n q, called [cs; ds] n q <-> called [ds; cs] n q) by (intros n q; split; intros (x & H1 & H2); exists x; (split; [now apply Hl|exact H2])).
      assert (HZ' : sized sz [ds; cs]) by (split; [intros q Hq; apply HZ; now apply Hl|intros n q Hq; apply (proj2 HZ n q); now apply Cl]).
      unfold cxc_add in E1, E2. destruct (cx_check_other c d) as [v1|]; [|discriminate E1]. destruct (cx_check_other d c) as [v2|]; [|discriminate E2]. cbn [rbind] in E1, E2. unfold cxc_push_data, with_coords in E1, E2. cbn [arg_coords fst snd] in E1, E2.
      destruct (exact_join eqb [cs; ds]) as [u|] eqn:J; [|discriminate E1]. destruct (exact_join eqb [ds; cs]) as [u'|]; [|discriminate E2]. cbn [rbind] in E1, E2.
      destruct (cx_push_data K P stretch c _ None) as [q1|]; [|discriminate E1]. destruct (cx_push_data K P stretch d _ None) as [q2|]; [|discriminate E2]. cbn [rmap] in E1, E2. injection E1 as <- <-. injection E2 as <- <-.
      assert (O : forall m : coords T, out_coords [] m = m). { intros m. unfold out_coords. induction m as [|[k v] m IH]; [reflexivity|]. cbn [filter snd]. replace (forallb (fun n => negb (smem n [])) (co_dims v)) with true; [now rewrite IH|]. symmetry. apply forallb_forall. reflexivity. }
      rewrite !O. assert (SI : same_indices [cs; ds]).
      { intros n a b Ha Hb Da Db. destruct (labels_eqb eqb (gdata (co_val a)) (gdata (co_val b))) eqn:E; [now apply labels_eqb_eq|]. rewrite (exact_join_other [cs; ds] sz HZ n a b Ha Hb Da Db) in J; [discriminate J|]. intros Q. apply labels_eqb_eq in Q. congruence. }
      assert (SI' : same_indices [ds; cs]) by (intros n a b Ha Hb; apply (SI n); now apply Cl).
      split; [now apply (merge_names [cs; ds])|]. split; [now apply (merge_names [ds; cs])|].
      pose proof (merge_merged _ sz HZ SI) as M. pose proof (merge_merged _ sz HZ' SI') as M'. split; [exact (merged_any_order sz _ _ _ _ HZ SI Hl M M')|]. apply (merged_any_order sz [ds; cs] [cs; ds] _ _ HZ' SI'); auto. intros q. symmetry. apply Hl.
    Qed.
  End Push.
End Merge.
