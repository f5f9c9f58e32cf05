(* Lemmas about labelled arrays of values. *)
From Coq Require Import String Permutation.
From Verif Require Import Base BaseLemmas ModelPush ModelKernels ModelIndex ModelAxes ModelSelect ModelParams ModelWrap ModelNd ModelLabel Spec SpecAxes SpecNd SpecLabel SpecLabelTwo SpecLabelVals
  Laws ProofSpec ProofAxes ProofArrays ProofIndex ProofMulti ProofNd PropAxes PropParams PropWrap PropLabelled PropNd ProofNdVals PropNdVals ProofLabel ProofLabelMany ProofLabelReduce PropLabel PropLabelReduce PropLabelJack PropLabelExp.
Local Open Scope string_scope.
Local Open Scope nat_scope.

(* an array with given dimensions *)
Definition ghost (sz : sname -> nat) (l : list sname) : xarr := XA l (tabulate (map sz l) (fun _ => 0%Qc)).
Lemma ghost_ok sz l : NoDup l -> x_ok (ghost sz l).
Proof. intros N. split; [|split; [exact N|]]; unfold ghost; cbn; [apply tabulate_ok|unfold x_shape; cbn; now rewrite map_length]. Qed.
Lemma ghost_size sz l n : In n l -> dim_size (ghost sz l) n = sz n.
Proof.
  intros H. unfold dim_size, ghost, shape_of. cbn. destruct (pos_lt l n H) as [P1 P2]. rewrite nth_map_dims by exact P1. now rewrite P2.
Qed.

Lemma read_aligned t c a e i : tensor_ok t -> S c = tndim t -> c <= a -> read_value t 0 i (counted_from_end (S a) e) = aligned_entry t [c] (seq 0 a) e [i].
Proof.
  intros Ht Hc La. unfold aligned_entry, entry, read_value. rewrite <- Hc.
  assert (E : except_nat (seq 0 (S c)) [c] = seq 0 c). { replace (S c) with (c + 1) by lia. apply except_seq_last. }
  destruct c as [|c]; [reflexivity|]. f_equal. set (F := fun p => _). 
  rewrite <- (map_nth_seq (map F (rev (seq 0 (S (S c))))) 0 (S (S c))) by (rewrite map_length, rev_length, seq_length; reflexivity).
  apply map_ext_in. intros p Hp. apply in_seq in Hp. rewrite (nth_map_in _ _ _ _ 0) by (rewrite rev_length, seq_length; lia). rewrite rev_nth by (rewrite seq_length; lia). rewrite seq_length, seq_nth by lia.
  unfold F. cbn [Nat.add]. replace (S (S c) - S p) with (S c - p) by lia. destruct (Nat.eqb_spec (S c - p) 0) as [Q|Q].
  - assert (p = S c) by lia. subst p. rewrite bind_in; [|repeat constructor; intros []|reflexivity|now left]. cbn. now rewrite Nat.eqb_refl.
  - rewrite bind_out by (intros [Q'|[]]; lia). unfold dim_from_end. rewrite from_end_nth by (change (List.length (tshape t)) with (tndim t); lia). change (List.length (tshape t)) with (tndim t). rewrite <- Hc.
    replace (S (S c) - 1 - (S c - p)) with p by lia. change (nth p (tshape t) 0) with (shape_of t p). destruct (Nat.eqb (shape_of t p) 1); [reflexivity|].
    unfold counted_from_end, aligned_with. rewrite <- Hc, E, !seq_length, index_of_front by lia. rewrite seq_nth by lia. f_equal. lia.
Qed.

(* how an operand goes into the function called by apply_ufunc *)
Definition fits_value (d : sname) (outer : list sname) (sz : sname -> nat) (r : nat) (o : xop) (t : tensor) : Prop :=
  match o with Labelled z => placed z (trim (x_dims z) outer ++ [d]) t | Plain _ => True end /\
  exists c, S c = tndim t /\ aligns t [c] (seq 0 (List.length outer)) (fun k => sz (nth k outer "")) /\ shape_of t c = sz d /\
    (forall e env i, (forall k, k < List.length outer -> e k = env (nth k outer "")) -> inside_names sz outer env -> i < sz d ->
      read_value t 0 i (counted_from_end (S (List.length outer)) e) = value_at d outer r o env i).

Lemma value_prepared d outer sz r o : value_given d outer sz r o -> NoDup (outer ++ [d]) -> incl (match o with Labelled z => x_dims z | Plain _ => [] end) (outer ++ [d]) ->
  exists o' t, match o with Labelled _ => Ok o | Plain t => rmap Plain (prepare_secondary (-1 - Z.of_nat r) (sz d) true t) end = Ok o' /\
    labelled_of [o'] = labelled_of [o] /\ match o' with Labelled z => broadcast_compat outer [d] z | Plain t => Ok t end = Ok t /\ fits_value d outer sz r o t.
Proof.
  intros H N Io. set (G := ghost sz (outer ++ [d])).
  assert (Gd : dim_size G d = sz d) by (apply ghost_size, in_or_app; right; now left).
  assert (Go : forall n, In n outer -> dim_size G n = sz n) by (intros n Hn; apply ghost_size, in_or_app; now left).
  assert (Gk : forall k, In k (seq 0 (List.length outer)) -> dim_size G (nth k outer "") = sz (nth k outer "")) by (intros k Hk; apply in_seq in Hk; apply Go, nth_In; exact (proj2 Hk)).
  set (b := match o with Plain t => plain_axis t r | _ => 0 end).
  assert (D : decays_given d outer G o (Some (AInt (-1 - Z.of_nat r))) b).
  { destruct o as [z|t]; cbn [decays_given value_given] in *.
    - destruct H as (H1 & H2 & H3). split; [exact H1|]. split; [exact H2|]. split; [exact Io|]. intros n Hn. rewrite H3 by exact Hn. symmetry. apply ghost_size, Io, Hn.
    - destruct H as [H|(H1 & H2 & H3)]; [now left|]. right. split; [|split; [eapply aligns_ext; [|exact H2]; intros k Hk; symmetry; now apply Gk|now rewrite Gd]].
      unfold decay_axis, b, plain_axis. destruct (Nat.eqb_spec (tndim t) 1) as [E|E]; [reflexivity|]. destruct H1 as [H1|H1]; [tauto|]. split; [lia|right; lia]. }
  destruct (decays_array d outer G o _ b D N) as (op & ta & c & E1 & E2 & E3 & E4 & E5 & E6 & E7). rewrite Gd in E6. exists op, ta. split; [|split; [exact E2|]; split; [exact E3|]].
  - destruct o as [z|t]; [exact E1|]. rewrite Gd in E1. cbn [value_given] in H. unfold prepare_alpha in E1. unfold prepare_secondary. destruct (Nat.eqb_spec (tndim t) 0) as [Z|Z]; [exact E1|].
    destruct H as [H|(H1 & H2 & H3)]; [tauto|].
    assert (Fin : forall u, op = Plain u -> rbind (shape_at u (-1)) (fun n => if Nat.eqb n (sz d) then Ok u else Raise EValue) = Ok u).
    { intros u ->. injection E3 as ->. unfold shape_at. change (-1)%Z with (- Z.of_nat 1)%Z. rewrite (zread_neg _ _ 0) by (change (List.length (tshape ta)) with (tndim ta); lia). cbn [rbind].
      change (List.length (tshape ta)) with (tndim ta). replace (tndim ta - 1) with c by lia. change (nth c (tshape ta) 0) with (shape_of ta c). rewrite E6, Nat.eqb_refl. reflexivity. }
    destruct (Nat.eqb_spec (tndim t) 1) as [O|O]; cbn [rbind fst snd].
    + cbn in E1. injection E1 as <-. rewrite (Fin t eq_refl). reflexivity.
    + destruct H1 as [H1|H1]; [tauto|]. assert (Ex : normalize_axis_index (AInt (-1 - Z.of_nat r)) (tndim t) None = Ok (tndim t - 1 - r)) by (apply normalize_index_ok; split; [lia|right; lia]).
      rewrite Ex in E1. cbn [rbind] in E1.
      assert (Pn : positive_to_negative_index (Z.of_nat (tndim t - 1 - r)) (Z.of_nat (tndim t)) = (-1 - Z.of_nat r)%Z).
      { unfold positive_to_negative_index. destruct (Z.ltb_spec (Z.of_nat (tndim t - 1 - r)) 0); lia. }
      rewrite Pn in E1. destruct (true && negb (-1 - Z.of_nat r =? -1)%Z)%bool eqn:B.
      * destruct (np_moveaxis _ _ t) as [u|] eqn:M; [|discriminate]. cbn in E1. injection E1 as <-. cbn [rbind fst snd]. rewrite (Fin u eq_refl). reflexivity.
      * cbn in E1. injection E1 as <-. cbn [rbind fst snd]. cbn [andb] in B. apply Bool.negb_false_iff, Z.eqb_eq in B. rewrite B. rewrite (Fin t eq_refl). reflexivity.
  - split.
    { destruct o as [z|t]; [|exact I]. injection E1 as <-. destruct H as (H1 & H2 & _). destruct (broadcast_placed z outer [d] H1 N Io) as (t & Et & Pt); [intros n [<-|[]]; exact H2|]. rewrite Et in E3. now injection E3 as <-. }
    exists c. split; [exact E4|]. split; [eapply aligns_ext; [exact Gk|exact E5]|]. split; [exact E6|]. intros e env i He Hi Li.
    assert (La : c <= List.length outer). { destruct E5 as (_ & _ & _ & A4 & _). rewrite seq_length in A4. rewrite <- E4 in A4. replace (S c) with (c + 1) in A4 by lia. change [c] with (seq c 1) in A4. rewrite except_seq_last, seq_length in A4. exact A4. }
    rewrite (read_aligned ta c) by (auto; apply E5).
    assert (Hi' : inside_names (dim_size G) outer env) by (intros n Hn; rewrite Go by exact Hn; now apply Hi).
    pose proof (E7 e env He Hi') as Q. rewrite Gd in Q. unfold decays, decays_named in Q. rewrite Gd in Q. destruct o as [z|t].
    + pose proof (ext_in_map Q i) as Q'. cbv beta in Q'. destruct (Nat.eqb_spec (tndim ta) 0); [lia|]. apply Q', in_seq. lia.
    + unfold decays in Q. pose proof (ext_in_map Q i) as Q'. cbv beta in Q'. destruct (Nat.eqb_spec (tndim ta) 0); [lia|]. unfold value_at. apply Q', in_seq. lia.
Qed.

Lemma all_names_In ops n : In n (all_names ops) <-> exists z, In (Labelled z) ops /\ In n (x_dims z).
Proof.
  unfold all_names. rewrite <- in_rev, nodup_In, <- in_rev, in_flat_map. split.
  - intros (o & Ho & Hn). destruct o as [z|t]; [eauto|destruct Hn].
  - intros (z & Hz & Hn). exists (Labelled z). auto.
Qed.
Lemma labelled_of_In ops z : In z (labelled_of ops) <-> In (Labelled z) ops.
Proof.
  unfold labelled_of. rewrite in_flat_map. split.
  - intros (o & Ho & Hn). destruct o as [z'|t]; [destruct Hn as [->|[]]; exact Ho|destruct Hn].
  - intros H. exists (Labelled z). split; [exact H|now left].
Qed.
Lemma labelled_of_app a b : labelled_of (a ++ b) = (labelled_of a ++ labelled_of b)%list.
Proof. apply flat_map_app. Qed.
Lemma all_names_labelled ops : all_names ops = first_seen (flat_map x_dims (labelled_of ops)).
Proof.
  unfold all_names, first_seen. do 3 f_equal. induction ops as [|[z|t] ops IH]; [reflexivity| |exact IH]. cbn. now rewrite IH.
Qed.
Lemma from_end_map (sz : sname -> nat) l d k : k <= List.length l -> from_end (map sz (l ++ [d])) k = sz (nth (List.length l - k) (l ++ [d]) "").
Proof.
  intros H. rewrite from_end_nth by (rewrite map_length, app_length; cbn; lia). rewrite map_length, app_length. cbn [List.length]. rewrite nth_map_dims by (rewrite app_length; cbn; lia). do 2 f_equal. lia.
Qed.

Lemma Forall2_right {X Y} (Q : X -> Y -> Prop) l l' t : Forall2 Q l l' -> In t l' -> exists o, In o l /\ Q o t.
Proof. intros F. induction F as [|o t' l l' H F IH]; intros Ht; [destruct Ht|]. destruct Ht as [->|Ht]; [exists o; split; [now left|exact H]|]. destruct (IH Ht) as (o' & H1 & H2). exists o'. split; [now right|exact H2]. Qed.
Lemma Forall2_left {X Y} (Q : X -> Y -> Prop) l l' o : Forall2 Q l l' -> In o l -> exists t, In t l' /\ Q o t.
Proof. intros F. induction F as [|o' t' l l' H F IH]; intros Ht; [destruct Ht|]. destruct Ht as [->|Ht]; [exists t'; split; [now left|exact H]|]. destruct (IH Ht) as (o'' & H1 & H2). exists o''. split; [now right|exact H2]. Qed.

Section Values.
  Variables (x : xarr) (others : list xop) (d : sname) (sz : sname -> nat) (r : nat).
  Let ops := Labelled x :: others.
  Let outer := other_names d ops.
  Let s := map sz (outer ++ [d]).
  Hypothesis Hg : forall o, In o ops -> value_given d outer sz r o.

  Lemma outer_NoDup : NoDup (outer ++ [d]).
  Proof.
    apply NoDup_app_iff. split; [apply NoDup_filter, NoDup_rev, NoDup_nodup|]. split; [repeat constructor; intros []|]. intros n Hn [<-|[]]. apply except_name_In in Hn. destruct Hn as [_ Hn]. apply Hn. now left.
  Qed.
  Lemma outer_In n : In n (outer ++ [d]) <-> In n (all_names ops).
  Proof.
    unfold outer, other_names. rewrite in_app_iff, except_name_In. split.
    - intros [[H _]|[<-|[]]]; [exact H|]. apply all_names_In. exists x. split; [now left|]. destruct (Hg (Labelled x)) as (_ & H & _); [now left|exact H].
    - intros H. destruct (string_dec n d) as [->|Q]; [right; now left|]. left. split; [exact H|]. intros [Q'|[]]. congruence.
  Qed.
  Lemma operand_incl o : In o ops -> incl (match o with Labelled z => x_dims z | Plain _ => [] end) (outer ++ [d]).
  Proof. intros Ho n Hn. apply outer_In, all_names_In. destruct o as [z|t]; [eauto|destruct Hn]. Qed.

  Lemma ops_prepared : exists others' tx ts,
    mapR (fun o => match o with Labelled _ => Ok o | Plain t => rmap Plain (prepare_secondary (-1 - Z.of_nat r) (sz d) true t) end) others = Ok others' /\
    labelled_of others' = labelled_of others /\ broadcast_compat outer [d] x = Ok tx /\
    mapR (fun a : xop * list sname => match fst a with Labelled z => broadcast_compat outer (snd a) z | Plain t => Ok t end) (map (fun o => (o, [d])) others') = Ok ts /\
    Forall2 (fits_value d outer sz r) ops (tx :: ts).
  Proof.
    assert (G : forall o, In o ops -> exists o' t, match o with Labelled _ => Ok o | Plain t => rmap Plain (prepare_secondary (-1 - Z.of_nat r) (sz d) true t) end = Ok o' /\
      labelled_of [o'] = labelled_of [o] /\ match o' with Labelled z => broadcast_compat outer [d] z | Plain t => Ok t end = Ok t /\ fits_value d outer sz r o t).
    { intros o Ho. apply value_prepared; [now apply Hg|apply outer_NoDup|now apply operand_incl]. }
    assert (X : forall l, incl l ops -> exists l' ts, mapR (fun o => match o with Labelled _ => Ok o | Plain t => rmap Plain (prepare_secondary (-1 - Z.of_nat r) (sz d) true t) end) l = Ok l' /\
      labelled_of l' = labelled_of l /\ mapR (fun a : xop * list sname => match fst a with Labelled z => broadcast_compat outer (snd a) z | Plain t => Ok t end) (map (fun o => (o, [d])) l') = Ok ts /\
      Forall2 (fits_value d outer sz r) l ts).
    { induction l as [|o l IH]; intros I; [exists [], []; repeat split; constructor|]. destruct (G o) as (o' & t & E1 & E2 & E3 & E4); [apply I; now left|].
      destruct IH as (l' & ts & F1 & F2 & F3 & F4); [intros q Hq; apply I; now right|]. exists (o' :: l'), (t :: ts). cbn [mapR map fst snd]. rewrite E1, F1. cbn [rbind]. split; [reflexivity|].
      split; [change (o' :: l') with ([o'] ++ l')%list; change (o :: l) with ([o] ++ l)%list; now rewrite !labelled_of_app, E2, F2|]. rewrite E3, F3. split; [reflexivity|]. now constructor. }
    destruct (G (Labelled x)) as (o' & tx & E1 & E2 & E3 & E4); [now left|]. injection E1 as <-. destruct (X others) as (l' & ts & F1 & F2 & F3 & F4); [intros q Hq; now right|].
    exists l', tx, ts. repeat (split; [assumption|]). now constructor.
  Qed.

  Lemma fits_ndim o t : fits_value d outer sz r o t -> tensor_ok t /\ 1 <= tndim t <= S (List.length outer) /\ dim_from_end t 0 = sz d /\
    forall k, 1 <= k < tndim t -> dim_from_end t k = sz (nth (List.length outer - k) outer "") \/ dim_from_end t k = 1.
  Proof.
    intros (_ & c & E1 & (A1 & A2 & A3 & A4 & A5) & E3 & _).
    assert (Ee : except_nat (seq 0 (tndim t)) [c] = seq 0 c). { rewrite <- E1. replace (S c) with (c + 1) by lia. change [c] with (seq c 1). apply except_seq_last. }
    rewrite Ee, !seq_length in A4. split; [exact A1|]. split; [lia|].
    assert (Fe : forall k, k < tndim t -> dim_from_end t k = shape_of t (c - k)).
    { intros k Hk. unfold dim_from_end. rewrite from_end_nth by exact Hk. unfold shape_of. f_equal. change (List.length (tshape t)) with (tndim t). lia. }
    split; [rewrite Fe by lia; now rewrite Nat.sub_0_r|]. intros k Hk. rewrite Fe by lia. destruct (A5 (c - k)) as [Q|Q]; [rewrite Ee; apply in_seq; lia| |now right]. left. rewrite Q. do 2 f_equal.
    unfold aligned_with. rewrite Ee, !seq_length, index_of_front by lia. rewrite seq_nth by lia. lia.
  Qed.

  Lemma ops_shape_of sub tx ts : incl sub others -> (forall n, In n outer -> In n (all_names (Labelled x :: sub))) ->
    Forall2 (fits_value d outer sz r) (Labelled x :: sub) (tx :: ts) -> broadcasts (map tshape (shaping tx ts)) s.
  Proof.
    intros Is Cov F. inversion F as [|o t l l' Fx Fo]; subst.
    assert (Ls : List.length s = S (List.length outer)) by (unfold s; rewrite map_length, app_length; cbn; lia).
    assert (All : forall t, In t (shaping tx ts) -> exists o, In o ops /\ fits_value d outer sz r o t).
    { intros t [<-|Ht]; [exists (Labelled x); split; [now left|exact Fx]|]. apply filter_In in Ht. destruct Ht as [Ht _]. destruct (Forall2_right _ _ _ _ Fo Ht) as (o & H1 & H2). exists o. split; [right; now apply Is|exact H2]. }
    (* a labelled array with the name number k from the end *)
    assert (Who : forall k, 1 <= k <= List.length outer -> exists t, In t (shaping tx ts) /\ k < tndim t /\ dim_from_end t k = sz (nth (List.length outer - k) outer "")).
    { intros k Hk. set (n := nth (List.length outer - k) outer ""). assert (In_n : In n outer) by (apply nth_In; lia).
      pose proof (Cov n In_n) as Hn. apply all_names_In in Hn. destruct Hn as (z & Hz & Hn).
      assert (Q : exists t, fits_value d outer sz r (Labelled z) t /\ (t = tx \/ In t ts)).
      { destruct Hz as [Hz|Hz]; [injection Hz as <-; exists tx; split; [exact Fx|now left]|]. destruct (Forall2_left _ _ _ _ Fo Hz) as (t & H1 & H2). exists t. auto. }
      destruct Q as (t & Ft & It). pose proof Ft as (Pt & _). destruct Pt as (_ & Es & _). destruct (trim_spec (x_dims z) outer) as (pre & Eo & Hp).
      set (l := trim (x_dims z) outer) in *. assert (NN := outer_NoDup). apply NoDup_app_iff in NN. destruct NN as (NN & _).
      assert (Lo : List.length outer = List.length pre + List.length l) by (rewrite <- app_length; f_equal; exact Eo).
      assert (Kl : k <= List.length l).
      { destruct (Nat.le_gt_cases k (List.length l)) as [|Q]; [assumption|]. exfalso. apply (Hp n); [|exact Hn]. unfold n. rewrite Eo at 2. rewrite app_nth1 by lia. apply nth_In. lia. }
      assert (Nt : tndim t = S (List.length l)) by (unfold tndim; rewrite Es, map_length, app_length; cbn; lia).
      exists t. split; [destruct It as [->|It]; [now left|]; right; apply filter_In; split; [exact It|]; apply Nat.ltb_lt; lia|]. split; [lia|].
      unfold dim_from_end. rewrite Es, (from_end_map (sizes_of z) l d k Kl). rewrite app_nth1 by lia.
      replace (nth (List.length l - k) l "") with n.
      - unfold sizes_of. pose proof Hn as Sn. apply smem_In in Sn. rewrite Sn. destruct (Hg (Labelled z)) as (_ & _ & H3); [destruct Hz as [Hz|Hz]; [now left|right; now apply Is]|now apply H3].
      - unfold n. rewrite Eo at 2. rewrite app_nth2 by lia. f_equal. lia. }
    split; [|split].
    - intros q Hq. apply in_map_iff in Hq. destruct Hq as (t & <- & Ht). destruct (All t Ht) as (o & _ & Ho). apply fits_ndim in Ho. rewrite Ls. apply Ho.
    - right. destruct (Nat.eq_dec (List.length outer) 0) as [Eo|Eo].
      + exists (tshape tx). split; [now left|]. apply fits_ndim in Fx. rewrite Ls. unfold tndim in Fx. lia.
      + destruct (Who (List.length outer)) as (t & Ht & Lt & _); [lia|]. exists (tshape t). split; [now apply in_map|]. destruct (All t Ht) as (o & _ & Ho). apply fits_ndim in Ho. unfold tndim in *. rewrite Ls. lia.
    - intros k Hk. rewrite Ls in Hk. assert (Fk : from_end s k = if Nat.eqb k 0 then sz d else sz (nth (List.length outer - k) outer "")).
      { unfold s. rewrite from_end_map by lia. destruct (Nat.eqb_spec k 0) as [->|Q]; [rewrite app_nth2 by lia; rewrite Nat.sub_0_r, Nat.sub_diag; reflexivity|]. rewrite app_nth1 by lia. reflexivity. }
      rewrite Fk. split.
      + intros q Hq. apply in_map_iff in Hq. destruct Hq as (t & <- & Ht). destruct (All t Ht) as (o & _ & Ho). apply fits_ndim in Ho. destruct Ho as (H1 & H2 & H3 & H4). fold (dim_from_end t k).
        destruct (Nat.eqb_spec k 0) as [->|Q]; [now left|]. destruct (Nat.lt_ge_cases k (tndim t)) as [L|L]; [apply H4; lia|]. right. unfold dim_from_end, from_end. apply nth_overflow. rewrite rev_length. exact L.
      + destruct (Nat.eqb_spec k 0) as [->|Q].
        * right. exists (tshape tx). split; [now left|]. apply fits_ndim in Fx. apply Fx.
        * right. destruct (Who k ltac:(lia)) as (t & Ht & _ & E). exists (tshape t). split; [now apply in_map|exact E].
  Qed.
  Lemma ops_shape tx ts : Forall2 (fits_value d outer sz r) ops (tx :: ts) -> broadcasts (map tshape (shaping tx ts)) s.
  Proof. apply ops_shape_of; [apply incl_refl|]. intros n Hn. apply outer_In, in_or_app. now left. Qed.
  Lemma ops_agree_of sub tx ts : Forall2 (fits_value d outer sz r) (Labelled x :: sub) (tx :: ts) -> samples_agree tx ts (AInt (-1)) 0 /\ dim_from_end tx 0 = sz d.
  Proof.
    intros F. inversion F as [|o t l l' Fx Fo]; subst. apply fits_ndim in Fx. destruct Fx as (X1 & X2 & X3 & _). split; [|exact X3]. split; [exact X1|]. split.
    - exists (tndim tx - 1). split; [|lia]. split; [lia|right; lia].
    - intros t Ht. destruct (Forall2_right _ _ _ _ Fo Ht) as (o & _ & G). apply fits_ndim in G. destruct G as (G1 & G2 & G3 & _). split; [exact G1|]. right. rewrite X3. destruct (Nat.eq_dec (tndim t) 1) as [E|E]; [left; auto|right]. split; [lia|]. split; [lia|exact G3].
  Qed.
  Lemma ops_agree tx ts : Forall2 (fits_value d outer sz r) ops (tx :: ts) -> samples_agree tx ts (AInt (-1)) 0 /\ dim_from_end tx 0 = sz d.
  Proof. apply ops_agree_of. Qed.
End Values.

Lemma mapR_app {X Y} (f : X -> res Y) a b ya yb : mapR f a = Ok ya -> mapR f b = Ok yb -> mapR f (a ++ b) = Ok (ya ++ yb)%list.
Proof.
  revert ya. induction a as [|q a IH]; intros ya Ha Hb; [injection Ha as <-; exact Hb|]. cbn [app mapR] in *. destruct (f q) as [y|]; [|discriminate]. cbn [rbind] in *. destruct (mapR f a) as [l|]; [|discriminate].
  cbn [rbind] in *. injection Ha as <-. rewrite (IH l eq_refl Hb). reflexivity.
Qed.
Lemma outer_same core xs zs d outer : NoDup outer -> outer = except_name (first_seen (flat_map x_dims xs)) [d] -> (forall n, In n (flat_map x_dims xs) -> In n core <-> n = d) ->
  (forall z n, In z zs -> In n (x_dims z) -> In n core \/ In n (flat_map x_dims xs)) -> outer_dims [] core (xs ++ zs) = outer.
Proof.
  intros N -> Hc Hz. unfold outer_dims. rewrite flat_map_app. set (l := flat_map x_dims xs) in *. set (l' := flat_map x_dims zs).
  assert (Hz' : forall n, In n l' -> In n core \/ In n l) by (intros n Hn; apply in_flat_map in Hn; destruct Hn as (z & H1 & H2); eauto).
  assert (E0 : except_name (l ++ l') [] = (l ++ l')%list). { unfold except. apply filter_all. intros n _. destruct (in_dec string_dec n []) as [[]|]; reflexivity. } rewrite E0. clearbody l'.
  induction l' as [|n l' IH] using rev_ind.
  - rewrite app_nil_r. unfold except. apply filter_ext_in. intros n Hn. apply (proj1 (first_seen_In _ _)) in Hn. destruct (in_dec string_dec n core) as [Q|Q], (in_dec string_dec n [d]) as [Q'|Q']; try reflexivity.
    + elim Q'. left. symmetry. exact (proj1 (Hc n Hn) Q).
    + destruct Q' as [<-|[]]. elim Q. exact (proj2 (Hc d Hn) eq_refl).
  - rewrite app_assoc, first_seen_snoc. assert (Hz'' : forall m, In m l' -> In m core \/ In m l) by (intros m Hm; apply Hz', in_or_app; now left).
    destruct (smem n (l ++ l')) eqn:S; [apply IH; [exact Hz''|unfold except; apply filter_all; intros m _; destruct (in_dec string_dec m []) as [[]|]; reflexivity]|].
    assert (Hn : In n core). { destruct (Hz' n) as [Q|Q]; [apply in_or_app; right; now left|exact Q|]. apply smem_false in S. elim S. apply in_or_app. now left. }
    unfold except at 1. rewrite filter_app. cbn [filter]. destruct (in_dec string_dec n core); [|tauto]. rewrite app_nil_r. apply IH; [exact Hz''|unfold except; apply filter_all; intros m _; destruct (in_dec string_dec m []) as [[]|]; reflexivity].
Qed.

Section ValuesApply.
  Context {A : Type} (P : packer A) {B T : Type}.
  Variables (x : xarr) (others : list xop) (d : sname) (md : list sname) (sz : sname -> nat) (r : nat).
  Let ops := Labelled x :: others.
  Let outer := other_names d ops.
  Let s := map sz (outer ++ [d]).
  Hypothesis Hg : forall o, In o ops -> value_given d outer sz r o.
  Hypothesis Nmd : NoDup md.
  Hypothesis Hmd : forall n, In n md -> ~ In n (all_names ops).
  Hypothesis Pm : map sz md = pk_shape P.

  Lemma d_name : In d (all_names ops).
  Proof. apply all_names_In. exists x. split; [now left|]. destruct (Hg (Labelled x)) as (_ & H & _); [now left|exact H]. Qed.
  Lemma full_NoDup rd : rd = d \/ ~ In rd (all_names ops) -> ~ In rd md -> NoDup (outer ++ rd :: md).
  Proof.
    intros Hr Nr. pose proof (outer_NoDup x others d) as N. fold ops outer in N. apply NoDup_app_iff in N. destruct N as (N1 & _ & _). apply NoDup_app_iff. split; [exact N1|]. split; [now constructor|].
    intros n Hn Q. unfold outer, other_names in Hn. apply except_name_In in Hn. destruct Hn as [Hn Hd]. destruct Q as [<-|Q]; [|now apply (Hmd n)].
    destruct Hr as [->|Hr]; [apply Hd; now left|tauto].
  Qed.
  Lemma d_not_moment : ~ In d md.
  Proof. intros H. apply (Hmd d H), d_name. Qed.
  Lemma frame_ghost : frame s (pk_shape P) = x_val (ghost sz (outer ++ d :: md)).
  Proof. unfold frame, ghost, s. cbn [x_val]. rewrite <- Pm, <- map_app, <- app_assoc. reflexivity. Qed.

  Variables (others' : list xop) (tx : tensor) (ts : list tensor).
  Hypothesis Ho : labelled_of others' = labelled_of others.
  Hypothesis Etx : broadcast_compat outer [d] x = Ok tx.
  Hypothesis Ets : mapR (fun a : xop * list sname => match fst a with Labelled z => broadcast_compat outer (snd a) z | Plain t => Ok t end) (map (fun o => (o, [d])) others') = Ok ts.
  Variables (more : list (xop * list sname)) (tm : list tensor).
  Hypothesis Etm : mapR (fun a : xop * list sname => match fst a with Labelled z => broadcast_compat outer (snd a) z | Plain t => Ok t end) more = Ok tm.

  Lemma args_labelled : labelled_of (map fst (values_args d x others' ++ more)) = (labelled_of ops ++ labelled_of (map fst more))%list.
  Proof.
    unfold values_args. rewrite map_app, map_map. cbn [fst]. rewrite map_id, labelled_of_app. f_equal. unfold ops. cbn [labelled_of flat_map app]. f_equal. exact Ho.
  Qed.
  Lemma args_core n : In n (flat_map snd (values_args d x others' ++ more)) <-> n = d \/ In n (flat_map snd more).
  Proof.
    rewrite flat_map_app, in_app_iff. unfold values_args. split.
    - intros [H|H]; [|now right]. apply in_flat_map in H. destruct H as (q & H1 & H2). apply in_map_iff in H1. destruct H1 as (o & <- & _). destruct H2 as [<-|[]]. now left.
    - intros [->|H]; [left|now right]. cbn [map flat_map snd]. now left.
  Qed.
  Lemma ops_names n : In n (flat_map x_dims (labelled_of ops)) <-> In n (all_names ops).
  Proof. rewrite all_names_labelled. symmetry. apply first_seen_In. Qed.
  Lemma args_outer ocore : (forall n, In n ocore -> In n (all_names ops) -> n = d) -> (forall n, In n (flat_map snd more) -> In n (all_names ops) -> n = d) ->
    (forall z n, In z (labelled_of (map fst more)) -> In n (x_dims z) -> In n ocore \/ In n (flat_map snd more) \/ In n (all_names ops)) ->
    outer_dims [] (flat_map snd (values_args d x others' ++ more) ++ ocore) (labelled_of (map fst (values_args d x others' ++ more))) = outer.
  Proof.
    intros H1 H2 H3. rewrite args_labelled. apply (outer_same _ _ _ d).
    - pose proof (outer_NoDup x others d) as N. fold ops outer in N. apply NoDup_app_iff in N. apply N.
    - unfold outer, other_names. now rewrite all_names_labelled.
    - intros n Hn. apply ops_names in Hn. rewrite in_app_iff, args_core. split; [intros [[Q|Q]|Q]; auto|auto].
    - intros z n Hz Hn. rewrite in_app_iff, args_core, ops_names. destruct (H3 z n Hz Hn) as [Q|[Q|Q]]; auto.
  Qed.
  Lemma args_tensors : mapR (fun a : xop * list sname => match fst a with Labelled z => broadcast_compat outer (snd a) z | Plain t => Ok t end) (values_args d x others' ++ more) = Ok (tx :: ts ++ tm)%list.
  Proof. unfold values_args. cbn [map app mapR fst snd]. rewrite Etx. cbn [rbind]. rewrite (mapR_app _ _ _ _ _ Ets Etm). reflexivity. Qed.
  Lemma args_agree SZ : (forall n, In n (all_names ops) -> SZ n = sz n) -> (forall z n, In z (labelled_of (map fst more)) -> x_ok z /\ (In n (x_dims z) -> dim_size z n = SZ n)) ->
    agree [] SZ (labelled_of (map fst (values_args d x others' ++ more))).
  Proof.
    intros H1 H2 z Hz. rewrite args_labelled in Hz. apply in_app_or in Hz. destruct Hz as [Hz|Hz].
    - apply labelled_of_In in Hz. destruct (Hg _ Hz) as (G1 & G2 & G3). split; [exact G1|]. intros n Hn _. rewrite H1; [now apply G3|]. apply all_names_In. eauto.
    - split; [apply (H2 z d Hz)|]. intros n Hn _. now apply (H2 z n Hz).
  Qed.

  Lemma values_apply (dflt : T) (val : B -> list nat -> T) rd newlen run run' (f : list tensor -> res (grid T)) :
    rd = d \/ ~ In rd (all_names ops) -> ~ In rd md -> (rd = d -> newlen = sz d) ->
    (forall z n, In z (labelled_of (map fst more)) -> x_ok z /\ (In n (x_dims z) -> (In n (rd :: md) \/ In n (all_names ops)) /\ dim_size z n = result_size sz rd newlen n)) ->
    (forall n, In n (flat_map snd more) -> n = d \/ In n (rd :: md)) ->
    by_columns dflt val run false newlen (List.length outer) (seq (S (List.length outer)) (List.length (pk_shape P))) (frame s (pk_shape P)) (f (tx :: ts ++ tm)%list) ->
    (forall e env, (forall k, k < List.length outer -> e k = env (nth k outer "")) -> inside_names sz outer env -> run e = run' env) ->
    by_name dflt val run' (outer ++ rd :: md) (result_size sz rd newlen) rd md (apply_ufunc (values_args d x others' ++ more) (rd :: md) [] f).
  Proof.
    intros Hr Nr Hn Hm Hc C R. set (y := ghost sz (outer ++ d :: md)).
    pose proof (full_NoDup d (or_introl eq_refl) d_not_moment) as Nd. pose proof (full_NoDup rd Hr Nr) as Nrd.
    assert (Hy : x_ok y) by now apply ghost_ok. rewrite frame_ghost in C. fold y in C. rewrite <- Pm, map_length in C.
    assert (Sy : forall n, In n (outer ++ d :: md) -> dim_size y n = sz n) by (intros n; apply ghost_size).
    pose proof (columns_named outer md d y Hy eq_refl dflt val run run' rd newlen (f (tx :: ts ++ tm)%list) Nrd C) as C2.
    assert (C3 : by_name dflt val run' (outer ++ rd :: md) (result_size sz rd newlen) rd md (rmap (LG (outer ++ rd :: md)) (f (tx :: ts ++ tm)%list))).
    { eapply by_name_ext; [| |apply C2].
      - intros n Hn'. unfold result_size. destruct (String.eqb_spec n rd) as [|Q]; [reflexivity|]. apply Sy. apply in_app_or in Hn'. apply in_or_app. destruct Hn' as [Q'|[Q'|Q']]; [now left|congruence|right; now right].
      - reflexivity.
      - intros e env He Hi. apply R; [exact He|]. intros n Hn'. rewrite <- Sy by (apply in_or_app; now left). now apply Hi. }
    assert (Names : forall n, In n (rd :: md) -> In n (all_names ops) -> n = d).
    { intros n [<-|Q] Q'; [destruct Hr as [|Hr]; [assumption|tauto]|]. elim (Hmd n Q Q'). }
    assert (EO : outer_dims [] (flat_map snd (values_args d x others' ++ more) ++ rd :: md) (labelled_of (map fst (values_args d x others' ++ more))) = outer).
    { apply args_outer; [exact Names| |].
      - intros n Q Q'. destruct (Hc n Q) as [|Q2]; [assumption|]. now apply Names.
      - intros z n Hz Hn'. destruct (Hm z n Hz) as [_ Q]. destruct (Q Hn') as [[Q1|Q1] _]; auto. }
    rewrite (apply_ufunc_eq _ (rd :: md) [] f (result_size sz rd newlen) (tx :: ts ++ tm)%list); cbv zeta; rewrite ?EO.
    - exact C3.
    - apply args_agree.
      + intros n Hn'. unfold result_size. destruct (String.eqb_spec n rd) as [->|]; [|reflexivity]. assert (rd = d) by (apply Names; [now left|exact Hn']). subst rd. now apply Hn.
      + intros z n Hz. destruct (Hm z n Hz) as [Q1 Q2]. split; [exact Q1|]. intros Q. now apply Q2.
    - exact args_tensors.
    - intros g Eg. rewrite Eg in C3. cbn [rmap rbind by_name] in C3. destruct C3 as (_ & _ & Sg & _). cbn [lg_val] in Sg. rewrite Sg, map_length. split; [reflexivity|].
      intros n k Hk _ _. rewrite combine_map_r in Hk. apply in_map_iff in Hk. destruct Hk as (n' & Q & _). now inversion Q.
  Qed.
  Lemma values_raise rd newlen (f : list tensor -> res (grid T)) e :
    rd = d \/ ~ In rd (all_names ops) -> (rd = d -> newlen = sz d) ->
    (forall z n, In z (labelled_of (map fst more)) -> x_ok z /\ (In n (x_dims z) -> (In n (rd :: md) \/ In n (all_names ops)) /\ dim_size z n = result_size sz rd newlen n)) ->
    (forall n, In n (flat_map snd more) -> n = d \/ In n (rd :: md)) ->
    f (tx :: ts ++ tm)%list = Raise e -> apply_ufunc (values_args d x others' ++ more) (rd :: md) [] f = Raise e.
  Proof.
    intros Hr Hn Hm Hc Ef.
    assert (Names : forall n, In n (rd :: md) -> In n (all_names ops) -> n = d).
    { intros n [<-|Q] Q'; [destruct Hr as [|Hr]; [assumption|tauto]|]. elim (Hmd n Q Q'). }
    assert (EO : outer_dims [] (flat_map snd (values_args d x others' ++ more) ++ rd :: md) (labelled_of (map fst (values_args d x others' ++ more))) = outer).
    { apply args_outer; [exact Names| |].
      - intros n Q Q'. destruct (Hc n Q) as [|Q2]; [assumption|]. now apply Names.
      - intros z n Hz Hn'. destruct (Hm z n Hz) as [_ Q]. destruct (Q Hn') as [[Q1|Q1] _]; auto. }
    rewrite (apply_ufunc_eq _ (rd :: md) [] f (result_size sz rd newlen) (tx :: ts ++ tm)%list); cbv zeta; rewrite ?EO.
    - now rewrite Ef.
    - apply args_agree.
      + intros n Hn'. unfold result_size. destruct (String.eqb_spec n rd) as [->|]; [|reflexivity]. assert (rd = d) by (apply Names; [now left|exact Hn']). subst rd. now apply Hn.
      + intros z n Hz. destruct (Hm z n Hz) as [Q1 Q2]. split; [exact Q1|]. intros Q. now apply Q2.
    - exact args_tensors.
    - intros g Eg. congruence.
  Qed.
End ValuesApply.

(* transposing back, and renaming *)
Section ValuesBack.
  Variables (x : xarr) (others : list xop) (d : sname) (md : list sname).
  Let ops := Labelled x :: others.
  Let outer := other_names d ops.
  Hypothesis Hx : x_ok x.
  Hypothesis Hd : In d (x_dims x).
  Hypothesis Nmd : NoDup md.
  Hypothesis Hmd : forall n, In n md -> ~ In n (all_names ops).

  Lemma x_names n : In n (x_dims x) -> In n (all_names ops).
  Proof. intros H. apply all_names_In. exists x. split; [now left|exact H]. Qed.
  Lemma outer_names_In n : In n outer <-> In n (all_names ops) /\ n <> d.
  Proof. unfold outer, other_names. rewrite except_name_In. cbn. intuition congruence. Qed.
  Lemma replaced_In rd n : In n (map (fun n => if String.eqb n d then rd else n) (x_dims x)) <-> n = rd \/ In n (x_dims x) /\ n <> d.
  Proof.
    rewrite in_map_iff. split.
    - intros (m & E & Hm). destruct (String.eqb_spec m d) as [Q|Q]; [left; congruence|right; rewrite <- E; auto].
    - intros [->|[H Q]]; [exists d; rewrite String.eqb_refl; auto|]. exists n. destruct (String.eqb_spec n d); [congruence|auto].
  Qed.
  Lemma values_dims_In to_end rd n : In n (values_dims to_end d rd md x ops) <-> In n (outer ++ rd :: md).
  Proof.
    unfold values_dims. fold outer. destruct to_end; [reflexivity|]. rewrite !in_app_iff, replaced_In, except_name_In. cbn [In]. rewrite outer_names_In.
    split; [|destruct (in_dec string_dec n (x_dims x)); intuition].
    intros [H|[[->|[H Q]]|H]]; auto; [left; tauto|]. left. split; [now apply x_names|exact Q].
  Qed.
  Lemma values_dims_NoDup to_end rd : rd = d \/ ~ In rd (all_names ops) -> ~ In rd md -> NoDup (values_dims to_end d rd md x ops).
  Proof.
    intros Hr Nr. assert (N1 : NoDup outer) by (apply NoDup_filter, NoDup_rev, NoDup_nodup).
    assert (Ro : ~ In rd outer) by (intros Q; apply outer_names_In in Q; destruct Q, Hr; congruence).
    assert (Mo : forall n, In n md -> ~ In n outer) by (intros n Hn Q; apply outer_names_In in Q; now apply (Hmd n)).
    unfold values_dims. fold outer. destruct to_end.
    - apply NoDup_app_iff. split; [exact N1|]. split; [now constructor|]. intros n Hn [<-|Q]; [tauto|now apply (Mo n)].
    - apply NoDup_app_iff. split; [now apply NoDup_filter|]. split.
      + apply NoDup_app_iff. split; [|split; [exact Nmd|]].
        * apply NoDup_map_in; [apply Hx|]. intros a b Ha Hb. destruct (String.eqb_spec a d) as [->|], (String.eqb_spec b d) as [->|]; try congruence; intros E; subst; destruct Hr as [Q|Q]; try congruence; elim Q; now apply x_names.
        * intros n Hn Q. apply replaced_In in Hn. destruct Hn as [->|[Hn _]]; [tauto|]. apply (Hmd n Q), x_names, Hn.
      + intros n Hn Q. apply except_name_In in Hn. destruct Hn as [Hn Hn']. apply in_app_or in Q. rewrite replaced_In in Q. destruct Q as [[->|[Q _]]|Q]; [tauto|tauto|now apply (Mo n)].
  Qed.
  Lemma values_dims_rename to_end rd : map (fun n => if String.eqb n d then rd else n) (values_dims to_end d d md x ops) = values_dims to_end d rd md x ops.
  Proof.
    assert (Dm : ~ In d md) by (intros Q; apply (Hmd d Q), x_names, Hd).
    assert (X : forall l, ~ In d l -> map (fun n => if String.eqb n d then rd else n) l = l).
    { intros l H. transitivity (map (fun n : sname => n) l); [|apply map_id]. apply map_ext_in. intros n Hn. destruct (String.eqb_spec n d) as [->|]; [tauto|reflexivity]. }
    assert (Do : ~ In d outer) by (intros Q; apply outer_names_In in Q; tauto).
    unfold values_dims. fold outer. destruct to_end; rewrite !map_app.
    - cbn [map]. rewrite String.eqb_refl, !X by assumption. reflexivity.
    - rewrite (X (except_name outer (x_dims x))) by (intros Q; apply except_name_In in Q; tauto). rewrite (X md) by exact Dm. do 2 f_equal. rewrite map_map. apply map_ext. intros n. destruct (String.eqb_spec n d) as [->|Q]; [now rewrite String.eqb_refl|]. destruct (String.eqb_spec n d); congruence.
  Qed.

  Lemma values_back {T} (dflt : T) sz rd to_end (g : lgrid T) : rd = d \/ ~ In rd (all_names ops) -> ~ In rd md -> l_named sz (outer ++ rd :: md) g ->
    exists g', finish_values dflt to_end x (fun n => if String.eqb n d then rd else n) md g = Ok g' /\
      l_named sz (values_dims to_end d rd md x ops) g' /\ forall env, inside_names sz (outer ++ rd :: md) env -> l_at dflt g' env = l_at dflt g env.
  Proof.
    intros Hr Nr G. unfold finish_values. destruct to_end; [exists g; split; [reflexivity|]; split; [exact G|reflexivity]|].
    pose proof (values_dims_NoDup true rd Hr Nr) as No. cbn [values_dims] in No. fold outer in No. pose proof (values_dims_NoDup false rd Hr Nr) as Nf. unfold values_dims in Nf. fold outer in Nf.
    set (L0 := (map (fun n => if String.eqb n d then rd else n) (x_dims x) ++ md)%list) in *.
    assert (FL : filter (fun n => smem n (outer ++ rd :: md)) (map (fun n => if String.eqb n d then rd else n) (except_name (x_dims x) []) ++ md) = L0).
    { unfold except. rewrite (filter_all _ (x_dims x)) by (intros; reflexivity). fold L0. apply filter_all. intros n Hn. apply smem_In. apply (values_dims_In false rd). unfold values_dims. apply in_or_app. now right. }
    destruct (transpose_like_ok dflt (x_dims x) (fun n => if String.eqb n d then rd else n) [] md sz (outer ++ rd :: md) g G No) as (g' & E & G' & F).
    { cbv zeta. rewrite FL. apply NoDup_app_iff in Nf. apply Nf. }
    cbv zeta in G'. rewrite FL in G'. exists g'. split; [exact E|]. split; [|exact F].
    assert (X : except_name (outer ++ rd :: md) L0 = except_name outer (x_dims x)).
    { unfold except at 1. rewrite filter_app. rewrite (filter_none _ (rd :: md)), app_nil_r.
      - apply filter_ext_in. intros n Hn. apply outer_names_In in Hn. destruct Hn as [Hn Q]. destruct (in_dec string_dec n L0) as [I1|I1], (in_dec string_dec n (x_dims x)) as [I2|I2]; try reflexivity; exfalso.
        + apply in_app_or in I1. rewrite replaced_In in I1. destruct I1 as [[->|I1]|I1]; [destruct Hr; tauto|tauto|now apply (Hmd n)].
        + apply I1, in_or_app. left. apply replaced_In. auto.
      - intros n Hn. destruct (in_dec string_dec n L0) as [I1|I1]; [reflexivity|]. elim I1. apply in_or_app. destruct Hn as [<-|Hn]; [left; apply replaced_In; now left|now right]. }
    rewrite X in G'. exact G'.
  Qed.
  Lemma values_finish {B T} (dflt : T) (val : B -> list nat -> T) run sz rd to_end r : rd = d \/ ~ In rd (all_names ops) -> ~ In rd md ->
    by_name dflt val run (outer ++ rd :: md) sz rd md r ->
    by_name dflt val run (values_dims to_end d rd md x ops) sz rd md (rbind r (finish_values dflt to_end x (fun n => if String.eqb n d then rd else n) md)).
  Proof.
    intros Hr Nr. apply by_name_transpose; [intros n; symmetry; apply values_dims_In|]. intros g. now apply values_back.
  Qed.
  Lemma finish_same {T} (dflt : T) to_end g : finish_values dflt to_end x (fun n => n) md g = finish_values dflt to_end x (fun n => if String.eqb n d then d else n) md g.
  Proof.
    unfold finish_values. destruct to_end; [reflexivity|]. unfold transpose_like. do 3 f_equal. f_equal. apply map_ext. intros n. destruct (String.eqb_spec n d); congruence.
  Qed.
  Lemma values_kept {B T} (dflt : T) (val : B -> list nat -> T) run sz to_end r : 
    by_name dflt val run (outer ++ d :: md) sz d md r ->
    by_name dflt val run (values_dims to_end d d md x ops) sz d md (rbind r (finish_values dflt to_end x (fun n => n) md)).
  Proof.
    intros H. assert (Nd : ~ In d md) by (intros Q; apply (Hmd d Q), x_names, Hd).
    replace (rbind r (finish_values dflt to_end x (fun n => n) md)) with (rbind r (finish_values dflt to_end x (fun n => if String.eqb n d then d else n) md)); [now apply values_finish; [left| |]|].
    destruct r as [g|e]; [|reflexivity]. cbn [rbind]. symmetry. apply finish_same.
  Qed.
  Lemma values_renamed {A B T} (P : packer A) (dflt : T) (val : B -> list nat -> T) run sz newlen to_end new r :
    map sz md = pk_shape P -> (forall env env', (forall n, In n outer -> env n = env' n) -> run env = run env') ->
    let rd := match new with Some n => n | None => d end in rd = d \/ ~ In rd (all_names ops) /\ ~ In rd md ->
    by_name dflt val run (outer ++ d :: md) (result_size sz d newlen) d md r ->
    by_name dflt val run (values_dims to_end d rd md x ops) (result_size sz rd newlen) rd md
      (rbind r (fun g => rbind (finish_values dflt to_end x (fun n => n) md g) (opt_rename d new))).
  Proof.
    intros Pm Rx rd Hr H. assert (Nd : ~ In d md) by (intros Q; apply (Hmd d Q), x_names, Hd). apply (values_kept dflt val run _ to_end) in H.
    set (D := values_dims to_end d d md x ops) in *. assert (ND : NoDup D) by (apply values_dims_NoDup; [now left|exact Nd]).
    assert (ID : forall n, In n D <-> In n (outer ++ d :: md)) by (intros n; apply values_dims_In).
    assert (SD : forall n, In n D -> dim_size (ghost sz D) n = sz n) by (intros n; apply ghost_size).
    assert (HM : labelled_moments P md (ghost sz D)).
    { split; [now apply ghost_ok|]. split; [exact Nmd|]. assert (Im : incl md D) by (intros n Hn; apply ID, in_or_app; right; now right). split; [exact Im|]. rewrite <- Pm. apply map_ext_in. intros n Hn. now apply SD, Im. }
    assert (HD : In d (x_dims (ghost sz D))) by (apply ID, in_or_app; right; now left).
    replace (rbind r (fun g => rbind (finish_values dflt to_end x (fun n => n) md g) (opt_rename d new))) with (rbind (rbind r (finish_values dflt to_end x (fun n => n) md)) (opt_rename d new)) by now destruct r.
    assert (Hr' : rd = d \/ ~ In rd (x_dims (ghost sz D))).
    { destruct Hr as [|[H1 H2]]; [now left|]. right. cbn [ghost x_dims]. rewrite ID, in_app_iff, outer_names_In. intros [Q|[Q|Q]]; [tauto|apply H1; rewrite <- Q; apply x_names, Hd|tauto]. }
    pose proof (rename_by_name P (ghost sz D) md d HM HD Nd dflt val run newlen false (rbind r (finish_values dflt to_end x (fun n => n) md)) new) as Q. cbv zeta in Q. fold rd in Q.
    cbn [result_dims ghost x_dims] in Q. unfold D in Q at 5. rewrite values_dims_rename in Q. fold ops in Q.
    eapply by_name_ext; [| |apply Q].
    - intros n Hn. unfold result_size. destruct (String.eqb_spec n rd) as [|Qn]; [reflexivity|]. apply SD. apply ID. apply values_dims_In in Hn. fold outer in Hn. apply in_app_or in Hn. apply in_or_app. destruct Hn as [Hn|[Hn|Hn]]; [now left|congruence|right; now right].
    - reflexivity.
    - intros env env' He. apply Rx. intros n Hn. apply He. apply except_name_In. cbn [ghost x_dims]. split; [apply ID, in_or_app; now left|]. intros [Q'|Q']; apply outer_names_In in Hn; destruct Hn as [Hn1 Hn2]; [congruence|]. now apply (Hmd n).
    - exact Hr'.
    - rewrite (map_ext _ (fun n => n)), map_id by (intros n; destruct (String.eqb_spec n d); congruence). eapply by_name_ext; [| |exact H]; [|reflexivity]. intros n Hn. unfold result_size. destruct (String.eqb_spec n d); [reflexivity|]. symmetry. now apply SD.
  Qed.
  (* a new name that some operand or the moments have already *)
  Lemma values_rename_collides {B T} (dflt : T) (val : B -> list nat -> T) run sz to_end n r : n <> d -> In n (all_names ops) \/ In n md ->
    by_name dflt val run (outer ++ d :: md) sz d md r ->
    exists e, rbind r (fun g => rbind (finish_values dflt to_end x (fun n => n) md g) (opt_rename d (Some n))) = Raise e /\ (forall g, r = Ok g -> e = EValue).
  Proof.
    intros Q I H. destruct r as [g|e]; cbn [rbind] in *; [|exists e; split; [reflexivity|discriminate]]. exists EValue. split; [|auto].
    assert (Nd : ~ In d md) by (intros Q'; apply (Hmd d Q'), x_names, Hd).
    destruct (values_back dflt sz d to_end g (or_introl eq_refl) Nd (holds_l_named _ _ _ _ _ _ _ _ H)) as (g' & E & (G & _) & _). rewrite finish_same, E. cbn [rbind opt_rename]. unfold l_rename.
    destruct (String.eqb_spec d n); [congruence|]. cbn [negb andb]. assert (Sm : smem n (lg_dims g') = true); [|now rewrite Sm].
    apply smem_In. rewrite G. apply values_dims_In, in_or_app. fold outer. rewrite outer_names_In. cbn [In]. tauto.
  Qed.
End ValuesBack.

(* the same, without further arguments *)
Lemma values_alone {A B T} (P : packer A) x others d md sz r others' tx ts :
  let ops := Labelled x :: others in let outer := other_names d ops in
  (forall o, In o ops -> value_given d outer sz r o) -> NoDup md -> (forall n, In n md -> ~ In n (all_names ops)) -> map sz md = pk_shape P ->
  labelled_of others' = labelled_of others -> broadcast_compat outer [d] x = Ok tx ->
  mapR (fun a : xop * list sname => match fst a with Labelled z => broadcast_compat outer (snd a) z | Plain t => Ok t end) (map (fun o => (o, [d])) others') = Ok ts ->
  (forall (dflt : T) (val : B -> list nat -> T) run run' f,
    by_columns dflt val run false (sz d) (List.length outer) (seq (S (List.length outer)) (List.length (pk_shape P))) (frame (map sz (outer ++ [d])) (pk_shape P)) (f (tx :: ts)) ->
    (forall e env, (forall k, k < List.length outer -> e k = env (nth k outer "")) -> inside_names sz outer env -> run e = run' env) ->
    by_name dflt val run' (outer ++ d :: md) sz d md (apply_ufunc (values_args d x others') (d :: md) [] f)) /\
  (forall (f : list tensor -> res (grid T)) e, f (tx :: ts) = Raise e -> apply_ufunc (values_args d x others') (d :: md) [] f = Raise e).
Proof.
  intros ops outer Hg Nmd Hmd Pm Ho Etx Ets. pose proof (d_not_moment x others d md sz r Hg Hmd) as Nd. split.
  - intros dflt val run run' f C Rn. pose proof (values_apply P x others d md sz r Hg Nmd Hmd Pm others' tx ts Ho Etx Ets [] [] eq_refl dflt val d (sz d) run run' f) as Q. rewrite !app_nil_r in Q.
    match type of Q with _ -> _ -> _ -> _ -> _ -> _ -> _ -> by_name _ _ _ ?D _ _ _ _ => eapply (by_name_ext _ _ run' run' D (result_size sz d (sz d)) sz) end.
    + intros n _. unfold result_size. destruct (String.eqb_spec n d) as [->|]; reflexivity.
    + reflexivity.
    + apply Q; [now left|exact Nd|reflexivity|intros z n []|intros n []|exact C|exact Rn].
  - intros f e Ef. pose proof (values_raise x others d md sz r Hg Hmd others' tx ts Ho Etx Ets [] [] eq_refl d (sz d) f e) as Q. rewrite !app_nil_r in Q.
    apply Q; [now left|reflexivity|intros z n []|intros n []|exact Ef].
Qed.
