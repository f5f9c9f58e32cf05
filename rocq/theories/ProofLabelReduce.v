(* Reduction of labelled arrays along several dimensions. *)
From Coq Require Import String Permutation.
From Verif Require Import Base BaseLemmas ModelPush ModelKernels ModelIndex ModelAxes ModelParams ModelWrap ModelNd ModelLabel Spec SpecAxes SpecNd SpecLabel SpecLabelTwo
  ProofAxes ProofArrays ProofNd ProofNdVals PropAxes PropParams PropWrap PropLabelled PropNd ProofLabel ProofLabelMany.
Local Open Scope string_scope.
Local Open Scope nat_scope.

Lemma entry_at y e env : x_ok y -> (forall k, k < List.length (x_dims y) -> e k = env (nth k (x_dims y) "")) -> entry (x_val y) e = x_at y env.
Proof.
  intros Hy H. unfold entry, x_at. f_equal. rewrite (map_named env (x_dims y)). unfold tndim. change (tshape (x_val y)) with (x_shape y). rewrite <- (proj2 (proj2 Hy)).
  apply map_ext_in. intros k Hk. apply in_seq in Hk. apply H. lia.
Qed.
(* binding by position and by name *)
Lemma bind_named (l : list sname) (i : list nat) s ns e env k : NoDup l -> List.length i = List.length l -> (forall j, j < List.length l -> nth (s + j) ns "" = nth j l "") ->
  NoDup ns -> s + List.length l <= List.length ns -> k < List.length ns -> e k = env (nth k ns "") ->
  bind (seq s (List.length l)) i e k = name_bind l i env (nth k ns "").
Proof.
  intros Nl Li Hn Nn Ls Hk He. destruct (Nat.lt_ge_cases k s) as [H|H]; [|destruct (Nat.lt_ge_cases k (s + List.length l)) as [H'|H']].
  - rewrite bind_out by (rewrite in_seq; lia). rewrite name_bind_out; [exact He|]. intros Q. destruct (pos_lt l _ Q) as [P1 P2]. rewrite <- Hn in P2 by exact P1.
    rewrite NoDup_nth in Nn. apply Nn in P2; lia.
  - rewrite bind_in; [|apply seq_NoDup|now rewrite seq_length|rewrite in_seq; lia]. rewrite index_of_seq by lia. pose proof (Hn (k - s) ltac:(lia)) as E. replace (s + (k - s)) with k in E by lia. rewrite E. symmetry. apply name_bind_in; auto. lia.
  - rewrite bind_out by (rewrite in_seq; lia). rewrite name_bind_out; [exact He|]. intros Q. destruct (pos_lt l _ Q) as [P1 P2]. rewrite <- Hn in P2 by exact P1.
    rewrite NoDup_nth in Nn. apply Nn in P2; lia.
Qed.

Section Reduce.
  Context {A : Type} (P : packer A) (HP : packer_ok P).
  Variables (x : xarr) (md ds : list sname).
  Hypothesis HM : labelled_moments P md x.
  Hypothesis Ids : incl ds (x_dims x).
  Hypothesis Nds : NoDup ds.
  Hypothesis Dds : forall n, In n ds -> ~ In n md.
  Let dims := x_dims x.
  Let outer := except_name dims (ds ++ md).
  Let ns := (outer ++ ds ++ md)%list.
  Let a := List.length outer.
  Let R := seq a (List.length ds).
  Let M := seq (a + List.length ds) (List.length md).

  Lemma rm_NoDup : NoDup ns.
  Proof.
    unfold ns. apply NoDup_app_iff. split; [apply NoDup_filter, HM|]. split; [apply NoDup_app_iff; split; [exact Nds|]; split; [apply HM|exact Dds]|]. intros n Hn. now apply except_name_In in Hn.
  Qed.
  Lemma rm_In n : In n ns <-> In n dims.
  Proof.
    unfold ns, outer. rewrite in_app_iff, except_name_In. destruct (in_dec string_dec n (ds ++ md)) as [H|H]; [|tauto]. split; [intros _|tauto]. apply in_app_or in H. destruct H as [H|H]; [now apply Ids|now apply HM].
  Qed.
  Lemma rm_perm : Permutation ns dims.
  Proof. apply NoDup_Permutation; [apply rm_NoDup|apply HM|apply rm_In]. Qed.
  Lemma rm_len : List.length ns = a + List.length ds + List.length md.
  Proof. unfold ns. rewrite !app_length. fold a. lia. Qed.
  Lemma rm_ds j : j < List.length ds -> nth (a + j) ns "" = nth j ds "".
  Proof. intros H. unfold ns. rewrite app_nth2 by (fold a; lia). fold a. replace (a + j - a) with j by lia. now rewrite app_nth1. Qed.
  Lemma rm_md j : j < List.length md -> nth (a + List.length ds + j) ns "" = nth j md "".
  Proof. intros H. unfold ns. rewrite app_nth2 by (fold a; lia). fold a. rewrite app_nth2 by lia. f_equal. lia. Qed.
  Lemma rm_outer j : j < a -> nth j ns "" = nth j outer "".
  Proof. intros H. unfold ns. now rewrite app_nth1. Qed.

  Variable y : xarr.
  Hypothesis Hy : x_ok y.
  Hypothesis Dy : x_dims y = ns.
  Hypothesis Sy : x_same x y.
  Let t := x_val y.
  Lemma ry_ndim : tndim t = a + List.length ds + List.length md.
  Proof. unfold t, tndim. change (tshape (x_val y)) with (x_shape y). rewrite <- (proj2 (proj2 Hy)), Dy. apply rm_len. Qed.
  Lemma ry_shape k : k < List.length ns -> shape_of t k = dim_size x (nth k ns "").
  Proof. intros H. unfold t. rewrite dim_size_nth by (auto; now rewrite Dy). rewrite Dy. symmetry. apply Sy. apply rm_In, nth_In, H. Qed.
  Lemma ry_moments : map (shape_of t) M = pk_shape P.
  Proof.
    destruct HM as (_ & _ & _ & <-). unfold M. rewrite map_seq_shift, (map_named (dim_size x) md). apply map_ext_in. intros k Hk. apply in_seq in Hk. rewrite ry_shape by (rewrite rm_len; lia). now rewrite rm_md by lia.
  Qed.
  Lemma ry_reduced : map (shape_of t) R = map (dim_size x) ds.
  Proof. unfold R. rewrite map_seq_shift, (map_named (dim_size x) ds). apply map_ext_in. intros k Hk. apply in_seq in Hk. rewrite ry_shape by (rewrite rm_len; lia). now rewrite rm_ds by lia. Qed.
  Lemma ry_rows e env : (forall k, k < a -> e k = env (nth k outer "")) -> inside_names (dim_size x) outer env -> rows_along P t R M e = rows_named P x ds md env.
  Proof.
    intros He Hi. unfold rows_along, rows_named. rewrite ry_reduced. apply map_ext_in. intros r Hr. apply all_idx_valid in Hr. pose proof (valid_length _ _ Hr) as Lr. rewrite map_length in Lr.
    unfold moment_at, moments_named. apply (proj1 HP). intros m Hm. pose proof (valid_length _ _ Hm) as Lm. rewrite <- (lm_len P x md HM) in Lm.
    set (env0 := fun n => if in_dec string_dec n outer then env n else e (position String.eqb n ns)).
    set (env' := name_bind md m (name_bind ds r env0)).
    assert (E : forall n, In n dims -> env' n = name_bind md m (name_bind ds r env) n).
    { intros n Hn. destruct (in_dec string_dec n md) as [Q|Q].
      - unfold env'. destruct (pos_lt md n Q) as [P1 P2]. rewrite <- P2. rewrite !name_bind_in; auto; apply HM.
      - unfold env'. rewrite !(name_bind_out md) by exact Q. destruct (in_dec string_dec n ds) as [Q'|Q'].
        + destruct (pos_lt ds n Q') as [P1 P2]. rewrite <- P2. rewrite !name_bind_in; auto.
        + rewrite !(name_bind_out ds) by exact Q'. unfold env0. destruct (in_dec string_dec n outer) as [H|H]; [reflexivity|]. elim H. apply except_name_In. split; [exact Hn|]. rewrite in_app_iff. tauto. }
    assert (In0 : x_inside x env').
    { intros n Hn. destruct (in_dec string_dec n md) as [Q|Q].
      - unfold env'. destruct (pos_lt md n Q) as [P1 P2]. rewrite <- P2, name_bind_in by (auto; apply HM). rewrite <- nth_map_dims by exact P1. destruct HM as (_ & _ & _ & ->). apply valid_nth; [exact Hm|]. rewrite <- (lm_len P x md HM). exact P1.
      - unfold env'. rewrite (name_bind_out md) by exact Q. destruct (in_dec string_dec n ds) as [Q'|Q'].
        + destruct (pos_lt ds n Q') as [P1 P2]. rewrite <- P2, name_bind_in by auto. rewrite <- nth_map_dims by exact P1. apply valid_nth; [exact Hr|]. now rewrite map_length.
        + rewrite (name_bind_out ds) by exact Q'. unfold env0. destruct (in_dec string_dec n outer) as [H|H]; [now apply Hi|]. elim H. apply except_name_In. split; [exact Hn|]. rewrite in_app_iff. tauto. }
    transitivity (x_at x env'); [|unfold x_at; f_equal; apply map_ext_in; exact E].
    rewrite (proj2 (proj2 Sy) env' In0). unfold t. apply entry_at; [exact Hy|]. rewrite Dy. intros k Hk.
    pose proof rm_len as Ln. unfold env', M. apply bind_named; auto; [apply HM|apply rm_md|apply rm_NoDup|lia|]. unfold R. apply bind_named; auto; [apply rm_ds|apply rm_NoDup|lia|].
    unfold env0. destruct (in_dec string_dec (nth k ns "") outer) as [H|H].
    - destruct (Nat.lt_ge_cases k a) as [Hka|Hka]; [rewrite He by exact Hka; now rewrite rm_outer|]. exfalso. pose proof rm_NoDup as N. unfold ns in N. apply NoDup_app_iff in N. destruct N as (_ & _ & N). apply (N _ H).
      unfold ns. rewrite app_nth2 by (fold a; lia). apply nth_In. fold a. rewrite app_length. lia.
    - f_equal. symmetry. apply pos_nth; [apply rm_NoDup|exact Hk].
  Qed.
  Lemma ry_axes : Forall2 (is_axis (tndim t)) (axes_last (List.length md)) M /\
    Forall2 (names_axis (tndim t) (List.length md)) (map (fun i => AInt (Z.of_nat i - Z.of_nat (List.length ds) - Z.of_nat (List.length md))) (seq 0 (List.length ds))) R /\ NoDup (M ++ R).
  Proof.
    rewrite ry_ndim. split; [apply axes_last_positions; [lia|]; unfold M; f_equal; lia|]. split.
    - unfold R. replace (seq a (List.length ds)) with (map (fun i => a + i) (seq 0 (List.length ds))) by (rewrite seq_shift_add; f_equal; lia).
      assert (G : forall l, (forall i, In i l -> i < List.length ds) -> Forall2 (names_axis (a + List.length ds + List.length md) (List.length md)) (map (fun i => AInt (Z.of_nat i - Z.of_nat (List.length ds) - Z.of_nat (List.length md))) l) (map (fun i => a + i) l)).
      { induction l as [|i l IH]; intros H; [constructor|]. cbn [map]. constructor; [|apply IH; intros j Hj; apply H; now right]. cbn [names_axis]. pose proof (H i (or_introl eq_refl)). split; [lia|right; lia]. }
      apply G. intros i Hi. apply in_seq in Hi. lia.
    - apply NoDup_app_iff. split; [apply seq_NoDup|]. split; [apply seq_NoDup|]. intros k. unfold M, R. rewrite !in_seq. lia.
  Qed.
End Reduce.
