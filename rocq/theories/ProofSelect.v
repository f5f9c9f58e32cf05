(* Lemmas on moment selection and assignment. *)
From Coq Require Import String.
From Verif Require Import Base BaseLemmas ModelConvert ModelSelect SpecSelect.
Local Open Scope Qc_scope.

Definition getc (a : arr2) (c : nat * nat) : Qc := get2 a (fst c) (snd c).
Definition cell_ok (r k : nat) (c : nat * nat) : Prop := (fst c < r)%nat /\ (snd c < k)%nat.

Lemma in_bounds_spec r k cs : in_bounds r k cs = true <-> Forall (cell_ok r k) cs.
Proof.
  unfold in_bounds. rewrite forallb_forall, Forall_forall. unfold cell_ok. split; intros H c Hc; specialize (H c Hc).
  - apply andb_true_iff in H. rewrite !Nat.ltb_lt in H. exact H.
  - apply andb_true_iff. rewrite !Nat.ltb_lt. exact H.
Qed.

Lemma write_shape r k cv : forall a, shape2 r k a -> shape2 r k (write_cells a cv).
Proof.
  induction cv as [|[c x] cv IH]; intros a H; [exact H|]. apply IH. now apply shape2_upd2.
Qed.
Lemma write_other cv : forall a i j, ~ In (i, j) (map fst cv) -> get2 (write_cells a cv) i j = get2 a i j.
Proof.
  induction cv as [|[[ci cj] x] cv IH]; intros a i j H; [reflexivity|].
  cbn in H. change (write_cells a ((ci, cj, x) :: cv)) with (write_cells (upd2 a ci cj x) cv).
  rewrite IH by tauto. apply get2_upd2_other. intuition congruence.
Qed.
Lemma combine_fst {A B} (l : list A) (v : list B) : List.length v = List.length l -> map fst (combine l v) = l.
Proof. revert v. induction l; intros [|b v] E; cbn in *; try discriminate; f_equal; auto. Qed.

Lemma write_read r k cs : forall v a, shape2 r k a -> Forall (cell_ok r k) cs -> NoDup cs ->
  List.length v = List.length cs -> map (getc (write_cells a (combine cs v))) cs = v.
Proof.
  induction cs as [|c cs IH]; intros [|x v] a S B N E; try discriminate; [reflexivity|].
  inversion B; subst. inversion N; subst. injection E as E.
  change (write_cells a (combine (c :: cs) (x :: v))) with (write_cells (upd2 a (fst c) (snd c) x) (combine cs v)).
  cbn [map]. f_equal.
  - unfold getc. rewrite write_other.
    + destruct H1. apply (get2_upd2_same r k); auto.
    + rewrite combine_fst by exact E. destruct c; assumption.
  - apply IH; auto. now apply shape2_upd2.
Qed.
Lemma upd2_id r k a i j : shape2 r k a -> (i < r)%nat -> (j < k)%nat -> upd2 a i j (get2 a i j) = a.
Proof.
  intros S Hi Hj. apply (arr2_ext r k); [now apply shape2_upd2|exact S|].
  intros i' j' Hi' Hj'. destruct (Nat.eq_dec i i') as [->|N].
  - destruct (Nat.eq_dec j j') as [->|N].
    + apply (get2_upd2_same r k); auto.
    + apply get2_upd2_other. congruence.
  - apply get2_upd2_other. congruence.
Qed.
Lemma write_id r k cs : forall a, shape2 r k a -> Forall (cell_ok r k) cs ->
  write_cells a (combine cs (map (getc a) cs)) = a.
Proof.
  induction cs as [|c cs IH]; intros a S B; [reflexivity|]. inversion B; subst.
  cbn [map combine]. change (write_cells a ((c, getc a c) :: combine cs (map (getc a) cs)))
    with (write_cells (upd2 a (fst c) (snd c) (getc a c)) (combine cs (map (getc a) cs))).
  destruct H1. unfold getc at 1. rewrite (upd2_id r k) by assumption. now apply IH.
Qed.

(* entry-wise value of a write *)
Fixpoint lookup (c : nat * nat) (cs : cells) (v : list Qc) (d : Qc) : Qc :=
  match cs, v with
  | c' :: cs, x :: v =>
      if (Nat.eqb (fst c) (fst c') && Nat.eqb (snd c) (snd c'))%bool then x else lookup c cs v d
  | _, _ => d
  end.
Lemma lookup_not_in c cs v d : ~ In c cs -> lookup c cs v d = d.
Proof.
  revert v. induction cs as [|c' cs IH]; intros [|x v] H; cbn; try reflexivity.
  destruct (Nat.eqb_spec (fst c) (fst c')); destruct (Nat.eqb_spec (snd c) (snd c')); cbn; try (apply IH; cbn in H; tauto).
  exfalso. apply H. left. destruct c, c'; cbn in *; congruence.
Qed.
Lemma write_lookup r k cs : forall v a i j, shape2 r k a -> Forall (cell_ok r k) cs -> NoDup cs ->
  List.length v = List.length cs -> get2 (write_cells a (combine cs v)) i j = lookup (i, j) cs v (get2 a i j).
Proof.
  induction cs as [|[ci cj] cs IH]; intros [|x v] a i j S B N E; try discriminate; [reflexivity|].
  inversion B; subst. inversion N; subst. injection E as E.
  change (write_cells a (combine ((ci, cj) :: cs) (x :: v))) with (write_cells (upd2 a ci cj x) (combine cs v)).
  rewrite IH by (auto; now apply shape2_upd2). cbn [lookup fst snd].
  destruct (Nat.eqb_spec i ci); destruct (Nat.eqb_spec j cj); cbn [andb].
  - subst. rewrite lookup_not_in by assumption. destruct H1. apply (get2_upd2_same r k); auto.
  - rewrite get2_upd2_other by congruence. reflexivity.
  - rewrite get2_upd2_other by congruence. reflexivity.
  - rewrite get2_upd2_other by congruence. reflexivity.
Qed.
Lemma lookup_in_d c cs : forall v d d', List.length v = List.length cs -> In c cs -> lookup c cs v d = lookup c cs v d'.
Proof.
  induction cs as [|c' cs IH]; intros [|x v] d d' E H; try discriminate; [destruct H|].
  cbn. destruct (Nat.eqb_spec (fst c) (fst c')); destruct (Nat.eqb_spec (snd c) (snd c')); cbn [andb]; try reflexivity;
    apply IH; auto; destruct H; auto; subst; exfalso; auto.
Qed.
Lemma cell_dec (c d : nat * nat) : {c = d} + {c <> d}.
Proof. repeat decide equality. Qed.
Lemma write_write r k cs v v' a : shape2 r k a -> Forall (cell_ok r k) cs -> NoDup cs ->
  List.length v = List.length cs -> List.length v' = List.length cs ->
  write_cells (write_cells a (combine cs v)) (combine cs v') = write_cells a (combine cs v').
Proof.
  intros S B N E E'. assert (S1 := write_shape r k (combine cs v) a S).
  apply (arr2_ext r k); try (apply write_shape; assumption).
  intros i j _ _. rewrite !(write_lookup r k) by assumption.
  destruct (in_dec cell_dec (i, j) cs) as [H|H].
  - now apply lookup_in_d.
  - now rewrite !lookup_not_in.
Qed.
Lemma write_commute r k cs v cs' v' a : shape2 r k a -> Forall (cell_ok r k) cs -> NoDup cs ->
  Forall (cell_ok r k) cs' -> NoDup cs' ->
  List.length v = List.length cs -> List.length v' = List.length cs' ->
  (forall c, In c cs -> ~ In c cs') ->
  write_cells (write_cells a (combine cs v)) (combine cs' v') = write_cells (write_cells a (combine cs' v')) (combine cs v).
Proof.
  intros S B N B' N' E E' D.
  assert (S1 := write_shape r k (combine cs v) a S). assert (S2 := write_shape r k (combine cs' v') a S).
  apply (arr2_ext r k); try (apply write_shape; assumption).
  intros i j _ _. rewrite !(write_lookup r k) by assumption.
  destruct (in_dec cell_dec (i, j) cs) as [H|H].
  - rewrite (lookup_not_in _ cs') by auto. rewrite (lookup_not_in _ cs') by auto. reflexivity.
  - rewrite (lookup_not_in _ cs) by auto. rewrite (lookup_not_in (i, j) cs) by auto. reflexivity.
Qed.

(* ---- the cells of a name ---------------------------------------------------- *)

Lemma NoDup_row i n : NoDup (map (fun j => (i, j)) (seq 0 n) : cells).
Proof. apply FinFun.Injective_map_NoDup; [intros a b H; congruence|apply seq_NoDup]. Qed.
Lemma NoDup_col j n : NoDup (map (fun i => (i, j)) (seq 0 n) : cells).
Proof. apply FinFun.Injective_map_NoDup; [intros a b H; congruence|apply seq_NoDup]. Qed.
Lemma NoDup_app_disj {A} (l1 l2 : list A) : NoDup l1 -> NoDup l2 -> (forall x, In x l1 -> ~ In x l2) -> NoDup (l1 ++ l2).
Proof.
  intros H1 H2 D. induction H1 as [|x l Hx H IH]; [exact H2|]. cbn. constructor.
  - rewrite in_app_iff. intros [?|?]; [contradiction|]. apply (D x); [now left|assumption].
  - apply IH. intros y Hy. apply D. now right.
Qed.
Lemma NoDup_all r n : forall s, NoDup (flat_map (fun i => map (fun j => (i, j)) (seq 0 n)) (seq s r) : cells).
Proof.
  induction r as [|r IH]; intros s; [constructor|]. cbn [seq flat_map].
  apply NoDup_app_disj; [apply NoDup_row|apply IH|].
  intros [i j] H1 H2. apply in_map_iff in H1. destruct H1 as (? & E & _). inversion E; subst.
  apply in_flat_map in H2. destruct H2 as (i' & Hi' & H2). apply in_map_iff in H2. destruct H2 as (? & E2 & _).
  inversion E2; subst. apply in_seq in Hi'. lia.
Qed.

(* one case per name *)
Ltac names name :=
  repeat match goal with
  | |- context [String.eqb name ?s] => destruct (String.eqb_spec name s); [subst name|]
  end.

Lemma indexer_NoDup name nd sq r k cs sh : moment_indexer name nd sq r k = Ok (cs, sh) -> NoDup cs.
Proof.
  unfold moment_indexer. destruct (Nat.eqb nd 1); names name; intros E; inversion E; subst;
    first [apply NoDup_all|apply NoDup_row|apply NoDup_col|idtac];
    repeat (constructor; [cbn; intuition congruence|]); constructor.
Qed.

Lemma in_row_cells (i n x y : nat) : In (x, y) (map (fun j => (i, j)) (seq 0 n)) <-> x = i /\ (y < n)%nat.
Proof.
  rewrite in_map_iff. split.
  - intros (j & E & H). apply in_seq in H. inversion E; subst. split; [reflexivity|lia].
  - intros [-> H]. exists y. split; [reflexivity|apply in_seq; lia].
Qed.
Lemma in_col_cells (j n x y : nat) : In (x, y) (map (fun i => (i, j)) (seq 0 n)) <-> y = j /\ (x < n)%nat.
Proof.
  rewrite in_map_iff. split.
  - intros (i & E & H). apply in_seq in H. inversion E; subst. split; [reflexivity|lia].
  - intros [-> H]. exists x. split; [reflexivity|apply in_seq; lia].
Qed.
Lemma in_all_cells (r k x y : nat) :
  In (x, y) (flat_map (fun i => map (fun j => (i, j)) (seq 0 k)) (seq 0 r)) <-> (x < r)%nat /\ (y < k)%nat.
Proof.
  rewrite in_flat_map. split.
  - intros (i & Hi & H). apply in_row_cells in H. destruct H as [-> H]. apply in_seq in Hi. lia.
  - intros [Hx Hy]. exists x. split; [apply in_seq; lia|]. now apply in_row_cells.
Qed.

(* the model's table against the specification *)
Lemma indexer_spec name nd sq r k : (1 <= r)%nat -> (1 <= k)%nat -> (nd = 1%nat /\ r = 1%nat) \/ nd = 2%nat ->
  match moment_indexer name nd sq r k with
  | Ok (cs, _) => exists P, In (name, P) (name_table nd) /\
                  (forall i j, (i < r)%nat -> (j < k)%nat -> (In (i, j) cs <-> P i j))
  | Raise e => e = EValue /\ forall P, ~ In (name, P) (name_table nd)
  end.
Proof.
  intros Hr Hk Hnd.
  assert (G : forall (l : list (string * (nat -> nat -> Prop))) P, nth_error l 0 = Some (name, P) -> In (name, P) l).
  { intros l P H. apply nth_error_In in H. exact H. }
  unfold moment_indexer, name_table. destruct Hnd as [[-> ->]| ->]; cbn [Nat.eqb].
  - names name; cbn beta iota;
    try (eexists; split; [cbn [In]; tauto|]; cbn beta; intros i j Hi Hj;
         first [rewrite in_all_cells|cbn [In]]; (try assert (i = 0)%nat by lia); intuition (subst; try congruence; auto; fail)).
    split; [reflexivity|]. cbn [In]. intros P H. intuition congruence.
  - names name; cbn beta iota;
    try (eexists; split; [cbn [In]; tauto|]; cbn beta; intros i j Hi Hj;
         first [rewrite in_all_cells|rewrite in_row_cells|rewrite in_col_cells|cbn [In]]; intuition (subst; try congruence; auto; fail)).
    split; [reflexivity|]. cbn [In]. intros P H. intuition congruence.
Qed.
