(* The binomial table (C65): its entries, which of them the kernels need, and
   what happens beyond them. *)
From Verif Require Import Base BaseLemmas ModelPush ModelPushCov ModelConvert ProofPush ModelState Checks.
Local Open Scope Qc_scope.

(* ---- entries -------------------------------------------------------------------- *)

(* shape (nmax+1) x (nmax+1), entries of Pascal's triangle, zero above the diagonal *)
Theorem binomial_table : forall nmax,
  length (factory_binomial nmax) = S nmax /\ Forall (fun r => length r = S nmax) (factory_binomial nmax) /\
  (forall n k, (n <= nmax)%nat -> (k <= nmax)%nat -> get2 (factory_binomial nmax) n k = qn (choose n k)) /\
  (forall n k, (n <= nmax)%nat -> (n < k <= nmax)%nat -> get2 (factory_binomial nmax) n k = 0).
Proof.
  intros nmax. repeat split.
  - unfold factory_binomial. rewrite map_length, seq_length. lia.
  - unfold factory_binomial. rewrite Forall_map, Forall_forall. intros n _. rewrite map_length, seq_length. lia.
  - intros n k Hn Hk. apply BF_choose; auto.
  - intros n k Hn Hk. change (BF nmax n k = 0). rewrite BF_choose by lia. rewrite choose_gt by lia. reflexivity.
Qed.
(* Pascal's rule holds in the table itself *)
Theorem binomial_table_pascal : forall nmax n k, (S n <= nmax)%nat -> (S k <= nmax)%nat ->
  get2 (factory_binomial nmax) (S n) (S k) = get2 (factory_binomial nmax) n (S k) + get2 (factory_binomial nmax) n k /\
  get2 (factory_binomial nmax) n 0 = 1.
Proof.
  intros nmax n k Hn Hk. destruct (binomial_table nmax) as (_ & _ & E & _).
  rewrite !E by lia. split.
  - cbn [choose]. apply qn_add.
  - destruct n; reflexivity.
Qed.
Example binomial_table_ex : factory_binomial 3 =
  [[qn 1; qn 0; qn 0; qn 0]; [qn 1; qn 1; qn 0; qn 0]; [qn 1; qn 2; qn 1; qn 0]; [qn 1; qn 3; qn 3; qn 1]].
Proof.
  transitivity (map (fun n => map (fun k => qn (choose n k)) (seq 0 4)) (seq 0 4)); [|reflexivity].
  unfold factory_binomial. apply map_ext. intros n. apply map_ext. intros k. apply binom_entry_choose.
Qed.

(* ---- kernels do not depend on nmax once it reaches their order ---------------------- *)

Lemma fold_left_ext_in {A B} (f g : A -> B -> A) l a :
  (forall a b, In b l -> f a b = g a b) -> fold_left f l a = fold_left g l a.
Proof.
  revert a. induction l as [|b l IH]; intros a H; simpl; [reflexivity|].
  rewrite H by (left; reflexivity). apply IH. intros. apply H. right. assumption.
Qed.
Lemma BF_indep n1 n2 a b : (a <= n1)%nat -> (a <= n2)%nat -> (b <= a)%nat -> BF n1 a b = BF n2 a b.
Proof. intros. rewrite !BF_choose by lia. reflexivity. Qed.

Lemma val_entry_indep n1 n2 out al oa de a : (a <= n1)%nat -> (a <= n2)%nat ->
  val_entry n1 out al oa de a = val_entry n2 out al oa de a.
Proof.
  intros H1 H2. unfold val_entry.
  rewrite (fold_left_ext_in (val_step n1 out al oa de a) (val_step n2 out al oa de a)); [reflexivity|].
  intros v b Hb. apply in_seq in Hb. unfold val_step. destruct v as [[[[? ?] ?] ?] ?].
  rewrite (BF_indep n1 n2) by lia. reflexivity.
Qed.
Lemma data_entry_indep n1 n2 d out al oa de a : (a <= n1)%nat -> (a <= n2)%nat ->
  data_entry n1 d out al oa de a = data_entry n2 d out al oa de a.
Proof.
  intros H1 H2. unfold data_entry.
  rewrite (fold_left_ext_in (data_step n1 d out al oa de a) (data_step n2 d out al oa de a)); [reflexivity|].
  intros v b Hb. apply in_seq in Hb. unfold data_step. destruct v as [[[[? ?] ?] ?] ?].
  rewrite (BF_indep n1 n2) by lia. reflexivity.
Qed.
Lemma in_desc_range order a : In a (desc_range order) -> (a <= order)%nat.
Proof. unfold desc_range. rewrite <- in_rev, in_seq. lia. Qed.

Lemma val_fold_indep n1 n2 al oa de order o : (order <= n1)%nat -> (order <= n2)%nat ->
  fold_left (fun o a => upd o a (val_entry n1 o al oa de a)) (desc_range order) o =
  fold_left (fun o a => upd o a (val_entry n2 o al oa de a)) (desc_range order) o.
Proof.
  intros. apply fold_left_ext_in. intros o' a Ha. apply in_desc_range in Ha.
  rewrite (val_entry_indep n1 n2) by lia. reflexivity.
Qed.
Lemma data_fold_indep n1 n2 d al oa de order o : (order <= n1)%nat -> (order <= n2)%nat ->
  fold_left (fun o a => upd o a (data_entry n1 d o al oa de a)) (desc_range order) o =
  fold_left (fun o a => upd o a (data_entry n2 d o al oa de a)) (desc_range order) o.
Proof.
  intros. apply fold_left_ext_in. intros o' a Ha. apply in_desc_range in Ha.
  rewrite (data_entry_indep n1 n2) by lia. reflexivity.
Qed.

Theorem push_independent_of_nmax : forall n1 n2 out, (length out <= S n1)%nat -> (length out <= S n2)%nat ->
  (forall x w, push_val n1 x w out = push_val n2 x w out) /\
  (forall d, push_data n1 d out = push_data n2 d out) /\
  (forall d s, push_data_scale n1 d s out = push_data_scale n2 d s out).
Proof.
  intros n1 n2 out H1 H2. repeat split.
  - intros x w. unfold push_val. destruct (qeqb w 0); [reflexivity|]. cbv zeta.
    destruct (qeqb (getq (upd out 0 (getq out 0 + w)) 0) 0); [reflexivity|].
    destruct (Nat.eqb (length out - 1) 1); [reflexivity|].
    rewrite (val_fold_indep n1 n2) by lia. reflexivity.
  - intros d. unfold push_data. destruct (qeqb (getq d 0) 0); [reflexivity|]. cbv zeta.
    destruct (qeqb (getq (upd out 0 (getq out 0 + getq d 0)) 0) 0); [reflexivity|].
    destruct (Nat.eqb (length out - 1) 1); [reflexivity|].
    rewrite (data_fold_indep n1 n2) by lia. reflexivity.
  - intros d s. unfold push_data_scale. destruct (qeqb (getq d 0 * s) 0); [reflexivity|]. cbv zeta.
    destruct (qeqb (getq (upd out 0 (getq out 0 + getq d 0 * s)) 0) 0); [reflexivity|].
    destruct (Nat.eqb (length out - 1) 1); [reflexivity|].
    rewrite (data_fold_indep n1 n2) by lia. reflexivity.
Qed.

Lemma cval_entry_indep n1 n2 out al oa d0 d1 a0 a1 : (a0 <= n1)%nat -> (a1 <= n1)%nat -> (a0 <= n2)%nat -> (a1 <= n2)%nat ->
  cval_entry n1 out al oa d0 d1 a0 a1 = cval_entry n2 out al oa d0 d1 a0 a1.
Proof.
  intros. unfold cval_entry.
  rewrite (fold_left_ext_in (cval_step0 n1 out al oa d0 d1 a0 a1) (cval_step0 n2 out al oa d0 d1 a0 a1)); [reflexivity|].
  intros v b Hb. apply in_seq in Hb. unfold cval_step0. destruct v as [[[[? ?] ?] ?] ?]. cbv zeta.
  rewrite (BF_indep n1 n2) by lia.
  match goal with |- context [fold_left (cval_step1 n1 ?x0 ?x1 ?x2 ?x3 ?x4 ?x5 ?x6 ?x7) ?l ?s] =>
    rewrite (fold_left_ext_in (cval_step1 n1 x0 x1 x2 x3 x4 x5 x6 x7) (cval_step1 n2 x0 x1 x2 x3 x4 x5 x6 x7) l s) end; [reflexivity|].
  intros v c Hc. apply in_seq in Hc. unfold cval_step1. destruct v as [[[[? ?] ?] ?] ?]. cbv zeta.
  rewrite (BF_indep n1 n2 a1 c) by lia. reflexivity.
Qed.
Lemma cdata_entry_indep n1 n2 d out al oa d0 d1 a0 a1 : (a0 <= n1)%nat -> (a1 <= n1)%nat -> (a0 <= n2)%nat -> (a1 <= n2)%nat ->
  cdata_entry n1 d out al oa d0 d1 a0 a1 = cdata_entry n2 d out al oa d0 d1 a0 a1.
Proof.
  intros. unfold cdata_entry.
  rewrite (fold_left_ext_in (cdata_step0 n1 d out al oa d0 d1 a0 a1) (cdata_step0 n2 d out al oa d0 d1 a0 a1)); [reflexivity|].
  intros v b Hb. apply in_seq in Hb. unfold cdata_step0. destruct v as [[[[? ?] ?] ?] ?]. cbv zeta.
  rewrite (BF_indep n1 n2) by lia.
  match goal with |- context [fold_left (cdata_step1 n1 ?x0 ?x1 ?x2 ?x3 ?x4 ?x5 ?x6 ?x7 ?x8) ?l ?s] =>
    rewrite (fold_left_ext_in (cdata_step1 n1 x0 x1 x2 x3 x4 x5 x6 x7 x8) (cdata_step1 n2 x0 x1 x2 x3 x4 x5 x6 x7 x8) l s) end; [reflexivity|].
  intros v c Hc. apply in_seq in Hc. unfold cdata_step1. destruct v as [[[[? ?] ?] ?] ?]. cbv zeta.
  rewrite (BF_indep n1 n2 a1 c) by lia. reflexivity.
Qed.
Lemma in_down_le lo hi a : In a (down lo hi) -> (a <= hi)%nat.
Proof. unfold down. rewrite <- in_rev, in_seq. lia. Qed.
Lemma nest_desc_indep o0 o1 g h out : (forall o a0 a1, (a0 <= o0)%nat -> (a1 <= o1)%nat -> g o a0 a1 = h o a0 a1) ->
  nest_desc o0 o1 g out = nest_desc o0 o1 h out.
Proof.
  intros H. unfold nest_desc. cbv zeta. apply fold_left_ext_in. intros o a0 H0. apply in_down_le in H0.
  apply fold_left_ext_in. intros o' a1 H1. apply in_down_le in H1. rewrite H by assumption. reflexivity.
Qed.

Theorem cpush_independent_of_nmax : forall n1 n2 out,
  (length out <= S n1)%nat -> (length out <= S n2)%nat -> (ncol out <= S n1)%nat -> (ncol out <= S n2)%nat ->
  (forall x w, cpush_val n1 x w out = cpush_val n2 x w out) /\
  (forall d, cpush_data n1 d out = cpush_data n2 d out) /\
  (forall d s, cpush_data_scale n1 d s out = cpush_data_scale n2 d s out).
Proof.
  intros n1 n2 out H1 H2 C1 C2. repeat split.
  - intros [x0 x1] w. unfold cpush_val. destruct (qeqb w 0); [reflexivity|]. cbv zeta.
    match goal with |- (if ?c then _ else _) = _ => destruct c end; [reflexivity|]. f_equal.
    apply nest_desc_indep. intros o a0 a1 A0 A1. apply cval_entry_indep; lia.
  - intros d. unfold cpush_data. destruct (qeqb (get2 d 0 0) 0); [reflexivity|]. cbv zeta.
    match goal with |- (if ?c then _ else _) = _ => destruct c end; [reflexivity|]. f_equal.
    apply nest_desc_indep. intros o a0 a1 A0 A1. apply cdata_entry_indep; lia.
  - intros d s. unfold cpush_data_scale. destruct (qeqb (get2 d 0 0 * s) 0); [reflexivity|]. cbv zeta.
    match goal with |- (if ?c then _ else _) = _ => destruct c end; [reflexivity|]. f_equal.
    apply nest_desc_indep. intros o a0 a1 A0 A1. apply cdata_entry_indep; lia.
Qed.

Theorem convert_independent_of_nmax : forall n1 n2 a, (length a <= S n1)%nat -> (length a <= S n2)%nat ->
  central_to_raw n1 a = central_to_raw n2 a /\ raw_to_central n1 a = raw_to_central n2 a.
Proof.
  intros n1 n2 a H1 H2. split.
  - unfold central_to_raw. f_equal. f_equal. apply map_ext_in. intros n Hn. apply in_seq in Hn. unfold c2r_entry.
    rewrite (fold_left_ext_in (c2r_step n1 a n) (c2r_step n2 a n)); [reflexivity|].
    intros [t v] b Hb. apply in_seq in Hb. unfold c2r_step. rewrite (BF_indep n1 n2) by lia. reflexivity.
  - unfold raw_to_central. f_equal. f_equal. apply map_ext_in. intros n Hn. apply in_seq in Hn. unfold r2c_entry.
    rewrite (fold_left_ext_in (r2c_step n1 a n) (r2c_step n2 a n)); [reflexivity|].
    intros [t v] b Hb. apply in_seq in Hb. unfold r2c_step. rewrite (BF_indep n1 n2) by lia. reflexivity.
Qed.
Theorem cconvert_independent_of_nmax : forall n1 n2 a,
  (length a <= S n1)%nat -> (length a <= S n2)%nat -> (ncol a <= S n1)%nat -> (ncol a <= S n2)%nat ->
  central_to_raw2 n1 a = central_to_raw2 n2 a /\ raw_to_central2 n1 a = raw_to_central2 n2 a.
Proof.
  unfold ncol. intros n1 n2 a H1 H2 C1 C2. split.
  - unfold central_to_raw2. apply map_ext_in. intros n Hn. apply in_seq in Hn. apply map_ext_in. intros m Hm. apply in_seq in Hm.
    unfold cc2r_entry. destruct (Nat.leb (n + m) 1); [reflexivity|].
    rewrite (fold_left_ext_in (cc2r_step0 n1 a n m) (cc2r_step0 n2 a n m)); [reflexivity|].
    intros [t v] i Hi. apply in_seq in Hi. unfold cc2r_step0.
    rewrite (fold_left_ext_in (cc2r_step1 n1 a n m i v) (cc2r_step1 n2 a n m i v)); [reflexivity|].
    intros [t' v'] j Hj. apply in_seq in Hj. unfold cc2r_step1.
    rewrite (BF_indep n1 n2 n i), (BF_indep n1 n2 m j) by lia. reflexivity.
  - unfold raw_to_central2. apply map_ext_in. intros n Hn. apply in_seq in Hn. apply map_ext_in. intros m Hm. apply in_seq in Hm.
    unfold rr2c_entry. destruct (Nat.leb (n + m) 1); [reflexivity|].
    rewrite (fold_left_ext_in (rr2c_step0 n1 a n m) (rr2c_step0 n2 a n m)); [reflexivity|].
    intros [t v] i Hi. apply in_seq in Hi. unfold rr2c_step0.
    rewrite (fold_left_ext_in (rr2c_step1 n1 a n m i v) (rr2c_step1 n2 a n m i v)); [reflexivity|].
    intros [t' v'] j Hj. apply in_seq in Hj. unfold rr2c_step1.
    rewrite (BF_indep n1 n2 n i), (BF_indep n1 n2 m j) by lia. reflexivity.
Qed.

Example nmax_ex :
  let out := [qz 2; qz 1; qz 1; qz 3; qz 5; qz 2] in
  (length out <= S 5)%nat /\ push_val 5 (qz 4) (qz 1) out = push_val 9 (qz 4) (qz 1) out /\
  push_val 5 (qz 4) (qz 1) out <> Some out.
Proof.
  cbv zeta. split; [simpl; lia|]. split.
  - apply push_independent_of_nmax; simpl; lia.
  - apply oeqb1_neq. vm_compute. reflexivity.
Qed.
Example cnmax_ex :
  let out := [[qz 2; qz 1; qz 1]; [qz 3; qz 5; qz 2]; [qz 1; qz 0; qz 7]] in
  (length out <= S 2)%nat /\ (ncol out <= S 2)%nat /\ cpush_val 2 (qz 4, qz 1) (qz 1) out = cpush_val 9 (qz 4, qz 1) (qz 1) out.
Proof. cbv zeta. split; [unfold ncol; simpl; lia|]. split; [unfold ncol; simpl; lia|]. apply cpush_independent_of_nmax; unfold ncol; simpl; lia. Qed.

(* ---- beyond the table ------------------------------------------------------------------ *)

(* For every nmax >= 2 an order of nmax + 1 needs an entry outside of the table.
   Where the read past the table finds 0, the result is not the one computed
   with a large enough table, and no error is raised. *)
Theorem order_above_nmax_refuted : forall nmax, (2 <= nmax)%nat -> exists out x w r1 r2,
  length out = S (S nmax) /\ push_val nmax x w out = Some r1 /\ push_val (S nmax) x w out = Some r2 /\
  getq r1 (S nmax) <> getq r2 (S nmax).
Proof.
  intros nmax H2. set (n := S nmax).
  assert (Gen : forall m out, length out = S n -> getq out 0 = 1 -> getq out 1 = 0 ->
    exists r, push_val m 0 1 out = Some r /\ getq r n = BF m n 0 * ((1 - 1 / (1 + 1)) * getq out n)).
  { intros m out L E0 E1. unfold push_val. rewrite qeqb_neq by discriminate.
    rewrite getq_upd_same by lia. rewrite E0. rewrite qeqb_neq by discriminate.
    rewrite (getq_upd_other _ 0 1) by lia. rewrite E1, L. replace (S n - 1)%nat with n by lia.
    set (alpha := 1 / (1 + 1)). cbv zeta.
    destruct (Nat.eqb_spec n 1) as [?|_]; [lia|]. eexists. split; [reflexivity|].
    rewrite getq_upd_other by lia. unfold desc_range.
    set (g := fun o a => val_entry m o alpha (1 - alpha) (0 - 0) a).
    change (fold_left (fun o a => upd o a (val_entry m o alpha (1 - alpha) (0 - 0) a)))
      with (fold_left (fun o a => upd o a (g o a))).
    rewrite (desc_loop g).
    - destruct (Nat.leb_spec 3 n), (Nat.ltb_spec n (3 + (n - 2))); try lia. cbn [andb].
      unfold g, val_entry. rewrite val_loop.
      replace (n - 1)%nat with (1 + (n - 2))%nat by lia. rewrite sumn_app.
      replace (0 - 0) with 0 by ring. cbn [sumn].
      rewrite (sumn_ext _ (fun _ => 0)).
      + rewrite sumn_0. replace (n - 0)%nat with n by lia. rewrite !getq_upd_other by lia.
        cbn [Qcpower Nat.add]. ring.
      + intros b Hb. cbn [Nat.add Qcpower]. ring.
    - intros o o' a Hc. unfold g, val_entry. rewrite !val_loop.
      erewrite sumn_ext; [reflexivity|]. intros b Hb. cbn beta. rewrite Hc by lia. reflexivity.
    - rewrite !upd_length. lia. }
  exists (upd (upd (zeros1 (S n)) 0 1) n 1), 0, 1.
  set (out := upd (upd (zeros1 (S n)) 0 1) n 1).
  assert (Lz : length (zeros1 (S n)) = S n) by (unfold zeros1; apply repeat_length).
  assert (L : length out = S n) by (unfold out; rewrite !upd_length; exact Lz).
  assert (E0 : getq out 0 = 1) by (unfold out; rewrite getq_upd_other by lia; apply getq_upd_same; lia).
  assert (E1 : getq out 1 = 0).
  { unfold out. rewrite !getq_upd_other by lia. unfold getq, zeros1. apply nth_repeat. }
  assert (En : getq out n = 1) by (unfold out; apply getq_upd_same; rewrite upd_length; lia).
  destruct (Gen nmax out L E0 E1) as (r1 & P1 & G1). destruct (Gen n out L E0 E1) as (r2 & P2 & G2).
  exists r1, r2. repeat split; auto.
  rewrite G1, G2, En. rewrite (BF_choose n n 0) by lia.
  assert (B : BF nmax n 0 = 0).
  { unfold BF, get2. rewrite (nth_overflow (factory_binomial nmax)); [reflexivity|].
    destruct (binomial_table nmax) as [Lt _]. rewrite Lt. unfold n. lia. }
  rewrite B. replace (choose n 0) with 1%nat by reflexivity. vm_compute. discriminate.
Qed.

(* ---- the table and the option ------------------------------------------------------------ *)

(* the table is made for the value that nmax has at the first use of a kernel *)
Theorem table_fixed_at_first_use : forall before after nmax0,
  (forall op, In op before -> op <> TKernel) ->
  let value := fold_left (fun v op => match op with TSet n => n | TKernel => v end) before nmax0 in
  t_table (fold_left tstep (before ++ TKernel :: after) (TState nmax0 None)) = Some value.
Proof.
  intros before after nmax0 H. cbv zeta. rewrite fold_left_app. cbn [fold_left].
  assert (B : forall l n, (forall op, In op l -> op <> TKernel) ->
    fold_left tstep l (TState n None) = TState (fold_left (fun v op => match op with TSet n => n | TKernel => v end) l n) None).
  { induction l as [|op l IH]; intros n Hl; simpl; [reflexivity|].
    destruct op as [k|]; [|exfalso; apply (Hl TKernel); simpl; auto]. simpl. apply IH. intros op Ho. apply Hl. simpl. auto. }
  rewrite B by exact H. simpl tstep.
  assert (A : forall l n v, t_table (fold_left tstep l (TState n (Some v))) = Some v).
  { induction l as [|op l IH]; intros n v; simpl; [reflexivity|]. destruct op; simpl; apply IH. }
  apply A.
Qed.
Example table_fixed_ex :
  t_table (fold_left tstep [TSet 7; TKernel; TSet 30; TKernel] (TState 20 None)) = Some 7%nat.
Proof. reflexivity. Qed.
(* so raising nmax after the first use has no effect *)
Theorem late_nmax_refuted : exists hist,
  t_nmax (fold_left tstep (hist ++ [TKernel]) (TState 20 None)) = 30%nat /\
  t_table (fold_left tstep (hist ++ [TKernel]) (TState 20 None)) = Some 20%nat.
Proof. exists [TKernel; TSet 30]. split; reflexivity. Qed.
