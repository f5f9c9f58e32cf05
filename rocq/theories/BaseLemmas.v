(* Lemmas on the vocabulary of Base. *)
From Verif Require Import Base.
Local Open Scope Qc_scope.

(* ---- numbers ---------------------------------------------------------- *)

Lemma qeqb_spec a b : reflect (a = b) (qeqb a b).
Proof.
  unfold qeqb. destruct (Qeq_bool a b) eqn:E; constructor.
  - apply Qc_is_canon. apply Qeq_bool_iff. exact E.
  - intros ->. rewrite (proj2 (Qeq_bool_iff _ _)) in E; [discriminate|reflexivity].
Qed.

Lemma qeqb_refl a : qeqb a a = true.
Proof. destruct (qeqb_spec a a); congruence. Qed.

Lemma qeqb_neq a b : a <> b -> qeqb a b = false.
Proof. destruct (qeqb_spec a b); congruence. Qed.

Lemma qeqb_eq a b : qeqb a b = true -> a = b.
Proof. destruct (qeqb_spec a b); congruence. Qed.

Lemma qltb_spec a b : reflect (a < b) (qltb a b).
Proof.
  unfold qltb. destruct (Qle_bool b a) eqn:E; cbn; constructor.
  - apply Qcle_not_lt. unfold Qcle. apply Qle_bool_iff. exact E.
  - apply Qcnot_le_lt. unfold Qcle. intros H. apply Qle_bool_iff in H. congruence.
Qed.

Lemma Qc_eq_this (a b : Qc) : (this a == this b)%Q -> a = b.
Proof. apply Qc_is_canon. Qed.

Lemma this_Q2Qc q : (this (Q2Qc q) == q)%Q.
Proof. apply Qred_correct. Qed.

Lemma qz_add a b : qz (a + b) = qz a + qz b.
Proof.
  unfold qz. apply Qc_eq_this. unfold Qcplus. rewrite !this_Q2Qc.
  unfold inject_Z, Qeq, Qplus; cbn. ring.
Qed.

Lemma qz_mul a b : qz (a * b) = qz a * qz b.
Proof.
  unfold qz. apply Qc_eq_this. unfold Qcmult. rewrite !this_Q2Qc.
  unfold inject_Z, Qeq, Qmult; cbn. ring.
Qed.

Lemma qz_inj a b : qz a = qz b -> a = b.
Proof.
  unfold qz. intros H.
  assert (E : (inject_Z a == inject_Z b)%Q).
  { rewrite <- (this_Q2Qc (inject_Z a)), <- (this_Q2Qc (inject_Z b)). rewrite H. reflexivity. }
  unfold inject_Z, Qeq in E; cbn in E. lia.
Qed.

Lemma qn_add a b : qn (a + b) = qn a + qn b.
Proof. unfold qn. rewrite Nat2Z.inj_add. apply qz_add. Qed.

Lemma qn_mul a b : qn (a * b) = qn a * qn b.
Proof. unfold qn. rewrite Nat2Z.inj_mul. apply qz_mul. Qed.

Lemma qn_0 : qn 0 = 0.
Proof. apply Qc_eq_this. reflexivity. Qed.
Lemma qn_1 : qn 1 = 1.
Proof. apply Qc_eq_this. reflexivity. Qed.
Lemma qz_0 : qz 0 = 0.
Proof. apply Qc_eq_this. reflexivity. Qed.
Lemma qz_1 : qz 1 = 1.
Proof. apply Qc_eq_this. reflexivity. Qed.

Lemma qn_S n : qn (S n) = 1 + qn n.
Proof. change (S n) with (1 + n)%nat. now rewrite qn_add, qn_1. Qed.

Lemma qn_inj a b : qn a = qn b -> a = b.
Proof. intros H. apply qz_inj in H. lia. Qed.

Lemma qz_le a b : (a <= b)%Z -> qz a <= qz b.
Proof.
  intros H. unfold qz, Qcle. rewrite !this_Q2Qc. unfold Qle; cbn. lia.
Qed.
Lemma qz_lt a b : (a < b)%Z -> qz a < qz b.
Proof.
  intros H. unfold qz, Qclt. rewrite !this_Q2Qc. unfold Qlt; cbn. lia.
Qed.
Lemma qn_nonneg n : 0 <= qn n.
Proof. rewrite <- qz_0. unfold qn. apply qz_le. lia. Qed.
Lemma qn_pos n : (0 < n)%nat -> 0 < qn n.
Proof. intros H. rewrite <- qz_0. unfold qn. apply qz_lt. lia. Qed.
Lemma qn_nz n : (0 < n)%nat -> qn n <> 0.
Proof. intros H E. rewrite <- qn_0 in E. apply qn_inj in E. lia. Qed.
Lemma qn_le a b : (a <= b)%nat -> qn a <= qn b.
Proof. intros H. apply qz_le. lia. Qed.
Lemma qn_lt a b : (a < b)%nat -> qn a < qn b.
Proof. intros H. apply qz_lt. lia. Qed.

(* ---- order facts ------------------------------------------------------ *)

Lemma Qc_le_refl (a : Qc) : a <= a.
Proof. apply Qcle_refl. Qed.

Lemma Qc_lt_neq (a : Qc) : 0 < a -> a <> 0.
Proof. intros H E. subst. now apply Qclt_not_eq in H. Qed.

Lemma Qc_le_lt_eq (a : Qc) : 0 <= a -> a = 0 \/ 0 < a.
Proof. intros H. apply Qcle_lt_or_eq in H. intuition. Qed.

Lemma Qc_add_nonneg a b : 0 <= a -> 0 <= b -> 0 <= a + b.
Proof. intros. rewrite <- (Qcplus_0_l 0). now apply Qcplus_le_compat. Qed.

Lemma Qc_add_pos_l a b : 0 < a -> 0 <= b -> 0 < a + b.
Proof.
  intros Ha Hb. apply Qclt_le_trans with (a + 0).
  - now rewrite Qcplus_0_r.
  - apply Qcplus_le_compat; [apply Qcle_refl|exact Hb].
Qed.
Lemma Qc_add_pos_r a b : 0 <= a -> 0 < b -> 0 < a + b.
Proof. intros. rewrite Qcplus_comm. now apply Qc_add_pos_l. Qed.

Lemma Qc_mul_nonneg a b : 0 <= a -> 0 <= b -> 0 <= a * b.
Proof.
  intros Ha Hb. rewrite <- (Qcmult_0_l b). now apply Qcmult_le_compat_r.
Qed.
Lemma Qc_mul_pos a b : 0 < a -> 0 < b -> 0 < a * b.
Proof.
  intros Ha Hb. rewrite <- (Qcmult_0_l b). now apply Qcmult_lt_compat_r.
Qed.

Lemma Qc_mul_nz a b : a <> 0 -> b <> 0 -> a * b <> 0.
Proof. intros Ha Hb E. apply Qcmult_integral in E. intuition. Qed.

Lemma Qc_mul_cancel_l a b c : a <> 0 -> a * b = a * c -> b = c.
Proof.
  intros Ha E.
  assert (E' : / a * (a * b) = / a * (a * c)) by now rewrite E.
  rewrite !Qcmult_assoc, (Qcmult_comm (/ a) a), Qcmult_inv_r in E' by exact Ha.
  now rewrite !Qcmult_1_l in E'.
Qed.

Lemma Qc_div_mul a b : b <> 0 -> a / b * b = a.
Proof. intros. field. assumption. Qed.

Lemma Qc_sq_nonneg (a : Qc) : 0 <= a * a.
Proof.
  destruct (Qclt_le_dec a 0) as [H|H].
  - replace (a * a) with ((-a) * (-a)) by ring.
    assert (0 <= -a). { replace 0 with (-0) by ring. apply Qcopp_le_compat. now apply Qclt_le_weak. }
    now apply Qc_mul_nonneg.
  - now apply Qc_mul_nonneg.
Qed.

Lemma Qc_0_lt_1 : 0 < 1.
Proof. unfold Qclt, Qlt; cbn. lia. Qed.

Lemma Qc_inv_pos a : 0 < a -> 0 < / a.
Proof.
  intros H. destruct (Qclt_le_dec 0 (/ a)) as [P|N]; [exact P|exfalso].
  assert (Ha : a <> 0) by now apply Qc_lt_neq.
  assert (E : a * / a = 1) by now apply Qcmult_inv_r.
  assert (L : / a * a <= 0 * a). { apply Qcmult_le_compat_r; [exact N| now apply Qclt_le_weak]. }
  rewrite Qcmult_comm, E, Qcmult_0_l in L. apply (Qcle_not_lt _ _ L), Qc_0_lt_1.
Qed.

Lemma Qc_div_nonneg a b : 0 <= a -> 0 < b -> 0 <= a / b.
Proof. intros. unfold Qcdiv. apply Qc_mul_nonneg; [assumption|]. apply Qclt_le_weak. now apply Qc_inv_pos. Qed.

Lemma Qc_sub_nonneg a b : a <= b -> 0 <= b - a.
Proof.
  intros. replace 0 with (a + - a) by ring. unfold Qcminus. apply Qcplus_le_compat; [assumption|apply Qcle_refl].
Qed.
Lemma Qc_sub_nonneg_inv a b : 0 <= b - a -> a <= b.
Proof.
  intros. replace a with (0 + a) by ring. replace b with ((b - a) + a) by ring.
  apply Qcplus_le_compat; [assumption|apply Qcle_refl].
Qed.
Lemma Qc_sub_pos a b : a < b -> 0 < b - a.
Proof.
  intros H. destruct (Qc_le_lt_eq (b - a)) as [E|E].
  - apply Qc_sub_nonneg. now apply Qclt_le_weak.
  - assert (a = b). { replace b with ((b - a) + a) by ring. rewrite E. ring. }
    subst. exfalso. now apply Qclt_not_eq in H.
  - exact E.
Qed.
Lemma Qc_sub_pos_inv a b : 0 < b - a -> a < b.
Proof.
  intros H. destruct (Qclt_le_dec a b) as [L|L]; [exact L|exfalso].
  apply Qc_sub_nonneg in L.
  assert (0 < (b - a) + (a - b)) by now apply Qc_add_pos_l.
  replace (b - a + (a - b)) with 0 in H0 by ring. now apply Qclt_not_eq in H0.
Qed.

Lemma qpow_add (x : Qc) a b : x ^ (a + b) = x ^ a * x ^ b.
Proof. induction a; cbn [Nat.add Qcpower]; [ring|rewrite IHa; ring]. Qed.
Lemma qpow_mul (x y : Qc) a : (x * y) ^ a = x ^ a * y ^ a.
Proof. induction a; cbn [Qcpower]; [ring|rewrite IHa; ring]. Qed.
Lemma qpow_1 a : 1 ^ a = 1.
Proof. induction a; cbn [Qcpower]; [ring|rewrite IHa; ring]. Qed.
Lemma qpow_0 a : (0 < a)%nat -> 0 ^ a = 0.
Proof. destruct a; [lia|]. intros _. cbn [Qcpower]. ring. Qed.
Lemma qpow_even_nonneg (x : Qc) a : 0 <= x ^ (2 * a).
Proof.
  replace (2 * a)%nat with (a + a)%nat by lia. rewrite qpow_add. apply Qc_sq_nonneg.
Qed.

(* ---- sums ------------------------------------------------------------- *)

Lemma sumn_ext f g n : (forall i, (i < n)%nat -> f i = g i) -> sumn f n = sumn g n.
Proof.
  induction n as [|n IH]; intros H; [reflexivity|]. cbn. rewrite IH, H; auto.
Qed.
Lemma sumn_0 n : sumn (fun _ => 0) n = 0.
Proof. induction n; cbn; [reflexivity|rewrite IHn; ring]. Qed.
Lemma sumn_add f g n : sumn (fun i => f i + g i) n = sumn f n + sumn g n.
Proof. induction n; cbn; [ring|rewrite IHn; ring]. Qed.
Lemma sumn_scal c f n : sumn (fun i => c * f i) n = c * sumn f n.
Proof. induction n; cbn; [ring|rewrite IHn; ring]. Qed.
Lemma sumn_S_l f n : sumn f (S n) = f 0%nat + sumn (fun i => f (S i)) n.
Proof. induction n; [cbn; ring|]. cbn [sumn] in *. rewrite IHn. ring. Qed.
Lemma sumn_app f n m : sumn f (n + m) = sumn f n + sumn (fun i => f (n + i)%nat) m.
Proof.
  induction m; cbn; [rewrite Nat.add_0_r; ring|].
  rewrite Nat.add_succ_r. cbn. rewrite IHm. ring.
Qed.
Lemma sumn_swap f n m :
  sumn (fun i => sumn (fun j => f i j) m) n = sumn (fun j => sumn (fun i => f i j) n) m.
Proof.
  induction n; cbn.
  - symmetry. apply sumn_0.
  - rewrite IHn, <- sumn_add. reflexivity.
Qed.
Lemma sumn_rev f n : sumn f n = sumn (fun i => f (n - 1 - i)%nat) n.
Proof.
  induction n as [|n IH]; [reflexivity|].
  rewrite (sumn_S_l (fun i => f (S n - 1 - i)%nat)). cbn [sumn]. rewrite IH.
  replace (S n - 1 - 0)%nat with n by lia. rewrite Qcplus_comm. f_equal.
  apply sumn_ext. intros. f_equal. lia.
Qed.

Lemma suml_nil {A} (f : A -> Qc) : suml f [] = 0.
Proof. reflexivity. Qed.
Lemma suml_cons {A} (f : A -> Qc) a l : suml f (a :: l) = f a + suml f l.
Proof. reflexivity. Qed.
Lemma suml_app {A} (f : A -> Qc) l1 l2 : suml f (l1 ++ l2) = suml f l1 + suml f l2.
Proof. induction l1; cbn [app]; [rewrite suml_nil; ring|]. rewrite !suml_cons, IHl1. ring. Qed.
Lemma suml_ext {A} (f g : A -> Qc) l : (forall a, In a l -> f a = g a) -> suml f l = suml g l.
Proof.
  induction l; intros H; [reflexivity|]. rewrite !suml_cons, H, IHl; auto with datatypes.
Qed.
Lemma suml_add {A} (f g : A -> Qc) l : suml (fun a => f a + g a) l = suml f l + suml g l.
Proof. induction l; [rewrite !suml_nil; ring|]. rewrite !suml_cons, IHl. ring. Qed.
Lemma suml_sub {A} (f g : A -> Qc) l : suml (fun a => f a - g a) l = suml f l - suml g l.
Proof. induction l; [rewrite !suml_nil; ring|]. rewrite !suml_cons, IHl. ring. Qed.
Lemma suml_scal {A} c (f : A -> Qc) l : suml (fun a => c * f a) l = c * suml f l.
Proof. induction l; [rewrite !suml_nil; ring|]. rewrite !suml_cons, IHl. ring. Qed.
Lemma suml_scal_r {A} c (f : A -> Qc) l : suml (fun a => f a * c) l = suml f l * c.
Proof. induction l; [rewrite !suml_nil; ring|]. rewrite !suml_cons, IHl. ring. Qed.
Lemma suml_div {A} c (f : A -> Qc) l : suml (fun a => f a / c) l = suml f l / c.
Proof. unfold Qcdiv. apply suml_scal_r. Qed.
Lemma suml_0 {A} (l : list A) : suml (fun _ => 0) l = 0.
Proof. induction l; [reflexivity|]. rewrite suml_cons, IHl. ring. Qed.
Lemma suml_map {A B} (g : A -> B) (f : B -> Qc) l : suml f (map g l) = suml (fun a => f (g a)) l.
Proof. induction l; [reflexivity|]. cbn [map]. rewrite !suml_cons, IHl. reflexivity. Qed.
Lemma suml_sumn_swap {A} (f : A -> nat -> Qc) l n :
  suml (fun a => sumn (f a) n) l = sumn (fun i => suml (fun a => f a i) l) n.
Proof.
  induction n; cbn; [apply suml_0|]. rewrite suml_add, IHn. reflexivity.
Qed.
Lemma suml_nonneg {A} (f : A -> Qc) l : (forall a, In a l -> 0 <= f a) -> 0 <= suml f l.
Proof.
  induction l; intros H; [apply Qcle_refl|]. rewrite suml_cons.
  apply Qc_add_nonneg; [apply H; now left|apply IHl; intros; apply H; now right].
Qed.
Lemma suml_concat {A} (f : A -> Qc) ll : suml f (concat ll) = suml (suml f) ll.
Proof. induction ll; [reflexivity|]. cbn [concat]. rewrite suml_app, IHll, suml_cons. reflexivity. Qed.
Lemma suml_seq f a n : suml f (seq a n) = sumn (fun i => f (a + i)%nat) n.
Proof.
  revert a. induction n; intros a; [reflexivity|].
  cbn [seq]. rewrite suml_cons, IHn, sumn_S_l, Nat.add_0_r. f_equal.
  apply sumn_ext. intros. f_equal. lia.
Qed.
Lemma suml_nth {A} (f : A -> Qc) l d : suml f l = sumn (fun i => f (nth i l d)) (length l).
Proof.
  induction l; [reflexivity|]. rewrite suml_cons, IHl. cbn [length]. rewrite sumn_S_l. reflexivity.
Qed.

From Coq Require Import Permutation.
Lemma suml_perm {A} (f : A -> Qc) l1 l2 : Permutation l1 l2 -> suml f l1 = suml f l2.
Proof.
  induction 1; rewrite ?suml_cons; try congruence.
  ring.
Qed.

Lemma sumn_pick f n k :
  (k < n)%nat -> (forall i, (i < n)%nat -> i <> k -> f i = 0) -> sumn f n = f k.
Proof.
  induction n as [|n IH]; intros Hk H; [lia|]. cbn.
  destruct (Nat.eq_dec k n) as [->|].
  - rewrite (sumn_ext _ (fun _ => 0)), sumn_0; [ring|]. intros. apply H; lia.
  - rewrite IH, (H n); [ring|lia|lia|lia|]. intros. apply H; lia.
Qed.

(* ---- arrays ----------------------------------------------------------- *)

Lemma upd_length {A} (l : list A) i v : length (upd l i v) = length l.
Proof. revert i. induction l; intros [|i]; cbn; auto. Qed.

Lemma upd_nth {A} (l : list A) i j v d :
  nth j (upd l i v) d = if Nat.eqb i j then (if Nat.ltb i (length l) then v else nth j l d) else nth j l d.
Proof.
  revert i j. induction l as [|a l IH]; intros [|i] [|j]; cbn; try reflexivity.
  - destruct (Nat.eqb i j); reflexivity.
  - rewrite IH. reflexivity.
Qed.

Lemma getq_upd_same a i v : (i < length a)%nat -> getq (upd a i v) i = v.
Proof.
  intros H. unfold getq. rewrite upd_nth, Nat.eqb_refl.
  apply Nat.ltb_lt in H. now rewrite H.
Qed.
Lemma getq_upd_other a i j v : i <> j -> getq (upd a i v) j = getq a j.
Proof. intros H. unfold getq. rewrite upd_nth. apply Nat.eqb_neq in H. now rewrite H. Qed.

Lemma arr_ext (a b : arr) :
  length a = length b -> (forall i, (i < length a)%nat -> getq a i = getq b i) -> a = b.
Proof. intros L H. apply nth_ext with (d := 0) (d' := 0); auto. Qed.

Lemma getq_zeros n i : getq (zeros1 n) i = 0.
Proof. unfold getq, zeros1. apply nth_repeat. Qed.
Lemma zeros1_length n : length (zeros1 n) = n.
Proof. apply repeat_length. Qed.

Lemma getq_map_seq f n i : (i < n)%nat -> getq (map f (seq 0 n)) i = f i.
Proof.
  intros H. unfold getq. rewrite nth_indep with (d' := f 0%nat) by now rewrite map_length, seq_length.
  rewrite map_nth, seq_nth by exact H. reflexivity.
Qed.

(* two dimensional arrays of shape n x m *)
Definition shape2 (n m : nat) (a : arr2) : Prop :=
  length a = n /\ forall i, (i < n)%nat -> length (nth i a []) = m.

Lemma shape2_zeros n m : shape2 n m (zeros2 n m).
Proof.
  split; [apply repeat_length|]. intros i Hi. unfold zeros2.
  rewrite nth_indep with (d' := zeros1 m) by now rewrite repeat_length.
  rewrite nth_repeat. apply zeros1_length.
Qed.

Lemma get2_zeros n m i j : get2 (zeros2 n m) i j = 0.
Proof.
  unfold get2, zeros2. destruct (Nat.lt_ge_cases i n) as [H|H].
  - rewrite nth_indep with (d' := zeros1 m) by now rewrite repeat_length.
    rewrite nth_repeat. apply (getq_zeros m j).
  - rewrite nth_overflow with (n := i) by now rewrite repeat_length. now destruct j.
Qed.

Lemma shape2_upd2 n m a i j v : shape2 n m a -> shape2 n m (upd2 a i j v).
Proof.
  intros [L H]. unfold upd2. split; [now rewrite upd_length|].
  intros k Hk. rewrite upd_nth. destruct (Nat.eqb_spec i k) as [->|]; [|auto].
  destruct (Nat.ltb_spec k (length a)); [|auto]. rewrite upd_length. auto.
Qed.

Lemma get2_upd2_same n m a i j v :
  shape2 n m a -> (i < n)%nat -> (j < m)%nat -> get2 (upd2 a i j v) i j = v.
Proof.
  intros [L H] Hi Hj. unfold get2, upd2.
  rewrite upd_nth, Nat.eqb_refl, (proj2 (Nat.ltb_lt i (length a))) by lia.
  rewrite upd_nth, Nat.eqb_refl, (proj2 (Nat.ltb_lt _ _)); [reflexivity|].
  rewrite H by exact Hi. exact Hj.
Qed.

Lemma get2_upd2_other a i j i' j' v :
  (i, j) <> (i', j') -> get2 (upd2 a i j v) i' j' = get2 a i' j'.
Proof.
  intros Hne. unfold get2, upd2. rewrite upd_nth.
  destruct (Nat.eqb_spec i i') as [->|]; [|reflexivity].
  destruct (Nat.ltb_spec i' (length a)); [|reflexivity].
  rewrite upd_nth. destruct (Nat.eqb_spec j j') as [->|]; [congruence|reflexivity].
Qed.

Lemma arr2_ext n m (a b : arr2) :
  shape2 n m a -> shape2 n m b ->
  (forall i j, (i < n)%nat -> (j < m)%nat -> get2 a i j = get2 b i j) -> a = b.
Proof.
  intros [La Ha] [Lb Hb] H. apply nth_ext with (d := []) (d' := []); [congruence|].
  intros i Hi. rewrite La in Hi. apply arr_ext.
  - rewrite Ha, Hb; auto.
  - intros j Hj. rewrite Ha in Hj by exact Hi. apply H; auto.
Qed.

(* ---- binomials -------------------------------------------------------- *)

Lemma choose_0_r n : choose n 0 = 1%nat.
Proof. now destruct n. Qed.
Lemma choose_gt n k : (n < k)%nat -> choose n k = 0%nat.
Proof.
  revert k. induction n; intros [|k] H; try lia; [reflexivity|].
  cbn. rewrite !IHn by lia. reflexivity.
Qed.
Lemma choose_diag n : choose n n = 1%nat.
Proof. induction n; [reflexivity|]. cbn. rewrite IHn, choose_gt by lia. reflexivity. Qed.
Lemma choose_S n k : choose (S n) (S k) = (choose n (S k) + choose n k)%nat.
Proof. reflexivity. Qed.
Lemma choose_n_1 n : choose n 1 = n.
Proof. induction n; [reflexivity|]. rewrite choose_S, IHn, choose_0_r. lia. Qed.
Lemma choose_pred n : choose (S n) n = S n.
Proof. induction n; [reflexivity|]. rewrite choose_S, choose_diag, IHn. lia. Qed.

Lemma choose_fact_aux n : forall m k, (m + k <= n)%nat ->
  (choose (m + k) k * (fact k * fact m) = fact (m + k))%nat.
Proof.
  induction n as [|n IH]; intros m k H.
  - assert (m = 0)%nat by lia. assert (k = 0)%nat by lia. subst. reflexivity.
  - destruct k as [|k].
    { rewrite Nat.add_0_r, choose_0_r. cbn [fact]. lia. }
    destruct m as [|m].
    { rewrite Nat.add_0_l, choose_diag. cbn [fact]. lia. }
    change (S m + S k)%nat with (S (m + S k)). rewrite choose_S.
    replace (m + S k)%nat with (S m + k)%nat at 2 by lia.
    rewrite Nat.mul_add_distr_r.
    pose proof (IH m (S k) ltac:(lia)) as H1.
    pose proof (IH (S m) k ltac:(lia)) as H2.
    replace (choose (m + S k) (S k) * (fact (S k) * fact (S m)))%nat
      with (S m * (choose (m + S k) (S k) * (fact (S k) * fact m)))%nat
      by (change (fact (S m)) with (S m * fact m)%nat; ring).
    rewrite H1.
    replace (choose (S m + k) k * (fact (S k) * fact (S m)))%nat
      with (S k * (choose (S m + k) k * (fact k * fact (S m))))%nat
      by (change (fact (S k)) with (S k * fact k)%nat; ring).
    rewrite H2. replace (S m + k)%nat with (m + S k)%nat by lia.
    change (fact (S (m + S k))) with (S (m + S k) * fact (m + S k))%nat. ring.
Qed.

Lemma choose_fact m k : (choose (m + k) k * (fact k * fact m) = fact (m + k))%nat.
Proof. now apply choose_fact_aux with (n := (m + k)%nat). Qed.

Lemma choose_sym m k : choose (m + k) k = choose (m + k) m.
Proof.
  pose proof (choose_fact m k). pose proof (choose_fact k m).
  rewrite (Nat.add_comm k m) in H0.
  assert (P : (fact k * fact m <> 0)%nat) by (apply Nat.neq_mul_0; split; apply fact_neq_0).
  apply Nat.mul_cancel_r with (p := (fact k * fact m)%nat); [exact P|].
  rewrite H. rewrite (Nat.mul_comm (fact k)). rewrite H0. reflexivity.
Qed.

(* ---- options ---------------------------------------------------------- *)
Lemma foldM_app {A B} (f : A -> B -> option A) l1 l2 a :
  foldM f (l1 ++ l2) a = obind (foldM f l1 a) (foldM f l2).
Proof.
  revert a. induction l1; intros a0; [reflexivity|]. cbn. destruct (f a0 a); cbn; auto.
Qed.
Lemma foldM_snoc {A B} (f : A -> B -> option A) l b a :
  foldM f (l ++ [b]) a = obind (foldM f l a) (fun x => f x b).
Proof. rewrite foldM_app. destruct (foldM f l a); cbn; [|reflexivity]. destruct (f a0 b); reflexivity. Qed.
Lemma mapM_length {A B} (f : A -> option B) l r : mapM f l = Some r -> length r = length l.
Proof.
  revert r. induction l; cbn; intros r; [intros [= <-]; reflexivity|].
  destruct (f a); cbn; [|discriminate]. destruct (mapM f l); cbn; [|discriminate].
  intros [= <-]. cbn. f_equal. auto.
Qed.
