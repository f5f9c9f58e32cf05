(* Bootstrap confidence intervals (C62 and further claims). *)
From Coq Require Import String Ascii Permutation Sorted Qround.
From Verif Require Import Base BaseLemmas ModelIndex ModelConf ProofLabels Checks.
Close Scope string_scope.
Local Open Scope Qc_scope.

(* ---- specification ---------------------------------------------------------------- *)

Definition count (P : Qc -> bool) (l : list Qc) : nat := List.length (filter P l).
(* x is the k-th smallest element (k from 0) *)
Definition order_stat (l : list Qc) (k : nat) (x : Qc) : Prop :=
  In x l /\ (count (fun y => qltb y x) l <= k < count (fun y => qleb y x) l)%nat.
(* v is the linearly interpolated q-quantile of l *)
Definition is_quantile (l : list Qc) (q v : Qc) : Prop :=
  exists k g x, qn (List.length l - 1) * q = qn k + g /\ 0 <= g /\ g < 1 /\ order_stat l k x /\
    (g = 0 -> v = x) /\ (g <> 0 -> exists y, order_stat l (S k) y /\ v = (1 - g) * x + g * y).
Definition is_min (l : list Qc) (x : Qc) : Prop := In x l /\ forall y, In y l -> x <= y.
Definition is_max (l : list Qc) (x : Qc) : Prop := In x l /\ forall y, In y l -> y <= x.

(* ---- numbers ------------------------------------------------------------------------ *)

Lemma qleb_spec a b : reflect (a <= b) (qleb a b).
Proof.
  unfold qleb. destruct (qltb_spec b a) as [L|L]; cbn; constructor.
  - now apply Qclt_not_le.
  - now apply Qcnot_lt_le.
Qed.
Lemma qleb_total x y : qleb x y = true \/ qleb y x = true.
Proof.
  destruct (qleb_spec x y) as [L|L]; [now left|]. right. destruct (qleb_spec y x) as [L2|L2]; [reflexivity|].
  exfalso. apply Qcnot_le_lt in L, L2. exact (Qclt_not_le _ _ L (Qclt_le_weak _ _ L2)).
Qed.
Lemma qleb_trans x y z : qleb x y = true -> qleb y z = true -> qleb x z = true.
Proof.
  destruct (qleb_spec x y), (qleb_spec y z); try discriminate. intros _ _. destruct (qleb_spec x z) as [|N]; [reflexivity|].
  exfalso. apply N. eapply Qcle_trans; eauto.
Qed.
Lemma half_pos : 0 < half. Proof. reflexivity. Qed.
Lemma lerp_eq a b t : lerp a b t = a + (b - a) * t.
Proof. unfold lerp. destruct (qleb half t); [|reflexivity]. ring. Qed.

(* floor of a nonnegative number *)
Lemma this_qn k : (this (qn k) == inject_Z (Z.of_nat k))%Q.
Proof. unfold qn. apply Qred_correct. Qed.
Lemma floor_spec h : 0 <= h -> let k := Z.to_nat (Qfloor (this h)) in qn k <= h /\ h < qn (S k).
Proof.
  intros H k.
  assert (Z0 : (0 <= Qfloor (this h))%Z).
  { change 0%Z with (Qfloor 0). apply Qfloor_resp_le. exact H. }
  split; unfold Qcle, Qclt; rewrite this_qn; unfold k.
  - rewrite Z2Nat.id by exact Z0. apply Qfloor_le.
  - rewrite Nat2Z.inj_succ, Z2Nat.id by exact Z0. apply Qlt_floor.
Qed.
Lemma qn_le_inv a b : qn a <= qn b -> (a <= b)%nat.
Proof. intros H. destruct (Nat.le_gt_cases a b) as [|L]; [assumption|]. apply qn_lt in L. exfalso. exact (Qclt_not_le _ _ L H). Qed.
Lemma qn_lt_inv a b : qn a < qn b -> (a < b)%nat.
Proof. intros H. destruct (Nat.lt_ge_cases a b) as [|L]; [assumption|]. apply qn_le in L. exfalso. exact (Qclt_not_le _ _ H L). Qed.

(* ---- sorted lists ---------------------------------------------------------------------- *)

Definition sorted (l : list Qc) : Prop := StronglySorted Qcle l.
Definition qsort (l : list Qc) : list Qc := sort_by qleb l.
Lemma qsort_sorted l : sorted (qsort l).
Proof.
  pose proof (sort_sorted qleb qleb_total qleb_trans l) as S. unfold sorted, qsort. induction S as [|a t S IH F]; constructor; auto.
  revert F. apply Forall_impl. intros x. now destruct (qleb_spec a x).
Qed.
Lemma qsort_perm l : Permutation (qsort l) l.
Proof. apply sort_perm. Qed.
Lemma qsort_length l : List.length (qsort l) = List.length l.
Proof. apply Permutation_length, qsort_perm. Qed.
Lemma sorted_unique l : forall l', sorted l -> sorted l' -> Permutation l l' -> l = l'.
Proof.
  induction l as [|a t IH]; intros [|b t'] S S' P.
  - reflexivity.
  - apply Permutation_nil in P. discriminate.
  - apply Permutation_sym, Permutation_nil in P. discriminate.
  - inversion S as [|? ? St Fa]; subst. inversion S' as [|? ? St' Fb]; subst. rewrite Forall_forall in Fa, Fb.
    assert (E : a = b).
    { apply Qcle_antisym.
      - assert (I : In b (a :: t)) by (apply (Permutation_in _ (Permutation_sym P)); now left). destruct I as [->|I]; [apply Qcle_refl|auto].
      - assert (I : In a (b :: t')) by (apply (Permutation_in _ P); now left). destruct I as [->|I]; [apply Qcle_refl|auto]. }
    subst b. f_equal. apply IH; auto. now apply Permutation_cons_inv in P.
Qed.
Lemma qsort_unique l s : sorted s -> Permutation s l -> qsort l = s.
Proof. intros S P. apply sorted_unique; [apply qsort_sorted|exact S|]. rewrite qsort_perm. now symmetry. Qed.
Lemma sorted_nth s i j d : sorted s -> (i <= j < List.length s)%nat -> nth i s d <= nth j s d.
Proof.
  intros S. revert i j. induction S as [|a t S IH F]; intros i j H; [cbn in H; lia|]. rewrite Forall_forall in F.
  destruct j as [|j]; [assert (i = 0%nat) by lia; subst; apply Qcle_refl|]. destruct i as [|i].
  - cbn [nth]. apply F, nth_In. cbn in H. lia.
  - cbn [nth]. apply IH. cbn in H. lia.
Qed.
Lemma pick_le s i j : sorted s -> (i <= j)%nat -> pick s i <= pick s j.
Proof.
  intros S H. unfold pick. destruct s as [|a t]; [destruct (Nat.min i _), (Nat.min j _); apply Qcle_refl|].
  apply sorted_nth; [exact S|]. cbn [List.length]. lia.
Qed.
Lemma pick_in s i : s <> [] -> In (pick s i) s.
Proof. intros N. unfold pick. apply nth_In. destruct s; [contradiction|]. cbn [List.length]. lia. Qed.

(* ---- interpolation ---------------------------------------------------------------------- *)

Definition between (s : list Qc) (h v : Qc) : Prop :=
  forall k, qn k <= h -> h <= qn (S k) -> v = pick s k + (pick s (S k) - pick s k) * (h - qn k).
Lemma quantile_between s q : 0 <= q -> between s (qn (List.length s - 1) * q) (quantile_sorted s q).
Proof.
  intros Hq k K1 K2. unfold quantile_sorted. set (h := qn (List.length s - 1) * q) in *. rewrite lerp_eq.
  assert (H0 : 0 <= h) by (unfold h; rewrite <- (Qcmult_0_l q); apply Qcmult_le_compat_r; [apply qn_nonneg|exact Hq]).
  destruct (floor_spec h H0) as [F1 F2]. set (k' := Z.to_nat (Qfloor (this h))) in *.
  assert (k <= k')%nat by (apply Nat.lt_succ_r, qn_lt_inv; eapply Qcle_lt_trans; eauto).
  assert (k' <= S k)%nat by (apply qn_le_inv; eapply Qcle_trans; eauto).
  assert (k' = k \/ k' = S k) as [->| ->] by lia; [reflexivity|].
  assert (h = qn (S k)) by (apply Qcle_antisym; auto). rewrite H2. rewrite (qn_S k). ring.
Qed.
Lemma interp_bounds a b t : a <= b -> 0 <= t -> t <= 1 -> a <= a + (b - a) * t /\ a + (b - a) * t <= b.
Proof.
  intros L T0 T1. assert (D : 0 <= b - a) by (apply Qcle_minus_iff in L; exact L). split.
  - rewrite <- (Qcplus_0_r a) at 1. apply Qcplus_le_compat; [apply Qcle_refl|]. rewrite <- (Qcmult_0_l t). now apply Qcmult_le_compat_r.
  - replace b with (a + (b - a)) at 2 by ring. apply Qcplus_le_compat; [apply Qcle_refl|].
    rewrite (Qcmult_comm (b - a)). rewrite <- (Qcmult_1_l (b - a)) at 2. now apply Qcmult_le_compat_r.
Qed.
Lemma qc_sub_le a b c : a <= b -> a - c <= b - c.
Proof. intros H. apply Qcplus_le_compat; [exact H|apply Qcle_refl]. Qed.
Lemma quantile_sorted_mono s q q' : sorted s -> 0 <= q -> q <= q' -> quantile_sorted s q <= quantile_sorted s q'.
Proof.
  intros S H0 L. set (c := qn (List.length s - 1)).
  assert (Hh : c * q <= c * q') by (rewrite !(Qcmult_comm c); apply Qcmult_le_compat_r; [exact L|apply qn_nonneg]).
  assert (P0 : forall x, 0 <= x -> 0 <= c * x) by (intros x Hx; rewrite <- (Qcmult_0_l x); apply Qcmult_le_compat_r; [apply qn_nonneg|exact Hx]).
  assert (H0' : 0 <= q') by (eapply Qcle_trans; eauto).
  destruct (floor_spec _ (P0 q H0)) as [A1 A2]. destruct (floor_spec _ (P0 q' H0')) as [B1 B2].
  set (k := Z.to_nat (Qfloor (this (c * q)))) in *. set (k' := Z.to_nat (Qfloor (this (c * q')))) in *.
  rewrite (quantile_between s q H0 k A1 (Qclt_le_weak _ _ A2)). fold c.
  rewrite (quantile_between s q' H0' k' B1 (Qclt_le_weak _ _ B2)). fold c.
  assert (T : forall x j, qn j <= x -> x < qn (Datatypes.S j) -> 0 <= x - qn j /\ x - qn j <= 1).
  { intros x j J1 J2. split; [apply Qcle_minus_iff in J1; exact J1|]. replace 1 with (qn (Datatypes.S j) - qn j) by (rewrite qn_S; ring).
    apply qc_sub_le. now apply Qclt_le_weak. }
  destruct (T _ _ A1 A2) as [TA0 TA1], (T _ _ B1 B2) as [TB0 TB1].
  assert (k <= k')%nat by (apply Nat.lt_succ_r, qn_lt_inv; eapply Qcle_lt_trans; [exact A1|]; eapply Qcle_lt_trans; eauto).
  destruct (Nat.eq_dec k k') as [<-|N].
  - apply Qcplus_le_compat; [apply Qcle_refl|]. rewrite !(Qcmult_comm (pick s (Datatypes.S k) - pick s k)). apply Qcmult_le_compat_r.
    + now apply qc_sub_le.
    + assert (X : pick s k <= pick s (Datatypes.S k)) by (apply pick_le; auto). apply Qcle_minus_iff in X. exact X.
  - assert (PL : forall j, pick s j <= pick s (Datatypes.S j)) by (intros; apply pick_le; auto).
    destruct (interp_bounds _ _ _ (PL k) TA0 TA1) as [_ U]. destruct (interp_bounds _ _ _ (PL k') TB0 TB1) as [D _].
    eapply Qcle_trans; [exact U|]. eapply Qcle_trans; [|exact D]. apply pick_le; [exact S|lia].
Qed.
Lemma quantile_sorted_0 s : quantile_sorted s 0 = pick s 0.
Proof.
  rewrite (quantile_between s 0 (Qcle_refl 0) 0%nat).
  - rewrite Qcmult_0_r, qn_0. ring.
  - rewrite Qcmult_0_r, qn_0. apply Qcle_refl.
  - rewrite Qcmult_0_r. apply qn_nonneg.
Qed.
Lemma pick_last s k : (List.length s - 1 <= k)%nat -> pick s k = pick s (List.length s - 1).
Proof. intros H. unfold pick. f_equal. lia. Qed.
Lemma quantile_sorted_1 s : quantile_sorted s 1 = pick s (List.length s - 1).
Proof.
  rewrite (quantile_between s 1 ltac:(discriminate) (List.length s - 1)%nat).
  - rewrite Qcmult_1_r. ring.
  - rewrite Qcmult_1_r. apply Qcle_refl.
  - rewrite Qcmult_1_r. apply qn_le. lia.
Qed.

(* the value only depends on the list as a multiset *)
Lemma quantile_eq x q : x <> [] -> 0 <= q -> q <= 1 -> quantile x q = Ok (quantile_sorted (qsort x) q).
Proof.
  intros N Q0 Q1. unfold quantile. destruct (qltb_spec q 0) as [L|_]; [exfalso; exact (Qclt_not_le _ _ L Q0)|].
  destruct (qltb_spec 1 q) as [L|_]; [exfalso; exact (Qclt_not_le _ _ L Q1)|]. cbn [orb]. destruct x; [contradiction|reflexivity].
Qed.

(* ---- order statistics ------------------------------------------------------------------- *)

Lemma count_perm P l l' : Permutation l l' -> count P l = count P l'.
Proof.
  unfold count. induction 1; cbn; auto.
  - destruct (P x); cbn; congruence.
  - destruct (P x), (P y); reflexivity.
  - congruence.
Qed.
Lemma order_stat_perm l l' k x : Permutation l l' -> order_stat l k x -> order_stat l' k x.
Proof.
  intros P [I C]. split; [apply (Permutation_in _ P I)|]. rewrite <- !(count_perm _ _ _ P). exact C.
Qed.
Lemma count_le_mono P Q l : (forall x, P x = true -> Q x = true) -> (count P l <= count Q l)%nat.
Proof.
  intros H. unfold count. induction l as [|x l IH]; [auto|]. cbn. destruct (P x) eqn:E; [rewrite (H x E); cbn; lia|]. destruct (Q x); cbn; lia.
Qed.
Lemma order_stat_unique l k x y : order_stat l k x -> order_stat l k y -> x = y.
Proof.
  intros [_ [X1 X2]] [_ [Y1 Y2]]. destruct (Qclt_le_dec x y) as [L|L].
  - exfalso. assert (count (fun z => qleb z x) l <= count (fun z => qltb z y) l)%nat; [|lia].
    apply count_le_mono. intros z. destruct (qleb_spec z x); [|discriminate]. intros _. destruct (qltb_spec z y) as [|N]; [reflexivity|].
    exfalso. apply N. eapply Qcle_lt_trans; eauto.
  - apply Qcle_antisym; [|exact L]. destruct (Qclt_le_dec y x) as [L'|L']; [|exact L'].
    exfalso. assert (count (fun z => qleb z y) l <= count (fun z => qltb z x) l)%nat; [|lia].
    apply count_le_mono. intros z. destruct (qleb_spec z y); [|discriminate]. intros _. destruct (qltb_spec z x) as [|N]; [reflexivity|].
    exfalso. apply N. eapply Qcle_lt_trans; eauto.
Qed.
Lemma order_stat_sorted s : sorted s -> forall k, (k < List.length s)%nat -> order_stat s k (nth k s 0).
Proof.
  intros S k Hk. split; [now apply nth_In|].
  assert (Split : s = firstn k s ++ nth k s 0 :: skipn (Datatypes.S k) s).
  { clear S. revert k Hk. induction s as [|a t IH]; intros [|k] Hk; cbn in *; try lia; [reflexivity|]. f_equal. apply IH. lia. }
  assert (F1 : forall y, In y (firstn k s) -> y <= nth k s 0).
  { intros y Hy. apply In_nth with (d := 0) in Hy. destruct Hy as (i & Hi & <-). rewrite firstn_length in Hi.
    replace (nth i (firstn k s) 0) with (nth i s 0).
    - apply sorted_nth; auto. lia.
    - rewrite <- (firstn_skipn k s) at 1. apply app_nth1. rewrite firstn_length. lia. }
  assert (F2 : forall y, In y (skipn (Datatypes.S k) s) -> nth k s 0 <= y).
  { intros y Hy. apply In_nth with (d := 0) in Hy. destruct Hy as (i & Hi & <-). rewrite skipn_length in Hi.
    replace (nth i (skipn (Datatypes.S k) s) 0) with (nth (Datatypes.S k + i) s 0).
    - apply sorted_nth; auto. lia.
    - rewrite <- (firstn_skipn (Datatypes.S k) s) at 1. rewrite app_nth2; rewrite firstn_length; [f_equal; lia|lia]. }
  assert (C : forall P, count P s = (count P (firstn k s) + ((if P (nth k s 0%Qc) then 1 else 0) + count P (skipn (Datatypes.S k) s)))%nat).
  { intros P. rewrite Split at 1. unfold count. rewrite filter_app, app_length. f_equal. cbn. destruct (P (nth k s 0)); reflexivity. }
  assert (Cnone : forall P l, (forall y, In y l -> P y = false) -> count P l = 0%nat).
  { intros P l Hl. unfold count. induction l as [|y l IH]; [reflexivity|]. cbn. rewrite (Hl y) by now left. apply IH. intros. apply Hl. now right. }
  assert (Call : forall P l, (forall y, In y l -> P y = true) -> count P l = List.length l).
  { intros P l Hl. unfold count. induction l as [|y l IH]; [reflexivity|]. cbn. rewrite (Hl y) by now left. cbn. f_equal. apply IH. intros. apply Hl. now right. }
  assert (Cub : forall P l, (count P l <= List.length l)%nat).
  { intros P l. unfold count. induction l as [|y l IH]; [auto|]. cbn. destruct (P y); cbn; lia. }
  split.
  - rewrite C. rewrite (Cnone _ (skipn (Datatypes.S k) s)).
    + destruct (qltb_spec (nth k s 0) (nth k s 0)) as [L|_]; [exfalso; exact (Qclt_not_le _ _ L (Qcle_refl _))|].
      pose proof (Cub (fun y => qltb y (nth k s 0)) (firstn k s)). rewrite firstn_length in H. lia.
    + intros y Hy. destruct (qltb_spec y (nth k s 0)) as [L|]; [|reflexivity]. exfalso. exact (Qclt_not_le _ _ L (F2 y Hy)).
  - rewrite C. rewrite (Call _ (firstn k s)).
    + destruct (qleb_spec (nth k s 0) (nth k s 0)) as [_|N]; [|exfalso; apply N, Qcle_refl]. rewrite firstn_length. lia.
    + intros y Hy. destruct (qleb_spec y (nth k s 0)) as [|N]; [reflexivity|]. exfalso. apply N. now apply F1.
Qed.

(* ---- C62: quantiles ------------------------------------------------------------------------ *)

(* np.quantile interpolates between two consecutive order statistics *)
Theorem quantile_spec : forall x q, x <> [] -> 0 <= q -> q <= 1 ->
  exists v, quantile x q = Ok v /\ is_quantile x q v.
Proof.
  intros x q N Q0 Q1. rewrite (quantile_eq x q N Q0 Q1). eexists. split; [reflexivity|].
  assert (L1 : (1 <= List.length x)%nat) by (destruct x; [contradiction|cbn; lia]).
  set (s := qsort x). assert (Ls : List.length s = List.length x) by apply qsort_length.
  set (h := qn (List.length x - 1) * q).
  assert (H0 : 0 <= h) by (unfold h; rewrite <- (Qcmult_0_l q); apply Qcmult_le_compat_r; [apply qn_nonneg|exact Q0]).
  assert (H1 : h <= qn (List.length x - 1)).
  { unfold h. rewrite <- (Qcmult_1_l (qn _)) at 2. rewrite Qcmult_comm. apply Qcmult_le_compat_r; [exact Q1|apply qn_nonneg]. }
  destruct (floor_spec h H0) as [F1 F2]. set (k := Z.to_nat (Qfloor (this h))) in *.
  assert (Hk : (k < List.length x)%nat) by (assert (k <= List.length x - 1)%nat by (apply qn_le_inv; eapply Qcle_trans; eauto); lia).
  exists k, (h - qn k), (nth k s 0).
  assert (Pk : pick s k = nth k s 0) by (unfold pick; f_equal; lia).
  assert (V : quantile_sorted s q = pick s k + (pick s (S k) - pick s k) * (h - qn k)).
  { unfold h. rewrite <- Ls. apply quantile_between; auto; rewrite Ls; [exact F1|apply Qclt_le_weak, F2]. }
  split; [unfold h; ring|]. split; [apply Qcle_minus_iff in F1; exact F1|]. split.
  { replace 1 with (qn (S k) - qn k) by (rewrite qn_S; ring). apply Qclt_minus_iff. replace (qn (S k) - qn k + - (h - qn k)) with (qn (S k) + - h) by ring.
    apply Qclt_minus_iff in F2. exact F2. }
  split; [apply (order_stat_perm s); [apply qsort_perm|]; apply order_stat_sorted; [apply qsort_sorted|lia]|]. split.
  - intros G. rewrite V, G, Pk. ring.
  - intros G. exists (nth (S k) s 0).
    assert (HSk : (S k < List.length x)%nat).
    { apply Nat.le_neq. split; [lia|]. intros E. apply G. assert (h = qn k); [|rewrite H; ring].
      apply Qcle_antisym; [|exact F1]. replace k with (List.length x - 1)%nat by lia. exact H1. }
    split; [apply (order_stat_perm s); [apply qsort_perm|]; apply order_stat_sorted; [apply qsort_sorted|lia]|].
    rewrite V, Pk. unfold pick. replace (Nat.min (S k) (List.length s - 1)) with (S k) by lia. ring.
Qed.
(* order statistics, hence the quantile, are determined by the values *)
Theorem quantile_unique : forall x q v w, is_quantile x q v -> is_quantile x q w -> v = w.
Proof.
  intros x q v w (k & g & a & E & G0 & G1 & A & Z & NZ) (k' & g' & b & E' & G0' & G1' & B & Z' & NZ').
  assert (k = k').
  { assert (C : forall i j c d, 0 <= c -> c < 1 -> 0 <= d -> d < 1 -> qn i + c = qn j + d -> (i <= j)%nat).
    { intros i j c d C0 C1 D0 D1 X. apply Nat.lt_succ_r, qn_lt_inv. apply Qcle_lt_trans with (qn i + c).
      - rewrite <- (Qcplus_0_r (qn i)) at 1. apply Qcplus_le_compat; [apply Qcle_refl|exact C0].
      - rewrite X, qn_S, Qcplus_comm. apply Qclt_minus_iff. replace (1 + qn j + - (d + qn j)) with (1 + - d) by ring. now apply Qclt_minus_iff in D1. }
    apply Nat.le_antisymm; [apply (C k k' g g')|apply (C k' k g' g)]; auto; congruence. }
  subst k'. assert (g = g').
  { rewrite E in E'. replace g with (qn k + g - qn k) by ring. rewrite E'. ring. }
  subst g'. rewrite (order_stat_unique _ _ _ _ A B) in *.
  destruct (Qc_eq_dec g 0) as [D|D]; [rewrite (Z D), (Z' D); reflexivity|].
  destruct (NZ D) as (y & Y1 & Y2), (NZ' D) as (y' & Y1' & Y2'). rewrite (order_stat_unique _ _ _ _ Y1 Y1') in Y2. congruence.
Qed.
Theorem quantile_permutation : forall x y q, Permutation x y -> quantile x q = quantile y q.
Proof.
  intros x y q P. unfold quantile. destruct (qltb q 0 || qltb 1 q); [reflexivity|].
  assert (E : sort_by qleb x = sort_by qleb y).
  { apply sorted_unique; [apply qsort_sorted|apply qsort_sorted|]. etransitivity; [apply qsort_perm|]. rewrite P. symmetry. apply qsort_perm. }
  destruct x as [|a x], y as [|b y]; auto.
  - apply Permutation_nil in P. discriminate.
  - apply Permutation_sym, Permutation_nil in P. discriminate.
  - now rewrite E.
Qed.
Theorem quantile_out_of_range : forall x q, q < 0 \/ 1 < q -> quantile x q = Raise EValue.
Proof. intros x q [H|H]; unfold quantile; [destruct (qltb_spec q 0)|destruct (qltb_spec 1 q); [now rewrite orb_true_r|]]; try contradiction; reflexivity. Qed.
Theorem quantile_monotone : forall x q q' v v', x <> [] -> q <= q' ->
  quantile x q = Ok v -> quantile x q' = Ok v' -> v <= v'.
Proof.
  intros x q q' v v' N L E E'.
  assert (R : forall p w, quantile x p = Ok w -> 0 <= p /\ p <= 1).
  { intros p w Ep. split.
    - destruct (Qclt_le_dec p 0) as [Lp|]; [|assumption]. rewrite quantile_out_of_range in Ep by auto. discriminate.
    - destruct (Qclt_le_dec 1 p) as [Lp|]; [|assumption]. rewrite quantile_out_of_range in Ep by auto. discriminate. }
  destruct (R _ _ E) as [A1 A2], (R _ _ E') as [B1 B2]. rewrite quantile_eq in E, E' by auto. inversion E; inversion E'.
  apply quantile_sorted_mono; auto. apply qsort_sorted.
Qed.
Theorem quantile_extremes : forall x, x <> [] ->
  (exists v, quantile x 0 = Ok v /\ is_min x v) /\ (exists v, quantile x 1 = Ok v /\ is_max x v).
Proof.
  intros x N. assert (Ns : qsort x <> []) by (intros E; apply N; apply Permutation_nil; rewrite <- E; apply qsort_perm).
  rewrite !quantile_eq by (auto; discriminate). rewrite quantile_sorted_0, quantile_sorted_1.
  assert (I : forall i, In (pick (qsort x) i) x) by (intros; apply (Permutation_in _ (qsort_perm x)); now apply pick_in).
  assert (Ex : forall y, In y x -> exists i, (i < List.length (qsort x))%nat /\ y = pick (qsort x) i).
  { intros y Hy. apply (Permutation_in _ (Permutation_sym (qsort_perm x))) in Hy. apply In_nth with (d := 0) in Hy.
    destruct Hy as (i & Hi & <-). exists i. split; [exact Hi|]. unfold pick. f_equal. lia. }
  split; eexists; (split; [reflexivity|]); (split; [apply I|]); intros y Hy; destruct (Ex y Hy) as (i & Hi & ->); apply pick_le; try apply qsort_sorted; lia.
Qed.
(* every quantile lies between the smallest and the largest value *)
Theorem quantile_in_range : forall x q v lo hi, quantile x q = Ok v -> is_min x lo -> is_max x hi -> lo <= v /\ v <= hi.
Proof.
  intros x q v lo hi E [Il Hl] [Ih Hh]. assert (N : x <> []) by (intros ->; contradiction).
  destruct (quantile_extremes x N) as [(a & Ea & Ia & Ha) (b & Eb & Ib & Hb)].
  assert (R : 0 <= q /\ q <= 1).
  { split.
    - destruct (Qclt_le_dec q 0) as [Lp|]; [|assumption]. rewrite quantile_out_of_range in E by auto. discriminate.
    - destruct (Qclt_le_dec 1 q) as [Lp|]; [|assumption]. rewrite quantile_out_of_range in E by auto. discriminate. }
  destruct R as [R0 R1]. split.
  - apply Qcle_trans with a; [now apply Hl|]. eapply (quantile_monotone x 0 q); eauto.
  - apply Qcle_trans with b; [|now apply Hh]. eapply (quantile_monotone x q 1); eauto.
Qed.

(* affine changes of the values *)
Lemma pick_map f s i : s <> [] -> pick (map f s) i = f (pick s i).
Proof.
  intros N. unfold pick. rewrite map_length. rewrite (nth_indep _ 0 (f 0)).
  - apply map_nth.
  - rewrite map_length. destruct s; [contradiction|]. cbn [List.length]. lia.
Qed.
Lemma qsort_nonempty x : x <> [] -> qsort x <> [].
Proof. intros N E. apply N. apply Permutation_nil. rewrite <- E. apply qsort_perm. Qed.
Lemma sorted_map f s : (forall a b, a <= b -> f a <= f b) -> sorted s -> sorted (map f s).
Proof.
  intros M. induction 1 as [|a t S IH F]; [constructor|]. cbn. constructor; [exact IH|]. apply Forall_map. revert F. apply Forall_impl. auto.
Qed.
Theorem quantile_scaled : forall x q v c b, 0 <= c -> quantile x q = Ok v -> quantile (map (fun t => c * t + b) x) q = Ok (c * v + b).
Proof.
  intros x q v c b Hc E. destruct x as [|x0 xs]; [unfold quantile in E; destruct (qltb q 0 || qltb 1 q); discriminate|].
  set (x := x0 :: xs) in *. assert (N : x <> []) by discriminate.
  assert (R : 0 <= q /\ q <= 1).
  { split.
    - destruct (Qclt_le_dec q 0) as [Lp|]; [|assumption]. rewrite quantile_out_of_range in E by auto. discriminate.
    - destruct (Qclt_le_dec 1 q) as [Lp|]; [|assumption]. rewrite quantile_out_of_range in E by auto. discriminate. }
  destruct R as [R0 R1]. rewrite quantile_eq in E by auto. assert (V : v = quantile_sorted (qsort x) q) by congruence. rewrite quantile_eq; auto; [|discriminate]. f_equal. rewrite V. clear E V.
  replace (qsort (map (fun t => c * t + b) x)) with (map (fun t => c * t + b) (qsort x)).
  2: { symmetry. apply qsort_unique; [|apply Permutation_map, qsort_perm]. apply sorted_map; [|apply qsort_sorted].
       intros u w L. apply Qcplus_le_compat; [|apply Qcle_refl]. rewrite !(Qcmult_comm c). now apply Qcmult_le_compat_r. }
  unfold quantile_sorted. rewrite !lerp_eq, map_length, !pick_map by now apply qsort_nonempty. ring.
Qed.
Lemma sorted_rev_opp s : sorted s -> sorted (rev (map Qcopp s)).
Proof.
  induction 1 as [|a t S IH F]; [constructor|]. cbn [map rev]. rewrite Forall_forall in F.
  assert (A : forall l z, sorted l -> (forall y, In y l -> y <= z) -> sorted (l ++ [z])).
  { intros l z Sl. induction Sl as [|u l Sl IHl Fu]; intros Hz; cbn; [repeat constructor|]. constructor; [apply IHl; intros; apply Hz; now right|].
    apply Forall_app. split; [exact Fu|]. repeat constructor. apply Hz. now left. }
  apply A; [exact IH|]. intros y Hy. apply in_rev in Hy. apply in_map_iff in Hy. destruct Hy as (w & <- & Hw). apply Qcopp_le_compat. auto.
Qed.
Theorem quantile_reflected : forall x q v, quantile x (1 - q) = Ok v -> quantile (map Qcopp x) q = Ok (- v).
Proof.
  intros x q v E. destruct x as [|x0 xs]; [unfold quantile in E; destruct (qltb (1 - q) 0 || qltb 1 (1 - q)); discriminate|].
  set (x := x0 :: xs) in *. assert (N : x <> []) by discriminate.
  assert (R : 0 <= q /\ q <= 1).
  { split.
    - destruct (Qclt_le_dec q 0) as [Lp|]; [|assumption]. rewrite quantile_out_of_range in E; [discriminate|]. right.
      apply Qclt_minus_iff. replace (1 - q + - (1)) with (0 + - q) by ring. now apply Qclt_minus_iff in Lp.
    - destruct (Qclt_le_dec 1 q) as [Lp|]; [|assumption]. rewrite quantile_out_of_range in E; [discriminate|]. left.
      apply Qclt_minus_iff. replace (0 + - (1 - q)) with (q + - (1)) by ring. now apply Qclt_minus_iff in Lp. }
  destruct R as [R0 R1].
  assert (R0' : 0 <= 1 - q) by (apply Qcle_minus_iff in R1; exact R1).
  assert (R1' : 1 - q <= 1) by (apply Qcle_minus_iff; replace (1 + - (1 - q)) with q by ring; exact R0).
  rewrite quantile_eq in E by auto. assert (V : v = quantile_sorted (qsort x) (1 - q)) by congruence. rewrite quantile_eq; auto; [|discriminate]. f_equal. rewrite V. clear E V.
  set (s := qsort x). replace (qsort (map Qcopp x)) with (rev (map Qcopp s)).
  2: { symmetry. apply qsort_unique; [apply sorted_rev_opp, qsort_sorted|]. etransitivity; [symmetry; apply Permutation_rev|]. apply Permutation_map, qsort_perm. }
  assert (Ns : s <> []) by now apply qsort_nonempty.
  set (n := List.length s). assert (Ln : List.length (rev (map Qcopp s)) = n) by now rewrite rev_length, map_length.
  assert (Pk : forall i, pick (rev (map Qcopp s)) i = - pick s (n - 1 - i)).
  { intros i. unfold pick. rewrite Ln. fold n. assert (1 <= n)%nat by (unfold n; destruct s; [contradiction|cbn; lia]).
    rewrite rev_nth by (rewrite map_length; fold n; lia). rewrite map_length. fold n.
    rewrite (nth_indep _ 0 (- 0)) by (rewrite map_length; fold n; lia). rewrite map_nth. f_equal. f_equal. lia. }
  assert (1 <= n)%nat by (unfold n; destruct s; [contradiction|cbn; lia]).
  destruct (Nat.eq_dec n 1) as [E1|E1].
  - (* one value *)
    assert (P1 : exists c, forall i, pick s i = c) by (exists (nth 0 s 0); intros i; unfold pick; f_equal; fold n; lia).
    destruct P1 as [c P1]. unfold quantile_sorted. rewrite !lerp_eq, !Pk, !P1. ring.
  - set (h := qn (n - 1) * (1 - q)). set (h' := qn (n - 1) * q).
    assert (Hsum : h + h' = qn (n - 1)) by (unfold h, h'; ring).
    assert (Hh0 : 0 <= h) by (unfold h; rewrite <- (Qcmult_0_l (1 - q)); apply Qcmult_le_compat_r; [apply qn_nonneg|exact R0']).
    assert (Hh0' : 0 <= h') by (unfold h'; rewrite <- (Qcmult_0_l q); apply Qcmult_le_compat_r; [apply qn_nonneg|exact R0]).
    assert (Hh1 : h <= qn (n - 1)).
    { apply Qcle_minus_iff. replace (qn (n - 1) + - h) with h' by (rewrite <- Hsum; ring). exact Hh0'. }
    assert (Ex : exists k, (k + 2 <= n)%nat /\ qn k <= h /\ h <= qn (S k)).
    { destruct (floor_spec h Hh0) as [F1 F2]. set (k := Z.to_nat (Qfloor (this h))) in *.
      assert (k <= n - 1)%nat by (apply qn_le_inv; eapply Qcle_trans; eauto). destruct (Nat.eq_dec k (n - 1)) as [Ek|Ek].
      - exists (n - 2)%nat. split; [lia|]. split.
        + apply Qcle_trans with (qn k); [apply qn_le; lia|exact F1].
        + replace (S (n - 2)) with (n - 1)%nat by lia. exact Hh1.
      - exists k. split; [lia|]. split; [exact F1|now apply Qclt_le_weak]. }
    destruct Ex as (k & Hk & K1 & K2).
    rewrite (quantile_between s (1 - q) R0' k K1 K2). fold n h.
    assert (Q : forall a, (a <= n - 1)%nat -> qn (n - 1 - a) = qn (n - 1) - qn a).
    { intros a Ha. replace (n - 1)%nat with ((n - 1 - a) + a)%nat at 2 by lia. rewrite qn_add. ring. }
    assert (B := quantile_between (rev (map Qcopp s)) q R0 (n - 1 - S k)%nat). rewrite Ln in B. fold h' in B.
    rewrite B; clear B.
    + rewrite !Pk. replace (n - 1 - (n - 1 - S k))%nat with (S k) by lia. replace (n - 1 - S (n - 1 - S k))%nat with k by lia.
      rewrite Q by lia. replace h' with (qn (n - 1) - h) by (rewrite <- Hsum; ring). rewrite qn_S. ring.
    + rewrite Q by lia. apply Qcle_minus_iff. replace (h' + - (qn (n - 1) - qn (S k))) with (qn (S k) + - h) by (rewrite <- Hsum; ring).
      apply Qcle_minus_iff in K2. exact K2.
    + replace (S (n - 1 - S k)) with (n - 1 - k)%nat by lia. rewrite Q by lia. apply Qcle_minus_iff.
      replace (qn (n - 1) - qn k + - h') with (h + - qn k) by (rewrite <- Hsum; ring). apply Qcle_minus_iff in K1. exact K1.
Qed.

(* ---- C62: percentile and basic intervals ---------------------------------------------------- *)

Definition level_ok (q : Qc) : Prop := 0 <= q /\ q <= 1.
Lemma mapR_quantiles x alphas : x <> [] -> Forall level_ok alphas ->
  mapR (quantile x) alphas = Ok (map (quantile_sorted (qsort x)) alphas).
Proof.
  intros N F. induction F as [|q t [Q0 Q1] F IH]; [reflexivity|]. cbn [mapR map]. rewrite quantile_eq by auto. cbn. rewrite IH. reflexivity.
Qed.
Lemma mapR_raises {S T} (f : S -> res T) l e a : In a l -> f a = Raise e -> exists e', mapR f l = Raise e'.
Proof.
  induction l as [|b l IH]; [contradiction|]. intros [->|Hi] E; cbn [mapR].
  - rewrite E. cbn. eauto.
  - destruct (f b); cbn; [|eauto]. destruct (IH Hi E) as [e' ->]. cbn. eauto.
Qed.
Lemma quantile_sorted_spec x q : x <> [] -> level_ok q -> is_quantile x q (quantile_sorted (qsort x) q).
Proof. intros N [Q0 Q1]. destruct (quantile_spec x q N Q0 Q1) as (v & E & S). rewrite quantile_eq in E by auto. congruence. Qed.

Section Methods.
  Context (pow15 ndtr_fin : Qc -> Qc) (ndtri_ : Qc -> num) (boot : list Qc) (jack : option (list Qc)) (alphas : list Qc).
  Lemma interval_percentile hat : interval pow15 ndtr_fin ndtri_ boot hat jack alphas "percentile"
    = match mapR (quantile boot) alphas with Raise e => Raise e | Ok ci => Ok (map Fin ci) end.
  Proof. unfold interval. change (lower "percentile") with "percentile"%string. reflexivity. Qed.
  Lemma interval_basic h : interval pow15 ndtr_fin ndtri_ boot (Some h) jack alphas "basic"
    = match mapR (quantile boot) alphas with Raise e => Raise e | Ok ci => Ok (map Fin (map (fun c => qn 2 * h - c) (rev ci))) end.
  Proof. unfold interval. change (lower "basic") with "basic"%string. reflexivity. Qed.
  Lemma interval_bca h j : interval pow15 ndtr_fin ndtri_ boot (Some h) (Some j) alphas "bca"
    = quantile_along_axis boot (map (bca_level ndtr_fin ndtri_ (compute_a pow15 j) (compute_z0 ndtri_ h boot)) alphas).
  Proof. unfold interval. change (lower "bca") with "bca"%string. reflexivity. Qed.
End Methods.

Theorem percentile_interval : forall pow15 ndtr_fin ndtri_ boot hat jack alphas, boot <> [] -> Forall level_ok alphas ->
  exists vs, bootstrap_confidence_interval pow15 ndtr_fin ndtri_ boot hat jack (Levels alphas) "percentile" = Ok (map Fin vs) /\
    Forall2 (is_quantile boot) alphas vs.
Proof.
  intros pow15 ndtr_fin ndtri_ boot hat jack alphas N F. exists (map (quantile_sorted (qsort boot)) alphas). split.
  - unfold bootstrap_confidence_interval, alphas_of. rewrite interval_percentile, mapR_quantiles by auto. reflexivity.
  - induction F as [|q t Q F IH]; constructor; auto. now apply quantile_sorted_spec.
Qed.
(* 2 theta_hat minus the percentile interval in reverse order *)
Theorem basic_interval : forall pow15 ndtr_fin ndtri_ boot h jack alphas, boot <> [] -> Forall level_ok alphas ->
  exists vs, bootstrap_confidence_interval pow15 ndtr_fin ndtri_ boot (Some h) jack (Levels alphas) "basic"
               = Ok (map Fin (rev (map (fun v => qn 2 * h - v) vs))) /\
    Forall2 (is_quantile boot) alphas vs.
Proof.
  intros pow15 ndtr_fin ndtri_ boot h jack alphas N F. exists (map (quantile_sorted (qsort boot)) alphas). split.
  - unfold bootstrap_confidence_interval, alphas_of. rewrite interval_basic, mapR_quantiles by auto. now rewrite (map_rev (fun c => qn 2 * h - c)).
  - induction F as [|q t Q F IH]; constructor; auto. now apply quantile_sorted_spec.
Qed.
Lemma dec_half : dec 5 1 = half.
Proof. apply qeqb_eq. vm_compute. reflexivity. Qed.
Lemma level_bounds alpha : 0 <= alpha -> alpha <= 1 ->
  level_ok (alpha * half) /\ level_ok (1 - alpha * half) /\ alpha * half <= 1 - alpha * half.
Proof.
  intros A0 A1. assert (H0 : 0 <= alpha * half) by (rewrite <- (Qcmult_0_l half); apply Qcmult_le_compat_r; [exact A0|apply Qclt_le_weak, half_pos]).
  assert (H1 : alpha * half <= half) by (rewrite <- (Qcmult_1_l half) at 2; apply Qcmult_le_compat_r; [exact A1|apply Qclt_le_weak, half_pos]).
  assert (HH : half + half = 1) by (apply qeqb_eq; vm_compute; reflexivity).
  assert (H2 : half <= 1 - alpha * half).
  { apply Qcle_minus_iff. replace (1 - alpha * half + - half) with (half + - (alpha * half)) by (rewrite <- HH at 1; ring). now apply Qcle_minus_iff in H1. }
  assert (H3 : half <= 1) by discriminate.
  split; [split; auto; eapply Qcle_trans; eauto|]. split; [split|].
  - eapply Qcle_trans; [|exact H2]. apply Qclt_le_weak, half_pos.
  - apply Qcle_minus_iff. replace (1 + - (1 - alpha * half)) with (alpha * half) by ring. exact H0.
  - eapply Qcle_trans; eauto.
Qed.
(* a single alpha in [0, 1]: both intervals are ordered; the percentile interval lies
   in the range of the bootstrap values *)
Theorem two_sided_interval : forall pow15 ndtr_fin ndtri_ boot h jack alpha, boot <> [] -> 0 <= alpha -> alpha <= 1 ->
  exists lo hi, lo <= hi /\ is_quantile boot (alpha * half) lo /\ is_quantile boot (1 - alpha * half) hi /\
    (forall a b, is_min boot a -> is_max boot b -> a <= lo /\ hi <= b) /\
    bootstrap_confidence_interval pow15 ndtr_fin ndtri_ boot None jack (Level alpha) "percentile" = Ok [Fin lo; Fin hi] /\
    bootstrap_confidence_interval pow15 ndtr_fin ndtri_ boot (Some h) jack (Level alpha) "basic" = Ok [Fin (qn 2 * h - hi); Fin (qn 2 * h - lo)] /\
    qn 2 * h - hi <= qn 2 * h - lo.
Proof.
  intros pow15 ndtr_fin ndtri_ boot h jack alpha N A0 A1. destruct (level_bounds alpha A0 A1) as ([L0 L1] & [U0 U1] & LU).
  set (s := qsort boot). exists (quantile_sorted s (alpha * half)), (quantile_sorted s (1 - alpha * half)).
  assert (LH : quantile_sorted s (alpha * half) <= quantile_sorted s (1 - alpha * half)) by (apply quantile_sorted_mono; auto; apply qsort_sorted).
  split; [exact LH|]. split; [apply quantile_sorted_spec; auto; split; auto|]. split; [apply quantile_sorted_spec; auto; split; auto|]. split; [|split; [|split]].
  - intros a b Ha Hb. split.
    + apply (quantile_in_range boot (alpha * half) _ a b); auto. now apply quantile_eq.
    + apply (quantile_in_range boot (1 - alpha * half) _ a b); auto. now apply quantile_eq.
  - unfold bootstrap_confidence_interval, alphas_of. rewrite dec_half, interval_percentile, mapR_quantiles by (auto; repeat constructor; auto). reflexivity.
  - unfold bootstrap_confidence_interval, alphas_of. rewrite dec_half, interval_basic, mapR_quantiles by (auto; repeat constructor; auto). reflexivity.
  - apply Qcplus_le_compat; [apply Qcle_refl|]. now apply Qcopp_le_compat.
Qed.
(* symmetric levels: entry i of the basic interval is the alphas[i]-quantile of the
   bootstrap distribution reflected at theta_hat *)
Theorem basic_interval_symmetric : forall pow15 ndtr_fin ndtri_ boot h jack alphas, boot <> [] -> Forall level_ok alphas ->
  rev alphas = map (fun a => 1 - a) alphas ->
  exists vs, bootstrap_confidence_interval pow15 ndtr_fin ndtri_ boot (Some h) jack (Levels alphas) "basic" = Ok (map Fin vs) /\
    Forall2 (fun a v => quantile (map (fun x => qn 2 * h - x) boot) a = Ok v) alphas vs.
Proof.
  intros pow15 ndtr_fin ndtri_ boot h jack alphas N F S.
  exists (map (fun c => qn 2 * h - c) (rev (map (quantile_sorted (qsort boot)) alphas))). split.
  - unfold bootstrap_confidence_interval, alphas_of. rewrite interval_basic, mapR_quantiles by auto. reflexivity.
  - rewrite <- map_rev, S, !map_map. clear S. induction F as [|a t [Q0 Q1] F IH]; constructor; auto. clear IH F.
    assert (E : quantile boot (1 - a) = Ok (quantile_sorted (qsort boot) (1 - a))).
    { apply quantile_eq; auto.
      - apply Qcle_minus_iff in Q1. exact Q1.
      - apply Qcle_minus_iff. replace (1 + - (1 - a)) with a by ring. exact Q0. }
    apply quantile_reflected in E. apply (quantile_scaled _ _ _ 1 (qn 2 * h)) in E; [|discriminate].
    rewrite map_map in E. replace (qn 2 * h - quantile_sorted (qsort boot) (1 - a)) with (1 * - quantile_sorted (qsort boot) (1 - a) + qn 2 * h) by ring.
    rewrite <- E. f_equal. apply map_ext. intros. ring.
Qed.
(* levels that are not symmetric: the documented "confidence_interval[i] corresponds to
   alphas[i]" fails for the basic interval *)
Theorem basic_interval_asymmetric_refuted : exists pow15 ndtr_fin ndtri_ boot h alphas vs,
  boot <> [] /\ Forall level_ok alphas /\
  bootstrap_confidence_interval pow15 ndtr_fin ndtri_ boot (Some h) None (Levels alphas) "basic" = Ok vs /\
  exists a v w, nth_error alphas 0 = Some a /\ nth_error vs 0 = Some (Fin v) /\
    quantile (map (fun x => qn 2 * h - x) boot) a = Ok w /\ v <> w.
Proof.
  exists (fun x => x), (fun x => x), (fun _ => NaN), (lz [0; 1; 2; 3; 4])%Z, (qz 2), [fr 1 4; fr 1 2].
  eexists. split; [discriminate|]. split; [repeat constructor; discriminate|]. split; [vm_compute; reflexivity|].
  exists (fr 1 4). eexists. eexists. split; [reflexivity|]. split; [reflexivity|]. split; [vm_compute; reflexivity|]. apply qc_neq. vm_compute. reflexivity.
Qed.
(* alpha > 1 gives an interval in reverse order *)
Theorem interval_order_refuted : exists pow15 ndtr_fin ndtri_ boot alpha lo hi,
  bootstrap_confidence_interval pow15 ndtr_fin ndtri_ boot None None (Level alpha) "percentile" = Ok [Fin lo; Fin hi] /\ hi < lo.
Proof.
  exists (fun x => x), (fun x => x), (fun _ => NaN), (lz [0; 1; 2; 3; 4])%Z, (fr 3 2), (qz 3), (qz 1). split; [vm_compute|reflexivity].
  assert (E : forall a b c d, qeqb a b = true -> qeqb c d = true -> Ok [Fin a; Fin c] = Ok [Fin b; Fin d]) by (intros a b c d X Y; apply qeqb_eq in X, Y; now subst).
  apply E; vm_compute; reflexivity.
Qed.

(* ---- method names and missing arguments ------------------------------------------------------ *)

Theorem missing_theta_hat : forall pow15 ndtr_fin ndtri_ boot jack alpha method,
  (lower method = "basic" \/ lower method = "bca")%string ->
  bootstrap_confidence_interval pow15 ndtr_fin ndtri_ boot None jack alpha method = Raise EValue.
Proof. intros pow15 ndtr_fin ndtri_ boot jack alpha method M. unfold bootstrap_confidence_interval, interval. destruct M as [-> | ->]; reflexivity. Qed.
Theorem missing_theta_jack : forall pow15 ndtr_fin ndtri_ boot h alpha method, lower method = "bca"%string ->
  bootstrap_confidence_interval pow15 ndtr_fin ndtri_ boot (Some h) None alpha method = Raise EValue.
Proof. intros pow15 ndtr_fin ndtri_ boot h alpha method M. unfold bootstrap_confidence_interval, interval. rewrite M. reflexivity. Qed.
(* labelled arrays: a TypeError for the names as documented; a name written otherwise
   never sees the estimate *)
Theorem missing_arguments_labelled : forall pow15 ndtr_fin ndtri_ boot hat jack alpha method,
  let r := bootstrap_confidence_interval_xarray pow15 ndtr_fin ndtri_ boot hat jack alpha method in
  (method = "basic"%string -> hat = None -> r = Raise EType) /\
  (method = "bca"%string -> hat = None \/ jack = None -> r = Raise EType) /\
  (method <> "basic"%string -> method <> "bca"%string -> lower method = "basic"%string \/ lower method = "bca"%string -> r = Raise EValue).
Proof.
  intros pow15 ndtr_fin ndtri_ boot hat jack alpha method r. split; [|split].
  - intros -> ->. reflexivity.
  - intros -> [-> | ->]; [reflexivity|]. destruct hat; reflexivity.
  - intros N1 N2 M. subst r. unfold bootstrap_confidence_interval_xarray, interval. apply String.eqb_neq in N1, N2. rewrite N1, N2.
    cbn [orb andb]. destruct M as [-> | ->]; reflexivity.
Qed.
(* any other name silently gives the percentile interval *)
Theorem unknown_method_is_percentile : forall pow15 ndtr_fin ndtri_ boot hat jack alpha method,
  lower method <> "basic"%string -> lower method <> "bca"%string ->
  bootstrap_confidence_interval pow15 ndtr_fin ndtri_ boot hat jack alpha method
  = bootstrap_confidence_interval pow15 ndtr_fin ndtri_ boot hat jack alpha "percentile".
Proof.
  intros pow15 ndtr_fin ndtri_ boot hat jack alpha method M1 M2. unfold bootstrap_confidence_interval, interval.
  apply String.eqb_neq in M1, M2. rewrite M1, M2. reflexivity.
Qed.
Theorem method_case_irrelevant_numpy : forall pow15 ndtr_fin ndtri_ boot hat jack alpha m m', lower m = lower m' ->
  bootstrap_confidence_interval pow15 ndtr_fin ndtri_ boot hat jack alpha m
  = bootstrap_confidence_interval pow15 ndtr_fin ndtri_ boot hat jack alpha m'.
Proof. intros pow15 ndtr_fin ndtri_ boot hat jack alpha m m' E. unfold bootstrap_confidence_interval, interval. now rewrite E. Qed.
(* with labelled data the case matters: "BCa" and "Basic" always raise *)
Theorem method_case_xarray_refuted : exists pow15 ndtr_fin ndtri_ boot hat alpha v,
  bootstrap_confidence_interval pow15 ndtr_fin ndtri_ boot (Some hat) None alpha "Basic" = Ok v /\
  bootstrap_confidence_interval_xarray pow15 ndtr_fin ndtri_ boot (Some hat) None alpha "Basic" = Raise EValue /\
  bootstrap_confidence_interval_xarray pow15 ndtr_fin ndtri_ boot (Some hat) None alpha "basic" = Ok v.
Proof.
  exists (fun x => x), (fun x => x), (fun _ => NaN), (lz [0; 1; 2])%Z, (qz 1), (Level (fr 1 2)). eexists.
  split; [vm_compute; reflexivity|]. split; vm_compute; reflexivity.
Qed.
Theorem labelled_equals_numpy : forall pow15 ndtr_fin ndtri_ boot hat jack alpha method,
  In method ["percentile"; "basic"; "bca"]%string ->
  (method <> "percentile"%string -> hat <> None) -> (method = "bca"%string -> jack <> None) ->
  bootstrap_confidence_interval_xarray pow15 ndtr_fin ndtri_ boot hat jack alpha method
  = bootstrap_confidence_interval pow15 ndtr_fin ndtri_ boot hat jack alpha method.
Proof.
  intros pow15 ndtr_fin ndtri_ boot hat jack alpha method [<-|[<-|[<-|[]]]] Hh Hj.
  - reflexivity.
  - destruct hat; [reflexivity|]. exfalso. apply Hh; [discriminate|reflexivity].
  - destruct hat; [|exfalso; apply Hh; [discriminate|reflexivity]]. destruct jack; [reflexivity|]. exfalso. now apply Hj.
Qed.

(* ---- percentile of a score -------------------------------------------------------------------- *)

Lemma count_split P Q l : (forall x, In x l -> P x = negb (Q x)) -> (count P l + count Q l = List.length l)%nat.
Proof.
  intros H. unfold count. induction l as [|x l IH]; [reflexivity|]. cbn. rewrite (H x) by now left.
  assert (E : forall y, In y l -> P y = negb (Q y)) by (intros; apply H; now right). specialize (IH E). destruct (Q x); cbn; lia.
Qed.
Lemma count_map P f l : count P (map f l) = count (fun x => P (f x)) l.
Proof. unfold count. induction l as [|x l IH]; [reflexivity|]. cbn. destruct (P (f x)); cbn; congruence. Qed.
Lemma count_ext P Q l : (forall x, P x = Q x) -> count P l = count Q l.
Proof. intros H. unfold count. induction l as [|x l IH]; [reflexivity|]. cbn. rewrite H. destruct (Q x); cbn; congruence. Qed.
Lemma count_length P l : (count P l <= List.length l)%nat.
Proof. unfold count. induction l as [|x l IH]; [auto|]. cbn. destruct (P x); cbn; lia. Qed.
Lemma score_eq a s : percentile_of_score a s = (qn (count (fun x => qltb x s) a) + qn (count (fun x => qleb x s) a)) / (qn 2 * qn (List.length a)).
Proof. reflexivity. Qed.
Lemma two_n_pos (a : list Qc) : a <> [] -> 0 < qn 2 * qn (List.length a).
Proof. intros N. rewrite <- qn_mul. apply qn_pos. destruct a; [contradiction|cbn; lia]. Qed.
Lemma qdiv_le x y c : 0 < c -> x <= y -> x / c <= y / c.
Proof.
  intros C L. unfold Qcdiv. apply Qcmult_le_compat_r; [exact L|]. apply Qclt_le_weak.
  destruct (Qclt_le_dec 0 (/ c)) as [P|P]; [exact P|]. exfalso.
  assert (X : / c * c <= 0 * c) by (apply Qcmult_le_compat_r; [exact P|apply Qclt_le_weak, C]).
  rewrite Qcmult_comm, Qcmult_inv_r, Qcmult_0_l in X; [now apply X|]. intros ->. now apply (Qclt_not_le _ _ C).
Qed.
(* the score of theta_hat is a fraction of the bootstrap values, monotone, and turns
   into its complement when everything is reflected *)
Theorem score_bounds : forall a s, a <> [] -> level_ok (percentile_of_score a s).
Proof.
  intros a s N. rewrite score_eq. pose proof (two_n_pos a N) as P. assert (NZ : qn 2 * qn (List.length a) <> 0) by (intros E; rewrite E in P; discriminate P). split.
  - replace 0 with (0 / (qn 2 * qn (List.length a))) by (field; split; [now apply qn_nz; destruct a; [contradiction|cbn; lia]|discriminate]).
    apply qdiv_le; [exact P|]. rewrite <- qn_add. apply qn_nonneg.
  - replace 1 with ((qn 2 * qn (List.length a)) / (qn 2 * qn (List.length a))) by (apply Qcmult_inv_r; exact NZ).
    apply qdiv_le; [exact P|]. rewrite <- qn_add, <- qn_mul. apply qn_le.
    pose proof (count_length (fun x => qltb x s) a). pose proof (count_length (fun x => qleb x s) a). lia.
Qed.
Theorem score_monotone : forall a s t, a <> [] -> s <= t -> percentile_of_score a s <= percentile_of_score a t.
Proof.
  intros a s t N L. rewrite !score_eq. apply qdiv_le; [now apply two_n_pos|]. rewrite <- !qn_add. apply qn_le, Nat.add_le_mono; apply count_le_mono; intros x.
  - destruct (qltb_spec x s) as [X|]; [|discriminate]. intros _. destruct (qltb_spec x t) as [|Y]; [reflexivity|]. exfalso. apply Y. eapply Qclt_le_trans; eauto.
  - destruct (qleb_spec x s) as [X|]; [|discriminate]. intros _. destruct (qleb_spec x t) as [|Y]; [reflexivity|]. exfalso. apply Y. eapply Qcle_trans; eauto.
Qed.
Lemma opp_lt_iff x y : - x < - y <-> y < x.
Proof.
  rewrite !(Qclt_minus_iff (- x)), (Qclt_minus_iff y). replace (- y + - - x) with (x + - y) by ring. reflexivity.
Qed.
Theorem score_reflected : forall a s, a <> [] -> percentile_of_score (map Qcopp a) (- s) = 1 - percentile_of_score a s.
Proof.
  intros a s N. rewrite !score_eq, !count_map, map_length.
  assert (C1 : (count (fun x => qltb (- x) (- s)) a + count (fun x => qleb x s) a = List.length a)%nat).
  { apply count_split. intros x _. unfold qleb. rewrite negb_involutive. destruct (qltb_spec (- x) (- s)) as [X|X], (qltb_spec s x) as [Y|Y]; auto; rewrite opp_lt_iff in X; contradiction. }
  assert (C2 : (count (fun x => qleb (- x) (- s)) a + count (fun x => qltb x s) a = List.length a)%nat).
  { apply count_split. intros x _. unfold qleb. destruct (qltb_spec (- s) (- x)) as [X|X], (qltb_spec x s) as [Y|Y]; auto; rewrite opp_lt_iff in X; contradiction. }
  apply (f_equal qn) in C1, C2. rewrite qn_add in C1, C2.
  assert (NZ : qn (List.length a) <> 0) by (apply qn_nz; destruct a; [contradiction|cbn; lia]).
  replace (qn (count (fun x => qltb (- x) (- s)) a)) with (qn (List.length a) - qn (count (fun x => qleb x s) a)) by (rewrite <- C1; ring).
  replace (qn (count (fun x => qleb (- x) (- s)) a)) with (qn (List.length a) - qn (count (fun x => qltb x s) a)) by (rewrite <- C2; ring).
  assert (T : qn 2 <> 0) by discriminate. replace (qn 2) with (1 + 1) in * by (apply qeqb_eq; vm_compute; reflexivity). field. split; auto.
Qed.
Theorem score_scaled : forall a s c b, 0 < c -> percentile_of_score (map (fun t => c * t + b) a) (c * s + b) = percentile_of_score a s.
Proof.
  intros a s c b C. rewrite !score_eq, !count_map, map_length.
  assert (E : forall x y, c * x + b < c * y + b <-> x < y).
  { intros x y. split; intros H.
    - destruct (Qclt_le_dec x y) as [|L]; [assumption|]. exfalso. apply (Qclt_not_le _ _ H). apply Qcplus_le_compat; [|apply Qcle_refl].
      rewrite !(Qcmult_comm c). apply Qcmult_le_compat_r; [exact L|now apply Qclt_le_weak].
    - destruct (Qclt_le_dec (c * x + b) (c * y + b)) as [|L]; [assumption|]. exfalso.
      assert (L2 : c * y <= c * x) by (replace (c * y) with (c * y + b - b) by ring; replace (c * x) with (c * x + b - b) by ring; now apply qc_sub_le).
      apply Qcle_minus_iff in L2. replace (c * x + - (c * y)) with (- (c * (y - x))) in L2 by ring.
      apply Qclt_minus_iff in H. assert (P : 0 < c * (y - x)).
      { rewrite <- (Qcmult_0_r c), !(Qcmult_comm c). apply Qcmult_lt_compat_r; auto. }
      apply (Qclt_not_le _ _ P). replace (c * (y - x)) with (- - (c * (y - x))) by ring. replace 0 with (- 0) by ring. now apply Qcopp_le_compat. }
  f_equal. f_equal; f_equal; apply count_ext; intros x.
  - destruct (qltb_spec (c * x + b) (c * s + b)) as [X|X], (qltb_spec x s) as [Y|Y]; auto; rewrite E in X; contradiction.
  - unfold qleb. destruct (qltb_spec (c * s + b) (c * x + b)) as [X|X], (qltb_spec s x) as [Y|Y]; auto; rewrite E in X; contradiction.
Qed.

(* ---- ndtri ---------------------------------------------------------------------------------------- *)

Ltac qcase := repeat match goal with
  | |- context [qltb ?a ?b] => destruct (qltb_spec a b)
  | |- context [qleb ?a ?b] => destruct (qleb_spec a b)
  | |- context [qeqb ?a ?b] => destruct (qeqb_spec a b)
  end.
Lemma dec_sum : dec 2425 5 + dec 97575 5 = 1.
Proof. apply qeqb_eq. vm_compute. reflexivity. Qed.
(* odd around one half *)
Theorem ndtri_odd : forall root junk p, level_ok p -> ndtri root junk (1 - p) = nneg (ndtri root junk p).
Proof.
  intros root junk p [P0 P1]. unfold ndtri. set (lo := dec 2425 5). set (hi := dec 97575 5).
  assert (S : hi = 1 - lo) by (unfold hi, lo; rewrite <- dec_sum; ring). rewrite S. clear S hi.
  assert (D : dec 5 1 = half) by apply dec_half. rewrite D.
  assert (HH : half + half = 1) by (apply qeqb_eq; vm_compute; reflexivity).
  assert (C : forall o, central (- o) = - central o).
  { intros o. unfold central. replace (- o * - o) with (o * o) by ring. unfold Qcdiv. ring. }
  assert (L : lo < 1 - lo) by (unfold lo; reflexivity). assert (L0 : 0 < lo) by reflexivity.
  assert (I1 : qltb (1 - p) lo = qltb (1 - lo) p).
  { destruct (qltb_spec (1 - p) lo) as [X|X], (qltb_spec (1 - lo) p) as [Y|Y]; auto; exfalso.
    - apply Y. apply Qclt_minus_iff. apply Qclt_minus_iff in X. replace (p + - (1 - lo)) with (lo + - (1 - p)) by ring. exact X.
    - apply X. apply Qclt_minus_iff. apply Qclt_minus_iff in Y. replace (lo + - (1 - p)) with (p + - (1 - lo)) by ring. exact Y. }
  assert (I2 : qltb (1 - lo) (1 - p) = qltb p lo).
  { destruct (qltb_spec (1 - lo) (1 - p)) as [X|X], (qltb_spec p lo) as [Y|Y]; auto; exfalso.
    - apply Y. apply Qclt_minus_iff. apply Qclt_minus_iff in X. replace (lo + - p) with (1 - p + - (1 - lo)) by ring. exact X.
    - apply X. apply Qclt_minus_iff. apply Qclt_minus_iff in Y. replace (1 - p + - (1 - lo)) with (lo + - p) by ring. exact Y. }
  assert (I3 : qltb 0 (1 - p) = qltb p 1).
  { destruct (qltb_spec 0 (1 - p)) as [X|X], (qltb_spec p 1) as [Y|Y]; auto; exfalso.
    - apply Y, Qclt_minus_iff. exact X.
    - apply X. apply Qclt_minus_iff in Y. exact Y. }
  assert (I4 : qltb (1 - p) 1 = qltb 0 p).
  { destruct (qltb_spec (1 - p) 1) as [X|X], (qltb_spec 0 p) as [Y|Y]; auto; exfalso.
    - apply Y. apply Qclt_minus_iff in X. replace p with (1 + - (1 - p)) by ring. exact X.
    - apply X, Qclt_minus_iff. replace (1 + - (1 - p)) with p by ring. exact Y. }
  assert (I5 : qeqb (1 - p) 0 = qeqb p 1).
  { destruct (qeqb_spec (1 - p) 0) as [X|X], (qeqb_spec p 1) as [Y|Y]; auto; exfalso.
    - apply Y. replace p with (1 - (1 - p)) by ring. rewrite X. ring.
    - apply X. rewrite Y. ring. }
  assert (I6 : qeqb (1 - p) 1 = qeqb p 0).
  { destruct (qeqb_spec (1 - p) 1) as [X|X], (qeqb_spec p 0) as [Y|Y]; auto; exfalso.
    - apply Y. replace p with (1 - (1 - p)) by ring. rewrite X. ring.
    - apply X. rewrite Y. ring. }
  unfold qleb. rewrite I1, I2, I3, I4, I5, I6.
  replace (1 - p - half) with (- (p - half)) by (rewrite <- HH; ring). rewrite C. replace (1 - (1 - p)) with p by ring.
  destruct (qeqb_spec p 1) as [E1|E1].
  { subst p. destruct (qeqb_spec 1 0) as [E|_]; [discriminate E|]. reflexivity. }
  destruct (qeqb_spec p 0) as [E0|E0].
  { reflexivity. }
  assert (Q0 : qltb 0 p = true) by (destruct (qltb_spec 0 p) as [|X]; [reflexivity|]; exfalso; apply E0; apply Qcle_antisym; auto; now apply Qcnot_lt_le).
  assert (Q1 : qltb p 1 = true) by (destruct (qltb_spec p 1) as [|X]; [reflexivity|]; exfalso; apply E1; apply Qcle_antisym; auto; now apply Qcnot_lt_le).
  rewrite Q0, Q1. destruct (qltb_spec p lo) as [X|X], (qltb_spec (1 - lo) p) as [Y|Y]; cbn [negb andb nneg].
  - exfalso. apply (Qclt_not_le _ _ L). apply Qclt_le_weak. eapply Qclt_trans; eauto.
  - f_equal.
  - f_equal. ring.
  - reflexivity.
Qed.
Theorem ndtri_half : forall root junk, ndtri root junk half = Fin 0.
Proof.
  intros root junk. unfold ndtri.
  replace (qltb half (dec 2425 5)) with false by (vm_compute; reflexivity).
  replace (qleb (dec 2425 5) half) with true by (vm_compute; reflexivity).
  replace (qleb half (dec 97575 5)) with true by (vm_compute; reflexivity).
  replace (qltb (dec 97575 5) half) with false by (vm_compute; reflexivity).
  replace (qeqb half 0) with false by (vm_compute; reflexivity). replace (qeqb half 1) with false by (vm_compute; reflexivity).
  cbn [andb]. apply (f_equal Fin). apply qeqb_eq. vm_compute. reflexivity.
Qed.
(* entries in [0, 1] do not depend on uninitialised memory, entries outside are nothing else *)
Theorem ndtri_inside : forall root junk junk' p, level_ok p -> ndtri root junk p = ndtri root junk' p.
Proof.
  intros root junk junk' p [P0 P1]. unfold ndtri. destruct (qeqb_spec p 1) as [|N1]; [reflexivity|]. destruct (qeqb_spec p 0) as [|N0]; [reflexivity|].
  assert (Q0 : qltb 0 p = true) by (destruct (qltb_spec 0 p) as [|X]; [reflexivity|]; exfalso; apply N0; apply Qcle_antisym; auto; now apply Qcnot_lt_le).
  assert (Q1 : qltb p 1 = true) by (destruct (qltb_spec p 1) as [|X]; [reflexivity|]; exfalso; apply N1; apply Qcle_antisym; auto; now apply Qcnot_lt_le).
  rewrite Q0, Q1. unfold qleb. destruct (qltb p (dec 2425 5)), (qltb (dec 97575 5) p); reflexivity.
Qed.
Theorem ndtri_outside_uninitialised : forall root junk p, p < 0 \/ 1 < p -> ndtri root junk p = junk.
Proof.
  intros root junk p H. unfold ndtri, qleb.
  assert (L0 : 0 < dec 2425 5) by reflexivity. assert (L1 : dec 97575 5 < 1) by reflexivity.
  destruct H as [H|H].
  - assert (X1 : qltb 0 p = false) by (destruct (qltb_spec 0 p) as [X|]; [exfalso; exact (Qclt_not_le _ _ X (Qclt_le_weak _ _ H))|reflexivity]).
    assert (X2 : qltb p (dec 2425 5) = true) by (destruct (qltb_spec p (dec 2425 5)) as [|X]; [reflexivity|exfalso; apply X; eapply Qclt_trans; eauto]).
    assert (X3 : qltb (dec 97575 5) p = false).
    { destruct (qltb_spec (dec 97575 5) p) as [X|]; [|reflexivity]. exfalso. apply (Qclt_not_le _ _ H). apply Qclt_le_weak. eapply Qclt_trans; [|exact X]. reflexivity. }
    rewrite X1, X2, X3. destruct (qeqb_spec p 0) as [->|]; [discriminate H|]. destruct (qeqb_spec p 1) as [->|]; [discriminate H|]. reflexivity.
  - assert (X1 : qltb p 1 = false) by (destruct (qltb_spec p 1) as [X|]; [exfalso; exact (Qclt_not_le _ _ X (Qclt_le_weak _ _ H))|reflexivity]).
    assert (X2 : qltb (dec 97575 5) p = true) by (destruct (qltb_spec (dec 97575 5) p) as [|X]; [reflexivity|exfalso; apply X; eapply Qclt_trans; eauto]).
    assert (X3 : qltb p (dec 2425 5) = false).
    { destruct (qltb_spec p (dec 2425 5)) as [X|]; [|reflexivity]. exfalso. apply (Qclt_not_le _ _ H). apply Qclt_le_weak. eapply Qclt_trans; [exact X|]. reflexivity. }
    rewrite X1, X2, X3. destruct (qeqb_spec p 0) as [->|]; [discriminate H|]. destruct (qeqb_spec p 1) as [->|]; [discriminate H|]. reflexivity.
Qed.

(* ---- BCa ------------------------------------------------------------------------------------------ *)

Lemma quantile_ok_level x q v : quantile x q = Ok v -> x <> [] /\ level_ok q.
Proof.
  intros E. split; [intros ->; unfold quantile in E; destruct (qltb q 0 || qltb 1 q); discriminate|]. split.
  - destruct (Qclt_le_dec q 0) as [Lp|]; [|assumption]. rewrite quantile_out_of_range in E by auto. discriminate.
  - destruct (Qclt_le_dec 1 q) as [Lp|]; [|assumption]. rewrite quantile_out_of_range in E by auto. discriminate.
Qed.
Lemma F2len {S T} (P : S -> T -> Prop) l r : Forall2 P l r -> List.length l = List.length r.
Proof. induction 1; cbn; auto. Qed.
Lemma mapR_Forall2 {S T} (f : S -> res T) l r : mapR f l = Ok r <-> Forall2 (fun a b => f a = Ok b) l r.
Proof.
  revert r. induction l as [|a l IH]; intros r; cbn [mapR].
  - split; [intros E; inversion E; constructor|intros F; inversion F; reflexivity].
  - destruct (f a) as [b|e] eqn:E; cbn.
    + destruct (mapR f l) as [r'|e] eqn:E'; cbn.
      * split; [intros X; inversion X; subst; constructor; auto; now apply IH|].
        intros F. inversion F as [|? y ? r2 Y F']; subst. apply IH in F'. congruence.
      * split; [discriminate|]. intros F. inversion F as [|? y ? r2 Y F']; subst. apply IH in F'. discriminate.
    + split; [discriminate|]. intros F. inversion F; subst. congruence.
Qed.

(* The levels are nan together or none is; otherwise every bound lies in the range of
   the bootstrap values. *)
Theorem bca_in_range : forall pow15 ndtr_fin ndtri_ boot h j alphas vs lo hi,
  bootstrap_confidence_interval pow15 ndtr_fin ndtri_ boot (Some h) (Some j) (Levels alphas) "bca" = Ok vs ->
  is_min boot lo -> is_max boot hi ->
  List.length vs = List.length alphas /\
  (Forall (fun v => v = NaN) vs \/ Forall (fun v => exists q, v = Fin q /\ lo <= q /\ q <= hi) vs).
Proof.
  intros pow15 ndtr_fin ndtri_ boot h j alphas vs lo hi E Lo Hi. unfold bootstrap_confidence_interval, alphas_of in E.
  rewrite interval_bca in E. unfold quantile_along_axis in E. set (f := bca_level ndtr_fin ndtri_ _ _) in E.
  destruct (existsb is_nan (map f alphas)).
  - assert (vs = map (fun _ => NaN) (map f alphas)) by congruence. subst vs. rewrite !map_length. split; [reflexivity|]. left.
    apply Forall_forall. intros v Hv. apply in_map_iff in Hv. destruct Hv as (? & <- & _). reflexivity.
  - apply mapR_Forall2 in E. split; [now rewrite <- (F2len _ _ _ E), map_length|]. right.
    apply Forall_forall. intros v Hv. assert (Ex : exists n, quantile_num boot n = Ok v).
    { clear -E Hv. induction E as [|a b l r X F IH]; [contradiction|]. destruct Hv as [<-|Hv]; [eauto|auto]. }
    destruct Ex as [n Hn]. destruct n as [q| | |]; try discriminate. cbn [quantile_num] in Hn. destruct (quantile boot q) as [w|] eqn:Q; [|discriminate].
    assert (v = Fin w) by congruence. subst v. exists w. split; [reflexivity|]. eapply quantile_in_range; eauto.
Qed.
(* It succeeds for any ndtr with values in [0, 1]. *)
Theorem bca_succeeds : forall pow15 ndtr_fin ndtri_ boot h j alphas, boot <> [] -> (forall x, level_ok (ndtr_fin x)) ->
  exists vs, bootstrap_confidence_interval pow15 ndtr_fin ndtri_ boot (Some h) (Some j) (Levels alphas) "bca" = Ok vs.
Proof.
  intros pow15 ndtr_fin ndtri_ boot h j alphas N R. unfold bootstrap_confidence_interval, alphas_of. rewrite interval_bca. unfold quantile_along_axis.
  set (f := bca_level ndtr_fin ndtri_ _ _). destruct (existsb is_nan (map f alphas)) eqn:E; [eauto|].
  assert (L : forall a, In a alphas -> exists q, f a = Fin q /\ level_ok q).
  { intros a Ha. assert (X : is_nan (f a) = false).
    { destruct (is_nan (f a)) eqn:X; [|reflexivity]. rewrite <- E. symmetry. apply existsb_exists. exists (f a). split; [now apply in_map|exact X]. }
    unfold f, bca_level in *. destruct (nadd _ (ndiv _ _)); cbn [ndtr is_nan] in *; try discriminate; eexists; (split; [reflexivity|]); auto; split; discriminate. }
  clear E. induction alphas as [|a t IH]; [eexists; reflexivity|]. destruct IH as [vs IH]; [intros; apply L; now right|].
  destruct (L a (or_introl eq_refl)) as (q & Eq & Q0 & Q1). cbn [map mapR]. rewrite Eq. cbn [quantile_num]. rewrite quantile_eq by auto. cbn [rbind]. rewrite IH. cbn. eauto.
Qed.

(* theta_hat outside the bootstrap values: only nan *)
Lemma infinite_z0 ndtr_fin ndtri_ a z0 alpha : z0 = PInf \/ z0 = NInf -> bca_level ndtr_fin ndtri_ a z0 alpha = NaN.
Proof.
  intros [-> | ->]; unfold bca_level; destruct (ndtri_ alpha) as [z| | |], a as [q| | |]; try reflexivity;
    cbn [nadd nmul nneg ndiv]; unfold inf_of; destruct (qeqb q 0), (qltb 0 q); reflexivity.
Qed.
Theorem bca_outside_is_nan : forall pow15 ndtr_fin root junk boot h j alphas, boot <> [] ->
  (forall x, In x boot -> h < x) \/ (forall x, In x boot -> x < h) ->
  bootstrap_confidence_interval pow15 ndtr_fin (ndtri root junk) boot (Some h) (Some j) (Levels alphas) "bca" = Ok (map (fun _ => NaN) alphas).
Proof.
  intros pow15 ndtr_fin root junk boot h j alphas N S. unfold bootstrap_confidence_interval, alphas_of. rewrite interval_bca.
  assert (Z : compute_z0 (ndtri root junk) h boot = PInf \/ compute_z0 (ndtri root junk) h boot = NInf).
  { unfold compute_z0. rewrite score_eq. destruct S as [S|S].
    - right. assert (C : forall P, (forall x, In x boot -> P x = false) -> count P boot = 0%nat).
      { intros P. clear. unfold count. induction boot as [|x l IH]; [reflexivity|]. intros Hl. cbn. rewrite (Hl x) by now left. apply IH. intros. apply Hl. now right. }
      rewrite !C. + replace ((qn 0 + qn 0) / (qn 2 * qn (List.length boot))) with 0; [unfold ndtri; destruct (qeqb_spec 0 1) as [X|_]; [discriminate X|reflexivity]|].
        rewrite qn_0. unfold Qcdiv. ring.
      + intros x Hx. unfold qleb. destruct (qltb_spec h x) as [|X]; [reflexivity|]. exfalso. now apply X, S.
      + intros x Hx. destruct (qltb_spec x h) as [X|]; [|reflexivity]. exfalso. exact (Qclt_not_le _ _ X (Qclt_le_weak _ _ (S x Hx))).
    - left. assert (C : forall P, (forall x, In x boot -> P x = true) -> count P boot = List.length boot).
      { intros P. clear. unfold count. induction boot as [|x l IH]; [reflexivity|]. intros Hl. cbn. rewrite (Hl x) by now left. cbn. f_equal. apply IH. intros. apply Hl. now right. }
      rewrite !C.
      + assert (NZ : qn (List.length boot) <> 0) by (apply qn_nz; destruct boot; [contradiction|cbn; lia]).
        replace ((qn (List.length boot) + qn (List.length boot)) / (qn 2 * qn (List.length boot))) with 1; [reflexivity|].
        replace (qn 2) with (1 + 1) by (apply qeqb_eq; vm_compute; reflexivity). field. split; [exact NZ|discriminate].
      + intros x Hx. unfold qleb. destruct (qltb_spec h x) as [X|]; [|reflexivity]. exfalso. exact (Qclt_not_le _ _ X (Qclt_le_weak _ _ (S x Hx))).
      + intros x Hx. destruct (qltb_spec x h) as [|X]; [reflexivity|]. exfalso. now apply X, S. }
  unfold quantile_along_axis. destruct alphas as [|a t]; [reflexivity|]. cbn [map existsb]. rewrite infinite_z0 by exact Z. cbn [is_nan orb]. now rewrite map_map.
Qed.

(* no bias and no acceleration: the percentile interval, if ndtr inverts ndtri *)
Theorem bca_neutral_is_percentile : forall pow15 ndtr_fin ndtri_ boot h j alphas, boot <> [] -> Forall level_ok alphas ->
  compute_a pow15 j = Fin 0 -> compute_z0 ndtri_ h boot = Fin 0 ->
  (forall a, In a alphas -> ndtr ndtr_fin (ndtri_ a) = Fin a) -> (forall a, In a alphas -> exists z, ndtri_ a = Fin z) ->
  bootstrap_confidence_interval pow15 ndtr_fin ndtri_ boot (Some h) (Some j) (Levels alphas) "bca"
  = bootstrap_confidence_interval pow15 ndtr_fin ndtri_ boot (Some h) (Some j) (Levels alphas) "percentile".
Proof.
  intros pow15 ndtr_fin ndtri_ boot h j alphas N F A Z I Fn. unfold bootstrap_confidence_interval, alphas_of. rewrite interval_bca, interval_percentile, A, Z.
  assert (L : map (bca_level ndtr_fin ndtri_ (Fin 0) (Fin 0)) alphas = map Fin alphas).
  { apply map_ext_in. intros a Ha. destruct (Fn a Ha) as [z Ez]. specialize (I a Ha). rewrite Ez in I. unfold bca_level. rewrite Ez.
    cbn [nadd nmul nneg ndiv]. destruct (qeqb_spec (1 + - (0 * (0 + z))) 0) as [X|_].
    - exfalso. assert (Y : 1 + - (0 * (0 + z)) = 1) by ring. rewrite Y in X. discriminate X.
    - cbn [nadd]. rewrite <- I. f_equal. f_equal. replace (1 + - (0 * (0 + z))) with 1 by ring. field. discriminate. }
  rewrite L. unfold quantile_along_axis. replace (existsb is_nan (map Fin alphas)) with false.
  2: { symmetry. clear. induction alphas; [reflexivity|]. exact IHalphas. }
  rewrite mapR_quantiles by auto. clear L I Fn. induction F as [|a t [Q0 Q1] F IH]; [reflexivity|]. cbn [map mapR]. rewrite IH. cbn [quantile_num].
  rewrite quantile_eq by auto. reflexivity.
Qed.

(* acceleration *)
Lemma suml_map {S T} (f : T -> Qc) (g : S -> T) l : suml f (map g l) = suml (fun x => f (g x)) l.
Proof. unfold suml. induction l as [|a l IH]; [reflexivity|]. cbn [map fold_right]. now rewrite IH. Qed.
Lemma suml_scale {S} (f : S -> Qc) c l : suml (fun x => c * f x) l = c * suml f l.
Proof. unfold suml. induction l as [|a l IH]; cbn [fold_right]; [ring|]. rewrite IH. ring. Qed.
Lemma suml_ext_ {S} (f g : S -> Qc) l : (forall x, f x = g x) -> suml f l = suml g l.
Proof. intros E. unfold suml. induction l as [|a l IH]; cbn [fold_right]; [reflexivity|]. now rewrite E, IH. Qed.
Lemma mean_affine c b x : x <> [] -> mean (map (fun t => c * t + b) x) = c * mean x + b.
Proof.
  intros N. unfold mean. rewrite map_length, suml_map.
  assert (E : suml (fun t => c * t + b) x = c * suml (fun t => t) x + qn (List.length x) * b).
  { clear N. induction x as [|a x IH]; cbn [suml fold_right List.length]; [rewrite qn_0; ring|]. unfold suml in IH. rewrite IH, qn_S. ring. }
  rewrite E. assert (NZ : qn (List.length x) <> 0) by (apply qn_nz; destruct x; [contradiction|cbn; lia]). field. exact NZ.
Qed.
Lemma delta_affine c b x : x <> [] ->
  map (fun t => mean (map (fun t => c * t + b) x) - t) (map (fun t => c * t + b) x) = map (fun d => c * d) (map (fun t => mean x - t) x).
Proof. intros N. rewrite mean_affine by exact N. rewrite !map_map. apply map_ext. intros. ring. Qed.
Lemma inf_of_opp q : inf_of (- q) = nneg (inf_of q).
Proof.
  unfold inf_of. destruct (qeqb_spec q 0) as [->|N]; [reflexivity|]. destruct (qeqb_spec (- q) 0) as [X|_].
  { exfalso. apply N. rewrite <- (Qcopp_involutive q), X. reflexivity. }
  destruct (qltb_spec 0 q) as [L|L], (qltb_spec 0 (- q)) as [M|M]; try reflexivity; exfalso.
  - apply opp_lt_iff in L. apply (Qclt_not_le _ _ M). now apply Qclt_le_weak.
  - apply N. apply Qcle_antisym; apply Qcnot_lt_le; auto. intros X. apply M. replace 0 with (- 0) by ring. now apply opp_lt_iff.
Qed.
Lemma ndiv_opp x d : ndiv (nneg x) d = nneg (ndiv x d).
Proof.
  destruct x as [q| | |], d as [b| | |]; cbn [nneg ndiv]; try reflexivity.
  - destruct (qeqb_spec b 0) as [|N]; [apply inf_of_opp|]. cbn [nneg]. f_equal. field. exact N.
  - destruct (qltb b 0); reflexivity.
  - destruct (qltb b 0); reflexivity.
Qed.
Theorem acceleration_reflected : forall pow15 j, j <> [] -> compute_a pow15 (map Qcopp j) = nneg (compute_a pow15 j).
Proof.
  intros pow15 j N. assert (M : map Qcopp j = map (fun t => - (1) * t + 0) j) by (apply map_ext; intros; ring).
  unfold compute_a. rewrite M, delta_affine by exact N. set (d := map (fun t => mean j - t) j). rewrite !suml_map.
  replace (suml (fun x => - (1) * x * (- (1) * x) * (- (1) * x)) d) with (- suml (fun d => d * d * d) d).
  2: { rewrite <- (Qcmult_1_l (suml (fun d => d * d * d) d)). replace (- (1 * suml (fun d => d * d * d) d)) with (- (1) * suml (fun d => d * d * d) d) by ring. rewrite <- suml_scale. apply suml_ext_. intros. ring. }
  replace (suml (fun x => - (1) * x * (- (1) * x)) d) with (suml (fun d => d * d) d) by (apply suml_ext_; intros; ring).
  apply (ndiv_opp (Fin _)).
Qed.
(* sum of squared deviations from the mean *)
Definition spread (j : list Qc) : Qc :=
  let m := fold_right Qcplus 0 j / qn (List.length j) in fold_right (fun t s => (m - t) * (m - t) + s) 0 j.
Lemma spread_eq j : spread j = suml (fun d => d * d) (map (fun t => mean j - t) j).
Proof.
  unfold spread, mean. assert (E : forall l, fold_right Qcplus 0 l = suml (fun t => t) l) by (unfold suml; induction l as [|x l IH]; [reflexivity|]; cbn [fold_right]; now rewrite IH).
  rewrite E. generalize (suml (fun t => t) j / qn (List.length j)). intros m. rewrite suml_map. reflexivity.
Qed.
Theorem acceleration_scaled : forall pow15 j c b, j <> [] -> 0 < c -> pow15 (c * c * spread j) = c * c * c * pow15 (spread j) ->
  compute_a pow15 (map (fun t => c * t + b) j) = compute_a pow15 j.
Proof.
  intros pow15 j c b N C P. rewrite spread_eq in P. unfold compute_a. rewrite delta_affine by exact N. set (d := map (fun t => mean j - t) j). rewrite !suml_map.
  replace (suml (fun x => c * x * (c * x) * (c * x)) d) with (c * c * c * suml (fun d => d * d * d) d) by (rewrite <- suml_scale; apply suml_ext_; intros; ring).
  replace (suml (fun x => c * x * (c * x)) d) with (c * c * suml (fun d => d * d) d) by (rewrite <- suml_scale; apply suml_ext_; intros; ring).
  fold d in P. rewrite P. set (u := suml (fun d => d * d * d) d). set (v := pow15 (suml (fun d => d * d) d)).
  assert (NZ : c <> 0) by (intros ->; discriminate C). assert (C3 : 0 < c * c * c).
  { assert (0 < c * c) by (rewrite <- (Qcmult_0_l c); now apply Qcmult_lt_compat_r). rewrite <- (Qcmult_0_l c). now apply Qcmult_lt_compat_r. }
  assert (NZ3 : c * c * c <> 0) by (intros X; rewrite X in C3; discriminate C3).
  cbn [ndiv]. assert (T6 : qn 6 <> 0) by discriminate.
  destruct (qeqb_spec (qn 6 * v) 0) as [Z|Z], (qeqb_spec (qn 6 * (c * c * c * v)) 0) as [Y|Y].
  - unfold inf_of. destruct (qeqb_spec u 0) as [->|Nu].
    + destruct (qeqb_spec (c * c * c * 0) 0) as [|X]; [reflexivity|]. exfalso. apply X. ring.
    + destruct (qeqb_spec (c * c * c * u) 0) as [X|_]; [apply Qcmult_integral in X; destruct X; contradiction|].
      destruct (qltb_spec 0 u) as [L|L], (qltb_spec 0 (c * c * c * u)) as [M|M]; try reflexivity; exfalso.
      * apply M. rewrite <- (Qcmult_0_l u). now apply Qcmult_lt_compat_r.
      * apply L. destruct (Qclt_le_dec 0 u) as [|K]; [assumption|]. exfalso. apply (Qclt_not_le _ _ M).
        rewrite Qcmult_comm, <- (Qcmult_0_l (c * c * c)). apply Qcmult_le_compat_r; [exact K|now apply Qclt_le_weak].
  - exfalso. apply Y. replace (qn 6 * (c * c * c * v)) with (c * c * c * (qn 6 * v)) by ring. rewrite Z. ring.
  - exfalso. apply Z. replace (qn 6 * (c * c * c * v)) with (c * c * c * (qn 6 * v)) in Y by ring. apply Qcmult_integral in Y. destruct Y; [contradiction|assumption].
  - f_equal. assert (Nv : v <> 0) by (intros X; apply Z; rewrite X; ring). field. repeat split; auto.
Qed.
(* equal jackknife values: nan *)
Theorem acceleration_degenerate : forall pow15 j x, j <> [] -> (forall y, In y j -> y = x) -> pow15 0 = 0 -> compute_a pow15 j = NaN.
Proof.
  intros pow15 j x N E P. assert (M : mean j = x).
  { unfold mean. assert (S : suml (fun t => t) j = qn (List.length j) * x).
    { clear N. induction j as [|y j IH]; cbn [suml fold_right List.length]; [rewrite qn_0; ring|]. unfold suml in IH.
      rewrite IH by (intros; apply E; now right). rewrite (E y) by now left. rewrite qn_S. ring. }
    rewrite S. assert (NZ : qn (List.length j) <> 0) by (apply qn_nz; destruct j; [contradiction|cbn; lia]). field. exact NZ. }
  assert (S : forall (f : Qc -> Qc), f 0 = 0 -> suml f (map (fun t => mean j - t) j) = 0).
  { intros f F. rewrite M. clear N M. induction j as [|y j IH]; [reflexivity|]. cbn [map suml fold_right]. unfold suml in IH.
    rewrite IH by (intros; apply E; now right). rewrite (E y) by now left. replace (x - x) with 0 by ring. rewrite F. ring. }
  unfold compute_a. rewrite !S by ring. rewrite P. cbn [ndiv]. replace (qn 6 * 0) with 0 by ring. reflexivity.
Qed.

(* ---- equivariance of the whole interval ------------------------------------------------------------- *)

Lemma nadd_opp x y : nadd (nneg x) (nneg y) = nneg (nadd x y).
Proof. destruct x as [a| | |], y as [b| | |]; cbn; try reflexivity. f_equal. ring. Qed.
Lemma nmul_opp x y : nmul (nneg x) (nneg y) = nmul x y.
Proof.
  destruct x as [a| | |], y as [b| | |]; cbn [nneg nmul]; try reflexivity; try (rewrite ?inf_of_opp; destruct (inf_of _) as [q| | |]; cbn; rewrite ?Qcopp_involutive; reflexivity).
  f_equal. ring.
Qed.
(* 1 - x on levels *)
Definition ncompl (x : num) : num := match x with Fin q => Fin (1 - q) | y => y end.
Lemma bca_level_reflected ndtr_fin ndtri_ a z0 alpha : (forall x, ndtr_fin (- x) = 1 - ndtr_fin x) ->
  ndtri_ (1 - alpha) = nneg (ndtri_ alpha) ->
  bca_level ndtr_fin ndtri_ (nneg a) (nneg z0) (1 - alpha) = ncompl (bca_level ndtr_fin ndtri_ a z0 alpha).
Proof.
  intros S T. unfold bca_level. rewrite T, nadd_opp, nmul_opp, ndiv_opp, nadd_opp.
  destruct (nadd z0 (ndiv _ _)) as [q| | |]; cbn [nneg ndtr ncompl]; rewrite ?S; try reflexivity.
Qed.
Lemma mapR_reflect boot levels vs : mapR (quantile_num boot) levels = Ok vs ->
  mapR (quantile_num (map Qcopp boot)) (map ncompl levels) = Ok (map nneg vs).
Proof.
  intros E. apply mapR_Forall2 in E. apply mapR_Forall2. induction E as [|l v ls vs X F IH]; cbn [map]; constructor; auto.
  destruct l as [q| | |]; try discriminate. cbn [quantile_num ncompl] in *. destruct (quantile boot q) as [w|] eqn:Q; [|discriminate].
  assert (v = Fin w) by congruence. subst v. replace q with (1 - (1 - q)) in Q by ring. apply quantile_reflected in Q. rewrite Q. reflexivity.
Qed.
(* everything reflected and the levels complemented: the interval is reflected *)
Theorem bca_reflected : forall pow15 ndtr_fin root junk boot h j alphas vs, boot <> [] -> j <> [] -> Forall level_ok alphas ->
  (forall x, ndtr_fin (- x) = 1 - ndtr_fin x) ->
  bootstrap_confidence_interval pow15 ndtr_fin (ndtri root junk) boot (Some h) (Some j) (Levels alphas) "bca" = Ok vs ->
  bootstrap_confidence_interval pow15 ndtr_fin (ndtri root junk) (map Qcopp boot) (Some (- h)) (Some (map Qcopp j))
    (Levels (map (fun a => 1 - a) alphas)) "bca" = Ok (map nneg vs).
Proof.
  intros pow15 ndtr_fin root junk boot h j alphas vs N Nj F S E. unfold bootstrap_confidence_interval, alphas_of in *. rewrite interval_bca in *.
  rewrite acceleration_reflected by exact Nj.
  assert (Z : compute_z0 (ndtri root junk) (- h) (map Qcopp boot) = nneg (compute_z0 (ndtri root junk) h boot)).
  { unfold compute_z0. rewrite score_reflected by exact N. apply ndtri_odd. now apply score_bounds. }
  rewrite Z, map_map. set (a := compute_a pow15 j) in *. set (z := compute_z0 (ndtri root junk) h boot) in *.
  assert (L : map (fun x => bca_level ndtr_fin (ndtri root junk) (nneg a) (nneg z) (1 - x)) alphas
              = map ncompl (map (bca_level ndtr_fin (ndtri root junk) a z) alphas)).
  { rewrite map_map. apply map_ext_in. intros x Hx. apply bca_level_reflected; [exact S|]. apply ndtri_odd. rewrite Forall_forall in F. auto. }
  rewrite L. unfold quantile_along_axis in *. set (ls := map (bca_level ndtr_fin (ndtri root junk) a z) alphas) in *.
  assert (X : existsb is_nan (map ncompl ls) = existsb is_nan ls).
  { generalize ls. clear. intros ls. induction ls as [|y ls IH]; [reflexivity|]. cbn [map existsb]. rewrite IH. destruct y; reflexivity. }
  rewrite X. destruct (existsb is_nan ls).
  - assert (vs = map (fun _ => NaN) ls) by congruence. subst vs. rewrite !map_map. reflexivity.
  - now apply mapR_reflect.
Qed.
(* everything shifted and scaled: so is the interval *)
Definition naffine (c b : Qc) (x : num) : num := match x with Fin q => Fin (c * q + b) | y => y end.
Theorem bca_scaled : forall pow15 ndtr_fin ndtri_ boot h j alphas vs c b, boot <> [] -> j <> [] -> 0 < c ->
  pow15 (c * c * spread j) = c * c * c * pow15 (spread j) ->
  bootstrap_confidence_interval pow15 ndtr_fin ndtri_ boot (Some h) (Some j) (Levels alphas) "bca" = Ok vs ->
  bootstrap_confidence_interval pow15 ndtr_fin ndtri_ (map (fun t => c * t + b) boot) (Some (c * h + b)) (Some (map (fun t => c * t + b) j))
    (Levels alphas) "bca" = Ok (map (naffine c b) vs).
Proof.
  intros pow15 ndtr_fin ndtri_ boot h j alphas vs c b N Nj C P E. unfold bootstrap_confidence_interval, alphas_of in *. rewrite interval_bca in *.
  rewrite acceleration_scaled by auto. unfold compute_z0 in *. rewrite score_scaled by exact C.
  unfold quantile_along_axis in *. set (ls := map (bca_level _ _ _ _) alphas) in *. destruct (existsb is_nan ls).
  - assert (vs = map (fun _ => NaN) ls) by congruence. subst vs. rewrite !map_map. reflexivity.
  - apply mapR_Forall2 in E. apply mapR_Forall2. induction E as [|l v ls' vs X F IH]; cbn [map]; constructor; auto.
    destruct l as [q| | |]; try discriminate. cbn [quantile_num] in *. destruct (quantile boot q) as [w|] eqn:Q; [|discriminate].
    assert (v = Fin w) by congruence. subst v. rewrite (quantile_scaled _ _ _ c b (Qclt_le_weak _ _ C) Q). reflexivity.
Qed.
(* levels outside [0, 1] are not rejected by BCa: the result is made from
   uninitialised memory *)
Theorem bca_level_range_refuted : exists pow15 ndtr_fin root boot h j alphas vs ws junk junk',
  ~ Forall level_ok alphas /\
  bootstrap_confidence_interval pow15 ndtr_fin (ndtri root junk) boot (Some h) (Some j) (Levels alphas) "bca" = Ok vs /\
  bootstrap_confidence_interval pow15 ndtr_fin (ndtri root junk') boot (Some h) (Some j) (Levels alphas) "bca" = Ok ws /\ vs <> ws.
Proof.
  exists (fun d => d), (fun x => if qltb x 0 then 0 else 1), (fun x => x), (lz [0; 1; 2])%Z, (qz 1), (lz [0; 1; 2])%Z, [qz 5].
  eexists. eexists. exists (Fin 1), (Fin (- (1))). split.
  - intros F. inversion F as [|? ? [A B] ?]; subst. exact (B eq_refl).
  - split; [vm_compute; reflexivity|]. split; [vm_compute; reflexivity|].
    intros X. apply (f_equal (fun l => match l with [Fin q] => qeqb q 0 | _ => false end)) in X. vm_compute in X. discriminate X.
Qed.

(* ---- examples ------------------------------------------------------------------------------------------- *)

Definition neqb (x y : num) : bool :=
  match x, y with Fin a, Fin b => qeqb a b | PInf, PInf | NInf, NInf | NaN, NaN => true | _, _ => false end.
Definition rneqb (x : res (list num)) (y : list num) : bool := match x with Ok l => leqb neqb l y | Raise _ => false end.
Definition boot_ex : list Qc := lz [3; 1; 2; 8; 5]%Z.
Example quantile_ex : match quantile boot_ex (fr 1 4), quantile boot_ex (fr 7 8) with Ok a, Ok b => qeqb a (qz 2) && qeqb b (fr 13 2) | _, _ => false end = true.
Proof. vm_compute. reflexivity. Qed.
Example quantile_hyp_ex : boot_ex <> [] /\ level_ok (fr 7 8) /\ is_min boot_ex (qz 1) /\ is_max boot_ex (qz 8).
Proof.
  split; [discriminate|]. split; [split; discriminate|]. split; (split; [vm_compute; tauto|]); intros y Hy; cbn in Hy;
    repeat (destruct Hy as [<-|Hy]; [discriminate|]); contradiction.
Qed.
Definition ndtr_ex (x : Qc) : Qc := if qltb x 0 then half / (1 - x) else 1 - half / (1 + x).
Example interval_ex :
  rneqb (bootstrap_confidence_interval (fun d => d) ndtr_ex (ndtri (fun x => x) NaN) boot_ex (Some (qz 4)) None (Level (fr 1 2)) "percentile") [Fin (qz 2); Fin (qz 5)] &&
  rneqb (bootstrap_confidence_interval (fun d => d) ndtr_ex (ndtri (fun x => x) NaN) boot_ex (Some (qz 4)) None (Level (fr 1 2)) "basic") [Fin (qz 3); Fin (qz 6)] = true.
Proof. vm_compute. reflexivity. Qed.
(* an ndtr that is odd around one half and has values in [0, 1]; all theorems on BCa
   with a finite result *)
Example ndtr_ex_odd : forall x, ndtr_ex (- x) = 1 - ndtr_ex x.
Proof.
  intros x. assert (HH : half + half = 1) by (apply qeqb_eq; vm_compute; reflexivity). unfold ndtr_ex.
  destruct (qltb_spec (- x) 0) as [A|A], (qltb_spec x 0) as [B|B].
  - exfalso. assert (A' : - x < - 0) by exact A. apply (opp_lt_iff x 0) in A'. exact (Qclt_not_le _ _ A' (Qclt_le_weak _ _ B)).
  - replace (1 - - x) with (1 + x) by ring. ring.
  - replace (1 + - x) with (1 - x) by ring. reflexivity.
  - assert (x = 0). { apply Qcle_antisym; apply Qcnot_lt_le; auto. intros X. apply A. replace 0 with (- 0) by ring. now apply opp_lt_iff. }
    subst. apply qeqb_eq. vm_compute. reflexivity.
Qed.
Example bca_ex : match bootstrap_confidence_interval (fun d => d) ndtr_ex (ndtri (fun x => x) NaN) boot_ex (Some (qz 3)) (Some (lz [1; 2; 4])%Z) (Levels [fr 1 4; fr 3 4]) "bca" with
  | Ok [Fin a; Fin b] => qltb a b && qltb 1 a && qltb b (qz 8) | _ => false end = true.
Proof. vm_compute. reflexivity. Qed.
(* symmetric jackknife values and a centred estimate *)
Example bca_neutral_ex : compute_a (fun d => d) (lz [1; 2; 3])%Z = Fin 0 /\ compute_z0 (ndtri (fun x => x) NaN) (qz 3) boot_ex = Fin 0 /\
  ndtr ndtr_ex (ndtri (fun x => x) NaN half) = Fin half.
Proof.
  assert (E : forall x q, neqb x (Fin q) = true -> x = Fin q) by (intros [a| | |] q X; try discriminate; apply qeqb_eq in X; now subst).
  split; [|split]; apply E; vm_compute; reflexivity.
Qed.
(* factor 2: the power 3/2 of 36 and of 144 *)
Definition jack_ex : list Qc := lz [-3; -3; -3; 1; 1; 1; 1; 1; 1; 1; 1; 1]%Z.
Definition pow15_ex (d : Qc) : Qc := if qeqb d (qz 36) then qz 216 else qz 1728.
Example bca_scaled_ex :
  pow15_ex (qz 2 * qz 2 * spread jack_ex) = qz 2 * qz 2 * qz 2 * pow15_ex (spread jack_ex) /\ compute_a pow15_ex jack_ex = Fin (fr 1 18) /\
  (match bootstrap_confidence_interval pow15_ex ndtr_ex (ndtri (fun x => x) NaN) boot_ex (Some (qz 3)) (Some jack_ex) (Levels [fr 1 4; fr 3 4]) "bca" with
  | Ok [Fin a; Fin b] => qltb a b | _ => false end) = true.
Proof.
  split; [apply qeqb_eq; vm_compute; reflexivity|]. split; [|vm_compute; reflexivity].
  assert (E : forall x q, neqb x (Fin q) = true -> x = Fin q) by (intros [a| | |] q X; try discriminate; apply qeqb_eq in X; now subst).
  apply E. vm_compute. reflexivity.
Qed.
Example bca_outside_ex : rneqb (bootstrap_confidence_interval (fun d => d) ndtr_ex (ndtri (fun x => x) NaN) boot_ex (Some (qz 9)) (Some (lz [1; 2; 4])%Z) (Level (fr 1 2)) "bca") [NaN; NaN] = true.
Proof. vm_compute. reflexivity. Qed.
