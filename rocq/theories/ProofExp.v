(* Closed form of the exponential coefficients, and the bias correction. *)
From Verif Require Import Base BaseLemmas ModelKernels Spec Laws ProofKernels ProofRolling.
Local Open Scope Qc_scope.

Lemma prodr_snoc f a b : (a <= b)%nat -> prodr f a (S b) = prodr f a b * f b.
Proof.
  intros H. unfold prodr. replace (S b - a)%nat with (S (b - a)) by lia. rewrite seq_S.
  replace (a + (b - a))%nat with b by lia. generalize (seq a (b - a)). intros l.
  induction l as [|x l IH]; cbn [fold_right app]; [ring|]. rewrite IH. ring.
Qed.
Lemma prodr_nil f a : prodr f a a = 1.
Proof. unfold prodr. now rewrite Nat.sub_diag. Qed.
Lemma prodr_ext f g a b : (forall l, (a <= l < b)%nat -> f l = g l) -> prodr f a b = prodr g a b.
Proof.
  intros H. unfold prodr. assert (G : forall l, In l (seq a (b - a)) -> f l = g l).
  { intros l Hl. apply in_seq in Hl. apply H. lia. }
  induction (seq a (b - a)) as [|x t IH]; [reflexivity|]. cbn [fold_right].
  rewrite IH by (intros; apply G; now right). now rewrite (G x) by now left.
Qed.

Lemma decay_self al i : decay al i i = 1.
Proof. apply prodr_nil. Qed.
Lemma decay_snoc al j i : (j <= i)%nat -> decay al j (S i) = decay al j i * (1 - al (S i)).
Proof. intros H. apply prodr_snoc. lia. Qed.

(* coefficients of the first n rows, from functions al, w *)
Definition coefs adjust al w n : list Qc :=
  match n with O => [] | S i => map (exp_coef adjust al w i) (seq 0 n) end.
(* decay accumulated since the last contributing row *)
Definition since (al w : nat -> Qc) (n : nat) : Qc :=
  match last_nonzero w n with None => 0 | Some m => decay al m (n - 1) end.

Lemma last_nonzero_lt w l m : last_nonzero w l = Some m -> (m < l)%nat.
Proof.
  induction l as [|l IH]; cbn [last_nonzero]; [discriminate|].
  destruct (qeqb (w l) 0); [intros H; apply IH in H; lia|intros [= ->]; lia].
Qed.

Lemma seq_fun {B} (l : list B) d : l = map (fun i => nth i l d) (seq 0 (length l)).
Proof.
  induction l as [|x t IH]; [reflexivity|]. cbn [length seq map nth]. f_equal.
  rewrite <- seq_shift, map_map. exact IH.
Qed.

Lemma exp_state_adjust al w n :
  exp_coefs true (map (fun l => (al l, w l)) (seq 0 n)) = coefs true al w n.
Proof.
  unfold exp_coefs. induction n as [|n IH]; [reflexivity|].
  rewrite seq_S, map_app. cbn [map]. rewrite exp_state_snoc.
  destruct (exp_state true _) as [cs D]. cbn [fst] in IH. cbn [exp_step fst plus]. subst cs.
  destruct n as [|i].
  - cbn [coefs map app seq]. unfold exp_coef. now rewrite decay_self.
  - unfold coefs. rewrite map_map. rewrite (seq_S (S i)), map_app. cbn [map plus]. f_equal.
    + apply map_ext_in. intros j Hj. apply in_seq in Hj. unfold exp_coef. rewrite decay_snoc by lia. reflexivity.
    + unfold exp_coef. now rewrite decay_self.
Qed.

Lemma exp_state_noadjust al w n : (forall l, (l < n)%nat -> exp_norm al w l <> 0) ->
  exp_state false (map (fun l => (al l, w l)) (seq 0 n)) = (coefs false al w n, since al w n).
Proof.
  intros G. induction n as [|n IH]; [reflexivity|].
  rewrite seq_S, map_app. cbn [map plus]. rewrite exp_state_snoc, IH by (intros; apply G; lia).
  assert (D : since al w n * (1 - al n) =
    match last_nonzero w n with None => 0 | Some m => decay al m n end).
  { unfold since. destruct (last_nonzero w n) as [m|] eqn:E; [|ring].
    apply last_nonzero_lt in E. destruct n as [|i]; [lia|].
    rewrite decay_snoc by lia. now replace (S i - 1)%nat with i by lia. }
  cbn [exp_step]. rewrite D.
  assert (NM : qeqb (w n) 0 = false -> exp_norm al w n = match last_nonzero w n with None => 0 | Some m => decay al m n end + al n).
  { intros E. unfold exp_norm. rewrite E. destruct (last_nonzero w n); ring. }
  destruct (qeqb (w n) 0) eqn:E.
  - f_equal.
    + destruct n as [|i].
      * cbn. unfold exp_coef. now rewrite E.
      * unfold coefs. rewrite map_map, (seq_S (S i)), map_app. cbn [map plus]. f_equal.
        -- apply map_ext_in. intros j Hj. apply in_seq in Hj. unfold exp_coef.
           destruct (qeqb (w j) 0); [ring|]. rewrite (prodr_snoc _ (S j) (S i)) by lia.
           assert (N1 : exp_norm al w (S i) = 1) by (unfold exp_norm; now rewrite E).
           rewrite N1. field. split; [discriminate|]. apply G. lia.
        -- unfold exp_coef. now rewrite E.
    + unfold since. cbn [last_nonzero]. rewrite E. now rewrite Nat.sub_succ, Nat.sub_0_r.
  - rewrite <- NM by reflexivity. f_equal.
    + destruct n as [|i].
      * cbn [coefs map seq app]. unfold exp_coef. rewrite E. rewrite prodr_nil. f_equal. field. apply G. lia.
      * unfold coefs. rewrite map_map, (seq_S (S i)), map_app. cbn [map plus]. f_equal.
        -- apply map_ext_in. intros j Hj. apply in_seq in Hj. unfold exp_coef.
           destruct (qeqb (w j) 0).
           ++ unfold Qcdiv. ring.
           ++ rewrite (prodr_snoc _ (S j) (S i)) by lia. unfold Qcdiv. ring.
        -- unfold exp_coef. rewrite E, prodr_nil. f_equal. ring.
    + unfold since. cbn [last_nonzero]. rewrite E. now rewrite Nat.sub_succ, Nat.sub_0_r, decay_self.
Qed.

(* ---- bias correction ---------------------------------------------------------- *)

Definition V1 adjust al w i : Qc := suml (fun j => w j * exp_coef adjust al w i j) (seq 0 (S i)).
Definition V2 adjust al w i : Qc := suml (fun j => w j * (exp_coef adjust al w i j * exp_coef adjust al w i j)) (seq 0 (S i)).
Definition vbias_expect adjust al w i : option Qc :=
  let num := V1 adjust al w i * V1 adjust al w i in
  let den := num - V2 adjust al w i in
  if qltb 0 den then Some (num / den) else None.

(* sums before the first n rows *)
Definition V1p adjust al w n : Qc := match n with O => 0 | S i => V1 adjust al w i end.
Definition V2p adjust al w n : Qc := match n with O => 0 | S i => V2 adjust al w i end.

Lemma suml_snoc {B} (f : B -> Qc) l x : suml f (l ++ [x]) = suml f l + f x.
Proof. rewrite suml_app, suml_cons, suml_nil. ring. Qed.

Lemma vbias_rows adjust al w n :
  (forall l, (l < n)%nat -> adjust = false -> exp_norm al w l <> 0) ->
  exists old, let rows := map (vbias_expect adjust al w) (seq 0 n) in
    foldM (vbias_step adjust) (map (fun l => (w l, al l)) (seq 0 n)) (0, 0, 0, [])
    = Some (V1p adjust al w n, V2p adjust al w n, old, rows) /\
    (adjust = false -> old = since al w n) /\
    length rows = n /\ forall i, (i < n)%nat -> nth i rows None = vbias_expect adjust al w i.
Proof.
  cbv zeta. induction n as [|n IH]; intros G.
  - exists 0. cbn. repeat split; auto. intros i Hi. lia.
  - destruct IH as (old & E & Eo & Ln & R); [intros; apply G; auto|].
    rewrite seq_S, map_app, foldM_app, E. cbn [obind foldM map plus].
    (* the step *)
    set (s1 := V1p adjust al w n). set (s2 := V2p adjust al w n).
    assert (S : exists old', vbias_step adjust (s1, s2, old, map (vbias_expect adjust al w) (seq 0 n)) (w n, al n)
      = Some (V1 adjust al w n, V2 adjust al w n, old', map (vbias_expect adjust al w) (seq 0 n) ++ [vbias_expect adjust al w n])
      /\ (adjust = false -> old' = since al w (S n))).
    { cbn [vbias_step].
      assert (F : forall c1 c2 : Qc, 
         (forall j, (j < n)%nat -> w j * exp_coef adjust al w n j = w j * exp_coef adjust al w (n - 1) j * c1) ->
         (forall j, (j < n)%nat -> exp_coef adjust al w n j = exp_coef adjust al w (n - 1) j * c1 \/ w j = 0) ->
         c2 = c1 * c1 ->
         V1 adjust al w n = s1 * c1 + w n * exp_coef adjust al w n n /\
         V2 adjust al w n = s2 * c2 + w n * (exp_coef adjust al w n n * exp_coef adjust al w n n)).
      { intros c1 c2 H1 H2 ->. unfold V1, V2. rewrite !seq_S, !suml_snoc. cbn [plus]. split; f_equal.
        - unfold s1, V1p. destruct n as [|i]; [cbn [seq]; rewrite suml_nil; ring|].
          unfold V1. rewrite <- suml_scal_r. apply suml_ext. intros j Hj. apply in_seq in Hj.
          rewrite H1 by lia. now rewrite Nat.sub_succ, Nat.sub_0_r.
        - unfold s2, V2p. destruct n as [|i]; [cbn [seq]; rewrite suml_nil; ring|].
          unfold V2. rewrite <- suml_scal_r. apply suml_ext. intros j Hj. apply in_seq in Hj.
          destruct (H2 j ltac:(lia)) as [->| ->]; [|ring]. rewrite Nat.sub_succ, Nat.sub_0_r. ring. }
      assert (SN : adjust = false -> since al w n * (1 - al n) =
         match last_nonzero w n with None => 0 | Some m => decay al m n end).
      { intros _. unfold since. destruct (last_nonzero w n) as [m|] eqn:El; [|ring].
        apply last_nonzero_lt in El. destruct n as [|i]; [lia|].
        rewrite decay_snoc by lia. now replace (S i - 1)%nat with i by lia. }
      destruct adjust.
      - destruct (F (1 - al n) ((1 - al n) * (1 - al n))) as [F1 F2].
        { intros j Hj. destruct n as [|i]; [lia|]. unfold exp_coef. rewrite decay_snoc by lia.
          rewrite Nat.sub_succ, Nat.sub_0_r. ring. }
        { intros j Hj. left. destruct n as [|i]; [lia|]. unfold exp_coef. rewrite decay_snoc by lia.
          rewrite Nat.sub_succ, Nat.sub_0_r. ring. }
        { reflexivity. }
        assert (C1 : exp_coef true al w n n = 1) by (unfold exp_coef; apply decay_self).
        rewrite C1 in F1, F2.
        destruct (qeqb_spec (w n) 0) as [Z|N]; cbn [obind]; eexists; (split; [|discriminate]).
        + rewrite Z in F1, F2. replace (s1 * (1 - al n)) with (V1 true al w n) by (rewrite F1; ring).
          replace (s2 * ((1 - al n) * (1 - al n))) with (V2 true al w n) by (rewrite F2; ring). reflexivity.
        + replace (s1 * (1 - al n) + w n * 1) with (V1 true al w n) by (rewrite F1; ring).
          replace (s2 * ((1 - al n) * (1 - al n)) + w n * 1 ^ 2) with (V2 true al w n) by (rewrite F2; cbn [Qcpower]; ring).
          reflexivity.
      - specialize (SN eq_refl). rewrite (Eo eq_refl), SN.
        destruct (qeqb_spec (w n) 0) as [Z|N]; cbn [obind].
        + assert (EZ : qeqb (w n) 0 = true) by (destruct (qeqb_spec (w n) 0); congruence).
          assert (N1 : exp_norm al w n = 1) by (unfold exp_norm; now rewrite EZ).
          destruct (F (1 - al n) ((1 - al n) * (1 - al n))) as [F1 F2].
          { intros j Hj. unfold exp_coef. destruct (qeqb (w j) 0); [ring|].
            destruct n as [|i]; [lia|]. rewrite (prodr_snoc _ (S j) (S i)) by lia. rewrite N1.
            rewrite Nat.sub_succ, Nat.sub_0_r. field; repeat split; first [apply G; [lia|reflexivity]|discriminate]. }
          { intros j Hj. left. unfold exp_coef. destruct (qeqb (w j) 0); [ring|].
            destruct n as [|i]; [lia|]. rewrite (prodr_snoc _ (S j) (S i)) by lia. rewrite N1.
            rewrite Nat.sub_succ, Nat.sub_0_r. field; repeat split; first [apply G; [lia|reflexivity]|discriminate]. }
          { reflexivity. }
          eexists. split.
          * rewrite Z in F1, F2. replace (s1 * (1 - al n)) with (V1 false al w n) by (rewrite F1; ring).
            replace (s2 * ((1 - al n) * (1 - al n))) with (V2 false al w n) by (rewrite F2; ring). reflexivity.
          * intros _. unfold since. cbn [last_nonzero]. rewrite EZ. now rewrite Nat.sub_succ, Nat.sub_0_r.
        + assert (EZ : qeqb (w n) 0 = false) by (destruct (qeqb_spec (w n) 0); congruence).
          assert (NM : match last_nonzero w n with None => 0 | Some m => decay al m n end + al n = exp_norm al w n).
          { unfold exp_norm. rewrite EZ. destruct (last_nonzero w n); ring. }
          assert (G0 : exp_norm al w n <> 0) by (apply G; [lia|reflexivity]).
          rewrite NM. destruct (qeqb_spec (exp_norm al w n) 0) as [Z'|_]; [contradiction|].
          cbn [obind].
          destruct (F ((1 - al n) / exp_norm al w n) ((1 - al n) / exp_norm al w n * ((1 - al n) / exp_norm al w n))) as [F1 F2].
          { intros j Hj. unfold exp_coef. destruct (qeqb (w j) 0); [ring|].
            destruct n as [|i]; [lia|]. rewrite (prodr_snoc _ (S j) (S i)) by lia.
            rewrite Nat.sub_succ, Nat.sub_0_r. ring. }
          { intros j Hj. left. unfold exp_coef. destruct (qeqb (w j) 0); [ring|].
            destruct n as [|i]; [lia|]. rewrite (prodr_snoc _ (S j) (S i)) by lia.
            rewrite Nat.sub_succ, Nat.sub_0_r. ring. }
          { reflexivity. }
          assert (CN : exp_coef false al w n n = al n / exp_norm al w n).
          { unfold exp_coef. rewrite EZ, prodr_nil. ring. }
          rewrite CN in F1, F2. eexists. split.
          * replace ((s1 * (1 - al n) + w n * al n) / exp_norm al w n) with (V1 false al w n)
              by (rewrite F1; field; exact G0).
            replace ((s2 * ((1 - al n) * (1 - al n)) + w n * al n ^ 2) / exp_norm al w n ^ 2) with (V2 false al w n)
              by (rewrite F2; cbn [Qcpower]; field; exact G0).
            reflexivity.
          * intros _. unfold since. cbn [last_nonzero]. rewrite EZ. now rewrite Nat.sub_succ, Nat.sub_0_r, decay_self. }
    destruct S as (old' & Es & Eo'). rewrite Es. cbn [obind]. exists old'.
    rewrite (map_app (vbias_expect adjust al w)). cbn [map].
    split; [reflexivity|]. split; [exact Eo'|]. split.
    + rewrite app_length, Ln. cbn. lia.
    + intros i Hi. destruct (Nat.eq_dec i n) as [->|Hn].
      * rewrite app_nth2 by (rewrite Ln; lia). now rewrite Ln, Nat.sub_diag.
      * rewrite app_nth1 by (rewrite Ln; lia). apply R. lia.
Qed.

Lemma vbias_ok adjust (wa : list (Qc * Qc)) :
  let w l := fst (nth l wa (0, 0)) in let al l := snd (nth l wa (0, 0)) in
  (forall l, (l < length wa)%nat -> adjust = false -> exp_norm al w l <> 0) ->
  rolling_exp_var_bias_correction adjust wa = Some (map (vbias_expect adjust al w) (seq 0 (length wa))).
Proof.
  cbv zeta. intros G. destruct (vbias_rows adjust _ _ _ G) as (old & E & _).
  unfold rolling_exp_var_bias_correction.
  rewrite (map_ext _ (fun l => nth l wa (0, 0))) in E by (intros l; now destruct (nth l wa (0, 0))).
  rewrite <- seq_fun in E. rewrite E. reflexivity.
Qed.

Lemma vbias_none_step al w n : exp_norm al w n = 0 ->
  (forall l, (l < n)%nat -> exp_norm al w l <> 0) ->
  foldM (vbias_step false) (map (fun l => (w l, al l)) (seq 0 (S n))) (0, 0, 0, []) = None.
Proof.
  intros Z G. destruct (vbias_rows false al w n) as (old & E & Eo & _); [auto|]. cbv zeta in E.
  rewrite seq_S, map_app, foldM_app, E. cbn [obind foldM map plus vbias_step].
  rewrite (Eo eq_refl). unfold exp_norm in Z. destruct (qeqb_spec (w n) 0) as [Zw|Nw]; [discriminate|].
  replace (since al w n * (1 - al n) + al n) with 0; [reflexivity|]. rewrite <- Z.
  unfold since. destruct (last_nonzero w n) as [m|] eqn:El; [|ring].
  apply last_nonzero_lt in El. destruct n as [|i]; [lia|]. rewrite decay_snoc by lia.
  now rewrite Nat.sub_succ, Nat.sub_0_r.
Qed.
Lemma vbias_none (wa : list (Qc * Qc)) :
  let w l := fst (nth l wa (0, 0)) in let al l := snd (nth l wa (0, 0)) in
  ~ (forall l, (l < length wa)%nat -> exp_norm al w l <> 0) ->
  rolling_exp_var_bias_correction false wa = None.
Proof.
  cbv zeta. set (w := fun l => fst (nth l wa (0, 0))). set (al := fun l => snd (nth l wa (0, 0))).
  intros H.
  assert (X : exists n, (n < length wa)%nat /\ exp_norm al w n = 0 /\ forall l, (l < n)%nat -> exp_norm al w l <> 0).
  { clear -H. revert H. generalize (length wa). intros m. induction m as [|m IH]; intros H.
    - exfalso. apply H. intros; lia.
    - assert (D : (forall l, (l < m)%nat -> exp_norm al w l <> 0) \/ ~ (forall l, (l < m)%nat -> exp_norm al w l <> 0)).
      { clear. induction m as [|m [IH|IH]].
        - left. intros; lia.
        - destruct (Qc_eq_dec (exp_norm al w m) 0) as [Z|N].
          + right. intros F. apply (F m); [lia|exact Z].
          + left. intros l Hl. destruct (Nat.eq_dec l m) as [->|Hm]; [exact N|apply IH; lia].
        - right. intros F. apply IH. intros l Hl. apply F. lia. }
      destruct D as [D|D].
      + exists m. split; [lia|]. split; [|exact D].
        destruct (Qc_eq_dec (exp_norm al w m) 0) as [Z|N]; [exact Z|]. exfalso. apply H.
        intros l Hl. destruct (Nat.eq_dec l m) as [->|Hm]; [exact N|apply D; lia].
      + destruct (IH D) as (n & Hn & R). exists n. split; [lia|exact R]. }
  destruct X as (n & Hn & Z & G). unfold rolling_exp_var_bias_correction.
  assert (E : wa = map (fun l => (w l, al l)) (seq 0 (S n)) ++ skipn (S n) wa).
  { rewrite <- (firstn_skipn (S n) wa) at 1. f_equal.
    rewrite (seq_fun wa (0, 0)) at 1. rewrite firstn_map.
    replace (firstn (S n) (seq 0 (length wa))) with (seq 0 (S n)).
    - apply map_ext. intros l. unfold w, al. now destruct (nth l wa (0, 0)).
    - replace (length wa) with (S n + (length wa - S n))%nat by lia. rewrite seq_app.
      rewrite firstn_app, seq_length, Nat.sub_diag, firstn_O, app_nil_r.
      now rewrite firstn_all2 by (rewrite seq_length; lia). }
  rewrite E at 1. rewrite foldM_app, (vbias_none_step al w n Z G). reflexivity.
Qed.

(* ---- normalisers are positive for 0 < alpha <= 1 --------------------------------- *)

Lemma decay_nonneg al j i : (forall l, (l <= i)%nat -> al l <= 1) -> 0 <= decay al j i.
Proof.
  intros H. unfold decay, prodr.
  assert (G : forall l, In l (seq (S j) (S i - S j)) -> al l <= 1).
  { intros l Hl. apply in_seq in Hl. apply H. lia. }
  induction (seq (S j) (S i - S j)) as [|x t IH]; cbn [fold_right]; [discriminate|].
  apply Qc_mul_nonneg; [apply Qc_sub_nonneg, G; now left|]. apply IH. intros; apply G; now right.
Qed.
Lemma exp_norm_pos al w l : (forall m, (m <= l)%nat -> 0 <= al m /\ al m <= 1 /\ al m <> 0) -> exp_norm al w l <> 0.
Proof.
  intros H. unfold exp_norm. destruct (qeqb (w l) 0); [discriminate|].
  destruct (H l (le_n l)) as (P & _ & N). destruct (last_nonzero w l) as [m|]; [|exact N].
  assert (D : 0 <= decay al m l) by (apply decay_nonneg; intros; now apply H).
  intros Z. apply N. apply Qcle_antisym; [|exact P].
  rewrite <- Z. apply Qc_sub_nonneg_inv. replace (decay al m l + al l - al l) with (decay al m l) by ring. exact D.
Qed.
