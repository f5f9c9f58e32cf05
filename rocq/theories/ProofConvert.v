(* Conversion kernels as shifts by the mean. *)
From Verif Require Import Base BaseLemmas Shift ModelPush ModelPushCov ProofPush ProofPushCov ModelConvert.
Local Open Scope Qc_scope.

(* moments about zero with the entry of order 0 replaced by 1 *)
Definition nraw (r : arr) (k : nat) : Qc := match k with O => 1 | S _ => getq r k end.
Definition nraw2 (r : arr2) (i j : nat) : Qc := match (i + j)%nat with O => 1 | S _ => get2 r i j end.

Lemma c2r_fold nmax c n m :
  fold_left (c2r_step nmax c n) (seq 0 m) (0, 1)
  = (sumn (fun i => getq c (n - i) * getq c 1 ^ i * BF nmax n i) m, getq c 1 ^ m).
Proof.
  induction m as [|m IH]; [reflexivity|].
  rewrite seq_S, fold_left_app, IH. cbn [fold_left c2r_step sumn Qcpower Nat.add]. f_equal. ring.
Qed.
Lemma r2c_fold nmax c n m :
  fold_left (r2c_step nmax c n) (seq 0 m) (0, 1)
  = (sumn (fun i => getq c (n - i) * (- getq c 1) ^ i * BF nmax n i) m, (- getq c 1) ^ m).
Proof.
  induction m as [|m IH]; [reflexivity|].
  rewrite seq_S, fold_left_app, IH. cbn [fold_left r2c_step sumn Qcpower Nat.add]. f_equal. ring.
Qed.

Lemma c2r_entry_raw nmax c n : (2 <= n <= nmax)%nat -> c2r_entry nmax c n = raw1 c n.
Proof.
  intros H. unfold c2r_entry, raw1. rewrite c2r_fold, shift_binom.
  destruct n as [|[|n]]; try lia. replace (S (S n) - 1)%nat with (S n) by lia.
  change (sumn ?f (S (S (S n)))) with (sumn f (S n) + f (S n) + f (S (S n))). cbv beta.
  replace (S (S n) - S (S n))%nat with 0%nat by lia. replace (S (S n) - S n)%nat with 1%nat by lia.
  rewrite choose_diag, qn_1. change (nrm c 1) with 0. change (nrm c 0) with 1.
  rewrite (sumn_ext (fun i => getq c (S (S n) - i) * getq c 1 ^ i * BF nmax (S (S n)) i)
            (fun b => qn (choose (S (S n)) b) * getq c 1 ^ b * nrm c (S (S n) - b))).
  - cbn [Qcpower]. ring.
  - intros i Hi. rewrite BF_choose by lia. replace (nrm c (S (S n) - i)) with (getq c (S (S n) - i)); [ring|].
    replace (S (S n) - i)%nat with (S (S (n - i))) by lia. reflexivity.
Qed.
Lemma r2c_entry_shift nmax r n : (2 <= n <= nmax)%nat ->
  r2c_entry nmax r n = shift (- getq r 1) (nraw r) n.
Proof.
  intros H. unfold r2c_entry. rewrite r2c_fold, shift_binom.
  destruct n as [|[|n]]; try lia. replace (S (S n) - 1)%nat with (S n) by lia.
  change (sumn ?f (S (S (S n)))) with (sumn f (S n) + f (S n) + f (S (S n))). cbv beta.
  replace (S (S n) - S (S n))%nat with 0%nat by lia. replace (S (S n) - S n)%nat with 1%nat by lia.
  rewrite choose_diag, choose_pred, qn_1, !qn_S. change (nraw r 1) with (getq r 1). change (nraw r 0) with 1.
  rewrite (sumn_ext (fun i => getq r (S (S n) - i) * (- getq r 1) ^ i * BF nmax (S (S n)) i)
            (fun b => qn (choose (S (S n)) b) * (- getq r 1) ^ b * nraw r (S (S n) - b))).
  - cbn [Qcpower]. ring.
  - intros i Hi. rewrite BF_choose by lia. replace (nraw r (S (S n) - i)) with (getq r (S (S n) - i)); [ring|].
    replace (S (S n) - i)%nat with (S (S (n - i))) by lia. reflexivity.
Qed.

Lemma getq_head2 a b f n k : (2 <= k <= n)%nat ->
  getq (a :: b :: map f (seq 2 (S n - 2))) k = f k.
Proof.
  intros H. destruct k as [|[|k]]; try lia. unfold getq. cbn [nth].
  rewrite nth_indep with (d' := f 0%nat) by (rewrite map_length, seq_length; lia).
  rewrite map_nth, seq_nth by lia. reflexivity.
Qed.
Lemma c2r_length nmax n c : wf1 n c -> (1 <= n)%nat -> wf1 n (central_to_raw nmax c).
Proof. unfold wf1, central_to_raw. intros E H. cbn. rewrite map_length, seq_length. lia. Qed.
Lemma r2c_length nmax n c : wf1 n c -> (1 <= n)%nat -> wf1 n (raw_to_central nmax c).
Proof. unfold wf1, raw_to_central. intros E H. cbn. rewrite map_length, seq_length. lia. Qed.

Lemma c2r_get nmax n c k : wf1 n c -> (1 <= n <= nmax)%nat -> (1 <= k <= n)%nat ->
  getq (central_to_raw nmax c) k = raw1 c k.
Proof.
  unfold wf1. intros E Hn Hk. unfold central_to_raw. rewrite E.
  destruct (Nat.eq_dec k 1) as [->|N].
  - now rewrite raw1_1.
  - rewrite getq_head2 by lia. apply c2r_entry_raw. lia.
Qed.
Lemma r2c_get nmax n c k : wf1 n c -> (1 <= n <= nmax)%nat -> (2 <= k <= n)%nat ->
  getq (raw_to_central nmax c) k = shift (- getq c 1) (nraw c) k.
Proof.
  unfold wf1. intros E Hn Hk. unfold raw_to_central. rewrite E.
  rewrite getq_head2 by lia. apply r2c_entry_shift. lia.
Qed.

Lemma c2r_nraw nmax n c k : wf1 n c -> (1 <= n <= nmax)%nat -> (k <= n)%nat ->
  nraw (central_to_raw nmax c) k = raw1 c k.
Proof.
  intros E Hn Hk. destruct k as [|k]; [now rewrite raw1_0|]. cbn [nraw]. apply (c2r_get nmax n); auto. lia.
Qed.
Lemma r2c_nrm nmax n r k : wf1 n r -> (1 <= n <= nmax)%nat -> (k <= n)%nat ->
  nrm (raw_to_central nmax r) k = shift (- getq r 1) (nraw r) k.
Proof.
  intros E Hn Hk. destruct k as [|[|k]].
  - reflexivity.
  - cbn. ring.
  - cbn [nrm]. apply (r2c_get nmax n); auto. lia.
Qed.

Lemma c2r_r2c nmax n r : wf1 n r -> (1 <= n <= nmax)%nat ->
  central_to_raw nmax (raw_to_central nmax r) = r.
Proof.
  intros E Hn. assert (Ec := r2c_length nmax n r E (proj1 Hn)).
  apply arr_ext; [unfold wf1 in *; rewrite (c2r_length nmax n); [now rewrite E|exact Ec|lia]|].
  intros k. rewrite (c2r_length nmax n _ Ec (proj1 Hn)). intros Hk.
  destruct k as [|k]; [reflexivity|].
  rewrite (c2r_get nmax n) by (try assumption; lia).
  unfold raw1. change (getq (raw_to_central nmax r) 1) with (getq r 1).
  rewrite (shift_ext _ _ (shift (- getq r 1) (nraw r))).
  - rewrite shift_inv'. reflexivity.
  - intros i Hi. apply (r2c_nrm nmax n); auto. lia.
Qed.
Lemma r2c_c2r nmax n c : wf1 n c -> (1 <= n <= nmax)%nat ->
  raw_to_central nmax (central_to_raw nmax c) = c.
Proof.
  intros E Hn. assert (Ec := c2r_length nmax n c E (proj1 Hn)).
  apply arr_ext; [unfold wf1 in *; rewrite (r2c_length nmax n); [now rewrite E|exact Ec|lia]|].
  intros k. rewrite (r2c_length nmax n _ Ec (proj1 Hn)). intros Hk.
  destruct k as [|[|k]]; try reflexivity.
  rewrite (r2c_get nmax n) by (try assumption; lia).
  change (getq (central_to_raw nmax c) 1) with (getq c 1).
  rewrite (shift_ext _ _ (raw1 c)).
  - unfold raw1. rewrite shift_inv. reflexivity.
  - intros i Hi. apply (c2r_nraw nmax n); auto. lia.
Qed.

(* ---- two variables --------------------------------------------------------- *)

Definition cc_term (nmax : nat) (c : arr2) (n m i j : nat) : Qc :=
  match (n + m - (i + j))%nat with
  | O => get2 c 1 0 ^ i * get2 c 0 1 ^ j
  | S O => 0
  | _ => get2 c (n - i) (m - j) * get2 c 1 0 ^ i * get2 c 0 1 ^ j * BF nmax n i * BF nmax m j
  end.
Lemma cc_fold1 nmax c n m i tmp k :
  fold_left (cc2r_step1 nmax c n m i (get2 c 1 0 ^ i)) (seq 0 k) (tmp, 1)
  = (tmp + sumn (cc_term nmax c n m i) k, get2 c 0 1 ^ k).
Proof.
  induction k as [|k IH]; [cbn; f_equal; ring|].
  rewrite seq_S, fold_left_app, IH. cbn [fold_left cc2r_step1 sumn Qcpower Nat.add].
  f_equal; [|ring]. set (s := sumn _ k). unfold cc_term. destruct (n + m - (i + k))%nat as [|[|d]]; ring.
Qed.
Lemma cc_fold0 nmax c n m k :
  fold_left (cc2r_step0 nmax c n m) (seq 0 k) (0, 1)
  = (sumn (fun i => sumn (cc_term nmax c n m i) (m + 1)) k, get2 c 1 0 ^ k).
Proof.
  induction k as [|k IH]; [reflexivity|].
  rewrite seq_S, fold_left_app, IH. cbn [fold_left cc2r_step0 sumn Qcpower Nat.add].
  rewrite cc_fold1. f_equal. ring.
Qed.
Definition rr_term (nmax : nat) (c : arr2) (n m i j : nat) : Qc :=
  match (n + m - (i + j))%nat with
  | O => (- get2 c 1 0) ^ i * (- get2 c 0 1) ^ j
  | _ => get2 c (n - i) (m - j) * (- get2 c 1 0) ^ i * (- get2 c 0 1) ^ j * BF nmax n i * BF nmax m j
  end.
Lemma rr_fold1 nmax c n m i tmp k :
  fold_left (rr2c_step1 nmax c n m i ((- get2 c 1 0) ^ i)) (seq 0 k) (tmp, 1)
  = (tmp + sumn (rr_term nmax c n m i) k, (- get2 c 0 1) ^ k).
Proof.
  induction k as [|k IH]; [cbn; f_equal; ring|].
  rewrite seq_S, fold_left_app, IH. cbn [fold_left rr2c_step1 sumn Qcpower Nat.add].
  f_equal; [|ring]. set (s := sumn _ k). unfold rr_term. destruct (n + m - (i + k))%nat as [|d]; ring.
Qed.
Lemma rr_fold0 nmax c n m k :
  fold_left (rr2c_step0 nmax c n m) (seq 0 k) (0, 1)
  = (sumn (fun i => sumn (rr_term nmax c n m i) (m + 1)) k, (- get2 c 1 0) ^ k).
Proof.
  induction k as [|k IH]; [reflexivity|].
  rewrite seq_S, fold_left_app, IH. cbn [fold_left rr2c_step0 sumn Qcpower Nat.add].
  rewrite rr_fold1. f_equal. ring.
Qed.

Lemma cc2r_entry_raw nmax c n m : (n <= nmax)%nat -> (m <= nmax)%nat -> (1 <= n + m)%nat ->
  cc2r_entry nmax c n m = raw2 c n m.
Proof.
  intros Hn Hm H. unfold cc2r_entry. destruct (Nat.leb_spec (n + m) 1) as [H1|H1].
  - destruct n as [|[|n]], m as [|[|m]]; try lia; [now rewrite raw2_01|now rewrite raw2_10].
  - rewrite cc_fold0. cbn [fst]. unfold raw2. rewrite shift2_binom. rewrite !Nat.add_1_r.
    apply sumn_ext. intros i Hi. apply sumn_ext. intros j Hj. unfold cc_term.
    destruct (n + m - (i + j))%nat as [|[|d]] eqn:E.
    + assert (i = n) by lia. assert (j = m) by lia. subst. rewrite !Nat.sub_diag, !choose_diag, qn_1.
      unfold nrm2. cbn [Nat.add]. ring.
    + unfold nrm2. replace (n - i + (m - j))%nat with 1%nat by lia. ring.
    + unfold nrm2. replace (n - i + (m - j))%nat with (S (S d)) by lia. rewrite !BF_choose by lia. ring.
Qed.
Lemma rr2c_entry_shift nmax r n m : (n <= nmax)%nat -> (m <= nmax)%nat -> (2 <= n + m)%nat ->
  rr2c_entry nmax r n m = shift2 (- get2 r 1 0) (- get2 r 0 1) (nraw2 r) n m.
Proof.
  intros Hn Hm H. unfold rr2c_entry. destruct (Nat.leb_spec (n + m) 1) as [H1|H1]; [lia|].
  rewrite rr_fold0. cbn [fst]. rewrite shift2_binom. rewrite !Nat.add_1_r.
  apply sumn_ext. intros i Hi. apply sumn_ext. intros j Hj. unfold rr_term.
  destruct (n + m - (i + j))%nat as [|d] eqn:E.
  - assert (i = n) by lia. assert (j = m) by lia. subst. rewrite !Nat.sub_diag, !choose_diag, qn_1.
    unfold nraw2. cbn [Nat.add]. ring.
  - unfold nraw2. replace (n - i + (m - j))%nat with (S d) by lia. rewrite !BF_choose by lia. ring.
Qed.

Lemma shape2_ncol n m a : shape2 (S n) m a -> length (nth 0 a []) = m.
Proof. intros [_ H]. apply H. lia. Qed.
Lemma c2r2_wf nmax n m c : wf2 n m c -> wf2 n m (central_to_raw2 nmax c).
Proof.
  intros H. unfold central_to_raw2. rewrite (shape2_ncol n (S m) c H). rewrite (proj1 H). apply shape2_table.
Qed.
Lemma r2c2_wf nmax n m c : wf2 n m c -> wf2 n m (raw_to_central2 nmax c).
Proof.
  intros H. unfold raw_to_central2. rewrite (shape2_ncol n (S m) c H). rewrite (proj1 H). apply shape2_table.
Qed.
Lemma c2r2_get nmax n m c i j : wf2 n m c -> (i <= n)%nat -> (j <= m)%nat ->
  get2 (central_to_raw2 nmax c) i j = cc2r_entry nmax c i j.
Proof.
  intros H Hi Hj. unfold central_to_raw2. rewrite (shape2_ncol n (S m) c H). rewrite (proj1 H).
  apply get2_table; lia.
Qed.
Lemma r2c2_get nmax n m c i j : wf2 n m c -> (i <= n)%nat -> (j <= m)%nat ->
  get2 (raw_to_central2 nmax c) i j = rr2c_entry nmax c i j.
Proof.
  intros H Hi Hj. unfold raw_to_central2. rewrite (shape2_ncol n (S m) c H). rewrite (proj1 H).
  apply get2_table; lia.
Qed.
Lemma c2r2_nraw nmax n m c i j : wf2 n m c -> (n <= nmax)%nat -> (m <= nmax)%nat -> (i <= n)%nat -> (j <= m)%nat ->
  nraw2 (central_to_raw2 nmax c) i j = raw2 c i j.
Proof.
  intros H Hn Hm Hi Hj. unfold nraw2. destruct (i + j)%nat eqn:E.
  - assert (i = 0%nat) by lia. assert (j = 0%nat) by lia. subst. now rewrite raw2_00.
  - rewrite (c2r2_get nmax n m) by assumption. apply cc2r_entry_raw; lia.
Qed.
Lemma shift2_low t0 t1 c i j : (i + j <= 1)%nat ->
  shift2 t0 t1 c i j = match i, j with
                       | O, O => c 0%nat 0%nat
                       | S O, O => c 1%nat 0%nat + t0 * c 0%nat 0%nat
                       | _, _ => c 0%nat 1%nat + t1 * c 0%nat 0%nat
                       end.
Proof.
  intros H. destruct i as [|[|i]], j as [|[|j]]; try lia; unfold shift2; cbn; reflexivity.
Qed.
Lemma r2c2_nrm nmax n m r i j : wf2 n m r -> (n <= nmax)%nat -> (m <= nmax)%nat -> (i <= n)%nat -> (j <= m)%nat ->
  nrm2 (raw_to_central2 nmax r) i j = shift2 (- get2 r 1 0) (- get2 r 0 1) (nraw2 r) i j.
Proof.
  intros H Hn Hm Hi Hj. unfold nrm2. destruct (i + j)%nat as [|[|d]] eqn:E.
  - assert (i = 0%nat) by lia. assert (j = 0%nat) by lia. subst. reflexivity.
  - rewrite shift2_low by lia. destruct i as [|[|i]], j as [|[|j]]; try lia; unfold nraw2; cbn [Nat.add]; ring.
  - rewrite (r2c2_get nmax n m) by assumption. apply rr2c_entry_shift; lia.
Qed.

Lemma c2r2_r2c2 nmax n m r : wf2 n m r -> (1 <= n <= nmax)%nat -> (1 <= m <= nmax)%nat ->
  central_to_raw2 nmax (raw_to_central2 nmax r) = r.
Proof.
  intros H Hn Hm. assert (Hc := r2c2_wf nmax n m r H).
  apply (arr2_ext (S n) (S m)); [apply (c2r2_wf nmax n m _ Hc)|exact H|].
  intros i j Hi Hj. rewrite (c2r2_get nmax n m) by (auto; lia).
  assert (L : forall i j, (i + j <= 1)%nat -> (i <= n)%nat -> (j <= m)%nat -> get2 (raw_to_central2 nmax r) i j = get2 r i j).
  { intros i' j' S' ? ?. rewrite (r2c2_get nmax n m) by auto. unfold rr2c_entry. destruct (Nat.leb_spec (i' + j') 1); [auto|lia]. }
  destruct (Nat.leb_spec (i + j) 1) as [Hs|Hs].
  - unfold cc2r_entry. destruct (Nat.leb_spec (i + j) 1); [|lia]. apply L; lia.
  - rewrite cc2r_entry_raw by lia. unfold raw2. rewrite !L by lia.
    rewrite (shift2_ext _ _ _ (shift2 (- get2 r 1 0) (- get2 r 0 1) (nraw2 r))).
    + rewrite shift2_inv'. unfold nraw2. destruct (i + j)%nat; [lia|reflexivity].
    + intros a b Ha Hb. apply (r2c2_nrm nmax n m); auto; lia.
Qed.
Lemma r2c2_c2r2 nmax n m c : wf2 n m c -> (1 <= n <= nmax)%nat -> (1 <= m <= nmax)%nat ->
  raw_to_central2 nmax (central_to_raw2 nmax c) = c.
Proof.
  intros H Hn Hm. assert (Hc := c2r2_wf nmax n m c H).
  apply (arr2_ext (S n) (S m)); [apply (r2c2_wf nmax n m _ Hc)|exact H|].
  intros i j Hi Hj. rewrite (r2c2_get nmax n m) by (auto; lia).
  assert (L : forall i j, (i + j <= 1)%nat -> (i <= n)%nat -> (j <= m)%nat -> get2 (central_to_raw2 nmax c) i j = get2 c i j).
  { intros i' j' S' ? ?. rewrite (c2r2_get nmax n m) by auto. unfold cc2r_entry. destruct (Nat.leb_spec (i' + j') 1); [auto|lia]. }
  destruct (Nat.leb_spec (i + j) 1) as [Hs|Hs].
  - unfold rr2c_entry. destruct (Nat.leb_spec (i + j) 1); [|lia]. apply L; lia.
  - rewrite rr2c_entry_shift by lia. rewrite !L by lia.
    rewrite (shift2_ext _ _ _ (raw2 c)).
    + unfold raw2. rewrite shift2_inv. unfold nrm2. destruct (i + j)%nat as [|[|d]]; try lia; reflexivity.
    + intros a b Ha Hb. apply (c2r2_nraw nmax n m); auto; lia.
Qed.

(* ---- moments <-> comoments --------------------------------------------------- *)

Lemma validate_mtc_spec mom M m0 m1 :
  validate_mom_moments_to_comoments mom M = Ok (m0, m1) ->
  (1 <= m0 /\ 1 <= m1 /\ m0 + m1 <= M)%Z.
Proof.
  unfold validate_mom_moments_to_comoments. destruct mom as [|a [|b [|]]]; try discriminate.
  destruct (a <? 0)%Z; [|destruct (b <? 0)%Z]; cbn [fst snd];
    repeat match goal with |- context [(?x <? ?y)%Z] => destruct (Z.ltb_spec x y); cbn [orb] end;
    intros E; inversion E; subst; lia.
Qed.

Lemma ctm_inv data L l : forall out sampled,
  length out = L -> length sampled = S L ->
  (forall p, In p l -> (fst p + snd p < L)%nat) ->
  let r := fold_left (ctm_step data) l (out, sampled) in
  length (fst r) = L /\ length (snd r) = S L /\
  (forall k, (k < L)%nat -> nth k sampled false = true -> getq (fst r) k = getq out k /\ nth k (snd r) false = true) /\
  (forall k, (k < L)%nat -> nth k sampled false = false -> (exists p, In p l /\ (fst p + snd p)%nat = k) ->
     exists p, In p l /\ (fst p + snd p)%nat = k /\ getq (fst r) k = get2 data (fst p) (snd p)).
Proof.
  induction l as [|[i j] l IH]; intros out sampled Ho Hs Hl; cbn [fold_left].
  - cbn [fst snd]. repeat split; auto. intros k _ _ [p [[] _]].
  - assert (Hij : (i + j < L)%nat) by (apply (Hl (i, j)); now left).
    assert (Hl' : forall p, In p l -> (fst p + snd p < L)%nat) by (intros; apply Hl; now right).
    assert (Est : ctm_step data (out, sampled) (i, j)
      = if nth (i + j) sampled false then (out, sampled)
        else (upd out (i + j) (get2 data i j), upd sampled (i + j) true)) by reflexivity.
    rewrite Est. clear Est. destruct (nth (i + j) sampled false) eqn:Es.
    + destruct (IH out sampled Ho Hs Hl') as (A & B & C & D).
      split; [exact A|]. split; [exact B|]. split; [exact C|].
      intros k Hk Hf [p [Hp Ep]]. destruct Hp as [<-|Hp]; [cbn in Ep; congruence|].
      destruct (D k Hk Hf (ex_intro _ p (conj Hp Ep))) as (q & ? & ? & ?). exists q. auto using in_cons.
    + destruct (IH (upd out (i + j) (get2 data i j)) (upd sampled (i + j) true)) as (A & B & C & D);
        [now rewrite upd_length|now rewrite upd_length|exact Hl'|].
      split; [exact A|]. split; [exact B|]. split.
      * intros k Hk Ht. assert (k <> (i + j)%nat) by congruence.
        destruct (C k Hk) as [C1 C2].
        { rewrite upd_nth. destruct (Nat.eqb_spec (i + j) k); [lia|]. cbn. exact Ht. }
        split; [|exact C2]. rewrite C1. apply getq_upd_other. auto.
      * intros k Hk Hf [p [Hp Ep]]. destruct (Nat.eq_dec k (i + j)) as [->|N].
        -- exists (i, j). split; [now left|]. split; [reflexivity|]. cbn [fst snd].
           destruct (C (i + j)%nat Hk) as [C1 _].
           { rewrite upd_nth. rewrite Nat.eqb_refl. rewrite Hs. destruct (Nat.ltb_spec (i + j) (S L)); [reflexivity|lia]. }
           rewrite C1. apply getq_upd_same. now rewrite Ho.
        -- destruct Hp as [<-|Hp]; [cbn in Ep; congruence|].
           destruct (D k Hk) as (q & ? & ? & ?).
           { rewrite upd_nth. destruct (Nat.eqb_spec (i + j) k); [lia|]. exact Hf. }
           { exists p; auto. }
           exists q. auto using in_cons.
Qed.

Lemma in_ndindex nrow ncol i j :
  In (i, j) (flat_map (fun i => map (fun j => (i, j)) (seq 0 ncol)) (seq 0 nrow)) <-> (i < nrow /\ j < ncol)%nat.
Proof.
  rewrite in_flat_map. split.
  - intros (a & Ha & H). apply in_map_iff in H. destruct H as (b & E & Hb). inversion E; subst.
    apply in_seq in Ha, Hb. lia.
  - intros [Hi Hj]. exists i. split; [apply in_seq; lia|]. apply in_map_iff. exists j. split; [reflexivity|apply in_seq; lia].
Qed.

Lemma ctm_get junk n m data k : wf2 n m data -> (k <= n + m)%nat ->
  exists i j, (i <= n)%nat /\ (j <= m)%nat /\ (i + j = k)%nat /\
    getq (comoments_to_moments junk data) k = get2 data i j.
Proof.
  intros H Hk. unfold comoments_to_moments. rewrite (shape2_ncol n (S m) data H), (proj1 H).
  set (L := (S n + S m - 1)%nat).
  destruct (ctm_inv data L (flat_map (fun i => map (fun j => (i, j)) (seq 0 (S m))) (seq 0 (S n)))
             (repeat junk L) (repeat false (L + 1))) as (A & B & C & D).
  - apply repeat_length.
  - rewrite repeat_length. lia.
  - intros [i j] Hp. apply in_ndindex in Hp. cbn [fst snd]. unfold L. lia.
  - destruct (D k) as ([i j] & Hp & E & G).
    + unfold L. lia.
    + apply nth_repeat.
    + exists (Nat.min k n, (k - Nat.min k n)%nat). split; [apply in_ndindex; lia|cbn; lia].
    + exists i, j. apply in_ndindex in Hp. cbn [fst snd] in *. repeat split; try lia. exact G.
Qed.
Lemma ctm_length junk n m data : wf2 n m data ->
  length (comoments_to_moments junk data) = S (n + m).
Proof.
  intros H. unfold comoments_to_moments. rewrite (shape2_ncol n (S m) data H), (proj1 H).
  set (L := (S n + S m - 1)%nat).
  destruct (ctm_inv data L (flat_map (fun i => map (fun j => (i, j)) (seq 0 (S m))) (seq 0 (S n)))
             (repeat junk L) (repeat false (L + 1))) as (A & _).
  - apply repeat_length.
  - rewrite repeat_length. lia.
  - intros [i j] Hp. apply in_ndindex in Hp. cbn [fst snd]. unfold L. lia.
  - rewrite A. unfold L. lia.
Qed.

Definition diag2 (n m : nat) (data : arr) : arr2 :=
  map (fun i => map (fun j => getq data (i + j)) (seq 0 (S m))) (seq 0 (S n)).
Lemma mtc_ok mom data n m : validate_mom_moments_to_comoments mom (Z.of_nat (length data) - 1) = Ok (Z.of_nat n, Z.of_nat m) ->
  moments_to_comoments mom data = Ok (diag2 n m data).
Proof.
  intros H. unfold moments_to_comoments. rewrite H. cbn [rbind fst snd]. now rewrite !Nat2Z.id, !Nat.add_1_r.
Qed.
Lemma diag2_wf n m data : wf2 n m (diag2 n m data).
Proof. apply shape2_table. Qed.
Lemma diag2_get n m data i j : (i <= n)%nat -> (j <= m)%nat -> get2 (diag2 n m data) i j = getq data (i + j).
Proof. intros. unfold diag2. rewrite get2_table by lia. reflexivity. Qed.
Lemma ctm_diag2 junk n m data : (S (n + m) <= length data)%nat ->
  comoments_to_moments junk (diag2 n m data) = firstn (S (n + m)) data.
Proof.
  intros H. apply arr_ext.
  - rewrite (ctm_length junk n m) by apply diag2_wf. rewrite firstn_length. lia.
  - rewrite (ctm_length junk n m) by apply diag2_wf. intros k Hk.
    destruct (ctm_get junk n m (diag2 n m data) k (diag2_wf _ _ _)) as (i & j & Hi & Hj & E & ->); [lia|].
    rewrite diag2_get by assumption. rewrite E. unfold getq.
    rewrite <- (firstn_skipn (S (n + m)) data) at 1. rewrite app_nth1; [reflexivity|]. rewrite firstn_length. lia.
Qed.
