(* The one-variable push kernels add weighted power sums. *)
From Verif Require Import Base BaseLemmas Shift ModelPush.
Local Open Scope Qc_scope.

(* ---- binomial table --------------------------------------------------- *)

Lemma binom_entry_choose n k : binom_entry n k = qn (choose n k).
Proof.
  unfold binom_entry. destruct (Nat.ltb_spec k n) as [H|H].
  - pose proof (choose_fact (n - k) k) as F.
    replace (n - k + k)%nat with n in F by lia.
    rewrite <- F, !qn_mul. field. split; apply qn_nz, lt_O_fact.
  - destruct (Nat.eqb_spec n k) as [->|].
    + now rewrite choose_diag, qn_1.
    + rewrite choose_gt by lia. now rewrite qn_0.
Qed.

Lemma get2_table f n m i j :
  (i < n)%nat -> (j < m)%nat ->
  get2 (map (fun i => map (fun j => f i j) (seq 0 m)) (seq 0 n)) i j = f i j.
Proof.
  intros Hi Hj. unfold get2.
  rewrite nth_indep with (d' := (fun i => map (fun j => f i j) (seq 0 m)) 0%nat)
    by now rewrite map_length, seq_length.
  rewrite (map_nth (fun i => map (fun j => f i j) (seq 0 m)) (seq 0 n) 0%nat i).
  rewrite seq_nth by exact Hi. cbn [Nat.add]. apply (getq_map_seq (f i)). exact Hj.
Qed.

Lemma shape2_table f n m : shape2 n m (map (fun i => map (fun j => f i j) (seq 0 m)) (seq 0 n)).
Proof.
  split; [now rewrite map_length, seq_length|]. intros i Hi.
  rewrite nth_indep with (d' := (fun i => map (fun j => f i j) (seq 0 m)) 0%nat)
    by now rewrite map_length, seq_length.
  rewrite (map_nth (fun i => map (fun j => f i j) (seq 0 m)) (seq 0 n) 0%nat i).
  now rewrite map_length, seq_length.
Qed.

Lemma BF_choose nmax a b : (a <= nmax)%nat -> (b <= nmax)%nat -> BF nmax a b = qn (choose a b).
Proof.
  intros Ha Hb. unfold BF, factory_binomial. rewrite get2_table by lia. apply binom_entry_choose.
Qed.

(* ---- shape of a moment array and its power sums ------------------------ *)

Definition wf1 (n : nat) (a : arr) : Prop := length a = S n.

(* central moments with the conventional entries 1 and 0 at orders 0 and 1 *)
Definition nrm (a : arr) (k : nat) : Qc :=
  match k with 0%nat => 1 | 1%nat => 0 | _ => getq a k end.

(* raw moments of a moment array *)
Definition raw1 (a : arr) (k : nat) : Qc := shift (getq a 1) (nrm a) k.

(* weighted power sums *)
Definition phi1 (a : arr) (k : nat) : Qc := getq a 0 * raw1 a k.

Lemma raw1_0 a : raw1 a 0 = 1.
Proof. reflexivity. Qed.
Lemma raw1_1 a : raw1 a 1 = getq a 1.
Proof. unfold raw1. cbn. ring. Qed.
Lemma phi1_0 a : phi1 a 0 = getq a 0.
Proof. unfold phi1. rewrite raw1_0. ring. Qed.
Lemma phi1_1 a : phi1 a 1 = getq a 0 * getq a 1.
Proof. unfold phi1. now rewrite raw1_1. Qed.

(* ---- inner loop -------------------------------------------------------- *)

Lemma data_loop nmax data out alpha one_alpha delta a m :
  fold_left (data_step nmax data out alpha one_alpha delta a) (seq 0 m) (0, 1, 1, 1, 1)
  = (sumn (fun b => BF nmax a b * delta ^ b *
        ((-(1)) ^ b * alpha ^ b * one_alpha * getq out (a - b)%nat
         + one_alpha ^ b * alpha * getq data (a - b)%nat)) m,
     delta ^ m, alpha ^ m, (-(1)) ^ m, one_alpha ^ m).
Proof.
  induction m as [|m IH]; [reflexivity|].
  rewrite seq_S, fold_left_app, IH. cbn [fold_left Nat.add sumn Qcpower]. unfold data_step.
  f_equal; [f_equal; [f_equal; [f_equal|]|]|]; ring.
Qed.

Lemma val_loop nmax out alpha one_alpha delta a m :
  fold_left (val_step nmax out alpha one_alpha delta a) (seq 0 m) (0, 1, 1, 1, 1)
  = (sumn (fun b => BF nmax a b * delta ^ b *
        ((-(1)) ^ b * alpha ^ b * one_alpha * getq out (a - b)%nat)) m,
     delta ^ m, alpha ^ m, (-(1)) ^ m, one_alpha ^ m).
Proof.
  induction m as [|m IH]; [reflexivity|].
  rewrite seq_S, fold_left_app, IH. cbn [fold_left Nat.add sumn Qcpower]. unfold val_step.
  f_equal; [f_equal; [f_equal; [f_equal|]|]|]; ring.
Qed.

(* the combination of two centred moment sequences *)
Definition mix (alpha delta : Qc) (d o : nat -> Qc) (k : nat) : Qc :=
  (1 - alpha) * shift (- (alpha * delta)) o k + alpha * shift ((1 - alpha) * delta) d k.

Lemma opp_pow x b : (- x) ^ b = (-(1)) ^ b * x ^ b.
Proof. replace (- x) with ((-(1)) * x) by ring. apply qpow_mul. Qed.

Lemma data_entry_mix nmax data out alpha delta a :
  (2 <= a <= nmax)%nat ->
  data_entry nmax data out alpha (1 - alpha) delta a = mix alpha delta (nrm data) (nrm out) a.
Proof.
  intros Ha. unfold data_entry. rewrite data_loop. unfold mix. rewrite !shift_binom.
  replace (S a) with ((a - 1) + 2)%nat by lia.
  rewrite !sumn_app. cbn [sumn]. rewrite !Nat.add_0_r.
  replace (a - 1 + 1)%nat with a by lia.
  replace (a - (a - 1))%nat with 1%nat by lia. rewrite Nat.sub_diag. cbn [nrm].
  rewrite choose_diag, qn_1.
  rewrite (sumn_ext
     (fun b => BF nmax a b * delta ^ b *
        ((- (1)) ^ b * alpha ^ b * (1 - alpha) * getq out (a - b) +
         (1 - alpha) ^ b * alpha * getq data (a - b)))
     (fun b => (1 - alpha) * (qn (choose a b) * (- (alpha * delta)) ^ b * nrm out (a - b))
             + alpha * (qn (choose a b) * ((1 - alpha) * delta) ^ b * nrm data (a - b)))).
  2:{ intros b Hb. rewrite BF_choose by lia.
      assert (N : forall x, nrm x (a - b) = getq x (a - b)).
      { intros x. destruct (a - b)%nat as [|[|c]] eqn:E; try lia. reflexivity. }
      rewrite !N, (opp_pow (alpha * delta)), !qpow_mul. ring. }
  rewrite sumn_add, !sumn_scal.
  rewrite (opp_pow (alpha * delta) a), !qpow_mul.
  assert (P : forall x : Qc, x ^ a = x * x ^ (a - 1)).
  { intros x. replace a with (S (a - 1)) at 1 by lia. reflexivity. }
  rewrite !P. ring.
Qed.

Lemma data_entry_ext nmax data o o' alpha one_alpha delta a :
  (forall c, (2 <= c <= a)%nat -> getq o c = getq o' c) ->
  data_entry nmax data o alpha one_alpha delta a = data_entry nmax data o' alpha one_alpha delta a.
Proof.
  intros H. unfold data_entry. rewrite !data_loop.
  erewrite sumn_ext; [reflexivity|]. intros b Hb. cbn beta. rewrite H by lia. reflexivity.
Qed.

(* ---- descending in-place loop ------------------------------------------ *)

Lemma desc_loop_length (g : arr -> nat -> Qc) l out :
  length (fold_left (fun o a => upd o a (g o a)) l out) = length out.
Proof.
  revert out. induction l; intros out; [reflexivity|]. cbn. rewrite IHl. apply upd_length.
Qed.

Lemma desc_loop (g : arr -> nat -> Qc) :
  (forall o o' a, (forall c, (2 <= c <= a)%nat -> getq o c = getq o' c) -> g o a = g o' a) ->
  forall m out, (3 + m <= length out)%nat ->
  forall k, getq (fold_left (fun o a => upd o a (g o a)) (rev (seq 3 m)) out) k
       = if (Nat.leb 3 k && Nat.ltb k (3 + m))%bool then g out k else getq out k.
Proof.
  intros Hg. induction m as [|m IH]; intros out L k.
  - cbn [seq rev fold_left]. destruct (Nat.leb_spec 3 k), (Nat.ltb_spec k (3 + 0)); try lia; reflexivity.
  - rewrite seq_S, rev_app_distr. cbn [rev app fold_left].
    rewrite IH by (rewrite upd_length; lia).
    destruct (Nat.eq_dec k (3 + m)) as [->|Hk].
    + destruct (Nat.leb_spec 3 (3 + m)), (Nat.ltb_spec (3 + m) (3 + m)), (Nat.ltb_spec (3 + m) (3 + S m));
        try lia; cbn [andb]. apply getq_upd_same. lia.
    + destruct (Nat.leb_spec 3 k), (Nat.ltb_spec k (3 + m)), (Nat.ltb_spec k (3 + S m));
        try lia; cbn [andb].
      all: try (apply Hg; intros c Hc).
      all: apply getq_upd_other; lia.
Qed.

(* ---- push_data in closed form ------------------------------------------ *)

(* result of combining data into out, entry by entry *)
Lemma push_data_closed nmax n data out :
  wf1 n out -> (1 <= n <= nmax)%nat ->
  getq data 0 <> 0 -> getq out 0 + getq data 0 <> 0 ->
  exists r, push_data nmax data out = Some r /\ wf1 n r /\
    let W := getq out 0 + getq data 0 in
    let alpha := getq data 0 / W in
    let delta := getq data 1 - getq out 1 in
    getq r 0 = W /\
    getq r 1 = getq out 1 + alpha * delta /\
    forall k, (2 <= k <= n)%nat -> getq r k = mix alpha delta (nrm data) (nrm out) k.
Proof.
  intros Hw Hn Hw0 HW. unfold wf1 in *. unfold push_data.
  rewrite (qeqb_neq _ _ Hw0).
  assert (L0 : (0 < length out)%nat) by lia.
  rewrite getq_upd_same by lia. rewrite (qeqb_neq _ _ HW).
  rewrite (getq_upd_other _ 0 1) by lia.
  set (W := getq out 0 + getq data 0) in *.
  set (alpha := getq data 0 / W).
  set (delta := getq data 1 - getq out 1).
  rewrite Hw. replace (S n - 1)%nat with n by lia.
  set (o1 := upd (upd out 0 W) 1 (getq out 1 + delta * alpha)).
  assert (Lo1 : length o1 = S n) by (unfold o1; rewrite !upd_length; exact Hw).
  assert (E0 : getq o1 0 = W).
  { unfold o1. rewrite getq_upd_other by lia. apply getq_upd_same. lia. }
  assert (E1 : getq o1 1 = getq out 1 + alpha * delta).
  { unfold o1. rewrite getq_upd_same by (rewrite upd_length; lia). ring. }
  assert (Ek : forall k, (2 <= k)%nat -> getq o1 k = getq out k).
  { intros k Hk. unfold o1. rewrite !getq_upd_other by lia. reflexivity. }
  destruct (Nat.eqb_spec n 1) as [->|Hn1].
  - exists o1. split; [reflexivity|]. split; [exact Lo1|]. cbn zeta.
    split; [exact E0|]. split; [exact E1|]. intros; lia.
  - unfold desc_range.
    set (g := fun o a => data_entry nmax data o alpha (1 - alpha) delta a).
    change (fold_left (fun o a => upd o a (data_entry nmax data o alpha (1 - alpha) delta a))
              (rev (seq 3 (n - 2))) o1)
      with (fold_left (fun o a => upd o a (g o a)) (rev (seq 3 (n - 2))) o1).
    assert (D := desc_loop g (fun o o' a H => data_entry_ext nmax data o o' alpha (1 - alpha) delta a H)
                   (n - 2) o1 ltac:(lia)).
    set (o2 := fold_left (fun o a => upd o a (g o a)) (rev (seq 3 (n - 2))) o1) in *.
    assert (Lo2 : length o2 = S n) by (unfold o2; rewrite desc_loop_length; exact Lo1).
    eexists. split; [reflexivity|]. split; [now rewrite upd_length|]. cbn zeta.
    rewrite !getq_upd_other by lia. rewrite !D. cbn [Nat.leb andb].
    split; [exact E0|]. split; [exact E1|].
    intros k Hk. destruct (Nat.eq_dec k 2) as [->|].
    + rewrite getq_upd_same by lia. rewrite Ek by lia.
      unfold mix. cbn. ring.
    + rewrite getq_upd_other by lia. rewrite D.
      destruct (Nat.leb_spec 3 k), (Nat.ltb_spec k (3 + (n - 2))); try lia. cbn [andb].
      unfold g. rewrite data_entry_mix by lia. unfold mix. f_equal. f_equal.
      apply shift_ext. intros i Hi. destruct i as [|[|i]]; try reflexivity.
      cbn [nrm]. apply Ek. lia.
Qed.

Lemma mix_low alpha delta d o :
  mix alpha delta (nrm d) (nrm o) 0 = 1 /\ mix alpha delta (nrm d) (nrm o) 1 = 0.
Proof. unfold mix. cbn. split; ring. Qed.

(* additivity of the weighted power sums *)
Lemma mix_raw alpha delta mu d o k :
  shift (mu + alpha * delta) (mix alpha delta d o) k
  = (1 - alpha) * shift mu o k + alpha * shift (mu + delta) d k.
Proof.
  unfold mix. rewrite shift_lin, !shift_comp. f_equal; f_equal; f_equal; ring.
Qed.

Lemma push_data_some nmax n data out :
  wf1 n out -> (1 <= n <= nmax)%nat ->
  getq data 0 <> 0 -> getq out 0 + getq data 0 <> 0 ->
  exists r, push_data nmax data out = Some r /\ wf1 n r /\
    getq r 0 = getq out 0 + getq data 0 /\
    forall k, (k <= n)%nat -> phi1 r k = phi1 out k + phi1 data k.
Proof.
  intros Hw Hn H0 HW.
  destruct (push_data_closed nmax n data out Hw Hn H0 HW) as (r & E & Hr & R0 & R1 & Rk).
  exists r. split; [exact E|]. split; [exact Hr|]. split; [exact R0|].
  intros k Hk. unfold phi1, raw1. rewrite R0, R1.
  set (W := getq out 0 + getq data 0) in *.
  set (alpha := getq data 0 / W) in *.
  set (delta := getq data 1 - getq out 1) in *.
  rewrite (shift_ext _ (nrm r) (mix alpha delta (nrm data) (nrm out))).
  2:{ intros i Hi. destruct (mix_low alpha delta data out) as [M0 M1].
      destruct i as [|[|i]]; cbn [nrm]; [now rewrite M0|now rewrite M1|apply Rk; lia]. }
  rewrite mix_raw. replace (getq out 1 + delta) with (getq data 1) by (unfold delta; ring).
  unfold alpha. unfold W. field. exact HW.
Qed.

Lemma push_data_zero nmax data out : getq data 0 = 0 -> push_data nmax data out = Some out.
Proof. intros H. unfold push_data. rewrite H, qeqb_refl. reflexivity. Qed.

Lemma push_data_none nmax data out :
  (0 < length out)%nat -> getq data 0 <> 0 -> getq out 0 + getq data 0 = 0 -> push_data nmax data out = None.
Proof.
  intros L H0 HW. unfold push_data. rewrite (qeqb_neq _ _ H0), getq_upd_same by exact L.
  now rewrite HW, qeqb_refl.
Qed.

(* ---- injectivity ------------------------------------------------------- *)

Lemma phi1_inj n a b :
  wf1 n a -> wf1 n b -> (1 <= n)%nat -> getq a 0 <> 0 ->
  (forall k, (k <= n)%nat -> phi1 a k = phi1 b k) -> a = b.
Proof.
  intros Ha Hb Hn H0 H. unfold wf1 in *.
  assert (E0 : getq a 0 = getq b 0).
  { specialize (H 0%nat ltac:(lia)). now rewrite !phi1_0 in H. }
  assert (E1 : getq a 1 = getq b 1).
  { specialize (H 1%nat ltac:(lia)). rewrite !phi1_1, <- E0 in H.
    now apply Qc_mul_cancel_l in H. }
  apply arr_ext; [congruence|]. intros i Hi. rewrite Ha in Hi.
  destruct i as [|[|i]]; [exact E0|exact E1|].
  assert (S : forall k, (k <= n)%nat -> shift (getq a 1) (nrm a) k = shift (getq a 1) (nrm b) k).
  { intros k Hk. specialize (H k Hk). unfold phi1, raw1 in H. rewrite <- E0, <- E1 in H.
    now apply Qc_mul_cancel_l in H. }
  change (nrm a (Datatypes.S (Datatypes.S i)) = nrm b (Datatypes.S (Datatypes.S i))).
  rewrite <- (shift_inv (getq a 1) (nrm a)), <- (shift_inv (getq a 1) (nrm b)).
  apply shift_ext. intros k Hk. apply S. lia.
Qed.

(* ---- the other two kernels reduce to push_data -------------------------- *)

Lemma data_fold_ext nmax d d' al oa de l o :
  (forall a b, In a l -> (b < a - 1)%nat -> getq d (a - b) = getq d' (a - b)) ->
  fold_left (fun o a => upd o a (data_entry nmax d o al oa de a)) l o
  = fold_left (fun o a => upd o a (data_entry nmax d' o al oa de a)) l o.
Proof.
  revert o. induction l as [|a l IH]; intros o H; [reflexivity|]. cbn [fold_left].
  assert (E : data_entry nmax d o al oa de a = data_entry nmax d' o al oa de a).
  { unfold data_entry. rewrite !data_loop.
    erewrite sumn_ext; [reflexivity|]. intros b Hb. cbn beta.
    rewrite H; [reflexivity|now left|exact Hb]. }
  rewrite E. apply IH. intros. apply H; [now right|assumption].
Qed.

Lemma push_data_ext nmax d d' out :
  (forall c, (c < length out)%nat -> getq d c = getq d' c) -> (2 <= length out)%nat ->
  push_data nmax d out = push_data nmax d' out.
Proof.
  intros H L. unfold push_data. rewrite (H 0%nat), (H 1%nat) by lia.
  destruct (qeqb (getq d' 0) 0); [reflexivity|].
  destruct (qeqb _ 0); [reflexivity|].
  destruct (Nat.eqb_spec (length out - 1) 1) as [|Hn]; [reflexivity|].
  rewrite (H 2%nat) by lia.
  rewrite (data_fold_ext nmax d d'); [reflexivity|].
  intros a b Ha Hb. unfold desc_range in Ha. apply in_rev, in_seq in Ha. apply H. lia.
Qed.

Lemma push_data_scale_eq nmax data s out :
  (0 < length data)%nat ->
  push_data_scale nmax data s out = push_data nmax (upd data 0 (getq data 0 * s)) out.
Proof.
  intros L. unfold push_data_scale, push_data.
  rewrite (getq_upd_same data) by exact L.
  rewrite !(getq_upd_other data 0 1), (getq_upd_other data 0 2) by lia.
  destruct (qeqb _ 0); [reflexivity|]. destruct (qeqb _ 0); [reflexivity|].
  destruct (Nat.eqb _ 1); [reflexivity|].
  rewrite (data_fold_ext nmax data (upd data 0 (getq data 0 * s))); [reflexivity|].
  intros a b Ha Hb. rewrite getq_upd_other by lia. reflexivity.
Qed.

(* moment array of one sample: vals_to_data *)
Definition point1 (n : nat) (x w : Qc) : arr := w :: x :: zeros1 (n - 1).

Lemma point1_wf n x w : (1 <= n)%nat -> wf1 n (point1 n x w).
Proof. intros. unfold wf1, point1. cbn. rewrite zeros1_length. lia. Qed.

Lemma getq_point1 n x w k : (2 <= k)%nat -> getq (point1 n x w) k = 0.
Proof. destruct k as [|[|k]]; try lia. intros _. apply (getq_zeros (n - 1) k). Qed.

Lemma push_val_eq nmax n x w out :
  push_val nmax x w out = push_data nmax (point1 n x w) out.
Proof.
  unfold push_val, push_data.
  change (getq (point1 n x w) 0) with w. change (getq (point1 n x w) 1) with x.
  rewrite (getq_point1 n x w 2) by lia.
  destruct (qeqb w 0); [reflexivity|]. destruct (qeqb _ 0); [reflexivity|].
  destruct (Nat.eqb _ 1); [reflexivity|]. f_equal.
  match goal with |- context [fold_left _ _ ?o] => generalize o end.
  set (W := getq (upd out 0 (getq out 0 + w)) 0).
  set (alpha := w / W). set (delta := x - _).
  intros o.
  assert (F : forall l o,
    fold_left (fun o a => upd o a (val_entry nmax o alpha (1 - alpha) delta a)) l o
    = fold_left (fun o a => upd o a (data_entry nmax (point1 n x w) o alpha (1 - alpha) delta a)) l o).
  { induction l as [|a l IH]; intros o'; [reflexivity|]. cbn [fold_left].
    assert (E : val_entry nmax o' alpha (1 - alpha) delta a
                = data_entry nmax (point1 n x w) o' alpha (1 - alpha) delta a).
    { unfold val_entry, data_entry. rewrite val_loop, data_loop.
      erewrite sumn_ext; [reflexivity|]. intros b Hb. cbn beta. rewrite getq_point1 by lia. ring. }
    rewrite E. apply IH. }
  rewrite F. f_equal. ring.
Qed.

Lemma raw1_point n x w k : raw1 (point1 n x w) k = x ^ k.
Proof.
  unfold raw1. change (getq (point1 n x w) 1) with x.
  rewrite (shift_ext x _ (fun i => 0 ^ i)).
  - rewrite shift_pow. f_equal. ring.
  - intros i Hi. destruct i as [|[|i]]; cbn [nrm].
    + reflexivity.
    + cbn. ring.
    + rewrite getq_point1 by lia. cbn [Qcpower]. ring.
Qed.

Lemma phi1_point n x w k : phi1 (point1 n x w) k = w * x ^ k.
Proof. unfold phi1. rewrite raw1_point. reflexivity. Qed.

(* replacing the weight keeps the raw moments *)
Lemma raw1_setw a v k : raw1 (upd a 0 v) k = raw1 a k.
Proof.
  unfold raw1. rewrite getq_upd_other by lia. apply shift_ext. intros i Hi.
  destruct i as [|[|i]]; cbn [nrm]; try reflexivity. apply getq_upd_other. lia.
Qed.
