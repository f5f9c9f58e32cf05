(* The two-variable push kernels add weighted power sums. *)
From Verif Require Import Base BaseLemmas Shift ModelPush ModelPushCov ProofPush.
Local Open Scope Qc_scope.

Definition wf2 (n0 n1 : nat) (a : arr2) : Prop := shape2 (S n0) (S n1) a.

Definition nrm2 (a : arr2) (i j : nat) : Qc :=
  match (i + j)%nat with 0%nat => 1 | 1%nat => 0 | _ => get2 a i j end.

Definition raw2 (a : arr2) (i j : nat) : Qc := shift2 (get2 a 1 0) (get2 a 0 1) (nrm2 a) i j.
Definition phi2 (a : arr2) (i j : nat) : Qc := get2 a 0 0 * raw2 a i j.

Lemma raw2_00 a : raw2 a 0 0 = 1.
Proof. reflexivity. Qed.
Lemma raw2_10 a : raw2 a 1 0 = get2 a 1 0.
Proof. unfold raw2, shift2. cbn. ring. Qed.
Lemma raw2_01 a : raw2 a 0 1 = get2 a 0 1.
Proof. unfold raw2, shift2. cbn. ring. Qed.

Definition mix2 (alpha delta0 delta1 : Qc) (d o : nat -> nat -> Qc) (i j : nat) : Qc :=
  (1 - alpha) * shift2 (- (alpha * delta0)) (- (alpha * delta1)) o i j
  + alpha * shift2 ((1 - alpha) * delta0) ((1 - alpha) * delta1) d i j.

Lemma lv_eq (a a' b b' c c' d d' e e' : Qc) :
  a = a' -> b = b' -> c = c' -> d = d' -> e = e' -> (a, b, c, d, e) = (a', b', c', d', e').
Proof. congruence. Qed.

(* ---- inner loops -------------------------------------------------------- *)

(* one term of the double sum *)
Definition cterm (nmax : nat) (data out : arr2) (alpha one_alpha delta0 delta1 : Qc)
    (a0 a1 b0 b1 : nat) : Qc :=
  match (a0 - b0 + (a1 - b1))%nat with
  | 0%nat => delta0 ^ b0 * delta1 ^ b1 *
        ((-(1)) ^ (b0 + b1) * alpha ^ (b0 + b1) * one_alpha + one_alpha ^ (b0 + b1) * alpha)
  | 1%nat => 0
  | _ => BF nmax a0 b0 * BF nmax a1 b1 * delta0 ^ b0 * delta1 ^ b1 *
        ((-(1)) ^ (b0 + b1) * alpha ^ (b0 + b1) * one_alpha * get2 out (a0 - b0) (a1 - b1)
         + one_alpha ^ (b0 + b1) * alpha * get2 data (a0 - b0) (a1 - b1))
  end.

Lemma cdata_loop1 nmax data out alpha one_alpha delta0 delta1 a0 a1 b0 tmp m :
  fold_left (cdata_step1 nmax data out alpha one_alpha delta1 (delta0 ^ b0) (BF nmax a0 b0) a1 (a0 - b0)%nat)
            (seq 0 m) (tmp, 1, alpha ^ b0, (-(1)) ^ b0, one_alpha ^ b0)
  = (tmp + sumn (cterm nmax data out alpha one_alpha delta0 delta1 a0 a1 b0) m,
     delta1 ^ m, alpha ^ (b0 + m), (-(1)) ^ (b0 + m), one_alpha ^ (b0 + m)).
Proof.
  induction m as [|m IH].
  - cbn [seq fold_left sumn]. rewrite Nat.add_0_r. cbn [Qcpower].
    apply lv_eq; ring.
  - rewrite seq_S, fold_left_app, IH. cbn [fold_left Nat.add sumn]. unfold cdata_step1.
    rewrite !Nat.add_succ_r.
    generalize (sumn (cterm nmax data out alpha one_alpha delta0 delta1 a0 a1 b0) m). intros sm.
    unfold cterm.
    apply lv_eq; cbn [Qcpower]; try ring.
    destruct (a0 - b0 + (a1 - m))%nat as [|[|c]]; cbn [Nat.eqb negb]; ring.
Qed.

Lemma cdata_loop0 nmax data out alpha one_alpha delta0 delta1 a0 a1 m :
  fold_left (cdata_step0 nmax data out alpha one_alpha delta0 delta1 a0 a1)
            (seq 0 m) (0, 1, 1, 1, 1)
  = (sumn (fun b0 => sumn (cterm nmax data out alpha one_alpha delta0 delta1 a0 a1 b0) (a1 + 1)) m,
     delta0 ^ m, alpha ^ m, (-(1)) ^ m, one_alpha ^ m).
Proof.
  induction m as [|m IH]; [reflexivity|].
  rewrite seq_S, fold_left_app, IH. cbn [fold_left Nat.add sumn]. unfold cdata_step0.
  rewrite cdata_loop1. cbn [Qcpower].
  apply lv_eq; ring.
Qed.

Lemma cdata_entry_sum nmax data out alpha one_alpha delta0 delta1 a0 a1 :
  cdata_entry nmax data out alpha one_alpha delta0 delta1 a0 a1
  = sumn (fun b0 => sumn (cterm nmax data out alpha one_alpha delta0 delta1 a0 a1 b0) (a1 + 1)) (a0 + 1).
Proof. unfold cdata_entry. rewrite cdata_loop0. reflexivity. Qed.

Lemma cdata_entry_mix nmax data out alpha delta0 delta1 a0 a1 :
  (a0 <= nmax)%nat -> (a1 <= nmax)%nat ->
  cdata_entry nmax data out alpha (1 - alpha) delta0 delta1 a0 a1
  = mix2 alpha delta0 delta1 (nrm2 data) (nrm2 out) a0 a1.
Proof.
  intros H0 H1. rewrite cdata_entry_sum. unfold mix2. rewrite !shift2_binom.
  rewrite !Nat.add_1_r.
  rewrite <- !sumn_scal, <- sumn_add. apply sumn_ext. intros b0 Hb0.
  rewrite <- !sumn_scal, <- sumn_add. apply sumn_ext. intros b1 Hb1.
  unfold cterm, nrm2.
  rewrite (opp_pow (alpha * delta0)), (opp_pow (alpha * delta1)), !qpow_mul, !qpow_add.
  destruct (a0 - b0 + (a1 - b1))%nat as [|[|c]] eqn:E.
  - assert (b0 = a0) by lia. assert (b1 = a1) by lia. subst.
    rewrite !choose_diag, qn_1. ring.
  - ring.
  - rewrite !BF_choose by lia. ring.
Qed.

Lemma cdata_entry_ext nmax data data' o o' alpha one_alpha delta0 delta1 a0 a1 :
  (forall c0 c1, (c0 <= a0)%nat -> (c1 <= a1)%nat -> (2 <= c0 + c1)%nat ->
     get2 o c0 c1 = get2 o' c0 c1 /\ get2 data c0 c1 = get2 data' c0 c1) ->
  cdata_entry nmax data o alpha one_alpha delta0 delta1 a0 a1
  = cdata_entry nmax data' o' alpha one_alpha delta0 delta1 a0 a1.
Proof.
  intros H. rewrite !cdata_entry_sum. apply sumn_ext. intros b0 Hb0. apply sumn_ext. intros b1 Hb1.
  unfold cterm. destruct (a0 - b0 + (a1 - b1))%nat as [|[|c]] eqn:E; try reflexivity.
  destruct (H (a0 - b0)%nat (a1 - b1)%nat) as [-> ->]; try lia. reflexivity.
Qed.

(* ---- nested descending in-place loop ------------------------------------ *)

Definition below (p q : nat * nat) : Prop := (fst p <= fst q /\ snd p <= snd q)%nat.

Lemma fold_upd2_shape n m (g : arr2 -> nat -> nat -> Qc) l out :
  shape2 n m out ->
  shape2 n m (fold_left (fun o p => upd2 o (fst p) (snd p) (g o (fst p) (snd p))) l out).
Proof.
  revert out. induction l as [|p l IH]; intros out H; [exact H|]. cbn. apply IH. now apply shape2_upd2.
Qed.

Lemma fold_upd2 n m (g : arr2 -> nat -> nat -> Qc) :
  (forall o o' a0 a1,
     (forall c0 c1, (c0 <= a0)%nat -> (c1 <= a1)%nat -> (2 <= c0 + c1)%nat -> get2 o c0 c1 = get2 o' c0 c1) ->
     g o a0 a1 = g o' a0 a1) ->
  forall l out, shape2 n m out ->
  (forall p, In p l -> fst p < n /\ snd p < m)%nat ->
  ForallOrdPairs (fun p q => ~ below p q) l ->
  forall i j,
  get2 (fold_left (fun o p => upd2 o (fst p) (snd p) (g o (fst p) (snd p))) l out) i j
  = if in_dec (fun x y : nat * nat => ltac:(decide equality; apply Nat.eq_dec)) (i, j) l
    then g out i j else get2 out i j.
Proof.
  intros Hg. induction l as [|p l IH]; intros out Hs Hin Hord i j.
  - reflexivity.
  - cbn [fold_left]. inversion Hord as [|? ? Hp Hl]; subst.
    rewrite IH; [|now apply shape2_upd2|intros; apply Hin; now right|exact Hl].
    destruct p as [p0 p1]. cbn [fst snd] in *.
    destruct (in_dec _ (i, j) l) as [I|I]; destruct (in_dec _ (i, j) ((p0, p1) :: l)) as [J|J].
    + apply Hg. intros c0 c1 H0 H1 _. apply get2_upd2_other. intros [= -> ->].
      rewrite Forall_forall in Hp. apply (Hp _ I). split; cbn; lia.
    + exfalso. apply J. now right.
    + destruct J as [[= -> ->]|J]; [|contradiction].
      destruct (Hin (i, j)) as [A B]; [now left|]. apply (get2_upd2_same n m); auto.
    + apply get2_upd2_other. intros [= -> ->]. apply J. now left.
Qed.

Definition pairs_desc (order0 order1 : nat) : list (nat * nat) :=
  flat_map (fun a0 => map (fun a1 => (a0, a1)) (down (Nat.max 0 (2 - a0)) order1))
           (down (Nat.max 0 (2 - order1)) order0).

Lemma nest_desc_flat order0 order1 g out :
  nest_desc order0 order1 g out
  = fold_left (fun o p => upd2 o (fst p) (snd p) (g o (fst p) (snd p))) (pairs_desc order0 order1) out.
Proof.
  unfold nest_desc, pairs_desc.
  generalize (down (Nat.max 0 (2 - order1)) order0) as l0. intros l0. revert out.
  induction l0 as [|a0 l0 IH]; intros out; [reflexivity|].
  cbn [fold_left flat_map]. rewrite fold_left_app, IH. f_equal.
  generalize (down (Nat.max 0 (2 - a0)) order1) as l1. intros l1. revert out.
  induction l1 as [|a1 l1 IH1]; intros out; [reflexivity|]. cbn. apply IH1.
Qed.

Lemma in_down lo hi x : In x (down lo hi) <-> (lo <= x <= hi)%nat.
Proof. unfold down. rewrite <- in_rev, in_seq. lia. Qed.

Lemma in_pairs_desc n0 n1 i j :
  In (i, j) (pairs_desc n0 n1) <-> (i <= n0 /\ j <= n1 /\ 2 <= i + j)%nat.
Proof.
  unfold pairs_desc. rewrite in_flat_map. split.
  - intros (a0 & H0 & H). apply in_map_iff in H. destruct H as (a1 & [= -> ->] & H1).
    apply in_down in H0, H1. lia.
  - intros H. exists i. split; [apply in_down; lia|]. apply in_map_iff. exists j.
    split; [reflexivity|]. apply in_down. lia.
Qed.

Lemma FOP_app {A} (R : A -> A -> Prop) l1 l2 :
  ForallOrdPairs R l1 -> ForallOrdPairs R l2 ->
  (forall x y, In x l1 -> In y l2 -> R x y) -> ForallOrdPairs R (l1 ++ l2).
Proof.
  intros H1 H2. induction H1 as [|a l Ha H IH]; intros H12; [exact H2|].
  cbn. constructor.
  - apply Forall_app. split; [exact Ha|]. apply Forall_forall. intros. apply H12; [now left|assumption].
  - apply IH. intros. apply H12; [now right|assumption].
Qed.

Lemma FOP_down lo hi : ForallOrdPairs (fun x y : nat => (y < x)%nat) (down lo hi).
Proof.
  unfold down. generalize (hi + 1 - lo)%nat as m.
  induction m as [|m IH]; [constructor|]. rewrite seq_S, rev_app_distr. cbn.
  constructor; [|exact IH]. apply Forall_forall. intros x Hx. apply in_rev, in_seq in Hx. lia.
Qed.

Lemma FOP_pairs n0 n1 : ForallOrdPairs (fun p q => ~ below p q) (pairs_desc n0 n1).
Proof.
  unfold pairs_desc. generalize (FOP_down (Nat.max 0 (2 - n1)) n0).
  induction 1 as [|a0 l Ha H IH]; [constructor|]. cbn [flat_map].
  apply FOP_app; [|exact IH|].
  - generalize (FOP_down (Nat.max 0 (2 - a0)) n1).
    induction 1 as [|a1 l1 Ha1 H1 IH1]; [constructor|]. cbn [map]. constructor; [|exact IH1].
    apply Forall_forall. intros [x y] Hx. apply in_map_iff in Hx. destruct Hx as (a & [= <- <-] & Hin).
    rewrite Forall_forall in Ha1. specialize (Ha1 _ Hin). unfold below; cbn. lia.
  - intros [x0 x1] [y0 y1] Hx Hy. apply in_map_iff in Hx. destruct Hx as (a & [= <- <-] & _).
    apply in_flat_map in Hy. destruct Hy as (b0 & Hb & Hy). apply in_map_iff in Hy.
    destruct Hy as (b & [= <- <-] & _). rewrite Forall_forall in Ha. specialize (Ha _ Hb).
    unfold below; cbn. lia.
Qed.

Lemma nest_desc_get n0 n1 g out :
  (forall o o' a0 a1,
     (forall c0 c1, (c0 <= a0)%nat -> (c1 <= a1)%nat -> (2 <= c0 + c1)%nat -> get2 o c0 c1 = get2 o' c0 c1) ->
     g o a0 a1 = g o' a0 a1) ->
  wf2 n0 n1 out ->
  wf2 n0 n1 (nest_desc n0 n1 g out) /\
  forall i j, (i <= n0)%nat -> (j <= n1)%nat ->
    get2 (nest_desc n0 n1 g out) i j = if Nat.leb 2 (i + j) then g out i j else get2 out i j.
Proof.
  intros Hg Hw. rewrite nest_desc_flat. split; [now apply fold_upd2_shape|].
  intros i j Hi Hj. rewrite (fold_upd2 (S n0) (S n1)); auto.
  - destruct (in_dec _ (i, j) _) as [I|I], (Nat.leb_spec 2 (i + j)) as [L|L]; try reflexivity.
    + apply in_pairs_desc in I. lia.
    + exfalso. apply I. apply in_pairs_desc. lia.
  - intros [p0 p1] Hp. apply in_pairs_desc in Hp. cbn. lia.
  - apply FOP_pairs.
Qed.

(* ---- closed form --------------------------------------------------------- *)

Lemma ncol_wf2 n0 n1 a : wf2 n0 n1 a -> ncol a = S n1.
Proof. intros [L H]. apply H. lia. Qed.

Lemma cpush_data_closed nmax n0 n1 data out :
  wf2 n0 n1 out -> (1 <= n0 <= nmax)%nat -> (1 <= n1 <= nmax)%nat ->
  get2 data 0 0 <> 0 -> get2 out 0 0 + get2 data 0 0 <> 0 ->
  exists r, cpush_data nmax data out = Some r /\ wf2 n0 n1 r /\
    let W := get2 out 0 0 + get2 data 0 0 in
    let alpha := get2 data 0 0 / W in
    let delta0 := get2 data 1 0 - get2 out 1 0 in
    let delta1 := get2 data 0 1 - get2 out 0 1 in
    get2 r 0 0 = W /\
    get2 r 1 0 = get2 out 1 0 + alpha * delta0 /\
    get2 r 0 1 = get2 out 0 1 + alpha * delta1 /\
    forall i j, (i <= n0)%nat -> (j <= n1)%nat -> (2 <= i + j)%nat ->
      get2 r i j = mix2 alpha delta0 delta1 (nrm2 data) (nrm2 out) i j.
Proof.
  intros Hw Hn0 Hn1 H0 HW. unfold cpush_data. rewrite (qeqb_neq _ _ H0).
  rewrite (get2_upd2_same (S n0) (S n1)) by (auto; lia).
  rewrite (qeqb_neq _ _ HW).
  rewrite !(get2_upd2_other out 0 0) by congruence.
  rewrite (ncol_wf2 n0 n1 out Hw). rewrite (proj1 Hw).
  replace (S n0 - 1)%nat with n0 by lia. replace (S n1 - 1)%nat with n1 by lia.
  set (W := get2 out 0 0 + get2 data 0 0) in *.
  set (alpha := get2 data 0 0 / W).
  set (delta0 := get2 data 1 0 - get2 out 1 0).
  set (delta1 := get2 data 0 1 - get2 out 0 1).
  set (oa := upd2 (upd2 out 0 0 W) 1 0 (get2 out 1 0 + delta0 * alpha)).
  assert (Woa : wf2 n0 n1 oa) by (unfold oa; repeat apply shape2_upd2; exact Hw).
  replace (get2 oa 0 1) with (get2 out 0 1).
  2:{ unfold oa. rewrite !get2_upd2_other by congruence. reflexivity. }
  set (o1 := upd2 oa 0 1 (get2 out 0 1 + delta1 * alpha)).
  assert (Wo1 : wf2 n0 n1 o1) by (unfold o1; apply shape2_upd2; exact Woa).
  assert (E00 : get2 o1 0 0 = W).
  { unfold o1, oa. rewrite !(get2_upd2_other _ _ _ 0 0) by congruence.
    apply (get2_upd2_same (S n0) (S n1)); auto; lia. }
  assert (E10 : get2 o1 1 0 = get2 out 1 0 + alpha * delta0).
  { unfold o1. rewrite get2_upd2_other by congruence. unfold oa.
    rewrite (get2_upd2_same (S n0) (S n1)); [ring|apply shape2_upd2; exact Hw|lia|lia]. }
  assert (E01 : get2 o1 0 1 = get2 out 0 1 + alpha * delta1).
  { unfold o1. rewrite (get2_upd2_same (S n0) (S n1)); [ring|exact Woa|lia|lia]. }
  assert (Ek : forall i j, (2 <= i + j)%nat -> get2 o1 i j = get2 out i j).
  { intros i j Hij. unfold o1, oa. rewrite !get2_upd2_other; auto; intros [= <- <-]; lia. }
  destruct (nest_desc_get n0 n1
     (fun o a0 a1 => cdata_entry nmax data o alpha (1 - alpha) delta0 delta1 a0 a1) o1) as [Wr G].
  { intros o o' a0 a1 H. apply cdata_entry_ext. intros. split; [now apply H|reflexivity]. }
  { exact Wo1. }
  eexists. split; [reflexivity|]. split; [exact Wr|]. cbn zeta.
  rewrite !G by lia. cbn [Nat.add Nat.leb].
  split; [exact E00|]. split; [exact E10|]. split; [exact E01|].
  intros i j Hi Hj Hij. rewrite G by lia. destruct (Nat.leb_spec 2 (i + j)); [|lia].
  rewrite cdata_entry_mix by lia. unfold mix2. f_equal. f_equal.
  apply shift2_ext. intros a b Ha Hb. unfold nrm2.
  destruct (a + b)%nat as [|[|c]] eqn:E; try reflexivity. apply Ek. lia.
Qed.

Lemma mix2_low alpha delta0 delta1 d o :
  mix2 alpha delta0 delta1 (nrm2 d) (nrm2 o) 0 0 = 1 /\
  mix2 alpha delta0 delta1 (nrm2 d) (nrm2 o) 1 0 = 0 /\
  mix2 alpha delta0 delta1 (nrm2 d) (nrm2 o) 0 1 = 0.
Proof. unfold mix2, shift2. cbn. repeat split; ring. Qed.

Lemma mix2_raw alpha delta0 delta1 mu0 mu1 d o i j :
  shift2 (mu0 + alpha * delta0) (mu1 + alpha * delta1) (mix2 alpha delta0 delta1 d o) i j
  = (1 - alpha) * shift2 mu0 mu1 o i j + alpha * shift2 (mu0 + delta0) (mu1 + delta1) d i j.
Proof.
  unfold mix2. rewrite shift2_lin, !shift2_comp. f_equal; f_equal; f_equal; ring.
Qed.

Lemma cpush_data_some nmax n0 n1 data out :
  wf2 n0 n1 out -> (1 <= n0 <= nmax)%nat -> (1 <= n1 <= nmax)%nat ->
  get2 data 0 0 <> 0 -> get2 out 0 0 + get2 data 0 0 <> 0 ->
  exists r, cpush_data nmax data out = Some r /\ wf2 n0 n1 r /\
    get2 r 0 0 = get2 out 0 0 + get2 data 0 0 /\
    forall i j, (i <= n0)%nat -> (j <= n1)%nat -> phi2 r i j = phi2 out i j + phi2 data i j.
Proof.
  intros Hw Hn0 Hn1 H0 HW.
  destruct (cpush_data_closed nmax n0 n1 data out Hw Hn0 Hn1 H0 HW)
    as (r & E & Hr & R00 & R10 & R01 & Rk).
  exists r. split; [exact E|]. split; [exact Hr|]. split; [exact R00|].
  intros i j Hi Hj. unfold phi2, raw2. rewrite R00, R10, R01.
  set (W := get2 out 0 0 + get2 data 0 0) in *.
  set (alpha := get2 data 0 0 / W) in *.
  set (delta0 := get2 data 1 0 - get2 out 1 0) in *.
  set (delta1 := get2 data 0 1 - get2 out 0 1) in *.
  rewrite (shift2_ext _ _ (nrm2 r) (mix2 alpha delta0 delta1 (nrm2 data) (nrm2 out))).
  2:{ intros a b Ha Hb. destruct (mix2_low alpha delta0 delta1 data out) as (M0 & M1 & M2).
      unfold nrm2 at 1. destruct (a + b)%nat as [|[|c]] eqn:Eab.
      - assert (a = 0)%nat by lia. assert (b = 0)%nat by lia. subst. now rewrite M0.
      - assert (a = 1 /\ b = 0 \/ a = 0 /\ b = 1)%nat as [[-> ->]|[-> ->]] by lia; congruence.
      - apply Rk; lia. }
  rewrite mix2_raw. replace (get2 out 1 0 + delta0) with (get2 data 1 0) by (unfold delta0; ring).
  replace (get2 out 0 1 + delta1) with (get2 data 0 1) by (unfold delta1; ring).
  unfold alpha. unfold W. field. exact HW.
Qed.

Lemma cpush_data_zero nmax data out : get2 data 0 0 = 0 -> cpush_data nmax data out = Some out.
Proof. intros H. unfold cpush_data. rewrite H, qeqb_refl. reflexivity. Qed.

Lemma cpush_data_none nmax n0 n1 data out :
  wf2 n0 n1 out -> get2 data 0 0 <> 0 -> get2 out 0 0 + get2 data 0 0 = 0 -> cpush_data nmax data out = None.
Proof.
  intros L H0 HW. unfold cpush_data. rewrite (qeqb_neq _ _ H0).
  rewrite (get2_upd2_same (S n0) (S n1)) by (auto; lia). now rewrite HW, qeqb_refl.
Qed.

Lemma phi2_inj n0 n1 a b :
  wf2 n0 n1 a -> wf2 n0 n1 b -> (1 <= n0)%nat -> (1 <= n1)%nat -> get2 a 0 0 <> 0 ->
  (forall i j, (i <= n0)%nat -> (j <= n1)%nat -> phi2 a i j = phi2 b i j) -> a = b.
Proof.
  intros Ha Hb Hn0 Hn1 H0 H.
  assert (E0 : get2 a 0 0 = get2 b 0 0).
  { specialize (H 0 0 ltac:(lia) ltac:(lia))%nat. unfold phi2 in H. rewrite !raw2_00, !Qcmult_1_r in H. exact H. }
  assert (R : forall i j, (i <= n0)%nat -> (j <= n1)%nat -> raw2 a i j = raw2 b i j).
  { intros i j Hi Hj. specialize (H i j Hi Hj). unfold phi2 in H. rewrite <- E0 in H.
    now apply Qc_mul_cancel_l in H. }
  assert (E1 : get2 a 1 0 = get2 b 1 0).
  { specialize (R 1 0 ltac:(lia) ltac:(lia))%nat. now rewrite !raw2_10 in R. }
  assert (E2 : get2 a 0 1 = get2 b 0 1).
  { specialize (R 0 1 ltac:(lia) ltac:(lia))%nat. now rewrite !raw2_01 in R. }
  apply (arr2_ext (S n0) (S n1)); auto. intros i j Hi Hj.
  assert (N : nrm2 a i j = nrm2 b i j).
  { rewrite <- (shift2_inv (get2 a 1 0) (get2 a 0 1) (nrm2 a)),
            <- (shift2_inv (get2 a 1 0) (get2 a 0 1) (nrm2 b)).
    apply shift2_ext. intros k l Hk Hl. specialize (R k l ltac:(lia) ltac:(lia)).
    unfold raw2 in R. rewrite <- E1, <- E2 in R. exact R. }
  unfold nrm2 in N. destruct (i + j)%nat as [|[|c]] eqn:E.
  - assert (i = 0)%nat by lia. assert (j = 0)%nat by lia. subst. exact E0.
  - assert (i = 1 /\ j = 0 \/ i = 0 /\ j = 1)%nat as [[-> ->]|[-> ->]] by lia; assumption.
  - exact N.
Qed.

(* ---- the other two kernels ------------------------------------------------ *)

Lemma nest_desc_ext n0 n1 g g' out :
  (forall o i j, (i <= n0)%nat -> (j <= n1)%nat -> g o i j = g' o i j) ->
  nest_desc n0 n1 g out = nest_desc n0 n1 g' out.
Proof.
  intros H. rewrite !nest_desc_flat.
  assert (B : forall p, In p (pairs_desc n0 n1) -> (fst p <= n0 /\ snd p <= n1)%nat).
  { intros [i j] Hp. apply in_pairs_desc in Hp. cbn. lia. }
  revert B out. generalize (pairs_desc n0 n1) as l.
  induction l as [|p l IH]; intros B out; [reflexivity|]. cbn [fold_left].
  destruct (B p (or_introl eq_refl)). rewrite H by assumption. apply IH. intros. apply B. now right.
Qed.

Lemma cpush_data_ext nmax n0 n1 d d' out :
  wf2 n0 n1 out -> (1 <= n0)%nat -> (1 <= n1)%nat ->
  (forall i j, (i <= n0)%nat -> (j <= n1)%nat -> get2 d i j = get2 d' i j) ->
  cpush_data nmax d out = cpush_data nmax d' out.
Proof.
  intros Hw Hn0 Hn1 H. unfold cpush_data. rewrite !H by lia.
  destruct (qeqb _ 0); [reflexivity|]. destruct (qeqb _ 0); [reflexivity|].
  rewrite (ncol_wf2 n0 n1 out Hw), (proj1 Hw).
  replace (S n0 - 1)%nat with n0 by lia. replace (S n1 - 1)%nat with n1 by lia. f_equal.
  apply nest_desc_ext. intros o i j Hi Hj. apply cdata_entry_ext. intros. split; [reflexivity|].
  apply H; lia.
Qed.

Lemma cpush_data_scale_eq nmax n0 n1 data s out :
  wf2 n0 n1 data -> (1 <= n0)%nat -> (1 <= n1)%nat ->
  cpush_data_scale nmax data s out = cpush_data nmax (upd2 data 0 0 (get2 data 0 0 * s)) out.
Proof.
  intros Hd Hn0 Hn1. unfold cpush_data_scale, cpush_data.
  rewrite (get2_upd2_same (S n0) (S n1) data 0 0) by (auto; lia).
  rewrite !(get2_upd2_other data 0 0) by congruence.
  destruct (qeqb _ 0); [reflexivity|]. destruct (qeqb _ 0); [reflexivity|]. f_equal.
  apply nest_desc_ext. intros o i j Hi Hj. apply cdata_entry_ext. intros c0 c1 H0 H1 H2.
  split; [reflexivity|]. rewrite get2_upd2_other; [reflexivity|]. intros [= <- <-]; lia.
Qed.

(* moment matrix of one sample: vals_to_data *)
Definition point2 (n0 n1 : nat) (x : Qc * Qc) (w : Qc) : arr2 :=
  upd2 (upd2 (upd2 (zeros2 (S n0) (S n1)) 0 0 w) 1 0 (fst x)) 0 1 (snd x).

Lemma point2_wf n0 n1 x w : wf2 n0 n1 (point2 n0 n1 x w).
Proof. unfold point2, wf2. repeat apply shape2_upd2. apply shape2_zeros. Qed.

Lemma get2_point2 n0 n1 x w i j : (1 <= n0)%nat -> (1 <= n1)%nat ->
  get2 (point2 n0 n1 x w) i j =
  match i, j with
  | O, O => w | S O, O => fst x | O, S O => snd x | _, _ => 0
  end.
Proof.
  intros Hn0 Hn1. unfold point2.
  assert (S0 := shape2_zeros (S n0) (S n1)).
  assert (S1 := shape2_upd2 _ _ _ 0 0 w S0).
  assert (S2 := shape2_upd2 _ _ _ 1 0 (fst x) S1).
  destruct i as [|[|i]], j as [|[|j]]; cbv beta iota.
  all: try (rewrite !get2_upd2_other by congruence; apply get2_zeros).
  - rewrite !(get2_upd2_other _ _ _ 0 0) by congruence. apply (get2_upd2_same (S n0) (S n1)); auto; lia.
  - apply (get2_upd2_same (S n0) (S n1)); auto; lia.
  - rewrite (get2_upd2_other _ 0 1 1 0) by congruence. apply (get2_upd2_same (S n0) (S n1)); auto; lia.
Qed.

Lemma nrm2_point2 n0 n1 x w i j : (1 <= n0)%nat -> (1 <= n1)%nat ->
  nrm2 (point2 n0 n1 x w) i j = 0 ^ i * 0 ^ j.
Proof.
  intros Hn0 Hn1. unfold nrm2. rewrite get2_point2 by assumption.
  destruct i as [|[|i]], j as [|[|j]]; cbn [Nat.add Qcpower]; try ring.
Qed.

Lemma cval_loop1 nmax d out alpha one_alpha delta0b delta1 f0 a1 c0 l :
  (forall i j, (2 <= i + j)%nat -> get2 d i j = 0) ->
  forall v, fold_left (cval_step1 nmax out alpha one_alpha delta1 delta0b f0 a1 c0) l v
  = fold_left (cdata_step1 nmax d out alpha one_alpha delta1 delta0b f0 a1 c0) l v.
Proof.
  intros Hd. induction l as [|b l IH]; intros v; [reflexivity|]. cbn [fold_left]. rewrite <- IH. f_equal.
  destruct v as [[[[tmp d1] ab] mb] ob]. unfold cval_step1, cdata_step1.
  destruct (Nat.eqb_spec (c0 + (a1 - b)) 0); [reflexivity|].
  destruct (Nat.eqb_spec (c0 + (a1 - b)) 1); [reflexivity|]. cbn [negb].
  rewrite (Hd c0 (a1 - b)%nat) by lia. do 4 f_equal. ring.
Qed.

Lemma cval_entry_data nmax d out alpha one_alpha delta0 delta1 a0 a1 :
  (forall i j, (2 <= i + j)%nat -> get2 d i j = 0) ->
  cval_entry nmax out alpha one_alpha delta0 delta1 a0 a1
  = cdata_entry nmax d out alpha one_alpha delta0 delta1 a0 a1.
Proof.
  intros Hd. unfold cval_entry, cdata_entry.
  replace (fold_left (cval_step0 nmax out alpha one_alpha delta0 delta1 a0 a1) (seq 0 (a0 + 1)) (0, 1, 1, 1, 1))
    with (fold_left (cdata_step0 nmax d out alpha one_alpha delta0 delta1 a0 a1) (seq 0 (a0 + 1)) (0, 1, 1, 1, 1));
    [reflexivity|].
  generalize (0, 1, 1, 1, 1). generalize (seq 0 (a0 + 1)).
  induction l as [|b l IH]; intros v; [reflexivity|]. cbn [fold_left].
  replace (cval_step0 nmax out alpha one_alpha delta0 delta1 a0 a1 v b)
    with (cdata_step0 nmax d out alpha one_alpha delta0 delta1 a0 a1 v b); [apply IH|].
  destruct v as [[[[tmp d1] ab] mb] ob]. unfold cval_step0, cdata_step0.
  rewrite (cval_loop1 nmax d) by exact Hd. reflexivity.
Qed.

Lemma cpush_val_eq nmax n0 n1 x w out :
  (1 <= n0)%nat -> (1 <= n1)%nat ->
  cpush_val nmax x w out = cpush_data nmax (point2 n0 n1 x w) out.
Proof.
  intros Hn0 Hn1. unfold cpush_val, cpush_data. rewrite !get2_point2 by assumption. cbv beta iota.
  destruct (qeqb w 0); [reflexivity|]. destruct x as [x0 x1]. cbn [fst snd].
  destruct (qeqb _ 0); [reflexivity|]. f_equal.
  apply nest_desc_ext. intros o i j _ _. apply cval_entry_data.
  intros a b Hab. rewrite get2_point2 by assumption.
  destruct a as [|[|a]], b as [|[|b]]; try reflexivity; lia.
Qed.

Lemma raw2_point n0 n1 x w i j : (1 <= n0)%nat -> (1 <= n1)%nat ->
  raw2 (point2 n0 n1 x w) i j = fst x ^ i * snd x ^ j.
Proof.
  intros Hn0 Hn1. unfold raw2. rewrite !get2_point2 by assumption. cbv beta iota.
  rewrite (shift2_ext _ _ _ (fun a b => 0 ^ a * 0 ^ b)).
  - rewrite shift2_pow. f_equal; f_equal; ring.
  - intros. now apply nrm2_point2.
Qed.

Lemma raw2_setw a v i j : raw2 (upd2 a 0 0 v) i j = raw2 a i j.
Proof.
  unfold raw2. rewrite !get2_upd2_other by congruence. apply shift2_ext. intros x y _ _.
  unfold nrm2. destruct (x + y)%nat as [|[|c]] eqn:E; try reflexivity.
  apply get2_upd2_other. intros [= <- <-]; lia.
Qed.
