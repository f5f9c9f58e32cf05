(* The push kernels on memory refine the push operations on values. *)
From Verif Require Import Base BaseLemmas ModelPush ModelPushCov ModelKernels ModelHeap ProofPush ProofPushCov.
Local Open Scope Qc_scope.

(* ---- rows in memory ------------------------------------------------------------ *)

(* data and out share an element only as the same moment *)
Definition aligned (d o : hrow) : Prop :=
  forall i j a, nth_error d i = Some a -> nth_error o j = Some a -> i = j.
Definition in_memory (m : mem) (r : hrow) : Prop := Forall (fun a => (a < length m)%nat) r.

Lemma hget_val m r i : hget m r i = getq (hval m r) i.
Proof.
  unfold hget, hval, getq. destruct (nth_error r i) as [a|] eqn:E.
  - symmetry. apply nth_error_nth. rewrite nth_error_map, E. reflexivity.
  - apply nth_error_None in E. rewrite nth_overflow; [reflexivity|now rewrite map_length].
Qed.
Lemma hval_length m r : length (hval m r) = length r.
Proof. apply map_length. Qed.
Lemma hset_length m r i v : length (hset m r i v) = length m.
Proof. unfold hset. destruct (nth_error r i); [apply upd_length|reflexivity]. Qed.
Lemma hset_outside m r i v a : ~ In a r -> getq (hset m r i v) a = getq m a.
Proof.
  intros N. unfold hset. destruct (nth_error r i) as [b|] eqn:E; [|reflexivity].
  apply getq_upd_other. intros ->. apply N. apply (nth_error_In _ _ E).
Qed.
Lemma hset_val m r i v : NoDup r -> in_memory m r -> (i < length r)%nat ->
  hval (hset m r i v) r = upd (hval m r) i v.
Proof.
  intros N M Hi. apply arr_ext; [now rewrite upd_length, !hval_length|]. rewrite hval_length. intros j Hj.
  rewrite <- hget_val. unfold hget, hset.
  destruct (nth_error r i) as [a|] eqn:Ei; [|apply nth_error_None in Ei; lia].
  destruct (nth_error r j) as [b|] eqn:Ej; [|apply nth_error_None in Ej; lia].
  destruct (Nat.eq_dec i j) as [->|D].
  - rewrite getq_upd_same by (rewrite hval_length; exact Hj). assert (b = a) by congruence. subst b.
    apply getq_upd_same. unfold in_memory in M. rewrite Forall_forall in M. apply M, (nth_error_In _ _ Ei).
  - rewrite (getq_upd_other (hval m r)) by exact D. rewrite getq_upd_other.
    + rewrite <- hget_val. unfold hget. rewrite Ej. reflexivity.
    + intros E. apply D. apply (proj1 (NoDup_nth_error r) N); congruence.
Qed.

(* entries of data seen while out is being changed *)
Definition shared (d o : hrow) (c : nat) : bool :=
  match nth_error d c, nth_error o c with Some a, Some b => Nat.eqb a b | _, _ => false end.
Definition seen (d o : hrow) (D O : list Qc) : list Qc :=
  map (fun c => if shared d o c then getq O c else getq D c) (seq 0 (length d)).
Lemma seen_get d o D O c : (c < length d)%nat -> getq (seen d o D O) c = if shared d o c then getq O c else getq D c.
Proof. intros Hc. unfold seen. now rewrite getq_map_seq. Qed.
Lemma seen_over d o D O c : (length d <= c)%nat -> getq (seen d o D O) c = 0.
Proof. intros Hc. unfold getq, seen. apply nth_overflow. now rewrite map_length, seq_length. Qed.

Section Run.
  Context (m0 : mem) (d o : hrow).
  Hypothesis (Hl : length d = length o) (No : NoDup o) (Mo : in_memory m0 o) (Al : aligned d o).
  Let D := hval m0 d.

  (* m is m0 with the values O in the row o *)
  Definition at_values (m : mem) (O : list Qc) : Prop :=
    hval m o = O /\ hval m d = seen d o D O /\ length m = length m0 /\ forall a, ~ In a o -> getq m a = getq m0 a.

  Lemma at_start : at_values m0 (hval m0 o).
  Proof.
    split; [reflexivity|]. split; [|split; auto].
    apply arr_ext; [unfold seen; now rewrite map_length, seq_length, hval_length|]. rewrite hval_length. intros c Hc.
    rewrite seen_get by exact Hc. unfold shared. rewrite <- !hget_val. unfold D. rewrite <- hget_val. unfold hget.
    destruct (nth_error d c) as [a|] eqn:Ea; [|reflexivity]. destruct (nth_error o c) as [b|] eqn:Eb; [|reflexivity].
    destruct (Nat.eqb_spec a b) as [->|]; reflexivity.
  Qed.
  Lemma at_set m O i v : at_values m O -> (i < length o)%nat -> at_values (hset m o i v) (upd O i v).
  Proof.
    intros (Vo & Vd & Lm & Out) Hi.
    assert (M : in_memory m o) by (unfold in_memory in *; rewrite Lm; exact Mo).
    split; [rewrite hset_val by auto; now rewrite Vo|]. split; [|split].
    - apply arr_ext; [unfold seen; now rewrite map_length, seq_length, hval_length|]. rewrite hval_length. intros c Hc.
      rewrite seen_get by exact Hc.
      assert (G : getq (hval m d) c = if shared d o c then getq O c else getq D c) by (rewrite Vd; now apply seen_get).
      rewrite <- hget_val in G |- *. unfold hget in G |- *. unfold shared in G |- *.
      destruct (nth_error d c) as [a|] eqn:Ea; [|exact G].
      destruct (nth_error o c) as [b|] eqn:Eb; [|apply nth_error_None in Eb; lia].
      unfold hset. destruct (nth_error o i) as [x|] eqn:Ei; [|apply nth_error_None in Ei; lia].
      destruct (Nat.eqb_spec a b) as [->|Nab].
      + destruct (Nat.eq_dec i c) as [->|Nic].
        * assert (x = b) by congruence. subst x. rewrite !getq_upd_same; auto.
          -- rewrite <- Vo, hval_length. exact Hi.
          -- unfold in_memory in M. rewrite Forall_forall in M. apply M, (nth_error_In _ _ Ei).
        * rewrite !getq_upd_other; auto. intros ->. apply Nic. apply (proj1 (NoDup_nth_error o) No); congruence.
      + rewrite getq_upd_other; [exact G|]. intros ->. assert (c = i) by (apply (Al c i a); auto). congruence.
    - rewrite hset_length. exact Lm.
    - intros a Na. rewrite hset_outside by exact Na. apply Out. exact Na.
  Qed.
  Lemma at_loop {T} (ix : T -> nat) (G : list Qc -> list Qc -> T -> Qc) l :
    forall m O, at_values m O -> Forall (fun a => (ix a < length o)%nat) l ->
    at_values (fold_left (fun m a => hset m o (ix a) (G (hval m d) (hval m o) a)) l m)
              (fold_left (fun O a => upd O (ix a) (G (seen d o D O) O a)) l O).
  Proof.
    induction l as [|a l IH]; intros m O V F; [exact V|]. inversion F; subst. cbn [fold_left]. apply IH; auto.
    destruct V as (Vo & Vd & V'). rewrite Vo, Vd. apply at_set; auto. split; auto.
  Qed.
  Lemma at_length m O : at_values m O -> length O = length o.
  Proof. intros (Vo & _). rewrite <- Vo. apply hval_length. Qed.
  (* data entries not written yet *)
  Lemma seen_old O c : (c < length d)%nat -> getq O c = getq (hval m0 o) c -> getq (seen d o D O) c = getq D c.
  Proof.
    intros Hc E. rewrite seen_get by exact Hc. destruct (shared d o c) eqn:S; [|reflexivity].
    rewrite E. unfold D. rewrite <- !hget_val. unfold hget. unfold shared in S.
    destruct (nth_error d c), (nth_error o c); try discriminate. apply Nat.eqb_eq in S. now subst.
  Qed.
End Run.

(* what a push has to do *)
Definition push_refines {A} (push : option Qc -> hrow -> hrow -> mem -> mem * bool) (of_ : list Qc -> A)
    (f : option Qc -> A -> A -> option A) (width : nat) : Prop :=
  forall scale d o m, length d = width -> length o = width -> NoDup o -> in_memory m o -> aligned d o ->
  let '(m', ok) := push scale d o m in
  length m' = length m /\ (forall a, ~ In a o -> getq m' a = getq m a) /\
  match f scale (of_ (hval m d)) (of_ (hval m o)) with
  | Some r => ok = true /\ of_ (hval m' o) = r
  | None => ok = false /\ hval m' o = upd (hval m o) 0 0
  end.
Definition fpush1 (nmax : nat) (scale : option Qc) (data out : arr) : option arr :=
  match scale with None => push_data nmax data out | Some s => push_data_scale nmax data s out end.

Lemma upd_upd {T} (l : list T) i u v : upd (upd l i u) i v = upd l i v.
Proof. revert i. induction l; intros [|i]; simpl; f_equal; auto. Qed.

Lemma hpush1_refines nmax n : (1 <= n)%nat -> push_refines (hpush1 nmax) (fun l => l) (fpush1 nmax) (S n).
Proof.
  intros Hn scale d o m Ld Lo No Mo Al.
  assert (Hl : length d = length o) by congruence.
  pose proof (at_start m d o) as V0.
  set (w := match scale with None => getq (hval m d) 0 | Some s => getq (hval m d) 0 * s end).
  assert (F : fpush1 nmax scale (hval m d) (hval m o) =
    if qeqb w 0 then Some (hval m o)
    else
    let order := (length (hval m o) - 1)%nat in
    let out := upd (hval m o) 0 (getq (hval m o) 0 + w) in
    if qeqb (getq out 0) 0 then None
    else
      let alpha := w / getq out 0 in
      let one_alpha := 1 - alpha in
      let delta := getq (hval m d) 1 - getq out 1 in
      let incr := delta * alpha in
      let out := upd out 1 (getq out 1 + incr) in
      if Nat.eqb order 1 then Some out
      else
        let out := fold_left
          (fun o a => upd o a (data_entry nmax (hval m d) o alpha one_alpha delta a))
          (desc_range order) out in
        Some (upd out 2 (getq (hval m d) 2 * alpha + one_alpha * (getq out 2 + delta * incr)))).
  { unfold fpush1, w. destruct scale; reflexivity. }
  rewrite F. clear F. unfold hpush1.
  replace (match scale with None => hget m d 0 | Some s => hget m d 0 * s end) with w
    by (unfold w; destruct scale; now rewrite hget_val).
  destruct (qeqb w 0) eqn:Ew; [split; [reflexivity|split; [auto|split; reflexivity]]|].
  rewrite (hget_val m o). set (O := hval m o) in *.
  set (O1 := upd O 0 (getq O 0 + w)).
  assert (V1 : at_values m d o (hset m o 0 (getq O 0 + w)) O1) by (apply (at_set m d o); auto; lia).
  set (m1 := hset m o 0 (getq O 0 + w)) in *. clearbody m1.
  rewrite (hget_val m1 o), (proj1 V1). cbv zeta.
  destruct (qeqb (getq O1 0) 0) eqn:E1.
  { destruct V1 as (Vo & Vd & Lm & Out). split; [exact Lm|split; [exact Out|split; [reflexivity|]]].
    rewrite Vo. apply qeqb_eq in E1. unfold O1 in *. rewrite getq_upd_same in E1 by (unfold O; rewrite hval_length; lia).
    rewrite E1. reflexivity. }
  set (alpha := w / getq O1 0).
  assert (Ed1 : hget m1 d 1 = getq (hval m d) 1).
  { rewrite hget_val, (proj1 (proj2 V1)). apply seen_old; [lia|]. apply getq_upd_other. lia. }
  rewrite Ed1. rewrite (hget_val m1 o 1), (proj1 V1).
  set (delta := getq (hval m d) 1 - getq O1 1).
  set (O2 := upd O1 1 (getq O1 1 + delta * alpha)).
  assert (V2 : at_values m d o (hset m1 o 1 (getq O1 1 + delta * alpha)) O2) by (apply (at_set m d o); auto; lia).
  set (m2 := hset m1 o 1 _) in *. clearbody m2.
  replace (length O) with (length o) by (symmetry; apply hval_length). rewrite Lo.
  replace (S n - 1)%nat with n by lia.
  destruct (Nat.eqb_spec n 1) as [|Hn1].
  { destruct V2 as (Vo & Vd & Lm & Out). split; [exact Lm|split; [exact Out|split; [reflexivity|exact Vo]]]. }
  pose (G := fun D' O' a => data_entry nmax D' O' alpha (1 - alpha) delta a).
  assert (V3 : at_values m d o
     (fold_left (fun m a => hset m o a (G (hval m d) (hval m o) a)) (desc_range n) m2)
     (fold_left (fun O a => upd O a (G (seen d o (hval m d) O) O a)) (desc_range n) O2)).
  { apply (at_loop m d o Hl No Mo Al (fun a => a)); auto. apply Forall_forall. intros a Ha. unfold desc_range in Ha.
    apply in_rev, in_seq in Ha. lia. }
  assert (L2 : length O2 = S n) by (rewrite (at_length _ _ _ _ _ V2); exact Lo).
  assert (Loc : forall X Y a, (forall c, (2 <= c <= a)%nat -> getq X c = getq Y c) -> 
     G (seen d o (hval m d) X) X a = G (seen d o (hval m d) Y) Y a).
  { intros X Y a HXY. unfold G. rewrite (data_entry_ext nmax _ X Y) by exact HXY.
    unfold data_entry. rewrite !data_loop. erewrite sumn_ext; [reflexivity|]. intros b Hb. cbn beta.
    replace (getq (seen d o (hval m d) X) (a - b)) with (getq (seen d o (hval m d) Y) (a - b)); [reflexivity|].
    destruct (Nat.lt_ge_cases (a - b) (length d)); [|now rewrite !seen_over].
    rewrite !seen_get by assumption. destruct (shared d o (a - b)); [|reflexivity]. symmetry. apply HXY. lia. }
  assert (E3 : fold_left (fun O a => upd O a (G (seen d o (hval m d) O) O a)) (desc_range n) O2
             = fold_left (fun o a => upd o a (data_entry nmax (hval m d) o alpha (1 - alpha) delta a)) (desc_range n) O2).
  { apply arr_ext; [now rewrite !desc_loop_length|]. rewrite desc_loop_length. intros k Hk. unfold desc_range.
    rewrite (desc_loop (fun O a => G (seen d o (hval m d) O) O a)) by (auto; lia).
    rewrite (desc_loop (fun o a => data_entry nmax (hval m d) o alpha (1 - alpha) delta a)); [|intros; now apply data_entry_ext|lia].
    destruct (Nat.leb_spec 3 k), (Nat.ltb_spec k (3 + (n - 2))); cbn [andb]; try reflexivity.
    unfold G. unfold data_entry. rewrite !data_loop. erewrite sumn_ext; [reflexivity|]. intros b Hb. cbn beta.
    rewrite seen_old; [reflexivity|lia|]. unfold O2, O1. rewrite !getq_upd_other by lia. reflexivity. }
  rewrite E3 in V3. set (O3 := fold_left _ _ O2) in *. unfold G in V3.
  set (m3 := fold_left _ _ m2) in *. clearbody m3.
  assert (L3 : length O3 = S n) by (rewrite (at_length _ _ _ _ _ V3); exact Lo).
  assert (Ed2 : hget m3 d 2 = getq (hval m d) 2).
  { rewrite hget_val, (proj1 (proj2 V3)). apply seen_old; [lia|]. unfold O3, desc_range.
    rewrite desc_loop; [|intros; now apply data_entry_ext|lia]. cbn [Nat.leb andb].
    unfold O2, O1. rewrite !getq_upd_other by lia. reflexivity. }
  rewrite Ed2, (hget_val m3 o 2), (proj1 V3).
  assert (V4 : at_values m d o (hset m3 o 2 (getq (hval m d) 2 * alpha + (1 - alpha) * (getq O3 2 + delta * (delta * alpha))))
     (upd O3 2 (getq (hval m d) 2 * alpha + (1 - alpha) * (getq O3 2 + delta * (delta * alpha))))).
  { apply (at_set m d o); auto. lia. }
  destruct V4 as (Vo & Vd & Lm & Out). split; [exact Lm|split; [exact Out|split; [reflexivity|exact Vo]]].
Qed.

(* ---- two variables --------------------------------------------------------------- *)

Definition fpush2 (nmax : nat) (scale : option Qc) (data out : arr2) : option arr2 :=
  match scale with None => cpush_data nmax data out | Some s => cpush_data_scale nmax data s out end.

Lemma chunk_shape r c l : shape2 r c (chunk r c l).
Proof.
  unfold chunk. split; [now rewrite map_length, seq_length|]. intros i Hi.
  rewrite nth_indep with (d' := (fun i => map (fun j => getq l (i * c + j)) (seq 0 c)) 0%nat) by now rewrite map_length, seq_length.
  rewrite (map_nth (fun i => map (fun j => getq l (i * c + j)) (seq 0 c))). now rewrite map_length, seq_length.
Qed.
Lemma chunk_get r c l i j : (i < r)%nat -> (j < c)%nat -> get2 (chunk r c l) i j = getq l (i * c + j).
Proof.
  intros Hi Hj. unfold get2, chunk.
  rewrite nth_indep with (d' := (fun i => map (fun j => getq l (i * c + j)) (seq 0 c)) 0%nat) by now rewrite map_length, seq_length.
  rewrite (map_nth (fun i => map (fun j => getq l (i * c + j)) (seq 0 c))), seq_nth by exact Hi. cbn [Nat.add].
  apply (getq_map_seq (fun j => getq l (i * c + j))). exact Hj.
Qed.
Lemma at2_lt r n1 i j : (i < r)%nat -> (j < S n1)%nat -> (at2 n1 i j < r * S n1)%nat.
Proof. unfold at2. intros. nia. Qed.
Lemma at2_inj n1 i j i' j' : (j < S n1)%nat -> (j' < S n1)%nat -> at2 n1 i j = at2 n1 i' j' -> i = i' /\ j = j'.
Proof. unfold at2. intros. assert (i = i') by nia. subst. split; [reflexivity|lia]. Qed.
Lemma chunk_upd r n1 l i j v : length l = (r * S n1)%nat -> (i < r)%nat -> (j < S n1)%nat ->
  chunk r (S n1) (upd l (at2 n1 i j) v) = upd2 (chunk r (S n1) l) i j v.
Proof.
  intros Ll Hi Hj. apply (arr2_ext r (S n1)); [apply chunk_shape|apply shape2_upd2, chunk_shape|].
  intros a b Ha Hb. rewrite chunk_get by assumption. change (a * S n1 + b)%nat with (at2 n1 a b).
  destruct (Nat.eq_dec (at2 n1 i j) (at2 n1 a b)) as [E|E].
  - apply at2_inj in E; auto. destruct E; subst a b.
    rewrite (get2_upd2_same r (S n1)) by (auto using chunk_shape). apply getq_upd_same. rewrite Ll. now apply at2_lt.
  - rewrite getq_upd_other by exact E. rewrite get2_upd2_other by (intros [= -> ->]; now apply E).
    now rewrite chunk_get.
Qed.

Definition seen2 (n0 n1 : nat) (d o : hrow) (D X : arr2) : arr2 :=
  map (fun i => map (fun j => if shared d o (at2 n1 i j) then get2 X i j else get2 D i j) (seq 0 (S n1))) (seq 0 (S n0)).
Lemma seen2_get n0 n1 d o D X i j : (i <= n0)%nat -> (j <= n1)%nat ->
  get2 (seen2 n0 n1 d o D X) i j = if shared d o (at2 n1 i j) then get2 X i j else get2 D i j.
Proof.
  intros Hi Hj. unfold get2 at 1, seen2.
  set (f := fun i => map (fun j => if shared d o (at2 n1 i j) then get2 X i j else get2 D i j) (seq 0 (S n1))).
  rewrite nth_indep with (d' := f 0%nat) by (rewrite map_length, seq_length; lia).
  rewrite (map_nth f), seq_nth by lia. cbn [Nat.add].
  apply (getq_map_seq (fun j => if shared d o (at2 n1 i j) then get2 X i j else get2 D i j)). lia.
Qed.
Lemma seen2_shape n0 n1 d o D X : shape2 (S n0) (S n1) (seen2 n0 n1 d o D X).
Proof.
  unfold seen2. set (f := fun i => map (fun j => if shared d o (at2 n1 i j) then get2 X i j else get2 D i j) (seq 0 (S n1))).
  split; [now rewrite map_length, seq_length|]. intros i Hi.
  rewrite nth_indep with (d' := f 0%nat) by now rewrite map_length, seq_length.
  rewrite (map_nth f). unfold f. now rewrite map_length, seq_length.
Qed.
Lemma chunk_seen n0 n1 d o D O : length d = (S n0 * S n1)%nat ->
  chunk (S n0) (S n1) (seen d o D O) = seen2 n0 n1 d o (chunk (S n0) (S n1) D) (chunk (S n0) (S n1) O).
Proof.
  intros Ld. apply (arr2_ext (S n0) (S n1)); [apply chunk_shape|apply seen2_shape|].
  intros i j Hi Hj. rewrite chunk_get, seen2_get by lia. change (i * S n1 + j)%nat with (at2 n1 i j).
  rewrite seen_get by (rewrite Ld; now apply at2_lt). rewrite !chunk_get by lia. reflexivity.
Qed.

Lemma hpush2_refines nmax n0 n1 : (1 <= n0)%nat -> (1 <= n1)%nat ->
  push_refines (hpush2 nmax n0 n1) (chunk (S n0) (S n1)) (fpush2 nmax) (S n0 * S n1).
Proof.
  intros Hn0 Hn1 scale d o m Ld Lo No Mo Al.
  assert (Hl : length d = length o) by congruence.
  pose proof (at_start m d o) as V0.
  set (ch := chunk (S n0) (S n1)).
  assert (Sh : forall l, wf2 n0 n1 (ch l)) by (intros l; apply chunk_shape).
  assert (Get : forall l i j, (i <= n0)%nat -> (j <= n1)%nat -> get2 (ch l) i j = getq l (at2 n1 i j))
    by (intros; unfold ch; rewrite chunk_get by lia; reflexivity).
  assert (Lt : forall i j, (i <= n0)%nat -> (j <= n1)%nat -> (at2 n1 i j < length o)%nat)
    by (intros; rewrite Lo; apply at2_lt; lia).
  assert (Upd : forall l i j v, length l = length o -> (i <= n0)%nat -> (j <= n1)%nat ->
     ch (upd l (at2 n1 i j) v) = upd2 (ch l) i j v) by (intros; apply chunk_upd; lia).
  set (w := match scale with None => get2 (ch (hval m d)) 0 0 | Some s => get2 (ch (hval m d)) 0 0 * s end).
  assert (F : fpush2 nmax scale (ch (hval m d)) (ch (hval m o)) =
    if qeqb w 0 then Some (ch (hval m o))
    else
    let out := upd2 (ch (hval m o)) 0 0 (get2 (ch (hval m o)) 0 0 + w) in
    if qeqb (get2 out 0 0) 0 then None
    else
      let alpha := w / get2 out 0 0 in
      let one_alpha := 1 - alpha in
      let delta0 := get2 (ch (hval m d)) 1 0 - get2 out 1 0 in
      let delta1 := get2 (ch (hval m d)) 0 1 - get2 out 0 1 in
      let incr0 := delta0 * alpha in
      let incr1 := delta1 * alpha in
      let out := upd2 out 1 0 (get2 out 1 0 + incr0) in
      let out := upd2 out 0 1 (get2 out 0 1 + incr1) in
      Some (nest_desc n0 n1
              (fun o a0 a1 => cdata_entry nmax (ch (hval m d)) o alpha one_alpha delta0 delta1 a0 a1) out)).
  { unfold fpush2, w, cpush_data, cpush_data_scale. 
    rewrite (ncol_wf2 n0 n1 _ (Sh (hval m o))), (proj1 (Sh (hval m o))).
    replace (S n0 - 1)%nat with n0 by lia. replace (S n1 - 1)%nat with n1 by lia. destruct scale; reflexivity. }
  rewrite F. clear F. unfold hpush2.
  replace (match scale with None => hget m d (at2 n1 0 0) | Some s => hget m d (at2 n1 0 0) * s end) with w
    by (unfold w; rewrite Get by lia; destruct scale; now rewrite hget_val).
  destruct (qeqb w 0) eqn:Ew; [split; [reflexivity|split; [auto|split; reflexivity]]|].
  rewrite (hget_val m o). set (O := hval m o) in *.
  assert (LO : length O = length o) by apply hval_length.
  rewrite (Get O 0%nat 0%nat) by lia. rewrite <- Upd by (auto; lia).
  set (O1 := upd O (at2 n1 0 0) (getq O (at2 n1 0 0) + w)).
  assert (V1 : at_values m d o (hset m o (at2 n1 0 0) (getq O (at2 n1 0 0) + w)) O1) by (apply (at_set m d o); auto; apply Lt; lia).
  set (m1 := hset m o _ _) in *. clearbody m1.
  rewrite (hget_val m1 o), (proj1 V1). cbv zeta. rewrite (Get O1 0%nat 0%nat) by lia.
  destruct (qeqb (getq O1 (at2 n1 0 0)) 0) eqn:E1.
  { destruct V1 as (Vo & Vd & Lm & Out). split; [exact Lm|split; [exact Out|split; [reflexivity|]]].
    rewrite Vo. apply qeqb_eq in E1. unfold O1 in *. rewrite getq_upd_same in E1 by (rewrite LO; apply Lt; lia).
    rewrite E1. reflexivity. }
  set (alpha := w / getq O1 (at2 n1 0 0)).
  assert (L1 : length O1 = length o) by (apply (at_length m d o m1); exact V1).
  assert (Ne10 : at2 n1 0 0 <> at2 n1 1 0) by (unfold at2; lia).
  assert (Ne01 : at2 n1 0 0 <> at2 n1 0 1) by (unfold at2; lia).
  assert (Ne11 : at2 n1 1 0 <> at2 n1 0 1) by (unfold at2; lia).
  assert (Ed : forall i j, (i <= n0)%nat -> (j <= n1)%nat -> at2 n1 0 0 <> at2 n1 i j ->
     hget m1 d (at2 n1 i j) = get2 (ch (hval m d)) i j).
  { intros i j Hi Hj N. rewrite hget_val, (proj1 (proj2 V1)), Get by assumption.
    apply seen_old; [rewrite Hl; now apply Lt|]. apply getq_upd_other. exact N. }
  rewrite !Ed by (auto; lia). rewrite !(hget_val m1 o), (proj1 V1), !(Get O1) by lia.
  set (delta0 := get2 (ch (hval m d)) 1 0 - getq O1 (at2 n1 1 0)).
  set (delta1 := get2 (ch (hval m d)) 0 1 - getq O1 (at2 n1 0 1)).
  rewrite <- Upd by (auto; lia).
  set (O2 := upd O1 (at2 n1 1 0) (getq O1 (at2 n1 1 0) + delta0 * alpha)).
  assert (V2 : at_values m d o (hset m1 o (at2 n1 1 0) (getq O1 (at2 n1 1 0) + delta0 * alpha)) O2)
    by (apply (at_set m d o); auto; apply Lt; lia).
  set (m2 := hset m1 o _ _) in *. clearbody m2.
  assert (L2 : length O2 = length o) by (apply (at_length m d o m2); exact V2).
  rewrite (hget_val m2 o), (proj1 V2), (Get O2) by lia. rewrite <- Upd by (auto; lia).
  set (O3 := upd O2 (at2 n1 0 1) (getq O2 (at2 n1 0 1) + delta1 * alpha)).
  assert (V3 : at_values m d o (hset m2 o (at2 n1 0 1) (getq O2 (at2 n1 0 1) + delta1 * alpha)) O3)
    by (apply (at_set m d o); auto; apply Lt; lia).
  set (m3 := hset m2 o _ _) in *. clearbody m3.
  assert (L3 : length O3 = length o) by (apply (at_length m d o m3); exact V3).
  (* the nested loop *)
  pose (G := fun D' O' p => cdata_entry nmax (ch D') (ch O') alpha (1 - alpha) delta0 delta1 (fst p) (snd p)).
  pose (ix := fun p : nat * nat => at2 n1 (fst p) (snd p)).
  assert (Flat : fold_left (fun m a0 => fold_left (fun m a1 =>
           hset m o (at2 n1 a0 a1) (cdata_entry nmax (ch (hval m d)) (ch (hval m o)) alpha (1 - alpha) delta0 delta1 a0 a1))
           (down (Nat.max 0 (2 - a0)) n1) m) (down (Nat.max 0 (2 - n1)) n0) m3
     = fold_left (fun m p => hset m o (ix p) (G (hval m d) (hval m o) p)) (pairs_desc n0 n1) m3).
  { unfold pairs_desc. generalize (down (Nat.max 0 (2 - n1)) n0) as l0. intros l0. generalize m3.
    induction l0 as [|a0 l0 IH]; intros mm; [reflexivity|].
    cbn [fold_left flat_map]. rewrite fold_left_app, IH. f_equal.
    generalize (down (Nat.max 0 (2 - a0)) n1) as l1. intros l1. revert mm.
    induction l1 as [|a1 l1 IH1]; intros mm; [reflexivity|]. cbn [fold_left map]. apply IH1. }
  unfold ch in Flat. rewrite !Flat. fold ch in Flat.
  assert (Bd : forall p, In p (pairs_desc n0 n1) -> (fst p <= n0 /\ snd p <= n1)%nat).
  { intros [i j] Hp. apply in_pairs_desc in Hp. cbn. lia. }
  assert (V4 : at_values m d o (fold_left (fun m p => hset m o (ix p) (G (hval m d) (hval m o) p)) (pairs_desc n0 n1) m3)
     (fold_left (fun O p => upd O (ix p) (G (seen d o (hval m d) O) O p)) (pairs_desc n0 n1) O3)).
  { apply (at_loop m d o Hl No Mo Al ix G); auto. apply Forall_forall. intros p Hp. destruct (Bd p Hp). now apply Lt. }
  destruct V4 as (Vo & Vd & Lm & Out). split; [exact Lm|split; [exact Out|split; [reflexivity|]]].
  rewrite Vo. clear Vo Vd Lm Out Flat.
  pose (g := fun X a0 a1 => cdata_entry nmax (seen2 n0 n1 d o (ch (hval m d)) X) X alpha (1 - alpha) delta0 delta1 a0 a1).
  assert (Fold : forall l O', length O' = length o -> (forall p, In p l -> (fst p <= n0 /\ snd p <= n1)%nat) ->
     ch (fold_left (fun O p => upd O (ix p) (G (seen d o (hval m d) O) O p)) l O')
     = fold_left (fun X p => upd2 X (fst p) (snd p) (g X (fst p) (snd p))) l (ch O')).
  { induction l as [|p l IH]; intros O' LO' B; [reflexivity|]. cbn [fold_left].
    destruct (B p (or_introl eq_refl)) as [B0 B1].
    rewrite IH; [|rewrite upd_length; exact LO'|intros q Hq; apply B; now right].
    unfold ix at 1. rewrite Upd by assumption. unfold G, g, ch. rewrite chunk_seen by exact Ld. reflexivity. }
  rewrite Fold by assumption. rewrite <- nest_desc_flat.
  assert (Loc : forall X Y a0 a1,
     (forall c0 c1, (c0 <= a0)%nat -> (c1 <= a1)%nat -> (2 <= c0 + c1)%nat -> get2 X c0 c1 = get2 Y c0 c1) ->
     g X a0 a1 = g Y a0 a1).
  { intros X Y a0 a1 E. unfold g. apply cdata_entry_ext. intros c0 c1 H0 H1 H2. split; [now apply E|].
    destruct (Nat.le_gt_cases c0 n0), (Nat.le_gt_cases c1 n1).
    - rewrite !seen2_get by assumption. destruct (shared d o (at2 n1 c0 c1)); [now apply E|reflexivity].
    - unfold get2. unfold getq. rewrite !(nth_overflow (nth c0 _ _)); [reflexivity| |].
      all: rewrite (proj2 (seen2_shape n0 n1 d o _ _)); lia.
    - unfold get2. rewrite !(nth_overflow (seen2 _ _ _ _ _ _)); [reflexivity| |].
      all: rewrite (proj1 (seen2_shape n0 n1 d o _ _)); lia.
    - unfold get2. rewrite !(nth_overflow (seen2 _ _ _ _ _ _)); [reflexivity| |].
      all: rewrite (proj1 (seen2_shape n0 n1 d o _ _)); lia. }
  destruct (nest_desc_get n0 n1 g (ch O3) Loc (Sh O3)) as [W1 G1].
  destruct (nest_desc_get n0 n1
     (fun o a0 a1 => cdata_entry nmax (ch (hval m d)) o alpha (1 - alpha) delta0 delta1 a0 a1) (ch O3)) as [W2 G2].
  { intros X Y a0 a1 E. apply cdata_entry_ext. intros. split; [now apply E|reflexivity]. }
  { apply Sh. }
  apply (arr2_ext (S n0) (S n1)); auto. intros i j Hi Hj. rewrite G1, G2 by lia.
  destruct (Nat.leb_spec 2 (i + j)); [|reflexivity]. unfold g. apply cdata_entry_ext.
  intros c0 c1 H0 H1 H2. split; [reflexivity|]. rewrite seen2_get by lia.
  destruct (shared d o (at2 n1 c0 c1)) eqn:S; [|reflexivity].
  rewrite !Get by lia.
  assert (Far : forall i j, (i + j < 2)%nat -> (j <= n1)%nat -> at2 n1 i j <> at2 n1 c0 c1).
  { intros x y Hxy Hy E. apply at2_inj in E; lia. }
  unfold O3. rewrite getq_upd_other by (apply Far; lia). unfold O2. rewrite getq_upd_other by (apply Far; lia).
  unfold O1. rewrite getq_upd_other by (apply Far; lia). unfold O. rewrite <- !hget_val. unfold hget. unfold shared in S.
  destruct (nth_error d (at2 n1 c0 c1)), (nth_error o (at2 n1 c0 c1)); try discriminate. apply Nat.eqb_eq in S. now subst.
Qed.
