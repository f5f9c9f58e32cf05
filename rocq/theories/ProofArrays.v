(* Proofs about arrays: offsets, views by named axes, the reduction of an array. *)
From Coq Require Import Permutation Sorted.
From Verif Require Import Base BaseLemmas ModelKernels ModelIndex ModelAxes SpecAxes ProofIndex ProofLabels ProofAxes.

(* ---- offsets -------------------------------------------------------------------- *)

Definition valid (s idx : list nat) : Prop := Forall2 (fun n i => i < n) s idx.

Lemma size_app s1 s2 : size (s1 ++ s2) = size s1 * size s2.
Proof. induction s1 as [|n t IH]; cbn; [lia|]. rewrite IH. lia. Qed.
Lemma ravel_app s1 i1 s2 i2 : length s1 = length i1 ->
  ravel (s1 ++ s2) (i1 ++ i2) = ravel s1 i1 * size s2 + ravel s2 i2.
Proof.
  revert i1. induction s1 as [|n t IH]; intros [|i i1] H; cbn in *; try discriminate; [reflexivity|].
  rewrite IH by lia. rewrite size_app. lia.
Qed.
Lemma ravel_lt s idx : valid s idx -> ravel s idx < size s.
Proof. induction 1 as [|n i t r H HF IH]; cbn; [lia|]. nia. Qed.
Lemma all_idx_valid s idx : In idx (all_idx s) <-> valid s idx.
Proof.
  revert idx. induction s as [|n t IH]; intros idx; cbn [all_idx].
  - split; [intros [<-|[]]; constructor|]. intros H. inversion H. now left.
  - rewrite in_flat_map. split.
    + intros (i & Hi & H). apply in_map_iff in H. destruct H as (r & <- & Hr). apply in_seq in Hi. apply IH in Hr.
      constructor; [lia|exact Hr].
    + intros H. inversion H as [|? i ? r Hi Hr]; subst. exists i. split; [apply in_seq; lia|].
      apply in_map. now apply IH.
Qed.
Lemma seq_shift_add k a n : map (fun i => k + i) (seq a n) = seq (k + a) n.
Proof. revert a. induction n as [|n IH]; intros a; cbn; [reflexivity|]. rewrite IH. repeat f_equal. lia. Qed.
Lemma flat_map_seq_blocks m n : forall a, flat_map (fun i => seq (i * m) m) (seq a n) = seq (a * m) (n * m).
Proof.
  induction n as [|n IH]; intros a; cbn [seq flat_map]; [reflexivity|]. rewrite IH. cbn [Nat.mul].
  rewrite seq_app. f_equal. f_equal. lia.
Qed.
Lemma ravel_all_idx s : map (ravel s) (all_idx s) = seq 0 (size s).
Proof.
  induction s as [|n t IH]; [reflexivity|]. cbn [all_idx size].
  change 0 with (0 * size t) at 2. rewrite <- (flat_map_seq_blocks (size t) n 0). rewrite flat_map_concat_map, concat_map, map_map, flat_map_concat_map.
  f_equal. apply map_ext. intros i. rewrite map_map. cbn [ravel].
  transitivity (seq (i * size t + 0) (size t)); [|now rewrite Nat.add_0_r].
  rewrite <- seq_shift_add, <- IH, map_map. reflexivity.
Qed.
Lemma all_idx_length s : length (all_idx s) = size s.
Proof. rewrite <- (map_length (ravel s)), ravel_all_idx. apply seq_length. Qed.
Lemma all_idx_nth_ravel s k d : k < size s -> ravel s (nth k (all_idx s) d) = k.
Proof.
  intros H. rewrite <- (map_nth (ravel s)). rewrite ravel_all_idx.
  rewrite (nth_indep _ _ 0) by (now rewrite seq_length). now rewrite seq_nth.
Qed.
Lemma ravel_inj s i j : valid s i -> valid s j -> ravel s i = ravel s j -> i = j.
Proof.
  intros H. revert j. induction H as [|n a t r Ha Hr IH]; intros j Hj E; inversion Hj as [|? b ? q Hb Hq]; subst; [reflexivity|].
  cbn in E. pose proof (ravel_lt _ _ Hr). pose proof (ravel_lt _ _ Hq).
  assert (a = b) by nia. subst b. f_equal. apply IH; [exact Hq|lia].
Qed.
Lemma nth_all_idx s idx d : valid s idx -> nth (ravel s idx) (all_idx s) d = idx.
Proof.
  intros H. apply (ravel_inj s); [|exact H|].
  - apply all_idx_valid, nth_In. rewrite all_idx_length. now apply ravel_lt.
  - apply all_idx_nth_ravel. now apply ravel_lt.
Qed.
Lemma tget_tabulate s f idx : valid s idx -> tget (tabulate s f) idx = f idx.
Proof.
  intros H. unfold tget, tabulate; cbn [tshape tdata].
  rewrite (nth_indep _ _ (f [])) by (rewrite map_length, all_idx_length; now apply ravel_lt).
  rewrite map_nth. now rewrite nth_all_idx.
Qed.
Lemma tabulate_ok s f : tensor_ok (tabulate s f).
Proof. unfold tensor_ok, tabulate; cbn. now rewrite map_length, all_idx_length. Qed.
(* arrays with the same shape and entries are equal *)
Lemma tensor_ext t u : tensor_ok t -> tensor_ok u -> tshape t = tshape u ->
  (forall idx, valid (tshape t) idx -> tget t idx = tget u idx) -> t = u.
Proof.
  intros Ht Hu Es H. destruct t as [s l], u as [s' l']; cbn in *. subst s'. f_equal.
  unfold tensor_ok in *; cbn in *. apply (nth_ext _ _ 0%Qc 0%Qc); [congruence|]. intros k Hk.
  rewrite Ht in Hk. set (idx := nth k (all_idx s) []).
  assert (V : valid s idx) by (apply all_idx_valid, nth_In; now rewrite all_idx_length).
  specialize (H idx V). unfold tget in H; cbn in H. unfold idx in H. now rewrite all_idx_nth_ravel in H.
Qed.

(* ---- views ------------------------------------------------------------------------ *)

(* t has the axes ax of lengths sh and entry f env at indices env *)
Definition view (t : tensor) (ax : list nat) (sh : nat -> nat) (f : (nat -> nat) -> Qc) : Prop :=
  tensor_ok t /\ tshape t = map sh ax /\ forall env, inside sh ax env -> tget t (map env ax) = f env.

Lemma map_nth_seq {T} (l : list T) d n : n = length l -> map (fun a => nth a l d) (seq 0 n) = l.
Proof.
  intros ->. induction l as [|x t IH]; [reflexivity|]. cbn. f_equal. rewrite <- seq_shift, map_map. exact IH.
Qed.
Lemma view_self t : tensor_ok t -> view t (seq 0 (tndim t)) (shape_of t) (entry t).
Proof.
  intros H. split; [exact H|]. split; [|reflexivity]. unfold shape_of. symmetry. now apply map_nth_seq.
Qed.
Lemma inside_valid sh ax env : inside sh ax env -> valid (map sh ax) (map env ax).
Proof.
  intros H. induction ax as [|a t IH]; [constructor|]. cbn. constructor; [apply H; now left|].
  apply IH. intros b Hb. apply H. now right.
Qed.
Lemma valid_inside sh ax idx : NoDup ax -> valid (map sh ax) idx -> exists env, inside sh ax env /\ map env ax = idx.
Proof.
  intros N. revert idx. induction N as [|a t Ha Ht IH]; intros idx H; cbn in H; inversion H as [|? i ? r Hi Hr]; subst.
  - exists (fun _ => 0). split; [intros b []|reflexivity].
  - destruct (IH r Hr) as (env & I & E). exists (fun b => if Nat.eq_dec b a then i else env b). split.
    + intros b [<-|Hb]; [destruct (Nat.eq_dec a a); [exact Hi|congruence]|].
      destruct (Nat.eq_dec b a); [subst; tauto|]. now apply I.
    + cbn. destruct (Nat.eq_dec a a); [|congruence]. f_equal. rewrite <- E. apply map_ext_in.
      intros b Hb. destruct (Nat.eq_dec b a); [subst; tauto|reflexivity].
Qed.
Lemma index_of_lt a l : In a l -> index_of a l < length l /\ nth (index_of a l) l 0 = a.
Proof.
  intros H. unfold index_of. destruct (position_in Nat.eqb Nat.eqb_eq a l H) as [H1 H2]. split; [exact H1|].
  now apply nth_error_nth.
Qed.
Lemma index_of_nth l k : NoDup l -> k < length l -> index_of (nth k l 0) l = k.
Proof.
  intros N H. unfold index_of. apply (position_nth Nat.eqb Nat.eqb_eq); [exact N|]. now apply nth_error_nth'.
Qed.
Lemma perm_range order n : Permutation order (seq 0 n) -> NoDup order /\ length order = n /\ forall a, In a order <-> a < n.
Proof.
  intros P. split; [|split].
  - eapply Permutation_NoDup; [symmetry; exact P|apply seq_NoDup].
  - rewrite (Permutation_length P). apply seq_length.
  - intros a. split; intros H.
    + apply (Permutation_in _ P), in_seq in H. lia.
    + apply (Permutation_in _ (Permutation_sym P)), in_seq. lia.
Qed.
Lemma transpose_view t ax sh f order : view t ax sh f -> Permutation order (seq 0 (length ax)) ->
  view (ttranspose order t) (map (fun p => nth p ax 0) order) sh f.
Proof.
  intros (Ho & Hs & Hf) P. destruct (perm_range _ _ P) as (N & L & R).
  assert (Hn : tndim t = length ax) by (unfold tndim; now rewrite Hs, map_length).
  assert (S : map (fun a => nth a (tshape t) 0) order = map sh (map (fun p => nth p ax 0) order)).
  { rewrite map_map. apply map_ext_in. intros p Hp. apply R in Hp. rewrite Hs.
    rewrite (nth_indep _ 0 (sh 0)) by (now rewrite map_length). apply map_nth. }
  split; [apply tabulate_ok|]. split; [exact S|]. intros env I.
  unfold ttranspose. rewrite tget_tabulate by (rewrite S; now apply inside_valid).
  rewrite <- Hf.
  - f_equal. rewrite Hn. rewrite map_map. rewrite <- (map_nth_seq ax 0 (length ax)) at 2 by reflexivity. rewrite map_map.
    apply map_ext_in. intros a Ha. apply in_seq in Ha. assert (In a order) by (apply R; lia).
    destruct (index_of_lt a order H) as [H1 H2].
    rewrite (nth_indep _ 0 (env (nth 0 ax 0))) by (now rewrite map_length).
    rewrite (map_nth (fun p => env (nth p ax 0))). now rewrite H2.
  - intros a Ha. apply I. apply in_map_iff. apply In_nth with (d := 0) in Ha. destruct Ha as (k & Hk & E).
    exists k. split; [exact E|]. now apply R.
Qed.
Lemma merge_view t O R sh f : view t (O ++ R) sh f -> 
  let u := merge_last (length R) t in
  tshape u = map sh O ++ [size (map sh R)] /\
  forall env, inside sh (O ++ R) env -> tget u (map env O ++ [ravel (map sh R) (map env R)]) = f env.
Proof.
  intros (Ho & Hs & Hf). cbn zeta. unfold merge_last; cbn [tshape].
  assert (Hn : tndim t - length R = length (map sh O)) by (unfold tndim; rewrite Hs, map_length, app_length, map_length; lia).
  rewrite Hn, Hs, map_app. rewrite firstn_app, Nat.sub_diag, firstn_all, skipn_app, Nat.sub_diag, skipn_all. cbn [firstn skipn app].
  rewrite app_nil_r. split; [reflexivity|]. intros env I. rewrite <- Hf by exact I. unfold tget; cbn [tshape tdata].
  f_equal. rewrite Hs, !map_app. rewrite !ravel_app by (now rewrite !map_length). cbn. lia.
Qed.

Lemma filter_count P n : forall a p, a <= p -> p < a + n -> P p = true ->
  nth (length (filter P (seq a (p - a)))) (filter P (seq a n)) 0 = p.
Proof.
  induction n as [|n IH]; intros a p H1 H2 HP; [lia|]. destruct (Nat.eq_dec a p) as [->|Ne].
  - rewrite Nat.sub_diag. cbn. now rewrite HP.
  - replace (p - a) with (S (p - S a)) by lia. cbn [seq filter]. destruct (P a); cbn; apply IH; try lia; exact HP.
Qed.
Lemma filter_count_lt P n : forall a p, a <= p -> p < a + n -> P p = true ->
  length (filter P (seq a (p - a))) < length (filter P (seq a n)).
Proof.
  induction n as [|n IH]; intros a p H1 H2 HP; [lia|]. destruct (Nat.eq_dec a p) as [->|Ne].
  - rewrite Nat.sub_diag. cbn. rewrite HP. cbn. lia.
  - replace (p - a) with (S (p - S a)) by lia. cbn [seq filter].
    destruct (P a); cbn; [apply -> Nat.succ_lt_mono|]; apply IH; try lia; exact HP.
Qed.
Lemma nth_map_in {A B} (f : A -> B) l k d d' : k < length l -> nth k (map f l) d = f (nth k l d').
Proof. intros H. rewrite (nth_indep _ d (f d')) by (now rewrite map_length). apply map_nth. Qed.

Lemma NoDup_map_in {A B} (f : A -> B) l : NoDup l -> (forall x y, In x l -> In y l -> f x = f y -> x = y) -> NoDup (map f l).
Proof.
  induction 1 as [|x t Hx Ht IH]; intros H; [constructor|]. cbn. constructor.
  - intros C. apply in_map_iff in C. destruct C as (y & E & Hy). apply Hx.
    rewrite (H x y); [exact Hy|now left|now right|now symmetry].
  - apply IH. intros a b Ha Hb. apply H; now right.
Qed.
(* indices of an array built from outer and moment indices *)
Lemma bind_in M m env a : NoDup M -> length m = length M -> In a M -> bind M m env a = nth (index_of a M) m 0.
Proof.
  unfold bind, index_of. intros N. revert m. induction N as [|b t Hb Ht IH]; intros m L H; [destruct H|].
  destruct m as [|i m]; [discriminate|]. cbn. rewrite (Nat.eqb_sym a b). destruct (Nat.eqb b a) eqn:E; [reflexivity|].
  destruct H as [->|H]; [rewrite Nat.eqb_refl in E; discriminate|]. apply IH; [cbn in L; lia|exact H].
Qed.
Lemma bind_out M m env a : ~ In a M -> bind M m env a = env a.
Proof.
  unfold bind. intros H. destruct (find _ _) as [p|] eqn:E; [|reflexivity].
  apply find_some in E. destruct E as [E1 E2]. apply Nat.eqb_eq in E2. destruct p as [x y]. cbn in *. subst.
  apply in_combine_l in E1. tauto.
Qed.
Lemma map_bind M m env : NoDup M -> length m = length M -> map (bind M m env) M = m.
Proof.
  intros N L. rewrite <- (map_nth_seq m 0 (length M)) at 2 by lia. rewrite <- (map_nth_seq M 0 (length M)) at 2 by lia. rewrite map_map.
  apply map_ext_in. intros k Hk. apply in_seq in Hk. rewrite bind_in; [|exact N|exact L|apply nth_In; lia].
  now rewrite index_of_nth by (assumption || lia).
Qed.
Lemma place_named O M mom n env m :
  n = length O -> NoDup O -> NoDup M -> incl M O -> mom = map (fun a => index_of a O) M -> length m = length M ->
  place n mom (map env (map (fun p => nth p O 0) (outer_axes n mom))) m = map (bind M m env) O.
Proof.
  intros Hn NO NM I Hm Lm. unfold place.
  transitivity (map (bind M m env) (map (fun p => nth p O 0) (seq 0 n))); [|now rewrite map_nth_seq].
  rewrite (map_map (fun p => nth p O 0) (bind M m env)).
  apply map_ext_in. intros p Hp. apply in_seq in Hp.
  assert (NMm : NoDup mom).
  { subst mom. apply NoDup_map_in; [exact NM|]. intros x y Hx Hy E.
    apply I in Hx, Hy. destruct (index_of_lt x O Hx) as [_ E1], (index_of_lt y O Hy) as [_ E2]. congruence. }
  assert (HI : In p mom <-> In (nth p O 0) M).
  { subst mom. rewrite in_map_iff. split.
    - intros (a & E & Ha). destruct (index_of_lt a O (I a Ha)) as [_ E2]. rewrite E in E2. now rewrite E2.
    - intros H. exists (nth p O 0). split; [|exact H]. apply index_of_nth; [exact NO|lia]. }
  rewrite nat_mem_dec. destruct (in_dec Nat.eq_dec p mom) as [C|C].
  - rewrite bind_in; [|exact NM|exact Lm|now apply HI]. f_equal.
    apply HI in C. set (a := nth p O 0) in *. destruct (index_of_lt a M C) as [H1 H2].
    assert (E : nth (index_of a M) mom 0 = p).
    { subst mom. rewrite (nth_map_in _ _ _ _ 0) by exact H1. rewrite H2. unfold a. apply index_of_nth; [exact NO|lia]. }
    rewrite <- E at 1. apply index_of_nth; [exact NMm|]. subst mom. now rewrite map_length.
  - rewrite bind_out by tauto. rewrite map_map. unfold outer_axes.
    set (Pf := fun q => negb (nat_mem q mom)).
    assert (HP : Pf p = true) by (unfold Pf; rewrite nat_mem_dec; destruct (in_dec Nat.eq_dec p mom); tauto).
    pose proof (filter_count_lt Pf n 0 p ltac:(lia) ltac:(lia) HP) as H1.
    pose proof (filter_count Pf n 0 p ltac:(lia) ltac:(lia) HP) as H2. rewrite Nat.sub_0_r in H1, H2.
    rewrite (nth_map_in _ _ _ _ 0) by exact H1. now rewrite H2.
Qed.
Lemma outer_names O M n mom : n = length O -> NoDup O -> incl M O -> mom = map (fun a => index_of a O) M ->
  map (fun p => nth p O 0) (outer_axes n mom) = except_nat O M.
Proof.
  intros Hn NO I Hm. unfold outer_axes. rewrite except_filter.
  assert (G : forall l, (forall p, In p l -> p < n) -> map (fun p => nth p O 0) (except_nat l mom) = except_nat (map (fun p => nth p O 0) l) M).
  { induction l as [|p t IH]; intros H; [reflexivity|]. cbn.
    assert (Hp : p < n) by (apply H; now left).
    assert (HI : In p mom <-> In (nth p O 0) M).
    { subst mom. rewrite in_map_iff. split.
      - intros (a & E & Ha). destruct (index_of_lt a O (I a Ha)) as [_ E2]. rewrite E in E2. now rewrite E2.
      - intros C. exists (nth p O 0). split; [|exact C]. apply index_of_nth; [exact NO|lia]. }
    specialize (IH (fun q Hq => H q (or_intror Hq))).
    destruct (in_dec Nat.eq_dec p mom), (in_dec Nat.eq_dec (nth p O 0) M); try tauto. cbn. now f_equal. }
  rewrite G by (intros p Hp; apply in_seq in Hp; lia). now rewrite (map_nth_seq O 0 n).
Qed.

(* ---- the reduction kernel over an array ----------------------------------------------- *)

(* pack reads only indices inside the moment shape *)
Definition packer_ok {A} (P : packer A) : Prop :=
  (forall f g, (forall m, valid (pk_shape P) m -> f m = g m) -> pk_pack P f = pk_pack P g) /\
  Forall (fun n => 0 < n) (pk_shape P).
Lemma packer1_ok n : packer_ok (packer1 n).
Proof.
  split; [|constructor; [lia|constructor]]. intros f g H. cbn [packer1 pk_pack]. apply map_ext_in. intros i Hi.
  apply in_seq in Hi. apply H. constructor; [lia|constructor].
Qed.
Lemma packer2_ok n0 n1 : packer_ok (packer2 n0 n1).
Proof.
  split; [|constructor; [lia|constructor; [lia|constructor]]]. intros f g H. cbn [packer2 pk_pack]. apply map_ext_in. intros i Hi.
  apply map_ext_in. intros j Hj. apply in_seq in Hi, Hj. apply H. constructor; [lia|constructor; [lia|constructor]].
Qed.
Lemma valid_length s idx : valid s idx -> length idx = length s.
Proof. intros H. induction H; cbn; congruence. Qed.
Lemma valid_nth_index sh l x k : NoDup l -> valid (map sh l) k -> In x l -> nth (index_of x l) k 0 < sh x.
Proof.
  intros N H Hx. pose proof (valid_length _ _ H) as L. rewrite map_length in L.
  rewrite <- (map_bind l k (fun _ => 0) N L) in H. rewrite <- (bind_in l k (fun _ => 0) x N L Hx).
  generalize dependent (bind l k (fun _ => 0)). intros g H. clear L N.
  induction l as [|z l IH]; [destruct Hx|]. cbn in H. inversion H; subst. destruct Hx as [->|Hx]; [assumption|]. now apply IH.
Qed.
Lemma mapM_none_ex {A B} (f : A -> option B) l : mapM f l = None -> exists a, In a l /\ f a = None.
Proof.
  induction l as [|a t IH]; cbn; [discriminate|]. destruct (f a) as [b|] eqn:E; [|intros _; exists a; auto].
  destruct (mapM f t); cbn; [discriminate|]. intros _. destruct (IH eq_refl) as (x & Hx & Ex). eauto.
Qed.
Lemma mapM_nth_some {A B} (f : A -> option B) l rows da db k : mapM f l = Some rows -> k < length l ->
  f (nth k l da) = Some (nth k rows db).
Proof.
  revert rows k. induction l as [|a t IH]; intros rows k E Hk; [cbn in Hk; lia|]. cbn in E.
  destruct (f a) as [b|] eqn:Ea; [|discriminate]. destruct (mapM f t) as [r|] eqn:Et; [|discriminate].
  injection E as <-. destruct k as [|k]; [exact Ea|]. cbn. apply IH; [reflexivity|cbn in Hk; lia].
Qed.

Section Kernel.
  Context {A V : Type} (K : pusher A V) (P : packer A) (HP : packer_ok P).
  Context (O R M : list nat) (sh : nat -> nat) (f : (nat -> nat) -> Qc) (u : tensor).
  Hypothesis NO : NoDup O.
  Hypothesis NR : NoDup R.
  Hypothesis NM : NoDup M.
  Hypothesis IM : incl M O.
  Hypothesis DR : forall a, In a O -> ~ In a R.
  Hypothesis SM : map sh M = pk_shape P.
  Hypothesis Su : tshape u = map sh O ++ [size (map sh R)].
  Hypothesis Fu : forall env, inside sh (O ++ R) env ->
    tget u (map env O ++ [ravel (map sh R) (map env R)]) = f env.
  Let mom := map (fun a => index_of a O) M.
  Let n := length O.

  Definition cell env := reduce_data K (map (fun r => pk_pack P (fun m => f (bind M m (bind R r env)))) (all_idx (map sh R))).
  Definition row outer k := pk_pack P (fun midx => tget u (place n mom outer midx ++ [k])).
  Definition grow outer := reduce_data K (map (row outer) (seq 0 (size (map sh R)))).

  Lemma grow_cell env : inside sh O env -> grow (map env (except_nat O M)) = cell env.
  Proof.
    intros I. unfold grow, cell. f_equal. rewrite <- ravel_all_idx, map_map. apply map_ext_in. intros r Hr.
    apply all_idx_valid in Hr. pose proof (valid_length _ _ Hr) as Lr. rewrite map_length in Lr.
    apply (proj1 HP). intros m Hm. rewrite <- SM in Hm. pose proof (valid_length _ _ Hm) as Lm. rewrite map_length in Lm.
    rewrite <- (outer_names O M n mom eq_refl NO IM eq_refl).
    rewrite (place_named O M mom n env m eq_refl NO NM IM eq_refl Lm).
    assert (E1 : map (bind M m env) O = map (bind M m (bind R r env)) O).
    { apply map_ext_in. intros a Ha. destruct (in_dec Nat.eq_dec a M) as [C|C].
      - now rewrite !bind_in by assumption.
      - rewrite !bind_out by exact C. rewrite bind_out; [reflexivity|]. now apply DR. }
    assert (E2 : map (bind M m (bind R r env)) R = r).
    { rewrite <- (map_bind R r env NR Lr) at 2. apply map_ext_in. intros a Ha. apply bind_out.
      intros C. apply (DR a); [now apply IM|exact Ha]. }
    rewrite E1. rewrite <- E2 at 2. apply Fu. intros a Ha. apply in_app_or in Ha.
    destruct (in_dec Nat.eq_dec a M) as [C|C].
    - rewrite bind_in by assumption. now apply valid_nth_index.
    - rewrite bind_out by exact C. destruct (in_dec Nat.eq_dec a R) as [D|D].
      + rewrite bind_in by assumption. now apply valid_nth_index.
      + rewrite bind_out by exact D. apply I. tauto.
  Qed.
  Lemma outer_env outer : valid (map sh (except_nat O M)) outer ->
    exists env, inside sh O env /\ map env (except_nat O M) = outer.
  Proof.
    intros H. destruct (valid_inside sh (except_nat O M) outer) as (env & I & E); [now apply NoDup_except|exact H|].
    exists (fun a => if in_dec Nat.eq_dec a M then 0 else env a). split.
    - intros a Ha. destruct (in_dec Nat.eq_dec a M) as [C|C].
      + pose proof (proj2 HP) as Q. rewrite <- SM, Forall_map, Forall_forall in Q. now apply Q.
      + apply I. now apply except_In.
    - rewrite <- E. apply map_ext_in. intros a Ha. apply except_In in Ha. destruct (in_dec Nat.eq_dec a M); tauto.
  Qed.
  Lemma inside_except env : inside sh O env -> inside sh (except_nat O M) env.
  Proof. intros I a Ha. apply I. now apply except_In in Ha. Qed.

  Lemma gufunc_cells :
    match gufunc_reduce K P mom u with
    | Ok out => tensor_ok out /\ tshape out = map sh O /\ forall env, inside sh O env ->
        exists a, cell env = Some a /\ tget out (map env O) = pk_unpack P a (map env M)
    | Raise e => e = EZeroDiv /\ exists env, inside sh O env /\ cell env = None
    end.
  Proof.
    unfold gufunc_reduce.
    assert (Hn : tndim u - 1 = n) by (unfold tndim; rewrite Su, app_length, map_length; cbn; unfold n; lia).
    rewrite Hn.
    assert (Em : existsb (fun p => n <=? p)%nat mom = false).
    { apply Bool.not_true_is_false. intros C. apply existsb_exists in C. destruct C as (p & Hp & C). apply Nat.leb_le in C.
      unfold mom in Hp. apply in_map_iff in Hp. destruct Hp as (a & <- & Ha).
      destruct (index_of_lt a O (IM a Ha)) as [H1 _]. unfold n in C. lia. }
    rewrite Em.
    assert (Sz : nth n (tshape u) 0 = size (map sh R)).
    { rewrite Su, app_nth2 by (rewrite map_length; unfold n; lia). rewrite map_length. unfold n. now rewrite Nat.sub_diag. }
    rewrite Sz.
    assert (So : map (fun p => nth p (tshape u) 0) (outer_axes n mom) = map sh (except_nat O M)).
    { rewrite <- (outer_names O M n mom eq_refl NO IM eq_refl), map_map. apply map_ext_in. intros p Hp.
      unfold outer_axes in Hp. apply filter_In in Hp. destruct Hp as [Hp _]. apply in_seq in Hp.
      rewrite Su, app_nth1 by (rewrite map_length; unfold n in Hp; lia). apply nth_map_in. unfold n in Hp; lia. }
    rewrite So. change (fun outer => of_opt EZeroDiv (reduce_data K (map _ _))) with (fun outer => of_opt EZeroDiv (grow outer)).
    rewrite mapR_mapM. destruct (mapM grow (all_idx (map sh (except_nat O M)))) as [rows|] eqn:E; cbn [of_opt rbind].
    - assert (Sf : firstn n (tshape u) = map sh O).
      { rewrite Su, firstn_app, map_length. unfold n. rewrite Nat.sub_diag. cbn. rewrite app_nil_r.
        rewrite <- (map_length sh O) at 1. apply firstn_all. }
      rewrite Sf. split; [apply tabulate_ok|]. split; [reflexivity|]. intros env I.
      rewrite tget_tabulate by now apply inside_valid.
      assert (Eo : map (fun p => nth p (map env O) 0) (outer_axes n mom) = map env (except_nat O M)).
      { rewrite <- (outer_names O M n mom eq_refl NO IM eq_refl), map_map. apply map_ext_in. intros p Hp.
        unfold outer_axes in Hp. apply filter_In in Hp. destruct Hp as [Hp _]. apply in_seq in Hp.
        apply nth_map_in. unfold n in Hp; lia. }
      rewrite Eo.
      assert (Emm : map (fun p => nth p (map env O) 0) mom = map env M).
      { unfold mom. rewrite map_map. apply map_ext_in. intros a Ha. destruct (index_of_lt a O (IM a Ha)) as [H1 H2].
        rewrite (nth_map_in _ _ _ _ 0) by exact H1. now rewrite H2. }
      rewrite Emm.
      assert (Vo : valid (map sh (except_nat O M)) (map env (except_nat O M))) by now apply inside_valid, inside_except.
      pose proof (mapM_nth_some grow _ rows [] (p_zero K) _ E ltac:(rewrite all_idx_length; exact (ravel_lt _ _ Vo))) as G.
      rewrite nth_all_idx in G by exact Vo. rewrite grow_cell in G by exact I. eauto.
    - split; [reflexivity|]. apply mapM_none_ex in E. destruct E as (outer & Ho & Eg). apply all_idx_valid in Ho.
      destruct (outer_env outer Ho) as (env & I & <-). exists env. split; [exact I|]. now rewrite <- grow_cell.
  Qed.
End Kernel.

(* ---- the whole reduction ------------------------------------------------------------------ *)

Lemma view_sh t ax sh sh' f : (forall a, In a ax -> sh a = sh' a) -> view t ax sh f -> view t ax sh' f.
Proof.
  intros H (Ho & Hs & Hf). split; [exact Ho|]. split.
  - rewrite Hs. now apply map_ext_in.
  - intros env I. apply Hf. intros a Ha. rewrite H by exact Ha. now apply I.
Qed.
Lemma index_of_app a l1 l2 : In a l1 -> index_of a (l1 ++ l2) = index_of a l1.
Proof.
  unfold index_of. induction l1 as [|b t IH]; intros H; [destruct H|]. cbn. destruct (Nat.eqb a b) eqn:E; [reflexivity|].
  f_equal. apply IH. destruct H as [->|H]; [rewrite Nat.eqb_refl in E; discriminate|exact H].
Qed.
Lemma except_perm n R : NoDup R -> (forall a, In a R -> a < n) -> Permutation (except_nat (seq 0 n) R ++ R) (seq 0 n).
Proof.
  intros N H. apply NoDup_Permutation.
  - apply NoDup_app_; [apply NoDup_except, seq_NoDup|exact N|]. intros x Hx. now apply except_In in Hx.
  - apply seq_NoDup.
  - intros x. rewrite in_app_iff, except_In. split.
    + intros [[Hx _]|Hx]; [exact Hx|]. apply in_seq. specialize (H x Hx). lia.
    + intros Hx. destruct (in_dec Nat.eq_dec x R); auto.
Qed.
Lemma map_nth_seq_id l n : (forall a, In a l -> a < n) -> map (fun p => nth p (seq 0 n) 0) l = l.
Proof.
  intros H. rewrite <- (map_id l) at 2. apply map_ext_in. intros a Ha. rewrite seq_nth by now apply H. reflexivity.
Qed.
Lemma expand_shape_spec R sh : forall n pos,
  expand_shape n R pos (map sh (except_nat (seq pos n) R)) = map (fun a => if in_dec Nat.eq_dec a R then 1 else sh a) (seq pos n).
Proof.
  induction n as [|n IH]; intros pos; [reflexivity|]. cbn [seq expand_shape map]. rewrite nat_mem_dec.
  unfold except. cbn [filter]. destruct (in_dec Nat.eq_dec pos R) as [C|C]; cbn [map]; f_equal; apply IH.
Qed.
Lemma expand_ravel R sh env : forall n pos,
  inside (fun a => if in_dec Nat.eq_dec a R then 1 else sh a) (seq pos n) env ->
  ravel (map (fun a => if in_dec Nat.eq_dec a R then 1 else sh a) (seq pos n)) (map env (seq pos n)) =
  ravel (map sh (except_nat (seq pos n) R)) (map env (except_nat (seq pos n) R)) /\
  size (map (fun a => if in_dec Nat.eq_dec a R then 1 else sh a) (seq pos n)) = size (map sh (except_nat (seq pos n) R)).
Proof.
  induction n as [|n IH]; intros pos I; [split; reflexivity|]. cbn [seq map].
  destruct (IH (S pos)) as [E1 E2]; [intros a Ha; apply I; now right|].
  unfold except. cbn [filter]. fold (except_nat (seq (S pos) n) R). pose proof (I pos (or_introl eq_refl)) as H0. cbn beta in H0.
  destruct (in_dec Nat.eq_dec pos R) as [C|C]; cbn [map ravel size]; fold (except_nat (seq (S pos) n) R); rewrite E1, E2; split; auto; nia.
Qed.
Lemma expand_size R sh : forall n pos,
  size (map (fun a => if in_dec Nat.eq_dec a R then 1 else sh a) (seq pos n)) = size (map sh (except_nat (seq pos n) R)).
Proof.
  induction n as [|n IH]; intros pos; [reflexivity|]. cbn [seq map size]. rewrite IH.
  unfold except. cbn [filter]. destruct (in_dec Nat.eq_dec pos R) as [C|C]; cbn [map size]; fold (except_nat (seq (S pos) n) R); lia.
Qed.
Lemma expand_view t n R sh f : view t (except_nat (seq 0 n) R) sh f -> NoDup R -> (forall a, In a R -> a < n) ->
  view (expand_dims R t) (seq 0 n) (fun a => if in_dec Nat.eq_dec a R then 1 else sh a) f.
Proof.
  intros (Ho & Hs & Hf) N B.
  assert (Hn : tndim t + length R = n).
  { unfold tndim. rewrite Hs, map_length. rewrite except_length; [apply seq_length|apply seq_NoDup|exact N|].
    intros a Ha. apply in_seq. specialize (B a Ha). lia. }
  assert (Se : tshape (expand_dims R t) = map (fun a => if in_dec Nat.eq_dec a R then 1 else sh a) (seq 0 n)).
  { unfold expand_dims. cbn [tshape]. rewrite Hn, Hs. apply expand_shape_spec. }
  split; [|split; [exact Se|]].
  - unfold tensor_ok. rewrite Se. cbn [expand_dims tdata]. rewrite Ho, Hs. symmetry. apply expand_size.
  - intros env I. rewrite <- Hf.
    + unfold tget. rewrite Se, Hs. cbn [expand_dims tdata]. f_equal. now apply expand_ravel.
    + intros a Ha. apply except_In in Ha. specialize (I a (proj1 Ha)). cbn beta in I.
      destruct (in_dec Nat.eq_dec a R); tauto.
Qed.
Lemma moveaxis_view t ax sh f src : view t ax sh f -> NoDup src -> (forall p, In p src -> p < length ax) ->
  exists u, np_moveaxis (map Z.of_nat src) (axes_last (length src)) t = Ok u /\
    view u (map (fun p => nth p ax 0) (except_nat (seq 0 (length ax)) src ++ src)) sh f.
Proof.
  intros Hv N B. unfold np_moveaxis. assert (Hn : tndim t = length ax).
  { destruct Hv as (_ & Hs & _). unfold tndim. now rewrite Hs, map_length. }
  rewrite Hn, moveaxis_last by assumption. cbn [rbind]. eexists. split; [reflexivity|].
  apply transpose_view; [exact Hv|]. now apply except_perm.
Qed.

Lemma names_axes_range n m x M R : names_axes n m x M R -> forall a, In a R -> a < n.
Proof.
  destruct x as [l|]; cbn.
  - intros H a Ha. induction H as [|x b l r Hx H IH]; [destruct Ha|].
    destruct Ha as [<-|Ha]; [eapply names_axis_lt; eauto|now apply IH].
  - intros -> a Ha. apply except_In in Ha. destruct Ha as [Ha _]. apply in_seq in Ha. lia.
Qed.
Lemma is_axis_range n l M : Forall2 (is_axis n) l M -> forall a, In a M -> a < n.
Proof.
  intros H a Ha. induction H as [|x b l r Hx H IH]; [destruct Ha|].
  destruct Ha as [<-|Ha]; [apply Hx|now apply IH].
Qed.
Lemma Forall2_len {X Y} (Q : X -> Y -> Prop) l r : Forall2 Q l r -> length l = length r.
Proof. intros H. induction H; cbn; congruence. Qed.
Lemma NoDup_app_parts {T} (l r : list T) : NoDup (l ++ r) -> NoDup l /\ NoDup r /\ forall x, In x l -> ~ In x r.
Proof.
  induction l as [|a t IH]; cbn; intros H; [repeat split; auto; constructor|]. inversion H as [|? ? Ha Ht]; subst.
  destruct (IH Ht) as (N1 & N2 & D). rewrite in_app_iff in Ha. repeat split; [constructor; tauto|exact N2|].
  intros x [<-|Hx]; [tauto|now apply D].
Qed.

(* the axis arguments as the function sees them *)
Lemma axes_args n mom_axes axis M R : Forall2 (is_axis n) mom_axes M -> NoDup M ->
  names_axes n (length M) axis M R -> NoDup R ->
  normalize_axis_tuple (Some (map AInt mom_axes)) n None false = Ok M /\
  match axis with
  | None => Ok (filter (fun a => negb (nat_mem a M)) (seq 0 n))
  | Some _ => normalize_axis_tuple axis n (Some (length mom_axes)) false
  end = Ok R.
Proof.
  intros HM NM HR NR. split.
  - apply normalize_tuple_ok. split; [|exact NM]. clear HR NM. induction HM as [|x y l l2 H HM IH]; [constructor|]. cbn [map]. now constructor.
  - destruct axis as [l|]; cbn in HR.
    + apply normalize_tuple_ok. split; [|exact NR]. cbn [mnum]. now rewrite (Forall2_len _ _ _ HM).
    + rewrite except_filter. now rewrite HR.
Qed.

Theorem reduce_nd_cells {A V} (K : pusher A V) (P : packer A) : packer_ok P ->
  forall t mom_axes axis keepdims to_end M R, tensor_ok t ->
  Forall2 (is_axis (tndim t)) mom_axes M -> names_axes (tndim t) (length M) axis M R ->
  NoDup (M ++ R) -> R <> [] -> map (shape_of t) M = pk_shape P ->
  (exists out, reduce_data_nd K P mom_axes axis keepdims to_end t = Ok out /\ holds_reduction K P keepdims to_end R M t out) \/
  (reduce_data_nd K P mom_axes axis keepdims to_end t = Raise EZeroDiv /\
   exists env, inside (shape_of t) (except_nat (seq 0 (tndim t)) R) env /\ reduce_data K (rows_along P t R M env) = None).
Proof.
  intros HP t mom_axes axis keepdims to_end M R Ht HM HR ND NE SM.
  destruct (NoDup_app_parts _ _ ND) as (NM & NR & DMR).
  set (n := tndim t) in *. set (O := except_nat (seq 0 n) R).
  pose proof (is_axis_range _ _ _ HM) as BM. pose proof (names_axes_range _ _ _ _ _ HR) as BR.
  assert (NO : NoDup O) by apply NoDup_except, seq_NoDup.
  assert (IM : incl M O).
  { intros a Ha. apply except_In. split; [apply in_seq; specialize (BM a Ha); lia|now apply DMR]. }
  assert (DR : forall a, In a O -> ~ In a R) by (intros a Ha; now apply except_In in Ha).
  destruct (axes_args n mom_axes axis M R HM NM HR NR) as [E1 E2].
  assert (Lm : length mom_axes = length M) by exact (Forall2_len _ _ _ HM).
  unfold reduce_data_nd. fold n. rewrite E1. cbn [rbind]. rewrite E2. cbn [rbind].
  assert (Emv : moveaxis_order n (map Z.of_nat R) (axes_last (length R)) = Ok (O ++ R)) by now apply moveaxis_last.
  destruct R as [|r0 R0]; [tauto|]. set (R := r0 :: R0) in *. rewrite Emv. cbn [rbind].
  assert (V1 : view (ttranspose (O ++ R) t) (O ++ R) (shape_of t) (entry t)).
  { pose proof (except_perm n R NR BR) as PM. fold O in PM.
    pose proof (transpose_view t (seq 0 n) (shape_of t) (entry t) (O ++ R) (view_self t Ht)) as X.
    rewrite seq_length in X. specialize (X PM). rewrite map_nth_seq_id in X; [exact X|].
    intros a Ha. apply (Permutation_in _ PM), in_seq in Ha. lia. }
  destruct (merge_view _ O R _ _ V1) as [Su Fu].
  set (u := merge_last (length R) (ttranspose (O ++ R) t)) in *.
  assert (Emom : map (fun a => index_of a (O ++ R)) M = map (fun a => index_of a O) M).
  { apply map_ext_in. intros a Ha. apply index_of_app. now apply IM. }
  rewrite Emom.
  pose proof (gufunc_cells K P HP O R M (shape_of t) (entry t) u NO NR NM IM DR SM Su Fu) as G.
  set (mom' := map (fun a => index_of a O) M) in *.
  change (cell K P R M (shape_of t) (entry t)) with (fun env => reduce_data K (rows_along P t R M env)) in G. cbn beta in G.
  destruct (gufunc_reduce K P mom' u) as [out|e]; cbn [rbind].
  2: { right. destruct G as [-> X]. split; [reflexivity|exact X]. }
  left. destruct G as (Go & Gs & Gc).
  set (f := fun env => match reduce_data K (rows_along P t R M env) with Some a => pk_unpack P a (map env M) | None => 0%Qc end).
  set (sh := fun a => if in_dec Nat.eq_dec a R then 1 else shape_of t a).
  assert (VO : view out O (shape_of t) f).
  { split; [exact Go|]. split; [exact Gs|]. intros env I. destruct (Gc env I) as (a & Ea & Eg). unfold f. now rewrite Ea. }
  assert (VO' : view out O sh f).
  { revert VO. apply view_sh. intros a Ha. unfold sh. destruct (in_dec Nat.eq_dec a R); [exfalso; now apply (DR a)|reflexivity]. }
  assert (FIN : forall w, view w (out_axes keepdims to_end n R M) sh f -> holds_reduction K P keepdims to_end R M t w).
  { intros w (Wo & Ws & Wf). split; [exact Wo|]. split; [exact Ws|]. intros env I. fold n in I |- *. fold sh in I.
    assert (IO : inside (shape_of t) O env).
    { intros a Ha. assert (In a (out_axes keepdims to_end n R M)).
      { unfold out_axes. destruct keepdims, to_end.
        - destruct (in_dec Nat.eq_dec a M); [apply in_or_app; right; apply in_or_app; now right|].
          apply in_or_app. left. apply except_In. apply except_In in Ha. rewrite in_app_iff. tauto.
        - now apply except_In in Ha.
        - destruct (in_dec Nat.eq_dec a M); [apply in_or_app; now right|].
          apply in_or_app. left. apply except_In. apply except_In in Ha. rewrite in_app_iff. tauto.
        - exact Ha. }
      specialize (I a H). unfold sh in I. destruct (in_dec Nat.eq_dec a R); [exfalso; now apply (DR a)|exact I]. }
    destruct (Gc env IO) as (a & Ea & _). exists a. split; [exact Ea|]. rewrite Wf by exact I. unfold f. now rewrite Ea. }
  assert (Nm' : NoDup mom').
  { apply NoDup_map_in; [exact NM|]. intros x y Hx Hy E.
    destruct (index_of_lt x O (IM x Hx)) as [_ F1], (index_of_lt y O (IM y Hy)) as [_ F2]. congruence. }
  destruct to_end.
  - destruct keepdims.
    + pose proof (expand_view out n R (shape_of t) f VO NR BR) as VE. fold sh in VE.
      destruct (moveaxis_view (expand_dims R out) (seq 0 n) sh f (R ++ M) VE) as (w & Ew & Vw).
      { apply NoDup_app_; [exact NR|exact NM|]. intros x Hx C. now apply (DMR x). }
      { intros p Hp. rewrite seq_length. apply in_app_or in Hp. destruct Hp; auto. }
      rewrite Lm. replace (length M + length R) with (length (R ++ M)) by (rewrite app_length; lia).
      rewrite Ew. exists w. split; [reflexivity|]. apply FIN. cbn [out_axes]. rewrite seq_length in Vw.
      rewrite map_nth_seq_id in Vw; [exact Vw|]. intros a Ha. apply in_app_or in Ha. destruct Ha as [Ha|Ha].
      * apply except_In in Ha. destruct Ha as [Ha _]. apply in_seq in Ha. lia.
      * apply in_app_or in Ha. destruct Ha; auto.
    + destruct (moveaxis_view out O sh f mom' VO' Nm') as (w & Ew & Vw).
      { intros p Hp. apply in_map_iff in Hp. destruct Hp as (a & <- & Ha). now apply (index_of_lt a O (IM a Ha)). }
      rewrite Lm. replace (length M) with (length mom') by (unfold mom'; now rewrite map_length).
      rewrite Ew. exists w. split; [reflexivity|]. apply FIN. cbn [out_axes].
      pose proof (outer_names O M (length O) mom' eq_refl NO IM eq_refl) as ON. unfold outer_axes in ON. rewrite except_filter in ON.
      rewrite map_app, ON in Vw.
      assert (EM : map (fun p => nth p O 0) mom' = M).
      { unfold mom'. rewrite map_map. rewrite <- (map_id M) at 2. apply map_ext_in. intros a Ha.
        now apply (index_of_lt a O (IM a Ha)). }
      rewrite EM in Vw. unfold O in Vw. rewrite except_except in Vw. exact Vw.
  - eexists. split; [reflexivity|]. apply FIN. destruct keepdims; cbn [out_axes].
    + exact (expand_view out n R (shape_of t) f VO NR BR).
    + exact VO'.
Qed.
