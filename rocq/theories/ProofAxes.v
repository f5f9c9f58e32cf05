(* Proofs about axes: normalisation, moveaxis, views of arrays. *)
From Coq Require Import Permutation Sorted.
From Verif Require Import Base BaseLemmas ModelKernels ModelIndex ModelAxes SpecAxes ProofIndex ProofLabels.

Lemma NoDup_app_ {T} (l1 l2 : list T) : NoDup l1 -> NoDup l2 -> (forall x, In x l1 -> ~ In x l2) -> NoDup (l1 ++ l2).
Proof.
  induction 1 as [|x t Hx Ht IH]; intros H2 D; [exact H2|]. cbn. constructor.
  - rewrite in_app_iff. intros [?|?]; [auto|]. apply (D x); [now left|assumption].
  - apply IH; [exact H2|]. intros y Hy. apply D. now right.
Qed.
Lemma Forall2_imp_ {A B} (P Q : A -> B -> Prop) : (forall a b, P a b -> Q a b) -> forall l r, Forall2 P l r -> Forall2 Q l r.
Proof. intros H l r F. induction F; constructor; auto. Qed.
Lemma nat_mem_In x l : nat_mem x l = true <-> In x l.
Proof.
  unfold nat_mem. rewrite existsb_exists. split.
  - intros (y & H & E). apply Nat.eqb_eq in E. now subst.
  - intros H. exists x. split; [exact H|apply Nat.eqb_refl].
Qed.
Lemma nat_mem_dec x l : nat_mem x l = if in_dec Nat.eq_dec x l then true else false.
Proof.
  destruct (in_dec Nat.eq_dec x l) as [H|H].
  - now apply nat_mem_In.
  - destruct (nat_mem x l) eqn:E; [|reflexivity]. now apply nat_mem_In in E.
Qed.
Lemma except_filter l ex : filter (fun n => negb (nat_mem n ex)) l = except_nat l ex.
Proof.
  apply filter_ext. intros a. rewrite nat_mem_dec. now destruct (in_dec Nat.eq_dec a ex).
Qed.
Lemma except_In {T} dec (l ex : list T) x : In x (except dec l ex) <-> In x l /\ ~ In x ex.
Proof. unfold except. rewrite filter_In. destruct (in_dec dec x ex); intuition congruence. Qed.
Lemma except_none {T} dec (l ex : list T) : (forall x, In x l -> ~ In x ex) -> except dec l ex = l.
Proof.
  induction l as [|x t IH]; intros H; [reflexivity|]. cbn. destruct (in_dec dec x ex) as [C|C].
  - exfalso. apply (H x); [now left|exact C].
  - f_equal. apply IH. intros y Hy. apply H. now right.
Qed.
Lemma except_all {T} dec (l ex : list T) : (forall x, In x l -> In x ex) -> except dec l ex = [].
Proof.
  induction l as [|x t IH]; intros H; [reflexivity|]. cbn. destruct (in_dec dec x ex) as [C|C].
  - apply IH. intros y Hy. apply H. now right.
  - exfalso. apply C, H. now left.
Qed.
Lemma except_app {T} dec (l1 l2 ex : list T) : except dec (l1 ++ l2) ex = except dec l1 ex ++ except dec l2 ex.
Proof. apply filter_app. Qed.
Lemma except_except {T} dec (l a b : list T) : except dec (except dec l a) b = except dec l (a ++ b).
Proof.
  unfold except.   induction l as [|x t IH]; [reflexivity|]. cbn. destruct (in_dec dec x a) as [C|C].
  - rewrite IH. destruct (in_dec dec x (a ++ b)) as [D|D]; [reflexivity|]. exfalso. apply D, in_or_app. now left.
  - cbn. destruct (in_dec dec x b) as [C'|C'].
    + destruct (in_dec dec x (a ++ b)) as [D|D]; [exact IH|]. exfalso. apply D, in_or_app. now right.
    + destruct (in_dec dec x (a ++ b)) as [D|D]; [exfalso; apply in_app_or in D; tauto|]. now f_equal.
Qed.
Lemma except_ext {T} dec (l a b : list T) : (forall x, In x l -> In x a <-> In x b) -> except dec l a = except dec l b.
Proof.
  intros H. unfold except. apply filter_ext_in. intros x Hx. specialize (H x Hx).
  destruct (in_dec dec x a), (in_dec dec x b); tauto.
Qed.
Lemma NoDup_except {T} dec (l ex : list T) : NoDup l -> NoDup (except dec l ex).
Proof. apply NoDup_filter. Qed.
Lemma except_length (l ex : list nat) : NoDup l -> NoDup ex -> incl ex l ->
  length (except_nat l ex) + length ex = length l.
Proof.
  intros N Ne I. assert (P : Permutation l (except_nat l ex ++ ex)).
  { apply NoDup_Permutation; [exact N| |].
    - apply NoDup_app_; [now apply NoDup_except|exact Ne|]. intros x Hx. now apply except_In in Hx.
    - intros x. rewrite in_app_iff, except_In. split.
      + intros H. destruct (in_dec Nat.eq_dec x ex); auto.
      + intros [[H _]|H]; auto. }
  apply Permutation_length in P. rewrite app_length in P. lia.
Qed.

(* ---- normalisation ----------------------------------------------------------- *)

Lemma np_normalize_ok z n a : np_normalize_axis_index z (Z.of_nat n) = Ok a <-> is_axis n z a.
Proof.
  unfold np_normalize_axis_index, is_axis. split.
  - destruct ((z <? - Z.of_nat n)%Z || (Z.of_nat n <=? z)%Z)%bool eqn:E; [discriminate|].
    apply Bool.orb_false_iff in E. destruct E as [E1 E2]. apply Z.ltb_ge in E1. apply Z.leb_gt in E2.
    intros [= <-]. destruct (z <? 0)%Z eqn:E3; [apply Z.ltb_lt in E3|apply Z.ltb_ge in E3]; split; lia.
  - intros [H1 H2]. destruct ((z <? - Z.of_nat n)%Z || (Z.of_nat n <=? z)%Z)%bool eqn:E.
    + apply Bool.orb_true_iff in E. destruct E as [E|E]; [apply Z.ltb_lt in E|apply Z.leb_le in E]; lia.
    + f_equal. destruct (z <? 0)%Z eqn:E3; [apply Z.ltb_lt in E3|apply Z.ltb_ge in E3]; lia.
Qed.
Lemma np_normalize_err z n e : np_normalize_axis_index z n = Raise e -> e = EValue.
Proof. unfold np_normalize_axis_index. destruct (_ || _)%bool; congruence. Qed.
Lemma np_normalize_neg z n : (n <= 0)%Z -> np_normalize_axis_index z n = Raise EValue.
Proof.
  intros H. unfold np_normalize_axis_index.
  destruct (z <? - n)%Z eqn:E1; [reflexivity|]. destruct (n <=? z)%Z eqn:E2; [reflexivity|].
  apply Z.ltb_ge in E1. apply Z.leb_gt in E2. lia.
Qed.
Definition mnum (m : option nat) : nat := match m with Some m => m | None => 0 end.
Lemma normalize_index_ok x n m a : normalize_axis_index x n m = Ok a <-> names_axis n (mnum m) x a.
Proof.
  destruct x as [z|z]; cbn [normalize_axis_index names_axis]; [apply np_normalize_ok|].
  assert (E : (match m with Some m => Z.of_nat m | None => 0 end)%Z = Z.of_nat (mnum m)) by now destruct m.
  rewrite E. destruct (Nat.le_gt_cases (mnum m) n) as [H|H].
  - rewrite <- Nat2Z.inj_sub by exact H. apply np_normalize_ok.
  - rewrite np_normalize_neg by lia. unfold is_axis. split; [discriminate|lia].
Qed.
Lemma normalize_index_err x n m e : normalize_axis_index x n m = Raise e -> e = EValue.
Proof. destruct x; apply np_normalize_err. Qed.
Lemma has_duplicates_spec l : has_duplicates l = false <-> NoDup l.
Proof.
  unfold has_duplicates. rewrite Bool.negb_false_iff, Nat.eqb_eq. split.
  - intros H. apply NoDup_incl_NoDup with (l := nodup Nat.eq_dec l).
    + apply NoDup_nodup. 
    + lia.
    + intros x. apply nodup_In.
  - intros H. now rewrite nodup_fixed_point.
Qed.
Lemma mapR_Forall2 {A B} (f : A -> res B) l r : mapR f l = Ok r <-> Forall2 (fun a b => f a = Ok b) l r.
Proof.
  revert r. induction l as [|a t IH]; intros r; cbn [mapR].
  - split; [intros [= <-]; constructor|]. intros H. now inversion H.
  - destruct (f a) as [b|e] eqn:E; cbn [rbind].
    + destruct (mapR f t) as [r'|e] eqn:E'; cbn [rbind].
      * split.
        -- intros [= <-]. constructor; [exact E|]. now apply IH.
        -- intros H. inversion H as [|? b' ? r'' Hb Hr]; subst. apply IH in Hr. congruence.
      * split; [discriminate|]. intros H. inversion H as [|? b' ? r'' Hb Hr]; subst. apply IH in Hr. congruence.
    + split; [discriminate|]. intros H. inversion H as [|? b' ? r'' Hb Hr]; subst. congruence.
Qed.
Lemma mapR_err_all {A B} e (f : A -> res B) l x : (forall a e', f a = Raise e' -> e' = e) -> mapR f l = Raise x -> x = e.
Proof.
  intros H. induction l as [|a t IH]; cbn [mapR]; [discriminate|].
  destruct (f a) as [b|e'] eqn:E; cbn [rbind]; [|intros [= <-]; eauto].
  destruct (mapR f t); cbn [rbind]; [discriminate|]. intros [= <-]. now apply IH.
Qed.
Lemma normalize_tuple_ok x n m l : normalize_axis_tuple (Some x) n m false = Ok l <-> Forall2 (names_axis n (mnum m)) x l /\ NoDup l.
Proof.
  unfold normalize_axis_tuple. assert (F : forall r, mapR (fun a => normalize_axis_index a n m) x = Ok r <-> Forall2 (names_axis n (mnum m)) x r).
  { intros r. rewrite mapR_Forall2. split; intros H; (eapply Forall2_imp_; [|exact H]); intros a b; apply normalize_index_ok. }
  destruct (mapR (fun a => normalize_axis_index a n m) x) as [r|e] eqn:E; cbn [rbind negb andb].
  - destruct (has_duplicates r) eqn:D.
    + split; [discriminate|]. intros [H1 H2]. apply F in H1. injection H1 as ->.
      apply has_duplicates_spec in H2. congruence.
    + apply has_duplicates_spec in D. split.
      * intros [= <-]. split; [|exact D]. now apply F.
      * intros [H1 H2]. apply F in H1. congruence.
  - split; [discriminate|]. intros [H1 H2]. apply F in H1. discriminate.
Qed.
Lemma normalize_tuple_err x n m b e : normalize_axis_tuple x n m b = Raise e -> e = EValue.
Proof.
  destruct x as [x|]; cbn; [|discriminate].
  destruct (mapR (fun a => normalize_axis_index a n m) x) as [r|e'] eqn:E; cbn [rbind].
  - destruct (_ && _)%bool; congruence.
  - intros [= <-]. eapply mapR_err_all in E; [exact E|]. intros a e''. apply normalize_index_err.
Qed.
Lemma is_axis_self n a : a < n -> is_axis n (Z.of_nat a) a.
Proof. intros H. split; [exact H|now left]. Qed.
Lemma is_axis_fun n z a b : is_axis n z a -> is_axis n z b -> a = b.
Proof. unfold is_axis. lia. Qed.
Lemma names_axis_fun n m x a b : names_axis n m x a -> names_axis n m x b -> a = b.
Proof. destruct x; apply is_axis_fun. Qed.
Lemma names_axis_lt n m x a : names_axis n m x a -> a < n.
Proof. destruct x; cbn; unfold is_axis; lia. Qed.
Lemma normalize_nats n m l : NoDup l -> (forall a, In a l -> a < n) ->
  normalize_axis_tuple (Some (map AInt (map Z.of_nat l))) n m false = Ok l.
Proof.
  intros N H. apply normalize_tuple_ok. split; [|exact N]. clear N. induction l as [|a t IH]; [constructor|].
  constructor; [apply is_axis_self, H; now left|]. apply IH. intros b Hb. apply H. now right.
Qed.
Lemma axes_last_norm n k : k <= n -> normalize_axis_tuple (Some (map AInt (axes_last k))) n None false = Ok (seq (n - k) k).
Proof.
  intros H. apply normalize_tuple_ok. split; [|apply seq_NoDup].
  assert (S : forall i, i + (n - k) <= n -> forall c, i + c <= k ->
    Forall2 (names_axis n 0) (map AInt (map (fun i => (Z.of_nat i - Z.of_nat k)%Z) (seq i c))) (seq (n - k + i) c)).
  { intros i Hi c. revert i Hi. induction c as [|c IH]; intros i Hi Hc; [constructor|]. cbn [seq map].
    constructor; [cbn; unfold is_axis; lia|]. replace (S (n - k + i)) with (n - k + S i) by lia. apply IH; lia. }
  specialize (S 0). rewrite Nat.add_0_r in S. apply S; lia.
Qed.

(* ---- moveaxis ----------------------------------------------------------------- *)

Lemma insert_at_length {T} (l : list T) i x : length (insert_at l i x) = S (length l).
Proof. unfold insert_at. rewrite app_length. cbn. rewrite <- (firstn_skipn i l) at 3. rewrite app_length. lia. Qed.
Lemma insert_at_eq {T} (l : list T) i x : i <= length l -> nth_error (insert_at l i x) i = Some x.
Proof.
  intros H. unfold insert_at. rewrite nth_error_app2 by (rewrite firstn_length; lia).
  rewrite firstn_length, Nat.min_l by exact H. now rewrite Nat.sub_diag.
Qed.
Lemma insert_at_lt {T} (l : list T) i j x : j < i -> i <= length l -> nth_error (insert_at l i x) j = nth_error l j.
Proof.
  intros H Hi. unfold insert_at. rewrite nth_error_app1 by (rewrite firstn_length; lia).
  rewrite <- (firstn_skipn i l) at 2. rewrite nth_error_app1 by (rewrite firstn_length; lia). reflexivity.
Qed.
Lemma insert_at_perm {T} (l : list T) i x : Permutation (insert_at l i x) (x :: l).
Proof. unfold insert_at. rewrite <- Permutation_middle. now rewrite firstn_skipn. Qed.
Lemma insert_at_except dec (l ex : list nat) i x : In x ex -> except dec (insert_at l i x) ex = except dec l ex.
Proof.
  intros H. unfold insert_at. rewrite except_app. cbn. destruct (in_dec dec x ex); [|tauto].
  rewrite <- (firstn_skipn i l) at 3. now rewrite except_app.
Qed.
Lemma ascending_bound (ps : list (nat * nat)) d s B : StronglySorted (fun p q => fst p < fst q) ((d, s) :: ps) ->
  Forall (fun p => fst p < B) ((d, s) :: ps) -> d + S (length ps) <= B.
Proof.
  revert d s. induction ps as [|[d' s'] t IH]; intros d s H HB; cbn.
  - inversion HB; subst. cbn in *. lia.
  - inversion H as [|? ? H1 H2]; subst. inversion H2; subst. cbn in *. inversion HB; subst.
    specialize (IH d' s' H1 ltac:(assumption)). cbn in IH. lia.
Qed.
Lemma fold_insert ex : forall (ps : list (nat * nat)) l,
  StronglySorted (fun p q => fst p < fst q) ps ->
  Forall (fun p => fst p < length l + length ps) ps -> (forall p, In p ps -> In (snd p) ex) ->
  let o := fold_left (fun order p => insert_at order (fst p) (snd p)) ps l in
  Permutation o (map snd ps ++ l) /\
  (forall p, In p ps -> nth_error o (fst p) = Some (snd p)) /\
  (forall i, (forall p, In p ps -> i < fst p) -> nth_error o i = nth_error l i) /\
  except_nat o ex = except_nat l ex.
Proof.
  induction ps as [|[d s] t IH]; intros l HS HB HE; cbn zeta; [cbn; repeat split; auto; intros p []|].
  assert (HD : d <= length l) by (pose proof (ascending_bound t d s _ HS HB); cbn in *; lia).
  cbn [fold_left fst snd]. inversion HS as [|? ? HS1 HS2]; subst. inversion HB as [|? ? HB1 HB2]; subst.
  destruct (IH (insert_at l d s)) as (P & N & O & E); [exact HS1| | |].
  { rewrite insert_at_length. revert HB2. apply Forall_impl. cbn. intros; lia. }
  { intros p Hp. apply HE. now right. }
  rewrite Forall_forall in HS2. split; [|split; [|split]].
  - rewrite P, insert_at_perm. cbn. now rewrite <- Permutation_middle.
  - intros p [<-|Hp]; [|now apply N]. cbn. rewrite O; [now apply insert_at_eq|]. intros p Hp. exact (HS2 p Hp).
  - intros i Hi. rewrite O.
    + apply insert_at_lt; [|exact HD]. apply (Hi (d, s)). now left.
    + intros p Hp. apply Hi. now right.
  - rewrite E. apply insert_at_except. apply (HE (d, s)). now left.
Qed.
Lemma pair_le_total x y : pair_le x y = true \/ pair_le y x = true.
Proof.
  unfold pair_le. destruct x as [a b], y as [c d]; cbn [fst snd]. rewrite !Bool.orb_true_iff, !Bool.andb_true_iff, !Nat.ltb_lt, !Nat.eqb_eq, !Nat.leb_le. lia.
Qed.
Lemma pair_le_trans x y z : pair_le x y = true -> pair_le y z = true -> pair_le x z = true.
Proof.
  unfold pair_le. destruct x as [a b], y as [c d], z as [e f]; cbn [fst snd].
  rewrite !Bool.orb_true_iff, !Bool.andb_true_iff, !Nat.ltb_lt, !Nat.eqb_eq, !Nat.leb_le. lia.
Qed.
Lemma sorted_strict (ps : list (nat * nat)) : StronglySorted (fun p q => pair_le p q = true) ps -> NoDup (map fst ps) ->
  StronglySorted (fun p q => fst p < fst q) ps.
Proof.
  induction 1 as [|p t Ht IH Hp]; intros N; [constructor|]. inversion N as [|? ? N1 N2]; subst.
  constructor; [now apply IH|]. rewrite Forall_forall in *. intros q Hq. specialize (Hp q Hq).
  assert (fst q <> fst p) by (intros C; apply N1; rewrite <- C; now apply in_map).
  unfold pair_le in Hp. rewrite Bool.orb_true_iff, Bool.andb_true_iff, Nat.ltb_lt, Nat.eqb_eq in Hp. lia.
Qed.
Lemma map_fst_combine {A B} (l : list A) (r : list B) : length l = length r -> map fst (combine l r) = l.
Proof. revert r. induction l as [|a t IH]; intros [|b r] H; cbn in *; try discriminate; [reflexivity|]. now rewrite IH by lia. Qed.
Lemma map_snd_combine {A B} (l : list A) (r : list B) : length l = length r -> map snd (combine l r) = r.
Proof. revert r. induction l as [|a t IH]; intros [|b r] H; cbn in *; try discriminate; [reflexivity|]. now rewrite IH by lia. Qed.
Lemma moveaxis_core_moves n s d : length s = length d -> NoDup s -> NoDup d ->
  (forall a, In a s -> a < n) -> (forall a, In a d -> a < n) ->
  exists order, moveaxis_core n s d = Ok order /\ moves n s d order.
Proof.
  intros HL Ns Nd Bs Bd. unfold moveaxis_core. rewrite HL, Nat.eqb_refl. cbn [negb]. eexists. split; [reflexivity|].
  rewrite except_filter.
  assert (L0 : length (except_nat (seq 0 n) s) + length s = n).
  { rewrite except_length; [apply seq_length|apply seq_NoDup|exact Ns|]. intros a Ha. apply in_seq. specialize (Bs a Ha). lia. }
  set (ps := sort_by pair_le (combine d s)).
  assert (PP : Permutation ps (combine d s)) by apply sort_perm.
  assert (Lps : length ps = length s) by (rewrite (Permutation_length PP), combine_length; lia).
  destruct (fold_insert s ps (except_nat (seq 0 n) s)) as (P & N & _ & E).
  { apply sorted_strict; [apply sort_sorted; [exact pair_le_total|exact pair_le_trans]|].
    apply (Permutation_NoDup (l := d)); [|exact Nd]. rewrite <- (map_fst_combine d s) at 1 by lia.
    apply Permutation_map. now symmetry. }
  { apply Forall_forall. intros p Hp. rewrite Lps, L0. apply Bd. rewrite <- (map_fst_combine d s) by lia.
    apply in_map. now apply (Permutation_in _ PP). }
  { intros p Hp. rewrite <- (map_snd_combine d s) by lia. apply in_map. now apply (Permutation_in _ PP). }
  split; [|split].
  - rewrite P. assert (PS : Permutation (map snd ps) s).
    { rewrite <- (map_snd_combine d s) at 1 by lia. now apply Permutation_map. }
    rewrite PS. apply NoDup_Permutation.
    + apply NoDup_app_; [exact Ns|apply NoDup_except, seq_NoDup|]. intros x Hx Hx'. apply except_In in Hx'. tauto.
    + apply seq_NoDup.
    + intros x. rewrite in_app_iff, except_In. split.
      * intros [H|[H _]]; [|exact H]. apply in_seq. specialize (Bs x H). lia.
      * intros H. destruct (in_dec Nat.eq_dec x s); auto.
  - assert (N' : forall p, In p (combine d s) -> nth_error (fold_left (fun order p => insert_at order (fst p) (snd p)) ps (except_nat (seq 0 n) s)) (fst p) = Some (snd p)).
    { intros p Hp. apply N. apply (Permutation_in _ (Permutation_sym PP)). exact Hp. }
    revert N' HL. generalize (fold_left (fun order p => insert_at order (fst p) (snd p)) ps (except_nat (seq 0 n) s)).
    clear. intros o. revert d. induction s as [|a t IH]; intros [|b d] N HL; cbn in *; try discriminate; [constructor|].
    constructor; [apply (N (b, a)); now left|]. apply IH; [|lia]. intros p Hp. apply N. now right.
  - rewrite E. apply except_none. intros x Hx. now apply except_In in Hx.
Qed.
Lemma moveaxis_core_err n s d e : moveaxis_core n s d = Raise e -> e = EValue.
Proof. unfold moveaxis_core. destruct (negb _); congruence. Qed.

Lemma nth_error_ext {T} (l l' : list T) : length l = length l' -> (forall i, i < length l -> nth_error l i = nth_error l' i) -> l = l'.
Proof.
  revert l'. induction l as [|a t IH]; intros [|b t'] HL H; cbn in *; try discriminate; [reflexivity|].
  assert (H0 := H 0 ltac:(lia)). injection H0 as ->. f_equal. apply IH; [lia|]. intros i Hi. apply (H (S i)). lia.
Qed.
(* moving to the end *)
Lemma moves_last n s order : NoDup s -> (forall a, In a s -> a < n) ->
  moves n s (seq (n - length s) (length s)) order -> order = except_nat (seq 0 n) s ++ s.
Proof.
  intros Ns Bs (P & F & E).
  assert (L : length order = n) by (rewrite (Permutation_length P); apply seq_length).
  assert (No : NoDup order) by (eapply Permutation_NoDup; [symmetry; exact P|apply seq_NoDup]).
  assert (L0 : length (except_nat (seq 0 n) s) + length s = n).
  { rewrite except_length; [apply seq_length|apply seq_NoDup|exact Ns|]. intros a Ha. apply in_seq. specialize (Bs a Ha). lia. }
  assert (SK : skipn (n - length s) order = s).
  { apply nth_error_ext; [rewrite skipn_length; lia|]. intros i Hi. rewrite skipn_length in Hi.
    assert (G : forall c (l : list nat), Forall2 (fun s d => nth_error order d = Some s) l (seq c (length l)) -> forall i, i < length l -> nth_error l i = nth_error order (c + i)).
    { clear. intros c l. revert c. induction l as [|a t IH]; intros c F i Hi; [cbn in Hi; lia|]. cbn in F. inversion F; subst.
      destruct i as [|i]; [rewrite Nat.add_0_r; cbn; now symmetry|]. cbn. rewrite (IH (S c)) by (assumption || (cbn in Hi; lia)).
      f_equal. lia. }
    rewrite (G _ _ F i) by lia. clear. generalize (n - length s). intros c. revert c.
    induction order as [|a t IH]; intros [|c]; cbn; auto; try (destruct i; reflexivity). }
  rewrite <- (firstn_skipn (n - length s) order) at 1. rewrite SK. f_equal.
  rewrite <- E. rewrite <- (firstn_skipn (n - length s) order) at 2. rewrite SK, except_app, (except_all _ s s) by auto.
  rewrite app_nil_r. symmetry. apply except_none. intros x Hx Hs.
  rewrite <- (firstn_skipn (n - length s) order), SK in No.
  revert Hx No. generalize (firstn (n - length s) order). intros fs Hx No.
  apply in_split in Hs. destruct Hs as (s1 & s2 & Es). rewrite Es, app_assoc in No. apply NoDup_remove_2 in No.
  apply No. apply in_or_app. left. apply in_or_app. now left.
Qed.
Lemma moveaxis_last n s : NoDup s -> (forall a, In a s -> a < n) ->
  moveaxis_order n (map Z.of_nat s) (axes_last (length s)) = Ok (except_nat (seq 0 n) s ++ s).
Proof.
  intros Ns Bs. unfold moveaxis_order. rewrite normalize_nats by assumption. cbn [rbind].
  assert (L : length s <= n).
  { rewrite <- (seq_length n 0). apply NoDup_incl_length; [exact Ns|]. intros a Ha. apply in_seq. specialize (Bs a Ha). lia. }
  rewrite axes_last_norm by exact L. cbn [rbind].
  destruct (moveaxis_core_moves n s (seq (n - length s) (length s))) as (o & E & M).
  - now rewrite seq_length.
  - exact Ns.
  - apply seq_NoDup.
  - exact Bs.
  - intros a Ha. apply in_seq in Ha. lia.
  - rewrite E. f_equal. now apply moves_last.
Qed.
