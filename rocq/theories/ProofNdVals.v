(* Arrays of values along one axis: prepared operands, shape of the result,
   samples seen by the kernel. *)
From Coq Require Import Permutation.
From Verif Require Import Base BaseLemmas ModelPush ModelPushCov ModelKernels ModelIndex ModelAxes ModelNd Spec SpecAxes SpecNd
  ProofPush ProofPushCov Laws ProofKernels ProofSpec ProofIndex ProofLabels ProofAxes ProofArrays ProofMulti ProofNd PropNd.

Lemma Forall2_uncons {X Y} (Q : X -> Y -> Prop) x l us : Forall2 Q (x :: l) us -> exists u us', us = u :: us' /\ Q x u /\ Forall2 Q l us'.
Proof. intros H. inversion H; subst. eauto. Qed.
Lemma seq_from_end N n : n <= N -> seq (N - n) n = map (fun k => N - 1 - k) (rev (seq 0 n)).
Proof.
  intros H. apply (nth_ext _ _ 0 0); [now rewrite map_length, rev_length, !seq_length|]. intros k Hk. rewrite seq_length in Hk.
  rewrite (nth_map_in _ _ _ _ 0) by (now rewrite rev_length, seq_length). rewrite rev_nth, seq_length by (now rewrite seq_length).
  rewrite !seq_nth by lia. lia.
Qed.
Lemma from_end_nth s k : k < length s -> from_end s k = nth (length s - 1 - k) s 0.
Proof.
  intros H. unfold from_end. rewrite rev_nth by exact H. rewrite (nth_indep _ 1 0) by lia. f_equal. lia.
Qed.
Lemma index_of_seq a s n : s <= a < s + n -> index_of a (seq s n) = a - s.
Proof.
  intros H. pose proof (index_of_nth (seq s n) (a - s) (seq_NoDup _ _)) as X. rewrite seq_length, seq_nth in X by lia.
  replace (s + (a - s)) with a in X by lia. apply X. lia.
Qed.
Lemma index_of_last a l : ~ In a l -> index_of a (l ++ [a]) = length l.
Proof.
  intros H. unfold index_of. induction l as [|x l IH]; cbn; [now rewrite Nat.eqb_refl|].
  destruct (Nat.eqb_spec a x) as [->|]; [exfalso; apply H; now left|]. rewrite IH by (intros C; apply H; now right). reflexivity.
Qed.
Lemma index_of_cons a x l : index_of a (x :: l) = if Nat.eqb a x then 0 else S (index_of a l).
Proof. unfold index_of. cbn. now destruct (Nat.eqb a x). Qed.
Lemma cut_insert (f : nat -> nat) l a k : NoDup l -> In a l ->
  firstn (index_of a l) (map f l) ++ k :: skipn (S (index_of a l)) (map f l) = map (fun b => if Nat.eqb b a then k else f b) l.
Proof.
  intros N. induction N as [|x l Hx N IH]; intros H; [destruct H|]. rewrite index_of_cons, (Nat.eqb_sym a x).
  destruct (Nat.eqb_spec x a) as [->|Nx]; cbn [map firstn skipn app].
  - rewrite Nat.eqb_refl. f_equal. apply map_ext_in. intros b Hb. destruct (Nat.eqb_spec b a) as [->|]; [tauto|reflexivity].
  - destruct (Nat.eqb_spec x a); [tauto|]. f_equal. apply IH. destruct H; [congruence|assumption].
Qed.
Lemma cut_remove (f : nat -> nat) l a : NoDup l -> In a l ->
  firstn (index_of a l) (map f l) ++ skipn (S (index_of a l)) (map f l) = map f (except_nat l [a]).
Proof.
  intros N. induction N as [|x l Hx N IH]; intros H; [destruct H|]. rewrite index_of_cons, (Nat.eqb_sym a x).
  destruct (Nat.eqb_spec x a) as [->|Nx]; cbn [map firstn skipn app].
  - unfold except. cbn [filter]. destruct (in_dec Nat.eq_dec a [a]) as [_|C]; [|exfalso; apply C; now left].
    f_equal. symmetry. apply except_none. intros b Hb [E|[]]. subst. tauto.
  - unfold except. cbn [filter]. destruct (in_dec Nat.eq_dec x [a]) as [[E|[]]|_]; [congruence|]. cbn [map]. f_equal.
    apply IH. destruct H; [congruence|assumption].
Qed.
Lemma except_seq_suffix N n a : n <= N -> N - n <= a -> exists pre, except_nat (seq 0 N) [a] = pre ++ except_nat (seq (N - n) n) [a].
Proof.
  intros H Ha. exists (seq 0 (N - n)). replace (seq 0 N) with (seq 0 (N - n) ++ seq (N - n) n).
  2: { change (N - n) with (0 + (N - n)) at 2. rewrite <- seq_app. f_equal. lia. }
  rewrite except_app. f_equal. apply except_none. intros b Hb [<-|[]]. apply in_seq in Hb. lia.
Qed.

Section Values.
  Context (N : nat) (S : list nat) (a r nsamp : nat) (to_end : bool).
  Hypothesis HS : length S = N.
  Hypothesis Ha : a + r + 1 = N.
  Definition Dv (j : nat) : nat := nth j S 0.
  Definition Lv : list nat := except_nat (seq 0 N) [a].
  Definition OXv : list nat := if to_end then Lv ++ [a] else seq 0 N.
  Definition axis_out : Z := if to_end then (-1)%Z else (-1 - Z.of_nat r)%Z.
  (* names, lengths and entries of the axes of a prepared array *)
  Definition own (t : tensor) : list nat :=
    if Nat.leb (tndim t) 1 then [a]
    else if to_end then except_nat (seq (N - tndim t) (tndim t)) [a] ++ [a] else seq (N - tndim t) (tndim t).
  Definition len (t : tensor) (nlen j : nat) : nat := if Nat.eqb j a then nlen else from_end (tshape t) (N - 1 - j).
  Definition val (t : tensor) (env : nat -> nat) : Qc :=
    match tndim t with 0 => tget t [] | 1 => tget t [env a] | n => tget t (map env (seq (N - n) n)) end.
  Record fits (t : tensor) : Prop := {
    ft_ok : tensor_ok t;
    ft_ndim : tndim t <= N;
    ft_samp : tndim t = 0 \/ tndim t = 1 /\ from_end (tshape t) 0 = nsamp \/ 2 <= tndim t /\ r < tndim t /\ from_end (tshape t) r = nsamp;
    ft_len : 2 <= tndim t -> forall k, k < tndim t -> k <> r -> from_end (tshape t) k = from_end S k \/ from_end (tshape t) k = 1
  }.

  Lemma Lv_In j : In j Lv <-> j < N /\ j <> a.
  Proof. unfold Lv. rewrite except_In, in_seq. cbn. intuition lia. Qed.
  Lemma NoDup_Lv : NoDup Lv.
  Proof. apply NoDup_except, seq_NoDup. Qed.
  Lemma Lv_length : length Lv = N - 1.
  Proof.
    pose proof (except_length (seq 0 N) [a] (seq_NoDup _ _)) as X. rewrite seq_length in X. cbn [length] in X.
    assert (H : NoDup [a]) by (repeat constructor; intros []). specialize (X H).
    assert (I : incl [a] (seq 0 N)) by (intros b [<-|[]]; apply in_seq; lia). specialize (X I). unfold Lv. lia.
  Qed.
  Lemma Dv_from_end j : j < N -> Dv j = from_end S (N - 1 - j).
  Proof. intros H. rewrite from_end_nth by lia. unfold Dv. f_equal. lia. Qed.
  Lemma OXv_NoDup : NoDup OXv.
  Proof.
    unfold OXv. destruct to_end; [|apply seq_NoDup]. apply NoDup_app_; [apply NoDup_Lv|repeat constructor; intros []|].
    intros x Hx [<-|[]]. apply Lv_In in Hx. tauto.
  Qed.
  Lemma OXv_In j : In j OXv <-> j < N.
  Proof.
    unfold OXv. destruct to_end; [|rewrite in_seq; lia]. rewrite in_app_iff, Lv_In. cbn. destruct (Nat.eq_dec a j); intuition lia.
  Qed.
  Lemma OXv_length : length OXv = N.
  Proof. unfold OXv. destruct to_end; [rewrite app_length, Lv_length; cbn; lia|apply seq_length]. Qed.
  Lemma OXv_except : except_nat OXv [a] = Lv.
  Proof.
    unfold OXv. destruct to_end; [|reflexivity]. rewrite except_app, (except_all _ [a] [a]), app_nil_r by auto.
    apply except_none. intros x Hx [<-|[]]. apply Lv_In in Hx. tauto.
  Qed.
  Lemma OXv_axis : is_axis N axis_out (index_of a OXv).
  Proof.
    unfold OXv, axis_out. destruct to_end.
    - rewrite index_of_last, Lv_length by (rewrite Lv_In; tauto). split; [lia|right; lia].
    - rewrite index_of_seq by lia. split; [lia|right; lia].
  Qed.

  Lemma own_NoDup t : NoDup (own t).
  Proof.
    unfold own. destruct (Nat.leb _ _); [repeat constructor; intros []|]. destruct to_end; [|apply seq_NoDup].
    apply NoDup_app_; [apply NoDup_except, seq_NoDup|repeat constructor; intros []|].
    intros x Hx [<-|[]]. apply except_In in Hx. cbn in Hx. tauto.
  Qed.
  Lemma own_In t : fits t -> In a (own t).
  Proof.
    intros F. unfold own. destruct (Nat.leb_spec (tndim t) 1); [now left|]. destruct to_end; [apply in_or_app; right; now left|].
    apply in_seq. pose proof (ft_ndim t F). destruct (ft_samp t F) as [?|[[? ?]|(? & ? & ?)]]; lia.
  Qed.
  Lemma own_except t : except_nat (own t) [a] = if Nat.leb (tndim t) 1 then [] else except_nat (seq (N - tndim t) (tndim t)) [a].
  Proof.
    unfold own. destruct (Nat.leb _ _); [apply except_all; auto|]. destruct to_end; [|reflexivity].
    rewrite except_app, (except_all _ [a] [a]), app_nil_r by auto. apply except_none. intros x Hx H. apply except_In in Hx. tauto.
  Qed.
  Lemma own_length t : length (own t) = Nat.max 1 (tndim t) \/ ~ fits t.
  Proof.
    destruct (Nat.leb_spec (tndim t) 1) as [H|H]; [left; unfold own; rewrite (proj2 (Nat.leb_le _ _)) by exact H; cbn [length]; lia|].
    destruct (Nat.le_gt_cases (tndim t) N) as [H1|H1]; [|right; intros F; pose proof (ft_ndim t F); lia].
    destruct (Nat.lt_ge_cases r (tndim t)) as [H2|H2]; [|right; intros F; destruct (ft_samp t F) as [?|[[? ?]|(? & ? & ?)]]; lia].
    left. unfold own. destruct (Nat.leb_spec (tndim t) 1); [lia|]. destruct to_end; [|rewrite seq_length; lia].
    rewrite app_length. cbn [length].
    pose proof (except_length (seq (N - tndim t) (tndim t)) [a] (seq_NoDup _ _)) as X. rewrite seq_length in X. cbn [length] in X.
    assert (Nd : NoDup [a]) by (repeat constructor; intros []). specialize (X Nd).
    assert (I : incl [a] (seq (N - tndim t) (tndim t))) by (intros b [<-|[]]; apply in_seq; lia). specialize (X I). lia.
  Qed.
  Lemma own_len t : fits t -> length (own t) = Nat.max 1 (tndim t).
  Proof. intros F. destruct (own_length t); tauto. Qed.
  Lemma own_suffix t : fits t -> (2 <= tndim t \/ r = 0) -> exists pre, OXv = pre ++ own t.
  Proof.
    intros F HR. pose proof (ft_ndim t F). unfold own, OXv. destruct (Nat.leb_spec (tndim t) 1).
    - destruct to_end; [now exists Lv|]. exists (seq 0 (N - 1)). assert (a = N - 1) by lia. subst a.
      replace [N - 1] with (seq (0 + (N - 1)) 1) by reflexivity. rewrite <- seq_app. f_equal. lia.
    - destruct to_end.
      + destruct (except_seq_suffix N (tndim t) a) as [pre E]; [lia| |].
        { destruct (ft_samp t F) as [?|[[? ?]|(? & ? & ?)]]; lia. }
        exists pre. unfold Lv. now rewrite E, app_assoc.
      + exists (seq 0 (N - tndim t)). change (N - tndim t) with (0 + (N - tndim t)) at 2. rewrite <- seq_app. f_equal. lia.
  Qed.
  Lemma own_range t j : fits t -> In j (own t) -> j = a \/ 2 <= tndim t /\ N - 1 - j < tndim t /\ N - 1 - j <> r /\ j < N.
  Proof.
    intros F Hj. pose proof (ft_ndim t F). destruct (Nat.eq_dec j a) as [|Ne]; [now left|]. right.
    unfold own in Hj. destruct (Nat.leb_spec (tndim t) 1); [destruct Hj as [|[]]; congruence|].
    assert (X : In j (seq (N - tndim t) (tndim t))).
    { destruct to_end; [|exact Hj]. apply in_app_or in Hj. destruct Hj as [Hj|[|[]]]; [|congruence]. now apply except_In in Hj. }
    apply in_seq in X. lia.
  Qed.
  Lemma own_lengths t nlen j : fits t -> In j (own t) -> j <> a -> len t nlen j = Dv j \/ len t nlen j = 1.
  Proof.
    intros F Hj Ne. destruct (own_range t j F Hj) as [|(H1 & H2 & H3 & H4)]; [tauto|].
    unfold len. destruct (Nat.eqb_spec j a); [tauto|]. rewrite Dv_from_end by exact H4. now apply (ft_len t F).
  Qed.

  (* preparing one array *)
  Lemma view_start t : fits t -> 2 <= tndim t -> view t (seq (N - tndim t) (tndim t)) (len t nsamp) (val t).
  Proof.
    intros F H. pose proof (ft_ndim t F) as HN. split; [apply (ft_ok t F)|]. split.
    - apply (nth_ext _ _ 0 0); [now rewrite map_length, seq_length|]. intros k Hk.
      change (length (tshape t)) with (tndim t) in Hk. rewrite (nth_map_in _ _ _ _ 0) by (now rewrite seq_length).
      rewrite seq_nth by exact Hk. unfold len. destruct (Nat.eqb_spec (N - tndim t + k) a) as [E|E].
      + destruct (ft_samp t F) as [?|[[? ?]|(? & H1 & H2)]]; [lia|lia|]. rewrite <- H2, from_end_nth by exact H1.
        change (length (tshape t)) with (tndim t). f_equal. lia.
      + rewrite from_end_nth by (change (length (tshape t)) with (tndim t); lia). change (length (tshape t)) with (tndim t). f_equal. lia.
    - intros env I. unfold val. destruct (tndim t) as [|[|n]]; [lia|lia|reflexivity].
  Qed.
  Lemma view_one t : fits t -> tndim t = 1 -> view t [a] (len t nsamp) (val t).
  Proof.
    intros F H. split; [apply (ft_ok t F)|]. unfold tndim in H. destruct (tshape t) as [|n [|? ?]] eqn:E; try discriminate.
    split.
    - cbn [map]. unfold len. rewrite Nat.eqb_refl. destruct (ft_samp t F) as [X|[[_ X]|[X _]]]; unfold tndim in X; rewrite ?E in X; cbn in X; try lia.
      unfold from_end in X. cbn in X. congruence.
    - intros env I. unfold val, tndim. rewrite E. reflexivity.
  Qed.
  Definition moved (t : tensor) : res tensor :=
    if (to_end && negb (-1 - Z.of_nat r =? -1)%Z)%bool then np_moveaxis [(-1 - Z.of_nat r)%Z] [(-1)%Z] t else Ok t.
  Lemma moved_view t : fits t -> 2 <= tndim t -> exists u, moved t = Ok u /\ view u (own t) (len t nsamp) (val t).
  Proof.
    intros F H. pose proof (ft_ndim t F) as HN. pose proof (view_start t F H) as V.
    assert (Hr : r < tndim t) by (destruct (ft_samp t F) as [?|[[? ?]|(? & H1 & H2)]]; lia).
    unfold moved, own. destruct (Nat.leb_spec (tndim t) 1); [lia|]. destruct to_end; cbn [andb]; [|eauto].
    set (n := tndim t) in *. destruct (Z.eqb_spec (-1 - Z.of_nat r) (-1)) as [E|E]; cbn [negb].
    - exists t. split; [reflexivity|].
      assert (X : seq (N - n) n = except_nat (seq (N - n) n) [a] ++ [a]).
      { assert (Y : seq (N - n) n = seq (N - n) (n - 1) ++ [a]).
        { replace n with ((n - 1) + 1) at 2 by lia. rewrite seq_app. f_equal. cbn. f_equal. lia. }
        rewrite Y at 2. rewrite except_app, (except_all _ [a] [a]), app_nil_r by auto. rewrite except_none; [exact Y|].
        intros x Hx [<-|[]]. apply in_seq in Hx. lia. }
      rewrite <- X. exact V.
    - set (p := n - 1 - r).
      destruct (moveaxis_view t (seq (N - n) n) (len t nsamp) (val t) [p] V) as (u & Eu & Vu).
      { repeat constructor; intros []. }
      { intros q [<-|[]]. rewrite seq_length. unfold p. lia. }
      exists u. split.
      + rewrite <- Eu. unfold np_moveaxis, moveaxis_order. fold n. cbn [map length].
        assert (X : is_axis n (-1 - Z.of_nat r) p) by (split; unfold p; [lia|right; lia]).
        assert (Y : is_axis n (Z.of_nat p) p) by (split; unfold p; [lia|left; lia]).
        assert (Nd : NoDup [p]) by (repeat constructor; intros []).
        pose proof (normalize_ints n [(-1 - Z.of_nat r)%Z] [p] (Forall2_cons _ _ X (Forall2_nil _)) Nd) as X1.
        pose proof (normalize_ints n [Z.of_nat p] [p] (Forall2_cons _ _ Y (Forall2_nil _)) Nd) as Y1. cbn [map] in X1, Y1. rewrite X1, Y1.
        reflexivity.
      + rewrite seq_length in Vu. pose proof (outer_names (seq (N - n) n) [a] n [p]) as ON. rewrite seq_length in ON.
        assert (IA : index_of a (seq (N - n) n) = p) by (rewrite index_of_seq; unfold p; lia).
        specialize (ON eq_refl (seq_NoDup _ _)). assert (II : incl [a] (seq (N - n) n)) by (intros b [<-|[]]; apply in_seq; lia).
        specialize (ON II). cbn [map] in ON. rewrite IA in ON. specialize (ON eq_refl).
        unfold outer_axes in ON. rewrite except_filter in ON. rewrite map_app, ON in Vu. cbn [map] in Vu.
        rewrite seq_nth in Vu by (unfold p; lia). replace (N - n + p) with a in Vu by (unfold p; lia). exact Vu.
  Qed.
  Lemma secondary_view t : fits t ->
    exists u, prepare_secondary (-1 - Z.of_nat r) nsamp to_end t = Ok u /\ view u (own t) (len t nsamp) (val t).
  Proof.
    intros F. unfold prepare_secondary. destruct (Nat.eqb_spec (tndim t) 0) as [E|E].
    - eexists. split; [reflexivity|]. destruct (tensor_full nsamp (tget t [])) as (G1 & G2 & G3). unfold own. rewrite E. cbn [Nat.leb].
      split; [exact G1|]. split; [rewrite G2; cbn; unfold len; now rewrite Nat.eqb_refl|]. intros env I. cbn [map]. unfold val. rewrite E. apply G3.
      specialize (I a (or_introl eq_refl)). unfold len in I. now rewrite Nat.eqb_refl in I.
    - destruct (Nat.eqb_spec (tndim t) 1) as [E1|E1]; cbn [rbind fst snd].
      + pose proof (view_one t F E1) as V. exists t. unfold own. rewrite E1. cbn [Nat.leb]. split; [|exact V].
        destruct V as (_ & Hs & _). unfold shape_at. rewrite Hs. cbn [map]. unfold len. rewrite Nat.eqb_refl.
        change (zread [nsamp] (-1)) with (Ok nsamp). cbn [rbind]. now rewrite Nat.eqb_refl.
      + destruct (moved_view t F ltac:(lia)) as (u & Eu & V). exists u. split; [|exact V].
        assert (En : tndim u = tndim t). { rewrite (view_ndim _ _ _ _ V), (own_len t F). lia. }
        assert (SH : shape_at u axis_out = Ok nsamp).
        { unfold shape_at, axis_out. destruct V as (_ & Hs & _). unfold own in Hs. destruct (Nat.leb_spec (tndim t) 1); [lia|].
          destruct to_end.
          - rewrite Hs. change (-1)%Z with (- Z.of_nat 1)%Z. rewrite (zread_neg _ _ 0) by (rewrite map_length, app_length; cbn; lia).
            rewrite map_length, app_length. cbn [length]. rewrite (nth_map_in _ _ _ _ 0) by (rewrite app_length; cbn; lia).
            rewrite app_nth2 by lia. replace (length (except_nat (seq (N - tndim t) (tndim t)) [a]) + 1 - 1 - length (except_nat (seq (N - tndim t) (tndim t)) [a])) with 0 by lia.
            cbn [nth]. unfold len. now rewrite Nat.eqb_refl.
          - rewrite Hs. assert (Hr : r < tndim t) by (destruct (ft_samp t F) as [?|[[? ?]|(? & ? & ?)]]; lia). pose proof (ft_ndim t F).
            replace (-1 - Z.of_nat r)%Z with (- Z.of_nat (Datatypes.S r))%Z by lia. rewrite (zread_neg _ _ 0) by (rewrite map_length, seq_length; lia).
            rewrite map_length, seq_length, (nth_map_in _ _ _ _ 0) by (rewrite seq_length; lia). rewrite seq_nth by lia.
            replace (N - tndim t + (tndim t - Datatypes.S r)) with a by lia. unfold len. now rewrite Nat.eqb_refl. }
        unfold moved in Eu. unfold axis_out in SH. destruct to_end; cbn [andb] in *.
        * destruct (Z.eqb_spec (-1 - Z.of_nat r) (-1)) as [Er|Er]; cbn [negb] in *.
          -- injection Eu as ->. cbn [rbind fst snd]. rewrite Er, SH. cbn [rbind]. now rewrite Nat.eqb_refl.
          -- rewrite Eu. cbn [rbind fst snd]. rewrite SH. cbn [rbind]. now rewrite Nat.eqb_refl.
        * injection Eu as ->. cbn [rbind fst snd]. rewrite SH. cbn [rbind]. now rewrite Nat.eqb_refl.
  Qed.
  Lemma own_position x u nlen f : fits x -> 1 <= tndim x -> (tndim x = 1 -> r = 0) -> view u (own x) (len x nlen) f ->
    Z.to_nat (axis_out + Z.of_nat (tndim u)) = index_of a (own x).
  Proof.
    intros F H1 H2 V. pose proof (view_ndim _ _ _ _ V) as En. rewrite (own_len x F) in En. rewrite En. pose proof (ft_ndim x F).
    unfold own, axis_out. destruct (Nat.leb_spec (tndim x) 1).
    - rewrite index_of_cons, Nat.eqb_refl. rewrite (H2 ltac:(lia)). destruct to_end; lia.
    - pose proof (own_len x F) as OL. unfold own in OL. destruct (Nat.leb_spec (tndim x) 1); [lia|]. destruct to_end.
      + rewrite app_length in OL. cbn [length] in OL. rewrite index_of_last by (rewrite except_In; cbn; tauto). lia.
      + assert (Hr : r < tndim x) by (destruct (ft_samp x F) as [?|[[? ?]|(? & ? & ?)]]; lia). rewrite index_of_seq by lia. lia.
  Qed.
  Lemma view_dim x u nlen f : fits x -> 1 <= tndim x -> (tndim x = 1 -> r = 0) -> view u (own x) (len x nlen) f -> dim_at u axis_out = nlen.
  Proof.
    intros F H1 H2 V. unfold dim_at.
    replace (axis_out <? 0)%Z with true by (symmetry; apply Z.ltb_lt; unfold axis_out; destruct to_end; lia).
    rewrite (own_position x u nlen f F H1 H2 V). destruct V as (_ & Hs & _). rewrite Hs.
    destruct (index_of_lt a (own x) (own_In x F)) as [Q1 Q2]. rewrite (nth_map_in _ _ _ _ 0) by exact Q1. rewrite Q2.
    unfold len. now rewrite Nat.eqb_refl.
  Qed.
  Lemma primary_view x : fits x -> 1 <= tndim x -> (tndim x = 1 -> r = 0) ->
    exists u, moved x = Ok u /\ view u (own x) (len x nsamp) (val x) /\ dim_at u axis_out = nsamp.
  Proof.
    intros F H1 H2. assert (X : exists u, moved x = Ok u /\ view u (own x) (len x nsamp) (val x)).
    { destruct (Nat.eq_dec (tndim x) 1) as [E|E]; [|apply moved_view; [exact F|lia]].
      exists x. unfold moved. rewrite (H2 E). cbn [negb]. destruct to_end; cbn; (split; [reflexivity|]); unfold own; rewrite E; now apply view_one. }
    destruct X as (u & Eu & V). exists u. split; [exact Eu|]. split; [exact V|]. now apply (view_dim x u nsamp (val x)).
  Qed.
  (* prepared arrays: ready f t u when u holds the entries f t along the axes own t *)
  Definition ready (nlen : nat) (f : tensor -> (nat -> nat) -> Qc) (t u : tensor) : Prop :=
    fits t /\ view u (own t) (len t nlen) (f t).
  Definition elem (nlen : nat) (f : tensor -> (nat -> nat) -> Qc) (env : nat -> nat) (t : tensor) (i : nat) : Qc :=
    f t (bind [a] [i] (clip (len t nlen) env)).

  Lemma value_axes_position t u : fits t -> tndim u = Nat.max 1 (tndim t) ->
    Forall2 (is_axis (length (own t))) (value_axes axis_out u) (map (fun c => index_of c (own t)) [a]).
  Proof.
    intros F En. rewrite (own_len t F). cbn [map]. unfold value_axes. rewrite En. constructor; [|constructor].
    pose proof (ft_ndim t F). pose proof (own_len t F) as OL. unfold own, axis_out in *.
    destruct (Nat.leb_spec (tndim t) 1).
    - rewrite index_of_cons, Nat.eqb_refl. replace (Nat.eqb (Nat.max 1 (tndim t)) 1) with true by (symmetry; apply Nat.eqb_eq; lia).
      split; [lia|right; lia].
    - replace (Nat.eqb (Nat.max 1 (tndim t)) 1) with false by (symmetry; apply Nat.eqb_neq; lia).
      assert (Hr : r < tndim t) by (destruct (ft_samp t F) as [?|[[? ?]|(? & ? & ?)]]; lia). destruct to_end.
      + rewrite app_length in OL. cbn [length] in OL. rewrite index_of_last by (rewrite except_In; cbn; tauto). split; [lia|right; lia].
      + rewrite index_of_seq by lia. split; [lia|right; lia].
  Qed.
  Lemma ready_operand nlen f t u : ready nlen f t u ->
    operand Lv Dv (u, value_axes axis_out u) (own t) [a] (len t nlen) (f t).
  Proof.
    intros [F V]. constructor; cbn [fst snd].
    - exact V.
    - apply own_NoDup.
    - repeat constructor; intros [].
    - intros b [<-|[]]. now apply own_In.
    - apply value_axes_position; [exact F|]. now rewrite (view_ndim _ _ _ _ V), (own_len t F).
    - rewrite own_except. destruct (Nat.leb_spec (tndim t) 1); [exists Lv; now rewrite app_nil_r|].
      apply except_seq_suffix; [apply (ft_ndim t F)|]. pose proof (ft_ndim t F). destruct (ft_samp t F) as [?|[[? ?]|(? & ? & ?)]]; lia.
    - intros j Hj. apply except_In in Hj. destruct Hj as [H1 H2]. apply own_lengths; [exact F|exact H1|]. intros ->. apply H2. now left.
  Qed.
  Definition opnd (t u : tensor) : tensor * list nat := named (u, value_axes axis_out u) (own t) [a].
  Lemma ready_core nlen f t u : ready nlen f t u -> core_axes (u, value_axes axis_out u) = Ok (opnd t u).
  Proof. intros H. exact (operand_core_axes _ _ _ _ _ _ _ (ready_operand _ _ _ _ H)). Qed.
  Lemma ready_elem nlen f t u env i : ready nlen f t u -> inside Dv Lv env -> i < nlen ->
    core_elem (opnd t u) (map env Lv) [i] = elem nlen f env t i.
  Proof.
    intros H I Hi. apply (operand_elem _ _ _ _ _ _ _ env [i] (ready_operand _ _ _ _ H) I). cbn [map]. constructor; [|constructor].
    unfold len. now rewrite Nat.eqb_refl.
  Qed.
  Definition loop_fits (g : tensor * list nat) : Prop :=
    exists e : list nat * (nat -> nat), loop_shape g = map (snd e) (fst e) /\ (exists pre, Lv = pre ++ fst e) /\
      forall j, In j (fst e) -> snd e j = Dv j \/ snd e j = 1.
  Lemma ready_loop nlen f t u : ready nlen f t u -> loop_fits (opnd t u).
  Proof.
    intros H. pose proof (ready_operand _ _ _ _ H) as O. exists (except_nat (own t) [a], len t nlen). cbn [fst snd]. split; [|split].
    - exact (operand_loop_shape _ _ _ _ _ _ _ O).
    - exact (op_loop _ _ _ _ _ _ _ O).
    - exact (op_len _ _ _ _ _ _ _ O).
  Qed.
  Lemma loops_broadcast l : Forall loop_fits l -> broadcast_shapes (map Dv Lv :: map loop_shape l) = Ok (map Dv Lv).
  Proof.
    intros H. assert (X : exists es : list (list nat * (nat -> nat)), map loop_shape l = map (fun e => map (snd e) (fst e)) es /\
      forall e, In e es -> (exists pre, Lv = pre ++ fst e) /\ forall j, In j (fst e) -> snd e j = Dv j \/ snd e j = 1).
    { induction H as [|g l (e & E1 & E2) _ (es & F1 & F2)]; [exists []; split; [reflexivity|intros e []]|].
      exists (e :: es). cbn [map]. split; [now rewrite E1, F1|]. intros e' [<-|He]; [exact E2|now apply F2]. }
    destruct X as (es & E1 & E2). rewrite E1. apply broadcast_shapes_ok.
    apply (broadcasts_named Lv Dv ((Lv, Dv) :: es)).
    - intros e [<-|He]; [now exists []|]. now apply E2.
    - intros e j [<-|He]; [auto|]. now apply E2.
    - right. exists (Lv, Dv). split; [now left|reflexivity].
    - intros j Hj. right. exists (Lv, Dv). split; [now left|]. now split.
    - apply NoDup_Lv.
  Qed.
  Lemma ready_cores nlen f ts us : Forall2 (ready nlen f) ts us ->
    mapR core_axes (with_axes axis_out us) = Ok (map (fun p => opnd (fst p) (snd p)) (combine ts us)) /\
    Forall loop_fits (map (fun p => opnd (fst p) (snd p)) (combine ts us)).
  Proof.
    intros H. induction H as [|t u ts us H HF (IH1 & IH2)]; [split; [reflexivity|constructor]|].
    unfold with_axes in *. cbn [map mapR combine fst snd]. rewrite (ready_core _ _ _ _ H). cbn [rbind]. rewrite IH1. cbn [rbind].
    split; [reflexivity|]. constructor; [exact (ready_loop _ _ _ _ H)|exact IH2].
  Qed.
  Lemma ready_elems nlen f ts us env i : Forall2 (ready nlen f) ts us -> inside Dv Lv env -> i < nlen ->
    map (fun y : list nat -> Qc => y [i]) (map (fun g => core_elem g (map env Lv)) (map (fun p => opnd (fst p) (snd p)) (combine ts us)))
    = map (fun t => elem nlen f env t i) ts.
  Proof.
    intros H I Hi. induction H as [|t u ts us H HF IH]; [reflexivity|]. cbn [combine map fst snd]. rewrite IH. f_equal.
    exact (ready_elem _ _ _ _ _ _ H I Hi).
  Qed.
  Lemma ready_samples {V} (R : reader V) nlen f x w y us env : Forall2 (ready nlen f) (x :: w :: y) us -> inside Dv Lv env ->
    core_samples R nlen (map (fun g => core_elem g (map env Lv)) (map (fun p => opnd (fst p) (snd p)) (combine (x :: w :: y) us)))
    = map (fun i => (rd_val R (map (fun t => elem nlen f env t i) (x :: y)), elem nlen f env w i)) (seq 0 nlen).
  Proof.
    intros H I. destruct (Forall2_uncons _ _ _ _ H) as (ux & us1 & -> & Hx & H1). destruct (Forall2_uncons _ _ _ _ H1) as (uw & us2 & -> & Hw & H2).
    unfold core_samples. apply map_ext_in. intros i Hi. apply in_seq in Hi. assert (Li : i < nlen) by lia.
    unfold acc. cbn [combine map fst snd skipn nth]. rewrite (ready_elem _ _ _ _ _ _ Hx I Li), (ready_elem _ _ _ _ _ _ Hw I Li).
    pose proof (ready_elems _ _ _ _ _ _ H2 I Li) as E. cbn [map] in E. now rewrite E.
  Qed.
  Lemma elem_val t env i : fits t -> elem nsamp val env t i = read_value t r i (counted_from_end N env).
  Proof.
    intros F. unfold elem, val, read_value. assert (B : bind [a] [i] (clip (len t nsamp) env) a = i).
    { unfold bind. cbn. now rewrite Nat.eqb_refl. }
    pose proof (ft_ndim t F) as HN. destruct (tndim t) as [|[|n]] eqn:En; [reflexivity|now rewrite B|].
    rewrite seq_from_end by exact HN. rewrite map_map. f_equal. apply map_ext_in. intros k Hk. apply in_rev, in_seq in Hk.
    destruct (Nat.eqb_spec k r) as [->|Nk].
    - replace (N - 1 - r) with a by lia. exact B.
    - rewrite bind_out by (intros [E|[]]; lia). unfold clip, len, dim_from_end, counted_from_end.
      destruct (Nat.eqb_spec (N - 1 - k) a) as [E|_]; [lia|]. replace (N - 1 - (N - 1 - k)) with k by lia. reflexivity.
  Qed.

  (* arrays padded with zeros *)
  Definition valp (t : tensor) (env : nat -> nat) : Qc := if Nat.ltb (env a) nsamp then val t env else 0%Qc.
  Definition pad_position (u : tensor) : nat := if Nat.eqb (tndim u) 1 then 0 else Z.to_nat (axis_out + Z.of_nat (tndim u)).
  Lemma ready_pad pad t u : ready nsamp val t u -> ready (nsamp + pad) valp t (pad_along (pad_position u) pad u).
  Proof.
    intros [F V]. split; [exact F|].
    assert (EP : pad_position u = index_of a (own t)).
    { unfold pad_position. pose proof (view_ndim _ _ _ _ V) as En. rewrite (own_len t F) in En. destruct (Nat.eqb_spec (tndim u) 1) as [E|E].
      - unfold own. replace (Nat.leb (tndim t) 1) with true by (symmetry; apply Nat.leb_le; lia). now rewrite index_of_cons, Nat.eqb_refl.
      - apply (own_position t u nsamp (val t) F); [lia|lia|exact V]. }
    rewrite EP. eapply view_ext; [apply (pad_view _ _ _ _ a pad V (own_NoDup t) (own_In t F))| |].
    - intros b _. unfold padded, len. rewrite Nat.eqb_refl. destruct (Nat.eqb_spec b a); reflexivity.
    - intros env _. unfold valp. unfold len. now rewrite Nat.eqb_refl.
  Qed.
  Lemma val_ext t e e' : (forall b, e b = e' b) -> val t e = val t e'.
  Proof. intros H. unfold val. destruct (tndim t) as [|[|n]]; [reflexivity|now rewrite H|]. f_equal. apply map_ext. exact H. Qed.
  Lemma elem_pad pad t env i : fits t ->
    elem (nsamp + pad) valp env t i = if Nat.ltb i nsamp then read_value t r i (counted_from_end N env) else 0%Qc.
  Proof.
    intros F. unfold elem, valp. assert (B : forall e, bind [a] [i] e a = i) by (intros e; unfold bind; cbn; now rewrite Nat.eqb_refl).
    rewrite B. destruct (Nat.ltb i nsamp); [|reflexivity]. rewrite <- (elem_val t env i F). unfold elem. apply val_ext. intros b.
    destruct (Nat.eq_dec b a) as [->|Nb]; [now rewrite !B|]. rewrite !bind_out by (intros [E|[]]; congruence).
    unfold clip, len. destruct (Nat.eqb_spec b a); [congruence|reflexivity].
  Qed.

  (* the shape of the result *)
  Definition Dn (nlen j : nat) : nat := if Nat.eqb j a then nlen else Dv j.
  Lemma shapes_broadcast nlen f x others us : Forall2 (ready nlen f) (x :: others) us ->
    1 <= tndim x -> (tndim x = 1 -> r = 0) -> broadcasts (map tshape (shaping x others)) S ->
    match us with
    | [] => False
    | u :: rest => broadcast_shapes (tshape u :: map tshape (filter (fun v => Nat.ltb 1 (tndim v)) rest)) = Ok (map (Dn nlen) OXv)
    end.
  Proof.
    intros H Hx1 Hx2 (B1 & B2 & B3). destruct (Forall2_uncons _ _ _ _ H) as (ux & us1 & -> & Hx & HO).
    set (es := map (fun t => (own t, len t nlen)) (shaping x others)).
    assert (EF : map tshape (filter (fun v => Nat.ltb 1 (tndim v)) us1) = map (fun t => map (len t nlen) (own t)) (filter (fun v => Nat.ltb 1 (tndim v)) others)).
    { clear - HO HS Ha. induction HO as [|t u ts us [F V] HO IH]; [reflexivity|]. cbn [filter].
      rewrite (view_ndim _ _ _ _ V), (own_len t F). replace (Nat.ltb 1 (Nat.max 1 (tndim t))) with (Nat.ltb 1 (tndim t)).
      2: { apply eq_iff_eq_true. rewrite !Nat.ltb_lt. lia. }
      destruct (Nat.ltb 1 (tndim t)); [|exact IH]. cbn [map]. rewrite IH. f_equal. apply V. }
    assert (EX : tshape ux = map (len x nlen) (own x)) by apply Hx.
    assert (EE : tshape ux :: map tshape (filter (fun v => Nat.ltb 1 (tndim v)) us1) = map (fun e => map (snd e) (fst e)) es).
    { unfold es, shaping. cbn [map fst snd]. rewrite EX, EF, map_map. reflexivity. }
    rewrite EE.
    assert (FT : forall t, In t (shaping x others) -> fits t).
    { intros t [<-|Ht]; [apply Hx|]. apply filter_In in Ht. destruct Ht as [Ht _]. clear - HO Ht.
      induction HO as [|t' u ts us [F V] HO IH]; [destruct Ht|]. destruct Ht as [<-|Ht]; [exact F|now apply IH]. }
    assert (BG : forall t, In t (shaping x others) -> 2 <= tndim t \/ r = 0).
    { intros t [<-|Ht]; [destruct (Nat.eq_dec (tndim x) 1); [right; auto|left; lia]|]. apply filter_In in Ht. destruct Ht as [_ Ht].
      apply Nat.ltb_lt in Ht. left. lia. }
    apply broadcast_shapes_ok. apply (broadcasts_named OXv (Dn nlen) es).
    - intros e He. apply in_map_iff in He. destruct He as (t & <- & Ht). cbn [fst]. apply own_suffix; auto.
    - intros e j He. apply in_map_iff in He. destruct He as (t & <- & Ht). cbn [fst snd]. intros Hj. unfold Dn.
      destruct (Nat.eqb_spec j a) as [->|Nj]; [left; unfold len; now rewrite Nat.eqb_refl|]. apply own_lengths; auto.
    - right. destruct B2 as [E|(s & Hs & Es)]; [rewrite E in HS; cbn in HS; lia|]. apply in_map_iff in Hs. destruct Hs as (t & <- & Ht).
      exists (own t, len t nlen). split; [now apply (in_map (fun t => (own t, len t nlen)))|]. cbn [fst].
      change (length (tshape t)) with (tndim t) in Es. rewrite HS in Es. unfold own, OXv, Lv.
      destruct (Nat.leb_spec (tndim t) 1).
      + assert (E0 : a = 0) by lia. assert (E1 : N = 1) by lia. rewrite E0, E1. destruct to_end; reflexivity.
      + rewrite Es, Nat.sub_diag. reflexivity.
    - intros j Hj. apply OXv_In in Hj. unfold Dn. destruct (Nat.eqb_spec j a) as [->|Nj].
      + right. exists (own x, len x nlen). split; [now left|]. cbn [fst snd]. split; [apply own_In, Hx|]. unfold len. now rewrite Nat.eqb_refl.
      + rewrite Dv_from_end by exact Hj. destruct (B3 (N - 1 - j) ltac:(lia)) as [_ [E|(s & Hs & Es)]]; [now left|].
        apply in_map_iff in Hs. destruct Hs as (t & <- & Ht).
        destruct (Nat.lt_ge_cases (N - 1 - j) (tndim t)) as [C|C].
        * right. exists (own t, len t nlen). split; [now apply (in_map (fun t => (own t, len t nlen)))|]. cbn [fst snd]. split.
          -- unfold own. destruct (Nat.leb_spec (tndim t) 1).
             { destruct (BG t Ht); lia. }
             pose proof (ft_ndim t (FT t Ht)).
             assert (In j (seq (N - tndim t) (tndim t))) by (apply in_seq; lia).
             destruct to_end; [|assumption]. apply in_or_app. left. apply except_In. split; [assumption|]. intros [|[]]; congruence.
          -- unfold len. destruct (Nat.eqb_spec j a); [tauto|]. exact Es.
        * left. rewrite <- Es. apply from_end_out. exact C.
    - apply OXv_NoDup.
  Qed.
  Lemma normalize_out : np_normalize_axis_index axis_out (Z.of_nat N) = Ok (index_of a OXv).
  Proof.
    pose proof OXv_axis as H. unfold np_normalize_axis_index.
    destruct H as [H1 H2].
    replace ((axis_out <? - Z.of_nat N)%Z || (Z.of_nat N <=? axis_out)%Z)%bool with false.
    2: { symmetry. apply orb_false_iff. rewrite Z.ltb_ge, Z.leb_gt. lia. }
    f_equal. destruct (Z.ltb_spec axis_out 0); lia.
  Qed.
  Lemma result_shape nlen f x others us ms k : Forall2 (ready nlen f) (x :: others) us ->
    1 <= tndim x -> (tndim x = 1 -> r = 0) -> broadcasts (map tshape (shaping x others)) S ->
    out_from_values us ms axis_out (Some k) = Ok (map (Dn k) OXv ++ ms) /\
    out_from_values us ms axis_out None = Ok (map Dv Lv ++ ms).
  Proof.
    intros H H1 H2 H3. pose proof (shapes_broadcast nlen f x others us H H1 H2 H3) as B. destruct us as [|u rest]; [destruct B|].
    unfold out_from_values. rewrite B. cbn [rbind]. rewrite map_length, OXv_length, normalize_out. cbn [rbind].
    assert (IA : In a OXv) by (apply OXv_In; lia). split; f_equal.
    - cbn [app]. pose proof (cut_insert (Dn nlen) OXv a k OXv_NoDup IA) as X.
      transitivity ((firstn (index_of a OXv) (map (Dn nlen) OXv) ++ k :: skipn (Datatypes.S (index_of a OXv)) (map (Dn nlen) OXv)) ++ ms).
      { now rewrite <- app_assoc. }
      rewrite X. f_equal. apply map_ext. intros b. unfold Dn. destruct (Nat.eqb_spec b a); reflexivity.
    - cbn [app]. rewrite app_assoc, (cut_remove (Dn nlen) OXv a OXv_NoDup IA), OXv_except. f_equal. apply map_ext_in. intros b Hb.
      apply Lv_In in Hb. unfold Dn. destruct (Nat.eqb_spec b a); [tauto|reflexivity].
  Qed.
End Values.
