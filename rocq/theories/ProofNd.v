(* Proofs about functions along one axis of an array. *)
From Coq Require Import Permutation.
From Verif Require Import Base BaseLemmas ModelPush ModelKernels ModelIndex ModelAxes ModelNd SpecAxes SpecNd
  ProofIndex ProofLabels ProofAxes ProofArrays ProofMulti.

(* ---- broadcasting ----------------------------------------------------------------- *)

Definition bc2 (a b c : list nat) : Prop :=
  length c = Nat.max (length a) (length b) /\
  forall k, (nth k a 1 = nth k b 1 \/ nth k a 1 = 1 \/ nth k b 1 = 1) /\
            nth k c 1 = if Nat.eqb (nth k a 1) 1 then nth k b 1 else nth k a 1.

Lemma bcast_rev_spec a : forall b,
  match bcast_rev a b with
  | Ok c => bc2 a b c
  | Raise e => e = EValue /\ exists k, nth k a 1 <> nth k b 1 /\ nth k a 1 <> 1 /\ nth k b 1 <> 1
  end.
Proof.
  induction a as [|x a IH]; intros [|y b].
  - cbn. split; [reflexivity|]. intros [|k]; cbn; auto.
  - split; [reflexivity|]. intros k. replace (nth k [] 1) with 1 by (destruct k; reflexivity). cbn [Nat.eqb]. auto.
  - split; [cbn; lia|]. intros k. replace (nth k [] 1) with 1 by (destruct k; reflexivity). split; [auto|].
    destruct (Nat.eqb_spec (nth k (x :: a) 1) 1); auto.
  - cbn [bcast_rev]. specialize (IH b). destruct (bcast_rev a b) as [r|e]; cbn [rbind].
    + destruct IH as [L H].
      assert (G : forall z, (x = y \/ x = 1 \/ y = 1) -> z = (if Nat.eqb x 1 then y else x) -> bc2 (x :: a) (y :: b) (z :: r)).
      { intros z H1 H2. split; [cbn; lia|]. intros [|k]; cbn; [split; assumption|apply H]. }
      destruct (Nat.eqb_spec x y) as [->|N1]; [apply G; [auto|]; destruct (Nat.eqb_spec y 1); auto|].
      destruct (Nat.eqb_spec x 1) as [->|N2]; [apply G; auto|].
      destruct (Nat.eqb_spec y 1) as [->|N3].
      * apply G; [auto|]. destruct (Nat.eqb_spec x 1); tauto.
      * split; [reflexivity|]. exists 0. cbn. auto.
    + destruct IH as (-> & k & H). split; [reflexivity|]. exists (S k). exact H.
Qed.
Lemma from_end_out s k : length s <= k -> from_end s k = 1.
Proof. intros H. unfold from_end. apply nth_overflow. now rewrite rev_length. Qed.
Lemma bcast_spec a b :
  match bcast a b with
  | Ok c => length c = Nat.max (length a) (length b) /\
      forall k, (from_end a k = from_end b k \/ from_end a k = 1 \/ from_end b k = 1) /\
                from_end c k = if Nat.eqb (from_end a k) 1 then from_end b k else from_end a k
  | Raise e => e = EValue /\ exists k, from_end a k <> from_end b k /\ from_end a k <> 1 /\ from_end b k <> 1
  end.
Proof.
  unfold bcast. pose proof (bcast_rev_spec (rev a) (rev b)) as H. destruct (bcast_rev (rev a) (rev b)) as [c|e]; cbn [rbind].
  - destruct H as [L H]. rewrite !rev_length in L. rewrite rev_length. split; [exact L|]. intros k.
    assert (E : from_end (rev c) k = nth k c 1) by (unfold from_end; now rewrite rev_involutive). rewrite E. apply H.
  - exact H.
Qed.
Lemma from_end_ext a b : length a = length b -> (forall k, k < length a -> from_end a k = from_end b k) -> a = b.
Proof.
  intros L H. rewrite <- (rev_involutive a), <- (rev_involutive b). f_equal. apply (nth_ext _ _ 1 1).
  - now rewrite !rev_length.
  - intros k Hk. rewrite rev_length in Hk. now apply H.
Qed.
(* the same for lists: starting from a shape c0 *)
Definition bc_from (c0 : list nat) (l : list (list nat)) (c : list nat) : Prop :=
  (length c0 <= length c) /\ (forall s, In s l -> length s <= length c) /\
  (length c = length c0 \/ exists s, In s l /\ length s = length c) /\
  forall k, (from_end c0 k = from_end c k \/ from_end c0 k = 1) /\
    (forall s, In s l -> from_end s k = from_end c k \/ from_end s k = 1) /\
    (from_end c k = 1 \/ from_end c0 k = from_end c k \/ exists s, In s l /\ from_end s k = from_end c k).
Lemma foldR_bcast l : forall c0,
  match foldR bcast l c0 with
  | Ok c => bc_from c0 l c
  | Raise e => e = EValue /\ exists s s' k, In s (c0 :: l) /\ In s' (c0 :: l) /\
      from_end s k <> from_end s' k /\ from_end s k <> 1 /\ from_end s' k <> 1
  end.
Proof.
  induction l as [|s l IH]; intros c0; cbn [foldR].
  - split; [lia|]. split; [intros s []|]. split; [auto|]. intros k. split; [auto|]. split; [intros s []|auto].
  - pose proof (bcast_spec c0 s) as B. destruct (bcast c0 s) as [c1|e]; cbn [rbind].
    + destruct B as [L B]. specialize (IH c1). destruct (foldR bcast l c1) as [c|e].
      * destruct IH as (H1 & H2 & H3 & H4). split; [lia|]. split.
        { intros u [<-|Hu]; [lia|now apply H2]. }
        split.
        { destruct H3 as [H3|(u & Hu & E)]; [|right; exists u; split; [now right|exact E]].
          destruct (Nat.max_spec (length c0) (length s)) as [[_ E]|[_ E]]; [right; exists s; split; [now left|lia]|left; lia]. }
        intros k. specialize (B k). specialize (H4 k). destruct B as [B1 B2], H4 as (H4 & H5 & H6).
        destruct (Nat.eqb_spec (from_end c0 k) 1) as [E|E].
        -- split; [auto|]. split.
           { intros u [<-|Hu]; [rewrite <- B2; exact H4|now apply H5]. }
           destruct H6 as [H6|[H6|(u & Hu & E6)]]; [now left| |right; right; exists u; split; [now right|exact E6]].
           right. right. exists s. split; [now left|congruence].
        -- split; [left; destruct H4; congruence|]. split.
           { intros u [<-|Hu]; [|now apply H5]. destruct H4 as [H4|H4]; [|congruence]. destruct B1 as [B1|[B1|B1]]; auto; try congruence.
             left. congruence. }
           destruct H6 as [H6|[H6|(u & Hu & E6)]]; [now left| |right; right; exists u; split; [now right|exact E6]].
           right. left. congruence.
      * destruct IH as (-> & u & v & k & Hu & Hv & Huv). split; [reflexivity|].
        assert (T : forall z, In z (c1 :: l) -> from_end z k <> 1 -> exists z', In z' (c0 :: s :: l) /\ from_end z' k = from_end z k).
        { intros z [<-|Hz] Nz; [|exists z; split; [now right; right|reflexivity]].
          destruct (B k) as [_ B2]. destruct (Nat.eqb_spec (from_end c0 k) 1).
          - exists s. split; [now right; left|now symmetry].
          - exists c0. split; [now left|now symmetry]. }
        destruct (T u Hu) as (u' & Hu' & Eu); [tauto|]. destruct (T v Hv) as (v' & Hv' & Ev); [tauto|].
        exists u', v', k. rewrite Eu, Ev. auto.
    + destruct B as (-> & k & B). split; [reflexivity|]. exists c0, s, k. split; [now left|]. split; [now right; left|exact B].
Qed.
Lemma broadcasts_unique l c c' : broadcasts l c -> broadcasts l c' -> c = c'.
Proof.
  assert (Len : forall l c c', broadcasts l c -> broadcasts l c' -> length c <= length c').
  { clear. intros l c c' (H1 & H2 & _) (H1' & _). destruct H2 as [->|(s & Hs & E)]; [cbn; lia|]. specialize (H1' s Hs). lia. }
  intros H H'. assert (L : length c = length c') by (pose proof (Len _ _ _ H H'); pose proof (Len _ _ _ H' H); lia).
  apply from_end_ext; [exact L|]. intros k Hk. destruct H as (_ & _ & H), H' as (_ & _ & H').
  specialize (H k Hk). rewrite L in Hk. specialize (H' k Hk). destruct H as [Ha Hb], H' as [Ha' Hb'].
  destruct Hb as [Hb|(s & Hs & Eb)].
  - destruct Hb' as [Hb'|(s & Hs & Eb')]; [congruence|]. destruct (Ha s Hs); congruence.
  - destruct (Ha' s Hs) as [E|E]; [congruence|]. destruct Hb' as [Hb'|(s' & Hs' & Eb')]; [congruence|].
    destruct (Ha s' Hs'); congruence.
Qed.
Theorem broadcast_shapes_ok l c : broadcast_shapes l = Ok c <-> broadcasts l c.
Proof.
  unfold broadcast_shapes. pose proof (foldR_bcast l []) as H. split.
  - intros E. rewrite E in H. destruct H as (_ & H2 & H3 & H4). split; [exact H2|]. split.
    + destruct H3 as [H3|H3]; [left; destruct c; [reflexivity|discriminate]|now right].
    + intros k _. destruct (H4 k) as (H5 & H6 & H7). split; [exact H6|].
      destruct H7 as [H7|[H7|H7]]; [now left| |now right]. left. rewrite <- H7. apply from_end_out. cbn. lia.
  - intros B. destruct (foldR bcast l []) as [c'|e].
    + f_equal. symmetry. apply (broadcasts_unique l); [exact B|]. destruct H as (_ & H2 & H3 & H4). split; [exact H2|]. split.
      * destruct H3 as [H3|H3]; [left; destruct c'; [reflexivity|discriminate]|now right].
      * intros k _. destruct (H4 k) as (H5 & H6 & H7). split; [exact H6|].
        destruct H7 as [H7|[H7|H7]]; [now left| |now right]. left. rewrite <- H7. apply from_end_out. cbn. lia.
    + exfalso. destruct H as (_ & s & s' & k & Hs & Hs' & N & N1 & N2).
      destruct Hs as [<-|Hs]; [apply N1, from_end_out; cbn; lia|]. destruct Hs' as [<-|Hs']; [apply N2, from_end_out; cbn; lia|].
      destruct B as (B1 & _ & B3). assert (k < length c).
      { destruct (Nat.lt_ge_cases k (length c)) as [|C]; [assumption|]. exfalso. apply N1, from_end_out. specialize (B1 s Hs). lia. }
      destruct (B3 k H) as [B4 _]. destruct (B4 s Hs), (B4 s' Hs'); congruence.
Qed.
Theorem broadcast_shapes_raises l e : broadcast_shapes l = Raise e ->
  e = EValue /\ exists s s' k, In s l /\ In s' l /\ from_end s k <> from_end s' k /\ from_end s k <> 1 /\ from_end s' k <> 1.
Proof.
  unfold broadcast_shapes. pose proof (foldR_bcast l []) as H. intros E. rewrite E in H.
  destruct H as (-> & s & s' & k & Hs & Hs' & N & N1 & N2). split; [reflexivity|].
  destruct Hs as [<-|Hs]; [exfalso; apply N1, from_end_out; cbn; lia|]. destruct Hs' as [<-|Hs']; [exfalso; apply N2, from_end_out; cbn; lia|].
  exists s, s', k. auto.
Qed.

(* ---- operands with named axes --------------------------------------------------------- *)

(* index 0 along axes of length 1 *)
Definition clip (sh env : nat -> nat) (j : nat) : nat := if Nat.eqb (sh j) 1 then 0 else env j.
Lemma clip_inside sh ax env : inside sh ax env -> map (clip sh env) ax = map env ax.
Proof.
  intros I. apply map_ext_in. intros a Ha. unfold clip. destruct (Nat.eqb_spec (sh a) 1) as [E|]; [|reflexivity].
  specialize (I a Ha). lia.
Qed.
Lemma loop_index_named pre E (sh env : nat -> nat) :
  loop_index (map sh E) (map env (pre ++ E)) = map (clip sh env) E.
Proof.
  unfold loop_index. rewrite map_app, app_length, !map_length.
  replace (length pre + length E - length E) with (length (map env pre)) by (rewrite map_length; lia).
  rewrite skipn_app, skipn_all, Nat.sub_diag. cbn [app skipn].
  induction E as [|a t IH]; [reflexivity|]. cbn [map combine]. rewrite IH. reflexivity.
Qed.

(* t has the axes ax of lengths sh, core axes C, loop axes in front of the end of L *)
Record operand (L : list nat) (D : nat -> nat) (a : garg) (ax C : list nat) (sh : nat -> nat) (f : (nat -> nat) -> Qc) : Prop := {
  op_view : view (fst a) ax sh f;
  op_ax : NoDup ax;
  op_C : NoDup C;
  op_incl : incl C ax;
  op_core : Forall2 (is_axis (length ax)) (snd a) (map (fun c => index_of c ax) C);
  op_loop : exists pre, L = pre ++ except_nat ax C;
  op_len : forall j, In j (except_nat ax C) -> sh j = D j \/ sh j = 1
}.
Definition named (a : garg) (ax C : list nat) : tensor * list nat := (fst a, map (fun c => index_of c ax) C).

Lemma positions_NoDup ax C : NoDup C -> incl C ax -> NoDup (map (fun c => index_of c ax) C).
Proof.
  intros N I. apply NoDup_map_in; [exact N|]. intros x y Hx Hy E. apply I in Hx, Hy.
  destruct (index_of_lt x ax Hx) as [_ E1], (index_of_lt y ax Hy) as [_ E2]. congruence.
Qed.
Lemma normalize_ints n l r : Forall2 (is_axis n) l r -> NoDup r ->
  normalize_axis_tuple (Some (map AInt l)) n None false = Ok r.
Proof.
  intros H N. apply normalize_tuple_ok. split; [|exact N]. clear N. induction H; [constructor|]. cbn [map]. now constructor.
Qed.
Lemma view_ndim t ax sh f : view t ax sh f -> tndim t = length ax.
Proof. intros (_ & Hs & _). unfold tndim. now rewrite Hs, map_length. Qed.
Lemma operand_core_axes L D a ax C sh f : operand L D a ax C sh f -> core_axes a = Ok (named a ax C).
Proof.
  intros [V N NC I F _ _]. unfold core_axes. rewrite (view_ndim _ _ _ _ V).
  rewrite (normalize_ints _ _ _ F); [reflexivity|]. now apply positions_NoDup.
Qed.
Lemma operand_loop_shape L D a ax C sh f : operand L D a ax C sh f -> loop_shape (named a ax C) = map sh (except_nat ax C).
Proof.
  intros [V N NC I F _ _]. unfold loop_shape, named; cbn [fst snd]. rewrite (view_ndim _ _ _ _ V).
  rewrite <- (outer_names ax C (length ax) _ eq_refl N I eq_refl), map_map. apply map_ext_in. intros p Hp.
  unfold outer_axes in Hp. apply filter_In in Hp. destruct Hp as [Hp _]. apply in_seq in Hp.
  destruct V as (_ & Hs & _). rewrite Hs. apply nth_map_in. lia.
Qed.
Lemma operand_elem L D a ax C sh f env c : operand L D a ax C sh f -> inside D L env -> valid (map sh C) c ->
  core_elem (named a ax C) (map env L) c = f (bind C c (clip sh env)).
Proof.
  intros O I Vc. pose proof (operand_loop_shape _ _ _ _ _ _ _ O) as EL. destruct O as [V N NC IC F (pre & EQ) Len].
  unfold core_elem. rewrite EL, EQ, loop_index_named. unfold named; cbn [fst snd]. rewrite (view_ndim _ _ _ _ V).
  rewrite <- (outer_names ax C (length ax) _ eq_refl N IC eq_refl).
  pose proof (valid_length _ _ Vc) as Lc. rewrite map_length in Lc.
  rewrite (place_named ax C _ (length ax) (clip sh env) c eq_refl N NC IC eq_refl Lc).
  destruct V as (_ & _ & Hf). apply Hf. intros x Hx. destruct (in_dec Nat.eq_dec x C) as [H|H].
  - rewrite bind_in by assumption. now apply valid_nth_index.
  - rewrite bind_out by exact H. assert (Hx' : In x (except_nat ax C)) by (apply except_In; tauto).
    unfold clip. destruct (Nat.eqb_spec (sh x) 1) as [E|E]; [lia|]. destruct (Len x Hx') as [->|]; [|tauto].
    apply I. rewrite EQ. apply in_or_app. now right.
Qed.
Lemma from_end_map (sh : nat -> nat) E k : from_end (map sh E) k = if Nat.ltb k (length E) then sh (nth k (rev E) 0) else 1.
Proof.
  unfold from_end. rewrite <- map_rev. destruct (Nat.ltb_spec k (length E)) as [H|H].
  - apply nth_map_in. now rewrite rev_length.
  - apply nth_overflow. rewrite map_length, rev_length. lia.
Qed.
(* loop shapes of named operands broadcast to the loop *)
Lemma broadcasts_named L D (l : list (list nat * (nat -> nat))) : 
  (forall e, In e l -> exists pre, L = pre ++ fst e) ->
  (forall e j, In e l -> In j (fst e) -> snd e j = D j \/ snd e j = 1) ->
  (L = [] \/ exists e, In e l /\ fst e = L) ->
  (forall j, In j L -> D j = 1 \/ exists e, In e l /\ In j (fst e) /\ snd e j = D j) ->
  NoDup L ->
  broadcasts (map (fun e => map (snd e) (fst e)) l) (map D L).
Proof.
  intros H1 H2 H3 H4 N. split; [|split].
  - intros s Hs. apply in_map_iff in Hs. destruct Hs as (e & <- & He). rewrite !map_length. destruct (H1 e He) as [pre ->].
    rewrite app_length. lia.
  - destruct H3 as [->|(e & He & E)]; [now left|]. right. exists (map (snd e) (fst e)). split; [now apply (in_map (fun e => map (snd e) (fst e)))|].
    now rewrite !map_length, E.
  - intros k Hk. rewrite map_length in Hk. rewrite from_end_map. assert (Hk' := Hk). apply Nat.ltb_lt in Hk'. rewrite Hk'.
    set (j := nth k (rev L) 0). assert (Hj : In j L) by (apply in_rev, nth_In; now rewrite rev_length).
    assert (G : forall e, In e l -> from_end (map (snd e) (fst e)) k = if in_dec Nat.eq_dec j (fst e) then snd e j else 1).
    { intros e He. rewrite from_end_map. destruct (H1 e He) as [pre E].
      assert (Er : rev L = rev (fst e) ++ rev pre) by (rewrite E; apply rev_app_distr).
      destruct (Nat.ltb_spec k (length (fst e))) as [C|C].
      - assert (Ej : nth k (rev (fst e)) 0 = j) by (unfold j; rewrite Er, app_nth1 by (now rewrite rev_length); reflexivity).
        destruct (in_dec Nat.eq_dec j (fst e)) as [|Nj]; [now rewrite Ej|]. exfalso. apply Nj. rewrite <- Ej.
        apply in_rev, nth_In. now rewrite rev_length.
      - destruct (in_dec Nat.eq_dec j (fst e)) as [Ij|]; [|reflexivity]. exfalso.
        assert (Ej : In j pre). { unfold j. rewrite Er, app_nth2 by (rewrite rev_length; lia). apply in_rev, nth_In.
          rewrite rev_length in *. rewrite E, app_length in Hk. rewrite rev_length. lia. }
        rewrite E in N. destruct (NoDup_app_parts _ _ N) as (_ & _ & X). now apply (X j). }
    split.
    + intros s Hs. apply in_map_iff in Hs. destruct Hs as (e & <- & He). rewrite (G e He).
      destruct (in_dec Nat.eq_dec j (fst e)) as [Ij|]; [now apply H2|now right].
    + destruct (H4 j Hj) as [E|(e & He & Ie & E)]; [now left|]. right. exists (map (snd e) (fst e)).
      split; [now apply (in_map (fun e => map (snd e) (fst e)))|]. rewrite (G e He). destruct (in_dec Nat.eq_dec j (fst e)); tauto.
Qed.

(* ---- output arrays -------------------------------------------------------------------- *)

Lemma gtabulate_ok {T} s (f : list nat -> T) : grid_ok (gtabulate s f).
Proof. unfold grid_ok, gtabulate; cbn. now rewrite map_length, all_idx_length. Qed.
Lemma gget_gtabulate {T} (d : T) s f idx : valid s idx -> gget d (gtabulate s f) idx = f idx.
Proof.
  intros H. unfold gget, gtabulate; cbn [gshape gdata].
  rewrite (nth_map_in _ _ _ _ []) by (rewrite all_idx_length; now apply ravel_lt). now rewrite nth_all_idx.
Qed.
Lemma place_shape (sh : nat -> nat) OX OC : NoDup OX -> NoDup OC -> incl OC OX ->
  place (length OX) (map (fun c => index_of c OX) OC) (map sh (except_nat OX OC)) (map sh OC) = map sh OX.
Proof.
  intros N NC I. rewrite <- (outer_names OX OC (length OX) _ eq_refl N I eq_refl).
  rewrite (place_named OX OC _ (length OX) sh (map sh OC) eq_refl N NC I eq_refl) by now rewrite map_length.
  apply map_ext_in. intros a Ha. destruct (in_dec Nat.eq_dec a OC) as [C|C].
  - rewrite bind_in; [|exact NC|now rewrite map_length|exact C]. destruct (index_of_lt a OC C) as [H1 H2].
    rewrite (nth_map_in _ _ _ _ 0) by exact H1. now rewrite H2.
  - now apply bind_out.
Qed.
Lemma names_outer (env : nat -> nat) OX OC : NoDup OX -> incl OC OX ->
  map (fun p => nth p (map env OX) 0) (outer_axes (length OX) (map (fun c => index_of c OX) OC)) = map env (except_nat OX OC).
Proof.
  intros N I. rewrite <- (outer_names OX OC (length OX) _ eq_refl N I eq_refl), map_map. apply map_ext_in. intros p Hp.
  unfold outer_axes in Hp. apply filter_In in Hp. destruct Hp as [Hp _]. apply in_seq in Hp. apply nth_map_in. lia.
Qed.
Lemma names_core (env : nat -> nat) OX OC : incl OC OX ->
  map (fun p => nth p (map env OX) 0) (map (fun c => index_of c OX) OC) = map env OC.
Proof.
  intros I. rewrite map_map. apply map_ext_in. intros a Ha. destruct (index_of_lt a OX (I a Ha)) as [H1 H2].
  rewrite (nth_map_in _ _ _ _ 0) by exact H1. now rewrite H2.
Qed.
Lemma mapR_nth {A B} (f : A -> res B) l r da db k : mapR f l = Ok r -> k < length l -> f (nth k l da) = Ok (nth k r db).
Proof.
  intros H. apply mapR_Forall2 in H. revert k. induction H as [|a b l r H HF IH]; intros k Hk; [cbn in Hk; lia|].
  destruct k; [exact H|]. cbn. apply IH. cbn in Hk. lia.
Qed.
Lemma mapR_raise {A B} (f : A -> res B) l e : mapR f l = Raise e -> exists a, In a l /\ f a = Raise e.
Proof.
  induction l as [|a t IH]; cbn; [discriminate|]. destruct (f a) as [b|e'] eqn:E; cbn.
  - destruct (mapR f t) as [r|e'']; cbn; [discriminate|]. intros [= ->]. destruct (IH eq_refl) as (x & Hx & Ex). eauto.
  - intros [= ->]. eauto.
Qed.

Lemma rbind_id {X} (r : res X) : rbind r (fun x => Ok x) = r.
Proof. destruct r; reflexivity. Qed.

Section Out.
  Context {T : Type} (d : T) (L : list nat) (D : nat -> nat) (OX OC : list nat) (osh : nat -> nat).
  Hypothesis NO : NoDup OX.
  Hypothesis NC : NoDup OC.
  Hypothesis IC : incl OC OX.
  Hypothesis EL : except_nat OX OC = L.
  Hypothesis ED : forall j, In j L -> osh j = D j.

  Lemma NoDup_L : NoDup L.
  Proof. rewrite <- EL. now apply NoDup_except. Qed.
  Lemma inside_L env : inside osh OX env -> inside D L env.
  Proof.
    intros I j Hj. rewrite <- ED by exact Hj. apply I. rewrite <- EL in Hj. now apply except_In in Hj.
  Qed.
  Lemma len_loop : length L + length OC = length OX.
  Proof. rewrite <- EL. now apply except_length. Qed.

  Lemma gufunc_named args ins out_core f (run : (nat -> nat) -> res (list nat -> T)) :
    mapR core_axes args = Ok ins ->
    broadcast_shapes (map loop_shape ins) = Ok (map D L) ->
    Forall2 (is_axis (length OX)) out_core (map (fun c => index_of c OX) OC) ->
    (forall env, inside D L env -> f (map (fun a => core_elem a (map env L)) ins) = run env) ->
    match gufunc d args out_core (map osh OC) f with
    | Ok g => grid_ok g /\ gshape g = map osh OX /\ forall env, inside osh OX env ->
        exists h, run env = Ok h /\ gget d g (map env OX) = h (map env OC)
    | Raise e => exists env, inside D L env /\ run env = Raise e
    end.
  Proof.
    intros E1 E2 E3 Hf. unfold gufunc. rewrite E1. cbn [rbind]. rewrite E2. cbn [rbind].
    rewrite map_length. assert (En : length L + length out_core = length OX).
    { rewrite (Forall2_len _ _ _ E3), map_length. exact len_loop. }
    rewrite En. rewrite (normalize_ints _ _ _ E3) by now apply positions_NoDup. cbn [rbind].
    destruct (mapR _ (all_idx (map D L))) as [rows|e] eqn:ER; cbn [rbind].
    - assert (Es : place (length OX) (map (fun c => index_of c OX) OC) (map D L) (map osh OC) = map osh OX).
      { rewrite <- (place_shape osh OX OC NO NC IC). f_equal. rewrite EL. apply map_ext_in. intros j Hj. symmetry. now apply ED. }
      rewrite Es. split; [apply gtabulate_ok|]. split; [reflexivity|]. intros env I.
      rewrite gget_gtabulate by now apply inside_valid.
      rewrite (names_outer env OX OC NO IC), (names_core env OX OC IC), EL.
      pose proof (inside_L env I) as IL. pose proof (inside_valid D L env IL) as V.
      pose proof (mapR_nth _ _ _ [] (fun _ => d) _ ER ltac:(rewrite all_idx_length; exact (ravel_lt _ _ V))) as G. cbn beta in G.
      rewrite nth_all_idx in G by exact V. rewrite Hf in G by exact IL. eauto.
    - apply mapR_raise in ER. destruct ER as (o & Ho & Eo). apply all_idx_valid in Ho.
      destruct (valid_inside D L o NoDup_L Ho) as (env & I & <-). exists env. split; [exact I|]. now rewrite <- Hf.
  Qed.

  Context {B : Type} (init : B) (get : B -> list nat -> T).
  Lemma foldR_cells (f : B -> list nat -> res B) (idx : list nat -> nat) os : forall dn,
    map idx os = seq (length dn) (length os) ->
    foldR (fun cells o => let k := idx o in rbind (f (nth k cells init) o) (fun b => Ok (upd cells k b))) os (dn ++ repeat init (length os))
    = rbind (mapR (f init) os) (fun r => Ok (dn ++ r)).
  Proof.
    cbn zeta. induction os as [|o os IH]; intros dn E; cbn [foldR mapR repeat length]; [reflexivity|].
    cbn [map seq length] in E. injection E as E0 E. rewrite E0.
    rewrite app_nth2, Nat.sub_diag by lia. cbn [nth]. destruct (f init o) as [b|e]; cbn [rbind]; [|reflexivity].
    assert (U : upd (dn ++ init :: repeat init (length os)) (length dn) b = (dn ++ [b]) ++ repeat init (length os)).
    { rewrite <- app_assoc. cbn [app]. generalize (repeat init (length os)). intros l. clear. induction dn as [|x t IH]; cbn; [reflexivity|now rewrite IH]. }
    rewrite U. rewrite (IH (dn ++ [b])).
    - destruct (mapR (f init) os); cbn [rbind]; [|reflexivity]. now rewrite <- app_assoc.
    - rewrite app_length. cbn. rewrite E. f_equal. lia.
  Qed.
  Lemma gufunc_inout_named args ins out_core f (run : (nat -> nat) -> res B) :
    mapR core_axes args = Ok ins ->
    broadcast_shapes (map D L :: map loop_shape ins) = Ok (map D L) ->
    Forall2 (is_axis (length OX)) out_core (map (fun c => index_of c OX) OC) ->
    (forall env, inside D L env -> f init (map (fun a => core_elem a (map env L)) ins) = run env) ->
    match gufunc_inout init get args (map osh OX) out_core f with
    | Ok g => grid_ok g /\ gshape g = map osh OX /\ forall env, inside osh OX env ->
        exists b, run env = Ok b /\ gget d g (map env OX) = get b (map env OC)
    | Raise e => exists env, inside D L env /\ run env = Raise e
    end.
  Proof.
    intros E1 E2 E3 Hf. unfold gufunc_inout. rewrite E1. cbn [rbind]. rewrite map_length.
    rewrite (normalize_ints _ _ _ E3) by now apply positions_NoDup. cbn [rbind].
    rewrite (names_outer osh OX OC NO IC), EL.
    assert (EDL : map osh L = map D L) by (apply map_ext_in; exact ED). rewrite EDL. rewrite E2. cbn [rbind].
    assert (EF : foldR (fun cells o =>
                  let k := ravel (map D L) (loop_index (map D L) o) in
                  rbind (f (nth k cells init) (map (fun a => core_elem a o) ins)) (fun b => Ok (upd cells k b)))
               (all_idx (map D L)) (repeat init (size (map D L)))
             = mapR (fun o => f init (map (fun a => core_elem a o) ins)) (all_idx (map D L))).
    { rewrite <- (all_idx_length (map D L)).
      pose proof (foldR_cells (fun b o => f b (map (fun a => core_elem a o) ins)) (fun o => ravel (map D L) (loop_index (map D L) o))
                    (all_idx (map D L)) []) as X.
      cbn [app] in X. cbn beta zeta in X |- *. rewrite X; [apply rbind_id|]. rewrite all_idx_length. cbn [length].
      rewrite <- ravel_all_idx. apply map_ext_in. intros o Ho. f_equal. apply all_idx_valid in Ho.
      destruct (valid_inside D L o NoDup_L Ho) as (env & I & <-).
      pose proof (loop_index_named [] L D env) as Y. cbn [app] in Y. rewrite Y. now apply clip_inside. }
    cbn zeta in EF |- *. rewrite EF. destruct (mapR _ (all_idx (map D L))) as [rows|e] eqn:ER; cbn [rbind].
    - split; [apply gtabulate_ok|]. split; [reflexivity|]. intros env I.
      rewrite gget_gtabulate by now apply inside_valid.
      rewrite (names_outer env OX OC NO IC), (names_core env OX OC IC), EL.
      pose proof (inside_L env I) as IL. pose proof (inside_valid D L env IL) as V.
      pose proof (mapR_nth _ _ _ [] init _ ER ltac:(rewrite all_idx_length; exact (ravel_lt _ _ V))) as G. cbn beta in G.
      rewrite nth_all_idx in G by exact V. rewrite Hf in G by exact IL. eauto.
    - apply mapR_raise in ER. destruct ER as (o & Ho & Eo). apply all_idx_valid in Ho.
      destruct (valid_inside D L o NoDup_L Ho) as (env & I & <-). exists env. split; [exact I|]. now rewrite <- Hf.
  Qed.
End Out.

(* ---- moment arrays along an axis -------------------------------------------------------- *)

Lemma column_axes_except to_end n a M : NoDup (a :: M) -> (forall b, In b (a :: M) -> b < n) ->
  except_nat (column_axes to_end n a M) (a :: M) = except_nat (seq 0 n) (a :: M).
Proof.
  intros N B. destruct to_end; [|reflexivity]. cbn [column_axes].
  rewrite except_app, (except_all _ (a :: M) (a :: M)), app_nil_r by auto.
  apply except_none. intros x Hx. now apply except_In in Hx.
Qed.
Lemma column_axes_perm to_end n a M : NoDup (a :: M) -> (forall b, In b (a :: M) -> b < n) ->
  Permutation (column_axes to_end n a M) (seq 0 n).
Proof.
  intros N B. destruct to_end; [|reflexivity]. now apply except_perm.
Qed.
Lemma is_axis_neg n k i : i < k -> k <= n -> is_axis n (Z.of_nat i - Z.of_nat k) (n - k + i).
Proof. intros H1 H2. split; [lia|]. right. lia. Qed.
Lemma axes_last_positions n k l : k <= n -> l = seq (n - k) k -> Forall2 (is_axis n) (axes_last k) l.
Proof.
  intros H ->. unfold axes_last. replace (seq (n - k) k) with (map (fun i => n - k + i) (seq 0 k)) by (rewrite seq_shift_add; f_equal; lia).
  assert (G : forall l, (forall i, In i l -> i < k) -> Forall2 (is_axis n) (map (fun i => (Z.of_nat i - Z.of_nat k)%Z) l) (map (fun i => n - k + i) l)).
  { induction l as [|i t IH]; intros Hl; [constructor|]. cbn. constructor; [apply is_axis_neg; [apply Hl; now left|exact H]|].
    apply IH. intros j Hj. apply Hl. now right. }
  apply G. intros i Hi. apply in_seq in Hi. lia.
Qed.
Lemma positions_tail (pre l : list nat) : NoDup (pre ++ l) -> map (fun c => index_of c (pre ++ l)) l = seq (length pre) (length l).
Proof.
  intros N. transitivity (map (fun c => index_of c (pre ++ l)) (map (fun k => nth k l 0) (seq 0 (length l)))).
  { f_equal. symmetry. now apply map_nth_seq. }
  rewrite map_map.
  replace (seq (length pre) (length l)) with (map (fun i => length pre + i) (seq 0 (length l))) by (rewrite seq_shift_add; f_equal; lia).
  apply map_ext_in. intros k Hk. apply in_seq in Hk.
  assert (E : nth k l 0 = nth (length pre + k) (pre ++ l) 0) by (rewrite app_nth2 by lia; f_equal; lia).
  rewrite E. apply index_of_nth; [exact N|rewrite app_length; lia].
Qed.

Lemma prepare_data_view {A} (P : packer A) mom_axes axis to_end a M t : axis_of_moments P mom_axes axis a M t ->
  exists za mom' t', prepare_data axis mom_axes to_end t = Ok (za, mom', t') /\
    let ax := column_axes to_end (tndim t) a M in
    view t' ax (shape_of t) (entry t) /\
    Forall2 (is_axis (tndim t)) (za :: mom') (map (fun c => index_of c ax) (a :: M)) /\ za = Z.of_nat (index_of a ax).
Proof.
  intros (Ht & HM & HA & N & SM). set (n := tndim t) in *.
  pose proof (is_axis_range _ _ _ HM) as BM. pose proof (names_axis_lt _ _ _ _ HA) as BA.
  assert (B : forall b, In b (a :: M) -> b < n) by (intros b [<-|Hb]; auto).
  pose proof (Forall2_len _ _ _ HM) as Lm.
  unfold prepare_data. fold n. rewrite Lm.
  assert (EA : normalize_axis_index axis n (Some (length M)) = Ok a) by now apply normalize_index_ok.
  rewrite EA. cbn [rbind]. inversion N as [|? ? Na NM]; subst.
  assert (Hlen : S (length M) <= n).
  { pose proof (NoDup_incl_length N (l' := seq 0 n)) as X. rewrite seq_length in X. apply X. intros b Hb. apply in_seq. specialize (B b Hb). lia. }
  destruct to_end.
  - assert (V : exists u, np_moveaxis (Z.of_nat a :: mom_axes) ((Z.of_nat n - (Z.of_nat (length M) + 1))%Z :: axes_last (length M)) t = Ok u /\
        view u (column_axes true n a M) (shape_of t) (entry t)).
    { destruct (moveaxis_view t (seq 0 n) (shape_of t) (entry t) (a :: M) (view_self t Ht) N) as (u & Eu & Vu).
      { intros p Hp. rewrite seq_length. auto. }
      exists u. split.
      - rewrite <- Eu. unfold np_moveaxis, moveaxis_order. fold n.
        rewrite (normalize_ints n (Z.of_nat a :: mom_axes) (a :: M)); [|constructor; [now apply is_axis_self|exact HM]|exact N].
        rewrite (normalize_ints n (map Z.of_nat (a :: M)) (a :: M)); [| |exact N].
        2: { clear - B. induction (a :: M) as [|b l IH]; [constructor|]. cbn [map]. constructor; [apply is_axis_self, B; now left|].
             apply IH. intros c Hc. apply B. now right. }
        cbn [rbind length]. rewrite (normalize_ints n _ (seq (n - S (length M)) (S (length M)))).
        + rewrite axes_last_norm by exact Hlen. reflexivity.
        + cbn [seq]. constructor.
          * split; [lia|left; lia].
          * apply axes_last_positions; [lia|]. f_equal. lia.
        + apply seq_NoDup.
      - rewrite seq_length, map_nth_seq_id in Vu; [exact Vu|]. intros b Hb. apply in_app_or in Hb.
        destruct Hb as [Hb|Hb]; [|auto]. apply except_In in Hb. destruct Hb as [Hb _]. apply in_seq in Hb. lia. }
    destruct V as (u & Eu & Vu). rewrite Eu. cbn [rbind]. eexists _, _, u. split; [reflexivity|]. cbn zeta. split; [exact Vu|].
    assert (NA : NoDup (column_axes true n a M)) by (apply (perm_range _ n); now apply column_axes_perm).
    assert (EL : length (except_nat (seq 0 n) (a :: M)) = n - S (length M)).
    { pose proof (except_length (seq 0 n) (a :: M) (seq_NoDup _ _) N) as X. rewrite seq_length in X. cbn [length] in X.
      assert (incl (a :: M) (seq 0 n)) by (intros b Hb; apply in_seq; specialize (B b Hb); lia). specialize (X H). lia. }
    assert (EP : map (fun c => index_of c (column_axes true n a M)) (a :: M) = seq (n - S (length M)) (S (length M))).
    { cbn [column_axes] in *. rewrite positions_tail by exact NA. cbn [length]. now rewrite EL. }
    assert (E0 : index_of a (column_axes true n a M) = n - S (length M)) by (cbn [map seq] in EP; now injection EP).
    split; [|rewrite E0; lia]. rewrite EP. cbn [seq]. constructor; [split; [lia|left; lia]|].
    apply axes_last_positions; [lia|]. f_equal. lia.
  - eexists _, _, t. split; [reflexivity|]. cbn zeta. cbn [column_axes]. split; [now apply view_self|].
    assert (EI : forall c, c < n -> index_of c (seq 0 n) = c).
    { intros c Hc. pose proof (index_of_nth (seq 0 n) c (seq_NoDup _ _)) as X. rewrite seq_length, seq_nth in X by exact Hc. exact (X Hc). }
    rewrite (EI a BA). split; [|reflexivity]. cbn [map]. rewrite (EI a BA). constructor; [now apply is_axis_self|].
    assert (EM : map (fun c => index_of c (seq 0 n)) M = M).
    { rewrite <- (map_id M) at 2. apply map_ext_in. intros c Hc. apply EI. auto. }
    now rewrite EM.
Qed.

Section Columns.
  Context {A : Type} (P : packer A) (HP : packer_ok P).
  Context (mom_axes : list Z) (axis : axis_arg) (to_end : bool) (a : nat) (M : list nat) (t t' : tensor) (za : Z) (mom' : list Z).
  Hypothesis HA : axis_of_moments P mom_axes axis a M t.
  Let n := tndim t.
  Let ax := column_axes to_end n a M.
  Let L := except_nat (seq 0 n) (a :: M).
  Hypothesis V : view t' ax (shape_of t) (entry t).
  Hypothesis F : Forall2 (is_axis n) (za :: mom') (map (fun c => index_of c ax) (a :: M)).
  Hypothesis Eza : za = Z.of_nat (index_of a ax).

  Lemma col_NoDup : NoDup (a :: M).
  Proof. apply HA. Qed.
  Lemma col_bound b : In b (a :: M) -> b < n.
  Proof.
    destruct HA as (_ & HM & HX & _). intros [<-|Hb]; [exact (names_axis_lt _ _ _ _ HX)|exact (is_axis_range _ _ _ HM b Hb)].
  Qed.
  Lemma col_perm : Permutation ax (seq 0 n).
  Proof. apply column_axes_perm; [apply col_NoDup|apply col_bound]. Qed.
  Lemma col_ax_NoDup : NoDup ax.
  Proof. apply (perm_range _ _ col_perm). Qed.
  Lemma col_ax_length : length ax = n.
  Proof. apply (perm_range _ _ col_perm). Qed.
  Lemma col_incl : incl (a :: M) ax.
  Proof. intros b Hb. apply (perm_range _ _ col_perm). now apply col_bound. Qed.
  Lemma col_except : except_nat ax (a :: M) = L.
  Proof. apply column_axes_except; [apply col_NoDup|apply col_bound]. Qed.
  Lemma col_dim : dim_at t' za = shape_of t a.
  Proof.
    unfold dim_at. rewrite Eza. replace (Z.of_nat (index_of a ax) <? 0)%Z with false by (symmetry; apply Z.ltb_ge; lia).
    rewrite Nat2Z.id. destruct V as (_ & Hs & _). rewrite Hs.
    destruct (index_of_lt a ax (col_incl a (or_introl eq_refl))) as [H1 H2].
    rewrite (nth_map_in _ _ _ _ 0) by exact H1. now rewrite H2.
  Qed.
  Lemma col_operand : operand L (shape_of t) (t', za :: mom') ax (a :: M) (shape_of t) (entry t).
  Proof.
    constructor; cbn [fst snd].
    - exact V.
    - exact col_ax_NoDup.
    - exact col_NoDup.
    - exact col_incl.
    - rewrite col_ax_length. exact F.
    - exists []. cbn. now rewrite col_except.
    - auto.
  Qed.
  Lemma col_rows env : inside (shape_of t) L env ->
    core_rows P (dim_at t' za) (core_elem (named (t', za :: mom') ax (a :: M)) (map env L)) = rows_along P t [a] M env.
  Proof.
    intros I. rewrite col_dim. unfold core_rows, rows_along. cbn [map all_idx]. rewrite flat_map_concat_map, concat_map, map_map.
    cbn [map].
    assert (G : forall l, concat (map (fun i => [moment_at P t M (bind [a] [i] env)]) l) = map (fun i => moment_at P t M (bind [a] [i] env)) l).
    { induction l as [|x l IH]; [reflexivity|]. cbn. now rewrite IH. }
    rewrite G. apply map_ext_in. intros i Hi. apply in_seq in Hi. unfold moment_at. apply (proj1 HP). intros m Hm.
    destruct HA as (Ht & HM & HX & N & SM). rewrite <- SM in Hm. pose proof (valid_length _ _ Hm) as Lm. rewrite map_length in Lm.
    rewrite (operand_elem _ _ _ _ _ _ _ env (i :: m) col_operand I).
    - unfold entry. f_equal. apply map_ext_in. intros b Hb. inversion N as [|? ? Na NM]; subst.
      rewrite bind_cons by exact Na. destruct (in_dec Nat.eq_dec b M) as [C|C]; [now apply bind_bound|].
      rewrite !(bind_out M) by exact C. destruct (Nat.eq_dec b a) as [->|Nb].
      + apply bind_bound; [constructor; [intros []|constructor]|reflexivity|now left].
      + rewrite !bind_out by (intros [->|[]]; tauto). unfold clip. destruct (Nat.eqb_spec (shape_of t b) 1) as [E|]; [|reflexivity].
        assert (HL : In b L) by (apply except_In; split; [exact Hb|intros [->|H]; tauto]). specialize (I b HL). lia.
    - cbn [map]. constructor; [lia|exact Hm].
  Qed.

  Context {B T : Type} (d : T) (val : B -> list nat -> T) (elem : list B -> list nat -> T).
  Hypothesis Helem : forall rows i m b, nth_error rows i = Some b -> elem rows (i :: m) = val b m.

  Lemma columns_gufunc args ins (f : list (list nat -> Qc) -> res (list nat -> T)) (run : (nat -> nat) -> res (list B)) newlen :
    mapR core_axes args = Ok ins ->
    broadcast_shapes (map loop_shape ins) = Ok (map (shape_of t) L) ->
    (forall env, inside (shape_of t) L env -> f (map (fun x => core_elem x (map env L)) ins) = rmap elem (run env)) ->
    (forall env rows, inside (shape_of t) L env -> run env = Ok rows -> length rows = newlen) ->
    by_columns d val run to_end newlen a M t (gufunc d args (za :: mom') (newlen :: pk_shape P) f).
  Proof.
    intros E1 E2 Hf Hlen. set (osh := fun b => if Nat.eqb b a then newlen else shape_of t b).
    pose proof HA as HA'. destruct HA' as (Ht & HM & HX & N & SM). assert (Na : ~ In a M) by (now inversion N).
    assert (Ec : newlen :: pk_shape P = map osh (a :: M)).
    { cbn [map]. unfold osh at 1. rewrite Nat.eqb_refl. f_equal. rewrite <- SM. apply map_ext_in. intros b Hb. unfold osh.
      destruct (Nat.eqb_spec b a) as [->|]; [tauto|reflexivity]. }
    rewrite Ec.
    pose proof (gufunc_named d L (shape_of t) ax (a :: M) osh col_ax_NoDup N col_incl col_except) as G.
    assert (ED : forall j, In j L -> osh j = shape_of t j).
    { intros j Hj. unfold osh. destruct (Nat.eqb_spec j a) as [->|]; [|reflexivity]. apply except_In in Hj. cbn in Hj. tauto. }
    specialize (G ED args ins (za :: mom') f (fun env => rmap elem (run env)) E1 E2).
    rewrite col_ax_length in G. specialize (G F Hf). unfold by_columns.
    destruct (gufunc d args _ _ f) as [g|e].
    - destruct G as (G1 & G2 & G3). split; [exact G1|]. split; [exact G2|]. fold n. fold ax. fold osh. intros env I.
      destruct (G3 env I) as (h & Eh & Eg).
      destruct (run env) as [rows|e] eqn:Er; [|discriminate]. cbn in Eh. injection Eh as <-.
      assert (IL : inside (shape_of t) L env).
      { intros j Hj. rewrite <- ED by exact Hj. apply I. rewrite <- col_except in Hj. now apply except_In in Hj. }
      assert (La : env a < length rows).
      { rewrite (Hlen env rows IL Er). specialize (I a (col_incl a (or_introl eq_refl))). unfold osh in I. now rewrite Nat.eqb_refl in I. }
      destruct (nth_error rows (env a)) as [b|] eqn:Eb; [|apply nth_error_None in Eb; lia].
      exists rows, b. split; [reflexivity|]. split; [exact Eb|]. rewrite Eg. cbn [map]. now apply Helem.
    - destruct G as (env & I & Er). exists env. split; [exact I|]. destruct (run env); [discriminate|]. cbn in Er. now injection Er as ->.
  Qed.
  (* a gufunc that writes into an array of zeros *)
  Lemma columns_inout args ins (init : list B) (f : list B -> list (list nat -> Qc) -> res (list B)) (run : (nat -> nat) -> res (list B)) newlen :
    mapR core_axes args = Ok ins ->
    broadcast_shapes (map (shape_of t) L :: map loop_shape ins) = Ok (map (shape_of t) L) ->
    (forall env, inside (shape_of t) L env -> f init (map (fun x => core_elem x (map env L)) ins) = run env) ->
    (forall env rows, inside (shape_of t) L env -> run env = Ok rows -> length rows = newlen) ->
    by_columns d val run to_end newlen a M t
      (gufunc_inout init elem args (map (fun b => if Nat.eqb b a then newlen else shape_of t b) ax) (za :: mom') f).
  Proof.
    intros E1 E2 Hf Hlen. set (osh := fun b => if Nat.eqb b a then newlen else shape_of t b).
    pose proof HA as HA'. destruct HA' as (Ht & HM & HX & N & SM). assert (Na : ~ In a M) by (now inversion N).
    pose proof (gufunc_inout_named d L (shape_of t) ax (a :: M) osh col_ax_NoDup N col_incl col_except) as G.
    assert (ED : forall j, In j L -> osh j = shape_of t j).
    { intros j Hj. unfold osh. destruct (Nat.eqb_spec j a) as [->|]; [|reflexivity]. apply except_In in Hj. cbn in Hj. tauto. }
    specialize (G ED _ init elem args ins (za :: mom') f run E1 E2).
    rewrite col_ax_length in G. specialize (G F Hf). unfold by_columns.
    destruct (gufunc_inout init elem args _ _ f) as [g|e].
    - destruct G as (G1 & G2 & G3). split; [exact G1|]. split; [exact G2|]. fold n. fold ax. fold osh. intros env I.
      destruct (G3 env I) as (rows & Er & Eg).
      assert (IL : inside (shape_of t) L env).
      { intros j Hj. rewrite <- ED by exact Hj. apply I. rewrite <- col_except in Hj. now apply except_In in Hj. }
      assert (La : env a < length rows).
      { rewrite (Hlen env rows IL Er). specialize (I a (col_incl a (or_introl eq_refl))). unfold osh in I. now rewrite Nat.eqb_refl in I. }
      destruct (nth_error rows (env a)) as [b|] eqn:Eb; [|apply nth_error_None in Eb; lia].
      exists rows, b. split; [exact Er|]. split; [exact Eb|]. rewrite Eg. cbn [map]. now apply Helem.
    - destruct G as (env & I & Er). exists env. now split.
  Qed.
  (* one operand *)
  Lemma columns_one (g : list A -> res (list B)) newlen :
    (forall col rows, length col = shape_of t a -> g col = Ok rows -> length rows = newlen) ->
    by_columns d val (fun env => g (rows_along P t [a] M env)) to_end newlen a M t
      (gufunc d [(t', za :: mom')] (za :: mom') (newlen :: pk_shape P)
         (fun l => rmap elem (g (core_rows P (dim_at t' za) (acc l 0))))).
  Proof.
    intros Hlen. apply (columns_gufunc _ [named (t', za :: mom') ax (a :: M)]).
    - cbn [mapR]. rewrite (operand_core_axes _ _ _ _ _ _ _ col_operand). reflexivity.
    - cbn [map]. rewrite (operand_loop_shape _ _ _ _ _ _ _ col_operand), col_except. unfold broadcast_shapes. cbn [foldR].
      unfold bcast. cbn [rev bcast_rev rbind]. now rewrite rev_involutive.
    - intros env I. cbn [map acc nth]. now rewrite col_rows.
    - intros env rows I. apply Hlen. unfold rows_along. rewrite map_length, all_idx_length. cbn. lia.
  Qed.
End Columns.

(* ---- arrays that accompany the data -------------------------------------------------------- *)

Lemma nth_skipn' {T} (d : T) n l i : nth i (skipn n l) d = nth (n + i) l d.
Proof. revert l. induction n as [|n IH]; intros [|x l]; cbn; try reflexivity; [now destruct i|apply IH]. Qed.
Lemma aligned_all t C L : let E := except_nat (seq 0 (tndim t)) C in length E <= length L ->
  map (aligned_with t C L) E = skipn (length L - length E) L.
Proof.
  intros E H. assert (N : NoDup E) by (apply NoDup_except, seq_NoDup).
  apply (nth_ext _ _ 0 0); [rewrite map_length, skipn_length; lia|]. intros k Hk. rewrite map_length in Hk.
  rewrite nth_skipn', (nth_map_in _ _ _ _ 0) by exact Hk. unfold aligned_with. fold E. now rewrite index_of_nth.
Qed.
Lemma loop_index_map (X : list nat) (sh env al : nat -> nat) pre : 
  loop_index (map sh X) (map env (pre ++ map al X)) = map (fun p => if Nat.eqb (sh p) 1 then 0 else env (al p)) X.
Proof.
  unfold loop_index. rewrite map_app, app_length, !map_length.
  replace (length pre + length X - length X) with (length (map env pre)) by (rewrite map_length; lia).
  rewrite skipn_app, skipn_all, Nat.sub_diag. cbn [app skipn].
  induction X as [|a t IH]; [reflexivity|]. cbn [map combine fst snd]. now rewrite IH.
Qed.
Lemma aligned_operand t axes C L D : aligns t C L D -> Forall2 (is_axis (tndim t)) axes C -> NoDup L ->
  core_axes (t, axes) = Ok (t, C) /\
  (exists e : list nat * (nat -> nat), loop_shape (t, C) = map (snd e) (fst e) /\ (exists pre, L = pre ++ fst e) /\
     forall j, In j (fst e) -> snd e j = D j \/ snd e j = 1) /\
  forall env c, length c = length C -> core_elem (t, C) (map env L) c = aligned_entry t C L env c.
Proof.
  intros (Ht & NC & BC & HL & HS) F N. set (n := tndim t) in *. set (E := except_nat (seq 0 n) C) in *.
  assert (NE : NoDup E) by (apply NoDup_except, seq_NoDup).
  pose proof (aligned_all t C L HL) as EA. cbv zeta in EA. fold n in EA. fold E in EA.
  assert (EO : outer_axes n C = E) by apply except_filter.
  assert (ES : loop_shape (t, C) = map (shape_of t) E) by (unfold loop_shape; cbn [fst snd]; fold n; now rewrite EO).
  assert (EL : L = firstn (length L - length E) L ++ map (aligned_with t C L) E) by (rewrite EA; symmetry; apply firstn_skipn).
  split; [|split].
  - unfold core_axes. cbn [fst snd]. fold n. now rewrite (normalize_ints n axes C).
  - exists (map (aligned_with t C L) E, fun j => shape_of t (nth (index_of j (map (aligned_with t C L) E)) E 0)).
    assert (NA : NoDup (map (aligned_with t C L) E)) by (rewrite EL in N; now apply NoDup_app_parts in N).
    assert (EI : forall p, In p E -> nth (index_of (aligned_with t C L p) (map (aligned_with t C L) E)) E 0 = p).
    { intros p Hp. destruct (index_of_lt p E Hp) as [H1 H2].
      pose proof (index_of_nth (map (aligned_with t C L) E) (index_of p E) NA) as X.
      rewrite map_length, (nth_map_in _ _ _ _ 0), H2 in X by exact H1. now rewrite (X H1). }
    cbn [fst snd]. split; [|split].
    + rewrite ES, map_map. apply map_ext_in. intros p Hp. now rewrite EI.
    + eauto.
    + intros j Hj. apply in_map_iff in Hj. destruct Hj as (p & <- & Hp). rewrite EI by exact Hp. now apply HS.
  - intros env c Hc. unfold core_elem. rewrite ES. unfold aligned_entry, entry. cbn [fst snd]. fold n. f_equal.
    transitivity (place n C (map (fun p => if Nat.eqb (shape_of t p) 1 then 0 else env (aligned_with t C L p)) E) c).
    { f_equal. rewrite EL at 1. apply loop_index_map. }
    assert (EP : map (fun p => nth p (seq 0 n) 0) (outer_axes n C) = E).
    { rewrite EO. apply map_nth_seq_id. intros p Hp. apply except_In in Hp. destruct Hp as [Hp _]. apply in_seq in Hp. lia. }
    rewrite <- EP. apply (place_named (seq 0 n) C C n).
    + now rewrite seq_length.
    + apply seq_NoDup.
    + exact NC.
    + intros x Hx. apply in_seq. specialize (BC x Hx). lia.
    + rewrite <- (map_id C) at 1. apply map_ext_in. intros x Hx.
      pose proof (index_of_nth (seq 0 n) x (seq_NoDup _ _)) as X. rewrite seq_length, seq_nth in X by now apply BC.
      symmetry. apply X. now apply BC.
    + exact Hc.
Qed.

Section Columns2.
  Context {A : Type} (P : packer A) (HP : packer_ok P).
  Context (mom_axes : list Z) (axis : axis_arg) (to_end : bool) (a : nat) (M : list nat) (t t' : tensor) (za : Z) (mom' : list Z).
  Hypothesis HA : axis_of_moments P mom_axes axis a M t.
  Let n := tndim t.
  Let ax := column_axes to_end n a M.
  Let L := except_nat (seq 0 n) (a :: M).
  Hypothesis V : view t' ax (shape_of t) (entry t).
  Hypothesis F : Forall2 (is_axis n) (za :: mom') (map (fun c => index_of c ax) (a :: M)).
  Hypothesis Eza : za = Z.of_nat (index_of a ax).
  Context {B T : Type} (d : T) (val : B -> list nat -> T) (elem : list B -> list nat -> T).
  Hypothesis Helem : forall rows i m b, nth_error rows i = Some b -> elem rows (i :: m) = val b m.

  (* one array in front of the data *)
  Lemma columns_two e axes C (g : (list nat -> Qc) -> list A -> res (list B)) newlen :
    aligns e C L (shape_of t) -> Forall2 (is_axis (tndim e)) axes C ->
    (forall f h col, (forall c, length c = length C -> f c = h c) -> g f col = g h col) ->
    (forall f col rows, length col = shape_of t a -> g f col = Ok rows -> length rows = newlen) ->
    by_columns d val (fun env => g (aligned_entry e C L env) (rows_along P t [a] M env)) to_end newlen a M t
      (gufunc d [(e, axes); (t', za :: mom')] (za :: mom') (newlen :: pk_shape P)
         (fun l => rmap elem (g (acc l 0) (core_rows P (dim_at t' za) (acc l 1))))).
  Proof.
    intros HE FE Hg Hlen.
    assert (NL : NoDup L) by (apply NoDup_except, seq_NoDup).
    destruct (aligned_operand e axes C L (shape_of t) HE FE NL) as (E1 & (sh & E2 & (pre & E3) & E4) & E5).
    pose proof (col_operand P mom_axes axis to_end a M t t' za mom' HA V F) as OP. fold n ax L in OP.
    apply (columns_gufunc P mom_axes axis to_end a M t za mom' HA F d val elem Helem _ [(e, C); named (t', za :: mom') ax (a :: M)]).
    - cbn [mapR]. rewrite E1, (operand_core_axes _ _ _ _ _ _ _ OP). reflexivity.
    - cbn [map]. rewrite (operand_loop_shape _ _ _ _ _ _ _ OP), E2.
      pose proof (col_except P mom_axes axis to_end a M t HA) as EX. fold n ax L in EX. fold n. fold L. rewrite EX.
      apply broadcast_shapes_ok. apply (broadcasts_named L (shape_of t) [sh; (L, shape_of t)]).
      + intros x [<-|[<-|[]]]; [eauto|now exists []].
      + intros x j [<-|[<-|[]]]; [apply E4|auto].
      + right. exists (L, shape_of t). split; [right; now left|reflexivity].
      + intros j Hj. right. exists (L, shape_of t). split; [right; now left|]. now split.
      + exact NL.
    - intros env I. pose proof (col_rows P HP mom_axes axis to_end a M t t' za mom' HA V F Eza env I) as ER.
      unfold acc. cbn [map nth]. fold n L ax in ER |- *. rewrite ER. f_equal. apply Hg. apply E5.
    - intros env rows I. apply Hlen. unfold rows_along. rewrite map_length, all_idx_length. cbn. lia.
  Qed.
End Columns2.

(* the rows at a position do not depend on the index along the axis and the moment axes *)
Lemma rows_col_ext {A} (P : packer A) (HP : packer_ok P) t a M e e' : NoDup (a :: M) -> map (shape_of t) M = pk_shape P ->
  (forall b, b < tndim t -> ~ In b (a :: M) -> e b = e' b) -> rows_along P t [a] M e = rows_along P t [a] M e'.
Proof.
  intros N SM H. unfold rows_along. apply map_ext_in. intros r Hr. apply all_idx_valid, valid_length in Hr. rewrite map_length in Hr.
  unfold moment_at. apply (proj1 HP). intros m Hm. rewrite <- SM in Hm. pose proof (valid_length _ _ Hm) as Lm. rewrite map_length in Lm.
  unfold entry. f_equal. apply map_ext_in. intros b Hb. apply in_seq in Hb. inversion N as [|? ? Na NM]; subst.
  destruct (in_dec Nat.eq_dec b M) as [C|C]; [now apply bind_bound|]. rewrite !(bind_out M) by exact C.
  destruct (Nat.eq_dec b a) as [->|Nb].
  - apply bind_bound; [constructor; [intros []|constructor]|exact Hr|now left].
  - rewrite !bind_out by (intros [->|[]]; tauto). apply H; [lia|]. intros [->|X]; tauto.
Qed.
