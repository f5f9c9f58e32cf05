(* Proofs about reductions over several axes, in one or in several steps. *)
From Coq Require Import Permutation Sorted.
From Verif Require Import Base BaseLemmas ModelPush ModelPushCov ModelKernels ModelIndex ModelAxes Spec SpecAxes
  ProofPush ProofPushCov Laws ProofKernels ProofSpec ProofIndex ProofLabels ProofAxes ProofArrays.

Lemma ma_kernel {A V} (K : pusher A V) ok P : moment_array K ok P -> moment_kernel K ok.
Proof. intros H. destruct H; [apply mk_one|apply mk_two]; assumption. Qed.
Lemma ma_packer {A V} (K : pusher A V) ok P : moment_array K ok P -> packer_ok P.
Proof. intros H. destruct H; [apply packer1_ok|apply packer2_ok]. Qed.
Lemma ma_pack_ok {A V} (K : pusher A V) ok P : moment_array K ok P -> forall f, ok (pk_pack P f).
Proof.
  intros H. destruct H; intros f; cbn [packer1 packer2 pk_pack].
  - now rewrite map_length, seq_length.
  - split; [now rewrite map_length, seq_length|]. intros i Hi.
    rewrite (nth_map_in _ _ _ _ 0) by (now rewrite seq_length). now rewrite map_length, seq_length.
Qed.
Lemma ma_pack_unpack {A V} (K : pusher A V) ok P : moment_array K ok P -> forall a, ok a -> pk_pack P (pk_unpack P a) = a.
Proof.
  intros H. destruct H; intros a Ha; cbn [packer1 packer2 pk_pack pk_unpack].
  - cbn [nth]. unfold getq. now apply map_nth_seq.
  - destruct Ha as [H1 H2]. transitivity (map (fun i => nth i a []) (seq 0 (S n0))); [|apply map_nth_seq; now symmetry]. apply map_ext_in. intros i Hi. cbn [nth].
    unfold get2. apply map_nth_seq. symmetry. apply H2. apply in_seq in Hi. lia.
Qed.

Lemma bind_ext R r e e' : (forall a, e a = e' a) -> forall a, bind R r e a = bind R r e' a.
Proof. intros H a. unfold bind. now destruct (find _ _). Qed.
Lemma bind_cons a R i r env : ~ In a R -> forall b, bind (a :: R) (i :: r) env b = bind R r (bind [a] [i] env) b.
Proof.
  intros Na b. unfold bind at 1. cbn [combine find fst]. destruct (Nat.eqb a b) eqn:E.
  - apply Nat.eqb_eq in E. subst. rewrite bind_out by exact Na. unfold bind. cbn. now rewrite Nat.eqb_refl.
  - assert (X : bind [a] [i] env b = env b) by (unfold bind; cbn; now rewrite E).
    unfold bind at 1. destruct (find _ _); [reflexivity|now symmetry].
Qed.
Lemma bind_one_swap a b i j env : a <> b -> forall c, bind [a] [i] (bind [b] [j] env) c = bind [b] [j] (bind [a] [i] env) c.
Proof.
  intros N c. unfold bind; cbn. destruct (Nat.eqb a c) eqn:Ea, (Nat.eqb b c) eqn:Eb; auto.
  apply Nat.eqb_eq in Ea, Eb. congruence.
Qed.
Lemma bind_app R1 R2 r1 r2 env : length r1 = length R1 -> (forall x, In x R1 -> ~ In x R2) -> forall b,
  bind (R1 ++ R2) (r1 ++ r2) env b = bind R2 r2 (bind R1 r1 env) b.
Proof.
  intros L D b. unfold bind at 1.
  assert (C : combine (R1 ++ R2) (r1 ++ r2) = combine R1 r1 ++ combine R2 r2).
  { clear D. revert r1 L. induction R1 as [|x t IH]; intros [|y r1] L; try discriminate; [reflexivity|]. cbn. now rewrite IH by (cbn in L; lia). }
  rewrite C. clear C.
  assert (F : forall (Q : nat * nat -> bool) l l', find Q (l ++ l') = match find Q l with Some x => Some x | None => find Q l' end).
  { intros Q l l'. induction l as [|x t IH]; [reflexivity|]. cbn. now destruct (Q x). }
  rewrite F. destruct (find _ (combine R1 r1)) as [p|] eqn:E1.
  - pose proof (find_some _ _ E1) as [I1 I2]. apply Nat.eqb_eq in I2. destruct p as [x y]; cbn in *. subst x.
    apply in_combine_l in I1. rewrite bind_out by (now apply D). unfold bind. now rewrite E1.
  - unfold bind at 1. destruct (find _ (combine R2 r2)); [reflexivity|]. unfold bind. now rewrite E1.
Qed.

Lemma bind_bound M m e e' a : NoDup M -> length m = length M -> In a M -> bind M m e a = bind M m e' a.
Proof. intros N L H. now rewrite !bind_in by assumption. Qed.
Section Rows.
  Context {A : Type} (P : packer A) (HP : packer_ok P).

  Lemma entry_ext t e e' : (forall a, e a = e' a) -> entry t e = entry t e'.
  Proof. intros H. unfold entry. f_equal. apply map_ext. exact H. Qed.
  Lemma moment_at_ext t M e e' : (forall a, e a = e' a) -> moment_at P t M e = moment_at P t M e'.
  Proof. intros H. apply (proj1 HP). intros m _. apply entry_ext. intros a. now apply bind_ext. Qed.
  Lemma rows_along_ext t R M e e' : (forall a, e a = e' a) -> rows_along P t R M e = rows_along P t R M e'.
  Proof. intros H. unfold rows_along. apply map_ext. intros r. apply moment_at_ext. intros a. now apply bind_ext. Qed.
  (* what is bound does not matter *)
  Lemma rows_along_bound t R M e e' : NoDup R -> (forall a, ~ In a R -> e a = e' a) -> rows_along P t R M e = rows_along P t R M e'.
  Proof.
    intros N H. unfold rows_along. apply map_ext_in. intros r Hr. apply moment_at_ext. intros a.
    apply all_idx_valid, valid_length in Hr. rewrite map_length in Hr.
    destruct (in_dec Nat.eq_dec a R) as [C|C]; [now rewrite !bind_in|]. rewrite !bind_out by exact C. now apply H.
  Qed.

  Lemma rows_along_cons t a R M env : ~ In a R ->
    rows_along P t (a :: R) M env = flat_map (fun i => rows_along P t R M (bind [a] [i] env)) (seq 0 (shape_of t a)).
  Proof.
    intros Na. unfold rows_along at 1. cbn [map all_idx]. rewrite flat_map_concat_map, concat_map, map_map, flat_map_concat_map.
    f_equal. apply map_ext. intros i. rewrite map_map. unfold rows_along. apply map_ext. intros r.
    apply moment_at_ext. now apply bind_cons.
  Qed.
  Lemma flat_map_ext_perm {X Y} (f g : X -> list Y) l : (forall x, In x l -> Permutation (f x) (g x)) ->
    Permutation (flat_map f l) (flat_map g l).
  Proof.
    induction l as [|x t IH]; intros H; [constructor|]. cbn. apply Permutation_app; [apply H; now left|].
    apply IH. intros y Hy. apply H. now right.
  Qed.
  Lemma flat_map_app_perm {X Y} (f g : X -> list Y) l :
    Permutation (flat_map (fun x => f x ++ g x) l) (flat_map f l ++ flat_map g l).
  Proof.
    induction l as [|x t IH]; [constructor|]. cbn. rewrite IH. rewrite <- !app_assoc. apply Permutation_app_head.
    rewrite !app_assoc. apply Permutation_app_tail, Permutation_app_comm.
  Qed.
  Lemma flat_map_swap {X Y Z} (f : X -> Y -> list Z) l r :
    Permutation (flat_map (fun x => flat_map (f x) r) l) (flat_map (fun y => flat_map (fun x => f x y) l) r).
  Proof.
    induction l as [|x t IH]; cbn.
    - induction r as [|y r IHr]; [constructor|]. exact IHr.
    - rewrite IH, <- flat_map_app_perm. reflexivity.
  Qed.
  Lemma rows_along_perm t M R R' : Permutation R R' -> NoDup R ->
    forall env, Permutation (rows_along P t R M env) (rows_along P t R' M env).
  Proof.
    intros H. induction H as [|a l l' H IH|a b l|l1 l2 l3 H1 IH1 H2 IH2]; intros N env.
    - reflexivity.
    - inversion N; subst. assert (~ In a l') by (intros C; apply (Permutation_in _ (Permutation_sym H)) in C; tauto).
      rewrite !rows_along_cons by assumption. apply flat_map_ext_perm. intros i _. now apply IH.
    - inversion N as [|? ? Hb N1]; subst. inversion N1 as [|? ? Ha N2]; subst. cbn in Hb.
      assert (Hb' : ~ In b l) by tauto. assert (Hab : a <> b) by tauto.
      rewrite (rows_along_cons t b (a :: l)), (rows_along_cons t a (b :: l)) by (cbn; intuition congruence).
      rewrite (flat_map_ext _ (fun i => flat_map (fun j => rows_along P t l M (bind [a] [j] (bind [b] [i] env))) (seq 0 (shape_of t a))))
        by (intros i; now rewrite rows_along_cons).
      rewrite flat_map_swap. apply flat_map_ext_perm. intros i _. rewrite rows_along_cons by exact Hb'.
      apply flat_map_ext_perm. intros j _. rewrite (rows_along_ext t l M _ (bind [b] [j] (bind [a] [i] env))); [reflexivity|].
      now apply bind_one_swap.
    - assert (N2 : NoDup l2) by (now apply (Permutation_NoDup H1)). rewrite IH1 by exact N. now apply IH2.
  Qed.
  Lemma all_idx_app s1 s2 : all_idx (s1 ++ s2) = flat_map (fun r1 => map (app r1) (all_idx s2)) (all_idx s1).
  Proof.
    induction s1 as [|n t IH]; cbn [all_idx app].
    - cbn. rewrite app_nil_r. symmetry. apply map_id.
    - rewrite IH. generalize (seq 0 n). intros l. induction l as [|i l IHl]; [reflexivity|]. cbn [flat_map].
      rewrite flat_map_app, <- IHl. f_equal. rewrite !flat_map_concat_map, concat_map, !map_map. f_equal. apply map_ext. intros r.
      now rewrite map_map.
  Qed.
  Lemma rows_along_app t R1 R2 M env : (forall x, In x R1 -> ~ In x R2) ->
    rows_along P t (R1 ++ R2) M env =
    concat (map (fun r => rows_along P t R2 M (bind R1 r env)) (all_idx (map (shape_of t) R1))).
  Proof.
    intros D. unfold rows_along. rewrite map_app, all_idx_app, flat_map_concat_map, concat_map, map_map. f_equal.
    apply map_ext_in. intros r1 Hr. apply all_idx_valid, valid_length in Hr. rewrite map_length in Hr.
    rewrite map_map. apply map_ext. intros r2. apply moment_at_ext. now apply bind_app.
  Qed.
End Rows.

Section Steps.
  Context {A V : Type} (K : pusher A V) (ok : A -> Prop) (P : packer A) (HA : moment_array K ok P).
  Let HP := ma_packer K ok P HA.

  Lemma bind_inside t R r env ax : NoDup R -> valid (map (shape_of t) R) r ->
    inside (shape_of t) (except_nat ax R) env -> inside (shape_of t) ax (bind R r env).
  Proof.
    intros N Hr I a Ha. pose proof (valid_length _ _ Hr) as L. rewrite map_length in L.
    destruct (in_dec Nat.eq_dec a R) as [C|C].
    - rewrite bind_in by assumption. now apply valid_nth_index.
    - rewrite bind_out by exact C. apply I. now apply except_In.
  Qed.
  Lemma rows_along_ok M t R env : moments_in K P M t -> NoDup R ->
    inside (shape_of t) (except_nat (seq 0 (tndim t)) R) env -> rows_ok K ok (rows_along P t R M env).
  Proof.
    intros (Ht & NM & BM & SM & W) N I. apply Forall_forall. intros d Hd. apply in_map_iff in Hd. destruct Hd as (r & <- & Hr).
    apply all_idx_valid in Hr. split; [apply (ma_pack_ok K ok P HA)|]. apply W. now apply bind_inside.
  Qed.
  Lemma reduce_rows_total data : rows_ok K ok data -> exists a, reduce_data K data = Some a /\ ok a.
  Proof.
    intros H. destruct (kernel_laws K ok (ma_kernel K ok P HA)) as (I & L & E).
    assert (Pz : Forall (Pos L) data) by (eapply rows_ok_Pos; eauto).
    destruct (reduce_pos L data Pz) as (r & Er & Cr & _). exists r. split; [exact Er|]. apply E, Cr.
  Qed.
  (* nonnegative weights: the reduction never fails *)
  Lemma reduce_nd_total M t mom_axes axis keepdims to_end R : moments_in K P M t ->
    Forall2 (is_axis (tndim t)) mom_axes M -> names_axes (tndim t) (length M) axis M R -> NoDup (M ++ R) -> R <> [] ->
    exists out, reduce_data_nd K P mom_axes axis keepdims to_end t = Ok out /\ holds_reduction K P keepdims to_end R M t out.
  Proof.
    intros Hm HM HR ND NE. destruct (reduce_nd_cells K P HP t mom_axes axis keepdims to_end M R) as [H|H]; auto; try apply Hm.
    destruct H as (_ & env & I & E). exfalso.
    destruct (reduce_rows_total (rows_along P t R M env)) as (a & Ea & _); [|congruence].
    apply rows_along_ok; auto. now apply NoDup_app_parts in ND.
  Qed.

  Lemma holds_unique keepdims to_end R M t o o' : NoDup (M ++ R) -> (forall a, In a R -> a < tndim t) -> (forall a, In a M -> a < tndim t) ->
    holds_reduction K P keepdims to_end R M t o -> holds_reduction K P keepdims to_end R M t o' -> o = o'.
  Proof.
    intros ND BR BM (O1 & S1 & C1) (O2 & S2 & C2). apply tensor_ext; auto; [congruence|]. intros idx Hi. rewrite S1 in Hi.
    destruct (NoDup_app_parts _ _ ND) as (NM & NR & D).
    apply valid_inside in Hi.
    - destruct Hi as (env & I & <-). destruct (C1 env I) as (a & Ea & E1), (C2 env I) as (b & Eb & E2). congruence.
    - unfold out_axes. destruct keepdims, to_end; try apply seq_NoDup; try apply NoDup_except, seq_NoDup.
      + apply NoDup_app_; [apply NoDup_except, seq_NoDup| |intros x Hx; now apply except_In in Hx].
        apply NoDup_app_; auto. intros x Hx C. now apply (D x).
      + apply NoDup_app_; [apply NoDup_except, seq_NoDup|exact NM|]. intros x Hx. apply except_In in Hx. rewrite in_app_iff in Hx. tauto.
  Qed.

  (* positions in a list of named axes *)
  Lemma positions_In ax l : NoDup ax -> incl l ax -> forall p, p < length ax -> In p (positions ax l) <-> In (nth p ax 0) l.
  Proof.
    intros N I p Hp. unfold positions. rewrite in_map_iff. split.
    - intros (a & E & Ha). destruct (index_of_lt a ax (I a Ha)) as [_ E2]. rewrite E in E2. now rewrite E2.
    - intros H. exists (nth p ax 0). split; [|exact H]. now apply index_of_nth.
  Qed.
  Lemma positions_names ax l : incl l ax -> map (fun p => nth p ax 0) (positions ax l) = l.
  Proof.
    intros I. unfold positions. rewrite map_map. rewrite <- (map_id l) at 2. apply map_ext_in. intros a Ha.
    now apply (index_of_lt a ax (I a Ha)).
  Qed.
  Lemma positions_NoDup ax l : incl l ax -> NoDup l -> NoDup (positions ax l).
  Proof.
    intros I N. apply NoDup_map_in; [exact N|]. intros x y Hx Hy E.
    destruct (index_of_lt x ax (I x Hx)) as [_ F1], (index_of_lt y ax (I y Hy)) as [_ F2]. congruence.
  Qed.
  Lemma positions_lt ax l : incl l ax -> forall p, In p (positions ax l) -> p < length ax.
  Proof. intros I p H. apply in_map_iff in H. destruct H as (a & <- & Ha). now apply (index_of_lt a ax (I a Ha)). Qed.
  Lemma positions_except ax l ps : NoDup ax -> incl l ax -> (forall p, In p ps -> p < length ax) ->
    map (fun p => nth p ax 0) (except_nat ps (positions ax l)) = except_nat (map (fun p => nth p ax 0) ps) l.
  Proof.
    intros N I. unfold except. induction ps as [|p t IH]; intros B; [reflexivity|]. cbn [filter map].
    assert (Hp : p < length ax) by (apply B; now left). pose proof (positions_In ax l N I p Hp) as HI.
    specialize (IH (fun q Hq => B q (or_intror Hq))).
    destruct (in_dec Nat.eq_dec p (positions ax l)), (in_dec Nat.eq_dec (nth p ax 0) l); try tauto. cbn [map]. now f_equal.
  Qed.
  Lemma positions_app ax l l' : positions ax (l ++ l') = positions ax l ++ positions ax l'.
  Proof. apply map_app. Qed.
  Lemma bind_positions ax l x E p : NoDup ax -> NoDup l -> incl l ax -> length x = length l -> p < length ax ->
    bind (positions ax l) x (fun q => E (nth q ax 0)) p = bind l x E (nth p ax 0).
  Proof.
    intros N Nl I L Hp. pose proof (positions_In ax l N I p Hp) as HI. destruct (in_dec Nat.eq_dec p (positions ax l)) as [C|C].
    - rewrite bind_in; [|now apply positions_NoDup|unfold positions; now rewrite map_length|exact C].
      rewrite bind_in by tauto. f_equal. apply HI in C. destruct (index_of_lt _ l C) as [H1 H2].
      assert (Q : nth (index_of (nth p ax 0) l) (positions ax l) 0 = p).
      { unfold positions. rewrite (nth_map_in _ _ _ _ 0) by exact H1. rewrite H2. now apply index_of_nth. }
      rewrite <- Q at 1. apply index_of_nth; [now apply positions_NoDup|]. unfold positions. now rewrite map_length.
    - rewrite bind_out by exact C. rewrite bind_out by tauto. reflexivity.
  Qed.

  Section Two.
    Context (t out1 : tensor) (M R1 R2 : list nat) (kd : bool).
    Hypothesis Hm : moments_in K P M t.
    Hypothesis ND : NoDup (M ++ R1 ++ R2).
    Hypothesis B1 : forall a, In a R1 -> a < tndim t.
    Hypothesis B2 : forall a, In a R2 -> a < tndim t.
    Hypothesis H1 : holds_reduction K P kd false R1 M t out1.
    Let n := tndim t.
    Let ax1 := out_axes kd false n R1 M.
    Let sh1 := fun a => if in_dec Nat.eq_dec a R1 then 1 else shape_of t a.

    Lemma ax1_NoDup : NoDup ax1.
    Proof. unfold ax1, out_axes. destruct kd; [apply seq_NoDup|apply NoDup_except, seq_NoDup]. Qed.
    Lemma two_disj : NoDup M /\ NoDup R1 /\ NoDup R2 /\ (forall x, In x M -> ~ In x R1) /\ (forall x, In x M -> ~ In x R2) /\ (forall x, In x R1 -> ~ In x R2).
    Proof.
      destruct (NoDup_app_parts _ _ ND) as (N1 & N2 & D). destruct (NoDup_app_parts _ _ N2) as (N3 & N4 & D').
      repeat split; auto; intros x Hx C; apply (D x Hx), in_or_app; auto.
    Qed.
    Lemma ax1_In a : a < n -> ~ In a R1 -> In a ax1.
    Proof.
      intros Ha H. assert (In a (seq 0 n)) by (apply in_seq; lia). unfold ax1, out_axes. destruct kd; [assumption|]. now apply except_In.
    Qed.
    Lemma M_ax1 : incl M ax1.
    Proof. intros a Ha. destruct two_disj as (_ & _ & _ & D & _). apply ax1_In; [now apply Hm|now apply D]. Qed.
    Lemma R2_ax1 : incl R2 ax1.
    Proof. intros a Ha. destruct two_disj as (_ & _ & _ & _ & _ & D). apply ax1_In; [now apply B2|]. intros C. now apply (D a). Qed.
    Lemma out1_ndim : tndim out1 = length ax1.
    Proof. destruct H1 as (_ & S & _). unfold tndim at 1. rewrite S. now rewrite map_length. Qed.
    Lemma out1_shape p : p < length ax1 -> shape_of out1 p = sh1 (nth p ax1 0).
    Proof. intros Hp. destruct H1 as (_ & S & _). unfold shape_of. rewrite S. fold n. fold ax1. now apply nth_map_in. Qed.
    Lemma out1_shapes l : incl l ax1 -> (forall a, In a l -> ~ In a R1) -> map (shape_of out1) (positions ax1 l) = map (shape_of t) l.
    Proof.
      intros I D. unfold positions. rewrite map_map. apply map_ext_in. intros a Ha. destruct (index_of_lt a ax1 (I a Ha)) as [L1 L2].
      rewrite out1_shape by exact L1. rewrite L2. unfold sh1. destruct (in_dec Nat.eq_dec a R1); [exfalso; now apply (D a)|reflexivity].
    Qed.
    Lemma inside_O E : inside sh1 ax1 E -> inside (shape_of t) (except_nat (seq 0 n) R1) E.
    Proof.
      intros I a Ha. apply except_In in Ha. destruct Ha as [Ha Hn]. apply in_seq in Ha.
      specialize (I a (ax1_In a ltac:(lia) Hn)). unfold sh1 in I. destruct (in_dec Nat.eq_dec a R1); tauto.
    Qed.
    (* the moment array of out1 is the reduction of the rows of t *)
    Lemma out1_moment E : inside sh1 ax1 E ->
      exists a, reduce_data K (rows_along P t R1 M E) = Some a /\ ok a /\ (0 <= p_wt K a)%Qc /\
        moment_at P out1 (positions ax1 M) (fun q => E (nth q ax1 0)) = a.
    Proof.
      intros I. destruct two_disj as (NM & N1 & N2 & D1 & D2 & D12).
      pose proof (rows_along_ok M t R1 E Hm N1 (inside_O E I)) as RO.
      destruct (kernel_laws K ok (ma_kernel K ok P HA)) as (IX & L & EQ).
      assert (Pz : Forall (Pos L) (rows_along P t R1 M E)) by (eapply rows_ok_Pos; eauto).
      destruct (reduce_pos L _ Pz) as (r & Er & Cr & Wr & Pr). exists r. split; [exact Er|].
      assert (okr : ok r) by (apply EQ, Cr). split; [exact okr|]. split; [rewrite Wr; now apply (Pos_sumwt L)|].
      unfold moment_at. rewrite <- (ma_pack_unpack K ok P HA r okr). apply (proj1 HP). intros m Vm.
      destruct Hm as (_ & _ & _ & SM & _). rewrite <- SM in Vm. pose proof (valid_length _ _ Vm) as Lm. rewrite map_length in Lm.
      assert (IB : inside sh1 ax1 (bind M m E)).
      { intros a Ha. destruct (in_dec Nat.eq_dec a M) as [C|C].
        - rewrite bind_in by assumption. unfold sh1. destruct (in_dec Nat.eq_dec a R1) as [C'|C']; [exfalso; now apply (D1 a)|].
          now apply valid_nth_index.
        - rewrite bind_out by exact C. now apply I. }
      destruct H1 as (_ & _ & C1). fold n in C1. fold ax1 in C1. destruct (C1 _ IB) as (a & Ea & Et).
      assert (ER : rows_along P t R1 M (bind M m E) = rows_along P t R1 M E).
      { unfold rows_along. apply map_ext_in. intros r1 Hr1. apply (proj1 HP). intros m' Vm'. apply entry_ext. intros b.
        rewrite <- SM in Vm'. apply valid_length in Vm'. rewrite map_length in Vm'.
        apply all_idx_valid, valid_length in Hr1. rewrite map_length in Hr1.
        destruct (in_dec Nat.eq_dec b M) as [C|C]; [now apply bind_bound|]. rewrite !(bind_out M) by exact C.
        destruct (in_dec Nat.eq_dec b R1) as [C'|C']; [now apply bind_bound|]. rewrite !(bind_out R1) by exact C'. now apply bind_out. }
      rewrite ER, Er in Ea. injection Ea as <-. rewrite map_bind in Et by assumption. rewrite <- Et.
      unfold entry. f_equal. rewrite out1_ndim. rewrite <- (map_nth_seq ax1 0 (length ax1) eq_refl) at 3. rewrite map_map.
      apply map_ext_in. intros p Hp. apply in_seq in Hp. apply bind_positions; auto using ax1_NoDup, M_ax1. lia.
    Qed.
    Lemma out1_moments_in : moments_in K P (positions ax1 M) out1.
    Proof.
      destruct two_disj as (NM & N1 & N2 & D1 & D2 & D12).
      split; [apply H1|]. split; [apply positions_NoDup; auto using M_ax1|]. split; [|split].
      - intros p Hp. rewrite out1_ndim. revert Hp. apply positions_lt. exact M_ax1.
      - rewrite out1_shapes by (auto using M_ax1). apply Hm.
      - intros env I. set (E := fun a => env (index_of a ax1)).
        assert (IE : inside sh1 ax1 E).
        { intros a Ha. destruct (index_of_lt a ax1 Ha) as [L1 L2]. unfold E. rewrite <- L2 at 2. rewrite <- out1_shape by exact L1.
          apply I. apply in_seq. rewrite out1_ndim. lia. }
        destruct (out1_moment E IE) as (a & _ & _ & W & Em). rewrite <- Em in W. unfold moment_at in W.
        rewrite (proj1 HP _ (fun m => entry out1 (bind (positions ax1 M) m env))) in W; [exact W|]. intros m Vm.
        unfold entry. f_equal. apply map_ext_in. intros p Hp. apply in_seq in Hp. rewrite out1_ndim in Hp.
        destruct (in_dec Nat.eq_dec p (positions ax1 M)) as [C|C].
        + destruct Hm as (_ & _ & _ & SM & _). rewrite <- SM in Vm. apply valid_length in Vm. rewrite map_length in Vm.
          assert (NoDup (positions ax1 M)) by (apply positions_NoDup; auto using M_ax1).
          apply bind_bound; auto. unfold positions; now rewrite map_length.
        + rewrite !bind_out by exact C. unfold E. rewrite index_of_nth; [reflexivity|apply ax1_NoDup|lia].
    Qed.
    (* reducing R2 of out1 is reducing R2 ++ R1 of t *)
    Lemma two_rows E : inside sh1 (except_nat ax1 R2) E ->
      reduce_data K (rows_along P out1 (positions ax1 R2) (positions ax1 M) (fun q => E (nth q ax1 0))) =
      reduce_data K (rows_along P t (R2 ++ R1) M E).
    Proof.
      intros I. destruct two_disj as (NM & N1 & N2 & D1 & D2 & D12).
      assert (D21 : forall x, In x R2 -> ~ In x R1) by (intros x Hx C; now apply (D12 x)).
      destruct (kernel_laws K ok (ma_kernel K ok P HA)) as (IX & L & EQ).
      set (chunks := map (fun r => rows_along P t R1 M (bind R2 r E)) (all_idx (map (shape_of t) R2))).
      assert (IB : forall r, In r (all_idx (map (shape_of t) R2)) -> inside sh1 ax1 (bind R2 r E)).
      { intros r Hr a Ha. apply all_idx_valid in Hr. pose proof (valid_length _ _ Hr) as Lr. rewrite map_length in Lr.
        destruct (in_dec Nat.eq_dec a R2) as [C|C].
        - rewrite bind_in by assumption. unfold sh1. destruct (in_dec Nat.eq_dec a R1); [exfalso; now apply (D21 a)|]. now apply valid_nth_index.
        - rewrite bind_out by exact C. apply I. now apply except_In. }
      assert (PC : Forall (Pos L) (concat chunks)).
      { apply Forall_concat. unfold chunks. apply Forall_map, Forall_forall. intros r Hr. eapply rows_ok_Pos; [exact EQ|].
        apply rows_along_ok; [exact Hm|exact N1|]. apply inside_O. now apply IB. }
      destruct (reduce_concat L chunks PC) as (rs & Ers & _ & _ & _ & Econ).
      rewrite (rows_along_app P HP) by exact D21. fold chunks. rewrite <- Econ. f_equal.
      unfold rows_along at 1. rewrite out1_shapes by (auto using R2_ax1).
      assert (G : mapM (fun r => reduce_data K (rows_along P t R1 M (bind R2 r E))) (all_idx (map (shape_of t) R2)) =
        Some (map (fun r => moment_at P out1 (positions ax1 M) (bind (positions ax1 R2) r (fun q => E (nth q ax1 0)))) (all_idx (map (shape_of t) R2)))).
      { revert IB. clear - HA HP Hm ND B1 B2 H1 N2. intros IB.
        assert (LB : forall r, In r (all_idx (map (shape_of t) R2)) -> length r = length R2).
        { intros r Hr. apply all_idx_valid, valid_length in Hr. now rewrite map_length in Hr. }
        revert IB LB. generalize (all_idx (map (shape_of t) R2)). intros l. induction l as [|r l IH]; intros IB LB; [reflexivity|]. cbn [mapM map].
        destruct (out1_moment (bind R2 r E) (IB r (or_introl eq_refl))) as (a & Ea & _ & _ & Em).
        rewrite Ea. cbn [obind]. rewrite IH by (intros r' Hr'; auto using in_cons). cbn [obind]. f_equal. f_equal.
        rewrite <- Em. apply (proj1 HP). intros m Vm. unfold entry. f_equal. apply map_ext_in. intros p Hp.
        apply in_seq in Hp. rewrite out1_ndim in Hp. destruct Hm as (_ & NM & _ & SM & _). rewrite <- SM in Vm. apply valid_length in Vm.
        rewrite map_length in Vm. assert (Lm : length m = length (positions ax1 M)) by (unfold positions; now rewrite map_length).
        assert (NoDup (positions ax1 M)) by (apply positions_NoDup; auto using M_ax1).
        destruct (in_dec Nat.eq_dec p (positions ax1 M)) as [C|C]; [now apply bind_bound|]. rewrite !(bind_out (positions ax1 M)) by exact C.
        symmetry. apply bind_positions; auto using ax1_NoDup, R2_ax1; [apply LB; now left|lia]. }
      unfold chunks in Ers. rewrite mapM_map in Ers. rewrite Ers in G. now injection G as ->.
    Qed.

    Lemma two_steps te out2 out : kd = false \/ te = false ->
      holds_reduction K P kd te (positions ax1 R2) (positions ax1 M) out1 out2 ->
      holds_reduction K P kd te (R1 ++ R2) M t out -> out2 = out.
    Proof.
      intros Hkd (O2 & S2 & C2) (O & S & C). destruct two_disj as (NM & N1 & N2 & D1 & D2 & D12).
      rewrite out1_ndim in S2, C2. fold n in S, C.
      pose proof ax1_NoDup as NA1. pose proof M_ax1 as IM1. pose proof R2_ax1 as IR2.
      set (ax2 := out_axes kd te (length ax1) (positions ax1 R2) (positions ax1 M)) in *.
      set (ax := out_axes kd te n (R1 ++ R2) M) in *.
      assert (SQ : forall p, In p (seq 0 (length ax1)) -> p < length ax1) by (intros p Hp; apply in_seq in Hp; lia).
      assert (EX : forall l, except_nat (except_nat (seq 0 n) R1) l = except_nat (seq 0 n) (R1 ++ l)) by (intros; apply except_except).
      assert (NMS : map (fun p => nth p ax1 0) ax2 = ax).
      { unfold ax2, ax, out_axes. destruct Hkd as [E|E]; rewrite E; destruct kd, te; try discriminate E.
        - rewrite map_app, <- positions_app, positions_except; auto.
          + rewrite map_nth_seq by reflexivity. rewrite positions_names by exact IM1. unfold ax1, out_axes. now rewrite EX, app_assoc.
          + intros a Ha. apply in_app_or in Ha. destruct Ha; [now apply IR2|now apply IM1].
        - rewrite positions_except; auto. rewrite map_nth_seq by reflexivity. unfold ax1, out_axes. now rewrite EX.
        - unfold ax1, out_axes. rewrite seq_length. apply map_nth_seq_id. intros a Ha. apply in_seq in Ha. lia.
        - rewrite positions_except; auto. rewrite map_nth_seq by reflexivity. unfold ax1, out_axes. now rewrite EX. }
      assert (AX2 : forall p, In p ax2 -> p < length ax1).
      { intros p Hp. unfold ax2, out_axes in Hp. destruct kd, te; repeat (apply in_app_or in Hp; destruct Hp as [Hp|Hp]);
          try (apply except_In in Hp; now apply SQ); try (revert Hp; apply positions_lt; auto); now apply SQ. }
      assert (SHP : forall p, p < length ax1 ->
        (if in_dec Nat.eq_dec p (positions ax1 R2) then 1 else shape_of out1 p) =
        (if in_dec Nat.eq_dec (nth p ax1 0) (R1 ++ R2) then 1 else shape_of t (nth p ax1 0))).
      { intros p Hp. rewrite out1_shape by exact Hp. pose proof (positions_In ax1 R2 ax1_NoDup R2_ax1 p Hp) as HI. unfold sh1.
        destruct (in_dec Nat.eq_dec p (positions ax1 R2)), (in_dec Nat.eq_dec (nth p ax1 0) (R1 ++ R2)) as [X|X],
          (in_dec Nat.eq_dec (nth p ax1 0) R1); auto; rewrite in_app_iff in X; tauto. }
      assert (NA : NoDup ax).
      { unfold ax, out_axes. destruct kd, te; try apply seq_NoDup; try apply NoDup_except, seq_NoDup.
        - destruct Hkd; discriminate.
        - apply NoDup_app_; [apply NoDup_except, seq_NoDup|exact NM|]. intros x Hx. apply except_In in Hx. rewrite !in_app_iff in Hx. tauto. }
      assert (SS : tshape out2 = tshape out).
      { rewrite S2, S, <- NMS, map_map. apply map_ext_in. intros p Hp. apply SHP. now apply AX2. }
      apply tensor_ext; auto. intros idx Hi. rewrite SS, S in Hi. apply valid_inside in Hi; [|exact NA].
      destruct Hi as (E & I & <-). destruct (C E I) as (a & Ea & Et). rewrite Et.
      assert (I2 : inside (fun p => if in_dec Nat.eq_dec p (positions ax1 R2) then 1 else shape_of out1 p) ax2 (fun q => E (nth q ax1 0))).
      { intros p Hp. rewrite SHP by now apply AX2. apply (I (nth p ax1 0)). rewrite <- NMS. now apply (in_map (fun p => nth p ax1 0)). }
      destruct (C2 _ I2) as (b & Eb & Et2).
      assert (EM : map (fun q => E (nth q ax1 0)) ax2 = map E ax) by (now rewrite <- NMS, map_map).
      rewrite EM in Et2. rewrite Et2.
      assert (EMM : map (fun q => E (nth q ax1 0)) (positions ax1 M) = map E M).
      { rewrite <- (positions_names ax1 M M_ax1) at 2. now rewrite map_map. }
      rewrite EMM. f_equal.
      assert (IX : inside sh1 (except_nat ax1 R2) E).
      { intros x Hx. apply except_In in Hx. destruct Hx as [Hx Hn].
        assert (X : In x ax).
        { unfold ax, out_axes, ax1 in *. unfold out_axes in Hx. destruct kd, te; auto; try (destruct Hkd; discriminate).
          - apply except_In in Hx. destruct (in_dec Nat.eq_dec x M); apply in_or_app; [now right|left].
            apply except_In. rewrite !in_app_iff. tauto.
          - apply except_In in Hx. apply except_In. rewrite in_app_iff. tauto. }
        specialize (I x X). cbn beta in I. unfold sh1. destruct (in_dec Nat.eq_dec x (R1 ++ R2)) as [Y|Y], (in_dec Nat.eq_dec x R1); auto;
          rewrite in_app_iff in Y; tauto. }
      rewrite two_rows in Eb by exact IX.
      destruct (kernel_laws K ok (ma_kernel K ok P HA)) as (IY & L & EQ).
      assert (EP : reduce_data K (rows_along P t (R2 ++ R1) M E) = reduce_data K (rows_along P t (R1 ++ R2) M E)).
      { assert (N21 : NoDup (R2 ++ R1)) by (apply NoDup_app_; auto; intros x Hx Y; now apply (D12 x)).
        apply (reduce_perm L).
        - apply (rows_along_perm P HP); [apply Permutation_app_comm|exact N21].
        - eapply rows_ok_Pos; [exact EQ|]. apply rows_along_ok; [exact Hm|exact N21|]. intros x Hx. apply except_In in Hx.
          rewrite in_app_iff in Hx. assert (Hx1 : In x ax1) by (apply ax1_In; [destruct Hx as [Hx _]; apply in_seq in Hx; fold n in Hx; lia|tauto]).
          assert (Hx2 : In x (except_nat ax1 R2)) by (apply except_In; tauto).
          specialize (IX x Hx2). unfold sh1 in IX. destruct (in_dec Nat.eq_dec x R1); tauto. }
      congruence.
    Qed.
  End Two.
End Steps.

(* ---- moment axes moved to the end first --------------------------------------------- *)
Section Rename.
  Context {A V : Type} (K : pusher A V) (ok : A -> Prop) (P : packer A) (HA : moment_array K ok P).
  Let HP := ma_packer K ok P HA.
  Context (t u : tensor) (M R ax : list nat).
  Let n := tndim t.
  Hypothesis Hu : view u ax (shape_of t) (entry t).
  Hypothesis PA : Permutation ax (seq 0 n).
  Hypothesis ND : NoDup (M ++ R).
  Hypothesis BM : forall a, In a M -> a < n.
  Hypothesis BR : forall a, In a R -> a < n.
  Hypothesis SM : map (shape_of t) M = pk_shape P.

  Lemma rn_facts : NoDup ax /\ length ax = n /\ (forall a, In a ax <-> a < n) /\ tndim u = n /\ incl M ax /\ incl R ax.
  Proof.
    destruct (perm_range _ _ PA) as (N & L & IN). repeat split; auto; try apply IN.
    - destruct Hu as (_ & S & _). unfold tndim at 1. now rewrite S, map_length.
    - intros a Ha. apply IN. now apply BM.
    - intros a Ha. apply IN. now apply BR.
  Qed.
  Lemma rn_shape p : p < n -> shape_of u p = shape_of t (nth p ax 0).
  Proof.
    intros Hp. destruct rn_facts as (_ & L & _). destruct Hu as (_ & S & _). unfold shape_of at 1. rewrite S. apply nth_map_in. lia.
  Qed.
  Lemma rn_shapes l : incl l ax -> map (shape_of u) (positions ax l) = map (shape_of t) l.
  Proof.
    intros I. destruct rn_facts as (_ & L & _). unfold positions. rewrite map_map. apply map_ext_in. intros a Ha.
    destruct (index_of_lt a ax (I a Ha)) as [L1 L2]. rewrite rn_shape by lia. now rewrite L2.
  Qed.
  Lemma rn_rows E : inside (shape_of t) (except_nat (seq 0 n) R) E ->
    rows_along P u (positions ax R) (positions ax M) (fun q => E (nth q ax 0)) = rows_along P t R M E.
  Proof.
    intros I. destruct rn_facts as (N & L & IN & Hn & IM & IR). destruct (NoDup_app_parts _ _ ND) as (NM & NR & D).
    unfold rows_along. rewrite rn_shapes by exact IR. apply map_ext_in. intros r Hr. apply all_idx_valid in Hr.
    pose proof (valid_length _ _ Hr) as Lr. rewrite map_length in Lr.
    apply (proj1 HP). intros m Vm. rewrite <- SM in Vm. pose proof (valid_length _ _ Vm) as Lm. rewrite map_length in Lm.
    destruct Hu as (_ & _ & F). rewrite <- F.
    - unfold entry. f_equal. rewrite Hn, <- L. rewrite <- (map_nth_seq ax 0 (length ax) eq_refl) at 4. rewrite map_map.
      apply map_ext_in. intros p Hp. apply in_seq in Hp.
      rewrite <- (bind_positions ax M m (bind R r E)) by (auto; lia).
      destruct (in_dec Nat.eq_dec p (positions ax M)) as [C|C].
      + apply bind_bound; [now apply positions_NoDup|unfold positions; now rewrite map_length|exact C].
      + rewrite !(bind_out (positions ax M)) by exact C. apply bind_positions; auto. lia.
    - intros a Ha. destruct (in_dec Nat.eq_dec a M) as [C|C].
      + rewrite bind_in by assumption. now apply valid_nth_index.
      + rewrite bind_out by exact C. destruct (in_dec Nat.eq_dec a R) as [C'|C'].
        * rewrite bind_in by assumption. now apply valid_nth_index.
        * rewrite bind_out by exact C'. apply I. apply except_In. split; [apply in_seq; apply IN in Ha; lia|exact C'].
  Qed.
  Lemma rn_holds te o' o : ax = except_nat (seq 0 n) M ++ M ->
    holds_reduction K P false te (positions ax R) (positions ax M) u o' ->
    holds_reduction K P false true R M t o -> o' = o.
  Proof.
    intros Eax (O2 & S2 & C2) (O & S & C). destruct rn_facts as (N & L & IN & Hn & IM & IR). destruct (NoDup_app_parts _ _ ND) as (NM & NR & D).
    rewrite Hn in S2, C2. fold n in S, C.
    set (ax2 := out_axes false te n (positions ax R) (positions ax M)) in *.
    set (ax' := out_axes false true n R M) in *.
    assert (SQ : forall p, In p (seq 0 n) -> p < length ax) by (intros p Hp; apply in_seq in Hp; lia).
    assert (NMS : map (fun p => nth p ax 0) ax2 = ax').
    { unfold ax2, ax', out_axes. destruct te.
      - rewrite map_app, <- positions_app, positions_except; auto.
        + rewrite map_nth_seq by now symmetry. rewrite positions_names by exact IM. f_equal. rewrite Eax, except_app.
          rewrite except_except, (except_all _ M) by (intros x Hx; apply in_or_app; now right). rewrite app_nil_r.
          apply except_ext. intros x _. rewrite !in_app_iff. tauto.
        + intros a Ha. apply in_app_or in Ha. destruct Ha; auto.
      - rewrite positions_except; auto. rewrite map_nth_seq by now symmetry. rewrite Eax, except_app, except_except.
        rewrite (except_none _ M) by exact D. f_equal. apply except_ext. intros x _. rewrite !in_app_iff. tauto. }
    assert (AX2 : forall p, In p ax2 -> p < n).
    { intros p Hp. unfold ax2, out_axes in Hp. rewrite <- L. destruct te; repeat (apply in_app_or in Hp; destruct Hp as [Hp|Hp]);
        try (apply except_In in Hp; now apply SQ); revert Hp; now apply positions_lt. }
    assert (SHP : forall p, p < n ->
      (if in_dec Nat.eq_dec p (positions ax R) then 1 else shape_of u p) = (if in_dec Nat.eq_dec (nth p ax 0) R then 1 else shape_of t (nth p ax 0))).
    { intros p Hp. rewrite rn_shape by exact Hp. pose proof (positions_In ax R N IR p ltac:(lia)) as HI.
      destruct (in_dec Nat.eq_dec p (positions ax R)), (in_dec Nat.eq_dec (nth p ax 0) R); tauto. }
    assert (SS : tshape o' = tshape o).
    { rewrite S2, S, <- NMS, map_map. apply map_ext_in. intros p Hp. apply SHP. now apply AX2. }
    assert (NA : NoDup ax').
    { unfold ax', out_axes. apply NoDup_app_; [apply NoDup_except, seq_NoDup|exact NM|]. intros x Hx. apply except_In in Hx. rewrite in_app_iff in Hx. tauto. }
    apply tensor_ext; auto. intros idx Hi. rewrite SS, S in Hi. apply valid_inside in Hi; [|exact NA].
    destruct Hi as (E & I & <-). destruct (C E I) as (a & Ea & Et). rewrite Et.
    assert (I2 : inside (fun p => if in_dec Nat.eq_dec p (positions ax R) then 1 else shape_of u p) ax2 (fun q => E (nth q ax 0))).
    { intros p Hp. rewrite SHP by now apply AX2. apply (I (nth p ax 0)). rewrite <- NMS. now apply (in_map (fun p => nth p ax 0)). }
    destruct (C2 _ I2) as (b & Eb & Et2).
    assert (EM : map (fun q => E (nth q ax 0)) ax2 = map E ax') by (now rewrite <- NMS, map_map).
    rewrite EM in Et2. rewrite Et2.
    assert (EMM : map (fun q => E (nth q ax 0)) (positions ax M) = map E M).
    { rewrite <- (positions_names ax M IM) at 2. now rewrite map_map. }
    rewrite EMM. f_equal. rewrite rn_rows in Eb; [congruence|].
    intros x Hx. apply except_In in Hx. destruct Hx as [Hx Hn'].
    assert (X : In x ax').
    { unfold ax', out_axes. destruct (in_dec Nat.eq_dec x M); apply in_or_app; [now right|left]. apply except_In. rewrite in_app_iff. tauto. }
    specialize (I x X). cbn beta in I. destruct (in_dec Nat.eq_dec x R); tauto.
  Qed.
End Rename.
