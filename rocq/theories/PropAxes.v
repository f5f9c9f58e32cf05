(* Properties of axis handling and of reductions over several axes (C45-C48). *)
From Coq Require Import Permutation Sorted.
From Verif Require Import Base BaseLemmas ModelPush ModelPushCov ModelKernels ModelIndex ModelAxes Spec SpecAxes
  ProofPush ProofPushCov Laws ProofKernels ProofSpec ProofIndex ProofLabels ProofAxes ProofArrays ProofMulti Checks.

(* ---- C46 ------------------------------------------------------------------------- *)

(* integers count from the front or from the end, multiples of 1j count the
   axes in front of the moment axes; everything else raises *)
Theorem normalize_axis_index_spec : forall x n m,
  (forall a, normalize_axis_index x n (Some m) = Ok a <-> names_axis n m x a) /\
  ((forall a, ~ names_axis n m x a) <-> normalize_axis_index x n (Some m) = Raise EValue).
Proof.
  intros x n m. split; [intros a; apply normalize_index_ok|]. split.
  - intros H. destruct (normalize_axis_index x n (Some m)) as [a|e] eqn:E.
    + apply normalize_index_ok in E. now apply H in E.
    + now rewrite (normalize_index_err _ _ _ _ E).
  - intros E a H. apply (normalize_index_ok x n (Some m)) in H. congruence.
Qed.
Theorem axis_names_at_most_one : forall n m x a b, names_axis n m x a -> names_axis n m x b -> a = b /\ a < n.
Proof. intros n m x a b H1 H2. split; [eapply names_axis_fun; eauto|eapply names_axis_lt; eauto]. Qed.
Theorem every_axis_has_two_names : forall n a, a < n ->
  is_axis n (Z.of_nat a) a /\ is_axis n (Z.of_nat a - Z.of_nat n) a.
Proof. intros n a H. unfold is_axis. lia. Qed.
(* tuples: each axis, no axis twice *)
Theorem normalize_axis_tuple_spec : forall x n m,
  (forall l, normalize_axis_tuple (Some x) n (Some m) false = Ok l <-> Forall2 (names_axis n m) x l /\ NoDup l) /\
  ((forall l, Forall2 (names_axis n m) x l -> ~ NoDup l) <-> normalize_axis_tuple (Some x) n (Some m) false = Raise EValue).
Proof.
  intros x n m. split; [intros l; apply normalize_tuple_ok|]. split.
  - intros H. destruct (normalize_axis_tuple (Some x) n (Some m) false) as [l|e] eqn:E.
    + apply normalize_tuple_ok in E. destruct E as [E1 E2]. now apply H in E1.
    + now rewrite (normalize_tuple_err _ _ _ _ _ E).
  - intros E l H1 H2. assert (X : normalize_axis_tuple (Some x) n (Some m) false = Ok l) by (now apply normalize_tuple_ok). congruence.
Qed.
Theorem normalize_axis_tuple_idempotent : forall x n m l, normalize_axis_tuple (Some x) n m false = Ok l ->
  normalize_axis_tuple (Some (map AInt (map Z.of_nat l))) n m false = Ok l.
Proof.
  intros x n m l H. apply normalize_tuple_ok in H. destruct H as [H N]. apply normalize_nats; [exact N|].
  intros a Ha. clear N. induction H as [|y b x l Hy H IH]; [destruct Ha|].
  destruct Ha as [<-|Ha]; [eapply names_axis_lt; eauto|now apply IH].
Qed.
Theorem positive_to_negative_index_inverse : forall n z a, is_axis n z a ->
  (positive_to_negative_index z (Z.of_nat n) < 0)%Z /\ is_axis n (positive_to_negative_index z (Z.of_nat n)) a.
Proof. intros n z a. unfold is_axis, positive_to_negative_index. destruct (Z.ltb_spec z 0); lia. Qed.
(* with the m moment axes last, complex axes never name a moment axis, and -1j
   is the last axis before them *)
Theorem complex_axis_before_moments : forall n m z a, names_axis n m (AComplex z) a ->
  a < n - m /\ (z = (-1)%Z -> a = n - m - 1).
Proof. intros n m z a H. unfold names_axis, is_axis in H. lia. Qed.
(* with the moment axes elsewhere they do not count non moment axes: axis -1j of
   an array of shape (moments, b, c) is axis 1, not the last one *)
Theorem complex_axis_moments_first_refuted : exists n m M z a,
  M = seq 0 m /\ names_axis n m (AComplex z) a /\ z = (-1)%Z /\ m + 1 < n /\ a <> n - 1 /\ ~ In a M.
Proof. exists 3, 1, [0], (-1)%Z, 1. cbn. unfold is_axis. repeat split; lia. Qed.

Example normalize_axis_ex :
  normalize_axis_tuple (Some [AInt (-1); AComplex (-1); AInt 0]) 4 (Some 1) false = Ok [3; 2; 0] /\
  normalize_axis_tuple (Some [AInt (-1); AInt 3]) 4 (Some 1) false = Raise EValue /\
  normalize_axis_tuple (Some [AInt 4]) 4 None false = Raise EValue /\
  normalize_axis_tuple (Some [AComplex 3]) 4 (Some 1) false = Raise EValue.
Proof. repeat split; vm_compute; reflexivity. Qed.

(* ---- C45 ------------------------------------------------------------------------- *)

Lemma names_nat n l s : Forall2 (is_axis n) l s -> NoDup s -> normalize_axis_tuple (Some (map AInt l)) n None false = Ok s.
Proof.
  intros H N. apply normalize_tuple_ok. split; [|exact N]. clear N.
  induction H as [|x y l s H F IH]; [constructor|]. cbn [map]. now constructor.
Qed.
Theorem moveaxis_order_spec : forall n source destination s d,
  Forall2 (is_axis n) source s -> Forall2 (is_axis n) destination d -> NoDup s -> NoDup d ->
  length source = length destination ->
  exists order, moveaxis_order n source destination = Ok order /\ moves n s d order.
Proof.
  intros n source destination s d Hs Hd Ns Nd HL. unfold moveaxis_order.
  rewrite (names_nat n source s Hs Ns), (names_nat n destination d Hd Nd). cbn [rbind].
  apply moveaxis_core_moves; auto.
  - now rewrite <- (Forall2_len _ _ _ Hs), <- (Forall2_len _ _ _ Hd).
  - exact (is_axis_range _ _ _ Hs).
  - exact (is_axis_range _ _ _ Hd).
Qed.
Lemma map_inj_in {A B} (f g : A -> B) l : map f l = map g l -> forall x, In x l -> f x = g x.
Proof. induction l as [|a t IH]; intros H x Hx; [destruct Hx|]. injection H as H1 H2. destruct Hx as [<-|Hx]; auto. Qed.
Lemma moves_except n s d o : NoDup d -> (forall a, In a d -> a < n) -> moves n s d o ->
  except_nat o s = map (fun p => nth p o 0) (except_nat (seq 0 n) d).
Proof.
  intros Nd Bd (P & F & _). destruct (perm_range _ _ P) as (No & L & R).
  assert (HI : forall p, p < n -> In p d <-> In (nth p o 0) s).
  { intros p Hp. clear Nd. split.
    - intros H. induction F as [|x y s d E F IH]; [destruct H|]. destruct H as [<-|H].
      + left. symmetry. apply nth_error_nth with (d := 0) in E. exact E.
      + right. apply IH; [|exact H]. intros a Ha. apply Bd. now right.
    - intros H. induction F as [|x y s d E F IH]; [destruct H|]. destruct H as [H|H].
      + left. rewrite NoDup_nth_error in No. apply No.
        * rewrite L. apply Bd. now left.
        * rewrite E, H. symmetry. apply nth_error_nth'. lia.
      + right. apply IH; [|exact H]. intros a Ha. apply Bd. now right. }
  rewrite <- (map_nth_seq o 0 n) at 1 by now symmetry.
  assert (G : forall l, (forall p, In p l -> p < n) -> except_nat (map (fun p => nth p o 0) l) s = map (fun p => nth p o 0) (except_nat l d)).
  { unfold except. induction l as [|p t IH]; intros H; [reflexivity|]. cbn [map filter].
    specialize (HI p (H p (or_introl eq_refl))). specialize (IH (fun q Hq => H q (or_intror Hq))).
    destruct (in_dec Nat.eq_dec (nth p o 0) s), (in_dec Nat.eq_dec p d); try tauto. cbn [map]. now f_equal. }
  apply G. intros p Hp. apply in_seq in Hp. lia.
Qed.
(* the conditions determine the order *)
Theorem moves_unique : forall n s d o o', NoDup d -> (forall a, In a d -> a < n) ->
  moves n s d o -> moves n s d o' -> o = o'.
Proof.
  intros n s d o o' Nd Bd H H'. pose proof (moves_except n s d o Nd Bd H) as E. pose proof (moves_except n s d o' Nd Bd H') as E'.
  destruct H as (P & F & X), H' as (P' & F' & X'). rewrite X in E. rewrite X' in E'. rewrite E in E'.
  destruct (perm_range _ _ P) as (No & L & R), (perm_range _ _ P') as (No' & L' & R').
  apply (nth_ext _ _ 0 0); [congruence|]. intros p Hp. destruct (in_dec Nat.eq_dec p d) as [C|C].
  - clear - F F' C. induction F as [|x y s d E F IH]; [destruct C|]. inversion F'; subst. destruct C as [<-|C]; [|now apply IH].
    rewrite (nth_error_nth _ _ 0 E). symmetry. now apply nth_error_nth.
  - apply (map_inj_in _ _ _ E'). apply except_In. split; [apply in_seq; lia|exact C].
Qed.
Theorem moveaxis_order_raises : forall n source destination,
  moveaxis_order n source destination = Raise EValue <->
  (forall s d, Forall2 (is_axis n) source s -> Forall2 (is_axis n) destination d -> NoDup s -> NoDup d ->
     length source <> length destination).
Proof.
  intros n source destination. split.
  - intros H s d Hs Hd Ns Nd HL. destruct (moveaxis_order_spec n source destination s d Hs Hd Ns Nd HL) as (o & E & _). congruence.
  - intros H. unfold moveaxis_order.
    destruct (normalize_axis_tuple (Some (map AInt source)) n None false) as [s|e] eqn:Es; cbn [rbind];
      [|now rewrite (normalize_tuple_err _ _ _ _ _ Es)].
    destruct (normalize_axis_tuple (Some (map AInt destination)) n None false) as [d|e] eqn:Ed; cbn [rbind];
      [|now rewrite (normalize_tuple_err _ _ _ _ _ Ed)].
    apply normalize_tuple_ok in Es, Ed. destruct Es as [Es Ns], Ed as [Ed Nd].
    assert (U : forall l r, Forall2 (names_axis n (mnum None)) (map AInt l) r -> Forall2 (is_axis n) l r).
    { induction l as [|x t IH]; intros r Hr; inversion Hr; subst; constructor; auto. }
    unfold moveaxis_core. rewrite <- (Forall2_len _ _ _ Es), <- (Forall2_len _ _ _ Ed), !map_length.
    specialize (H s d (U _ _ Es) (U _ _ Ed) Ns Nd). apply Nat.eqb_neq in H. now rewrite H.
Qed.
(* utils.moveaxis_order with axes_to_end: other axes, then axis, then moments *)
Theorem moveaxis_axes_to_end : forall n mom_axes axis M R,
  Forall2 (is_axis n) mom_axes M -> NoDup M -> Forall2 (names_axis n (length M)) axis R -> NoDup (R ++ M) ->
  user_moveaxis_order n (Some (length mom_axes, mom_axes)) (Some (Some axis)) None true false =
  Ok (except_nat (seq 0 n) (R ++ M) ++ R ++ M).
Proof.
  intros n mom_axes axis M R HM NM HR ND. unfold user_moveaxis_order. rewrite (names_nat n mom_axes M HM NM). cbn [rbind option_map fst].
  assert (LM : length mom_axes = length M) by exact (Forall2_len _ _ _ HM). rewrite LM.
  destruct (NoDup_app_parts _ _ ND) as (NR & _ & D).
  assert (E1 : normalize_axis_tuple (Some axis) n (Some (length M)) false = Ok R) by (now apply normalize_tuple_ok).
  rewrite E1. cbn [rbind]. unfold user_moveaxis_core. cbn [option_map fst].
  assert (BM : forall a, In a M -> a < n) by exact (is_axis_range _ _ _ HM).
  assert (BR : forall a, In a R -> a < n).
  { intros a Ha. clear - HR Ha. induction HR as [|x b l r Hx H IH]; [destruct Ha|]. destruct Ha as [<-|Ha]; [eapply names_axis_lt; eauto|now apply IH]. }
  assert (B : forall a, In a (R ++ M) -> a < n) by (intros a Ha; apply in_app_or in Ha; destruct Ha; auto).
  assert (E2 : normalize_axis_tuple (Some (map (fun a => AInt (Z.of_nat a)) R ++ map (fun a => AInt (Z.of_nat a)) M)) n (Some (length M)) false = Ok (R ++ M)).
  { rewrite <- map_app, <- map_map. now apply normalize_nats. }
  rewrite E2. cbn [rbind].
  assert (LL : length (R ++ M) <= n).
  { rewrite <- (seq_length n 0). apply NoDup_incl_length; [exact ND|]. intros a Ha. apply in_seq. specialize (B a Ha). lia. }
  rewrite app_length in LL.
  assert (E3 : normalize_axis_tuple (Some (map AComplex (axes_last (length R)) ++ map AInt (axes_last (length M)))) n (Some (length M)) false
               = Ok (seq (n - length (R ++ M)) (length (R ++ M)))).
  { apply normalize_tuple_ok. split; [|apply seq_NoDup]. rewrite app_length, seq_app. apply Forall2_app.
    - assert (S : forall c i, i + c <= length R -> Forall2 (names_axis n (mnum (Some (length M))))
         (map AComplex (map (fun i => (Z.of_nat i - Z.of_nat (length R))%Z) (seq i c))) (seq (n - (length R + length M) + i) c)).
      { induction c as [|c IH]; intros i Hi; [constructor|]. cbn [seq map]. constructor; [cbn; unfold is_axis; lia|].
        replace (S (n - (length R + length M) + i)) with (n - (length R + length M) + S i) by lia. apply IH. lia. }
      specialize (S (length R) 0). rewrite Nat.add_0_r in S. apply S. lia.
    - assert (S : forall c i, i + c <= length M -> Forall2 (names_axis n (mnum (Some (length M))))
         (map AInt (map (fun i => (Z.of_nat i - Z.of_nat (length M))%Z) (seq i c))) (seq (n - (length R + length M) + length R + i) c)).
      { induction c as [|c IH]; intros i Hi; [constructor|]. cbn [seq map]. constructor; [cbn; unfold is_axis; lia|].
        replace (S (n - (length R + length M) + length R + i)) with (n - (length R + length M) + length R + S i) by lia. apply IH. lia. }
      specialize (S (length M) 0). rewrite Nat.add_0_r in S. apply S. lia. }
  rewrite E3. cbn [rbind negb andb].
  destruct (moveaxis_core_moves n (R ++ M) (seq (n - length (R ++ M)) (length (R ++ M)))) as (o & E & MV).
  - now rewrite seq_length.
  - exact ND.
  - apply seq_NoDup.
  - exact B.
  - intros a Ha. apply in_seq in Ha. rewrite app_length in Ha. lia.
  - rewrite E. f_equal. now apply moves_last.
Qed.
(* without axes_to_end moment axes must not take part, unless allowed *)
Theorem moveaxis_rejects_moment_axes : forall n mom_axes axis dest M s d,
  Forall2 (is_axis n) mom_axes M -> NoDup M ->
  Forall2 (names_axis n (length M)) axis s -> Forall2 (names_axis n (length M)) dest d -> NoDup s -> NoDup d ->
  (exists a, In a M /\ In a (s ++ d)) ->
  user_moveaxis_order n (Some (length mom_axes, mom_axes)) (Some (Some axis)) (Some (Some dest)) false false = Raise EValue.
Proof.
  intros n mom_axes axis dest M s d HM NM Hs Hd Ns Nd (a & Ha & Hsd). unfold user_moveaxis_order.
  rewrite (names_nat n mom_axes M HM NM). cbn [rbind].
  assert (LM : length mom_axes = length M) by exact (Forall2_len _ _ _ HM). rewrite LM.
  unfold user_moveaxis_core. cbn [option_map fst].
  assert (E1 : normalize_axis_tuple (Some axis) n (Some (length M)) false = Ok s) by (now apply normalize_tuple_ok).
  assert (E2 : normalize_axis_tuple (Some dest) n (Some (length M)) false = Ok d) by (now apply normalize_tuple_ok).
  rewrite E1, E2. cbn [rbind negb andb].
  assert (E : existsb (fun x => nat_mem x M) (s ++ d) = true) by (apply existsb_exists; exists a; split; [exact Hsd|now apply nat_mem_In]).
  now rewrite E.
Qed.

Example moveaxis_ex :
  moveaxis_order 4 [0; -1]%Z [2; 0]%Z = Ok [3; 1; 0; 2] /\
  moves 4 [0; 3] [2; 0] [3; 1; 0; 2] /\
  moveaxis_order 4 [0; 4]%Z [2; 0]%Z = Raise EValue /\ moveaxis_order 4 [0; -4]%Z [2; 0]%Z = Raise EValue /\
  moveaxis_order 4 [0]%Z [2; 0]%Z = Raise EValue /\
  user_moveaxis_order 4 (Some (1, [0%Z])) (Some (Some [AInt 2])) None true false = Ok [1; 3; 2; 0] /\
  user_moveaxis_order 4 (Some (1, [-1]%Z)) (Some (Some [AInt 0])) (Some (Some [AInt 3])) false false = Raise EValue.
Proof.
  repeat split; try (vm_compute; reflexivity).
  - apply NoDup_Permutation; [repeat constructor; cbn; lia|apply seq_NoDup|]. intros x. cbn. lia.
  - repeat constructor.
Qed.

(* ---- C48: what a reduction of an array returns -------------------------------------- *)

(* Moment axes M at any position, reduced axes R, both flags.  Each entry of
   the result is that of the reduction of the rows at that position; the axes
   of the result are [out_axes].  The call fails exactly with the kernel. *)
Theorem reduce_array_entries : forall {A V} (K : pusher A V) ok P, moment_array K ok P ->
  forall t mom_axes axis keepdims to_end M R, tensor_ok t ->
  Forall2 (is_axis (tndim t)) mom_axes M -> names_axes (tndim t) (length M) axis M R ->
  NoDup (M ++ R) -> R <> [] -> map (shape_of t) M = pk_shape P ->
  (exists out, reduce_data_nd K P mom_axes axis keepdims to_end t = Ok out /\ holds_reduction K P keepdims to_end R M t out) \/
  (reduce_data_nd K P mom_axes axis keepdims to_end t = Raise EZeroDiv /\
   exists env, inside (shape_of t) (except_nat (seq 0 (tndim t)) R) env /\ reduce_data K (rows_along P t R M env) = None).
Proof. intros A V K ok P HA. exact (reduce_nd_cells K P (ma_packer K ok P HA)). Qed.
(* nonnegative weights: no failure *)
Theorem reduce_array_succeeds : forall {A V} (K : pusher A V) ok P, moment_array K ok P ->
  forall M t mom_axes axis keepdims to_end R, moments_in K P M t ->
  Forall2 (is_axis (tndim t)) mom_axes M -> names_axes (tndim t) (length M) axis M R -> NoDup (M ++ R) -> R <> [] ->
  exists out, reduce_data_nd K P mom_axes axis keepdims to_end t = Ok out /\ holds_reduction K P keepdims to_end R M t out.
Proof. intros A V K ok P HA. exact (reduce_nd_total K ok P HA). Qed.
(* the description determines the result *)
Theorem holds_reduction_unique : forall {A V} (K : pusher A V) P keepdims to_end R M t o o', NoDup (M ++ R) ->
  (forall a, In a R -> a < tndim t) -> (forall a, In a M -> a < tndim t) ->
  holds_reduction K P keepdims to_end R M t o -> holds_reduction K P keepdims to_end R M t o' -> o = o'.
Proof. intros A V K P. exact (holds_unique K P). Qed.

(* moving the moment axes to the end first *)
Theorem reduce_moment_axes_anywhere : forall {A V} (K : pusher A V) ok P, moment_array K ok P ->
  forall t mom_axes axis axis' to_end M R, moments_in K P M t ->
  Forall2 (is_axis (tndim t)) mom_axes M -> names_axes (tndim t) (length M) axis M R -> NoDup (M ++ R) -> R <> [] ->
  let ax := except_nat (seq 0 (tndim t)) M ++ M in
  names_axes (tndim t) (length M) axis' (positions ax M) (positions ax R) ->
  exists moved out, np_moveaxis mom_axes (axes_last (length M)) t = Ok moved /\
    reduce_data_nd K P mom_axes axis false true t = Ok out /\
    reduce_data_nd K P (axes_last (length M)) axis' false to_end moved = Ok out.
Proof.
  intros A V K ok P HA t mom_axes axis axis' to_end M R Hm HM HR ND NE ax HR'.
  destruct (NoDup_app_parts _ _ ND) as (NM & NR & D). destruct Hm as (Ht & _ & BM & SM & W).
  pose proof (names_axes_range _ _ _ _ _ HR) as BR. set (n := tndim t) in *.
  assert (PA : Permutation ax (seq 0 n)) by now apply except_perm.
  assert (Emv : np_moveaxis mom_axes (axes_last (length M)) t = Ok (ttranspose ax t)).
  { unfold np_moveaxis, moveaxis_order. fold n. rewrite (names_nat n mom_axes M HM NM).
    pose proof (moveaxis_last n M NM BM) as X. unfold moveaxis_order in X.
    rewrite (normalize_nats n None M NM BM) in X. now rewrite X. }
  assert (Vu : view (ttranspose ax t) ax (shape_of t) (entry t)).
  { pose proof (transpose_view t (seq 0 n) (shape_of t) (entry t) ax (view_self t Ht)) as X. rewrite seq_length in X. specialize (X PA).
    rewrite map_nth_seq_id in X; [exact X|]. intros a Ha. apply (Permutation_in _ PA), in_seq in Ha. lia. }
  destruct (rn_facts t (ttranspose ax t) M R ax Vu PA BM BR) as (N & L & IN & Hn & IM & IR).
  assert (MI : moments_in K P (positions ax M) (ttranspose ax t)).
  { split; [apply Vu|]. split; [now apply positions_NoDup|]. split; [|split].
    - intros p Hp. rewrite Hn, <- L. revert p Hp. now apply positions_lt.
    - rewrite (rn_shapes t (ttranspose ax t) M R ax Vu PA BM BR) by exact IM. exact SM.
    - intros env I. assert (IE : inside (shape_of t) (seq 0 n) (fun a => env (index_of a ax))).
      { intros a Ha. apply in_seq in Ha. assert (Ha' : In a ax) by (apply IN; lia). destruct (index_of_lt a ax Ha') as [L1 L2].
        rewrite <- L2 at 2. rewrite <- (rn_shape t (ttranspose ax t) M R ax Vu PA BM BR) by lia. apply I. apply in_seq. rewrite Hn. lia. }
      specialize (W _ IE). unfold moment_at in *.
      rewrite (proj1 (ma_packer K ok P HA) _ (fun m => entry t (bind M m (fun a => env (index_of a ax))))); [exact W|].
      intros m Vm. rewrite <- SM in Vm. pose proof (valid_length _ _ Vm) as Lm. rewrite map_length in Lm.
      destruct Vu as (_ & _ & F). rewrite <- F.
      + unfold entry. f_equal. rewrite Hn. replace (tndim t) with (length ax) by exact L.
        transitivity (map (bind M m (fun a => env (index_of a ax))) (map (fun p => nth p ax 0) (seq 0 (length ax)))); [|now rewrite map_nth_seq].
        rewrite map_map. apply map_ext_in. intros p Hp. apply in_seq in Hp. rewrite <- (bind_positions ax M m) by (auto; lia).
        destruct (in_dec Nat.eq_dec p (positions ax M)) as [C|C].
        * apply bind_bound; [now apply positions_NoDup|unfold positions; now rewrite map_length|exact C].
        * rewrite !bind_out by exact C. now rewrite index_of_nth by (auto; lia).
      + intros a Ha. destruct (in_dec Nat.eq_dec a M) as [C|C]; [rewrite bind_in by assumption; now apply valid_nth_index|].
        rewrite bind_out by exact C. apply IE. apply IN in Ha. apply in_seq. lia. }
  exists (ttranspose ax t).
  destruct (reduce_nd_total K ok P HA M t mom_axes axis false true R) as (out & E1 & H1); auto; [now split|].
  assert (NP : NoDup (positions ax M ++ positions ax R)).
  { rewrite <- positions_app. apply positions_NoDup; [|exact ND]. intros a Ha. apply in_app_or in Ha. destruct Ha; auto. }
  assert (LP : length (positions ax M) = length M) by (unfold positions; apply map_length).
  assert (EPM : positions ax M = seq (n - length M) (length M)).
  { unfold positions, ax. assert (LX : length (except_nat (seq 0 n) M) = n - length M).
    { unfold ax in L. rewrite app_length in L. fold n in L. lia. }
    rewrite <- LX. clear - NM. assert (DX : forall a, In a M -> ~ In a (except_nat (seq 0 n) M)) by (intros a Ha C; now apply except_In in C).
    revert DX. generalize (except_nat (seq 0 n) M). intros l DX.
    apply (nth_ext _ _ 0 0); [now rewrite map_length, seq_length|]. intros k Hk. rewrite map_length in Hk.
    rewrite (nth_map_in _ _ _ _ 0) by exact Hk. rewrite seq_nth by exact Hk.
    assert (G : forall a, ~ In a l -> index_of a (l ++ M) = length l + index_of a M).
    { clear. intros a. unfold index_of. induction l as [|b t IH]; intros H; [reflexivity|]. cbn.
      destruct (Nat.eqb a b) eqn:E; [apply Nat.eqb_eq in E; subst; cbn in H; tauto|]. f_equal. apply IH. cbn in H. tauto. }
    rewrite G by (apply DX; now apply nth_In). now rewrite index_of_nth. }
  destruct (reduce_nd_total K ok P HA (positions ax M) (ttranspose ax t) (axes_last (length M)) axis' false to_end (positions ax R)) as (o' & E2 & H2); auto.
  - rewrite Hn, EPM. assert (LM : length M <= n).
    { unfold ax in L. rewrite app_length in L. fold n in L. lia. }
    pose proof (axes_last_norm n (length M) LM) as X. apply normalize_tuple_ok in X. destruct X as [X _].
    clear - X. cbn [mnum] in X. change (tndim t) with n. revert X. generalize (axes_last (length M)). generalize (seq (n - length M) (length M)).
    intros l z. revert l. induction z as [|x z IH]; intros l X; inversion X; subst; constructor; auto.
  - rewrite Hn, LP. exact HR'.
  - unfold positions. intros C. apply map_eq_nil in C. tauto.
  - exists out. split; [exact Emv|]. split; [exact E1|]. rewrite E2. f_equal.
    eapply (rn_holds K ok P HA t (ttranspose ax t) M R ax); eauto.
Qed.

(* ---- C47 ------------------------------------------------------------------------------- *)

(* two steps against one, keeping reduced axes or not *)
Theorem reduce_in_two_steps : forall {A V} (K : pusher A V) ok P, moment_array K ok P ->
  forall t mom_axes mom_axes' axis1 axis2 axis12 keepdims to_end M R1 R2, moments_in K P M t ->
  NoDup (M ++ R1 ++ R2) -> R1 <> [] -> R2 <> [] -> keepdims = false \/ to_end = false ->
  Forall2 (is_axis (tndim t)) mom_axes M ->
  names_axes (tndim t) (length M) axis1 M R1 -> names_axes (tndim t) (length M) axis12 M (R1 ++ R2) ->
  let ax := out_axes keepdims false (tndim t) R1 M in
  Forall2 (is_axis (length ax)) mom_axes' (positions ax M) ->
  names_axes (length ax) (length M) axis2 (positions ax M) (positions ax R2) ->
  exists out1 out, reduce_data_nd K P mom_axes axis1 keepdims false t = Ok out1 /\
    reduce_data_nd K P mom_axes' axis2 keepdims to_end out1 = Ok out /\
    reduce_data_nd K P mom_axes axis12 keepdims to_end t = Ok out.
Proof.
  intros A V K ok P HA t mom_axes mom_axes' axis1 axis2 axis12 keepdims to_end M R1 R2 Hm ND NE1 NE2 Hk HM HR1 HR12 ax HM' HR2.
  assert (B12 := names_axes_range _ _ _ _ _ HR12).
  assert (B1 : forall a, In a R1 -> a < tndim t) by (intros a Ha; apply B12, in_or_app; now left).
  assert (B2 : forall a, In a R2 -> a < tndim t) by (intros a Ha; apply B12, in_or_app; now right).
  destruct (NoDup_app_parts _ _ ND) as (NM & N12 & D). destruct (NoDup_app_parts _ _ N12) as (N1 & N2 & D12).
  assert (NDM1 : NoDup (M ++ R1)).
  { apply NoDup_app_; auto. intros x Hx C. apply (D x Hx), in_or_app. now left. }
  destruct (reduce_nd_total K ok P HA M t mom_axes axis1 keepdims false R1 Hm HM HR1 NDM1 NE1) as (out1 & E1 & H1).
  exists out1.
  assert (MI : moments_in K P (positions ax M) out1) by (eapply (out1_moments_in K ok P HA t out1 M R1); eauto).
  assert (LN : tndim out1 = length ax) by (eapply (out1_ndim K P t out1 M R1 keepdims); eauto).
  assert (IM : incl M ax) by (eapply M_ax1; eauto).
  assert (IR : incl R2 ax) by (eapply R2_ax1; eauto).
  destruct (reduce_nd_total K ok P HA (positions ax M) out1 mom_axes' axis2 keepdims to_end (positions ax R2) MI) as (o2 & E2 & H2).
  - rewrite LN. exact HM'.
  - rewrite LN. unfold positions at 1. rewrite map_length. exact HR2.
  - rewrite <- positions_app. apply positions_NoDup.
    + intros a Ha. apply in_app_or in Ha. destruct Ha; auto.
    + apply NoDup_app_; auto. intros x Hx C. apply (D x Hx), in_or_app. now right.
  - unfold positions. intros C. apply map_eq_nil in C. tauto.
  - destruct (reduce_nd_total K ok P HA M t mom_axes axis12 keepdims to_end (R1 ++ R2) Hm HM HR12 ND) as (o & E3 & H3).
    { intros C. apply app_eq_nil in C. tauto. }
    exists o. split; [exact E1|]. split; [|exact E3]. rewrite E2. f_equal.
    eapply (two_steps K ok P HA t out1 M R1 R2 keepdims); eauto.
Qed.
(* the order in which axes are listed does not matter *)
Theorem reduce_axis_order_irrelevant : forall {A V} (K : pusher A V) ok P, moment_array K ok P ->
  forall t mom_axes axis axis' keepdims to_end M R R', moments_in K P M t ->
  NoDup (M ++ R) -> R <> [] -> Permutation R R' -> keepdims = false \/ to_end = false ->
  Forall2 (is_axis (tndim t)) mom_axes M ->
  names_axes (tndim t) (length M) axis M R -> names_axes (tndim t) (length M) axis' M R' ->
  exists out, reduce_data_nd K P mom_axes axis keepdims to_end t = Ok out /\
    reduce_data_nd K P mom_axes axis' keepdims to_end t = Ok out.
Proof.
  intros A V K ok P HA t mom_axes axis axis' keepdims to_end M R R' Hm ND NE PR Hk HM HR HR'.
  pose proof (names_axes_range _ _ _ _ _ HR) as BR. destruct (NoDup_app_parts _ _ ND) as (NM & NR & D).
  assert (ND' : NoDup (M ++ R')) by (eapply Permutation_NoDup; [|exact ND]; now apply Permutation_app_head).
  assert (NE' : R' <> []) by (intros ->; apply Permutation_sym, Permutation_nil in PR; tauto).
  destruct (reduce_nd_total K ok P HA M t mom_axes axis keepdims to_end R Hm HM HR ND NE) as (o & E & H).
  destruct (reduce_nd_total K ok P HA M t mom_axes axis' keepdims to_end R' Hm HM HR' ND' NE') as (o' & E' & H').
  exists o. split; [exact E|]. rewrite E'. f_equal. symmetry.
  eapply (holds_unique K P keepdims to_end R M t); eauto; [apply Hm|].
  assert (EX : forall l, except_nat (seq 0 (tndim t)) (R' ++ l) = except_nat (seq 0 (tndim t)) (R ++ l)).
  { intros l. apply except_ext. intros x _. rewrite !in_app_iff. assert (In x R <-> In x R'); [|tauto].
    split; apply Permutation_in; [exact PR|now symmetry]. }
  assert (EO : out_axes keepdims to_end (tndim t) R' M = out_axes keepdims to_end (tndim t) R M).
  { unfold out_axes. destruct keepdims, to_end; try (destruct Hk; discriminate); auto.
    - now rewrite EX.
    - specialize (EX []). now rewrite !app_nil_r in EX. }
  destruct H' as (O' & S' & C'). rewrite EO in S', C'.
  assert (SH : forall a, (if in_dec Nat.eq_dec a R' then 1 else shape_of t a) = (if in_dec Nat.eq_dec a R then 1 else shape_of t a)).
  { intros a. destruct (in_dec Nat.eq_dec a R') as [X|X], (in_dec Nat.eq_dec a R) as [Y|Y]; auto; exfalso.
    - apply Y. now apply (Permutation_in _ (Permutation_sym PR)).
    - apply X. now apply (Permutation_in _ PR). }
  split; [exact O'|]. split; [rewrite S'; apply map_ext; exact SH|]. intros env I.
  destruct (C' env) as (a & Ea & Et); [intros x Hx; rewrite SH; now apply I|]. exists a. split; [|exact Et].
  rewrite <- Ea. destruct (kernel_laws K ok (ma_kernel K ok P HA)) as (IY & L & EQ).
  apply (reduce_perm L); [now apply (rows_along_perm P (ma_packer K ok P HA))|].
  eapply rows_ok_Pos; [exact EQ|]. apply (rows_along_ok K ok P HA M t R env Hm NR).
  intros x Hx. apply except_In in Hx. destruct Hx as [Hx HnR].
  assert (X : In x (out_axes keepdims to_end (tndim t) R M)).
  { unfold out_axes. destruct keepdims, to_end; auto.
    - destruct (in_dec Nat.eq_dec x M); apply in_or_app; [right; apply in_or_app; now right|left]. apply except_In. rewrite in_app_iff. tauto.
    - destruct (in_dec Nat.eq_dec x M); apply in_or_app; [now right|left]. apply except_In. rewrite in_app_iff. tauto.
    - now apply except_In. }
  specialize (I x X). cbn beta in I. destruct (in_dec Nat.eq_dec x R); tauto.
Qed.

(* ---- arguments that raise, and the empty tuple -------------------------------------------- *)

(* an axis which is also a moment axis *)
Theorem reduce_moment_axis_raises : forall {A V} (K : pusher A V) (P : packer A) t mom_axes axis keepdims to_end M R,
  Forall2 (is_axis (tndim t)) mom_axes M -> NoDup M -> names_axes (tndim t) (length M) axis M R -> NoDup R ->
  (exists a, In a M /\ In a R) -> reduce_data_nd K P mom_axes axis keepdims to_end t = Raise EValue.
Proof.
  intros A V K P t mom_axes axis keepdims to_end M R HM NM HR NR (a & HaM & HaR).
  destruct (axes_args (tndim t) mom_axes axis M R HM NM HR NR) as [E1 E2].
  pose proof (names_axes_range _ _ _ _ _ HR) as BR. set (n := tndim t) in *.
  unfold reduce_data_nd. fold n. rewrite E1. cbn [rbind]. rewrite E2. cbn [rbind].
  pose proof (moveaxis_last n R NR BR) as Emv.
  destruct R as [|r0 R0]; [destruct HaR|]. set (R := r0 :: R0) in *. rewrite Emv. cbn [rbind].
  assert (HE : gufunc_reduce K P (map (fun a => index_of a (except_nat (seq 0 n) R ++ R)) M)
     (merge_last (length R) (ttranspose (except_nat (seq 0 n) R ++ R) t)) = Raise EValue).
  { unfold gufunc_reduce.
    assert (LO : length (except_nat (seq 0 n) R) + length R = n).
    { rewrite except_length; [apply seq_length|apply seq_NoDup|exact NR|]. intros x Hx. apply in_seq. specialize (BR x Hx). lia. }
    assert (Ln : tndim (merge_last (length R) (ttranspose (except_nat (seq 0 n) R ++ R) t)) - 1 = length (except_nat (seq 0 n) R)).
    { unfold merge_last, tndim. cbn [tshape ttranspose tabulate]. rewrite app_length, firstn_length, map_length, app_length. cbn [length]. unfold R in *. cbn in *. lia. }
    rewrite Ln.
    assert (Ex : existsb (fun p => length (except_nat (seq 0 n) R) <=? p) (map (fun a => index_of a (except_nat (seq 0 n) R ++ R)) M) = true).
    { apply existsb_exists. exists (index_of a (except_nat (seq 0 n) R ++ R)). split; [apply in_map_iff; eauto|]. apply Nat.leb_le.
      assert (NI : ~ In a (except_nat (seq 0 n) R)) by (intros C; apply except_In in C; tauto).
      revert NI. generalize (except_nat (seq 0 n) R). clear. intros l. unfold index_of. induction l as [|b t IH]; intros H; cbn; [lia|].
      destruct (Nat.eqb a b) eqn:E; [apply Nat.eqb_eq in E; subst; cbn in H; tauto|]. assert (~ In a t) by (cbn in H; tauto). specialize (IH H0). lia. }
    now rewrite Ex. }
  rewrite HE. reflexivity.
Qed.
(* axes outside the array, or given twice *)
Theorem reduce_bad_axis_raises : forall {A V} (K : pusher A V) (P : packer A) t mom_axes axis keepdims to_end,
  (forall M, Forall2 (is_axis (tndim t)) mom_axes M -> ~ NoDup M) \/
  (forall R, Forall2 (names_axis (tndim t) (length mom_axes)) axis R -> ~ NoDup R) ->
  reduce_data_nd K P mom_axes (Some axis) keepdims to_end t = Raise EValue.
Proof.
  intros A V K P t mom_axes axis keepdims to_end H. unfold reduce_data_nd.
  destruct (normalize_axis_tuple (Some (map AInt mom_axes)) (tndim t) None false) as [M|e] eqn:E1; cbn [rbind];
    [|now rewrite (normalize_tuple_err _ _ _ _ _ E1)].
  destruct H as [H|H].
  - exfalso. apply normalize_tuple_ok in E1. destruct E1 as [E1 N1]. apply (H M); [|exact N1].
    clear - E1. revert M E1. induction mom_axes as [|x l IH]; intros M E; inversion E; subst; constructor; auto.
  - destruct (normalize_axis_tuple (Some axis) (tndim t) (Some (length mom_axes)) false) as [R|e] eqn:E2; cbn [rbind];
      [|now rewrite (normalize_tuple_err _ _ _ _ _ E2)].
    apply normalize_tuple_ok in E2. destruct E2 as [E2 N2]. exfalso. now apply (H R).
Qed.
(* nothing to reduce: the array itself comes back, whatever the flags *)
Theorem reduce_no_axes : forall {A V} (K : pusher A V) (P : packer A) t mom_axes axis keepdims to_end M,
  Forall2 (is_axis (tndim t)) mom_axes M -> NoDup M -> names_axes (tndim t) (length M) axis M [] ->
  reduce_data_nd K P mom_axes axis keepdims to_end t = Ok t.
Proof.
  intros A V K P t mom_axes axis keepdims to_end M HM NM HR.
  destruct (axes_args (tndim t) mom_axes axis M [] HM NM HR (NoDup_nil _)) as [E1 E2].
  unfold reduce_data_nd. rewrite E1. cbn [rbind]. now rewrite E2.
Qed.
Definition ext0 : tensor := Tensor [2; 3] (lz [1; 2; 3; 4; 5; 6]%Z).
(* so axes_to_end is not honoured: axis=() of an array with the moments first *)
Theorem reduce_no_axes_to_end_refuted : exists A V (K : pusher A V) ok P t mom_axes M out,
  moment_array K ok P /\ moments_in K P M t /\ Forall2 (is_axis (tndim t)) mom_axes M /\
  reduce_data_nd K P mom_axes (Some []) false true t = Ok out /\
  tshape out <> map (shape_of t) (out_axes false true (tndim t) [] M).
Proof.
  exists arr, Qc, (pusher1 5 1), (fun a => length a = 2), (packer1 1), ext0, [0%Z], [0], ext0.
  split; [apply ma_one; lia|]. split.
  - split; [reflexivity|]. split; [repeat constructor; cbn; tauto|]. split; [intros a [<-|[]]; cbn; lia|]. split; [reflexivity|].
    intros env I. assert (H0 := I 1 ltac:(cbn; auto)). cbn in H0. unfold shape_of in H0. cbn in H0.
    unfold moment_at, packer1, entry. cbn. destruct (env 1) as [|[|[|k]]]; try lia; unfold tget; cbn; qle.
  - split; [repeat constructor; unfold is_axis; cbn; lia|]. split; [reflexivity|]. cbn. discriminate.
Qed.

(* a 2 x 3 x 2 array of means of order 1, moment axis first *)
Definition ext1 : tensor := Tensor [2; 3; 2] (lz [1; 2; 3; 4; 5; 6; 10; 20; 30; 40; 50; 60]%Z).
Lemma ext1_moments : moments_in (pusher1 5 1) (packer1 1) [0] ext1.
Proof.
  split; [reflexivity|]. split; [repeat constructor; cbn; tauto|]. split; [intros a [<-|[]]; cbn; lia|]. split; [reflexivity|].
  intros env I. assert (H1 := I 1 ltac:(cbn; auto)). assert (H2 := I 2 ltac:(cbn; auto)). cbn in H1, H2. unfold shape_of in H1, H2. cbn in H1, H2.
  unfold moment_at, packer1, entry. cbn. destruct (env 1) as [|[|[|k]]], (env 2) as [|[|j]]; try lia; unfold tget; cbn; qle.
Qed.
Definition teqb (a b : tensor) : bool :=
  (if list_eq_dec Nat.eq_dec (tshape a) (tshape b) then true else false) && eqb1 (tdata a) (tdata b).
Definition rteqb (a : res tensor) (b : tensor) : bool := match a with Ok a => teqb a b | Raise _ => false end.
Example reduce_array_ex :
  rteqb (reduce_data_nd (pusher1 5 1) (packer1 1) [0%Z] (Some [AInt 1]) false false ext1)
    (Tensor [2; 2] [qz 9; qz 12; fr 350 9; fr 140 3]) = true /\
  rteqb (reduce_data_nd (pusher1 5 1) (packer1 1) [0%Z] (Some [AInt 1]) true true ext1)
    (Tensor [2; 1; 2] [qz 9; fr 350 9; qz 12; fr 140 3]) = true /\
  rteqb (reduce_data_nd (pusher1 5 1) (packer1 1) [0%Z] None false false ext1) (Tensor [2] [qz 21; fr 130 3]) = true /\
  reduce_data_nd (pusher1 5 1) (packer1 1) [0%Z] (Some [AInt 0]) false false ext1 = Raise EValue /\
  Forall2 (is_axis 3) [0%Z] [0] /\ names_axes 3 1 None [0] [1; 2] /\ NoDup ([0] ++ [1] ++ [2]) /\
  positions (out_axes false false 3 [1] [0]) [0] = [0] /\ positions (out_axes false false 3 [1] [0]) [2] = [1] /\
  positions (except_nat (seq 0 3) [0] ++ [0]) [0] = [2] /\ positions (except_nat (seq 0 3) [0] ++ [0]) [1] = [0].
Proof.
  repeat split; try (vm_compute; reflexivity).
  - repeat constructor; unfold is_axis; lia.
  - repeat constructor; cbn; lia.
Qed.
