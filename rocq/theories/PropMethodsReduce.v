(* Reductions and resampling of objects of class CentralMomentsArray (C117, C118, C119). *)
From Coq Require Import String.
From Verif Require Import Base BaseLemmas ModelPush ModelKernels ModelIndex ModelAccum ModelAxes ModelState ModelParams ModelNd ModelSampler ModelWrap ModelMethods
  Spec SpecIndex SpecAxes SpecNd SpecMethods Laws ProofKernels ProofSpec ProofAxes ProofArrays ProofMulti ProofNd ProofNdVals Checks PropParams PropKernels PropIndex PropReduce PropAxes PropNd PropNdVals PropNdUse PropWrap
  ProofMethods PropMethods PropMethodsUse PropMethodsRefuse PropMethodsArith.
Local Open Scope list_scope.
Local Notation length := List.length.

(* ---- vocabulary ---------------------------------------------------------------------- *)

(* the moment arrays of t, of value shape s, along axis a at position p *)
Definition column {A} (P : packer A) (t : tensor) (s : list nat) (a : nat) (p : list nat) : list A :=
  map (fun i => mom_cell P t (upd p a i)) (seq 0 (nth a s 0)).
(* a position or a shape after axis a has been moved behind the other value axes *)
Definition to_last (to_end : bool) (a : nat) (p : list nat) : list nat :=
  if to_end then firstn a p ++ skipn (S a) p ++ [nth a p 0] else p.
(* the moment arrays along the axes Rs at position p *)
Definition columns {A} (P : packer A) (t : tensor) (s : list nat) (Rs : list nat) (p : list nat) : list A :=
  map (fun r => mom_cell P t (map (bind Rs r (fun k => nth k p 0)) (seq 0 (length p)))) (all_idx (map (fun a => nth a s 0) Rs)).
(* a shape or a position with the axes Rs taken out *)
Definition less_axes (Rs : list nat) (p : list nat) : list nat := map (fun k => nth k p 0) (except_nat (seq 0 (length p)) Rs).
(* a shape with the axes Rs of length 1 *)
Definition unit_axes (Rs : list nat) (s : list nat) : list nat := map (fun k => if in_dec Nat.eq_dec k Rs then 1 else nth k s 0) (seq 0 (length s)).
Definition nonneg_weights {A V} (K : pusher A V) (P : packer A) (c : cmarray) (s : list nat) : Prop :=
  forall p, valid s p -> (0 <= p_wt K (mom_cell P (c_obj c) p))%Qc.

(* ---- lists ---------------------------------------------------------------------------- *)

Lemma pick_front p m : forall a, a < length p -> nth a (p ++ m) 0 = nth a p 0.
Proof. intros a H. now apply app_nth1. Qed.
Lemma except_last k m Rs : (forall a, In a Rs -> a < k) -> except_nat (seq 0 (k + m)) Rs = except_nat (seq 0 k) Rs ++ seq k m.
Proof.
  intros H. unfold except. rewrite seq_app, filter_app. f_equal. cbn [Nat.add]. clear -H.
  assert (G : forall l, (forall x, In x l -> k <= x) -> filter (fun x => if in_dec Nat.eq_dec x Rs then false else true) l = l).
  { induction l as [|x l IH]; intros Hl; [reflexivity|]. cbn [filter]. destruct (in_dec Nat.eq_dec x Rs) as [C|_].
    - exfalso. specialize (H x C). specialize (Hl x (or_introl eq_refl)). lia.
    - f_equal. apply IH. intros y Hy. apply Hl. now right. }
  apply G. intros x Hx. apply in_seq in Hx. lia.
Qed.
Lemma except_last_both k m a : a < k -> except_nat (seq 0 (k + m)) (a :: seq k m) = seq 0 a ++ seq (S a) (k - S a).
Proof.
  intros H. rewrite <- (except_middle a (k - S a)). replace (a + (k - S a) + 1) with k by lia. unfold except. rewrite seq_app, filter_app. cbn [Nat.add].
  assert (G : forall l, (forall x, In x l -> In x (seq k m)) -> filter (fun x => if in_dec Nat.eq_dec x (a :: seq k m) then false else true) l = []).
  { induction l as [|x l IH]; intros Hl; [reflexivity|]. cbn [filter]. destruct (in_dec Nat.eq_dec x (a :: seq k m)) as [_|C].
    - apply IH. intros y Hy. apply Hl. now right.
    - exfalso. apply C. right. apply Hl. now left. }
  rewrite (G (seq k m)) by auto. rewrite app_nil_r. apply filter_ext_in. intros x Hx. apply in_seq in Hx.
  destruct (in_dec Nat.eq_dec x (a :: seq k m)) as [C|C], (in_dec Nat.eq_dec x [a]) as [D|D]; try reflexivity.
  - exfalso. destruct C as [<-|C]; [apply D; now left|]. apply in_seq in C. lia.
  - exfalso. apply C. destruct D as [<-|[]]. now left.
Qed.
Lemma pick_seq (p : list nat) a n : a + n <= length p -> map (fun k => nth k p 0) (seq a n) = firstn n (skipn a p).
Proof.
  intros H. apply (nth_ext _ _ 0 0); [rewrite map_length, seq_length, firstn_length, skipn_length; lia|]. intros k Hk. rewrite map_length, seq_length in Hk.
  rewrite (nth_map_in _ _ _ _ 0) by (now rewrite seq_length). rewrite seq_nth by exact Hk. rewrite nth_firstn_lt by exact Hk. now rewrite nth_skipn'.
Qed.
Lemma column_axes_pick to_end a (p m : list nat) : a < length p ->
  map (fun k => nth k (p ++ m) 0) (column_axes to_end (length p + length m) a (seq (length p) (length m))) = to_last to_end a p ++ m.
Proof.
  intros H. unfold column_axes, to_last. destruct to_end.
  - rewrite (except_last_both (length p) (length m) a H). rewrite !map_app. cbn [map]. rewrite read_back, (pick_front p m a H).
    assert (E : forall x n, x + n <= length p -> map (fun k => nth k (p ++ m) 0) (seq x n) = firstn n (skipn x p)).
    { intros x n Hx. rewrite <- pick_seq by exact Hx. apply map_ext_in. intros k Hk. apply in_seq in Hk. apply pick_front. lia. }
    rewrite !E by lia. rewrite firstn_all2 with (l := skipn (S a) p) by (rewrite skipn_length; lia). cbn [skipn]. rewrite <- !app_assoc. reflexivity.
  - rewrite <- app_length. now apply map_nth_seq.
Qed.
Lemma all_idx_one n : all_idx [n] = map (fun i => [i]) (seq 0 n).
Proof.
  cbn [all_idx]. rewrite flat_map_concat_map. cbn [map]. generalize (seq 0 n). induction l as [|z l IH]; [reflexivity|]. cbn. now rewrite IH.
Qed.
Lemma upd_bind (p : list nat) a i : map (bind [a] [i] (fun k => nth k p 0)) (seq 0 (length p)) = upd p a i.
Proof.
  apply (nth_ext _ _ 0 0); [now rewrite map_length, seq_length, upd_length|]. intros k Hk. rewrite map_length, seq_length in Hk.
  rewrite (nth_map_in _ _ _ _ 0) by (now rewrite seq_length). rewrite seq_nth by exact Hk. rewrite upd_nth. unfold bind. cbn [combine find fst snd Nat.add].
  destruct (Nat.eqb_spec a k) as [->|N]; [|reflexivity]. destruct (Nat.ltb_spec k (length p)); [reflexivity|lia].
Qed.
Lemma column_columns {A} (P : packer A) t s a p : columns P t s [a] p = column P t s a p.
Proof.
  unfold columns, column. cbn [map]. rewrite all_idx_one, map_map. apply map_ext. intros i. now rewrite upd_bind.
Qed.
Lemma upd_valid s p a n i : valid (upd s a n) p -> i < nth a s 0 -> valid s (upd p a i).
Proof.
  rewrite !valid_iff, !upd_length. intros [L H] Hi. split; [exact L|]. intros k Hk. specialize (H k Hk). rewrite upd_nth in H |- *.
  destruct (Nat.eqb_spec a k) as [->|N]; [|exact H]. destruct (Nat.ltb_spec k (length p)); [exact Hi|lia].
Qed.

Lemma Forall_firstn_ {T} (Q : T -> Prop) n l : Forall Q l -> Forall Q (firstn n l).
Proof. intros H. rewrite <- (firstn_skipn n l) in H. now apply Forall_app in H. Qed.
Lemma Forall_skipn_ {T} (Q : T -> Prop) n l : Forall Q l -> Forall Q (skipn n l).
Proof. intros H. rewrite <- (firstn_skipn n l) in H. now apply Forall_app in H. Qed.

(* ---- what an object holds along axes ----------------------------------------------------- *)

Section Reduce.
  Context {A V : Type} (K : pusher A V) (ok : A -> Prop) (P : packer A).
  Hypothesis MA : moment_array K ok P.
  Local Notation obj c s := (holds c s (pk_shape P)).
  Local Notation at_ c p := (mom_cell P (c_obj c) p).
  Local Notation mm := (length (pk_shape P)).

  Lemma reduce_is_ok rows a : Forall ok rows -> reduce_data K rows = Some a -> ok a.
  Proof.
    destruct (kernel_laws K ok (ma_kernel _ _ _ MA)) as (I & L & E). unfold reduce_data, reduce_data_into.
    assert (G : forall rows z, ok z -> Forall ok rows -> foldM (fun a d => p_push_data K d a) rows z = Some a -> ok a).
    { clear rows. induction rows as [|d rows IH]; intros z Hz F; cbn [foldM]; [now intros [= <-]|]. inversion F as [|? ? Hd Hr]; subst.
      destruct (p_push_data K d z) as [z'|] eqn:Ez; [|discriminate]. intros X. apply (IH z'); auto.
      apply E in Hd, Hz. destruct (Qc_eq_dec (p_wt K d) 0) as [Z|N].
      - rewrite (l_push_zero _ _ L d z Z) in Ez. injection Ez as <-. now apply E.
      - destruct (Qc_eq_dec (p_wt K z + p_wt K d) 0) as [Z|N2].
        + rewrite (l_push_none _ _ L d z Hd Hz N Z) in Ez. discriminate.
        + destruct (push_ok L d z Hd Hz (fun _ => N2)) as (r & Er & Wr & _). rewrite Er in Ez. injection Ez as <-. now apply E. }
    apply G. rewrite <- (zero_cell K ok P MA (fun _ => 0%Qc)) by reflexivity. apply (ma_pack_ok _ _ _ MA).
  Qed.
  Lemma columns_ok t s Rs p : Forall ok (columns P t s Rs p).
  Proof. apply Forall_forall. intros x Hx. apply in_map_iff in Hx. destruct Hx as (r & <- & _). apply (ma_pack_ok _ _ _ MA). Qed.

  Lemma shape_pick c s : obj c s -> forall k, shape_of (c_obj c) k = nth k (s ++ pk_shape P) 0.
  Proof. intros (_ & S1 & _) k. unfold shape_of. unfold c_shape in S1. now rewrite S1. Qed.
  Lemma obj_ndim c s : obj c s -> tndim (c_obj c) = length s + mm.
  Proof. apply holds_ndim. Qed.
  Lemma obj_moment_shape c s : obj c s -> map (shape_of (c_obj c)) (seq (length s) mm) = pk_shape P.
  Proof. intros H. rewrite <- (read_back s (pk_shape P)) at 2. apply map_ext. now apply shape_pick. Qed.
  Lemma obj_axes c s : obj c s -> iter_axes (c_params c) = Ok (axes_last mm) /\
    Forall2 (is_axis (tndim (c_obj c))) (axes_last mm) (seq (length s) mm).
  Proof.
    intros H. pose proof (obj_ndim c s H) as N. destruct H as (_ & _ & _ & _ & Pp). rewrite Pp. split; [reflexivity|].
    pose proof (axes_last_named (tndim (c_obj c)) mm ltac:(lia)) as X. now replace (tndim (c_obj c) - mm) with (length s) in X by lia.
  Qed.
  Lemma moment_cell t s env : tshape t = s ++ pk_shape P -> moment_at P t (seq (length s) mm) env = mom_cell P t (map env (seq 0 (length s))).
  Proof.
    intros S. unfold moment_at, mom_cell. apply (proj1 (ma_packer _ _ _ MA)). intros m Vm. unfold entry, tndim. f_equal.
    rewrite S, app_length, seq_app, map_app. cbn [Nat.add]. f_equal.
    - apply map_ext_in. intros k Hk. apply in_seq in Hk. apply bind_out. intros C. apply in_seq in C. lia.
    - apply map_bind; [apply seq_NoDup|]. rewrite seq_length. now apply valid_length.
  Qed.
  Lemma rows_columns t s Rs env : tshape t = s ++ pk_shape P -> (forall a, In a Rs -> a < length s) ->
    rows_along P t Rs (seq (length s) mm) env = columns P t s Rs (map env (seq 0 (length s))).
  Proof.
    intros S HR. unfold rows_along, columns. rewrite map_length, seq_length.
    assert (E : map (shape_of t) Rs = map (fun a => nth a s 0) Rs).
    { apply map_ext_in. intros a Ha. unfold shape_of. rewrite S. apply pick_front. now apply HR. }
    rewrite E. apply map_ext. intros r. rewrite (moment_cell t s) by exact S. f_equal. apply map_ext_in. intros k Hk. apply in_seq in Hk.
    unfold bind. destruct (find _ _); [reflexivity|]. rewrite (nth_map_in _ _ _ _ 0) by (rewrite seq_length; lia). now rewrite seq_nth by lia.
  Qed.
  Lemma nonneg_moments c s : obj c s -> nonneg_weights K P c s -> moments_in K P (seq (length s) mm) (c_obj c).
  Proof.
    intros H W. pose proof (obj_ndim c s H) as N. split; [apply H|]. split; [apply seq_NoDup|]. split; [intros a Ha; apply in_seq in Ha; lia|].
    split; [now apply obj_moment_shape|]. intros env I. rewrite (moment_cell (c_obj c) s) by apply H. apply W.
    assert (E : map (shape_of (c_obj c)) (seq 0 (length s)) = s).
    { rewrite <- (read_front s (pk_shape P)) at 2. apply map_ext. now apply shape_pick. }
    rewrite <- E at 1. apply inside_valid. intros k Hk. apply I. apply in_seq in Hk. apply in_seq. lia.
  Qed.
  Lemma new_object c s out s' : obj c s -> tensor_ok out -> tshape out = s' ++ pk_shape P -> obj (CM out (c_params c)) s'.
  Proof. intros (_ & _ & L & F & Pp) To Ts. split; [exact To|]. split; [exact Ts|]. auto. Qed.
  Lemma read_cell out p a : ok a -> (forall m, valid (pk_shape P) m -> tget out (p ++ m) = pk_unpack P a m) -> mom_cell P out p = a.
  Proof.
    intros O H. unfold mom_cell. rewrite (proj1 (ma_packer _ _ _ MA) _ _ H). now apply (ma_pack_unpack K ok P MA).
  Qed.
  Lemma some_moment : exists m, valid (pk_shape P) m.
  Proof.
    assert (FP : Forall (fun n => 2 <= n) (pk_shape P)) by (destruct MA; cbn; repeat apply Forall_cons; try apply Forall_nil; lia).
    exists (map (fun _ => 0) (pk_shape P)). clear -FP. induction FP; cbn; constructor; auto. lia.
  Qed.

  (* arguments of reduce: value axes Rs; None means all of them, in order *)
  Definition value_axes (s : list nat) (axis : raxis) (Rs : list nat) : Prop :=
    match axis with
    | RMissing => False
    | RNone => Rs = seq 0 (length s)
    | ROne a => Forall2 (names_axis (length s + mm) mm) [a] Rs
    | RMany l => Forall2 (names_axis (length s + mm) mm) l Rs
    end /\ NoDup Rs /\ Rs <> [] /\ forall a, In a Rs -> a < length s.
  Lemma value_axes_read s axis Rs : value_axes s axis Rs ->
    exists x, axis_mult axis = Ok x /\ names_axes (length s + mm) mm x (seq (length s) mm) Rs /\ NoDup Rs /\ Rs <> [] /\ forall a, In a Rs -> a < length s.
  Proof.
    intros (H & X). destruct axis as [| |a|l]; [tauto| | |]; cbn [axis_mult]; eexists; (split; [reflexivity|]); (split; [|exact X]); cbn [names_axes]; try exact H.
    rewrite H. rewrite seq_app, except_app. cbn [plus]. rewrite (except_all _ (seq (length s) mm)) by auto. rewrite app_nil_r.
    symmetry. apply except_none. intros y Hy Hz. apply in_seq in Hy, Hz. lia.
  Qed.

  (* C117: reduce over value axes: at every position, the reduction of the moment
     arrays along them; the flags only shape the result *)
  Theorem reduce_object c s axis Rs to_end keepdims : obj c s -> value_axes s axis Rs ->
    let free := except_nat (seq 0 (length s)) Rs in
    match c_reduce K P c axis None None to_end keepdims with
    | Ok r => obj r (if keepdims then unit_axes Rs s else less_axes Rs s) /\
        forall p, valid (unit_axes Rs s) p ->
          reduce_data K (columns P (c_obj c) s Rs p) = Some (at_ r (if keepdims then p else less_axes Rs p))
    | Raise e => e = EZeroDiv /\ exists p, length p = length s /\ (forall k, In k free -> nth k p 0 < nth k s 0) /\ reduce_data K (columns P (c_obj c) s Rs p) = None
    end.
  Proof.
    intros H HV free. destruct (value_axes_read _ _ _ HV) as (x & Ex & Hn & ND & NE & HR). pose proof (obj_ndim c s H) as N. destruct (obj_axes c s H) as [EI FI].
    unfold c_reduce. cbn [rbind]. rewrite EI. cbn [rbind]. rewrite Ex. cbn [rbind].
    assert (NM : NoDup (seq (length s) mm ++ Rs)).
    { apply NoDup_app_; [apply seq_NoDup|exact ND|]. intros z Hz Hr. apply in_seq in Hz. specialize (HR z Hr). lia. }
    assert (Hn' : names_axes (tndim (c_obj c)) (length (seq (length s) mm)) x (seq (length s) mm) Rs) by (now rewrite N, seq_length).
    pose proof (reduce_array_entries K ok P MA (c_obj c) (axes_last mm) x keepdims false (seq (length s) mm) Rs (proj1 H) FI Hn' NM NE (obj_moment_shape c s H)) as Y.
    assert (St : tshape (c_obj c) = s ++ pk_shape P) by apply H.
    destruct Y as [(out & E & To & Ts & Y)|(E & env & I & Y)]; rewrite E; unfold c_with; cbn [rbind].
    - set (shape := fun a => if in_dec Nat.eq_dec a Rs then 1 else shape_of (c_obj c) a) in *.
      set (ax := out_axes keepdims false (tndim (c_obj c)) Rs (seq (length s) mm)) in *.
      set (sel := fun p => if keepdims then p else less_axes Rs p).
      assert (SH : forall k, k < length s + mm -> shape k = nth k (unit_axes Rs s ++ pk_shape P) 0).
      { intros k Hk. unfold shape. rewrite (shape_pick c s H). destruct (lt_dec k (length s)) as [Ls|Ls].
        - rewrite (app_nth1 (unit_axes Rs s)) by (unfold unit_axes; now rewrite map_length, seq_length). unfold unit_axes.
          rewrite (nth_map_in _ _ _ _ 0) by (now rewrite seq_length). rewrite seq_nth by exact Ls. cbn [Nat.add]. destruct (in_dec Nat.eq_dec k Rs); [reflexivity|]. now apply pick_front.
        - destruct (in_dec Nat.eq_dec k Rs) as [C|_]; [specialize (HR k C); lia|]. rewrite !app_nth2 by (unfold unit_axes; try rewrite map_length, seq_length; lia).
          unfold unit_axes. now rewrite map_length, seq_length. }
      assert (LU : length (unit_axes Rs s) = length s) by (unfold unit_axes; now rewrite map_length, seq_length).
      assert (AX : forall q m : list nat, length q = length s -> length m = mm -> map (fun k => nth k (q ++ m) 0) ax = sel q ++ m).
      { intros q m Lq Lm. unfold ax, sel, out_axes, less_axes. rewrite N. destruct keepdims.
        - rewrite <- Lq, <- Lm, <- app_length. now apply map_nth_seq.
        - rewrite except_last by exact HR. rewrite map_app, Lq. f_equal.
          + apply map_ext_in. intros k Hk. apply except_In in Hk. destruct Hk as [Hk _]. apply in_seq in Hk. apply pick_front. lia.
          + rewrite <- Lq, <- Lm. apply read_back. }
      assert (BX : forall a, In a ax -> a < length s + mm).
      { intros a Ha. unfold ax, out_axes in Ha. rewrite N in Ha. destruct keepdims; [apply in_seq in Ha; lia|]. apply except_In in Ha. destruct Ha as [Ha _]. apply in_seq in Ha. lia. }
      assert (Ts' : tshape out = (if keepdims then unit_axes Rs s else less_axes Rs s) ++ pk_shape P).
      { rewrite Ts. rewrite (map_ext_in shape (fun k => nth k (unit_axes Rs s ++ pk_shape P) 0)) by (intros a Ha; apply SH; now apply BX).
        rewrite AX by (exact LU || reflexivity). unfold sel. destruct keepdims; [reflexivity|]. f_equal. unfold less_axes. rewrite LU. apply map_ext_in.
        intros k Hk. apply except_In in Hk. destruct Hk as [Hk Nk]. apply in_seq in Hk. unfold unit_axes. rewrite (nth_map_in _ _ _ _ 0) by (rewrite seq_length; lia).
        rewrite seq_nth by lia. cbn [Nat.add]. destruct (in_dec Nat.eq_dec k Rs); [tauto|reflexivity]. }
      split; [now apply (new_object c s)|].
      intros p Vp. pose proof (valid_length _ _ Vp) as Lp. rewrite LU in Lp. fold (sel p).
      assert (YY : forall m, valid (pk_shape P) m -> exists a, reduce_data K (columns P (c_obj c) s Rs p) = Some a /\ tget out (sel p ++ m) = pk_unpack P a m).
      { intros m Vm. destruct (Y (fun k => nth k (p ++ m) 0)) as (a & Ea & Eg).
        - intros a Ha. rewrite SH by (now apply BX). assert (V2 : valid (unit_axes Rs s ++ pk_shape P) (p ++ m)) by (now apply Forall2_app).
          rewrite valid_iff in V2. apply V2. rewrite app_length, LU. now apply BX.
        - exists a. rewrite rows_columns in Ea by (exact St || exact HR). rewrite <- Lp, read_front in Ea. split; [exact Ea|].
          rewrite AX in Eg by (auto; now apply valid_length). rewrite Eg. f_equal.
          transitivity (map (fun k => nth k (p ++ m) 0) (seq (length p) (length m))); [now rewrite Lp, (valid_length _ _ Vm)|apply read_back]. }
      destruct some_moment as (m0 & V0). destruct (YY m0 V0) as (a & Ea & _). rewrite Ea. f_equal. symmetry. cbn [c_obj]. apply read_cell.
      + apply (reduce_is_ok _ a (columns_ok _ _ _ _) Ea).
      + intros m Vm. destruct (YY m Vm) as (a' & Ea' & X). congruence.
    - split; [reflexivity|]. exists (map env (seq 0 (length s))). split; [now rewrite map_length, seq_length|]. split.
      + intros k Hk. unfold free in Hk. apply except_In in Hk. destruct Hk as [Hk Nk]. apply in_seq in Hk. rewrite (nth_map_in _ _ _ _ 0) by (rewrite seq_length; lia).
        rewrite seq_nth by lia. cbn [Nat.add]. rewrite <- (pick_front s (pk_shape P)) by lia. rewrite <- (shape_pick c s H). apply I. apply except_In. split; [apply in_seq; lia|exact Nk].
      + rewrite rows_columns in Y by (exact St || exact HR). exact Y.
  Qed.
  (* nonnegative weights: no error *)
  Theorem reduce_object_succeeds c s axis Rs to_end keepdims : obj c s -> value_axes s axis Rs -> nonneg_weights K P c s ->
    exists r, c_reduce K P c axis None None to_end keepdims = Ok r.
  Proof.
    intros H HV W. destruct (value_axes_read _ _ _ HV) as (x & Ex & Hn & ND & NE & HR). pose proof (obj_ndim c s H) as N. destruct (obj_axes c s H) as [EI FI].
    unfold c_reduce. cbn [rbind]. rewrite EI. cbn [rbind]. rewrite Ex. cbn [rbind].
    assert (NM : NoDup (seq (length s) mm ++ Rs)).
    { apply NoDup_app_; [apply seq_NoDup|exact ND|]. intros z Hz Hr. apply in_seq in Hz. specialize (HR z Hr). lia. }
    assert (Hn' : names_axes (tndim (c_obj c)) (length (seq (length s) mm)) x (seq (length s) mm) Rs) by (now rewrite N, seq_length).
    destruct (reduce_array_succeeds K ok P MA _ (c_obj c) (axes_last mm) x keepdims false Rs (nonneg_moments c s H W) FI Hn' NM NE) as (out & E & _).
    rewrite E. unfold c_with. cbn [rbind]. eauto.
  Qed.

  (* one value axis *)
  Definition value_axis (s : list nat) (axis : axis_arg) (a : nat) : Prop := names_axis (length s + mm) mm axis a /\ a < length s.

  Lemma axis_moments c s axis a : obj c s -> value_axis s axis a -> axis_of_moments P (axes_last mm) axis a (seq (length s) mm) (c_obj c).
  Proof.
    intros H [Hx Ha]. destruct (obj_axes c s H) as [_ FI]. split; [apply H|]. split; [exact FI|]. rewrite seq_length, (obj_ndim c s H). split; [exact Hx|].
    split; [|now apply obj_moment_shape]. constructor; [|apply seq_NoDup]. intros C. apply in_seq in C. lia.
  Qed.
  Lemma entries_by_position c s to_end newlen a out Q : obj c s -> a < length s ->
    all_entries 0%Qc to_end newlen a (seq (length s) mm) (c_obj c) (of_tensor out) Q ->
    tensor_ok out /\ tshape out = to_last to_end a (upd s a newlen) ++ pk_shape P /\
    forall p m, valid (upd s a newlen) p -> valid (pk_shape P) m -> Q (fun k => nth k (p ++ m) 0) (tget out (to_last to_end a p ++ m)).
  Proof.
    intros H Ha (To & Ts & Y). pose proof (obj_ndim c s H) as N. rewrite N in Ts, Y.
    set (shape := fun b => if Nat.eqb b a then newlen else shape_of (c_obj c) b) in *.
    set (ax := column_axes to_end (length s + mm) a (seq (length s) mm)) in *.
    assert (LU : length (upd s a newlen) = length s) by apply upd_length.
    assert (SH : forall k, shape k = nth k (upd s a newlen ++ pk_shape P) 0).
    { intros k. unfold shape. rewrite (shape_pick c s H). destruct (lt_dec k (length s)) as [Ls|Ls].
      - rewrite !app_nth1 by (rewrite ?LU; exact Ls). rewrite upd_nth, Nat.eqb_sym. destruct (Nat.eqb_spec a k) as [->|]; [|reflexivity].
        destruct (Nat.ltb_spec k (length s)); [reflexivity|lia].
      - rewrite !app_nth2 by (rewrite ?LU; lia). rewrite LU. destruct (Nat.eqb_spec k a); [lia|reflexivity]. }
    assert (BX : forall b, In b ax -> b < length s + mm).
    { intros b Hb. unfold ax, column_axes in Hb. destruct to_end; [|apply in_seq in Hb; lia]. apply in_app_or in Hb. destruct Hb as [Hb|[<-|Hb]]; [|lia|apply in_seq in Hb; lia].
      apply except_In in Hb. destruct Hb as [Hb _]. apply in_seq in Hb. lia. }
    assert (AX : forall q m : list nat, length q = length s -> length m = mm -> map (fun k => nth k (q ++ m) 0) ax = to_last to_end a q ++ m).
    { intros q m Lq Lm. unfold ax. rewrite <- Lq, <- Lm. apply column_axes_pick. lia. }
    split; [exact To|]. split.
    - cbn [of_tensor gshape] in Ts. rewrite Ts. rewrite (map_ext _ _ SH). now apply AX.
    - intros p m Vp Vm. pose proof (valid_length _ _ Vp) as Lp. pose proof (valid_length _ _ Vm) as Lm. rewrite LU in Lp.
      rewrite <- (AX p m Lp Lm). apply Y. intros b Hb. rewrite SH.
      assert (V2 : valid (upd s a newlen ++ pk_shape P) (p ++ m)) by (now apply Forall2_app).
      rewrite valid_iff in V2. apply V2. rewrite app_length, LU. now apply BX.
  Qed.
  Lemma env_parts (s p m : list nat) : length p = length s -> valid (pk_shape P) m ->
    map (fun k => nth k (p ++ m) 0) (seq 0 (length s)) = p /\ map (fun k => nth k (p ++ m) 0) (seq (length s) mm) = m.
  Proof.
    intros Lp Vm. split.
    - rewrite <- Lp. apply read_front.
    - transitivity (map (fun k => nth k (p ++ m) 0) (seq (length p) (length m))); [now rewrite Lp, (valid_length _ _ Vm)|apply read_back].
  Qed.
  (* entries that are reductions of rows: the moment arrays are *)
  Lemma reduced_cells c s to_end newlen a out (rows : list A -> nat -> list A) (given : list A -> Prop) : obj c s -> a < length s ->
    (forall col i, Forall ok col -> Forall ok (rows col i)) ->
    all_entries 0%Qc to_end newlen a (seq (length s) mm) (c_obj c) (of_tensor out) (fun env v =>
      let l := rows (rows_along P (c_obj c) [a] (seq (length s) mm) env) (env a) in
      given l -> exists b, reduce_data K l = Some b /\ v = pk_unpack P b (map env (seq (length s) mm))) ->
    obj (CM out (c_params c)) (to_last to_end a (upd s a newlen)) /\
    forall p, valid (upd s a newlen) p -> given (rows (column P (c_obj c) s a p) (nth a p 0)) ->
      reduce_data K (rows (column P (c_obj c) s a p) (nth a p 0)) = Some (mom_cell P out (to_last to_end a p)).
  Proof.
    intros H Ha Hrows Y. destruct (entries_by_position c s to_end newlen a out _ H Ha Y) as (To & Ts & Z). split; [now apply (new_object c s)|].
    assert (St : tshape (c_obj c) = s ++ pk_shape P) by apply H.
    intros p Vp G. pose proof (valid_length _ _ Vp) as Lp. rewrite upd_length in Lp.
    assert (YY : forall m, valid (pk_shape P) m -> exists b, reduce_data K (rows (column P (c_obj c) s a p) (nth a p 0)) = Some b /\ tget out (to_last to_end a p ++ m) = pk_unpack P b m).
    { intros m Vm. specialize (Z p m Vp Vm). cbv zeta in Z. rewrite rows_columns in Z by (exact St || (intros z [<-|[]]; exact Ha)).
      destruct (env_parts s p m Lp Vm) as [E1 E2]. rewrite E1, E2, column_columns in Z. rewrite pick_front in Z by lia. now apply Z. }
    destruct some_moment as (m0 & V0). destruct (YY m0 V0) as (b & Eb & _). rewrite Eb. f_equal. symmetry. apply read_cell.
    - apply (reduce_is_ok _ b) in Eb; [exact Eb|]. apply Hrows. rewrite <- column_columns. apply columns_ok.
    - intros m Vm. destruct (YY m Vm) as (b' & Eb' & X). congruence.
  Qed.

  (* C118: reduce with groups; block and keepdims do not matter then *)
  Theorem reduce_object_grouped c s axis a by_ m block to_end keepdims : obj c s -> nonneg_weights K P c s -> value_axis s axis a ->
    length by_ = nth a s 0 -> zmax_of m by_ -> (-1 <= m)%Z ->
    exists r, c_reduce K P c (ROne axis) (Some by_) block to_end keepdims = Ok r /\
      obj r (to_last to_end a (upd s a (Z.to_nat (m + 1)))) /\
      forall p, valid (upd s a (Z.to_nat (m + 1))) p ->
        reduce_data K (members (nth a p 0) by_ (column P (c_obj c) s a p)) = Some (at_ r (to_last to_end a p)).
  Proof.
    intros H W Hx Hl Hm Hm1. destruct (obj_axes c s H) as [EI FI]. pose proof (proj2 Hx) as Ha.
    assert (Sa : shape_of (c_obj c) a = nth a s 0) by (rewrite (shape_pick c s H); now apply pick_front).
    destruct (grouped_array_members K ok P MA by_ m (axes_last mm) axis to_end a _ (c_obj c) (axis_moments c s axis a H Hx) (nonneg_moments c s H W)
      ltac:(now rewrite Sa) Hm Hm1) as (out & E & Y).
    exists (CM out (c_params c)). split.
    - unfold c_reduce. cbn [rbind]. rewrite EI. cbn [rbind axis_one]. now rewrite E.
    - destruct (reduced_cells c s to_end (Z.to_nat (m + 1)) a out (fun col i => members i by_ col) (fun _ => True) H Ha) as [O Z].
      + intros col i F. unfold members. apply Forall_forall. intros y Hy. apply in_map_iff in Hy. destruct Hy as ([k y'] & <- & Hy). apply filter_In in Hy. destruct Hy as [Hy _].
        apply in_combine_r in Hy. rewrite Forall_forall in F. now apply F.
      + destruct Y as (Y1 & Y2 & Y3). split; [exact Y1|]. split; [exact Y2|]. intros env I l _. now apply Y3.
      + split; [exact O|]. intros p Vp. now apply Z.
  Qed.
  Theorem reduce_block_ignored_with_groups c axis by_ block to_end keepdims :
    c_reduce K P c axis (Some by_) block to_end keepdims = c_reduce K P c axis (Some by_) None to_end false.
  Proof. reflexivity. Qed.
  Theorem reduce_to_end_ignored_without_groups c axis to_end keepdims :
    c_reduce K P c axis None None to_end keepdims = c_reduce K P c axis None None false keepdims.
  Proof. reflexivity. Qed.

  (* blocks *)
  Lemma interval_members {B} (f : nat -> Z) (g lo hi : nat) : lo <= hi ->
    (forall i, (f i =? Z.of_nat g)%Z = ((lo <=? i) && (i <? hi))%bool) -> forall (col : list B) st,
    map snd (filter (fun q => (fst q =? Z.of_nat g)%Z) (combine (map f (seq st (length col))) col)) = firstn (hi - Nat.max st lo) (skipn (lo - st) col).
  Proof.
    intros Hle Hf. induction col as [|x col IH]; intros st; [cbn; now rewrite skipn_nil, firstn_nil|].
    cbn [length seq map combine filter fst]. rewrite Hf. destruct (Nat.leb_spec lo st) as [L1|L1], (Nat.ltb_spec st hi) as [L2|L2]; cbn [andb map snd]; rewrite IH.
    - replace (lo - st) with 0 by lia. replace (lo - S st) with 0 by lia. cbn [skipn]. replace (hi - Nat.max st lo) with (S (hi - Nat.max (S st) lo)) by lia. reflexivity.
    - replace (hi - Nat.max st lo) with 0 by lia. replace (hi - Nat.max (S st) lo) with 0 by lia. reflexivity.
    - replace (lo - st) with (S (lo - S st)) by lia. cbn [skipn]. f_equal. lia.
    - lia.
  Qed.
  Lemma block_by_object c s axis a block : obj c s -> value_axis s axis a ->
    c_block_by c block (ROne axis) = block_by (Z.of_nat (nth a s 0)) block "drop_last".
  Proof.
    intros H [Hx Ha]. pose proof (obj_ndim c s H) as N. destruct H as (_ & S & L & _ & Pp). unfold c_block_by. cbn [axis_marg rbind]. rewrite Pp, S.
    assert (E : select_ndat_array (s ++ pk_shape P) (Val axis) (as_arg (AP (Some (Z.of_nat mm)) (Some (axes_last mm)))) None None = Ok (nth a s 0)); [|now rewrite E].
    unfold select_ndat_array.
    assert (E1 : array_factory true (as_arg (AP (Some (Z.of_nat mm)) (Some (axes_last mm)))) None None None = Ok (AP (Some (Z.of_nat mm)) (Some (axes_last mm)))) by (destruct L as [-> | ->]; reflexivity).
    rewrite E1. cbn [rbind]. unfold normalize_axes. cbn [ap_axes ap_ndim option_map]. rewrite app_length.
    pose proof (axes_last_norm (length s + mm) mm ltac:(lia)) as X. replace (length s + mm - mm) with (length s) in X by lia. rewrite X. cbn [rbind ap_ndim].
    rewrite (proj2 (normalize_num axis (length s + mm) (Some (Z.of_nat mm)) a)) by (now rewrite Nat2Z.id). cbn [rbind]. unfold raise_if_in_mom_axes. cbn [ap_axes existsb].
    assert (E2 : existsb (Z.eqb (Z.of_nat a)) (map Z.of_nat (seq (length s) mm)) = false).
    { apply Bool.not_true_iff_false. intros C. apply existsb_exists in C. destruct C as (z & Hz & C). apply in_map_iff in Hz. destruct Hz as (k & <- & Hk). apply in_seq in Hk. apply Z.eqb_eq in C. lia. }
    rewrite E2. cbn [orb guard rbind]. rewrite (nth_error_nth' _ 0) by (rewrite app_length; lia). cbn [of_opt]. f_equal. now apply pick_front.
  Qed.
  (* C118: blocks of consecutive moment arrays; what is left over is dropped *)
  Theorem reduce_object_blocks c s axis a block to_end keepdims : obj c s -> nonneg_weights K P c s -> value_axis s axis a ->
    0 < block <= nth a s 0 ->
    exists r, c_reduce K P c (ROne axis) None (Some (Z.of_nat block)) to_end keepdims = Ok r /\
      obj r (to_last to_end a (upd s a (nth a s 0 / block))) /\
      forall p, valid (upd s a (nth a s 0 / block)) p ->
        reduce_data K (firstn block (skipn (block * nth a p 0) (column P (c_obj c) s a p))) = Some (at_ r (to_last to_end a p)).
  Proof.
    intros H W Hx Hb. pose proof (proj2 Hx) as Ha. set (n := nth a s 0) in *. set (q := n / block).
    pose proof (Nat.div_mod n block ltac:(lia)) as DM. pose proof (Nat.mod_upper_bound n block ltac:(lia)) as MU. fold q in DM.
    assert (Q : 0 < q) by (apply Nat.div_str_pos; lia).
    set (f := fun p => if Nat.ltb p (n - n mod block) then Z.of_nat (p / block) else (-1)%Z).
    assert (EB : c_block_by c (Z.of_nat block) (ROne axis) = Ok (map f (seq 0 n))).
    { rewrite (block_by_object c s axis a _ H Hx). fold n. rewrite block_by_codes by (try exact Hb; unfold block_mode; cbn; auto). reflexivity. }
    assert (FB : forall p, p < n - n mod block -> p / block < q).
    { intros p Hp. apply Nat.div_lt_upper_bound; [lia|]. lia. }
    destruct (reduce_object_grouped c s axis a (map f (seq 0 n)) (Z.of_nat q - 1)%Z None to_end keepdims H W Hx) as (r & E & O & Z).
    - now rewrite map_length, seq_length.
    - split.
      + apply in_map_iff. exists ((q - 1) * block). split; [|apply in_seq; nia]. unfold f. destruct (Nat.ltb_spec ((q - 1) * block) (n - n mod block)) as [_|C]; [|nia].
        rewrite Nat.div_mul by lia. lia.
      + apply Forall_forall. intros z Hz. apply in_map_iff in Hz. destruct Hz as (p & <- & Hp). unfold f. destruct (Nat.ltb_spec p (n - n mod block)) as [C|C]; [|lia].
        specialize (FB p C). lia.
    - lia.
    - replace (Z.to_nat (Z.of_nat q - 1 + 1)) with q in O, Z by lia. exists r. split; [|split; [exact O|]].
      + rewrite <- E. unfold c_reduce. rewrite EB. reflexivity.
      + intros p Vp. rewrite <- (Z p Vp). f_equal. unfold members.
        assert (Lc : length (column P (c_obj c) s a p) = n) by (unfold column; now rewrite map_length, seq_length).
        assert (Lg : nth a p 0 < q).
        { rewrite valid_iff in Vp. destruct Vp as [_ Vp]. specialize (Vp a). rewrite upd_length, upd_nth, Nat.eqb_refl in Vp. specialize (Vp Ha). destruct (Nat.ltb_spec a (length s)); [exact Vp|lia]. }
        rewrite <- Lc at 1. rewrite (interval_members f (nth a p 0) (block * nth a p 0) (block * nth a p 0 + block)); [|lia|].
        * rewrite Nat.max_0_l, Nat.sub_0_r. f_equal. lia.
        * intros i. unfold f. set (g := nth a p 0) in *. destruct (Nat.ltb_spec i (n - n mod block)) as [C|C].
          -- destruct (Z.eqb_spec (Z.of_nat (i / block)) (Z.of_nat g)) as [G|G].
             ++ apply Nat2Z.inj in G. pose proof (Nat.div_mod i block ltac:(lia)) as DI. pose proof (Nat.mod_upper_bound i block ltac:(lia)) as MI. rewrite G in DI.
                destruct (Nat.leb_spec (block * g) i), (Nat.ltb_spec i (block * g + block)); cbn; lia || reflexivity.
             ++ destruct (Nat.leb_spec (block * g) i) as [D1|D1], (Nat.ltb_spec i (block * g + block)) as [D2|D2]; cbn; try reflexivity. exfalso. apply G. f_equal.
                symmetry. apply (Nat.div_unique i block g (i - block * g)); lia.
          -- destruct (Z.eqb_spec (-1) (Z.of_nat g)); [lia|]. destruct (Nat.leb_spec (block * g) i), (Nat.ltb_spec i (block * g + block)); cbn; try reflexivity. exfalso. nia.
  Qed.
  (* a block of no positive length, or of all: one group *)
  Theorem reduce_object_one_block c s axis a block to_end keepdims : obj c s -> nonneg_weights K P c s -> value_axis s axis a -> 0 < nth a s 0 ->
    (block <= 0 \/ block = Z.of_nat (nth a s 0%nat))%Z ->
    exists r, c_reduce K P c (ROne axis) None (Some block) to_end keepdims = Ok r /\ obj r (to_last to_end a (upd s a 1)) /\
      forall p, valid (upd s a 1) p -> reduce_data K (column P (c_obj c) s a p) = Some (at_ r (to_last to_end a p)).
  Proof.
    intros H W Hx Hn Hb. pose proof (proj2 Hx) as Ha. set (n := nth a s 0) in *.
    assert (EB : c_block_by c block (ROne axis) = Ok (repeat 0%Z n)).
    { rewrite (block_by_object c s axis a _ H Hx). fold n. rewrite block_by_single_block by (lia || exact Hb). now rewrite Nat2Z.id. }
    destruct (reduce_object_grouped c s axis a (repeat 0%Z n) 0 None to_end keepdims H W Hx) as (r & E & O & Z).
    - now rewrite repeat_length.
    - split; [destruct n; [lia|now left]|]. apply Forall_forall. intros z Hz. apply repeat_spec in Hz. lia.
    - lia.
    - change (Z.to_nat (0 + 1)) with 1 in *. exists r. split; [|split; [exact O|]].
      + rewrite <- E. unfold c_reduce. rewrite EB. reflexivity.
      + intros p Vp. rewrite <- (Z p Vp). f_equal. unfold members.
        assert (Lc : length (column P (c_obj c) s a p) = n) by (unfold column; now rewrite map_length, seq_length).
        assert (Lg : nth a p 0 = 0).
        { rewrite valid_iff in Vp. destruct Vp as [_ Vp]. specialize (Vp a). rewrite upd_length, upd_nth, Nat.eqb_refl in Vp. specialize (Vp Ha). destruct (Nat.ltb_spec a (length s)); [|lia]. lia. }
        rewrite Lg. revert Lc. generalize (column P (c_obj c) s a p). clear. induction n as [|n IH]; intros [|x l] L; cbn in *; try reflexivity; try discriminate.
        f_equal. apply IH. lia.
  Qed.
  Theorem reduce_block_too_large c s axis a block to_end keepdims : obj c s -> value_axis s axis a -> (0 < block)%Z -> (Z.of_nat (nth a s 0%nat) < block)%Z ->
    c_reduce K P c (ROne axis) None (Some block) to_end keepdims = Raise EValue.
  Proof.
    intros H Hx H0 Hb. unfold c_reduce. rewrite (block_by_object c s axis a _ H Hx), block_by_too_large by assumption. reflexivity.
  Qed.

  (* C119: resampling, jackknife and running totals *)
  Theorem resample_object c s freq axis a to_end : obj c s -> nonneg_weights K P c s -> value_axis s axis a ->
    tensor_ok freq -> tndim freq = 2 -> shape_of freq 1 = nth a s 0 -> Forall all_nonneg (table freq) ->
    exists r, c_resample_and_reduce K P c freq axis to_end = Ok r /\ obj r (to_last to_end a (upd s a (shape_of freq 0))) /\
      forall p, valid (upd s a (shape_of freq 0)) p ->
        let rows := selected K (nth (nth a p 0) (table freq) []) (column P (c_obj c) s a p) in
        total K rows <> 0%Qc -> reduce_data K rows = Some (at_ r (to_last to_end a p)).
  Proof.
    intros H W Hx Hf Hd Hs Hp. destruct (obj_axes c s H) as [EI FI]. pose proof (proj2 Hx) as Ha.
    assert (Sa : shape_of (c_obj c) a = nth a s 0) by (rewrite (shape_pick c s H); now apply pick_front).
    destruct (resample_array_weighted K ok P MA freq (axes_last mm) axis to_end a _ (c_obj c) (axis_moments c s axis a H Hx) (nonneg_moments c s H W)
      Hf Hd ltac:(now rewrite Sa) Hp) as (out & E & Y).
    exists (CM out (c_params c)). split; [unfold c_resample_and_reduce; rewrite EI; cbn [rbind]; now rewrite E|].
    destruct (reduced_cells c s to_end (shape_of freq 0) a out (fun col i => selected K (nth i (table freq) []) col) (fun l => total K l <> 0%Qc) H Ha) as [O Z].
    - intros col i F. unfold selected. apply Forall_forall. intros y Hy. apply in_map_iff in Hy. destruct Hy as ([k y'] & <- & Hy). apply in_combine_r in Hy.
      rewrite Forall_forall in F. specialize (F _ Hy). cbn [fst snd]. unfold reweight. destruct (kernel_laws K ok (ma_kernel _ _ _ MA)) as (I & L & EL). apply EL. apply EL in F. now apply (l_wf_setwt _ _ L).
    - exact Y.
    - split; [exact O|]. exact Z.
  Qed.
  Theorem jackknife_object c s axis a to_end : obj c s -> nonneg_weights K P c s -> value_axis s axis a ->
    (forall p, valid (upd s a 1) p -> Forall (fun d => p_wt K d = 0%Qc \/ total K (column P (c_obj c) s a p) <> p_wt K d) (column P (c_obj c) s a p)) ->
    exists r, c_jackknife_and_reduce K P c None axis to_end = Ok r /\ obj r (to_last to_end a s) /\
      forall p, valid s p -> reduce_data K (without (nth a p 0) (column P (c_obj c) s a p)) = Some (at_ r (to_last to_end a p)).
  Proof.
    intros H W Hx HJ. destruct (obj_axes c s H) as [EI FI]. pose proof (proj2 Hx) as Ha. pose proof (obj_ndim c s H) as N.
    assert (Sa : shape_of (c_obj c) a = nth a s 0) by (rewrite (shape_pick c s H); now apply pick_front).
    assert (St : tshape (c_obj c) = s ++ pk_shape P) by apply H.
    destruct (jackknife_array_leave_one_out K ok P MA (axes_last mm) axis to_end a _ (c_obj c) (axis_moments c s axis a H Hx) (nonneg_moments c s H W)) as (out & E & Y).
    - intros env I. rewrite rows_columns by (exact St || (intros z [<-|[]]; exact Ha)). rewrite column_columns.
      assert (EC : column P (c_obj c) s a (map env (seq 0 (length s))) = column P (c_obj c) s a (upd (map env (seq 0 (length s))) a 0)).
      { unfold column. apply map_ext. intros i. now rewrite upd_upd. }
      rewrite EC. apply HJ. apply valid_iff. rewrite !upd_length, map_length, seq_length. split; [reflexivity|]. intros k Hk. rewrite !upd_nth.
      destruct (Nat.eqb_spec a k) as [->|Nk].
      + destruct (Nat.ltb_spec k (length s)); [|lia]. rewrite map_length, seq_length. destruct (Nat.ltb_spec k (length s)); [lia|lia].
      + rewrite (nth_map_in _ _ _ _ 0) by (now rewrite seq_length). rewrite seq_nth by exact Hk. cbn [Nat.add].
        rewrite <- (pick_front s (pk_shape P)) by exact Hk. rewrite <- (shape_pick c s H). apply I. apply except_In. split; [apply in_seq; lia|].
        intros [C|C]; [congruence|apply in_seq in C; lia].
    - exists (CM out (c_params c)). split; [unfold c_jackknife_and_reduce; rewrite EI; cbn [rbind option_map]; now rewrite E|].
      rewrite Sa in Y. destruct (reduced_cells c s to_end (nth a s 0) a out (fun col i => without i col) (fun _ => True) H Ha) as [O Z].
      + intros col i F. unfold without. apply Forall_app. split; [now apply Forall_firstn_|now apply Forall_skipn_].
      + destruct Y as (Y1 & Y2 & Y3). split; [exact Y1|]. split; [exact Y2|]. intros env I l _. now apply Y3.
      + rewrite upd_id in O, Z. split; [exact O|]. intros p Vp. now apply Z.
  Qed.
  (* a reduction that is given is what the rows are taken out of, right or wrong *)
  Theorem jackknife_object_given c s axis a to_end r C : obj c s -> value_axis s axis a ->
    let M := seq (length s) mm in
    let L := except_nat (seq 0 (length s + mm)) (a :: M) in
    Forall2 (is_axis (tndim r)) (axes_last mm) C -> aligns r C L (shape_of (c_obj c)) -> map (shape_of r) C = pk_shape P ->
    by_columns_t (pk_unpack P)
      (fun env => of_opt EZeroDiv (jackknife_data_from K (pk_pack P (aligned_entry r C L env)) (rows_along P (c_obj c) [a] M env)))
      to_end (nth a s 0) a M (c_obj c) (rmap c_obj (c_jackknife_and_reduce K P c (Some r) axis to_end)).
  Proof.
    intros H Hx M L HC HL SC. destruct (obj_axes c s H) as [EI FI]. pose proof (proj2 Hx) as Ha. pose proof (obj_ndim c s H) as N.
    assert (Sa : shape_of (c_obj c) a = nth a s 0) by (rewrite (shape_pick c s H); now apply pick_front).
    pose proof (jackknife_given_array K ok P MA r None C (axes_last mm) axis to_end a M (c_obj c) (axis_moments c s axis a H Hx)) as X. cbv zeta in X.
    rewrite N in X. assert (LM : length M = mm) by apply seq_length. rewrite LM in X. specialize (X HC HL SC). rewrite Sa in X.
    unfold c_jackknife_and_reduce. rewrite EI. cbn [rbind option_map]. destruct (jackknife_data_nd _ _ _ _ _ _ _) as [out|e]; exact X.
  Qed.
  Theorem cumulative_object c s axis a to_end : obj c s -> nonneg_weights K P c s -> value_axis s axis a ->
    exists out, c_cumulative K P c axis to_end = Ok out /\ tshape out = to_last to_end a s ++ pk_shape P /\
      forall p, valid s p -> let rows := firstn (S (nth a p 0)) (column P (c_obj c) s a p) in
        total K rows <> 0%Qc -> reduce_data K rows = Some (mom_cell P out (to_last to_end a p)).
  Proof.
    intros H W Hx. destruct (obj_axes c s H) as [EI FI]. pose proof (proj2 Hx) as Ha.
    assert (Sa : shape_of (c_obj c) a = nth a s 0) by (rewrite (shape_pick c s H); now apply pick_front).
    destruct (cumulative_array_prefixes K ok P MA (axes_last mm) axis to_end a _ (c_obj c) (axis_moments c s axis a H Hx) (nonneg_moments c s H W)) as (out & E & Y).
    exists out. split; [unfold c_cumulative; rewrite EI; exact E|]. rewrite Sa in Y.
    destruct (reduced_cells c s to_end (nth a s 0) a out (fun col i => firstn (S i) col) (fun l => total K l <> 0%Qc) H Ha) as [O Z].
    - intros col i F. now apply Forall_firstn_.
    - exact Y.
    - rewrite upd_id in O, Z. split; [apply O|exact Z].
  Qed.

  (* an axis that is no value axis *)
  Lemma not_value_axis c s axis : obj c s -> ~ (exists a, value_axis s axis a) -> no_axis (axes_last mm) axis (c_obj c).
  Proof.
    intros H HN (a & M & FM & Hx & ND). pose proof (obj_ndim c s H) as N. destruct (obj_axes c s H) as [_ FI].
    assert (EM : M = seq (length s) mm).
    { clear -FM FI. revert M FM. induction FI as [|z b l M' Hb HF IH]; intros M FM; inversion FM as [|? b' ? M'' Hb' HF']; subst; [reflexivity|]. f_equal; [|now apply IH].
      unfold is_axis in *. lia. }
    subst M. apply HN. exists a. rewrite N in Hx. replace (length (axes_last mm)) with mm in Hx by (unfold axes_last; now rewrite map_length, seq_length). split; [exact Hx|].
    destruct (lt_dec a (length s)) as [|C]; [assumption|exfalso]. inversion ND as [|? ? Na _]; subst. apply Na. apply in_seq.
    assert (a < length s + mm); [|lia]. unfold names_axis, is_axis in Hx. destruct axis; lia.
  Qed.
  Theorem object_axis_must_be_a_value_axis c s axis : obj c s -> ~ (exists a, value_axis s axis a) ->
    (forall to_end, c_cumulative K P c axis to_end = Raise EValue) /\
    (forall freq to_end, tndim freq = 2 -> c_resample_and_reduce K P c freq axis to_end = Raise EValue) /\
    (forall r to_end, c_jackknife_and_reduce K P c r axis to_end = Raise EValue) /\
    (forall by_ block to_end keepdims, c_reduce K P c (ROne axis) (Some by_) block to_end keepdims = Raise EValue).
  Proof.
    intros H HN. pose proof (not_value_axis c s axis H HN) as NA. destruct (obj_axes c s H) as [EI _].
    pose proof (fun to_end => axis_must_name_a_data_axis K ok P MA (axes_last mm) axis to_end (c_obj c) NA) as X.
    split; [|split; [|split]].
    - intros to_end. unfold c_cumulative. rewrite EI. cbn [rbind]. apply X.
    - intros freq to_end Hd. unfold c_resample_and_reduce. rewrite EI. cbn [rbind]. destruct (X to_end) as (_ & X2 & _). now rewrite X2.
    - intros r to_end. unfold c_jackknife_and_reduce. rewrite EI. cbn [rbind]. destruct (X to_end) as (_ & _ & _ & _ & X5 & X6 & _). destruct r as [r|]; cbn [option_map]; now rewrite ?X5, ?X6.
    - intros by_ block to_end keepdims. unfold c_reduce. cbn [rbind]. rewrite EI. cbn [rbind axis_one]. destruct (X to_end) as (_ & _ & X3 & _). now rewrite X3.
  Qed.
  (* the default axis of resample_and_reduce and jackknife_and_reduce is the last one, a moment axis *)
  Theorem default_resample_axis_raises c s : obj c s ->
    (forall freq to_end, tndim freq = 2 -> c_resample_and_reduce K P c freq (AInt (-1)) to_end = Raise EValue) /\
    (forall r to_end, c_jackknife_and_reduce K P c r (AInt (-1)) to_end = Raise EValue).
  Proof.
    intros H. assert (HN : ~ (exists a, value_axis s (AInt (-1)) a)).
    { intros (a & Hx & Ha). cbn [names_axis] in Hx. unfold is_axis in Hx. destruct H as (_ & _ & L & _). lia. }
    pose proof (object_axis_must_be_a_value_axis c s _ H HN) as (_ & X1 & X2 & _). auto.
  Qed.
  Theorem reduce_object_needs_axis c s by_ block to_end keepdims : obj c s ->
    c_reduce K P c RMissing by_ block to_end keepdims = Raise EType /\
    ((by_ <> None \/ block <> None) -> c_reduce K P c RNone by_ block to_end keepdims = Raise EType /\
       forall l, c_reduce K P c (RMany l) by_ block to_end keepdims = Raise EType).
  Proof.
    intros H. destruct (obj_axes c s H) as [EI _]. unfold c_reduce. split; [|intros Q; split; [|intros l0]; revert Q].
    - destruct by_ as [l|], block as [b|]; cbn; try reflexivity; rewrite EI; reflexivity.
    - intros [C|C]; destruct by_ as [l|], block as [b|]; cbn; try reflexivity; try congruence; rewrite EI; reflexivity.
    - intros [C|C]; destruct by_ as [l|], block as [b|]; cbn; try reflexivity; try congruence; rewrite EI; reflexivity.
  Qed.
End Reduce.
