(* Moment axes brought to the end and back; entries found by position. *)
From Coq Require Import Permutation String.
From Verif Require Import Base BaseLemmas Shift ModelPush ModelConvert ProofPush ProofPushCov ProofConvert ModelKernels ModelIndex ModelAxes ModelNd ModelMoments
  Spec SpecAxes SpecNd SpecMoments ProofAxes ProofArrays ProofMulti PropAxes ProofNd SpecMethods.
Local Notation length := List.length (only parsing).

(* ---- names of axes -------------------------------------------------------------- *)

Lemma except_tail q c : except_nat (seq 0 (q + c)) (seq q c) = seq 0 q.
Proof.
  rewrite seq_app, except_app. cbn [plus]. rewrite (except_all _ (seq q c)) by auto. rewrite app_nil_r.
  apply except_none. intros x Hx Hy. apply in_seq in Hx, Hy. lia.
Qed.
Lemma filter_of_map {X Y} (h : X -> Y) (q : Y -> bool) l : filter q (map h l) = map h (filter (fun x => q (h x)) l).
Proof. induction l as [|x l IH]; [reflexivity|]. cbn [map filter]. rewrite IH. now destruct (q (h x)). Qed.
Section Axes.
  Context (mom_axes : list Z) (M L : list nat) (t : tensor).
  Hypothesis H : moment_axes mom_axes M L t.
  Let n := tndim t.
  Let sh := shape_of t.

  Lemma ax_ok : tensor_ok t. Proof. apply H. Qed.
  Lemma ax_M : Forall2 (is_axis n) mom_axes M. Proof. apply H. Qed.
  Lemma ax_nodup : NoDup M. Proof. apply H. Qed.
  Lemma ax_range a : In a M -> a < n. Proof. apply (is_axis_range _ _ _ ax_M). Qed.
  Lemma ax_L : L = except_nat (seq 0 n) M. Proof. apply H. Qed.
  Lemma ax_perm : Permutation (L ++ M) (seq 0 n).
  Proof. rewrite ax_L. apply except_perm; [exact ax_nodup|exact ax_range]. Qed.
  Lemma ax_all : NoDup (L ++ M) /\ length (L ++ M) = n /\ forall a, In a (L ++ M) <-> a < n.
  Proof. apply perm_range, ax_perm. Qed.
  Lemma ax_len : length L + length M = n.
  Proof. rewrite <- app_length. apply ax_all. Qed.
  Lemma ax_lenM : length mom_axes = length M.
  Proof. apply (Forall2_len _ _ _ ax_M). Qed.

  (* an index from its parts *)
  Definition at_parts (p m : list nat) : nat -> nat := bind M m (bind L p (fun _ => 0)).
  Lemma parts_L p m : length p = length L -> length m = length M -> map (at_parts p m) L = p.
  Proof.
    intros Hp Hm. destruct ax_all as (N & _ & _). destruct (NoDup_app_parts _ _ N) as (NL & NM & D).
    rewrite <- (map_bind L p (fun _ => 0) NL Hp) at 2. apply map_ext_in. intros a Ha. unfold at_parts.
    apply bind_out. exact (D a Ha).
  Qed.
  Lemma parts_M p m : length m = length M -> map (at_parts p m) M = m.
  Proof. intros Hm. apply map_bind; [exact ax_nodup|exact Hm]. Qed.
  Lemma parts_inside p m : valid (map sh L) p -> valid (map sh M) m -> inside sh (L ++ M) (at_parts p m).
  Proof.
    intros Vp Vm. pose proof (valid_length _ _ Vp) as Lp. pose proof (valid_length _ _ Vm) as Lm. rewrite map_length in Lp, Lm.
    destruct ax_all as (N & _ & _). destruct (NoDup_app_parts _ _ N) as (NL & NM & D).
    intros a Ha. unfold at_parts. destruct (in_dec Nat.eq_dec a M) as [I|I].
    - rewrite bind_in by assumption. now apply valid_nth_index.
    - rewrite bind_out by exact I. apply in_app_or in Ha. destruct Ha as [Ha|Ha]; [|tauto].
      rewrite bind_in by assumption. now apply valid_nth_index.
  Qed.

  (* ---- to the end ------------------------------------------------------------------ *)

  Lemma last_names : mom_axes = axes_last (length mom_axes) -> L ++ M = seq 0 n.
  Proof.
    intros E.
      assert (EM : M = seq (n - length M) (length M)).
      { pose proof ax_M as F. rewrite E, ax_lenM in F. pose proof ax_len as X.
        pose proof (axes_last_positions n (length M) _ ltac:(lia) eq_refl) as G.
        pose proof (normalize_ints n _ _ F ax_nodup) as E1. pose proof (normalize_ints n _ _ G (seq_NoDup _ _)) as E2. congruence. }
      assert (EL : L = seq 0 (n - length M)).
      { rewrite ax_L. pose proof ax_len as X. rewrite EM at 1. replace n with (n - length M + length M) at 1 by lia. apply except_tail. }
      pose proof ax_len. transitivity (seq 0 (n - length M) ++ seq (0 + (n - length M)) (length M)); [cbn [plus]; rewrite <- EL; f_equal; exact EM|].
      rewrite <- seq_app. f_equal. lia.
  Qed.
  Lemma moved_view_always : exists u, np_moveaxis mom_axes (axes_last (length mom_axes)) t = Ok u /\ view u (L ++ M) sh (entry t).
  Proof.
    destruct (moveaxis_view t (seq 0 n) sh (entry t) M (view_self t ax_ok) ax_nodup) as (u & Eu & Vu).
    { intros p Hp. rewrite seq_length. now apply ax_range. }
    exists u. split.
    - rewrite <- Eu, ax_lenM. unfold np_moveaxis, moveaxis_order. fold n.
      rewrite (normalize_ints n mom_axes M ax_M ax_nodup).
      rewrite (normalize_ints n (map Z.of_nat M) M); [reflexivity| |exact ax_nodup].
      pose proof ax_range as B. clear - B. induction M as [|b l IH]; [constructor|]. cbn [map]. constructor; [apply is_axis_self, B; now left|].
      apply IH. intros c Hc. apply B. now right.
    - rewrite seq_length, map_nth_seq_id in Vu; [rewrite ax_L; exact Vu|]. intros b Hb. apply in_app_or in Hb.
      destruct Hb as [Hb|Hb]; [|now apply ax_range]. apply except_In in Hb. destruct Hb as [Hb _]. apply in_seq in Hb. lia.
  Qed.
  Lemma moved_view : exists u, (if mom_moved mom_axes then np_moveaxis mom_axes (axes_last (length mom_axes)) t else Ok t) = Ok u /\
    view u (L ++ M) sh (entry t).
  Proof.
    unfold mom_moved. destruct (list_eq_dec _ mom_axes (axes_last (length mom_axes))) as [E|E].
    - exists t. split; [reflexivity|].
      rewrite (last_names E). apply view_self, ax_ok.
    - exact moved_view_always.
  Qed.
  Lemma view_entries u : view u (L ++ M) sh (entry t) ->
    tensor_ok u /\ tshape u = map sh L ++ map sh M /\
    forall p m, valid (map sh L) p -> valid (map sh M) m -> tget u (p ++ m) = moment_entry t M L p m.
  Proof.
    intros (O & S & F). split; [exact O|]. split; [now rewrite S, map_app|]. intros p m Vp Vm.
    pose proof (valid_length _ _ Vp) as Lp. pose proof (valid_length _ _ Vm) as Lm. rewrite map_length in Lp, Lm.
    pose proof (F _ (parts_inside p m Vp Vm)) as X. rewrite map_app, parts_L, parts_M in X by assumption. exact X.
  Qed.
  Lemma moved_entries : exists u, (if mom_moved mom_axes then np_moveaxis mom_axes (axes_last (length mom_axes)) t else Ok t) = Ok u /\
    tensor_ok u /\ tshape u = map sh L ++ map sh M /\
    forall p m, valid (map sh L) p -> valid (map sh M) m -> tget u (p ++ m) = moment_entry t M L p m.
  Proof. destruct moved_view as (u & E & V). exists u. split; [exact E|]. now apply view_entries. Qed.

  (* ---- and back ---------------------------------------------------------------------- *)

  Definition back_order : list nat := map (fun a => index_of a (L ++ M)) (seq 0 n).
  Lemma back_moves : moves n (seq (n - length M) (length M)) M back_order.
  Proof.
    destruct ax_all as (N & Len & R). pose proof ax_len as X. unfold moves, back_order.
    assert (I : forall a, a < n -> index_of a (L ++ M) < n /\ nth (index_of a (L ++ M)) (L ++ M) 0 = a).
    { intros a Ha. rewrite <- Len. apply index_of_lt. now apply R. }
    split; [|split].
    - apply NoDup_Permutation_bis.
      + apply NoDup_map_in; [apply seq_NoDup|]. intros x y Hx Hy E. apply in_seq in Hx, Hy.
        destruct (I x ltac:(lia)) as [_ E1], (I y ltac:(lia)) as [_ E2]. congruence.
      + now rewrite map_length.
      + intros x Hx. apply in_map_iff in Hx. destruct Hx as (a & <- & Ha). apply in_seq in Ha. apply in_seq. destruct (I a); lia.
    - pose proof (positions_tail L M N) as PT. replace (n - length M) with (length L) by lia. rewrite <- PT.
      assert (B : forall a, In a M -> a < n) by exact ax_range.
      set (g := fun a => index_of a (L ++ M)). clearbody g. clear - B. induction M as [|a l IH]; [constructor|].
      cbn [map]. constructor; [|apply IH; intros b Hb; apply B; now right].
      rewrite nth_error_map, (nth_error_nth' _ 0) by (rewrite seq_length; apply B; now left).
      cbn. rewrite seq_nth by (apply B; now left). reflexivity.
    - assert (E1 : except_nat (seq 0 n) (seq (n - length M) (length M)) = seq 0 (length L)).
      { replace (n - length M) with (length L) by lia. replace n with (length L + length M) by lia. apply except_tail. }
      rewrite E1. transitivity (map (fun a => index_of a (L ++ M)) L).
      + unfold except at 1. rewrite filter_of_map. f_equal. rewrite ax_L. unfold except. apply filter_ext_in. intros a Ha. apply in_seq in Ha.
        fold (except_nat (seq 0 n) M). rewrite <- ax_L.
        destruct (in_dec Nat.eq_dec a M) as [J|J], (in_dec Nat.eq_dec (index_of a (L ++ M)) (seq (n - length M) (length M))) as [J'|J']; try reflexivity; exfalso.
        * apply J'. apply in_seq. pose proof (positions_tail L M N) as PT. 
          assert (In (index_of a (L ++ M)) (seq (length L) (length M))) by (rewrite <- PT; apply (in_map (fun c => index_of c (L ++ M))); exact J).
          apply in_seq in H0. lia.
        * assert (In a L) by (assert (Ha' : In a (L ++ M)) by (apply R; lia); apply in_app_or in Ha'; tauto).
          rewrite index_of_app in J' by assumption. pose proof (index_of_lt a L H0). apply in_seq in J'. lia.
      + transitivity (map (fun a => index_of a L) L).
        * apply map_ext_in. intros a Ha. now apply index_of_app.
        * destruct (NoDup_app_parts _ _ N) as (NL & _). exact (positions_tail [] L NL).
  Qed.
  Lemma back_entries u : tensor_ok u -> tshape u = map sh L ++ map sh M ->
    exists v, (if mom_moved mom_axes then np_moveaxis (axes_last (length mom_axes)) mom_axes u else Ok u) = Ok v /\
      tensor_ok v /\ tshape v = tshape t /\
      forall p m, valid (map sh L) p -> valid (map sh M) m -> moment_entry v M L p m = tget u (p ++ m).
  Proof.
    intros Hu Su. destruct ax_all as (N & Len & R).
    set (f := fun env : nat -> nat => tget u (map env (L ++ M))).
    assert (Vu : view u (L ++ M) sh f) by (split; [exact Hu|split; [now rewrite map_app|reflexivity]]).
    assert (Nu : tndim u = n) by (unfold tndim; rewrite Su, app_length, !map_length; exact ax_len).
    assert (G : exists v, (if mom_moved mom_axes then np_moveaxis (axes_last (length mom_axes)) mom_axes u else Ok u) = Ok v /\ view v (seq 0 n) sh f).
    { unfold mom_moved. destruct (list_eq_dec _ mom_axes (axes_last (length mom_axes))) as [E|E].
      - exists u. split; [reflexivity|]. rewrite <- (last_names E). exact Vu.
      - assert (EO : moveaxis_order n (axes_last (length mom_axes)) mom_axes = Ok back_order).
        { unfold moveaxis_order. rewrite ax_lenM. pose proof ax_len as X. rewrite axes_last_norm by lia. cbn [rbind].
          rewrite (normalize_ints n mom_axes M ax_M ax_nodup). cbn [rbind].
          destruct (moveaxis_core_moves n (seq (n - length M) (length M)) M) as (o & Eo & Mo);
            [now rewrite seq_length|apply seq_NoDup|exact ax_nodup|intros a Ha; apply in_seq in Ha; lia|exact ax_range|].
          rewrite Eo. f_equal. apply (moves_unique n (seq (n - length M) (length M)) M); auto using ax_nodup, ax_range, back_moves. }
        unfold np_moveaxis. rewrite Nu, EO. cbn [rbind]. eexists. split; [reflexivity|].
        pose proof (transpose_view u (L ++ M) sh f back_order Vu) as T. rewrite Len in T. specialize (T (proj1 back_moves)).
        replace (map (fun p => nth p (L ++ M) 0) back_order) with (seq 0 n) in T; [exact T|].
        unfold back_order. rewrite map_map. rewrite <- (map_id (seq 0 n)) at 1. apply map_ext_in. intros a Ha. apply in_seq in Ha.
        symmetry. apply index_of_lt, R. lia. }
    destruct G as (v & Ev & Vv). exists v. split; [exact Ev|]. destruct Vv as (Ov & Sv & Fv). split; [exact Ov|].
    assert (Sv' : tshape v = tshape t) by (rewrite Sv; unfold sh, shape_of; now apply map_nth_seq). split; [exact Sv'|].
    intros p m Vp Vm. pose proof (valid_length _ _ Vp) as Lp. pose proof (valid_length _ _ Vm) as Lm. rewrite map_length in Lp, Lm.
    unfold moment_entry, entry. replace (tndim v) with n by (unfold tndim; now rewrite Sv').
    fold (at_parts p m). rewrite Fv.
    - unfold f. now rewrite map_app, parts_L, parts_M.
    - pose proof (parts_inside p m Vp Vm) as I. intros a Ha. apply I. apply R. apply in_seq in Ha. lia.
  Qed.
End Axes.

(* ---- conversion of one moment array ------------------------------------------------ *)

Definition converted (to : string) (f : list nat -> Qc) (m : list nat) : Qc :=
  if String.eqb to "central" then central_of f m else raw_of f m.

Lemma pack1_get n (l : list nat -> Qc) k : k < S n -> getq (pk_pack (packer1 n) l) k = l [k].
Proof.
  intros Hk. unfold getq. cbn [packer1 pk_pack]. rewrite (nth_map_in _ _ _ _ 0) by (now rewrite seq_length). now rewrite seq_nth.
Qed.
Lemma pack1_wf n (l : list nat -> Qc) : wf1 n (pk_pack (packer1 n) l).
Proof. unfold wf1. cbn [packer1 pk_pack]. now rewrite map_length, seq_length. Qed.
Lemma pack2_wf n0 n1 (l : list nat -> Qc) : wf2 n0 n1 (pk_pack (packer2 n0 n1) l).
Proof. cbn [packer2 pk_pack]. apply shape2_table. Qed.
Lemma pack2_get n0 n1 (l : list nat -> Qc) i j : i < S n0 -> j < S n1 -> get2 (pk_pack (packer2 n0 n1) l) i j = l [i; j].
Proof. intros Hi Hj. cbn [packer2 pk_pack]. rewrite (get2_table (fun i j => l [i; j])) by lia. reflexivity. Qed.

Lemma convert_one nmax to n l : 2 <= n <= S nmax -> exists h, convert_kernel nmax to [n] l = Ok h /\
  forall k, k < n -> h [k] = converted to l [k].
Proof.
  intros Hn. unfold convert_kernel. cbn [existsb].
  replace (Nat.ltb n 2) with false by (symmetry; apply Nat.ltb_ge; lia). replace (Nat.ltb (S nmax) n) with false by (symmetry; apply Nat.ltb_ge; lia). cbn [orb].
  cbn zeta. eexists. split; [reflexivity|]. intros k Hk. destruct n as [|n]; [lia|]. replace (S n - 1) with n by lia.
  cbn [packer1 pk_unpack]. cbn [nth]. fold (packer1 n). set (a := pk_pack (packer1 n) l).
  assert (W : wf1 n a) by apply pack1_wf. assert (G : forall i, i < S n -> getq a i = l [i]) by (intros; now apply pack1_get).
  unfold converted, central_of, raw_of. cbn [fold_right List.length averages map]. rewrite Nat.add_0_r.
  destruct (Nat.leb_spec k 1) as [K1|K1].
  - transitivity (getq a k); [|rewrite G by exact Hk; now destruct (String.eqb to "central")]. destruct k as [|[|k]]; [| |lia]; destruct (String.eqb to "central"); reflexivity.
  - destruct (String.eqb to "central").
    + rewrite (r2c_get nmax n) by (assumption || lia). rewrite shift_binom. cbn [moved_moment]. rewrite (G 1%nat) by lia.
      apply sumn_ext. intros i Hi. f_equal. unfold nraw, raw_normal. destruct (k - i)%nat eqn:E; [reflexivity|]. cbn [forallb Nat.eqb andb]. apply G. lia.
    + rewrite (c2r_get nmax n) by (assumption || lia). unfold raw1. rewrite shift_binom. cbn [moved_moment]. rewrite (G 1%nat) by lia.
      apply sumn_ext. intros i Hi. f_equal. unfold nrm, central_normal. cbn [fold_right]. rewrite Nat.add_0_r. destruct (k - i)%nat as [|[|j]] eqn:E; [reflexivity|reflexivity|]. apply G. lia.
Qed.
Lemma convert_two nmax to n0 n1 l : 2 <= n0 <= S nmax -> 2 <= n1 <= S nmax -> exists h, convert_kernel nmax to [n0; n1] l = Ok h /\
  forall i j, i < n0 -> j < n1 -> h [i; j] = converted to l [i; j].
Proof.
  intros H0 H1. unfold convert_kernel. cbn [existsb].
  replace (Nat.ltb n0 2) with false by (symmetry; apply Nat.ltb_ge; lia). replace (Nat.ltb (S nmax) n0) with false by (symmetry; apply Nat.ltb_ge; lia).
  replace (Nat.ltb n1 2) with false by (symmetry; apply Nat.ltb_ge; lia). replace (Nat.ltb (S nmax) n1) with false by (symmetry; apply Nat.ltb_ge; lia). cbn [orb].
  cbn zeta. eexists. split; [reflexivity|]. intros i j Hi Hj. destruct n0 as [|n0]; [lia|]. destruct n1 as [|n1]; [lia|].
  replace (S n0 - 1) with n0 by lia. replace (S n1 - 1) with n1 by lia.
  cbn [packer2 pk_unpack]. cbn [nth]. fold (packer2 n0 n1). set (a := pk_pack (packer2 n0 n1) l).
  assert (W : wf2 n0 n1 a) by apply pack2_wf. assert (G : forall i j, i < S n0 -> j < S n1 -> get2 a i j = l [i; j]) by (intros; now apply pack2_get).
  unfold converted, central_of, raw_of. cbn [fold_right List.length averages map]. rewrite Nat.add_0_r.
  destruct (Nat.leb_spec (i + j) 1) as [K1|K1].
  - transitivity (get2 a i j); [|rewrite G by assumption; now destruct (String.eqb to "central")].
    destruct (String.eqb to "central"); [rewrite (r2c2_get nmax n0 n1) by (assumption || lia)|rewrite (c2r2_get nmax n0 n1) by (assumption || lia)];
      [unfold rr2c_entry|unfold cc2r_entry]; apply Nat.leb_le in K1; now rewrite K1.
  - destruct (String.eqb to "central").
    + rewrite (r2c2_get nmax n0 n1), rr2c_entry_shift by (assumption || lia). rewrite shift2_binom. cbn [moved_moment]. rewrite (G 1%nat 0%nat), (G 0%nat 1%nat) by lia.
      apply sumn_ext. intros b0 B0. apply sumn_ext. intros b1 B1. f_equal. unfold nraw2, raw_normal.
      destruct (i - b0)%nat as [|u] eqn:E0, (j - b1)%nat as [|v] eqn:E1; cbn [forallb Nat.eqb andb plus]; try reflexivity; apply G; lia.
    + rewrite (c2r2_get nmax n0 n1), cc2r_entry_raw by (assumption || lia). unfold raw2. rewrite shift2_binom. cbn [moved_moment]. rewrite (G 1%nat 0%nat), (G 0%nat 1%nat) by lia.
      apply sumn_ext. intros b0 B0. apply sumn_ext. intros b1 B1. f_equal. unfold nrm2, central_normal. cbn [fold_right]. rewrite Nat.add_0_r.
      destruct ((i - b0) + (j - b1))%nat as [|[|d]] eqn:E; [reflexivity|reflexivity|]. apply G; lia.
Qed.
Lemma convert_ext nmax to s l l' : (forall m, valid s m -> l m = l' m) -> convert_kernel nmax to s l = convert_kernel nmax to s l'.
Proof.
  intros H. unfold convert_kernel. destruct (existsb _ s) eqn:E; [reflexivity|].
  destruct s as [|n [|n1 [|? ?]]]; try reflexivity; cbn [existsb] in E; rewrite ?Bool.orb_false_iff in E.
  - destruct E as [[E _] _]. apply Nat.ltb_ge in E. cbn zeta. replace (pk_pack (packer1 (n - 1)) l') with (pk_pack (packer1 (n - 1)) l); [reflexivity|].
    cbn [packer1 pk_pack]. apply map_ext_in. intros i Hi. apply in_seq in Hi. apply H. constructor; [lia|constructor].
  - destruct E as ((E & _) & (E1 & _) & _). apply Nat.ltb_ge in E, E1. cbn zeta. replace (pk_pack (packer2 (n - 1) (n1 - 1)) l') with (pk_pack (packer2 (n - 1) (n1 - 1)) l); [reflexivity|].
    cbn [packer2 pk_pack]. apply map_ext_in. intros i Hi. apply map_ext_in. intros j Hj. apply in_seq in Hi, Hj. apply H. constructor; [lia|constructor; [lia|constructor]].
Qed.
Lemma convert_all nmax to s l : (length s = 1 \/ length s = 2) -> Forall (fun n => 2 <= n <= S nmax) s ->
  exists h, convert_kernel nmax to s l = Ok h /\ forall m, valid s m -> h m = converted to l m.
Proof.
  intros Ls F. destruct s as [|n0 [|n1 [|? ?]]]; cbn in Ls; try lia; inversion F as [|? ? F0 F']; subst.
  - destruct (convert_one nmax to n0 l F0) as (h & E & G). exists h. split; [exact E|]. intros m V. inversion V as [|? k ? m' Hk V']; subst. inversion V'; subst. now apply G.
  - inversion F' as [|? ? F1 _]; subst. destruct (convert_two nmax to n0 n1 l F0 F1) as (h & E & G). exists h. split; [exact E|].
    intros m V. inversion V as [|? i ? m' Hi V']; subst. inversion V' as [|? j ? m'' Hj V'']; subst. inversion V''; subst. now apply G.
Qed.

(* ---- moments on the last axes ----------------------------------------------------------- *)

Lemma last_moment_axes s ms u : tensor_ok u -> tshape u = (s ++ ms)%list ->
  moment_axes (axes_last (length ms)) (seq (length s) (length ms)) (seq 0 (length s)) u.
Proof.
  intros Ou Su. assert (N : tndim u = length s + length ms) by (unfold tndim; now rewrite Su, app_length).
  split; [exact Ou|]. rewrite N. split; [apply axes_last_positions; [lia|]; f_equal; lia|]. split; [apply seq_NoDup|].
  symmetry. apply except_tail.
Qed.
Lemma last_moment_entry s ms u p m : tshape u = (s ++ ms)%list -> length p = length s -> length m = length ms ->
  moment_entry u (seq (length s) (length ms)) (seq 0 (length s)) p m = tget u (p ++ m)%list.
Proof.
  intros Su Lp Lm. unfold moment_entry, entry. f_equal. assert (N : tndim u = length s + length ms) by (unfold tndim; now rewrite Su, app_length).
  rewrite N, seq_app, map_app. cbn [plus]. f_equal.
  - rewrite (map_ext_in _ (bind (seq 0 (length s)) p (fun _ => 0))).
    + apply map_bind; [apply seq_NoDup|now rewrite seq_length].
    + intros a Ha. apply bind_out. intros C. apply in_seq in Ha, C. lia.
  - apply map_bind; [apply seq_NoDup|now rewrite seq_length].
Qed.
Lemma last_shapes s ms u : tshape u = (s ++ ms)%list ->
  map (shape_of u) (seq 0 (length s)) = s /\ map (shape_of u) (seq (length s) (length ms)) = ms.
Proof.
  intros Su. unfold shape_of. rewrite Su. split.
  - rewrite (map_ext_in _ (fun k => nth k s 0)); [now apply map_nth_seq|]. intros a Ha. apply in_seq in Ha. apply app_nth1. lia.
  - apply (nth_ext _ _ 0 0); [now rewrite map_length, seq_length|]. intros k Hk. rewrite map_length, seq_length in Hk.
    rewrite (nth_map_in _ _ _ _ 0) by (now rewrite seq_length). rewrite seq_nth by exact Hk. rewrite app_nth2 by lia. f_equal. lia.
Qed.
