(* Wrapper objects as containers of moment arrays: construction, indexing,
   iteration, reshaping, resampling, concatenation and conversion (C59, C60). *)
From Coq Require Import String Permutation.
From Verif Require Import Base BaseLemmas Checks ModelKernels ModelIndex ModelAxes ModelState ModelParams ModelWrap SpecAxes ProofAxes ProofArrays PropParams.
Local Open Scope string_scope.
Local Open Scope nat_scope.

(* ---- vocabulary ------------------------------------------------------------------ *)

(* c is an object with value shape vs and moment shape ms, moments last *)
Definition holds (c : cmarray) (vs ms : list nat) : Prop :=
  tensor_ok (c_obj c) /\ c_shape c = (vs ++ ms)%list /\ (List.length ms = 1 \/ List.length ms = 2) /\ Forall (fun n => 2 <= n) ms /\
  c_params c = AP (Some (Z.of_nat (List.length ms))) (Some (axes_last (List.length ms))).
(* the array of one moment (index midx) over the value axes *)
Definition one_moment (t : tensor) (vs midx : list nat) : tensor := tabulate vs (fun idx => tget t (idx ++ midx)%list).
(* the moment array at idx: its entry at midx *)
Definition mom_entry (c : cmarray) (idx midx : list nat) : Qc := tget (c_obj c) (idx ++ midx)%list.

(* ---- moment shapes ---------------------------------------------------------------- *)

Lemma nats_eqb_eq a b : nats_eqb a b = true <-> a = b.
Proof. unfold nats_eqb. destruct (list_eq_dec Nat.eq_dec a b); split; congruence. Qed.
Lemma nats_eqb_refl a : nats_eqb a a = true.
Proof. now apply nats_eqb_eq. Qed.
Lemma last_axes_get (vs ms : list nat) : List.length ms = 1 \/ List.length ms = 2 -> mapR (py_get (vs ++ ms)) (axes_last (List.length ms)) = Ok ms.
Proof.
  intros H.
  apply py_get_list. destruct ms as [|a [|b [|? ?]]]; cbn in H; try (exfalso; lia); clear H; unfold axes_last; cbn [List.length seq map].
  - constructor; [|constructor]. exists (List.length vs). rewrite app_length. cbn [List.length]. split; [unfold is_axis; lia|].
    rewrite nth_error_app2, Nat.sub_diag by lia. reflexivity.
  - constructor; [|constructor; [|constructor]].
    + exists (List.length vs). rewrite app_length. cbn [List.length]. split; [unfold is_axis; lia|]. rewrite nth_error_app2, Nat.sub_diag by lia. reflexivity.
    + exists (S (List.length vs)). rewrite app_length. cbn [List.length]. split; [unfold is_axis; lia|]. rewrite nth_error_app2 by lia.
      replace (S (List.length vs) - List.length vs) with 1 by lia. reflexivity.
Qed.
Lemma last_shape n (vs ms : list nat) : List.length ms = 1 \/ List.length ms = 2 ->
  get_mom_shape (AP n (Some (axes_last (List.length ms)))) (vs ++ ms) = Ok ms.
Proof. intros H. unfold get_mom_shape, iter_axes. cbn [ap_axes rbind]. now rewrite last_axes_get. Qed.
Lemma too_short_shape n k (s : list nat) : List.length s < k -> k = 1 \/ k = 2 -> get_mom_shape (AP n (Some (axes_last k))) s = Raise EValue.
Proof.
  intros L H. unfold get_mom_shape, iter_axes. cbn [ap_axes rbind].
  destruct (mapR (py_get s) (axes_last k)) as [r|] eqn:E; [|reflexivity]. exfalso. apply py_get_list in E.
  destruct H as [-> | ->]; unfold axes_last in E; cbn [seq map] in E; inversion E as [|? ? ? ? (a & (A & B) & _) _]; subst; lia.
Qed.
Lemma holds_ndim c vs ms : holds c vs ms -> tndim (c_obj c) = List.length vs + List.length ms.
Proof. intros (_ & S & _). unfold tndim. change (tshape (c_obj c)) with (c_shape c). now rewrite S, app_length. Qed.
Lemma holds_mom_shape c vs ms : holds c vs ms -> c_mom_shape c = Ok ms.
Proof. intros (_ & S & L & _ & P). unfold c_mom_shape. rewrite S, P. now apply last_shape. Qed.
Lemma check_like_ok c vs ms t : holds c vs ms -> (c_check_like c t = Ok tt <-> exists vs', tshape t = (vs' ++ ms)%list).
Proof.
  intros H. pose proof (holds_mom_shape _ _ _ H) as M. destruct H as (_ & S & L & _ & P). unfold c_check_like. rewrite P, M.
  destruct (le_lt_dec (List.length ms) (List.length (tshape t))) as [G|G].
  - set (v := List.length (tshape t) - List.length ms). rewrite <- (firstn_skipn v (tshape t)) at 1.
    assert (Ls : List.length (skipn v (tshape t)) = List.length ms) by (rewrite skipn_length; unfold v; lia).
    rewrite <- Ls at 1 2. rewrite last_shape by (now rewrite Ls). cbn [rbind]. unfold raise_if_wrong_mom_shape.
    destruct (nats_eqb (skipn v (tshape t)) ms) eqn:E.
    + apply nats_eqb_eq in E. split; [intros _|reflexivity]. exists (firstn v (tshape t)). rewrite <- E. symmetry. apply firstn_skipn.
    + split; [discriminate|]. intros (vs' & X). exfalso. assert (Y : skipn v (tshape t) = ms); [|rewrite Y, nats_eqb_refl in E; discriminate].
      rewrite X. assert (Ev : v = List.length vs') by (unfold v; rewrite X, app_length; lia). rewrite Ev. now rewrite skipn_app, Nat.sub_diag, skipn_all.
  - rewrite too_short_shape by auto. cbn [rbind]. split; [discriminate|]. intros (vs' & X). rewrite X, app_length in G. lia.
Qed.
Lemma check_like_err c vs ms t e : holds c vs ms -> c_check_like c t = Raise e -> e = EValue.
Proof.
  intros H. pose proof (holds_mom_shape _ _ _ H) as M. unfold c_check_like. rewrite M.
  destruct (get_mom_shape (c_params c) (tshape t)) as [s|e'] eqn:G; cbn [rbind].
  2: { unfold get_mom_shape in G. destruct (rbind _ _) in G; congruence. }
  unfold raise_if_wrong_mom_shape. destruct (nats_eqb _ _); congruence.
Qed.

(* ---- construction --------------------------------------------------------------------- *)

Lemma mom_of_shape (s : list nat) : List.length s = 1 \/ List.length s = 2 ->
  (Forall (fun n => 1 <= n) s -> mom_shape_to_mom (IIter (map Z.of_nat s)) = Ok (map (fun n => (Z.of_nat n - 1)%Z) s)) /\
  (~ Forall (fun n => 1 <= n) s -> mom_shape_to_mom (IIter (map Z.of_nat s)) = Raise EValue).
Proof.
  intros L. unfold mom_shape_to_mom, validate_mom, is_mom_tuple. rewrite map_length.
  assert (B : (Nat.eqb (List.length s) 1 || Nat.eqb (List.length s) 2)%bool = true) by (destruct L as [-> | ->]; reflexivity). rewrite B. cbn [andb].
  assert (F : forallb (fun m => (0 <? m)%Z) (map Z.of_nat s) = true <-> Forall (fun n => 1 <= n) s).
  { rewrite forallb_forall, Forall_forall. split; intros H x Hx.
    - specialize (H _ (in_map Z.of_nat _ _ Hx)). apply Z.ltb_lt in H. lia.
    - apply in_map_iff in Hx. destruct Hx as (n & <- & Hn). apply Z.ltb_lt. specialize (H _ Hn). cbn in H. lia. }
  split; intros H.
  - rewrite (proj2 F H). cbn [rbind]. now rewrite map_map.
  - destruct (forallb _ _) eqn:E; [|reflexivity]. elim H. now apply F.
Qed.
Lemma positive_moms (s : list nat) : existsb (fun m => (m <=? 0)%Z) (map (fun n => (Z.of_nat n - 1)%Z) s) = false <-> Forall (fun n => 2 <= n) s.
Proof.
  induction s as [|a s IH]; cbn [map existsb]; [split; auto|]. destruct (Z.leb_spec (Z.of_nat a - 1) 0); cbn [orb].
  - split; [discriminate|]. intros H'. inversion H'; subst. lia.
  - rewrite IH. split; intros H'; [constructor; [lia|exact H']|now inversion H'].
Qed.
Lemma checked_iff t n l s : mapR (py_get (tshape t)) l = Ok s -> List.length s = 1 \/ List.length s = 2 ->
  (Forall (fun n => 2 <= n) s -> check_data (AP n (Some l)) (tshape t) = Ok tt /\ c_checked (CM t (AP n (Some l))) = Ok (CM t (AP n (Some l)))) /\
  (~ Forall (fun n => 2 <= n) s -> check_data (AP n (Some l)) (tshape t) = Raise EValue \/ c_checked (CM t (AP n (Some l))) = Raise EValue).
Proof.
  intros E L. unfold check_data, c_checked, get_mom, iter_axes, c_shape. cbn [ap_axes rbind c_params c_obj]. rewrite E. cbn [rbind].
  destruct (mom_of_shape s L) as [M1 M2]. split; intros H.
  - rewrite M1 by (eapply Forall_impl; [|exact H]; cbn; lia). split; [reflexivity|]. cbn [rbind]. now rewrite (proj2 (positive_moms s) H).
  - destruct (Forall_dec (fun n => 1 <= n) (fun n => le_dec 1 n) s) as [F|F].
    + right. rewrite M1 by exact F. cbn [rbind]. destruct (existsb _ _) eqn:X; [reflexivity|]. elim H. now apply positive_moms.
    + left. now rewrite M2.
Qed.
Lemma axes_eqb_eq a b : axes_eqb a b = true <-> a = b.
Proof. destruct a as [a|], b as [b|]; cbn; try (split; congruence). destruct (list_eq_dec Z.eq_dec a b); split; congruence. Qed.
Lemma axes_last_of_nat k : k = 1 \/ k = 2 -> axes_last_of (Some (Z.of_nat k)) = Ok (axes_last k).
Proof. intros [-> | ->]; reflexivity. Qed.
Lemma axes_named n l M : Forall2 (is_axis n) l M -> NoDup M -> normalize_axis_tuple (Some (map AInt l)) n None false = Ok M.
Proof. intros F N. apply normalize_tuple_ok. split; [|exact N]. clear N. induction F; cbn [map]; constructor; auto. Qed.
Lemma axes_last_named n k : k <= n -> Forall2 (is_axis n) (axes_last k) (seq (n - k) k).
Proof.
  intros H. pose proof (axes_last_norm n k H) as E. apply normalize_tuple_ok in E. destruct E as [E _]. cbn [mnum] in E.
  revert E. generalize (seq (n - k) k). generalize (axes_last k). induction l as [|z l IH]; intros r E; inversion E; subst; constructor; auto.
Qed.
Lemma forall2_is_axis_fun n l M M' : Forall2 (is_axis n) l M -> Forall2 (is_axis n) l M' -> M = M'.
Proof. intros F. revert M'. induction F as [|z a l M A F IH]; intros M' F'; inversion F' as [|? ? ? ? B F'']; subst; [reflexivity|]. f_equal; [eapply is_axis_fun; eauto|auto]. Qed.
Lemma seq_halves n k : k <= n -> seq 0 n = (seq 0 (n - k) ++ seq (n - k) k)%list.
Proof. intros H. pose proof (seq_app (n - k) k 0) as E. cbn [Nat.add] in E. rewrite <- E. f_equal. lia. Qed.
Lemma seq_split_last n k : k <= n -> except_nat (seq 0 n) (seq (n - k) k) = seq 0 (n - k).
Proof.
  intros H. replace (seq 0 n) with (seq 0 (n - k) ++ seq (n - k) k)%list.
  - rewrite except_app, except_none, except_all; [apply app_nil_r|auto|]. intros x Hx Hy. apply in_seq in Hx, Hy. lia.
  - symmetry. now apply seq_halves.
Qed.
Lemma py_get_axes (s : list nat) l M : Forall2 (is_axis (List.length s)) l M -> mapR (py_get s) l = Ok (map (fun a => nth a s 0) M).
Proof.
  intros F. apply py_get_list. induction F as [|z a l M A F IH]; cbn [map]; constructor; auto. exists a. split; [exact A|]. apply nth_error_nth'. apply A.
Qed.
Lemma py_get_named (s : list nat) l r : mapR (py_get s) l = Ok r -> exists M, Forall2 (is_axis (List.length s)) l M /\ r = map (fun a => nth a s 0) M.
Proof.
  intros E. apply py_get_list in E. induction E as [|z x l r (a & A & X) E (M & IH1 & IH2)]; [exists []; split; [constructor|reflexivity]|].
  exists (a :: M). split; [constructor; auto|]. cbn [map]. rewrite IH2. f_equal. symmetry. now apply nth_error_nth.
Qed.

(* The object holds the array with the moment axes moved to the end, in the given
   order; the other axes keep their order. *)
Definition moved_to_end (t : tensor) (M : list nat) (c : cmarray) : Prop :=
  let n := tndim t in
  holds c (map (shape_of t) (except_nat (seq 0 n) M)) (map (shape_of t) M) /\
  forall env, inside (shape_of t) (seq 0 n) env ->
    mom_entry c (map env (except_nat (seq 0 n) M)) (map env M) = entry t env.
(* Construction succeeds exactly for one or two distinct moment axes of length at
   least two; every failure after the factory is a ValueError. *)
Theorem init_moves_axes : forall m ndim axes t l M, tensor_ok t ->
  array_factory false m ndim axes (Some 1%Z) = Ok (AP (Some (Z.of_nat (List.length l))) (Some l)) -> List.length l = 1 \/ List.length l = 2 ->
  Forall2 (is_axis (tndim t)) l M -> NoDup M -> Forall (fun a => 2 <= shape_of t a) M ->
  exists c, c_init m ndim axes t = Ok c /\ moved_to_end t M c.
Proof.
  intros m ndim axes t l M Ho F L A N S2. unfold c_init. rewrite F. cbn [rbind].
  assert (LM : List.length l = List.length M) by (eapply Forall2_len; eauto).
  pose proof (py_get_axes (tshape t) l M A) as G.
  assert (Fs : Forall (fun n => 2 <= n) (map (fun a => nth a (tshape t) 0) M)) by (clear -S2; induction S2; cbn; constructor; auto).
  assert (L2 : List.length (map (fun a => nth a (tshape t) 0) M) = 1 \/ List.length (map (fun a => nth a (tshape t) 0) M) = 2) by (rewrite map_length, <- LM; exact L).
  destruct (checked_iff t (Some (Z.of_nat (List.length l))) l _ G L2) as [C _]. destruct (C Fs) as [C1 C2]. rewrite C1. cbn [rbind].
  unfold axes_to_end. cbn [ap_ndim ap_axes]. rewrite axes_last_of_nat by exact L. cbn [rbind ap_axes].
  assert (Bd : forall a, In a M -> a < tndim t) by (eapply is_axis_range; eauto).
  assert (Lk : List.length M <= tndim t).
  { rewrite <- (seq_length (tndim t) 0). apply NoDup_incl_length; [exact N|]. intros a Ha. apply in_seq. specialize (Bd a Ha). lia. }
  destruct (axes_eqb (Some l) (Some (axes_last (List.length l)))) eqn:E.
  - apply axes_eqb_eq in E. assert (El : l = axes_last (List.length l)) by congruence. cbn [rbind fst snd]. rewrite C2. eexists. split; [reflexivity|].
    assert (EM : M = seq (tndim t - List.length M) (List.length M)).
    { apply (forall2_is_axis_fun (tndim t) l); [exact A|]. rewrite El, LM. now apply axes_last_named. }
    assert (Ex : (except_nat (seq 0 (tndim t)) M ++ M)%list = seq 0 (tndim t)).
    { rewrite EM at 1 2. rewrite seq_split_last by exact Lk. symmetry. now apply seq_halves. }
    split.
    + unfold holds. cbn [c_obj c_params]. split; [exact Ho|]. split; [|split; [rewrite map_length, <- LM; exact L|split; [exact Fs|]]].
      * rewrite <- map_app, Ex. unfold c_shape. cbn [c_obj]. symmetry. unfold shape_of. now apply map_nth_seq.
      * rewrite map_length, <- LM. now rewrite <- El.
    + intros env I. unfold mom_entry. cbn [c_obj]. rewrite <- map_app, Ex. reflexivity.
  - unfold iter_axes. cbn [ap_axes rbind].
    destruct (moveaxis_view t (seq 0 (tndim t)) (shape_of t) (entry t) M (view_self t Ho) N) as (u & Eu & Vu); [now rewrite seq_length|].
    assert (Em : np_moveaxis l (axes_last (List.length l)) t = Ok u).
    { rewrite <- Eu. unfold np_moveaxis, moveaxis_order. rewrite (axes_named _ _ _ A N), (normalize_nats _ _ M N Bd). now rewrite LM. }
    rewrite Em. cbn [rbind fst snd]. rewrite seq_length in Vu. rewrite map_nth_seq_id in Vu.
    2: { intros a Ha. apply in_app_or in Ha. destruct Ha as [Ha|Ha]; [apply except_In in Ha; destruct Ha as [Ha _]; apply in_seq in Ha; lia|auto]. }
    destruct Vu as (Hu & Su & Fu). rewrite map_app in Su.
    assert (Gu : mapR (py_get (tshape u)) (axes_last (List.length l)) = Ok (map (shape_of t) M)).
    { rewrite Su, LM. rewrite <- (map_length (shape_of t) M) at 1. apply last_axes_get. exact L2. }
    destruct (checked_iff u (Some (Z.of_nat (List.length l))) _ _ Gu L2) as [D _]. destruct (D Fs) as [_ D2]. rewrite D2. eexists. split; [reflexivity|]. split.
    + unfold holds. cbn [c_obj c_params]. split; [exact Hu|]. split; [exact Su|]. split; [rewrite map_length, <- LM; exact L|]. split; [exact Fs|]. now rewrite map_length, <- LM.
    + intros env I. unfold mom_entry. cbn [c_obj]. rewrite <- map_app. apply Fu. intros a Ha. apply I. apply in_app_or in Ha.
      destruct Ha as [Ha|Ha]; [now apply except_In in Ha|apply in_seq; specialize (Bd a Ha); lia].
Qed.
Theorem init_raises : forall m ndim axes t l,
  array_factory false m ndim axes (Some 1%Z) = Ok (AP (Some (Z.of_nat (List.length l))) (Some l)) -> List.length l = 1 \/ List.length l = 2 ->
  (~ exists M, Forall2 (is_axis (tndim t)) l M /\ NoDup M /\ Forall (fun a => 2 <= shape_of t a) M) ->
  c_init m ndim axes t = Raise EValue.
Proof.
  intros m ndim axes t l F L X. unfold c_init. rewrite F. cbn [rbind].
  destruct (mapR (py_get (tshape t)) l) as [s|e] eqn:G.
  2: { unfold check_data, get_mom, iter_axes. cbn [ap_axes rbind]. rewrite G. reflexivity. }
  destruct (py_get_named _ _ _ G) as (M & A & Es). assert (LM : List.length l = List.length M) by (eapply Forall2_len; eauto).
  assert (L2 : List.length s = 1 \/ List.length s = 2) by (rewrite Es, map_length, <- LM; exact L).
  destruct (checked_iff t (Some (Z.of_nat (List.length l))) l s G L2) as [C1 C2].
  destruct (check_data (AP (Some (Z.of_nat (List.length l))) (Some l)) (tshape t)) as [[]|e] eqn:Ck.
  2: { cbn [rbind]. unfold check_data in Ck. destruct (get_mom _ _); congruence. }
  cbn [rbind]. unfold axes_to_end. cbn [ap_ndim ap_axes]. rewrite axes_last_of_nat by exact L. cbn [rbind ap_axes].
  assert (Sh : Forall (fun a => 2 <= shape_of t a) M <-> Forall (fun n => 2 <= n) s).
  { rewrite Es. clear. induction M as [|a M IH]; cbn [map]; split; intros H; constructor; inversion H; subst; auto; now apply IH. }
  assert (ND : {NoDup M} + {~ NoDup M}) by (destruct (has_duplicates M) eqn:Hd; [right; intros Y; apply has_duplicates_spec in Y; congruence|left; now apply has_duplicates_spec]).
  destruct ND as [N|N].
  - assert (Fs : ~ Forall (fun n => 2 <= n) s) by (intros Y; apply X; exists M; rewrite Sh; auto).
    destruct (C2 Fs) as [C3|C3]; [congruence|].
    destruct (axes_eqb (Some l) (Some (axes_last (List.length l)))) eqn:E; cbn [rbind fst snd]; [exact C3|].
    unfold iter_axes. cbn [ap_axes rbind]. unfold np_moveaxis, moveaxis_order. fold (tndim t). change (List.length (tshape t)) with (tndim t) in A. rewrite (axes_named _ _ _ A N).
    assert (Bd : forall a, In a M -> a < tndim t) by (eapply is_axis_range; eauto).
    assert (Lk : List.length M <= tndim t).
    { rewrite <- (seq_length (tndim t) 0). apply NoDup_incl_length; [exact N|]. intros a Ha. apply in_seq. specialize (Bd a Ha). lia. }
    pose proof (moveaxis_last (tndim t) M N Bd) as Mv. unfold moveaxis_order in Mv. rewrite (normalize_nats _ _ M N Bd) in Mv. rewrite LM. rewrite Mv. cbn [rbind fst snd].
    set (order := (except_nat (seq 0 (tndim t)) M ++ M)%list) in *.
    assert (Gu : mapR (py_get (tshape (ttranspose order t))) (axes_last (List.length M)) = Ok s).
    { unfold ttranspose, tabulate. cbn [tshape]. unfold order. rewrite map_app, <- Es.
      replace (List.length M) with (List.length s) by (now rewrite Es, map_length). now apply last_axes_get. }
    destruct (checked_iff (ttranspose order t) (Some (Z.of_nat (List.length M))) _ _ Gu L2) as [_ D]. destruct (D Fs) as [D'|D']; [|exact D'].
    exfalso. unfold check_data, get_mom, iter_axes in Ck, D'. cbn [ap_axes rbind] in Ck, D'. rewrite G in Ck. rewrite Gu in D'. cbn [rbind] in Ck, D'. destruct (mom_shape_to_mom _); discriminate.
  - destruct (axes_eqb (Some l) (Some (axes_last (List.length l)))) eqn:E.
    + exfalso. apply N. apply axes_eqb_eq in E. assert (El : l = axes_last (List.length l)) by congruence.
      destruct (le_lt_dec (List.length l) (List.length (tshape t))) as [Lk|Lk].
      * rewrite (forall2_is_axis_fun _ _ _ _ A (eq_rect_r (fun z => Forall2 (is_axis (List.length (tshape t))) z _) (axes_last_named _ _ Lk) El)). apply seq_NoDup.
      * pose proof (too_short_shape None (List.length l) (tshape t) Lk L) as Y. unfold get_mom_shape, iter_axes in Y. cbn [ap_axes rbind] in Y. rewrite <- El, G in Y. discriminate.
    + unfold iter_axes. cbn [ap_axes rbind]. unfold np_moveaxis, moveaxis_order.
      destruct (normalize_axis_tuple (Some (map AInt l)) (tndim t) None false) as [M'|e] eqn:Y.
      * apply normalize_tuple_ok in Y. destruct Y as [Y N']. elim N. assert (M' = M) as <-; [|exact N'].
        clear -Y A. cbn [mnum] in Y. revert M' Y. induction A as [|z a l M A F IH]; intros M' Y; inversion Y as [|? ? ? ? B Y']; subst; [reflexivity|].
        f_equal; [eapply is_axis_fun; [exact B|exact A]|auto].
      * rewrite (normalize_tuple_err _ _ _ _ _ Y). reflexivity.
Qed.

(* ---- indexing ---------------------------------------------------------------------------- *)

(* an index tuple meant for the value axes, as an index tuple for the whole array:
   behind an Ellipsis the moment axes have to be written out *)
Definition for_values (m : nat) (ks : list key) : list key := if existsb is_dots ks then (ks ++ repeat full m)%list else ks.

Lemma consumed_app a b : consumed (a ++ b) = consumed a + consumed b.
Proof. unfold consumed. now rewrite filter_app, app_length. Qed.
Lemma consumed_full k : consumed (repeat full k) = k.
Proof. induction k as [|k IH]; [reflexivity|]. cbn [repeat]. change (full :: repeat full k) with ([full] ++ repeat full k)%list. rewrite consumed_app, IH. reflexivity. Qed.
Lemma flat_full p k : flat_map (fun q => if is_dots q then repeat full p else [q]) (repeat full k) = repeat full k.
Proof. induction k as [|k IH]; [reflexivity|]. cbn [repeat flat_map is_dots full]. now rewrite IH. Qed.
Lemma dots_full k : filter is_dots (repeat full k) = [].
Proof. induction k as [|k IH]; [reflexivity|]. exact IH. Qed.
Lemma dots_exist ks : existsb is_dots ks = true \/ filter is_dots ks = [].
Proof. induction ks as [|k ks IH]; [now right|]. cbn. destruct (is_dots k); [now left|exact IH]. Qed.
Lemma flat_nodots p ks : filter is_dots ks = [] -> flat_map (fun q => if is_dots q then repeat full p else [q]) ks = ks.
Proof. induction ks as [|k ks IH]; [reflexivity|]. cbn [filter flat_map]. destruct (is_dots k); [discriminate|]. intros H. now rewrite IH. Qed.
Lemma exists_nodots ks : filter is_dots ks = [] -> existsb is_dots ks = false.
Proof. induction ks as [|k ks IH]; [reflexivity|]. cbn [filter existsb]. destruct (is_dots k); [discriminate|]. exact IH. Qed.
Lemma expand_values v m ks es : expand_keys v ks = Ok es -> expand_keys (v + m) (for_values m ks) = Ok (es ++ repeat full m)%list.
Proof.
  unfold expand_keys, for_values. intros H. destruct (1 <? List.length (filter is_dots ks)) eqn:D; [discriminate|].
  destruct (Nat.ltb_spec v (consumed ks)) as [C|C]; [discriminate|]. destruct (dots_exist ks) as [X|X].
  - rewrite X in *. rewrite filter_app, dots_full, app_nil_r, D, consumed_app, consumed_full.
    destruct (Nat.ltb_spec (v + m) (consumed ks + m)); [lia|]. rewrite existsb_app, X. cbn [orb].
    replace (v + m - (consumed ks + m)) with (v - consumed ks) by lia. rewrite flat_map_app, flat_full. inversion H. reflexivity.
  - rewrite (exists_nodots ks X) in *. cbv iota in *. rewrite (exists_nodots ks X). rewrite D. destruct (Nat.ltb_spec (v + m) (consumed ks)); [lia|].
    rewrite flat_map_app in *. rewrite flat_nodots in * by exact X. cbn [flat_map is_dots app] in *. rewrite app_nil_r in *.
    inversion H; subst es. rewrite <- app_assoc, <- repeat_app. replace (v + m - consumed ks) with (v - consumed ks + m) by lia. reflexivity.
Qed.
Lemma expand_consumed v ks es : expand_keys v ks = Ok es -> consumed es = v /\ filter is_dots es = [].
Proof.
  unfold expand_keys. intros H. destruct (1 <? List.length (filter is_dots ks)) eqn:D; [discriminate|]. apply Nat.ltb_ge in D.
  destruct (Nat.ltb_spec v (consumed ks)) as [C|C]; [discriminate|]. inversion H; subst es. clear H.
  assert (G : forall p q, List.length (filter is_dots q) = 1 -> let r := flat_map (fun k => if is_dots k then repeat full p else [k]) q in consumed r = consumed q + p /\ filter is_dots r = []).
  { intros p q. induction q as [|k q IH]; cbn [filter]; [discriminate|]. destruct (is_dots k) eqn:K; cbn [List.length]; intros L.
    - destruct k; try discriminate. cbv zeta. cbn [flat_map is_dots]. assert (Z : filter is_dots q = []) by (destruct (filter is_dots q); [reflexivity|discriminate]).
      rewrite (flat_nodots p q Z), consumed_app, consumed_full, filter_app, dots_full, Z. split; [|reflexivity]. change (consumed (KDots :: q)) with (consumed q). lia.
    - destruct (IH L) as [I1 I2]. cbv zeta. cbn [flat_map]. rewrite K. cbn [app]. split; [|cbn [filter]; now rewrite K].
      unfold consumed in *. cbn [filter]. destruct (consumes k); cbn [List.length]; lia. }
  destruct (dots_exist ks) as [X|X].
  - rewrite X. assert (L1 : List.length (filter is_dots ks) = 1).
    { destruct (filter is_dots ks) as [|k r] eqn:F; [|cbn [List.length] in *; lia]. rewrite (exists_nodots ks F) in X. discriminate. }
    destruct (G (v - consumed ks) ks L1) as [G1 G2]. split; [lia|exact G2].
  - rewrite (exists_nodots ks X). destruct (G (v - consumed ks) (ks ++ [KDots])%list) as [G1 G2]; [rewrite filter_app, X; reflexivity|].
    rewrite consumed_app in G1. change (consumed [KDots]) with 0 in G1. split; [lia|exact G2].
Qed.
Lemma slice_full n : slice_list n None None None = Ok (seq 0 n).
Proof.
  unfold slice_list. cbn [slice_end Z.eqb Z.ltb Z.compare]. f_equal. destruct (Z.ltb_spec 0 (Z.of_nat n)).
  - rewrite Z.div_1_r. replace (Z.to_nat (Z.of_nat n - 0 - 1 + 1)) with n by lia. rewrite <- (map_id (seq 0 n)) at 2. apply map_ext. intros k. lia.
  - assert (n = 0) as -> by lia. reflexivity.
Qed.
Lemma select_fulls ms : select (repeat full (List.length ms)) ms = Ok (map (fun n => STake (seq 0 n)) ms).
Proof. induction ms as [|n ms IH]; [reflexivity|]. cbn [List.length repeat map]. unfold full at 1. cbn [select]. rewrite slice_full. cbn [rbind]. fold full. rewrite IH. reflexivity. Qed.
Lemma select_app ks1 ks2 s2 : forall s1, consumed ks1 = List.length s1 -> filter is_dots ks1 = [] ->
  select (ks1 ++ ks2) (s1 ++ s2) = rbind (select ks1 s1) (fun r1 => rbind (select ks2 s2) (fun r2 => Ok (r1 ++ r2)%list)).
Proof.
  induction ks1 as [|k ks1 IH]; intros s1 L D.
  - destruct s1; [|discriminate]. cbn. destruct (select ks2 s2); reflexivity.
  - destruct k; cbn [app select]; cbn [filter is_dots] in D.
    + destruct s1 as [|n s1]; [discriminate|]. cbn [app]. destruct (index_int i n); cbn [rbind]; [|reflexivity]. rewrite IH by (auto; cbn in L; unfold consumed; lia).
      destruct (select ks1 s1); cbn [rbind]; [|reflexivity]. destruct (select ks2 s2); reflexivity.
    + destruct s1 as [|n s1]; [discriminate|]. cbn [app]. destruct (slice_list n start stop step); cbn [rbind]; [|reflexivity]. rewrite IH by (auto; cbn in L; unfold consumed; lia).
      destruct (select ks1 s1); cbn [rbind]; [|reflexivity]. destruct (select ks2 s2); reflexivity.
    + rewrite IH by (auto; exact L). destruct (select ks1 s1); cbn [rbind]; [|reflexivity]. destruct (select ks2 s2); reflexivity.
    + discriminate.
Qed.
Lemma sel_shape_app r1 r2 : sel_shape (r1 ++ r2) = (sel_shape r1 ++ sel_shape r2)%list.
Proof. induction r1 as [|[i|l|] r1 IH]; cbn; rewrite ?IH; reflexivity. Qed.
Lemma sel_shape_fulls ms : sel_shape (map (fun n => STake (seq 0 n)) ms) = ms.
Proof. induction ms as [|n ms IH]; cbn; [reflexivity|]. now rewrite seq_length, IH. Qed.
Lemma sel_source_app r1 r2 i2 : forall i1, List.length i1 = List.length (sel_shape r1) ->
  sel_source (r1 ++ r2) (i1 ++ i2) = (sel_source r1 i1 ++ sel_source r2 i2)%list.
Proof.
  induction r1 as [|[i|l|] r1 IH]; intros i1 L; cbn [app sel_source sel_shape] in *.
  - destruct i1; [reflexivity|discriminate].
  - now rewrite IH.
  - destruct i1 as [|j i1]; [discriminate|]. cbn [app hd tl]. rewrite IH by (cbn in L; lia). reflexivity.
  - destruct i1 as [|j i1]; [discriminate|]. cbn [app hd tl]. apply IH. cbn in L; lia.
Qed.
Lemma sel_source_fulls ms midx : valid ms midx -> sel_source (map (fun n => STake (seq 0 n)) ms) midx = midx.
Proof. intros V. induction V as [|n i ms midx H V IH]; [reflexivity|]. cbn. now rewrite seq_nth, IH. Qed.
Lemma slice_bounds n a b c l : slice_list n a b c = Ok l -> Forall (fun i => i < n) l.
Proof.
  unfold slice_list. set (st := match c with Some s => s | None => 1%Z end). destruct (Z.eqb_spec st 0) as [E|E]; [discriminate|]. intros H. inversion H; subst l. clear H.
  apply Forall_forall. intros x Hx. apply in_map_iff in Hx. destruct Hx as (k & <- & Hk). apply in_seq in Hk. destruct Hk as [_ Hk]. cbn [Nat.add] in Hk.
  assert (SB : forall (neg : bool) d v, (if neg then -1 <= d <= Z.of_nat n - 1 else 0 <= d <= Z.of_nat n)%Z ->
     (if neg then -1 <= slice_end (Z.of_nat n) neg d v <= Z.of_nat n - 1 else 0 <= slice_end (Z.of_nat n) neg d v <= Z.of_nat n)%Z).
  { intros neg d v Hd. unfold slice_end. destruct v as [v|]; [|exact Hd]. destruct neg, (Z.ltb_spec v 0); lia. }
  destruct (Z.ltb_spec st 0) as [N|N].
  - assert (B1 := SB true (Z.of_nat n - 1)%Z a). assert (B2 := SB true (-1)%Z b). cbn [negb] in B1, B2.
    set (s := slice_end _ _ _ a) in *. set (e := slice_end _ _ _ b) in *. destruct (Z.ltb_spec e s) as [G|G]; [|cbn in Hk; lia].
    assert (Z.of_nat k <= (s - e - 1) / - st)%Z by (assert (0 <= (s - e - 1) / - st)%Z by (apply Z.div_pos; lia); lia).
    assert (- st * Z.of_nat k <= s - e - 1)%Z by (assert (Y := Z.mul_div_le (s - e - 1) (- st)); nia). assert (0 <= Z.of_nat k * - st)%Z by nia. nia.
  - assert (B1 := SB false 0%Z a). assert (B2 := SB false (Z.of_nat n) b). cbn [negb] in B1, B2.
    set (s := slice_end _ _ _ a) in *. set (e := slice_end _ _ _ b) in *. destruct (Z.ltb_spec s e) as [G|G]; [|cbn in Hk; lia].
    assert (Z.of_nat k <= (e - s - 1) / st)%Z by (assert (0 <= (e - s - 1) / st)%Z by (apply Z.div_pos; lia); lia).
    assert (st * Z.of_nat k <= e - s - 1)%Z by (assert (Y := Z.mul_div_le (e - s - 1) st); nia). assert (0 <= Z.of_nat k * st)%Z by nia. nia.
Qed.
Lemma index_int_lt z n i : index_int z n = Ok i -> i < n.
Proof.
  unfold index_int. set (j := (if (z <? 0)%Z then (z + Z.of_nat n)%Z else z)). cbv zeta. destruct (Z.ltb_spec j 0), (Z.leb_spec (Z.of_nat n) j); cbn; try discriminate. intros E. inversion E. lia.
Qed.
(* selected positions lie inside the source *)
Lemma sel_source_valid ks : forall s r idx, select ks s = Ok r -> valid (sel_shape r) idx -> valid s (sel_source r idx).
Proof.
  induction ks as [|k ks IH]; intros s r idx E V.
  - destruct s; [|discriminate]. inversion E; subst. constructor.
  - destruct k; cbn [select] in E.
    + destruct s as [|n s]; [discriminate|]. apply rbind_ok in E. destruct E as (i' & Ei & E). apply rbind_ok in E. destruct E as (r' & Er & E). inversion E; subst r. cbn [sel_shape sel_source] in *.
      constructor; [eapply index_int_lt; eauto|eapply IH; eauto].
    + destruct s as [|n s]; [discriminate|]. apply rbind_ok in E. destruct E as (l & El & E). apply rbind_ok in E. destruct E as (r' & Er & E). inversion E; subst r. cbn [sel_shape sel_source] in *.
      inversion V as [|? j ? idx' Hj V']; subst. cbn [hd tl]. constructor; [|eapply IH; eauto]. pose proof (slice_bounds _ _ _ _ _ El) as B. rewrite Forall_forall in B. apply B, nth_In, Hj.
    + apply rbind_ok in E. destruct E as (r' & Er & E). inversion E; subst r. cbn [sel_shape sel_source] in *. inversion V as [|? j ? idx' Hj V']; subst. cbn [tl]. eapply IH; eauto.
    + discriminate.
Qed.

(* Indexing the value axes: an object whose every moment is the indexed array of
   that moment.  If indexing that array raises, so does indexing the object. *)
Theorem getitem_values : forall c vs ms ks, holds c vs ms ->
  (exists vs' c', c_getitem c (for_values (List.length ms) ks) = Ok c' /\ holds c' vs' ms /\
     forall midx, valid ms midx -> np_getitem ks (one_moment (c_obj c) vs midx) = Ok (one_moment (c_obj c') vs' midx)) \/
  (exists e, forall midx, np_getitem ks (one_moment (c_obj c) vs midx) = Raise e /\
     ((exists es, expand_keys (List.length vs) ks = Ok es) -> c_getitem c (for_values (List.length ms) ks) = Raise e)).
Proof.
  intros c vs ms ks H. pose proof H as (Ho & Hs & L & M2 & P).
  assert (One : forall midx, np_getitem ks (one_moment (c_obj c) vs midx) = rbind (expand_keys (List.length vs) ks) (fun ks => rbind (select ks vs) (fun r =>
     Ok (tabulate (sel_shape r) (fun idx => tget (one_moment (c_obj c) vs midx) (sel_source r idx)))))) by reflexivity.
  destruct (expand_keys (List.length vs) ks) as [es|e] eqn:X.
  2: { right. exists e. intros midx. rewrite One. split; [reflexivity|]. intros (es & F). discriminate. }
  cbn [rbind] in One. destruct (expand_consumed _ _ _ X) as [C D].
  pose proof (expand_values _ (List.length ms) _ _ X) as X'. unfold c_getitem. unfold np_getitem at 1 4. rewrite (holds_ndim c vs ms H), X'. change (tshape (c_obj c)) with (c_shape c). rewrite Hs. cbn [rbind].
  rewrite select_app by auto. rewrite select_fulls. destruct (select es vs) as [r|e] eqn:S; cbn [rbind] in *.
  2: { right. exists e. auto. }
  left. exists (sel_shape r). set (t' := tabulate _ _).
  assert (St : tshape t' = (sel_shape r ++ ms)%list) by (unfold t', tabulate; cbn [tshape]; now rewrite sel_shape_app, sel_shape_fulls).
  rewrite (proj2 (check_like_ok c vs ms t' H) (ex_intro _ _ St)). cbn [rbind]. eexists. split; [reflexivity|]. split.
  - unfold holds, c_shape. cbn [c_obj c_params]. repeat split; auto. apply tabulate_ok.
  - intros midx V. rewrite One. f_equal.
    apply tensor_ext; [apply tabulate_ok|apply tabulate_ok|reflexivity|]. intros idx Vi. change (valid (sel_shape r) idx) in Vi. unfold one_moment. rewrite !tget_tabulate.
    + cbn [c_obj]. unfold t'. rewrite tget_tabulate.
      * rewrite sel_source_app by (now apply valid_length). now rewrite sel_source_fulls.
      * rewrite sel_shape_app, sel_shape_fulls. now apply Forall2_app.
    + exact Vi.
    + eapply sel_source_valid; eauto.
    + exact Vi.
Qed.
(* The only check made: the trailing shape is the moment shape. *)
Theorem getitem_exact : forall c vs ms ks c', holds c vs ms ->
  (c_getitem c ks = Ok c' <-> exists t vs', np_getitem ks (c_obj c) = Ok t /\ tshape t = (vs' ++ ms)%list /\ c' = CM t (c_params c)) /\
  (c_getitem c ks = Ok c' -> exists vs', holds c' vs' ms).
Proof.
  intros c vs ms ks c' H. unfold c_getitem.
  assert (A : rbind (np_getitem ks (c_obj c)) (fun obj => rbind (c_check_like c obj) (fun _ => Ok (CM obj (c_params c)))) = Ok c' <->
    exists t vs', np_getitem ks (c_obj c) = Ok t /\ tshape t = (vs' ++ ms)%list /\ c' = CM t (c_params c)).
  { rewrite rbind_ok. split.
    - intros (t & E & F). apply rbind_ok in F. destruct F as ([] & F & G). apply (check_like_ok _ _ _ _ H) in F. destruct F as (vs' & F). inversion G. eauto.
    - intros (t & vs' & E & F & ->). exists t. split; [exact E|]. rewrite (proj2 (check_like_ok _ _ _ _ H)) by eauto. reflexivity. }
  split; [exact A|]. rewrite A. intros (t & vs' & E & F & ->). exists vs'. destruct H as (_ & _ & L & M2 & P). unfold holds, c_shape. cbn [c_obj c_params]. repeat split; auto.
  unfold np_getitem in E. apply rbind_ok in E. destruct E as (es & _ & E). apply rbind_ok in E. destruct E as (r & _ & E). inversion E. apply tabulate_ok.
Qed.
(* So an index which removes the moment axis, or rearranges it, can pass. *)
Definition square : tensor := Tensor [3; 3] (map (fun k => qz (Z.of_nat k)) (seq 0 9)).
Theorem getitem_moment_axis_refuted : exists c ks c', holds c [3] [3] /\ c_getitem c ks = Ok c' /\ holds c' [] [3] /\
  (forall i, i < 3 -> mom_entry c' [] [i] = mom_entry c [i] [0]) /\ ks = [full; KInt 0].
Proof.
  exists (CM square (AP (Some 1%Z) (Some [-1]%Z))), [full; KInt 0]. eexists. split; [repeat split; cbn; auto; repeat constructor; lia|].
  split; [reflexivity|]. split; [repeat split; cbn; auto; repeat constructor; lia|]. split; [|reflexivity].
  intros [|[|[|i]]] H; try (exfalso; lia); reflexivity.
Qed.
Theorem getitem_reversed_moments_refuted : exists c ks c', holds c [3] [3] /\ c_getitem c ks = Ok c' /\ holds c' [3] [3] /\
  (forall i j, i < 3 -> j < 3 -> mom_entry c' [i] [j] = mom_entry c [i] [2 - j]) /\ ks = [KDots; KSlice None None (Some (-1)%Z)].
Proof.
  exists (CM square (AP (Some 1%Z) (Some [-1]%Z))), [KDots; KSlice None None (Some (-1)%Z)]. eexists. split; [repeat split; cbn; auto; repeat constructor; lia|].
  split; [reflexivity|]. split; [repeat split; cbn; auto; repeat constructor; lia|]. split; [|reflexivity].
  intros [|[|[|i]]] [|[|[|j]]] H H'; try (exfalso; lia); reflexivity.
Qed.


Lemma np_getitem_int t n s k : tshape t = n :: s -> k < n ->
  exists u, np_getitem [KInt (Z.of_nat k)] t = Ok u /\ tensor_ok u /\ tshape u = s /\ forall idx, valid s idx -> tget u idx = tget t (k :: idx).
Proof.
  intros Es Hk. unfold np_getitem, tndim. rewrite Es. cbn [List.length].
  assert (Ex : expand_keys (S (List.length s)) [KInt (Z.of_nat k)] = Ok (KInt (Z.of_nat k) :: repeat full (List.length s))).
  { unfold expand_keys. change (consumed [KInt (Z.of_nat k)]) with 1. change (filter is_dots [KInt (Z.of_nat k)]) with (@nil key). cbn [List.length].
    change (1 <? 0) with false. cbv iota. destruct (Nat.ltb_spec (S (List.length s)) 1); [lia|]. cbv zeta. change (existsb is_dots [KInt (Z.of_nat k)]) with false. cbv iota.
    cbn [app flat_map is_dots]. rewrite app_nil_r. replace (S (List.length s) - 1) with (List.length s) by lia. reflexivity. }
  rewrite Ex. cbn [rbind select].
  assert (Ik : index_int (Z.of_nat k) n = Ok k).
  { unfold index_int. cbv zeta. destruct (Z.ltb_spec (Z.of_nat k) 0); [lia|]. destruct (Z.ltb_spec (Z.of_nat k) 0); [lia|]. destruct (Z.leb_spec (Z.of_nat n) (Z.of_nat k)); [lia|]. cbn [orb]. now rewrite Nat2Z.id. }
  rewrite Ik. cbn [rbind]. rewrite select_fulls. cbn [rbind]. eexists. split; [reflexivity|]. split; [apply tabulate_ok|]. cbn [sel_shape]. rewrite sel_shape_fulls. split; [reflexivity|].
  intros idx V. rewrite tget_tabulate by exact V. cbn [sel_source]. now rewrite sel_source_fulls.
Qed.
(* Iteration gives the sub-objects of the first value axis, in order. *)
Theorem iter_values : forall c n vs ms, holds c (n :: vs) ms ->
  exists l, c_iter c = Ok l /\ List.length l = n /\
    forall k, k < n -> exists ck, nth_error l k = Some ck /\ holds ck vs ms /\
      forall idx midx, valid vs idx -> valid ms midx -> mom_entry ck idx midx = mom_entry c (k :: idx) midx.
Proof.
  intros c n vs ms H. unfold c_iter. pose proof H as (Ho & Hs & L & M2 & P). rewrite Hs. cbn [app].
  assert (G : forall k, k < n -> exists ck, c_getitem c [KInt (Z.of_nat k)] = Ok ck /\ holds ck vs ms /\
      forall idx midx, valid vs idx -> valid ms midx -> mom_entry ck idx midx = mom_entry c (k :: idx) midx).
  { intros k Hk. destruct (np_getitem_int (c_obj c) n (vs ++ ms) k Hs Hk) as (t' & Et & Ok' & St & Ft). unfold c_getitem. rewrite Et. cbn [rbind].
    rewrite (proj2 (check_like_ok c _ ms t' H) (ex_intro _ _ St)). cbn [rbind]. eexists. split; [reflexivity|]. split.
    - unfold holds, c_shape. cbn [c_obj c_params]. repeat split; auto.
    - intros idx midx V1 V2. unfold mom_entry. cbn [c_obj app]. apply Ft. now apply Forall2_app. }
  assert (R : forall a j, a + j <= n -> exists l, mapR (fun k => c_getitem c [KInt (Z.of_nat k)]) (seq a j) = Ok l /\ List.length l = j /\
    forall k, k < j -> exists ck, nth_error l k = Some ck /\ c_getitem c [KInt (Z.of_nat (a + k))] = Ok ck).
  { intros a j. revert a. induction j as [|j IH]; intros a Ha; [exists []; repeat split; intros; lia|].
    destruct (G a ltac:(lia)) as (ca & Ea & _). destruct (IH (S a) ltac:(lia)) as (l & El & Ll & Nl). exists (ca :: l). cbn [seq mapR]. rewrite Ea. cbn [rbind]. rewrite El. cbn [rbind].
    split; [reflexivity|]. split; [cbn; lia|]. intros [|k] Hk; [exists ca; rewrite Nat.add_0_r; auto|]. destruct (Nl k ltac:(lia)) as (ck & N1 & N2). exists ck. split; [exact N1|]. now rewrite Nat.add_succ_r. }
  destruct (R 0 n (le_n n)) as (l & El & Ll & Nl). exists l. split; [exact El|]. split; [exact Ll|]. intros k Hk. destruct (Nl k Hk) as (ck & N1 & N2). destruct (G k Hk) as (ck' & E' & H1 & H2).
  cbn [Nat.add] in N2. assert (ck' = ck) by congruence. subst. eauto.
Qed.
(* Without value axes there is nothing to iterate over: ValueError. *)
Theorem iter_scalar_raises : forall c ms, holds c [] ms -> c_iter c = Raise EValue.
Proof.
  intros c ms H. unfold c_iter. pose proof H as (Ho & Hs & L & M2 & P). rewrite Hs. cbn [app]. destruct ms as [|n ms]; [cbn in L; lia|].
  inversion M2 as [|? ? Hn _]; subst. destruct n as [|n]; [lia|]. cbn [seq mapR].
  assert (E : c_getitem c [KInt (Z.of_nat 0)] = Raise EValue); [|now rewrite E].
  destruct (np_getitem_int (c_obj c) (S n) ms 0 Hs ltac:(lia)) as (t' & Et & Ok' & St & Ft). unfold c_getitem. rewrite Et. cbn [rbind].
  destruct (c_check_like c t') as [[]|e] eqn:F; cbn [rbind]; [|now rewrite (check_like_err _ _ _ _ _ H F)].
  exfalso. apply (check_like_ok _ _ _ _ H) in F. destruct F as (vs' & F). rewrite St in F. apply (f_equal (@List.length nat)) in F. rewrite app_length in F. cbn in F. lia.
Qed.

Definition values_first : tensor := Tensor [3; 2; 2] (map (fun k => qz (Z.of_nat k)) (seq 0 12)).
Example init_ex :
  (exists c, c_init MPNone None (Some (IInt 0)) values_first = Ok c /\ c_shape c = [2; 2; 3] /\ mom_entry c [0; 1] [2] = tget values_first [2; 0; 1]) /\
  (exists c, c_init MPNone (Some 2%Z) (Some (IIter [0; 1]%Z)) values_first = Ok c /\ c_shape c = [2; 3; 2] /\ mom_entry c [1] [2; 0] = tget values_first [2; 0; 1]) /\
  c_init MPNone (Some 2%Z) (Some (IIter [0; -3]%Z)) values_first = Raise EValue /\
  c_init MPNone None None (Tensor [2; 1] [qz 1; qz 2]) = Raise EValue /\ c_init MPNone (Some 2%Z) None (Tensor [2] [qz 1; qz 2]) = Raise EValue.
Proof. repeat split; try (eexists; repeat split; reflexivity); reflexivity. Qed.
Example getitem_ex : let c := CM (Tensor [3; 2; 2] (tdata values_first)) (AP (Some 1%Z) (Some [-1]%Z)) in
  holds c [3; 2] [2] /\
  (exists c', c_getitem c [KInt (-1)%Z] = Ok c' /\ c_shape c' = [2; 2] /\ mom_entry c' [1] [0] = mom_entry c [2; 1] [0]) /\
  (exists c', c_getitem c [KSlice None None (Some (-2)%Z); KNew] = Ok c' /\ c_shape c' = [2; 1; 2; 2] /\ mom_entry c' [1; 0; 1] [0] = mom_entry c [0; 1] [0]) /\
  (exists c', c_getitem c [KDots; KInt 0; full] = Ok c' /\ c_shape c' = [3; 2] /\ mom_entry c' [1] [0] = mom_entry c [1; 0] [0]) /\
  c_getitem c [KInt 3] = Raise EIndex /\ c_getitem c [full; full; KInt 0; KInt 0] = Raise EIndex /\ c_getitem c [full; KInt 0; KInt 0] = Raise EValue.
Proof. cbv zeta. split; [repeat split; cbn; auto; repeat constructor; lia|]. repeat split; try (eexists; repeat split; reflexivity); reflexivity. Qed.
Example iter_ex : let c := CM (Tensor [3; 2; 2] (tdata values_first)) (AP (Some 1%Z) (Some [-1]%Z)) in
  (exists a b d, c_iter c = Ok [a; b; d] /\ mom_entry b [1] [0] = mom_entry c [1; 1] [0]) /\ c_iter (CM (Tensor [2] [qz 1; qz 2]) (AP (Some 1%Z) (Some [-1]%Z))) = Raise EValue.
Proof. cbv zeta. split; [repeat eexists; reflexivity|reflexivity]. Qed.
