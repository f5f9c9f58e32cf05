(* vals_to_data: arrays of values become arrays of moments of one sample each. *)
From Coq Require Import Permutation String.
From Verif Require Import Base BaseLemmas ModelPush ModelKernels ModelIndex ModelAccum ModelAxes ModelState ModelParams ModelNd ModelWrap ModelMethods ModelMoments
  Spec SpecAxes SpecNd SpecMethods SpecMoments Laws ProofPush ProofPushCov ProofKernels ProofSpec ProofAxes ProofArrays ProofMulti PropAxes ProofNd PropReduce PropNd PropNdVals PropNdUse PropWrap ProofMethods PropMethods
  PropMethodsUse ProofMoments PropMoments PropSelect PropAssign.
Local Notation length := List.length (only parsing).
Local Open Scope string_scope.
Local Open Scope list_scope.

Lemma broadcasts_perm l l' c : (forall s, In s l <-> In s l') -> broadcasts l c -> broadcasts l' c.
Proof.
  intros E (A & B & C). split; [intros s Hs; apply A, E, Hs|]. split.
  - destruct B as [B|(s & Hs & B)]; [now left|right; exists s; split; [now apply E|exact B]].
  - intros k Hk. destruct (C k Hk) as (C1 & C2). split; [intros s Hs; apply C1, E, Hs|]. destruct C2 as [C2|(s & Hs & C2)]; [now left|right; exists s; split; [now apply E|exact C2]].
Qed.
Lemma broadcasts_fits l loop v : broadcasts l loop -> In (tshape v) l -> fits_over loop v.
Proof.
  intros (A & _ & C) I. unfold fits_over, tndim. specialize (A _ I). replace (length (tshape v) - length loop) with 0 by lia. split; [constructor|].
  intros k Hk. now apply (proj1 (C k Hk)).
Qed.
Lemma value_over_on l loop v p : broadcasts l loop -> In (tshape v) l -> valid loop p -> value_over v p = value_on v p.
Proof.
  intros (A & _) I V. unfold value_over. rewrite (valid_length _ _ V). unfold tndim. specialize (A _ I). replace (length (tshape v) - length loop) with 0 by lia. cbn [skipn]. now destruct v.
Qed.

(* the array keeps its shape, the named moment gets its value: one name of a fixed moment *)
Lemma assign_fixed squeeze name loop ms at_ t v : tensor_ok t -> tshape t = loop ++ ms -> length ms = 1 \/ length ms = 2 -> all_positive ms ->
  In (name, ([], fun _ => at_)) (moment_names squeeze ms) -> valid ms at_ -> fits_over loop v ->
  exists out, assign_moment_nd [(name, v)] (axes_last (length ms)) squeeze t = Ok out /\ tensor_ok out /\ tshape out = loop ++ ms /\
    forall p m, valid loop p -> valid ms m -> tget out (p ++ m) = if list_eq_dec Nat.eq_dec m at_ then value_over v p else tget t (p ++ m).
Proof.
  intros Tt St Lm AP HN VA F. pose proof (last_moment_axes loop ms t Tt St) as MA. destruct (last_shapes loop ms t St) as [SL SM].
  destruct (assign_moment_entries (axes_last (length ms)) (seq (length loop) (length ms)) (seq 0 (length loop)) t MA) with (name := name) (squeeze := squeeze) (qs := @nil nat)
    (at_ := fun _ : list nat => at_) (v := v) as (out & Eo & MO & So & G1 & G2).
  - now rewrite seq_length.
  - now rewrite SM.
  - now rewrite SM.
  - rewrite SM. intros q _. exact VA.
  - rewrite SL, app_nil_r. exact F.
  - exists out. split; [exact Eo|]. split; [apply MO|]. rewrite St in So. split; [exact So|]. rewrite SL, SM in *. intros p m Vp Vm.
    pose proof (valid_length _ _ Vp) as Lp. pose proof (valid_length _ _ Vm) as Lmm.
    rewrite <- (last_moment_entry loop ms out p m So Lp Lmm). destruct (list_eq_dec Nat.eq_dec m at_) as [->|Ne].
    + rewrite (G1 p []) by (assumption || constructor). now rewrite app_nil_r.
    + rewrite G2; [now apply last_moment_entry|assumption|assumption|]. intros _ _ E. now apply Ne.
Qed.

Lemma axes_last_length n : length (axes_last n) = n.
Proof. unfold axes_last. now rewrite map_length, seq_length. Qed.
Definition mom_positive (ns : list nat) : Prop := (length ns = 1 \/ length ns = 2) /\ Forall (fun n => 1 <= n) ns.
Lemma mom_read ns : mom_positive ns -> array_factory_mom (IIter (map Z.of_nat ns)) MPNone None None
  = Ok (map Z.of_nat ns, AP (Some (Z.of_nat (length ns))) (Some (axes_last (length ns)))).
Proof.
  intros (Hl & Hp). unfold array_factory_mom, validate_mom, is_mom_tuple. rewrite map_length.
  assert (FP : forallb (fun m => (0 <? m)%Z) (map Z.of_nat ns) = true).
  { clear -Hp. induction Hp as [|n ns Hn Hp IH]; [reflexivity|]. cbn [map forallb]. rewrite IH. apply andb_true_intro. split; [apply Z.ltb_lt; lia|reflexivity]. }
  destruct ns as [|n [|n' [|]]]; cbn [length] in Hl; try (exfalso; lia); rewrite FP; reflexivity.
Qed.
Lemma mom_shape_read ns : map (fun m => Z.to_nat (m + 1)) (map Z.of_nat ns) = map S ns.
Proof. rewrite map_map. apply map_ext. intros n. lia. Qed.

(* C124: the entries of the result *)
Theorem vals_to_data_entries : forall ns x w y loop, mom_positive ns -> S (length y) = length ns -> broadcasts (map tshape (x :: w :: y)) loop ->
  exists out, vals_to_data_nd (IIter (map Z.of_nat ns)) MPNone x w y = Ok out /\ tensor_ok out /\ tshape out = loop ++ map S ns /\
    forall p m, valid loop p -> valid (map S ns) m ->
      tget out (p ++ m) = one_sample_moment (map (fun t => value_on t p) (x :: y)) (value_on w p) m.
Proof.
  intros ns x w y loop HM HY HB. unfold vals_to_data_nd. rewrite (mom_read ns HM). cbn [rbind iter_axes ap_axes].
  assert (LA : length (axes_last (length ns)) = length ns) by apply axes_last_length. rewrite LA, HY, Nat.eqb_refl. cbn [negb].
  assert (BS : broadcast_shapes (map tshape (x :: y ++ [w])) = Ok loop).
  { apply broadcast_shapes_ok. apply (broadcasts_perm (map tshape (x :: w :: y))); [|exact HB]. intros s. rewrite !in_map_iff.
    split; intros (t & E & I); exists t; (split; [exact E|]); cbn [In] in *; rewrite ?in_app_iff in *; cbn [In] in *; tauto. }
  rewrite BS. cbn [rbind]. rewrite mom_shape_read. set (z := tabulate _ _). set (ms := map S ns).
  assert (Lm : length ms = length ns) by (unfold ms; now rewrite map_length).
  assert (Tz : tensor_ok z) by apply tabulate_ok. assert (Sz : tshape z = loop ++ ms) by reflexivity.
  assert (Gz : forall p m, valid loop p -> valid ms m -> tget z (p ++ m) = 0%Qc) by (intros p m Vp Vm; unfold z; rewrite tget_tabulate; [reflexivity|now apply Forall2_app]).
  assert (AP : all_positive ms) by (unfold all_positive, ms; apply Forall_forall; intros n Hn; apply in_map_iff in Hn; destruct Hn as (k & <- & _); lia).
  assert (L12 : length ms = 1 \/ length ms = 2) by (rewrite Lm; apply HM).
  assert (IX : In (tshape x) (map tshape (x :: w :: y))) by (now left).
  assert (IW : In (tshape w) (map tshape (x :: w :: y))) by (right; now left).
  assert (FX : fits_over loop x) by (exact (broadcasts_fits _ _ _ HB IX)). assert (FW : fits_over loop w) by (exact (broadcasts_fits _ _ _ HB IW)).
  rewrite <- Lm. destruct HM as (Hl & Hp).
  destruct ns as [|n0 [|n1 [|]]]; cbn [length] in Hl; try (exfalso; lia).
  - (* one variable *)
    destruct y as [|]; [|discriminate]. cbn [map app]. inversion Hp as [|? ? P0 _]; subst.
    destruct (assign_fixed true "weight" loop ms [0] z w Tz Sz L12 AP) as (z1 & E1 & T1 & S1 & G1); [cbn; tauto|unfold ms; cbn [map]; repeat (apply Forall2_cons; [lia|]); apply Forall2_nil|exact FW|].
    destruct (assign_fixed true "xave" loop ms [1] z1 x T1 S1 L12 AP) as (z2 & E2 & T2 & S2 & G2); [cbn; tauto|unfold ms; cbn [map]; repeat (apply Forall2_cons; [lia|]); apply Forall2_nil|exact FX|].
    exists z2. change [("weight", w); ("xave", x)] with ([("weight", w)] ++ [("xave", x)]).
    rewrite (assign_moment_sequence _ _ _ z (last_moment_axes loop ms z Tz Sz)), E1. cbn [rbind]. split; [exact E2|]. split; [exact T2|]. split; [exact S2|].
    intros p m Vp Vm. rewrite G2, G1, Gz, (value_over_on _ _ x p HB IX Vp), (value_over_on _ _ w p HB IW Vp) by assumption.
    inversion Vm as [|? i ? m' Hi Vm']; subst. inversion Vm'; subst. destruct i as [|[|i]]; reflexivity.
  - (* two variables *)
    destruct y as [|y0 [|]]; try discriminate. cbn [map app]. inversion Hp as [|? ? P0 Hp']; subst. inversion Hp' as [|? ? P1 _]; subst.
    assert (IY : In (tshape y0) (map tshape [x; w; y0])) by (right; right; now left). assert (FY : fits_over loop y0) by (exact (broadcasts_fits _ _ _ HB IY)).
    destruct (assign_fixed true "weight" loop ms [0; 0] z w Tz Sz L12 AP) as (z1 & E1 & T1 & S1 & G1); [cbn; tauto|unfold ms; cbn [map]; repeat (apply Forall2_cons; [lia|]); apply Forall2_nil|exact FW|].
    destruct (assign_fixed true "xave" loop ms [1; 0] z1 x T1 S1 L12 AP) as (z2 & E2 & T2 & S2 & G2); [cbn; tauto|unfold ms; cbn [map]; repeat (apply Forall2_cons; [lia|]); apply Forall2_nil|exact FX|].
    destruct (assign_fixed true "yave" loop ms [0; 1] z2 y0 T2 S2 L12 AP) as (z3 & E3 & T3 & S3 & G3); [cbn; tauto|unfold ms; cbn [map]; repeat (apply Forall2_cons; [lia|]); apply Forall2_nil|exact FY|].
    exists z3. change [("weight", w); ("xave", x); ("yave", y0)] with ([("weight", w)] ++ [("xave", x)] ++ [("yave", y0)]).
    rewrite (assign_moment_sequence _ _ _ z (last_moment_axes loop ms z Tz Sz)), E1. cbn [rbind].
    rewrite (assign_moment_sequence _ _ _ z1 (last_moment_axes loop ms z1 T1 S1)), E2. cbn [rbind]. split; [exact E3|]. split; [exact T3|]. split; [exact S3|].
    intros p m Vp Vm. rewrite G3, G2, G1, Gz, (value_over_on _ _ x p HB IX Vp), (value_over_on _ _ w p HB IW Vp), (value_over_on _ _ y0 p HB IY Vp) by assumption.
    inversion Vm as [|? i ? m' Hi Vm']; subst. inversion Vm' as [|? j ? m'' Hj Vm'']; subst. inversion Vm''; subst. destruct i as [|[|i]], j as [|[|j]]; reflexivity.
Qed.

(* values that do not broadcast, a wrong number of values *)
Theorem vals_to_data_refused : forall ns x w y, mom_positive ns ->
  (forall loop, ~ broadcasts (map tshape (x :: w :: y)) loop) \/ S (length y) <> length ns ->
  vals_to_data_nd (IIter (map Z.of_nat ns)) MPNone x w y = Raise EValue.
Proof.
  intros ns x w y HM HC. unfold vals_to_data_nd. rewrite (mom_read ns HM). cbn [rbind iter_axes ap_axes].
  rewrite axes_last_length. destruct (Nat.eqb_spec (S (length y)) (length ns)) as [E|]; [|reflexivity]. cbn [negb]. destruct HC as [HB|]; [|contradiction].
  destruct (broadcast_shapes _) as [c|e] eqn:B; cbn [rbind].
  - exfalso. apply (HB c). apply broadcast_shapes_ok in B. revert B. apply broadcasts_perm. intros s. rewrite !in_map_iff.
    split; intros (t & Et & I); exists t; (split; [exact Et|]); cbn [In] in *; rewrite ?in_app_iff in *; cbn [In] in *; tauto.
  - f_equal. exact (proj1 (broadcast_shapes_raises _ _ B)).
Qed.

(* ---- the moments of one sample are a push of that sample --------------------------------- *)

Lemma point_of {A V} (K : pusher A V) ok P R : values_array K ok P R ->
  exists pt : V -> Qc -> A, (forall v w o, p_push_val K v w o = p_push_data K (pt v w) o) /\
    (forall xw, reduce_vals K xw = reduce_data K (map (fun p => pt (fst p) (snd p)) xw)) /\
    forall vs w f, length vs = length (pk_shape P) -> (forall m, valid (pk_shape P) m -> f m = one_sample_moment vs w m) -> pk_pack P f = pt (rd_val R vs) w.
Proof.
  intros VA. destruct VA as [nmax n Hn|nmax n0 n1 H0 H1].
  - exists (point1 n). split; [exact (l_val _ _ (laws1 nmax n Hn))|]. split.
    + intros xw. exact (reduce_vals_points (laws1 nmax n Hn) xw).
    + intros vs w f Lv E. cbn [packer1 pk_shape pk_pack reader1 rd_val] in *. destruct vs as [|x [|]]; try discriminate. cbn [nth].
      apply (nth_ext _ _ 0%Qc 0%Qc).
      { rewrite map_length, seq_length. unfold point1. cbn [length]. rewrite zeros1_length. lia. }
      intros k Hk. rewrite map_length, seq_length in Hk. rewrite (nth_map_in _ _ _ _ 0) by (now rewrite seq_length). rewrite seq_nth by exact Hk. cbn [plus].
      rewrite E by (apply Forall2_cons; [exact Hk|apply Forall2_nil]). unfold point1. destruct k as [|[|k]]; try reflexivity. cbn [nth]. unfold zeros1.
      symmetry. apply nth_repeat.
  - exists (point2 n0 n1). split; [exact (l_val _ _ (laws2 nmax n0 n1 H0 H1))|]. split.
    + intros xw. exact (reduce_vals_points (laws2 nmax n0 n1 H0 H1) xw).
    + intros vs w f Lv E. cbn [packer2 pk_shape pk_pack reader2 rd_val] in *. destruct vs as [|x [|y [|]]]; try discriminate. cbn [nth].
      apply (arr2_ext (S n0) (S n1)); [apply (ma_pack_ok _ _ _ (ma_two nmax n0 n1 H0 H1))|apply point2_wf|].
      intros i j Hi Hj. rewrite get2_point2 by lia.
      transitivity (f [i; j]).
      { exact (ma_unpack_pack _ _ _ (ma_two nmax n0 n1 H0 H1) f [i; j] ltac:(repeat (apply Forall2_cons; [assumption|]); apply Forall2_nil)). }
      rewrite E by (repeat (apply Forall2_cons; [assumption|]); apply Forall2_nil).
      destruct i as [|[|i]], j as [|[|j]]; reflexivity.
Qed.

Lemma nested_stretch l loop s sd p : broadcasts l sd -> In s l -> broadcasts [sd; loop] loop -> valid loop p ->
  stretched s (stretched sd p) = stretched s p.
Proof.
  intros B I B2 V. pose proof (valid_length _ _ V) as Lp. assert (L1 : length s <= length sd) by (now apply B). assert (L2 : length sd <= length loop) by (apply B2; now left).
  apply (nth_ext _ _ 0 0); [rewrite !stretched_length; rewrite ?stretched_length; lia|].
  intros k Hk. rewrite stretched_length in Hk by (rewrite stretched_length; lia).
  rewrite !stretched_nth by (rewrite ?stretched_length; lia). destruct (Nat.eqb_spec (nth k s 0) 1) as [E|E]; [reflexivity|].
  rewrite stretched_length by lia.
  destruct (broadcasts_nth _ _ _ _ B I Hk) as [Ek|Ek]; [|contradiction].
  destruct (Nat.eqb_spec (nth (length sd - length s + k) sd 0) 1) as [E1|E1]; [congruence|]. f_equal. lia.
Qed.
Lemma broadcasts_both l s sd loop : broadcasts l sd -> broadcasts [sd; s] loop -> broadcasts (l ++ [s]) loop /\ broadcasts [sd; loop] loop.
Proof.
  intros (A & B & C) (A2 & B2 & C2). pose proof (A2 sd (or_introl eq_refl)) as L1. pose proof (A2 s (or_intror (or_introl eq_refl))) as L2. split.
  - split; [|split].
    + intros x Hx. apply in_app_iff in Hx. destruct Hx as [Hx|[<-|[]]]; [specialize (A x Hx); lia|exact L2].
    + destruct B2 as [->|(x & [<-|[<-|[]]] & E)]; [now left| |right; exists s; split; [apply in_app_iff; right; now left|exact E]].
      destruct B as [->|(x & Hx & E')].
      * left. destruct loop; [reflexivity|discriminate].
      * right. exists x. split; [apply in_app_iff; now left|congruence].
    + intros k Hk. destruct (C2 k Hk) as (C3 & C4). split.
      * intros x Hx. apply in_app_iff in Hx. destruct Hx as [Hx|[<-|[]]]; [|apply C3; right; now left].
        destruct (Nat.lt_ge_cases k (length sd)) as [Lt|Ge].
        -- destruct (proj1 (C k Lt) x Hx) as [E|E]; [|now right]. destruct (C3 sd (or_introl eq_refl)) as [E2|E2]; [left|right]; congruence.
        -- right. apply from_end_out. specialize (A x Hx). lia.
      * destruct C4 as [C4|(x & [<-|[<-|[]]] & E)]; [now left| |right; exists s; split; [apply in_app_iff; right; now left|exact E]].
        destruct (Nat.lt_ge_cases k (length sd)) as [Lt|Ge].
        -- destruct (proj2 (C k Lt)) as [E'|(x & Hx & E')]; [left; congruence|right; exists x; split; [apply in_app_iff; now left|congruence]].
        -- left. rewrite <- E. now apply from_end_out.
  - split; [|split].
    + intros x [<-|[<-|[]]]; lia.
    + right. exists loop. split; [right; now left|reflexivity].
    + intros k Hk. split; [|right; exists loop; split; [right; now left|reflexivity]]. intros x [<-|[<-|[]]]; [|now left]. apply (proj1 (C2 k Hk)). now left.
Qed.
Lemma run_ops_same {A V} (K : pusher A V) {X} (f g : X -> push_op) l a : (forall x o, In x l -> run_op K o (f x) = run_op K o (g x)) ->
  run_ops K (map f l) a = run_ops K (map g l) a.
Proof.
  unfold run_ops. revert a. induction l as [|x l IH]; intros a H; [reflexivity|]. cbn [map foldM]. rewrite (H x a (or_introl eq_refl)).
  destruct (run_op K a (g x)); cbn [obind]; [|reflexivity]. apply IH. intros y o Hy. apply H. now right.
Qed.
Lemma objects_same {A V} (K : pusher A V) ok P : moment_array K ok P -> forall s c c', holds c s (pk_shape P) -> holds c' s (pk_shape P) ->
  (forall p, valid s p -> mom_cell P (c_obj c) p = mom_cell P (c_obj c') p) -> c = c'.
Proof.
  intros MA s [t pa] [t' pa'] (T1 & S1 & _ & _ & P1) (T2 & S2 & _ & _ & P2) E. unfold c_shape in *. cbn [c_obj c_params] in *. f_equal; [|congruence].
  apply tensor_ext; [exact T1|exact T2|congruence|]. intros idx Vi. rewrite S1 in Vi. destruct (valid_split _ _ _ Vi) as (p & m & -> & Vp & Vm).
  specialize (E p Vp). unfold mom_cell in E. pose proof (ma_unpack_pack K ok P MA (fun m => tget t (p ++ m)) m Vm) as U1.
  pose proof (ma_unpack_pack K ok P MA (fun m => tget t' (p ++ m)) m Vm) as U2. cbv beta in U1, U2. congruence.
Qed.

(* orders of the moments of P, as the argument mom *)
Definition orders {A} (P : packer A) : list nat := map (fun n => n - 1) (pk_shape P).
Lemma orders_ok {A V} (K : pusher A V) ok P R : values_array K ok P R -> mom_positive (orders P) /\ map S (orders P) = pk_shape P /\ length (orders P) = length (pk_shape P).
Proof.
  intros VA. split; [|split; [|apply map_length]].
  - destruct VA; (split; [cbn; auto|]); cbn; repeat (apply Forall_cons; [lia|]); apply Forall_nil.
  - destruct VA; cbn; repeat f_equal; lia.
Qed.

(* C124: pushing the moments of one sample each is pushing the values *)
Theorem push_of_vals_to_data : forall {A V} (K : pusher A V) ok P R, values_array K ok P R ->
  forall stretch c s x w y sd loop, holds c s (pk_shape P) -> S (length y) = length (pk_shape P) -> Forall tensor_ok (x :: w :: y) ->
  broadcasts (map tshape (x :: w :: y)) sd -> broadcasts [sd; s] loop -> stretch = true \/ loop = s ->
  exists d, vals_to_data_nd (IIter (map Z.of_nat (orders P))) MPNone x w y = Ok d /\
    c_push_data K P stretch c d None = c_push_val K P R stretch c x w y.
Proof.
  intros A V K ok P R VA stretch c s x w y sd loop HC HY HT HB HL HS. destruct (orders_ok K ok P R VA) as (OP & OS & OL).
  destruct (vals_to_data_entries (orders P) x w y sd OP) as (d & Ed & Td & Sd & Gd); [now rewrite OL|exact HB|]. rewrite OS in Sd, Gd. exists d. split; [exact Ed|].
  destruct (broadcasts_both _ _ _ _ HB HL) as [HB2 HL2].
  pose proof (push_call_by_positions K ok P R VA stretch c s loop HC HS (CallData d None) _ (at_data P R s loop d sd Td Sd HL)) as X.
  pose proof (push_call_by_positions K ok P R VA stretch c s loop HC HS (CallVal x w y) _ (at_val P R s loop x w y HY HT HB2)) as Y.
  unfold runs_at in X, Y. cbn [run_call] in X, Y. destruct (point_of K ok P R VA) as (pt & PV & _ & PC).
  set (at1 := fun l => PushData (mom_cell P d (stretched sd l))) in X. set (at2 := fun l => PushVal (rd_val R (map (fun t => value_on t l) (x :: y))) (value_on w l)) in Y.
  assert (SAME : forall p, run_ops K (map at1 (landing s loop p)) (mom_cell P (c_obj c) p) = run_ops K (map at2 (landing s loop p)) (mom_cell P (c_obj c) p)).
  { intros p. apply run_ops_same. intros l o Hl. apply landing_In in Hl. destruct Hl as [Vl _]. unfold at1, at2. cbn [run_op]. rewrite PV. f_equal.
    assert (Vs : valid sd (stretched sd l)) by (eapply stretched_valid; [exact HL|now left|exact Vl]).
    unfold mom_cell. apply PC; [now rewrite map_length|]. intros m Vm. rewrite Gd by assumption.
    assert (VO : forall t, In t (x :: w :: y) -> value_on t (stretched sd l) = value_on t l).
    { intros t It. unfold value_on. f_equal. apply (nested_stretch (map tshape (x :: w :: y)) loop); auto. now apply in_map. }
    rewrite (VO w) by (right; now left). f_equal. apply map_ext_in. intros t [<-|It]; apply VO; [now left|right; now right]. }
  destruct (c_push_data K P stretch c d None) as [c1|e1], (c_push_val K P R stretch c x w y) as [c2|e2].
  - f_equal. destruct X as [H1 X], Y as [H2 Y]. apply (objects_same K ok P (va_array _ _ _ _ VA) s); [exact H1|exact H2|]. intros p Vp.
    specialize (X p Vp). specialize (Y p Vp). rewrite SAME in X. congruence.
  - exfalso. destruct X as [_ X], Y as [_ (p & Vp & Y)]. specialize (X p Vp). rewrite SAME in X. congruence.
  - exfalso. destruct Y as [_ Y], X as [_ (p & Vp & X)]. specialize (Y p Vp). rewrite SAME in X. congruence.
  - destruct X as [-> _], Y as [-> _]. reflexivity.
Qed.

(* the sample axis seen from the array of shape s *)
Lemma sample_axis_length x others axis r s : samples_agree x others axis r -> broadcasts (map tshape (x :: others)) s ->
  (forall t, In t others -> tndim t <> 1 \/ r = 0) -> r < length s /\ dim_from_end x r = from_end s r.
Proof.
  intros (Tx & (a & Ha & Ea) & HO) (A & B & C) H1. assert (Lx : length (tshape x) <= length s) by (apply A; now left).
  assert (Rs : r < length s) by (unfold tndim in Ea; lia). split; [exact Rs|]. unfold dim_from_end.
  destruct (C r Rs) as (C1 & C2). destruct (C1 (tshape x) (or_introl eq_refl)) as [E|E]; [exact E|].
  destruct C2 as [C2|(q & Hq & C2)]; [congruence|]. apply in_map_iff in Hq. destruct Hq as (t & <- & [<-|It]); [exact C2|].
  destruct (HO t It) as (_ & [N0|[(N1 & D1)|(N2 & R2 & D2)]]).
  - rewrite E, <- C2. symmetry. apply from_end_out. unfold tndim in N0. lia.
  - destruct (H1 t It) as [X|X]; [contradiction|]. subst r. unfold dim_from_end in D1. congruence.
  - unfold dim_from_end in D2. congruence.
Qed.
(* a value of a sample is the value at its position *)
Lemma read_value_on l t r s env i : broadcasts l s -> In (tshape t) l -> r < length s -> i < from_end s r -> (tndim t <> 1 \/ r = 0) ->
  (tndim t = 0 \/ dim_from_end t r = from_end s r) ->
  read_value t r i (counted_from_end (length s) env) = value_on t (map (bind [length s - 1 - r] [i] env) (seq 0 (length s))).
Proof.
  intros B I Rs Hi H1 HD. assert (Lt : length (tshape t) <= length s) by (now apply B). unfold value_on. set (p := map _ _).
  assert (Lp : length p = length s) by (unfold p; now rewrite map_length, seq_length).
  assert (Np : forall k, k < length s -> nth k p 0 = if Nat.eqb k (length s - 1 - r) then i else env k).
  { intros k Hk. unfold p. rewrite (nth_map_in _ _ _ _ 0) by (now rewrite seq_length). rewrite seq_nth by exact Hk. cbn [plus]. unfold bind. cbn [combine find fst snd].
    rewrite Nat.eqb_sym. now destruct (Nat.eqb k (length s - 1 - r)). }
  unfold read_value. destruct (tndim t) as [|[|n]] eqn:Nt.
  - f_equal. destruct t as [[|? ?] ?]; [reflexivity|discriminate].
  - destruct H1 as [H1| ->]; [contradiction|]. destruct HD as [HD|HD]; [discriminate|]. f_equal. unfold tndim in Nt.
    apply (nth_ext _ _ 0 0); [rewrite stretched_length by lia; cbn; lia|]. intros k Hk. cbn [length] in Hk. assert (k = 0) by lia. subst k.
    rewrite stretched_nth by lia. rewrite Lp, Np by lia. rewrite Nt. replace (length s - 1 + 0) with (length s - 1 - 0) by lia. rewrite Nat.eqb_refl. cbn [nth].
    destruct (Nat.eqb_spec (nth 0 (tshape t) 0) 1) as [E|E]; [|reflexivity]. unfold dim_from_end, from_end in HD.
    destruct (tshape t) as [|u [|]]; try discriminate. cbn in HD, E. subst u. unfold from_end in Hi. lia.
  - f_equal. unfold tndim in Nt. destruct HD as [HD|HD]; [discriminate|]. set (m := S (S n)) in *.
    apply (nth_ext _ _ 0 0); [rewrite stretched_length, map_length, rev_length, seq_length by lia; lia|]. intros k Hk.
    rewrite map_length, rev_length, seq_length in Hk. rewrite (nth_map_in _ _ _ _ 0) by (rewrite rev_length, seq_length; exact Hk).
    rewrite rev_nth by (rewrite seq_length; exact Hk). rewrite seq_length, seq_nth by lia. cbn [plus].
    rewrite stretched_nth by lia. rewrite Lp, Np by lia. rewrite Nt.
    assert (DE : dim_from_end t (m - S k) = nth k (tshape t) 0).
    { unfold dim_from_end. rewrite from_end_nth by lia. f_equal. lia. }
    rewrite DE. destruct (Nat.eqb_spec (m - S k) r) as [E|E].
    + replace (length s - m + k) with (length s - 1 - r) by lia. rewrite Nat.eqb_refl. destruct (Nat.eqb_spec (nth k (tshape t) 0) 1) as [E1|E1]; [|reflexivity].
      rewrite <- DE, E, HD in E1. lia.
    + destruct (Nat.eqb_spec (nth k (tshape t) 0) 1) as [E1|E1]; [reflexivity|]. unfold counted_from_end.
      destruct (Nat.eqb_spec (length s - m + k) (length s - 1 - r)) as [E2|E2]; [lia|]. f_equal. lia.
Qed.

(* C124: reducing the moments of one sample each is reducing the values.  Arrays
   of one axis count as samples along the last axis, so they are only admitted
   when that is the sample axis *)
Theorem reduce_of_vals_to_data : forall {A V} (K : pusher A V) ok P R, values_array K ok P R ->
  forall axis axis' to_end r x w y s, values_ok P axis r x w y s -> broadcasts (map tshape (x :: w :: y)) s ->
  (forall t, In t (w :: y) -> tndim t <> 1 \/ r = 0) ->
  names_axis (length s + length (pk_shape P)) (length (pk_shape P)) axis' (length s - 1 - r) ->
  exists d, vals_to_data_nd (IIter (map Z.of_nat (orders P))) MPNone x w y = Ok d /\
    reduce_data_nd K P (axes_last (length (pk_shape P))) (Some [axis']) false to_end d = reduce_vals_nd K P R axis x w y.
Proof.
  intros A V K ok P R VA axis axis' to_end r x w y s HV HB H1 HX. pose proof HV as (HY & HA & _). destruct (orders_ok K ok P R VA) as (OP & OS & OL).
  destruct (vals_to_data_entries (orders P) x w y s OP) as (d & Ed & Td & Sd & Gd); [now rewrite OL|exact HB|]. rewrite OS in Sd, Gd. exists d. split; [exact Ed|].
  destruct (sample_axis_length x (w :: y) axis r s HA HB H1) as [Rs Dx].
  pose proof (va_array _ _ _ _ VA) as MA. destruct (point_of K ok P R VA) as (pt & _ & PR & PC).
  pose proof (reduce_vals_array K ok P R VA axis r x w y s HV) as Y. cbv zeta in Y.
  set (a := length s - 1 - r) in *. set (L := except_nat (seq 0 (length s)) [a]) in *. set (k := length (pk_shape P)) in *. set (M := seq (length s) k) in *.
  assert (Nd : tndim d = length s + k) by (unfold tndim; rewrite Sd, app_length; reflexivity).
  pose proof (last_moment_axes s (pk_shape P) d Td Sd) as (_ & AX & _). fold k in AX. fold M in AX.
  destruct (last_shapes s (pk_shape P) d Sd) as [SL SM]. fold k in SM. fold M in SM.
  assert (Na : ~ In a M) by (unfold M; intros C; apply in_seq in C; lia).
  assert (SHF : forall b, shape_of (frame s (pk_shape P)) b = shape_of d b) by (intros b; unfold shape_of, frame; cbn [tabulate tshape]; now rewrite Sd).
  assert (OAX : out_axes false to_end (tndim d) [a] M = L ++ M).
  { rewrite Nd. unfold out_axes. destruct to_end; rewrite seq_app, except_app; cbn [plus]; fold M.
    - rewrite (except_all _ M) by (intros b Hb; apply in_app_iff; now right). rewrite app_nil_r. f_equal.
      rewrite <- except_except. fold L. apply except_none. intros b Hb C. unfold L in Hb. apply except_In in Hb. destruct Hb as [Hb _]. unfold M in C. apply in_seq in Hb, C. lia.
    - f_equal. apply except_none. intros b Hb [E|[]]. subst b. contradiction. }
  pose proof (reduce_array_entries K ok P MA d (axes_last k) (Some [axis']) false to_end M [a] Td AX) as X.
  assert (NX : names_axes (tndim d) (length M) (Some [axis']) M [a]) by (rewrite Nd; unfold M; rewrite seq_length; repeat constructor; exact HX).
  specialize (X NX). assert (NM : NoDup (M ++ [a])) by (apply NoDup_app_; [apply seq_NoDup|repeat constructor; intros []|intros b Hb [<-|[]]; contradiction]).
  specialize (X NM ltac:(discriminate) SM).
  (* the rows are the samples *)
  assert (ROWS : forall env, inside (shape_of d) L env -> reduce_data K (rows_along P d [a] M env) = reduce_vals K (samples_in R x w y r s env)).
  { intros env IE. rewrite PR. f_equal. rewrite rows_one. unfold samples_in, samples_at. rewrite map_map. cbn [fst snd].
    assert (SA : shape_of d a = dim_from_end x r).
    { rewrite Dx, from_end_nth by exact Rs. unfold shape_of. rewrite Sd, app_nth1 by (unfold a; lia). reflexivity. }
    rewrite SA. apply map_ext_in. intros i Hi. apply in_seq in Hi. rewrite Dx in Hi. unfold moment_at. 
    assert (VP : valid s (map (bind [a] [i] env) (seq 0 (length s)))).
    { rewrite <- SL at 1. apply inside_valid. intros b Hb. apply in_seq in Hb. unfold bind. cbn [combine find fst snd]. destruct (Nat.eqb_spec a b) as [<-|E].
      - cbn [snd]. rewrite SA, Dx. lia.
      - apply IE. unfold L. apply except_In. split; [apply in_seq; lia|]. intros [C|[]]. contradiction. }
    assert (RV : forall t, In t (x :: w :: y) -> read_value t r i (counted_from_end (length s) env) = value_on t (map (bind [a] [i] env) (seq 0 (length s)))).
    { intros t It. apply (read_value_on (map tshape (x :: w :: y))); [exact HB|now apply in_map|exact Rs|lia| |].
      - destruct It as [<-|It]; [|now apply H1]. destruct HA as (_ & (b & _ & Eb) & _). destruct (Nat.eq_dec (tndim x) 1); [right; lia|now left].
      - destruct It as [<-|It]; [now right|]. destruct (proj2 (proj2 HA) t It) as (_ & [N0|[(N1 & D1)|(N2 & R2 & D2)]]); [now left| |right; congruence].
        right. destruct (H1 t It) as [C|C]; [contradiction|]. subst r. congruence. }
    rewrite (RV w) by (right; now left). rewrite (map_ext_in _ (fun t => value_on t (map (bind [a] [i] env) (seq 0 (length s)))) (x :: y))
      by (intros t [<-|It]; apply RV; [now left|right; now right]).
    apply PC; [rewrite map_length; exact HY|]. intros m Vm. rewrite <- Gd by assumption. unfold entry. f_equal. rewrite Nd, seq_app, map_app. cbn [plus]. fold M. f_equal.
    - apply map_ext_in. intros b Hb. apply bind_out. intros C. unfold M in C. apply in_seq in Hb, C. lia.
    - apply map_bind; [apply seq_NoDup|]. unfold M. rewrite seq_length. exact (valid_length _ _ Vm). }
  assert (PM : Forall (fun n => 1 <= n) (pk_shape P)) by (destruct VA; cbn; repeat (apply Forall_cons; [lia|]); apply Forall_nil).
  assert (LM : forall b, In b L -> ~ In b M) by (intros b Hb C; unfold L in Hb; apply except_In in Hb; destruct Hb as [Hb _]; unfold M in C; apply in_seq in Hb, C; lia).
  assert (EXC : forall env, inside (shape_of d) L env -> exists env', inside (shape_of d) (L ++ M) env' /\ reduce_vals K (samples_in R x w y r s env') = reduce_vals K (samples_in R x w y r s env)).
  { intros env IE. exists (bind M (map (fun _ => 0) M) env).
    assert (IE' : inside (shape_of d) L (bind M (map (fun _ => 0) M) env)) by (intros b Hb; rewrite bind_out by (now apply LM); now apply IE).
    split.
    - intros b Hb. apply in_app_iff in Hb. destruct Hb as [Hb|Hb]; [now apply IE'|]. rewrite bind_in; [|apply seq_NoDup|now rewrite map_length|exact Hb].
      rewrite (nth_map_in _ _ _ _ 0) by (apply index_of_lt; exact Hb).
      assert (In (shape_of d b) (pk_shape P)) by (rewrite <- SM; now apply in_map). rewrite Forall_forall in PM. specialize (PM _ H). lia.
    - rewrite <- !ROWS by assumption. f_equal. rewrite !rows_one. apply map_ext_in. intros i Hi. unfold moment_at. apply (proj1 (ma_packer _ _ _ MA)).
      intros m Vm. unfold entry. f_equal. apply map_ext_in. intros b Hb. destruct (in_dec Nat.eq_dec b M) as [C|C].
      + apply bind_bound; [apply seq_NoDup| |exact C]. unfold M. rewrite seq_length. exact (valid_length _ _ Vm).
      + rewrite !(bind_out M) by exact C. unfold bind at 1 3. cbn [combine find fst snd]. destruct (Nat.eqb a b); [reflexivity|]. now apply bind_out. }
  assert (IX : forall env ax, inside (shape_of (frame s (pk_shape P))) ax env <-> inside (shape_of d) ax env).
  { intros env ax. unfold inside. split; intros H b Hb; specialize (H b Hb); [rewrite <- SHF|rewrite SHF]; exact H. }
  destruct X as [(out & Eo & X)|(Eo & env & IE & X)]; rewrite Eo.
  - unfold holds_reduction in X. cbv zeta in X. rewrite OAX in X. destruct X as (To & So & X).
    assert (SHX : forall b, In b (L ++ M) -> (if in_dec Nat.eq_dec b [a] then 1 else shape_of d b) = shape_of d b).
    { intros b Hb. destruct (in_dec Nat.eq_dec b [a]) as [[<-|[]]|]; [|reflexivity]. exfalso. apply in_app_iff in Hb. destruct Hb as [Hb|Hb]; [|contradiction].
      unfold L in Hb. apply except_In in Hb. apply (proj2 Hb). now left. }
    rewrite (map_ext_in _ (shape_of d) _ SHX) in So.
    assert (X' : forall env, inside (shape_of d) (L ++ M) env -> exists o, reduce_vals K (samples_in R x w y r s env) = Some o /\ tget out (map env (L ++ M)) = pk_unpack P o (map env M)).
    { intros env IE. destruct (X env) as (o & Er & Et); [intros b Hb; rewrite SHX by exact Hb; now apply IE|]. exists o. split; [|exact Et].
      rewrite <- ROWS; [exact Er|]. intros b Hb. apply IE. apply in_app_iff. now left. }
    destruct (reduce_vals_nd K P R axis x w y) as [out'|e].
    + f_equal. destruct Y as (To' & So' & Y). rewrite (map_ext _ _ SHF) in So'. apply tensor_ext; [exact To|exact To'|congruence|].
      intros idx Vi. rewrite So in Vi. assert (NL : NoDup (L ++ M)).
      { apply NoDup_app_; [apply NoDup_filter, seq_NoDup|apply seq_NoDup|exact LM]. }
      destruct (position_env (shape_of d) (L ++ M) idx NL Vi) as (env & IE & <-). destruct (X' env IE) as (o & E1 & E2).
      destruct (Y env) as (o' & E1' & E2'); [now apply IX|]. congruence.
    + exfalso. destruct Y as (_ & env & IE & Y). apply IX in IE. destruct (EXC env IE) as (env' & IE' & EE). destruct (X' env' IE') as (o & E1 & _). congruence.
  - assert (IL : inside (shape_of d) L env).
    { intros b Hb. apply IE. unfold L in Hb. apply except_In in Hb. apply except_In. destruct Hb as [Hb Hn]. split; [|exact Hn]. rewrite Nd. apply in_seq in Hb. apply in_seq. lia. }
    rewrite ROWS in X by exact IL. destruct (reduce_vals_nd K P R axis x w y) as [out'|e].
    + exfalso. destruct Y as (_ & _ & Y). destruct (EXC env IL) as (env' & IE' & EE). destruct (Y env') as (o & E1 & _); [now apply IX|]. congruence.
    + destruct Y as [-> _]. reflexivity.
Qed.
