(* Functions of arrays of values with nonnegative weights: what the entries of
   the results are. *)
From Verif Require Import Base BaseLemmas ModelPush ModelPushCov ModelKernels ModelIndex ModelAxes ModelNd Spec SpecAxes SpecNd
  ProofPush ProofPushCov Laws ProofKernels ProofSpec ProofReduce ProofIndex ProofLabels ProofAxes ProofArrays ProofMulti ProofNd
  PropReduce PropKernels PropIndex PropAxes PropNd PropNdUse ProofNdVals PropNdVals Checks.

Definition nonneg_entries (t : tensor) : Prop := all_nonneg (tdata t).

Lemma tget_nonneg t idx : nonneg_entries t -> (0 <= tget t idx)%Qc.
Proof.
  intros H. unfold tget. destruct (Nat.lt_ge_cases (ravel (tshape t) idx) (length (tdata t))) as [L|L].
  - unfold nonneg_entries, all_nonneg in H. rewrite Forall_forall in H. apply H, nth_In, L.
  - rewrite nth_overflow by exact L. apply Qcle_refl.
Qed.
Lemma read_nonneg t r i env : nonneg_entries t -> (0 <= read_value t r i env)%Qc.
Proof. intros H. unfold read_value. destruct (tndim t) as [|[|k]]; now apply tget_nonneg. Qed.
Lemma samples_nonneg {V} (R : reader V) x w y r s env : nonneg_entries w -> all_nonneg (map snd (samples_in R x w y r s env)).
Proof.
  intros H. unfold samples_in, samples_at. rewrite map_map. cbn [snd]. apply Forall_map, Forall_forall. intros i _. now apply read_nonneg.
Qed.
Lemma samples_count {V} (R : reader V) x w y r s env : length (samples_in R x w y r s env) = dim_from_end x r.
Proof. unfold samples_in, samples_at. now rewrite map_length, seq_length. Qed.

(* what reduce_vals says about nonnegative weights *)
Definition entry1 (s : list (Qc * Qc)) (k : nat) : Qc := match k with 0 => W1 s | 1 => mean1 s | _ => central1 s k end.
Lemma reduce_one nmax n s : 1 <= n <= nmax -> all_nonneg (map snd s) ->
  exists o, reduce_vals (pusher1 nmax n) s = Some o /\
    forall k, k <= n -> (W1 s <> 0%Qc -> getq o k = entry1 s k) /\ (W1 s = 0%Qc -> getq o k = 0%Qc).
Proof.
  intros Hn NN. pose proof (nonneg_running _ NN) as HR. destruct (Qc_eq_dec (W1 s) 0) as [Z|Z].
  - assert (Z' : all_zero (map snd s)) by (apply running_total0; [exact HR|now rewrite W1_map]).
    eexists. split; [exact (reduce_vals_no_weight nmax n s Hn Z')|]. intros k Hk. split; [contradiction|]. intros _. unfold getq, zeros1. apply nth_repeat.
  - destruct (reduce_vals_is_weighted_moments nmax n s Hn HR) as [_ E].
    { intros Z'. apply Z. rewrite <- W1_map. now apply all_zero_sum. }
    eexists. split; [exact E|]. intros k Hk. split; [|contradiction]. intros _. unfold getq, moments_of, entry1.
    destruct k as [|[|k]]; [reflexivity|reflexivity|]. cbn [nth]. rewrite (nth_map_in _ _ _ _ 0) by (rewrite seq_length; lia). now rewrite seq_nth by lia.
Qed.
Lemma reduce_two nmax n0 n1 s : 1 <= n0 <= nmax -> 1 <= n1 <= nmax -> all_nonneg (map snd s) ->
  exists o, reduce_vals (pusher2 nmax n0 n1) s = Some o /\
    forall i j, i <= n0 -> j <= n1 -> (W2 s <> 0%Qc -> get2 o i j = comoment_entry s i j) /\ (W2 s = 0%Qc -> get2 o i j = 0%Qc).
Proof.
  intros H0 H1 NN. pose proof (nonneg_running _ NN) as HR. destruct (Qc_eq_dec (W2 s) 0) as [Z|Z].
  - assert (Z' : all_zero (map snd s)) by (apply running_total0; [exact HR|now rewrite W2_map]).
    eexists. split; [exact (reduce_vals_pairs_no_weight nmax n0 n1 s H0 H1 Z')|]. intros i j Hi Hj. split; [contradiction|]. intros _.
    unfold get2, getq, zeros2. destruct (Nat.lt_ge_cases i (S n0)) as [L|L]; [|lia]. rewrite (nth_indep _ _ (zeros1 (S n1))) by (now rewrite repeat_length). rewrite nth_repeat. unfold zeros1. apply nth_repeat.
  - destruct (reduce_vals_pairs_is_weighted_comoments nmax n0 n1 s H0 H1 HR) as [_ E].
    { intros Z'. apply Z. rewrite <- W2_map. now apply all_zero_sum. }
    eexists. split; [exact E|]. intros i j Hi Hj. split; [|contradiction]. intros _. unfold get2, getq, comoments_of.
    rewrite (nth_map_in _ _ _ _ 0) by (rewrite seq_length; lia). rewrite seq_nth by lia.
    rewrite (nth_map_in _ _ _ _ 0) by (rewrite seq_length; lia). now rewrite seq_nth by lia.
Qed.
Lemma reduce_total {A V} (K : pusher A V) ok P R : values_array K ok P R -> forall s, all_nonneg (map snd s) -> exists o, reduce_vals K s = Some o.
Proof.
  intros HV. destruct HV as [nmax n Hn|nmax n0 n1 H0 H1]; intros s NN.
  - destruct (reduce_one nmax n s Hn NN) as (o & E & _). eauto.
  - destruct (reduce_two nmax n0 n1 s H0 H1 NN) as (o & E & _). eauto.
Qed.

(* reduce_vals: the moments of the samples of each position *)
Lemma reduce_vals_cells {A V} (K : pusher A V) ok P R : values_array K ok P R ->
  forall axis r x w y s, values_ok P axis r x w y s -> nonneg_entries w ->
  let L := except_nat (seq 0 (length s)) [length s - 1 - r] in
  exists out, reduce_vals_nd K P R axis x w y = Ok out /\ tensor_ok out /\
    tshape out = map (fun j => nth j s 0) L ++ pk_shape P /\
    forall env, inside (fun j => nth j s 0) L env -> forall c, valid (pk_shape P) c ->
      exists o, reduce_vals K (samples_in R x w y r s env) = Some o /\ tget out (map env L ++ c) = pk_unpack P o c.
Proof.
  intros HV axis r x w y s HO Hw L.
  pose proof HO as (_ & HA & HB). pose proof (values_axis axis s r x (w :: y) HA HB) as Hax.
  pose proof (reduce_vals_array _ _ _ _ HV axis r x w y s HO) as H. cbv zeta in H. fold L in H.
  assert (LI : forall j, In j L <-> j < length s /\ j <> length s - 1 - r) by exact (Lv_In (length s) s _ r eq_refl Hax).
  assert (SL : forall j, In j L -> shape_of (frame s (pk_shape P)) j = nth j s 0) by (intros j Hj; apply (frame_shape P s), LI, Hj).
  pose proof (frame_moments P s _ r Hax) as SM. set (M := seq (length s) (length (pk_shape P))) in *.
  assert (NM : NoDup M) by apply seq_NoDup.
  destruct (reduce_vals_nd K P R axis x w y) as [out|e].
  - destruct H as (H1 & H2 & H3). exists out. split; [reflexivity|]. split; [exact H1|]. split.
    { rewrite H2, map_app. f_equal; [now apply map_ext_in|exact SM]. }
    intros env I c Hc. assert (NLM : forall j, In j L -> ~ In j M) by (intros j Hj Hj'; apply LI in Hj; apply in_seq in Hj'; lia).
    pose proof Hc as Hc'. rewrite <- SM in Hc'. pose proof (valid_length _ _ Hc') as Lc. rewrite map_length in Lc.
    destruct (H3 (bind M c env)) as (o & Eo & Eg).
    { intros j Hj. apply in_app_or in Hj. destruct Hj as [Hj|Hj].
      - rewrite bind_out by (now apply NLM). rewrite SL by exact Hj. now apply I.
      - rewrite bind_in by assumption. now apply valid_nth_index. }
    exists o. split.
    + rewrite <- Eo. f_equal. apply (samples_in_ext P R axis r x w y s _ _ HO). intros b Hb _. rewrite bind_out; [reflexivity|]. intros X. apply in_seq in X. lia.
    + rewrite map_app, map_bind in Eg by assumption. rewrite <- Eg. f_equal. f_equal. apply map_ext_in. intros j Hj. rewrite bind_out; [reflexivity|now apply NLM].
  - exfalso. destruct H as (_ & env & I & E). destruct (reduce_total K ok P R HV _ (samples_nonneg R x w y r s env Hw)) as (o & Eo). congruence.
Qed.
Theorem reduce_vals_array_moments : forall nmax n, 1 <= n <= nmax ->
  forall axis r x w s, values_ok (packer1 n) axis r x w [] s -> nonneg_entries w ->
  let L := except_nat (seq 0 (length s)) [length s - 1 - r] in
  exists out, reduce_vals_nd (pusher1 nmax n) (packer1 n) reader1 axis x w [] = Ok out /\ tensor_ok out /\
    tshape out = map (fun j => nth j s 0) L ++ [S n] /\
    forall env, inside (fun j => nth j s 0) L env -> forall k, k <= n ->
      let samples := value_samples x w r s env in
      let v := tget out (map env L ++ [k]) in
      (W1 samples <> 0%Qc -> v = match k with 0 => W1 samples | 1 => mean1 samples | _ => central1 samples k end) /\
      (W1 samples = 0%Qc -> v = 0%Qc).
Proof.
  intros nmax n Hn axis r x w s HO Hw L. pose proof (va_one nmax n Hn) as HV.
  destruct (reduce_vals_cells _ _ _ _ HV axis r x w [] s HO Hw) as (out & E & H1 & H2 & H3). exists out.
  split; [exact E|]. split; [exact H1|]. split; [exact H2|]. intros env I k Hk samples v.
  destruct (H3 env I [k]) as (o & Eo & Ev); [constructor; [lia|constructor]|].
  destruct (reduce_one nmax n samples Hn (samples_nonneg reader1 x w [] r s env Hw)) as (o' & Eo' & G).
  change (reduce_vals (pusher1 nmax n) samples = Some o) in Eo. rewrite Eo in Eo'. injection Eo' as <-. fold L in Ev. fold v in Ev. rewrite Ev. exact (G k Hk).
Qed.
Theorem reduce_vals_array_comoments : forall nmax n0 n1, 1 <= n0 <= nmax -> 1 <= n1 <= nmax ->
  forall axis r x w y s, values_ok (packer2 n0 n1) axis r x w [y] s -> nonneg_entries w ->
  let L := except_nat (seq 0 (length s)) [length s - 1 - r] in
  exists out, reduce_vals_nd (pusher2 nmax n0 n1) (packer2 n0 n1) reader2 axis x w [y] = Ok out /\ tensor_ok out /\
    tshape out = map (fun j => nth j s 0) L ++ [S n0; S n1] /\
    forall env, inside (fun j => nth j s 0) L env -> forall i j, i <= n0 -> j <= n1 ->
      let samples := pair_samples x y w r s env in
      let v := tget out (map env L ++ [i; j]) in
      (W2 samples <> 0%Qc -> v = comoment_entry samples i j) /\ (W2 samples = 0%Qc -> v = 0%Qc).
Proof.
  intros nmax n0 n1 H0 Hb axis r x w y s HO Hw L. pose proof (va_two nmax n0 n1 H0 Hb) as HV.
  destruct (reduce_vals_cells _ _ _ _ HV axis r x w [y] s HO Hw) as (out & E & H1 & H2 & H3). exists out.
  split; [exact E|]. split; [exact H1|]. split; [exact H2|]. intros env I i j Hi Hj samples v.
  destruct (H3 env I [i; j]) as (o & Eo & Ev); [constructor; [lia|constructor; [lia|constructor]]|].
  destruct (reduce_two nmax n0 n1 samples H0 Hb (samples_nonneg reader2 x w [y] r s env Hw)) as (o' & Eo' & G).
  change (reduce_vals (pusher2 nmax n0 n1) samples = Some o) in Eo. rewrite Eo in Eo'. injection Eo' as <-. fold L in Ev. fold v in Ev. rewrite Ev. exact (G i j Hi Hj).
Qed.

(* ---- one result per sample or replicate ------------------------------------------------- *)

Definition value_entries {A T} (P : packer A) (d : T) (to_end : bool) (newlen r : nat) (s : list nat) (out : grid T)
    (Q : nat -> (nat -> nat) -> list nat -> T -> Prop) : Prop :=
  let a := length s - 1 - r in let M := seq (length s) (length (pk_shape P)) in
  all_entries d to_end newlen a M (frame s (pk_shape P)) out (fun env => Q (env a) env (map env M)).

Theorem resample_vals_array_weighted : forall {A V} (K : pusher A V) ok P R, values_array K ok P R ->
  forall freq axis to_end r x w y s, values_ok P axis r x w y s -> nonneg_entries w ->
  tensor_ok freq -> tndim freq = 2 -> shape_of freq 1 = dim_from_end x r -> nonneg_entries freq ->
  exists out, resample_vals_nd K P R freq axis to_end x w y = Ok out /\
    value_entries P 0%Qc to_end (shape_of freq 0) r s (of_tensor out) (fun i env c v =>
      exists o, reduce_vals K (map (fun p => (fst (snd p), snd (snd p) * fst p)%Qc) (combine (nth i (table freq) []) (samples_in R x w y r s env))) = Some o /\
        v = pk_unpack P o c).
Proof.
  intros A V K ok P R HV freq axis to_end r x w y s HO Hw Hf Hn Hc Hq. pose proof (va_array _ _ _ _ HV) as HM.
  destruct (resample_vals_array K ok P R HV freq axis to_end r x w y s HO Hf Hn) as [H _]. specialize (H Hc).
  unfold by_values_t, by_values in H.
  refine (cells_of_columns_t _ _ _ _ _ _ _ _ (fun env i o =>
    reduce_vals K (map (fun p => (fst (snd p), snd (snd p) * fst p)%Qc) (combine (nth i (table freq) []) (samples_in R x w y r s env))) = Some o) H _).
  intros env I. rewrite (resample_vals_is_weighted_reduction K ok (ma_kernel _ _ _ HM)).
  pose proof (samples_nonneg R x w y r s env Hw) as NN. set (xw := samples_in R x w y r s env) in *.
  assert (G : forall l, (forall row, In row l -> all_nonneg row) -> exists rows,
    mapM (fun row => reduce_vals K (map (fun p => (fst (snd p), snd (snd p) * fst p)%Qc) (combine row xw))) l = Some rows /\
    forall i b, nth_error rows i = Some b -> reduce_vals K (map (fun p => (fst (snd p), snd (snd p) * fst p)%Qc) (combine (nth i l []) xw)) = Some b).
  { induction l as [|row l IH]; intros Hl; [exists []; split; [reflexivity|intros [|i] b; discriminate]|].
    destruct IH as (rows & E1 & E2); [intros; apply Hl; now right|].
    destruct (reduce_total K ok P R HV (map (fun p => (fst (snd p), snd (snd p) * fst p)%Qc) (combine row xw))) as (o & Eo).
    { rewrite map_map. cbn [snd]. apply Forall_map, Forall_forall. intros [f [v q]] Hp. cbn [fst snd].
      pose proof (in_combine_l _ _ _ _ Hp) as P1. pose proof (in_combine_r _ _ _ _ Hp) as P2.
      specialize (Hl row (or_introl eq_refl)). unfold all_nonneg in Hl, NN. rewrite Forall_forall in Hl. rewrite Forall_map, Forall_forall in NN.
      specialize (NN _ P2). cbn in NN. specialize (Hl f P1). rewrite <- (Qcmult_0_l f). now apply Qcmult_le_compat_r. }
    exists (o :: rows). cbn [mapM]. rewrite Eo. cbn [obind]. rewrite E1. split; [reflexivity|]. intros [|i] b Hb; cbn [nth_error] in Hb; [injection Hb as <-; exact Eo|exact (E2 i b Hb)]. }
  destruct (G (table freq)) as (rows & E1 & E2).
  { intros row Hrow. unfold table in Hrow. apply in_map_iff in Hrow. destruct Hrow as (i & <- & _). apply Forall_map, Forall_forall. intros j _. now apply tget_nonneg. }
  exists rows. rewrite E1. split; [reflexivity|exact E2].
Qed.
Theorem jackknife_vals_array_leave_one_out : forall {A V} (K : pusher A V) ok P R, values_array K ok P R ->
  forall axis to_end r x w y s, values_ok P axis r x w y s -> nonneg_entries w ->
  (forall env, inside (fun j => nth j s 0) (except_nat (seq 0 (length s)) [length s - 1 - r]) env ->
     let samples := samples_in R x w y r s env in
     Forall (fun q => snd q = 0%Qc \/ suml (fun p => snd p) samples <> snd q) samples) ->
  exists out, jackknife_vals_nd K P R None axis to_end x w y = Ok out /\
    value_entries P 0%Qc to_end (dim_from_end x r) r s (of_tensor out) (fun i env c v =>
      exists o, reduce_vals K (without i (samples_in R x w y r s env)) = Some o /\ v = pk_unpack P o c).
Proof.
  intros A V K ok P R HV axis to_end r x w y s HO Hw HJ. pose proof (va_array _ _ _ _ HV) as HM.
  pose proof HO as (_ & HA & HB). pose proof (values_axis axis s r x (w :: y) HA HB) as Hax.
  pose proof (jackknife_vals_array K ok P R HV axis to_end r x w y s HO) as H. unfold by_values_t, by_values in H.
  refine (cells_of_columns_t _ _ _ _ _ _ _ _ (fun env i o => reduce_vals K (without i (samples_in R x w y r s env)) = Some o) H _).
  intros env I. pose proof (frame_loop P s _ r Hax) as FL. rewrite FL in I.
  destruct (jackknife_vals_leave_one_out K ok (ma_kernel _ _ _ HM) _ (samples_nonneg R x w y r s env Hw)) as (rows & E1 & E2 & E3).
  { apply HJ. intros j Hj. specialize (I j Hj). rewrite (frame_shape P s) in I; [exact I|]. apply (Lv_In (length s) s _ r eq_refl Hax) in Hj. tauto. }
  exists rows. rewrite E1. split; [reflexivity|]. intros i b Hb. pose proof (nth_error_Some rows i) as G. rewrite Hb in G.
  rewrite <- (nth_error_nth _ _ (p_zero K) Hb). apply E3. rewrite <- E2. apply G. discriminate.
Qed.
Theorem rolling_vals_array_windows : forall {A V} (K : pusher A V) ok P R, values_array K ok P R ->
  forall (window : nat) min_periods (center : bool) zero axis to_end r x w y s, values_ok P axis r x w y s -> nonneg_entries w -> 0 < window ->
  exists out, rolling_vals_nd K P R (Z.of_nat window) min_periods center zero axis to_end x w y = Ok out /\
    value_entries P None to_end (dim_from_end x r) r s out (fun i env c v =>
      let win := window_at window (i + if center then (window - 1) / 2 else 0) (samples_in R x w y r s env) in
      let need := Z.max (match min_periods with Some m => m | None => Z.of_nat window end) 1 in
      v = row_entry P zero (if (need <=? Z.of_nat (nonzero_count (map snd win)))%Z then reduce_vals K win else None) c).
Proof.
  intros A V K ok P R HV window mp center zero axis to_end r x w y s HO Hw Hwin. pose proof (va_array _ _ _ _ HV) as HM.
  destruct (rolling_vals_array K ok P R HV (Z.of_nat window) mp center zero axis to_end r x w y s HO ltac:(lia)) as [H _].
  specialize (H ltac:(lia)). rewrite Nat2Z.id in H. unfold by_values in H.
  set (need := Z.max (match mp with Some m => m | None => Z.of_nat window end) 1).
  destruct (cells_of_columns _ _ _ _ _ _ _ _ _ (fun env i c =>
    let win := window_at window (i + if center then (window - 1) / 2 else 0) (samples_in R x w y r s env) in
    c = if (need <=? Z.of_nat (nonzero_count (map snd win)))%Z then reduce_vals K win else None) H) as (out & E & H1 & H2 & H3).
  - intros env I. pose proof (samples_nonneg R x w y r s env Hw) as NN. destruct center.
    + destruct (rolling_vals_center_is_shifted_window K ok (ma_kernel _ _ _ HM) (rd_val R []) window mp _ Hwin NN) as (rows & E1 & E2 & E3).
      exists rows. split; [exact E1|]. intros i b Hb.
      pose proof (nth_error_Some rows i) as G. rewrite Hb in G. rewrite <- (nth_error_nth _ _ None Hb).
      unfold need. apply E3. rewrite <- E2. apply G. discriminate.
    + destruct (rolling_vals_rows_are_window_moments K ok (ma_kernel _ _ _ HM) (rd_val R [], 0%Qc) window (match mp with Some m => m | None => Z.of_nat window end) _ NN) as (rows & E1 & E2 & E3).
      exists rows. split; [now rewrite E1|]. intros i b Hb.
      pose proof (nth_error_Some rows i) as G. rewrite Hb in G. rewrite <- (nth_error_nth _ _ None Hb). rewrite Nat.add_0_r.
      unfold need. apply E3. rewrite <- E2. apply G. discriminate.
  - exists out. split; [exact E|]. split; [exact H1|]. split; [exact H2|]. intros env I. cbv zeta.
    destruct (H3 env I) as (b & F1 & F2). rewrite F2, F1. reflexivity.
Qed.
Theorem rolling_exp_vals_array_decayed : forall {A V} (K : pusher A V) ok P R, values_array K ok P R ->
  forall alpha adjust min_periods zero axis to_end r x w y s, values_ok P axis r x w y s -> nonneg_entries w ->
  samples_agree x (w :: alpha :: y) axis r -> broadcasts (map tshape (shaping x (w :: alpha :: y))) s ->
  let decay env i := read_value alpha r i (counted_from_end (length s) env) in
  (forall env i, inside (fun j => nth j s 0) (except_nat (seq 0 (length s)) [length s - 1 - r]) env -> i < dim_from_end x r ->
     (0 <= decay env i /\ decay env i <= 1 /\ (adjust = false -> decay env i <> 0))%Qc) ->
  exists out, rolling_exp_vals_nd K P R alpha adjust min_periods zero axis to_end x w y = Ok out /\
    value_entries P None to_end (dim_from_end x r) r s out (fun i env c v =>
      let samples := samples_in R x w y r s env in
      let need := Z.max 1 (match min_periods with Some m => m | None => 1%Z end) in
      let decayed := exp_samples adjust (combine (map (decay env) (seq 0 (dim_from_end x r))) samples) (rd_val R []) i in
      if (need <=? Z.of_nat (nonzero_count (map snd (firstn (S i) samples))))%Z
      then suml (fun p => snd p) decayed <> 0%Qc -> exists o, reduce_vals K decayed = Some o /\ v = Some (pk_unpack P o c)
      else v = row_entry P zero None c).
Proof.
  intros A V K ok P R HV alpha adjust mp zero axis to_end r x w y s HO Hw HA2 HB2 decay HD. pose proof (va_array _ _ _ _ HV) as HM.
  pose proof HO as (_ & HA & HB). pose proof (values_axis axis s r x (w :: y) HA HB) as Hax.
  pose proof (rolling_exp_vals_array K ok P R HV alpha adjust mp zero axis to_end r x w y s HO HA2 HB2) as H. unfold by_values in H.
  set (need := Z.max 1 (match mp with Some m => m | None => 1%Z end)).
  assert (EN : Z.max (match mp with None => 1%Z | Some k => Z.max 1 k end) 1 = need) by (unfold need; destruct mp; lia).
  destruct (cells_of_columns _ _ _ _ _ _ _ _ _ (fun env i c =>
    let samples := samples_in R x w y r s env in
    let decayed := exp_samples adjust (combine (map (decay env) (seq 0 (dim_from_end x r))) samples) (rd_val R []) i in
    if (need <=? Z.of_nat (nonzero_count (map snd (firstn (S i) samples))))%Z
    then exists q, c = Some q /\ (suml (fun p => snd p) decayed <> 0%Qc -> reduce_vals K decayed = Some q)
    else c = None) H) as (out & E & H1 & H2 & H3).
  - intros env I. pose proof (frame_loop P s _ r Hax) as FL. rewrite FL in I.
    pose proof (samples_nonneg R x w y r s env Hw) as NN. pose proof (samples_count R x w y r s env) as SC.
    set (xw := samples_in R x w y r s env) in *. change (fun i => read_value alpha r i (counted_from_end (length s) env)) with (decay env).
    set (al := map (decay env) (seq 0 (dim_from_end x r))).
    assert (Ll : length al = length xw) by (unfold al; rewrite map_length, seq_length; congruence).
    assert (ES : forall (l : list Qc) (q : list (V * Qc)), length l = length q -> map snd (combine l q) = q /\ map fst (combine l q) = l).
    { clear. induction l as [|a l IH]; destruct q as [|b q]; cbn; try discriminate; auto. intros [= e]. destruct (IH q e) as [-> ->]. auto. }
    destruct (ES al xw Ll) as [E2 E1].
    destruct (rolling_exp_vals_rows_are_decayed_reductions K ok (ma_kernel _ _ _ HM) adjust (match mp with None => 1%Z | Some k => Z.max 1 k end) (rd_val R []) (combine al xw)) as (rs & F1 & F2 & F3).
    + rewrite <- (map_map snd snd). now rewrite E2.
    + apply (Forall_map fst (fun v => (0 <= v /\ v <= 1 /\ (adjust = false -> v <> 0))%Qc)). rewrite E1. unfold al. apply Forall_map, Forall_forall. intros i Hi. apply in_seq in Hi.
      apply HD; [|lia]. intros j Hj. specialize (I j Hj). rewrite (frame_shape P s) in I; [exact I|]. apply (Lv_In (length s) s _ r eq_refl Hax) in Hj. tauto.
    + exists rs. split; [now rewrite F1|]. intros i c Hc. pose proof (nth_error_Some rs i) as G. rewrite Hc in G.
      assert (Hi : i < length (combine al xw)) by (rewrite <- F2; apply G; discriminate). specialize (F3 i Hi).
      rewrite (nth_error_nth _ _ None Hc) in F3. rewrite EN in F3. cbv zeta.
      rewrite <- (map_map snd snd), <- firstn_map, E2 in F3. cbv zeta in F3.
      destruct (need <=? _)%Z; [|exact F3]. destruct F3 as (q & Q1 & _ & Q2). eauto.
  - exists out. split; [exact E|]. split; [exact H1|]. split; [exact H2|]. intros env I. cbv zeta.
    destruct (H3 env I) as (c & F1 & F2). cbv zeta in F1. change (fun i => read_value alpha r i (counted_from_end (length s) env)) with (decay env) in *. destruct (need <=? _)%Z.
    + intros Z. destruct F1 as (q & -> & F1). exists q. split; [now apply F1|]. exact F2.
    + now rewrite F2, F1.
Qed.

(* ---- a decay factor with axes the values do not have ------------------------------------- *)

Definition wide_alpha : tensor := Tensor [2; 3] [fr 1 2; fr 1 2; fr 1 2; fr 1 4; fr 1 4; fr 1 4].
Definition wide_x : tensor := Tensor [3] (lz [1; 2; 4]%Z).
Definition wide_w : tensor := Tensor [3] (lz [1; 2; 1]%Z).
Definition geqb (a b : res (grid (option Qc))) : bool :=
  match a, b with
  | Ok g, Ok h => (if list_eq_dec Nat.eq_dec (gshape g) (gshape h) then true else false) && leqb (oeqb qeqb) (gdata g) (gdata h)
  | _, _ => false
  end.
Lemma leqb_refl {T} (e : T -> T -> bool) l : (forall x, e x x = true) -> leqb e l l = true.
Proof. intros H. induction l as [|x l IH]; [reflexivity|]. cbn. now rewrite H. Qed.
Lemma geqb_neq a b : (exists g, a = Ok g) -> geqb a b = false -> a <> b.
Proof.
  intros [g ->] H <-. cbn in H. destruct (list_eq_dec Nat.eq_dec (gshape g) (gshape g)) as [_|N]; [|now apply N]. cbn in H.
  rewrite leqb_refl in H; [discriminate|]. intros [q|]; [|reflexivity]. cbn. unfold qeqb. apply Qeq_bool_iff. reflexivity.
Qed.
(* the samples agree and the shapes broadcast, but the result has the shape of
   the values alone and is that of the last row of factors *)
Theorem rolling_exp_wide_decay_refuted : exists alpha x w s,
  samples_agree x [w; alpha] (AInt (-1)) 0 /\ broadcasts (map tshape (shaping x [w; alpha])) s /\ tndim x < length s /\
  let run al := rolling_exp_vals_nd (pusher1 5 1) (packer1 1) reader1 al true None false (AInt (-1)) false x w [] in
  exists out, run alpha = Ok out /\ gshape out = tshape x ++ [2] /\ gshape out <> s ++ [2] /\
    run alpha = run (tabulate [3] (fun i => tget alpha (1 :: i))) /\ run alpha <> run (tabulate [3] (fun i => tget alpha (0 :: i))).
Proof.
  exists wide_alpha, wide_x, wide_w, [2; 3]. split; [|split; [|split; [cbn; lia|]]].
  - split; [reflexivity|]. split; [exists 0; split; [unfold names_axis, is_axis; cbn; lia|reflexivity]|].
    intros t [<-|[<-|[]]]; (split; [reflexivity|]); [right; left|right; right]; repeat split; cbn; lia || reflexivity.
  - apply broadcast_shapes_ok. reflexivity.
  - cbv zeta.
    assert (E : exists out, rolling_exp_vals_nd (pusher1 5 1) (packer1 1) reader1 wide_alpha true None false (AInt (-1)) false wide_x wide_w [] = Ok out /\ gshape out = [3; 2]).
    { eexists. split; vm_compute; reflexivity. }
    destruct E as (out & E & S). exists out. split; [exact E|]. split; [exact S|]. split; [rewrite S; discriminate|]. split.
    + vm_compute. reflexivity.
    + apply geqb_neq; [eauto|]. vm_compute. reflexivity.
Qed.

(* ---- examples ------------------------------------------------------------------------------ *)

(* samples along the first axis of x; weights per sample; y the same in every column *)
Definition exx : tensor := Tensor [3; 2] (lz [1; 10; 2; 20; 4; 40]%Z).
Definition exw : tensor := Tensor [3] (lz [1; 2; 1]%Z).
Definition exy : tensor := Tensor [3; 1] (lz [0; 1; 3]%Z).
Lemma exx_ok z : z = 0%Z \/ z = (-2)%Z -> values_ok (packer1 2) (AInt z) 1 exx exw [] [3; 2] /\ values_ok (packer2 1 1) (AInt z) 1 exx exw [exy] [3; 2].
Proof.
  intros Hz. split; (split; [reflexivity|]); split.
  1, 3: split; [reflexivity|]; split; [exists 0; split; [unfold names_axis, is_axis; cbn; lia|reflexivity]|].
  - intros t [<-|[]]. split; [reflexivity|]. right. left. split; reflexivity.
  - intros t [<-|[<-|[]]]; (split; [reflexivity|]); right; [left|right]; repeat split; cbn; lia || reflexivity.
  - apply broadcast_shapes_ok. reflexivity.
  - apply broadcast_shapes_ok. reflexivity.
Qed.
Lemma exw_nonneg : nonneg_entries exw.
Proof. unfold nonneg_entries. cbn. qlist. Qed.
Example values_ex : let K := pusher1 5 1 in let P := packer1 1 in
  rteqb (reduce_vals_nd (pusher1 5 2) (packer1 2) reader1 (AInt 0) exx exw [])
    (Tensor [2; 3] [qz 4; fr 9 4; fr 19 16; qz 4; fr 45 2; fr 475 4]) = true /\
  rteqb (reduce_vals_nd (pusher2 5 1 1) (packer2 1 1) reader2 (AInt 0) exx exw [exy])
    (Tensor [2; 2; 2] [qz 4; fr 5 4; fr 9 4; fr 19 16; qz 4; fr 5 4; fr 45 2; fr 95 8]) = true /\
  rteqb (resample_vals_nd K P reader1 (Tensor [2; 3] (lz [1; 1; 1; 0; 0; 2]%Z)) (AInt (-2)) true exx exw [])
    (Tensor [2; 2; 2] [qz 4; fr 9 4; qz 2; qz 4; qz 4; fr 45 2; qz 2; qz 40]) = true /\
  rteqb (jackknife_vals_nd K P reader1 None (AInt (-2)) false exx exw [])
    (Tensor [3; 2; 2] [qz 3; fr 8 3; qz 3; fr 80 3; qz 2; fr 5 2; qz 2; qz 25; qz 3; fr 5 3; qz 3; fr 50 3]) = true /\
  geqb (rolling_vals_nd K P reader1 2 None false true (AInt 0) false exx exw [])
    (Ok (Grid [3; 2; 2] ([Some (qz 0); None; Some (qz 0); None] ++ map Some [qz 3; fr 5 3; qz 3; fr 50 3; qz 3; fr 8 3; qz 3; fr 80 3]))) = true /\
  geqb (rolling_exp_vals_nd K P reader1 (Tensor [] [fr 1 2]) true None false (AInt 0) false exx exw [])
    (Ok (Grid [3; 2; 2] (map Some [qz 1; qz 1; qz 1; qz 10; fr 5 2; fr 9 5; fr 5 2; qz 18; fr 9 4; fr 25 9; fr 9 4; fr 250 9]))) = true.
Proof. cbv zeta. repeat split; vm_compute; reflexivity. Qed.
(* every kind of misfit: samples of the weights, axis of the weights, axis of the values, number of arrays, shapes *)
Example values_misfit_ex :
  ~ (exists r, samples_agree exx [Tensor [2] (lz [1; 2]%Z)] (AInt 0) r) /\ ~ (exists r, samples_agree exx [exw] (AInt 2) r) /\
  ~ (S (length (@nil tensor)) = length (pk_shape (packer2 1 1))) /\
  ~ (exists s, broadcasts (map tshape (shaping exx [Tensor [3; 3] (lz [1; 2; 1; 1; 1; 1; 1; 1; 1]%Z)])) s) /\
  samples_agree exx [Tensor [3; 3] (lz [1; 2; 1; 1; 1; 1; 1; 1; 1]%Z)] (AInt 0) 1.
Proof.
  split; [|split; [|split; [|split]]].
  - intros (r & _ & (a & H1 & H2) & H). destruct (H _ (or_introl eq_refl)) as [_ [X|[[_ X]|[X _]]]]; cbn in X; try lia.
    unfold names_axis, is_axis in H1. cbn in *. assert (r = 1) by lia. subst. unfold dim_from_end in X. cbn in X. discriminate.
  - intros (r & _ & (a & H1 & H2) & _). unfold names_axis, is_axis in H1. cbn in *. lia.
  - cbn. lia.
  - intros (s & H). apply broadcast_shapes_ok in H. discriminate.
  - split; [reflexivity|]. split; [exists 0; split; [unfold names_axis, is_axis; cbn; lia|reflexivity]|].
    intros t [<-|[]]. split; [reflexivity|]. right. right. repeat split; cbn; lia || reflexivity.
Qed.
Example values_guards_ex :
  samples_agree exx [exw; Tensor [] [fr 1 2]] (AInt 0) 1 /\ broadcasts (map tshape (shaping exx [exw; Tensor [] [fr 1 2]])) [3; 2] /\
  (forall env i, let d := read_value (Tensor [] [fr 1 2]) 1 i (counted_from_end 2 env) in (0 <= d /\ d <= 1 /\ d <> 0)%Qc) /\
  (forall env, let samples := samples_in reader1 exx exw [] 1 [3; 2] env in
     Forall (fun q => snd q = 0%Qc \/ suml (fun p => snd p) samples <> snd q) samples).
Proof.
  split; [|split; [|split]].
  - split; [reflexivity|]. split; [exists 0; split; [unfold names_axis, is_axis; cbn; lia|reflexivity]|].
    intros t [<-|[<-|[]]]; (split; [reflexivity|]); [right; left; split; reflexivity|now left].
  - apply broadcast_shapes_ok. reflexivity.
  - intros env i d. unfold d, read_value. cbn. split; [qle|]. split; [qle|apply qc_neq; reflexivity].
  - intros env. cbv zeta. unfold samples_in, samples_at. change (dim_from_end exx 1) with 3. cbn [seq map].
    assert (E : forall i e, read_value exw 1 i e = tget exw [i]) by reflexivity. rewrite !E. unfold suml. cbn [fold_right snd].
    repeat (apply Forall_cons; [cbn [snd]; right; apply qc_neq; reflexivity|]). apply Forall_nil.
Qed.
