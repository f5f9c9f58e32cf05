(* What the functions along one axis of an array give for arrays of moments with
   nonnegative weights, and relations between their results. *)
From Coq Require Import Permutation.
From Verif Require Import Base BaseLemmas Checks ModelPush ModelPushCov ModelKernels ModelIndex ModelAxes ModelNd Spec SpecIndex SpecAxes SpecNd
  Laws ProofSpec ProofKernels ProofIndex ProofArrays ProofAxes ProofMulti ProofNd PropKernels PropIndex PropAxes PropNd.

(* ---- an array with given columns ------------------------------------------------- *)

(* every entry of out satisfies Q: axes of the result as in column_axes *)
Definition all_entries {T} (d : T) (to_end : bool) (newlen a : nat) (M : list nat) (t : tensor) (out : grid T)
    (Q : (nat -> nat) -> T -> Prop) : Prop :=
  let ax := column_axes to_end (tndim t) a M in
  let shape b := if Nat.eqb b a then newlen else shape_of t b in
  grid_ok out /\ gshape out = map shape ax /\ forall env, inside shape ax env -> Q env (gget d out (map env ax)).

Lemma grid_ext {T} (d : T) (g h : grid T) : grid_ok g -> grid_ok h -> gshape g = gshape h ->
  (forall idx, valid (gshape g) idx -> gget d g idx = gget d h idx) -> g = h.
Proof.
  intros Hg Hh Es H. destruct g as [s l], h as [s' l']; cbn in *. subst s'. f_equal.
  unfold grid_ok in *; cbn in *. apply (nth_ext _ _ d d); [congruence|]. intros k Hk.
  rewrite Hg in Hk. set (idx := nth k (all_idx s) []).
  assert (V : valid s idx) by (apply all_idx_valid, nth_In; now rewrite all_idx_length).
  specialize (H idx V). unfold gget in H; cbn in H. unfold idx in H. now rewrite all_idx_nth_ravel in H.
Qed.
Lemma valid_env sh ax idx : NoDup ax -> valid (map sh ax) idx -> exists env, inside sh ax env /\ map env ax = idx.
Proof.
  intros N H. pose proof (valid_length _ _ H) as L. rewrite map_length in L. exists (bind ax idx (fun _ => 0)).
  split; [|now apply map_bind]. intros a Ha. rewrite bind_in by assumption. now apply valid_nth_index.
Qed.
(* the columns determine the array *)
Theorem columns_determine_the_array : forall {B T} (d : T) (val : B -> list nat -> T) run to_end newlen a M t out out',
  NoDup (a :: M) -> (forall b, In b (a :: M) -> b < tndim t) ->
  holds_columns d val run to_end newlen a M t out -> holds_columns d val run to_end newlen a M t out' -> out = out'.
Proof.
  intros B T d val run to_end newlen a M t out out' N Bd (H1 & H2 & H3) (G1 & G2 & G3).
  apply (grid_ext d); [exact H1|exact G1|congruence|]. intros idx V. rewrite H2 in V.
  apply valid_env in V; [|exact (proj1 (column_axes_incl to_end _ _ _ N Bd))]. destruct V as (env & I & <-).
  destruct (H3 env I) as (rows & b & E1 & E2 & E3), (G3 env I) as (rows' & b' & F1 & F2 & F3). congruence.
Qed.
(* axes_to_end only changes the order of the axes of the result *)
Theorem axes_to_end_only_moves_axes : forall {B T} (d : T) (val : B -> list nat -> T) run newlen a M t out out',
  NoDup (a :: M) -> (forall b, In b (a :: M) -> b < tndim t) ->
  holds_columns d val run true newlen a M t out -> holds_columns d val run false newlen a M t out' ->
  forall env, inside (fun b => if Nat.eqb b a then newlen else shape_of t b) (seq 0 (tndim t)) env ->
  gget d out (map env (except_nat (seq 0 (tndim t)) (a :: M) ++ a :: M)) = gget d out' (map env (seq 0 (tndim t))).
Proof.
  intros B T d val run newlen a M t out out' N Bd (H1 & H2 & H3) (G1 & G2 & G3) env I.
  assert (I' : inside (fun b => if Nat.eqb b a then newlen else shape_of t b) (column_axes true (tndim t) a M) env).
  { intros b Hb. apply I. apply (Permutation_in _ (column_axes_perm true _ _ _ N Bd)). exact Hb. }
  destruct (H3 env I') as (rows & b & E1 & E2 & E3), (G3 env I) as (rows' & b' & F1 & F2 & F3).
  cbn [column_axes] in E3, F3. congruence.
Qed.

Lemma inside_loop to_end newlen a M t env :
  inside (fun b => if Nat.eqb b a then newlen else shape_of t b) (column_axes to_end (tndim t) a M) env ->
  inside (shape_of t) (except_nat (seq 0 (tndim t)) (a :: M)) env.
Proof.
  intros I x Hx. assert (Hc : In x (column_axes to_end (tndim t) a M)).
  { destruct to_end; cbn [column_axes]; [apply in_or_app; now left|]. now apply except_In in Hx. }
  specialize (I x Hc). cbn beta in I. destruct (Nat.eqb_spec x a) as [Ea|]; [|exact I]. apply except_In in Hx. cbn in Hx. subst. tauto.
Qed.
Lemma cells_of_columns {B T} (d : T) (val : B -> list nat -> T) run to_end newlen a M t r (Q : (nat -> nat) -> nat -> B -> Prop) :
  by_columns d val run to_end newlen a M t r ->
  (forall env, inside (shape_of t) (except_nat (seq 0 (tndim t)) (a :: M)) env ->
     exists rows, run env = Ok rows /\ forall i b, nth_error rows i = Some b -> Q env i b) ->
  exists out, r = Ok out /\
    all_entries d to_end newlen a M t out (fun env v => exists b, Q env (env a) b /\ v = val b (map env M)).
Proof.
  intros H HQ. destruct r as [out|e]; cbn [by_columns] in H.
  - exists out. split; [reflexivity|]. destruct H as (H1 & H2 & H3). split; [exact H1|]. split; [exact H2|]. intros env I.
    destruct (H3 env I) as (rows & b & E1 & E2 & E3). exists b. split; [|exact E3].
    destruct (HQ env (inside_loop _ _ _ _ _ _ I)) as (rows' & F1 & F2). apply F2. congruence.
  - exfalso. destruct H as (env & I & E). destruct (HQ env I) as (rows & F & _). congruence.
Qed.
Lemma cells_of_columns_t {B} (val : B -> list nat -> Qc) run to_end newlen a M t r (Q : (nat -> nat) -> nat -> B -> Prop) :
  by_columns_t val run to_end newlen a M t r ->
  (forall env, inside (shape_of t) (except_nat (seq 0 (tndim t)) (a :: M)) env ->
     exists rows, run env = Ok rows /\ forall i b, nth_error rows i = Some b -> Q env i b) ->
  exists out, r = Ok out /\
    all_entries 0%Qc to_end newlen a M t (of_tensor out) (fun env v => exists b, Q env (env a) b /\ v = val b (map env M)).
Proof.
  unfold by_columns_t. intros H HQ. destruct (cells_of_columns _ _ _ _ _ _ _ _ _ Q H HQ) as (out & E & G).
  destruct r as [o|e]; [|discriminate]. injection E as <-. now exists o.
Qed.
Lemma column_rows_ok {A V} (K : pusher A V) ok P : moment_array K ok P -> forall a M t env,
  moments_in K P M t -> ~ In a M -> inside (shape_of t) (except_nat (seq 0 (tndim t)) (a :: M)) env ->
  rows_ok K ok (rows_along P t [a] M env) /\ length (rows_along P t [a] M env) = shape_of t a.
Proof.
  intros HM a M t env Hm Na I. split; [|now rewrite rows_one, map_length, seq_length].
  pose proof Hm as (Ht & NM & BM & SM & W). pose proof (ma_packer _ _ _ HM) as HP.
  pose proof (valid_zeros _ (proj2 HP)) as V0. rewrite <- SM in V0. assert (L0 : length (repeat 0 (length (map (shape_of t) M))) = length M) by (now rewrite repeat_length, map_length).
  rewrite (rows_col_ext P HP t a M env (bind M (repeat 0 (length (map (shape_of t) M))) env)).
  - apply (rows_along_ok K ok P HM M t [a]); [exact Hm|constructor; [intros []|constructor]|].
    intros b Hb. apply except_In in Hb. destruct Hb as [Hb Nb]. destruct (in_dec Nat.eq_dec b M) as [C|C].
    + rewrite bind_in; [|exact NM|exact L0|exact C]. now apply valid_nth_index.
    + rewrite bind_out by exact C. apply I. apply except_In. split; [exact Hb|]. intros [X|X]; [apply Nb; now left|tauto].
  - constructor; [exact Na|exact NM].
  - exact SM.
  - intros b _ Hb. rewrite bind_out; [reflexivity|]. intros X. apply Hb. now right.
Qed.

(* ---- arrays of moments with nonnegative weights ------------------------------------- *)

(* cumulative: at index i of the axis, the rows up to i combined *)
Theorem cumulative_array_prefixes : forall {A V} (K : pusher A V) ok P, moment_array K ok P ->
  forall mom_axes axis to_end a M t, axis_of_moments P mom_axes axis a M t -> moments_in K P M t ->
  exists out, cumulative_nd K P false axis mom_axes to_end t = Ok out /\
    all_entries 0%Qc to_end (shape_of t a) a M t (of_tensor out) (fun env v =>
      let rows := firstn (S (env a)) (rows_along P t [a] M env) in
      total K rows <> 0%Qc -> exists c, reduce_data K rows = Some c /\ v = pk_unpack P c (map env M)).
Proof.
  intros A V K ok P HM mom_axes axis to_end a M t HA Hm.
  assert (Na : ~ In a M) by (destruct HA as (_ & _ & _ & N & _); now inversion N).
  pose proof (cumulative_array K ok P HM false mom_axes axis to_end a M t HA) as H.
  destruct (cells_of_columns_t _ _ _ _ _ _ _ _ (fun env i c =>
    let rows := firstn (S i) (rows_along P t [a] M env) in total K rows <> 0%Qc -> reduce_data K rows = Some c) H) as (out & E & H1 & H2 & H3).
  - intros env I. destruct (column_rows_ok K ok P HM a M t env Hm Na I) as [R Ln].
    destruct (cumulative_rows_are_prefix_reductions K ok (ma_kernel _ _ _ HM) _ R) as (rows & E1 & E2 & E3).
    exists rows. cbv iota. rewrite E1. split; [reflexivity|]. intros i b Hb rs Z.
    pose proof (nth_error_Some rows i) as G. rewrite Hb in G. rewrite <- (nth_error_nth _ _ (p_zero K) Hb).
    refine (proj1 (E3 i _) Z). rewrite <- E2. apply G. discriminate.
  - exists out. split; [exact E|]. split; [exact H1|]. split; [exact H2|]. intros env I rows Z.
    destruct (H3 env I) as (b & F1 & F2). exists b. split; [now apply F1|exact F2].
Qed.
(* grouped: at index g, the rows with label g combined *)
Theorem grouped_array_members : forall {A V} (K : pusher A V) ok P, moment_array K ok P ->
  forall by_ m mom_axes axis to_end a M t, axis_of_moments P mom_axes axis a M t -> moments_in K P M t ->
  length by_ = shape_of t a -> zmax_of m by_ -> (-1 <= m)%Z ->
  exists out, reduce_data_grouped_nd K P by_ axis mom_axes to_end t = Ok out /\
    all_entries 0%Qc to_end (Z.to_nat (m + 1)) a M t (of_tensor out) (fun env v =>
      exists c, reduce_data K (members (env a) by_ (rows_along P t [a] M env)) = Some c /\ v = pk_unpack P c (map env M)).
Proof.
  intros A V K ok P HM by_ m mom_axes axis to_end a M t HA Hm Hl Hz Hm1.
  assert (Na : ~ In a M) by (destruct HA as (_ & _ & _ & N & _); now inversion N).
  pose proof (grouped_array K ok P HM by_ mom_axes axis to_end a M t HA) as H.
  assert (Em : zmax by_ = Ok m).
  { destruct Hz as [H1 H2]. destruct by_ as [|b l]; [destruct H1|]. cbn [zmax]. f_equal.
    assert (G : forall l b, let q := fold_left Z.max l b in (q = b \/ In q l) /\ (b <= q)%Z /\ forall z, In z l -> (z <= q)%Z).
    { clear. induction l as [|x l IH]; intros b; cbn; [split; [now left|split; [lia|intros z []]]|].
      destruct (IH (Z.max b x)) as (I1 & I2 & I3). split; [|split; [lia|]].
      - destruct I1 as [I1|I1]; [|now right; right]. rewrite I1. destruct (Z.max_spec b x) as [[_ ->]|[_ ->]]; [right; now left|now left].
      - intros z [<-|Hz]; [lia|now apply I3]. }
    destruct (G l b) as (I1 & I2 & I3). rewrite Forall_forall in H2.
    assert (fold_left Z.max l b <= m)%Z by (apply H2; destruct I1 as [->|I1]; [now left|now right]).
    assert (m <= fold_left Z.max l b)%Z by (destruct H1 as [->|H1]; [exact I2|now apply I3]). lia. }
  rewrite Em in H. destruct H as [H _]. specialize (H Hl Hm1).
  apply (cells_of_columns_t _ _ _ _ _ _ _ _ (fun env g c => reduce_data K (members g by_ (rows_along P t [a] M env)) = Some c) H).
  intros env I. destruct (column_rows_ok K ok P HM a M t env Hm Na I) as [R Ln].
  destruct (grouped_rows_are_group_reductions K ok (ma_kernel _ _ _ HM) by_ _ m ltac:(now rewrite Ln) R Hz Hm1) as (rows & E1 & E2 & E3).
  exists rows. rewrite E1. split; [reflexivity|]. intros i b Hb.
  pose proof (nth_error_Some rows i) as G. rewrite Hb in G. rewrite <- (nth_error_nth _ _ (p_zero K) Hb).
  apply E3. apply G. discriminate.
Qed.
(* resample: at index r, the rows combined with their weights multiplied by row r of the frequencies *)
Theorem resample_array_weighted : forall {A V} (K : pusher A V) ok P, moment_array K ok P ->
  forall freq mom_axes axis to_end a M t, axis_of_moments P mom_axes axis a M t -> moments_in K P M t ->
  tensor_ok freq -> tndim freq = 2 -> shape_of freq 1 = shape_of t a -> Forall all_nonneg (table freq) ->
  exists out, resample_data_nd K P freq axis mom_axes to_end t = Ok out /\
    all_entries 0%Qc to_end (shape_of freq 0) a M t (of_tensor out) (fun env v =>
      let rows := selected K (nth (env a) (table freq) []) (rows_along P t [a] M env) in
      total K rows <> 0%Qc -> exists c, reduce_data K rows = Some c /\ v = pk_unpack P c (map env M)).
Proof.
  intros A V K ok P HM freq mom_axes axis to_end a M t HA Hm Hf Hn Hc Hp.
  assert (Na : ~ In a M) by (destruct HA as (_ & _ & _ & N & _); now inversion N).
  destruct (resample_array K ok P HM freq mom_axes axis to_end a M t HA Hf Hn) as [H _]. specialize (H Hc).
  destruct (cells_of_columns_t _ _ _ _ _ _ _ _ (fun env i c =>
    let rows := selected K (nth i (table freq) []) (rows_along P t [a] M env) in total K rows <> 0%Qc -> reduce_data K rows = Some c) H) as (out & E & H1 & H2 & H3).
  - intros env I. destruct (column_rows_ok K ok P HM a M t env Hm Na I) as [R Ln].
    destruct (resample_data_is_weighted_reduction K ok (ma_kernel _ _ _ HM) _ _ R Hp) as (rows & E1 & E2 & E3).
    exists rows. rewrite E1. split; [reflexivity|]. intros i b Hb rs Z.
    pose proof (nth_error_Some rows i) as G. rewrite Hb in G. rewrite <- (nth_error_nth _ _ (p_zero K) Hb).
    refine (proj1 (E3 i _) Z). rewrite <- E2. apply G. discriminate.
  - exists out. split; [exact E|]. split; [exact H1|]. split; [exact H2|]. intros env I rows Z.
    destruct (H3 env I) as (b & F1 & F2). exists b. split; [now apply F1|exact F2].
Qed.
(* jackknife: at index i, all rows but i combined; the weight is nowhere in one row only *)
Theorem jackknife_array_leave_one_out : forall {A V} (K : pusher A V) ok P, moment_array K ok P ->
  forall mom_axes axis to_end a M t, axis_of_moments P mom_axes axis a M t -> moments_in K P M t ->
  (forall env, inside (shape_of t) (except_nat (seq 0 (tndim t)) (a :: M)) env ->
     Forall (fun d => p_wt K d = 0%Qc \/ total K (rows_along P t [a] M env) <> p_wt K d) (rows_along P t [a] M env)) ->
  exists out, jackknife_data_nd K P None axis mom_axes to_end t = Ok out /\
    all_entries 0%Qc to_end (shape_of t a) a M t (of_tensor out) (fun env v =>
      exists c, reduce_data K (without (env a) (rows_along P t [a] M env)) = Some c /\ v = pk_unpack P c (map env M)).
Proof.
  intros A V K ok P HM mom_axes axis to_end a M t HA Hm HJ.
  assert (Na : ~ In a M) by (destruct HA as (_ & _ & _ & N & _); now inversion N).
  pose proof (jackknife_array K ok P HM mom_axes axis to_end a M t HA) as H.
  apply (cells_of_columns_t _ _ _ _ _ _ _ _ (fun env i c => reduce_data K (without i (rows_along P t [a] M env)) = Some c) H).
  intros env I. destruct (column_rows_ok K ok P HM a M t env Hm Na I) as [R Ln].
  destruct (jackknife_rows_leave_one_out K ok (ma_kernel _ _ _ HM) _ R (HJ env I)) as (rows & E1 & E2 & E3).
  exists rows. rewrite E1. split; [reflexivity|]. intros i b Hb.
  pose proof (nth_error_Some rows i) as G. rewrite Hb in G. rewrite <- (nth_error_nth _ _ (p_zero K) Hb).
  apply E3. rewrite <- E2. apply G. discriminate.
Qed.
(* rolling: at index i, the rows of the window combined, if enough of them have a weight *)
Theorem rolling_array_windows : forall {A V} (K : pusher A V) ok P, moment_array K ok P ->
  forall (window : nat) min_periods (center : bool) zero mom_axes axis to_end a M t,
  axis_of_moments P mom_axes axis a M t -> moments_in K P M t -> 0 < window ->
  exists out, rolling_data_nd K P (Z.of_nat window) min_periods center zero axis mom_axes to_end t = Ok out /\
    all_entries None to_end (shape_of t a) a M t out (fun env v =>
      let win := window_at window (env a + if center then (window - 1) / 2 else 0) (rows_along P t [a] M env) in
      let need := Z.max (match min_periods with Some m => m | None => Z.of_nat window end) 1 in
      v = row_entry P zero (if (need <=? Z.of_nat (nonzero_count (map (p_wt K) win)))%Z then reduce_data K win else None) (map env M)).
Proof.
  intros A V K ok P HM window mp center zero mom_axes axis to_end a M t HA Hm Hw.
  assert (Na : ~ In a M) by (destruct HA as (_ & _ & _ & N & _); now inversion N).
  destruct (rolling_array K ok P HM (Z.of_nat window) mp center zero mom_axes axis to_end a M t HA ltac:(lia)) as [H _].
  specialize (H ltac:(lia)). rewrite Nat2Z.id in H.
  set (need := Z.max (match mp with Some m => m | None => Z.of_nat window end) 1).
  destruct (cells_of_columns _ _ _ _ _ _ _ _ _ (fun env i c =>
    let win := window_at window (i + if center then (window - 1) / 2 else 0) (rows_along P t [a] M env) in
    c = if (need <=? Z.of_nat (nonzero_count (map (p_wt K) win)))%Z then reduce_data K win else None) H) as (out & E & H1 & H2 & H3).
  - intros env I. destruct (column_rows_ok K ok P HM a M t env Hm Na I) as [R Ln]. destruct center.
    + destruct (rolling_center_is_shifted_window K ok (ma_kernel _ _ _ HM) window mp _ Hw R) as (rows & E1 & E2 & E3).
      exists rows. split; [exact E1|]. intros i b Hb.
      pose proof (nth_error_Some rows i) as G. rewrite Hb in G. rewrite <- (nth_error_nth _ _ None Hb).
      unfold need. apply E3. rewrite <- E2. apply G. discriminate.
    + destruct (rolling_rows_are_window_reductions K ok (ma_kernel _ _ _ HM) window (match mp with Some m => m | None => Z.of_nat window end) _ R) as (rows & E1 & E2 & E3).
      exists rows. split; [now rewrite E1|]. intros i b Hb.
      pose proof (nth_error_Some rows i) as G. rewrite Hb in G. rewrite <- (nth_error_nth _ _ None Hb). rewrite Nat.add_0_r.
      unfold need. apply E3. rewrite <- E2. apply G. discriminate.
  - exists out. split; [exact E|]. split; [exact H1|]. split; [exact H2|]. intros env I. cbv zeta.
    destruct (H3 env I) as (b & F1 & F2). rewrite F2, F1. reflexivity.
Qed.
(* rolling_exp: at index i, the rows up to i combined with their weights decayed *)
Theorem rolling_exp_array_decayed : forall {A V} (K : pusher A V) ok P, moment_array K ok P ->
  forall alpha alpha_axis b adjust min_periods zero mom_axes axis to_end a M t, axis_of_moments P mom_axes axis a M t ->
  moments_in K P M t ->
  let L := except_nat (seq 0 (tndim t)) (a :: M) in
  tndim alpha = 0 \/ decay_axis alpha alpha_axis b /\ aligns alpha [b] L (shape_of t) /\ shape_of alpha b = shape_of t a ->
  (forall env, inside (shape_of t) L env -> Forall (fun al => 0 <= al /\ al <= 1 /\ (adjust = false -> al <> 0))%Qc (decays alpha b (shape_of t a) L env)) ->
  exists out, rolling_exp_data_nd K P alpha alpha_axis adjust min_periods zero axis mom_axes to_end t = Ok out /\
    all_entries None to_end (shape_of t a) a M t out (fun env v =>
      let ad := combine (decays alpha b (shape_of t a) L env) (rows_along P t [a] M env) in
      let need := Z.max 1 (match min_periods with Some m => m | None => 1%Z end) in
      let rows := exp_rows K adjust ad (env a) in
      if (need <=? Z.of_nat (nonzero_count (map (p_wt K) (firstn (S (env a)) (rows_along P t [a] M env)))))%Z
      then total K rows <> 0%Qc -> exists c, reduce_data K rows = Some c /\ v = Some (pk_unpack P c (map env M))
      else v = row_entry P zero None (map env M)).
Proof.
  intros A V K ok P HM alpha alpha_axis b adjust mp zero mom_axes axis to_end a M t HA Hm L HB HD.
  assert (Na : ~ In a M) by (destruct HA as (_ & _ & _ & N & _); now inversion N).
  destruct (rolling_exp_array K ok P HM alpha alpha_axis b adjust mp zero mom_axes axis to_end a M t HA ltac:(tauto)) as [H _].
  specialize (H ltac:(tauto)). fold L in H.
  set (need := Z.max 1 (match mp with Some m => m | None => 1%Z end)).
  assert (EN : Z.max (match mp with None => 1%Z | Some k => Z.max 1 k end) 1 = need) by (unfold need; destruct mp; lia).
  destruct (cells_of_columns _ _ _ _ _ _ _ _ _ (fun env i c =>
    let ad := combine (decays alpha b (shape_of t a) L env) (rows_along P t [a] M env) in
    let rows := exp_rows K adjust ad i in
    if (need <=? Z.of_nat (nonzero_count (map (p_wt K) (firstn (S i) (rows_along P t [a] M env)))))%Z
    then exists q, c = Some q /\ (total K rows <> 0%Qc -> reduce_data K rows = Some q)
    else c = None) H) as (out & E & H1 & H2 & H3).
  - intros env I. destruct (column_rows_ok K ok P HM a M t env Hm Na I) as [R Ln]. fold L in I.
    assert (Ld : length (decays alpha b (shape_of t a) L env) = shape_of t a) by (unfold decays; now rewrite map_length, seq_length).
    pose proof (HD env I) as D. set (al := decays alpha b (shape_of t a) L env) in *. set (rows := rows_along P t [a] M env) in *.
    assert (ES : forall (l : list Qc) (r : list A), length l = length r -> map snd (combine l r) = r /\ map fst (combine l r) = l).
    { clear. induction l as [|x l IH]; destruct r as [|y r]; cbn; try discriminate; auto. intros [= e]. destruct (IH r e) as [-> ->]. auto. }
    destruct (ES al rows ltac:(congruence)) as [E2 E1].
    destruct (rolling_exp_rows_are_decayed_reductions K ok (ma_kernel _ _ _ HM) adjust (match mp with None => 1%Z | Some k => Z.max 1 k end) (combine al rows)) as (rs & F1 & F2 & F3).
    + now rewrite E2.
    + rewrite <- E1 in D. now rewrite Forall_map in D.
    + exists rs. split; [now rewrite F1|]. intros i c Hc. pose proof (nth_error_Some rs i) as G. rewrite Hc in G.
      assert (Hi : i < length (combine al rows)) by (rewrite <- F2; apply G; discriminate). specialize (F3 i Hi).
      rewrite (nth_error_nth _ _ None Hc) in F3. rewrite EN in F3. cbv zeta.
      rewrite <- (map_map snd (p_wt K)), <- firstn_map, E2 in F3. cbv zeta in F3.
      destruct (need <=? _)%Z; [|exact F3]. destruct F3 as (q & Q1 & _ & Q2). eauto.
  - exists out. split; [exact E|]. split; [exact H1|]. split; [exact H2|]. intros env I. cbv zeta.
    destruct (H3 env I) as (c & F1 & F2). cbv zeta in F1. destruct (need <=? _)%Z.
    + intros Z. destruct F1 as (q & -> & F1). exists q. split; [now apply F1|]. exact F2.
    + now rewrite F2, F1.
Qed.

Lemma ma_unpack_pack {A V} (K : pusher A V) ok P : moment_array K ok P -> forall f m, valid (pk_shape P) m -> pk_unpack P (pk_pack P f) m = f m.
Proof.
  intros H. destruct H; intros f m Hm; cbn [packer1 packer2 pk_pack pk_unpack pk_shape] in *.
  - inversion Hm as [|? i ? r Hi Hr]; subst. inversion Hr; subst. cbn [nth]. unfold getq.
    rewrite (nth_map_in _ _ _ _ 0) by (now rewrite seq_length). now rewrite seq_nth.
  - inversion Hm as [|? i ? r Hi Hr]; subst. inversion Hr as [|? j ? r' Hj Hr']; subst. inversion Hr'; subst. cbn [nth]. unfold get2, getq.
    rewrite (nth_map_in _ _ _ _ 0) by (now rewrite seq_length). rewrite seq_nth by exact Hi.
    rewrite (nth_map_in _ _ _ _ 0) by (now rewrite seq_length). now rewrite seq_nth.
Qed.
(* ---- the way back --------------------------------------------------------------------- *)

(* cumulative and its inverse give the array back when all weights are positive *)
Theorem cumulative_array_roundtrip : forall {A V} (K : pusher A V) ok P, moment_array K ok P ->
  forall mom_axes axis a M t, axis_of_moments P mom_axes axis a M t ->
  (forall env, inside (shape_of t) (seq 0 (tndim t)) env -> 0 < p_wt K (moment_at P t M env))%Qc ->
  exists out, cumulative_nd K P false axis mom_axes false t = Ok out /\
              cumulative_nd K P true axis mom_axes false out = Ok t.
Proof.
  intros A V K ok P HM mom_axes axis a M t HA HW. pose proof HA as (Ht & H1 & H2 & N & SM). pose proof (ma_packer _ _ _ HM) as HP.
  inversion N as [|? ? Na NM]; subst. pose proof (is_axis_range _ _ _ H1) as BM. pose proof (names_axis_lt _ _ _ _ H2) as BA.
  assert (Hm : moments_in K P M t).
  { split; [exact Ht|]. split; [exact NM|]. split; [exact BM|]. split; [exact SM|]. intros env I. apply Qclt_le_weak. now apply HW. }
  set (L := except_nat (seq 0 (tndim t)) (a :: M)).
  pose proof (valid_zeros _ (proj2 HP)) as V0. rewrite <- SM in V0. assert (L0 : length (repeat 0 (length (map (shape_of t) M))) = length M) by (now rewrite repeat_length, map_length).
  assert (POS : forall env, inside (shape_of t) L env -> Forall (fun d => ok d /\ 0 < p_wt K d)%Qc (rows_along P t [a] M env)).
  { intros env I. rewrite rows_one. apply Forall_map, Forall_forall. intros i Hi. apply in_seq in Hi. split; [apply (ma_pack_ok _ _ _ HM)|].
    assert (E : moment_at P t M (bind [a] [i] env) = moment_at P t M (bind M (repeat 0 (length (map (shape_of t) M))) (bind [a] [i] env))).
    { apply (proj1 HP). intros m Hm'. rewrite <- SM in Hm'. pose proof (valid_length _ _ Hm') as Lm. rewrite map_length in Lm.
      unfold entry. f_equal. apply map_ext_in. intros b _. destruct (in_dec Nat.eq_dec b M) as [C|C]; [now apply bind_bound|].
      now rewrite !(bind_out M) by exact C. }
    rewrite E. apply HW. intros b Hb. destruct (in_dec Nat.eq_dec b M) as [C|C].
    - rewrite bind_in by assumption. now apply valid_nth_index.
    - rewrite bind_out by exact C. destruct (Nat.eq_dec b a) as [->|Nb]; [unfold bind; cbn; rewrite Nat.eqb_refl; cbn; lia|].
      rewrite bind_out by (intros [X|[]]; congruence). apply I. apply except_In. split; [exact Hb|]. intros [X|X]; [congruence|tauto]. }
  assert (RT : forall env, inside (shape_of t) L env -> exists rows, cumulative K (rows_along P t [a] M env) = Some rows /\
    length rows = shape_of t a /\ Forall ok rows /\ cumulative_inverse K rows = Some (rows_along P t [a] M env)).
  { intros env I. pose proof (POS env I) as Pz. destruct (column_rows_ok K ok P HM a M t env Hm Na I) as [R Ln].
    pose proof (cumulative_inverse_positive_weights K ok (ma_kernel _ _ _ HM) _ Pz) as G.
    destruct (cumulative_clean_rows K ok (ma_kernel _ _ _ HM) _ R) as (rows & E1 & E2 & E3).
    { revert Pz. apply Forall_impl. intros d [_ Pd] Z. rewrite Z in Pd. now apply Qclt_not_eq in Pd. }
    exists rows. split; [exact E1|]. split; [congruence|]. rewrite E1 in G. cbn [obind] in G. split; [|exact G].
    apply Forall_nth. intros i d Hi. rewrite (nth_indep _ _ (p_zero K)) by exact Hi. specialize (E3 i ltac:(lia)).
    rewrite <- (firstn_skipn (S i) (rows_along P t [a] M env)) in R. apply Forall_app in R. destruct R as [R _].
    destruct (reduce_rows_total K ok P HM _ R) as (q & Eq & Hq). congruence. }
  pose proof (cumulative_array K ok P HM false mom_axes axis false a M t HA) as H. cbv iota in H. fold L in H.
  destruct (cumulative_nd K P false axis mom_axes false t) as [out|e] eqn:EC; unfold by_columns_t, by_columns in H; cbv iota in H.
  2: { exfalso. destruct H as (env & I & E). destruct (RT env I) as (rows & F & _). rewrite F in E. discriminate. }
  exists out. split; [reflexivity|]. destruct H as (O1 & O2 & O3). cbn [column_axes of_tensor gshape] in O2, O3.
  assert (SH : map (fun b => if Nat.eqb b a then shape_of t a else shape_of t b) (seq 0 (tndim t)) = tshape t).
  { rewrite (map_ext _ (shape_of t)); [now apply map_nth_seq|]. intros b. destruct (Nat.eqb_spec b a) as [E|]; now subst. }
  rewrite SH in O2.
  assert (SO : forall b, shape_of out b = shape_of t b) by (intros b; unfold shape_of; now rewrite O2).
  assert (NO : tndim out = tndim t) by (unfold tndim; now rewrite O2).
  assert (HAo : axis_of_moments P mom_axes axis a M out).
  { split; [exact O1|]. rewrite NO. split; [exact H1|]. split; [exact H2|]. split; [exact N|]. rewrite <- SM. apply map_ext. exact SO. }
  assert (RO : forall env, inside (shape_of t) L env -> Ok (rows_along P out [a] M env) = of_opt EZeroDiv (cumulative K (rows_along P t [a] M env))).
  { intros env I. destruct (RT env I) as (rows & F1 & F2 & F3 & _). rewrite F1. cbn [of_opt]. f_equal.
    apply (nth_ext _ _ (p_zero K) (p_zero K)); [now rewrite rows_one, map_length, seq_length, SO|].
    rewrite rows_one, map_length, seq_length, SO. intros i Hi. rewrite (nth_map_in _ _ _ _ 0) by (now rewrite seq_length).
    rewrite seq_nth by exact Hi. cbn [plus]. rewrite <- (ma_pack_unpack _ _ _ HM (nth i rows (p_zero K))).
    2: { rewrite Forall_forall in F3. apply F3, nth_In. lia. }
    apply (proj1 HP). intros m Hm'. rewrite <- SM in Hm'. pose proof (valid_length _ _ Hm') as Lm. rewrite map_length in Lm.
    set (env' := bind M m (bind [a] [i] env)).
    assert (Ea : env' a = i) by (unfold env'; rewrite bind_out by exact Na; unfold bind; cbn; now rewrite Nat.eqb_refl).
    assert (EM : map env' M = m) by (now apply map_bind).
    destruct (O3 env') as (rows' & b & G1 & G2 & G3).
    { intros b Hb. destruct (Nat.eqb_spec b a) as [->|Nb]; [now rewrite Ea|]. unfold env'. destruct (in_dec Nat.eq_dec b M) as [C|C].
      - rewrite bind_in by assumption. now apply valid_nth_index.
      - rewrite bind_out by exact C. rewrite bind_out by (intros [X|[]]; congruence). apply I. apply except_In. split; [exact Hb|].
        intros [X|X]; [congruence|tauto]. }
    unfold gget in G3. cbn [of_tensor gshape gdata] in G3. unfold entry, tget. rewrite NO, G3, EM. f_equal.
    rewrite (rows_col_ext P HP t a M env' env N SM), F1 in G1.
    - injection G1 as <-. rewrite Ea in G2. symmetry. now apply nth_error_nth.
    - intros b0 Hb Nb. unfold env'. rewrite bind_out by (intros X; apply Nb; now right). rewrite bind_out; [reflexivity|]. intros [X|[]]. apply Nb. now left. }
  pose proof (cumulative_array K ok P HM true mom_axes axis false a M out HAo) as H. cbv iota in H.
  destruct (cumulative_nd K P true axis mom_axes false out) as [t2|e]; unfold by_columns_t, by_columns in H; cbv iota in H.
  2: { exfalso. rewrite NO in H. destruct H as (env & I & E). fold L in I.
       assert (I' : inside (shape_of t) L env) by (intros b Hb; rewrite <- SO; now apply I).
       destruct (RT env I') as (rows & F1 & F2 & F3 & F4). pose proof (RO env I') as R. rewrite F1 in R. cbn [of_opt] in R. injection R as R.
       rewrite R, F4 in E. discriminate. }
  f_equal. destruct H as (Q1 & Q2 & Q3). cbn [column_axes of_tensor gshape] in Q2, Q3. rewrite NO in Q2, Q3.
  assert (S2 : tshape t2 = tshape t).
  { rewrite Q2, <- SH. apply map_ext. intros b. now rewrite !SO. }
  apply tensor_ext; [exact Q1|exact Ht|exact S2|]. intros idx VI. rewrite S2 in VI.
  rewrite <- (map_nth_seq (tshape t) 0 (tndim t) eq_refl) in VI. apply (valid_env (shape_of t)) in VI; [|apply seq_NoDup].
  destruct VI as (env & I & <-).
  destruct (Q3 env) as (rows & b & G1 & G2 & G3).
  { intros b Hb. rewrite !SO. specialize (I b Hb). destruct (Nat.eqb_spec b a) as [E|]; [subst|]; exact I. }
  assert (IL : inside (shape_of t) L env) by (intros b0 Hb; apply except_In in Hb; now apply I).
  destruct (RT env IL) as (rows' & F1 & F2 & F3 & F4). pose proof (RO env IL) as R. rewrite F1 in R. cbn [of_opt] in R. injection R as R.
  rewrite R, F4 in G1. cbn [of_opt] in G1. injection G1 as <-.
  unfold gget in G3. cbn [of_tensor gshape gdata] in G3. unfold tget at 1. rewrite G3.
  assert (Ia : env a < shape_of t a) by (apply I, in_seq; lia).
  rewrite rows_one in G2. rewrite nth_error_map in G2. rewrite (nth_error_nth' _ 0) in G2 by (now rewrite seq_length). rewrite seq_nth in G2 by exact Ia.
  cbn in G2. injection G2 as <-. 
  assert (VM : valid (pk_shape P) (map env M)).
  { rewrite <- SM. apply inside_valid. intros c Hc. apply I, in_seq. specialize (BM c Hc). lia. }
  unfold moment_at. rewrite (ma_unpack_pack _ _ _ HM) by exact VM. unfold entry. f_equal. apply map_ext_in. intros c _.
  destruct (in_dec Nat.eq_dec c M) as [C|C].
  - rewrite bind_in by (try assumption; now rewrite map_length). rewrite (nth_map_in _ _ _ _ 0) by (apply index_of_lt; exact C).
    now rewrite (proj2 (index_of_lt c M C)).
  - rewrite bind_out by exact C. unfold bind. cbn. destruct (Nat.eqb_spec a c) as [E|]; [cbn; congruence|reflexivity].
Qed.

(* ---- cases ------------------------------------------------------------------------------ *)

Definition gteqb (a : res (grid (option Qc))) (s : list nat) (l : list (option Qc)) : bool :=
  match a with
  | Ok g => (if list_eq_dec Nat.eq_dec (gshape g) s then true else false) && leqb (oeqb qeqb) (gdata g) l
  | Raise _ => false
  end.
Lemma ext1_axis z : z = 1%Z \/ z = (-2)%Z -> axis_of_moments (packer1 1) [0%Z] (AInt z) 1 [0] ext1.
Proof.
  intros Hz. split; [reflexivity|]. split; [repeat constructor; unfold is_axis; cbn; lia|]. split; [unfold names_axis, is_axis; cbn; lia|].
  split; [repeat constructor; cbn; lia|reflexivity].
Qed.
Example columns_ex : let K := pusher1 5 1 in let P := packer1 1 in
  axis_of_moments P [0%Z] (AInt 1) 1 [0] ext1 /\ axis_of_moments P [0%Z] (AInt (-2)) 1 [0] ext1 /\ moments_in K P [0] ext1 /\
  moment_array K (fun a => length a = 2) P /\
  rteqb (cumulative_nd K P false (AInt 1) [0%Z] false ext1)
    (Tensor [2; 3; 2] (lz [1; 2; 4; 6; 9; 12; 10; 20; 25]%Z ++ [fr 100 3; fr 350 9; fr 140 3])) = true /\
  rteqb (cumulative_nd K P false (AInt (-2)) [0%Z] true ext1)
    (Tensor [2; 3; 2] [qz 1; qz 10; qz 4; qz 25; qz 9; fr 350 9; qz 2; qz 20; qz 6; fr 100 3; qz 12; fr 140 3]) = true /\
  (match cumulative_nd K P false (AInt 1) [0%Z] false ext1 with
   | Ok o => rteqb (cumulative_nd K P true (AInt 1) [0%Z] false o) ext1 | _ => false end) = true /\
  rteqb (reduce_data_grouped_nd K P [1; -1; 1]%Z (AInt 1) [0%Z] false ext1)
    (Tensor [2; 2; 2] (lz [0; 0; 6; 8; 0; 0]%Z ++ [fr 130 3; qz 50])) = true /\
  rteqb (resample_data_nd K P (Tensor [2; 3] (lz [1; 1; 1; 2; 0; 1]%Z)) (AInt 1) [0%Z] false ext1)
    (Tensor [2; 2; 2] [qz 9; qz 12; qz 7; qz 10; fr 350 9; fr 140 3; fr 270 7; qz 44]) = true /\
  resample_data_nd K P (Tensor [3; 2] (lz [1; 1; 1; 2; 0; 1]%Z)) (AInt 1) [0%Z] false ext1 = Raise EValue /\
  rteqb (reduce_data_indexed_nd K P [2; 0; 1]%Z [0; 1]%Z [1; 3]%Z None (AInt 1) [0%Z] false ext1)
    (Tensor [2; 2; 2] [qz 5; qz 6; qz 4; qz 6; qz 50; qz 60; qz 25; fr 100 3]) = true /\
  rteqb (jackknife_data_nd K P None (AInt 1) [0%Z] false ext1)
    (Tensor [2; 3; 2] (lz [8; 10; 6; 8; 4; 6]%Z ++ [fr 170 4; qz 52; fr 130 3; qz 50; qz 25; fr 100 3])) = true /\
  gteqb (rolling_data_nd K P 2 None false false (AInt 1) [0%Z] false ext1) [2; 3; 2]
    (map Some [] ++ [None; None] ++ map Some (lz [4; 6; 8; 10]%Z) ++ [None; None] ++ map Some [qz 25; fr 100 3; fr 170 4; qz 52]) = true /\
  gteqb (rolling_data_nd K P 2 None false true (AInt 1) [0%Z] false ext1) [2; 3; 2]
    (map Some (lz [0; 0; 4; 6; 8; 10]%Z) ++ [None; None] ++ map Some [qz 25; fr 100 3; fr 170 4; qz 52]) = true /\
  gteqb (rolling_data_nd K P 3 (Some 1%Z) true false (AInt 1) [0%Z] false ext1) [2; 3; 2]
    (map Some (lz [4; 6; 9; 12; 8; 10]%Z ++ [qz 25; fr 100 3; fr 350 9; fr 140 3; fr 170 4; qz 52])) = true.
Proof.
  cbv zeta. split; [apply ext1_axis; lia|]. split; [apply ext1_axis; lia|]. split; [exact ext1_moments|]. split; [apply ma_one; lia|].
  repeat split; vm_compute; reflexivity.
Qed.
(* decay factors of two axes: one for the decay, the other lined up with axis 2 of the data *)
Definition alpha2 : tensor := Tensor [2; 3] [fr 1 2; fr 1 2; fr 1 2; fr 1 4; fr 1 4; fr 1 4].
Example rolling_exp_ex : let K := pusher1 5 1 in let P := packer1 1 in
  decay_axis alpha2 (Some (AInt (-1))) 1 /\ aligns alpha2 [1] (except_nat (seq 0 (tndim ext1)) [1; 0]) (shape_of ext1) /\
  shape_of alpha2 1 = shape_of ext1 1 /\
  (forall env, inside (shape_of ext1) (except_nat (seq 0 (tndim ext1)) [1; 0]) env ->
    Forall (fun al => 0 <= al /\ al <= 1 /\ (true = false -> al <> 0))%Qc (decays alpha2 1 (shape_of ext1 1) (except_nat (seq 0 (tndim ext1)) [1; 0]) env)) /\
  gteqb (rolling_exp_data_nd K P alpha2 (Some (AInt (-1))) true (Some 2%Z) true (AInt 1) [0%Z] false ext1) [2; 3; 2]
    (map Some (lz [0; 0]%Z ++ [fr 7 2; fr 11 2; fr 27 4; fr 81 8]) ++ [None; None] ++ map Some [fr 190 7; fr 380 11; fr 1190 27; fr 4020 81]) = true /\
  rolling_exp_data_nd K P (Tensor [2] [fr 1 2; fr 1 2]) None true None false (AInt 1) [0%Z] false ext1 = Raise EValue.
Proof.
  cbv zeta. split; [unfold decay_axis; cbn; unfold is_axis; lia|]. split.
  { split; [reflexivity|]. split; [repeat constructor; intros []|]. split; [intros c [<-|[]]; cbn; lia|].
    split; [cbn; lia|]. cbn. intros p [<-|[]]. now left. }
  split; [reflexivity|]. split.
  { intros env I. assert (I2 := I 2 ltac:(cbn; auto)). unfold shape_of in I2. cbn in I2.
    unfold decays, aligned_entry, aligned_with, entry, tget. cbn. destruct (env 2) as [|[|k]]; [| |lia]; cbn; repeat constructor; try qle; discriminate. }
  split; vm_compute; reflexivity.
Qed.
Example no_axis_ex : no_axis [0%Z] (AInt 0) ext1 /\ no_axis [0%Z] (AInt 3) ext1 /\ no_axis [0%Z; (-3)%Z] (AInt 1) ext1 /\
  no_axis [0%Z] (AComplex (-3)) ext1.
Proof.
  repeat split; intros (a & M & H1 & H2 & N); inversion H1 as [|? x ? l Hx Hl]; subst.
  1, 2, 4: inversion Hl; subst; cbn in *; unfold is_axis in *; cbn in *; inversion N as [|? ? Na _]; subst; cbn in Na; lia.
  inversion Hl as [|? y ? l' Hy Hl']; subst. cbn in *. unfold is_axis in *. cbn in *. inversion N as [|? ? Na Nb]; subst. inversion Nb as [|? ? Nc _]; subst. cbn in *. lia.
Qed.
Example broadcast_ex : broadcasts [[3; 1]; [4]; []; [2; 1; 1]] [2; 3; 4] /\
  broadcast_shapes [[3; 1]; [4]; []; [2; 1; 1]] = Ok [2; 3; 4] /\ broadcast_shapes [[3; 2]; [3]] = Raise EValue.
Proof.
  split; [apply broadcast_shapes_ok; reflexivity|]. split; reflexivity.
Qed.
