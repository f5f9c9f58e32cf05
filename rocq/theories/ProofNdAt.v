(* The calls of _resample_data, _jackknife_data and _rolling_exp_data with a negative
   axis are those with the axis counted from the front, when the other operand has no
   more loop dimensions than the data. *)
From Verif Require Import Base BaseLemmas ModelPush ModelKernels ModelIndex ModelAxes ModelNd Spec SpecAxes SpecNd.
From Verif Require Import ProofAxes ProofArrays ProofNd PropAxes PropNd.

Lemma outer_axes_length n C : NoDup C -> (forall c, In c C -> c < n) -> length (outer_axes n C) = n - length C.
Proof. intros N B. assert (EO : outer_axes n C = except_nat (seq 0 n) C) by apply except_filter. rewrite EO. pose proof (except_length (seq 0 n) C (seq_NoDup _ _) N) as L. rewrite seq_length in L. assert (I : incl C (seq 0 n)) by (intros c Hc; apply in_seq; specialize (B c Hc); lia). specialize (L I). lia. Qed.
Lemma core_axes_ok o zs p : core_axes (o, zs) = Ok p -> exists C, p = (o, C) /\ length (loop_shape p) = tndim o - length zs.
Proof.
  unfold core_axes. cbn [fst snd]. destruct (normalize_axis_tuple _ _ _ _) as [C|] eqn:E; [|discriminate]. cbn [rbind]. intros [= <-]. exists C. split; [reflexivity|]. apply tuple_ints in E. destruct E as [F N].
  unfold loop_shape. cbn [fst snd]. rewrite map_length, outer_axes_length; [now rewrite (Forall2_len _ _ _ F)|exact N|]. intros c Hc. clear N. induction F as [|z c' zs C H F IH]; [destruct Hc|]. destruct Hc as [<-|Hc]; [apply H|auto].
Qed.
Lemma gufunc_at {T} (d : T) o oc t ax mom a M cs f : Forall2 (is_axis (tndim t)) (ax :: mom) (a :: M) -> NoDup (a :: M) ->
  tndim o - length oc <= tndim t - length (a :: M) ->
  gufunc d [(o, oc); (t, ax :: mom)] (ax :: mom) cs f = gufunc d [(o, oc); (t, Z.of_nat a :: mom)] (Z.of_nat a :: mom) cs f.
Proof.
  intros F N Le. assert (F' : Forall2 (is_axis (tndim t)) (Z.of_nat a :: mom) (a :: M)) by (inversion F; subst; constructor; [split; [apply H2|now left]|assumption]).
  assert (Bd : length (a :: M) <= tndim t).
  { rewrite <- (seq_length (tndim t) 0). apply NoDup_incl_length; [exact N|]. intros c Hc. apply in_seq. clear - F Hc. induction F as [|z c' zs C H F IH]; [destruct Hc|]. destruct Hc as [<-|Hc]; [destruct H; lia|auto]. }
  unfold gufunc. cbn [mapR]. assert (E1 : core_axes (t, ax :: mom) = Ok (t, a :: M)) by (unfold core_axes; cbn [fst snd]; now rewrite (normalize_ints _ _ _ F N)).
  assert (E2 : core_axes (t, Z.of_nat a :: mom) = Ok (t, a :: M)) by (unfold core_axes; cbn [fst snd]; now rewrite (normalize_ints _ _ _ F' N)). rewrite E1, E2.
  destruct (core_axes (o, oc)) as [p|] eqn:Eo; [|reflexivity]. cbn [rbind]. destruct (core_axes_ok _ _ _ Eo) as (C & -> & Lo).
  destruct (core_axes_ok _ _ _ E1) as (C' & _ & Lt). destruct (broadcast_shapes _) as [loop|] eqn:Eb; [|reflexivity]. cbn [rbind].
  apply broadcast_shapes_ok in Eb. destruct Eb as (B1 & B2 & _).
  assert (Ll : length loop + length (ax :: mom) = tndim t).
  { pose proof (Forall2_len _ _ _ F) as LF. pose proof (B1 _ (or_intror (or_introl eq_refl))) as B3. destruct B2 as [->|(s & [<-|[<-|[]]] & Es)]; cbn [length] in *; lia. }
  replace (length loop + length (Z.of_nat a :: mom)) with (tndim t) by (rewrite <- Ll; reflexivity). rewrite Ll, (normalize_ints _ _ _ F N), (normalize_ints _ _ _ F' N). reflexivity.
Qed.

Section At.
  Context {A V : Type} (K : pusher A V) (P : packer A) (mom : list Z) (ax : Z) (a : nat) (M : list nat) (t : tensor).
  Hypothesis HA : axis_of_moments P mom (AInt ax) a M t.
  Let m := length mom.
  Let F : Forall2 (is_axis (tndim t)) (ax :: mom) (a :: M).
  Proof. destruct HA as (_ & H1 & H2 & _). constructor; assumption. Qed.
  Let N : NoDup (a :: M).
  Proof. apply HA. Qed.
  Lemma at_prepared : prepare_data (AInt ax) mom false t = Ok (Z.of_nat a, mom, t).
  Proof. unfold prepare_data. assert (E : normalize_axis_index (AInt ax) (tndim t) (Some (length mom)) = Ok a) by (apply normalize_index_ok; inversion F; assumption). rewrite E. reflexivity. Qed.
  Lemma at_dim : dim_at t ax = dim_at t (Z.of_nat a).
  Proof. inversion F as [|? ? ? ? H]; subst. unfold dim_at. destruct H as [H1 [->|H2]]; [reflexivity|]. f_equal. f_equal. destruct (Z.ltb_spec ax 0), (Z.ltb_spec (Z.of_nat a) 0); lia. Qed.
  Lemma resample_at_nd freq : tndim freq <= 2 + (tndim t - S (length M)) -> resample_data_at K P freq ax mom t = resample_data_nd K P freq (AInt ax) mom false t.
  Proof.
    intros L. unfold resample_data_nd. rewrite at_prepared. cbn [rbind]. unfold resample_data_at. rewrite at_dim.
    destruct (shape_at freq (-2)); [|reflexivity]. cbn [rbind]. destruct (shape_at freq (-1)); [|reflexivity]. cbn [rbind]. destruct (negb _); [reflexivity|].
    rewrite (gufunc_at 0%Qc freq [(-2)%Z; (-1)%Z] t ax mom a M _ _ F N) by (cbn [length]; lia). reflexivity.
  Qed.
  Lemma jackknife_at_nd r : tndim r <= m + (tndim t - S (length M)) -> jackknife_data_at K P (r, axes_last m) ax mom t = jackknife_data_nd K P (Some (r, None)) (AInt ax) mom false t.
  Proof.
    intros L. unfold jackknife_data_nd. rewrite at_prepared. cbn [rbind]. unfold jackknife_data_at. rewrite at_dim. fold m.
    rewrite (gufunc_at 0%Qc r (axes_last m) t ax mom a M _ _ F N); [reflexivity|]. assert (Ll : length (axes_last m) = m) by (unfold axes_last; now rewrite map_length, seq_length). rewrite Ll. cbn [length]. lia.
  Qed.
  Lemma rolling_exp_at_nd alpha adjust mp zero : 0 < tndim alpha -> tndim alpha <= 1 + (tndim t - S (length M)) ->
    rolling_exp_data_at K P alpha (-1) adjust mp zero ax mom t = rolling_exp_data_nd K P alpha None adjust mp zero (AInt ax) mom false t.
  Proof.
    intros L0 L. unfold rolling_exp_data_nd. rewrite at_prepared. cbn [rbind]. unfold prepare_alpha. destruct (Nat.eqb_spec (tndim alpha) 0); [lia|].
    cbn [rbind]. unfold rolling_exp_data_at. rewrite at_dim. destruct (shape_at alpha (-1)); [|reflexivity]. cbn [rbind]. destruct (negb _); [reflexivity|].
    rewrite (gufunc_at None alpha [(-1)%Z] t ax mom a M _ _ F N) by (cbn [length]; lia). reflexivity.
  Qed.
End At.
