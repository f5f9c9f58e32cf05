(* plain arrays moved into place, and exponential averages of labelled arrays: results by name. *)
From Coq Require Import String Permutation.
From Verif Require Import Base BaseLemmas ModelPush ModelKernels ModelIndex ModelAxes ModelParams ModelWrap ModelNd ModelLabel Spec SpecAxes SpecNd SpecLabel SpecLabelTwo
  Laws ProofSpec ProofAxes ProofArrays ProofIndex ProofMulti ProofNd PropAxes PropParams PropWrap PropLabelled PropNd ProofNdAt ProofNdVals ProofLabel ProofLabelMany ProofLabelReduce PropLabel PropLabelReduce PropLabelJack.
Local Open Scope string_scope.
Local Open Scope nat_scope.

(* moving the axes C to the end *)
Lemma aligned_moved t C L sh u : aligns t C L sh -> view u (except_nat (seq 0 (tndim t)) C ++ C) (shape_of t) (entry t) ->
  let C' := seq (tndim u - List.length C) (List.length C) in
  tndim u = tndim t /\ aligns u C' L sh /\ map (shape_of u) C' = map (shape_of t) C /\
  forall e c, inside sh L e -> valid (map (shape_of t) C) c -> aligned_entry u C' L e c = aligned_entry t C L e c.
Proof.
  intros (A1 & A2 & A3 & A4 & A5) V C'. set (E := except_nat (seq 0 (tndim t)) C) in *.
  assert (PE : Permutation (E ++ C) (seq 0 (tndim t))) by (apply except_perm; [exact A2|exact A3]).
  assert (Nu : tndim u = tndim t). { rewrite (view_ndim _ _ _ _ V), (Permutation_length PE). apply seq_length. }
  assert (Ln : tndim t = List.length E + List.length C) by (rewrite <- app_length, (Permutation_length PE), seq_length; reflexivity).
  assert (C'E : C' = seq (List.length E) (List.length C)) by (unfold C'; f_equal; lia). clearbody C'. subst C'.
  destruct V as (V1 & V2 & V3).
  assert (Sf : forall p, p < List.length E + List.length C -> shape_of u p = shape_of t (nth p (E ++ C) 0)).
  { intros p Hp. unfold shape_of at 1. rewrite V2. rewrite (nth_map_in _ _ _ _ 0) by (rewrite app_length; lia). reflexivity. }
  assert (NE : NoDup E) by (apply NoDup_filter, seq_NoDup).
  assert (Ne : except_nat (seq 0 (tndim u)) (seq (List.length E) (List.length C)) = seq 0 (List.length E)) by (rewrite Nu, Ln; apply except_seq_last).
  assert (W : forall p, p < List.length E -> aligned_with u (seq (List.length E) (List.length C)) L p = aligned_with t C L (nth p E 0)).
  { intros p Hp. unfold aligned_with. rewrite Ne, seq_length. fold E. f_equal. rewrite index_of_front by exact Hp. rewrite index_of_nth by assumption. reflexivity. }
  split; [exact Nu|]. split; [|split].
  - unfold aligns. rewrite Ne, seq_length. split; [exact V1|]. split; [apply seq_NoDup|]. split; [intros c Hc; apply in_seq in Hc; lia|]. split; [exact A4|].
    intros p Hp. apply in_seq in Hp. rewrite W, Sf by lia. rewrite app_nth1 by lia. apply A5, nth_In. lia.
  - rewrite map_seq_shift. rewrite <- (map_nth_seq (map (shape_of t) C) 0 (List.length C)) by now rewrite map_length. apply map_ext_in. intros k Hk. apply in_seq in Hk. rewrite Sf, app_nth2 by lia.
    replace (List.length E + k - List.length E) with k by lia. symmetry. now rewrite (nth_map_in _ _ _ _ 0) by lia.
  - intros e c He Hc. assert (Lc : List.length c = List.length C) by (apply valid_length in Hc; now rewrite map_length in Hc).
    unfold aligned_entry. set (f := fun p => if Nat.eqb (shape_of t p) 1 then 0 else e (aligned_with t C L p)). rewrite <- V3.
    + unfold entry. f_equal. rewrite Nu, Ln, seq_app, !map_app. f_equal.
      * rewrite <- (map_nth_seq (map (bind C c f) E) 0 (List.length E)) by now rewrite map_length. apply map_ext_in. intros p Hp. apply in_seq in Hp.
        rewrite (nth_map_in _ _ _ _ 0) by lia. rewrite bind_out by (rewrite in_seq; lia). rewrite bind_out; [unfold f; rewrite W, Sf, app_nth1 by lia; reflexivity|].
        assert (Q : In (nth p E 0) E) by (apply nth_In; lia). apply except_In in Q. tauto.
      * cbn [Nat.add]. rewrite <- (map_nth_seq (map (bind C c f) C) 0 (List.length C)) by now rewrite map_length. rewrite map_seq_shift. apply map_ext_in. intros k Hk. apply in_seq in Hk.
        rewrite (nth_map_in _ _ _ _ 0) by lia. rewrite !bind_in; [|exact A2|exact Lc|apply nth_In; lia|apply seq_NoDup|now rewrite seq_length|rewrite in_seq; lia].
        f_equal. rewrite index_of_nth by (assumption || lia). rewrite index_of_seq; lia.
    + intros p Hp. apply in_app_or in Hp. destruct (in_dec Nat.eq_dec p C) as [I|I].
      * rewrite bind_in by assumption. destruct (index_of_lt _ _ I) as [Q1 Q2]. rewrite <- Q2 at 2. rewrite <- (nth_map_in (shape_of t) C (index_of p C) 0 0) by exact Q1. apply valid_nth; [exact Hc|]. now rewrite map_length.
      * rewrite bind_out by exact I. destruct Hp as [Hp|Hp]; [|tauto]. unfold f. destruct (Nat.eqb_spec (shape_of t p) 1) as [->|Q]; [lia|]. destruct (A5 p Hp) as [Q'|Q']; [|tauto]. rewrite Q'. apply He.
        unfold aligned_with. fold E. apply nth_In. destruct (index_of_lt _ _ Hp). lia.
Qed.
Lemma moveaxis_aligned t C L sh : aligns t C L sh -> exists u, np_moveaxis (map Z.of_nat C) (axes_last (List.length C)) t = Ok u /\
  view u (except_nat (seq 0 (tndim t)) C ++ C) (shape_of t) (entry t).
Proof.
  intros (A1 & A2 & A3 & A4 & A5). destruct (moveaxis_view t (seq 0 (tndim t)) (shape_of t) (entry t) C (view_self t A1) A2) as (u & E & V); [rewrite seq_length; exact A3|].
  exists u. split; [exact E|]. rewrite seq_length in V. rewrite map_ext_in with (g := fun p => p) in V; [now rewrite map_id in V|].
  intros p Hp. apply seq_nth. apply in_app_or in Hp. destruct Hp as [Hp|Hp]; [apply except_In in Hp; rewrite in_seq in Hp; lia|auto].
Qed.
Lemma aligns_ext t C L sh sh' : (forall k, In k L -> sh k = sh' k) -> aligns t C L sh -> aligns t C L sh'.
Proof.
  intros H (A1 & A2 & A3 & A4 & A5). split; [exact A1|]. split; [exact A2|]. split; [exact A3|]. split; [exact A4|]. intros p Hp. destruct (A5 p Hp) as [Q|Q]; [left|now right]. rewrite Q. apply H.
  unfold aligned_with. apply nth_In. destruct (index_of_lt _ _ Hp). lia.
Qed.
Lemma is_axis_normalize n l M : Forall2 (is_axis n) l M -> NoDup M -> forall t dst, tndim t = n -> np_moveaxis l dst t = np_moveaxis (map Z.of_nat M) dst t.
Proof.
  intros F N t dst E. unfold np_moveaxis, moveaxis_order. rewrite E. rewrite (normalize_ints _ _ _ F N).
  rewrite (normalize_ints n (map Z.of_nat M) M); [reflexivity| |exact N]. clear N. induction F as [|z c l M H F IH]; constructor; [|exact IH]. split; [apply H|now left].
Qed.

Lemma decays_array d outer x alpha alpha_axis b : decays_given d outer x alpha alpha_axis b -> NoDup (outer ++ [d]) ->
  exists op ta c, match alpha with Plain t => rmap (fun q => Plain (snd q)) (prepare_alpha alpha_axis (dim_size x d) true t) | Labelled _ => Ok alpha end = Ok op /\
    labelled_of [op] = labelled_of [alpha] /\
    match op with Labelled z => broadcast_compat outer [d] z | Plain t => Ok t end = Ok ta /\ S c = tndim ta /\
    aligns ta [c] (seq 0 (List.length outer)) (fun k => dim_size x (nth k outer "")) /\ shape_of ta c = dim_size x d /\
    forall e env, (forall k, k < List.length outer -> e k = env (nth k outer "")) -> inside_names (dim_size x) outer env ->
      decays ta c (dim_size x d) (seq 0 (List.length outer)) e = decays_named d outer x alpha b env.
Proof.
  intros H N. destruct alpha as [z|t].
  - destruct H as (Hz & Id & Ii & Sz). assert (I2 : incl [d] (x_dims z)) by (intros n [<-|[]]; exact Id).
    destruct (broadcast_placed z outer [d] Hz N Ii I2) as (tz & E & Pz). pose proof (acc_ndim z outer [d] tz Pz) as An. pose proof (acc_cores z outer [d] tz I2 Pz) as Ac. cbn [List.length seq map] in An, Ac.
    exists (Labelled z), tz, (List.length (trim (x_dims z) outer)). split; [reflexivity|]. split; [reflexivity|]. split; [exact E|]. split; [lia|]. split; [|split].
    + apply (acc_aligns z outer [d] tz Pz). intros k Hk Hn. now apply Sz.
    + injection Ac as ->. now apply Sz.
    + intros e env He Hi. unfold decays, decays_named. destruct (Nat.eqb_spec (tndim tz) 0); [lia|]. apply map_ext_in. intros i Hk. apply in_seq in Hk.
      apply (acc_entry z outer [d] tz N Ii I2 Pz e env [i] He).
      * intros n' Hn Hn'. rewrite Sz by exact Hn'. now apply Hi.
      * cbn [map]. constructor; [|constructor]. rewrite Sz by exact Id. lia.
  - cbn [decays_given] in H. unfold prepare_alpha. destruct (Nat.eqb_spec (tndim t) 0) as [Z|Z].
    + destruct (tensor_full (dim_size x d) (tget t [])) as (G1 & G2 & G3). set (u := full (dim_size x d) (tget t [])) in *.
      assert (Nu : tndim u = 1) by (unfold tndim; now rewrite G2). assert (Su : shape_of u 0 = dim_size x d) by (unfold shape_of; now rewrite G2).
      exists (Plain u), u, 0. do 3 (split; [reflexivity|]). split; [now rewrite Nu|]. split; [|split; [exact Su|]].
      * unfold aligns. rewrite Nu. split; [exact G1|]. split; [repeat constructor; intros []|]. split; [intros c [<-|[]]; lia|]. cbn. split; [lia|intros p []].
      * intros e env He Hi. unfold decays, decays_named, decays, aligned_entry, entry. rewrite Nu, Z. cbn [Nat.eqb]. apply map_ext_in. intros i Hk. apply in_seq in Hk. cbn. apply G3. lia.
    + destruct H as [|(HB & HL & Hs)]; [tauto|]. 
      assert (Same : forall op, S b = tndim t -> op = Ok (Plain t) -> exists op' ta c, op = Ok op' /\ labelled_of [op'] = labelled_of [Plain t] /\
         match op' with Labelled z => broadcast_compat outer [d] z | Plain t => Ok t end = Ok ta /\ S c = tndim ta /\
         aligns ta [c] (seq 0 (List.length outer)) (fun k => dim_size x (nth k outer "")) /\ shape_of ta c = dim_size x d /\
         forall e env, (forall k, k < List.length outer -> e k = env (nth k outer "")) -> inside_names (dim_size x) outer env ->
           decays ta c (dim_size x d) (seq 0 (List.length outer)) e = decays_named d outer x (Plain t) b env).
      { intros op Sb ->. exists (Plain t), t, b. do 3 (split; [reflexivity|]). split; [exact Sb|]. split; [exact HL|]. split; [exact Hs|]. intros e env He Hi. cbn [decays_named]. unfold decays. apply map_ext_in. intros i Hk.
        destruct (Nat.eqb_spec (tndim t) 0); [reflexivity|]. destruct HL as (A1 & A2 & A3 & A4 & A5). apply aligned_entry_ext; auto. intros k Hk'. apply in_seq in Hk'. apply He. exact (proj2 Hk'). }
      destruct alpha_axis as [ax|]; cbn [decay_axis] in HB; [|apply (Same _ HB); reflexivity].
      destruct (Nat.eqb_spec (tndim t) 1) as [O|O]; [apply Same; [lia|reflexivity]|].
      assert (Ex : normalize_axis_index ax (tndim t) None = Ok b) by (now apply normalize_index_ok). rewrite Ex. cbn [rbind andb].
      assert (Bb : b < tndim t) by exact (names_axis_lt _ _ _ _ HB).
      assert (Pn : positive_to_negative_index (Z.of_nat b) (Z.of_nat (tndim t)) = (Z.of_nat b - Z.of_nat (tndim t))%Z).
      { unfold positive_to_negative_index. destruct (Z.ltb_spec (Z.of_nat b) 0); [lia|reflexivity]. }
      rewrite Pn. destruct (Z.eqb_spec (Z.of_nat b - Z.of_nat (tndim t)) (-1)) as [Eb|Eb]; cbn [negb].
      * apply Same; [lia|reflexivity].
      * destruct (moveaxis_aligned t [b] _ _ HL) as (u & Eu & Vu). cbn [List.length] in Eu. 
        assert (Fa : Forall2 (is_axis (tndim t)) [(Z.of_nat b - Z.of_nat (tndim t))%Z] [b]) by (constructor; [split; [lia|right; lia]|constructor]).
        rewrite (is_axis_normalize _ _ _ Fa ltac:(repeat constructor; intros []) t _ eq_refl). change [(-1)%Z] with (axes_last 1). rewrite Eu. cbn [rbind rmap snd].
        destruct (aligned_moved t [b] _ _ u HL Vu) as (Nu & M1 & M2 & M3). cbn [List.length seq] in M1, M2, M3.
        exists (Plain u), u, (tndim u - 1). do 3 (split; [reflexivity|]). split; [lia|]. split; [exact M1|]. cbn [map] in M2. split; [injection M2 as ->; exact Hs|].
        intros e env He Hi. cbn [decays_named]. unfold decays. rewrite Nu. destruct (Nat.eqb_spec (tndim t) 0); [lia|]. rewrite Nu in M3. apply map_ext_in. intros i Hk. apply in_seq in Hk. rewrite M3.
        -- destruct HL as (A1 & A2 & A3 & A4 & A5). apply aligned_entry_ext; auto. intros k Hk'. apply in_seq in Hk'. apply He. exact (proj2 Hk').
        -- intros k Hk'. apply in_seq in Hk'. rewrite He by exact (proj2 Hk'). apply Hi, nth_In. exact (proj2 Hk').
        -- constructor; [lia|constructor].
Qed.

(* an array without one of its core dimensions *)
Lemma broadcast_missing bdims core x n : In n core -> ~ In n (x_dims x) -> broadcast_compat bdims core x = Raise EValue.
Proof.
  intros I1 I2. unfold broadcast_compat. destruct (list_eq_dec string_dec _ _) as [E|_]; [exfalso; apply I2; rewrite <- E; apply in_or_app; now right|].
  destruct (existsb _ _); [reflexivity|]. set (l := (filter _ bdims ++ core)%list). assert (G : In n l) by (apply in_or_app; now right). clearbody l.
  assert (M : mapR (get_axis_num (x_dims x)) l = Raise EValue); [|now rewrite M].
  induction l as [|m l IH]; [destruct G|]. cbn [mapR]. unfold get_axis_num at 1. destruct (smem m (x_dims x)) eqn:S; [|reflexivity]. cbn [rbind]. destruct G as [->|G]; [apply smem_In in S; tauto|]. now rewrite (IH G).
Qed.
Lemma apply_ufunc_missing {T} x z c cz out_core (f : list tensor -> res (grid T)) n : x_ok x -> x_ok z -> NoDup c -> incl c (x_dims x) -> 
  (forall m, In m (x_dims x) -> In m (cz ++ out_core) -> In m c) -> In n cz -> ~ In n (x_dims z) ->
  apply_ufunc [(Labelled x, c); (Labelled z, cz)] out_core [] f = Raise EValue.
Proof.
  intros Hx Hz N I H Hn Nz. unfold apply_ufunc. cbn [map fst labelled_of flat_map app snd]. destruct (agree_dec [] x z Hx Hz) as [(m & M1 & M2 & M3 & M4)|Ag].
  { rewrite (unified_conflict [] [x; z] x z m); cbn; auto. }
  rewrite (unified_ok _ _ _ Ag). cbn [rbind]. rewrite map_map. cbn [fst]. rewrite map_id, filter_names, app_nil_r.
  set (core := ((c ++ cz) ++ out_core)%list). change (except_name (first_seen (except_name (flat_map x_dims [x; z]) [])) core) with (outer_dims [] core [x; z]).
  destruct (outer_broadcast [] core [x; z] x c) as (t & E); auto.
  - now left.
  - intros m Hm. unfold core. rewrite !in_app_iff. auto.
  - intros m Hm [Q|[]]. unfold core in Q. rewrite <- app_assoc in Q. apply in_app_or in Q. destruct Q as [Q|Q]; [exact Q|]. now apply H.
  - cbn [mapR fst snd]. rewrite E. cbn [rbind]. rewrite (broadcast_missing _ cz z n Hn Nz). reflexivity.
Qed.

Theorem rolling_exp_named : forall {A V} (K : pusher A V) ok P, moment_array K ok P ->
  forall alpha alpha_axis b adjust min_periods zero md axis dim d to_end x,
  labelled_moments P md x -> chooses (List.length md) axis dim d x -> ~ In d md ->
  let outer := except_name (x_dims x) (d :: md) in
  let r := x_rolling_exp_data K P (params_for md) alpha alpha_axis adjust min_periods zero axis dim to_end x in
  (decays_given d outer x alpha alpha_axis b ->
   by_name None (row_entry P zero)
    (fun env => of_opt EZeroDiv (rolling_exp_data K adjust (match min_periods with None => 1%Z | Some k => Z.max 1 k end)
                                   (combine (decays_named d outer x alpha b env) (rows_named P x [d] md env))))
    (result_dims to_end (x_dims x) d d md) (dim_size x) d md r) /\
  (forall z, alpha = Labelled z -> x_ok z ->
   (forall n, In n (x_dims x) -> In n (x_dims z) -> dim_size x n <> dim_size z n -> r = Raise EValue) /\
   (~ In d (x_dims z) -> r = Raise EValue)).
Proof.
  intros A V K ok P HMA alpha alpha_axis b adjust mp zero md axis dim d to_end x HM HC Nd outer r. pose proof (ma_packer _ _ _ HMA) as HP. unfold r, x_rolling_exp_data. clear r.
  begin_with (@start_named _ _ K ok P HMA x md axis dim d HM HC Nd). pose proof (chooses_dim _ _ _ _ _ HC) as Hd.
  pose proof (lm_NoDup P x md d HM Hd Nd) as NN. fold outer in NN.
  assert (Nod : NoDup (outer ++ [d])).
  { apply NoDup_app_iff in NN. destruct NN as (N1 & N2 & N3). apply NoDup_app_iff. split; [exact N1|]. split; [repeat constructor; intros []|]. intros n Hn [<-|[]]. apply (N3 d Hn). now left. }
  assert (Es : sizes (x_dims x) (x_shape x) d = Ok (dim_size x d)) by (now apply sizes_named). rewrite Es. cbn [rbind].
  split.
  - intros HR. destruct (decays_array d outer x alpha alpha_axis b HR Nod) as (op & ta & c & E1 & E2 & E3 & E4 & E5 & E6 & E7). rewrite E1. cbn [rbind].
    set (run := fun env => of_opt EZeroDiv (rolling_exp_data K adjust (match mp with None => 1%Z | Some k => Z.max 1 k end) (combine (decays_named d outer x alpha b env) (rows_named P x [d] md env)))).
    apply (by_name_ext None (row_entry P zero) run run _ (result_size (dim_size x) d (dim_size x d)) (dim_size x)).
    { intros n _. unfold result_size. destruct (String.eqb_spec n d); congruence. }
    { reflexivity. }
    apply (finish_by_name P x md d HM Hd Nd).
    assert (Lo : labelled_of (map fst [(op, [d])]) = labelled_of [alpha]) by exact E2.
    apply (operands P HP x md d HM Hd Nd [(op, [d])] [] d (dim_size x d) (dim_size x)) with (ts := [ta])
      (run := fun t e => of_opt EZeroDiv (rolling_exp_data K adjust (match mp with None => 1%Z | Some k => Z.max 1 k end)
         (combine (decays ta c (dim_size x d) (seq 0 (List.length outer)) e) (rows_along P t [List.length outer] (seq (S (List.length outer)) (List.length md)) e)))); auto.
    + rewrite Lo. intros z Hz. destruct alpha as [z'|t]; [|destruct Hz]. destruct Hz as [<-|[]]. destruct HR as (Hz & I2 & I1 & Sz). split; [exact Hz|]. intros n Hn. split; [|intros _; now apply Sz].
      left. destruct (in_app_or _ _ _ (I1 n Hn)) as [Q|[<-|[]]]; [apply except_name_In in Q; tauto|exact Hd].
    + intros n [<-|[]] _. now left.
    + cbn [mapR fst snd]. fold outer. rewrite E3. reflexivity.
    + intros t a' M HA Sd -> -> Ht Ho HRow. fold outer in HA, Sd, Ht, Ho, HRow |- *. split.
      * cbn [arg nth axis_value]. rewrite (rolling_exp_at_nd K P _ _ _ _ t HA ta).
        2: { destruct E5 as (_ & _ & E5 & _). specialize (E5 c (or_introl eq_refl)). lia. }
        2: { destruct E5 as (_ & Nc & Bc & Le & _). pose proof (except_length (seq 0 (tndim ta)) [c] (seq_NoDup _ _) Nc ltac:(intros q [<-|[]]; apply in_seq; specialize (Bc c (or_introl eq_refl)); lia)) as Q. rewrite !seq_length in *. cbn [List.length] in Q. lia. }
        pose proof (rolling_exp_array K ok P HMA ta None c adjust mp zero _ _ false _ _ t HA) as J. cbv zeta in J. rewrite Ht, except_seq in J. rewrite <- Sd. apply J.
        -- right. split; [exact E4|]. eapply aligns_ext; [|exact E5]. intros k Hk. apply in_seq in Hk. symmetry. apply Ho. exact (proj2 Hk).
        -- right. now rewrite E6.
      * intros e env He Hi. unfold run. rewrite (HRow e env He Hi), (E7 e env He Hi). reflexivity.
  - intros z -> Hz. cbn [rbind]. split.
    + intros n Ix Iz Dn. rewrite (apply_ufunc_conflict _ _ [] _ x z n); [reflexivity|cbn; auto|cbn; auto|apply HM|exact Hz|exact Ix|exact Iz|intros []|exact Dn].
    + intros Nz. rewrite (apply_ufunc_missing x z (d :: md) [d] (d :: md) _ d); [reflexivity|apply HM|exact Hz|constructor; [exact Nd|apply HM]| | |now left|exact Nz].
      * intros n [<-|Hn]; [exact Hd|now apply HM].
      * intros n _ [<-|Hn]; [now left|exact Hn].
Qed.

Lemma outer_inside {A} (P : packer A) x md d rep_dim to_end newlen env (HM : labelled_moments P md x) (Hd : In d (x_dims x)) (Nd : ~ In d md) : free_name x d rep_dim ->
  inside_names (result_size (dim_size x) (renamed d rep_dim) newlen) (except_name (result_dims to_end (x_dims x) d (renamed d rep_dim) md) (renamed d rep_dim :: md)) env ->
  inside_names (dim_size x) (except_name (x_dims x) (d :: md)) env.
Proof.
  intros Fn Hi n Hn. assert (Q : In n (except_name (result_dims to_end (x_dims x) d (renamed d rep_dim) md) (renamed d rep_dim :: md))).
  { apply except_name_In. pose proof Hn as Hn'. apply except_name_In in Hn'. destruct Hn' as [H1 H2]. split.
    - destruct to_end; [cbn [result_dims]; apply in_or_app; now left|]. apply (result_dims_In P x md d HM Hd Nd); [exact Fn|]. apply in_or_app. now left.
    - intros [<-|Q]; [|apply H2; now right]. destruct Fn as [Fn|Fn]; [rewrite Fn in H2; apply H2; now left|tauto]. }
  pose proof (Hi n Q) as L. unfold result_size in L. destruct (String.eqb_spec n (renamed d rep_dim)) as [->|]; [|exact L]. apply except_name_In in Q. destruct Q as [_ Q]. elim Q. now left.
Qed.
(* plain moments to take samples away from, with their axes anywhere *)
Theorem jackknife_moved_named : forall {A V} (K : pusher A V) ok P, moment_array K ok P ->
  forall red ma C rep_dim md axis dim d to_end x, labelled_moments P md x -> chooses (List.length md) axis dim d x -> ~ In d md ->
  let outer := except_name (x_dims x) (d :: md) in let rd := renamed d rep_dim in
  Forall2 (is_axis (tndim red)) ma C -> aligns red C (seq 0 (List.length outer)) (fun k => dim_size x (nth k outer "")) -> map (shape_of red) C = pk_shape P ->
  let r := x_jackknife_data K P (params_for md) (Some (Plain red, Some ma)) rep_dim axis dim to_end x in
  (free_name x d rep_dim ->
   by_name 0%Qc (pk_unpack P) (fun env => of_opt EZeroDiv (jackknife_data_from K (pk_pack P (aligned_entry red C (seq 0 (List.length outer)) (fun k => env (nth k outer "")))) (rows_named P x [d] md env)))
     (result_dims to_end (x_dims x) d rd md) (result_size (dim_size x) rd (dim_size x d)) rd md r) /\
  (~ free_name x d rep_dim -> exists e, r = Raise e).
Proof.
  intros A V K ok P HMA red ma C rep_dim md axis dim d to_end x HM HC Nd outer rd F HL HS r. pose proof (ma_packer _ _ _ HMA) as HP. pose proof (chooses_dim _ _ _ _ _ HC) as Hd.
  assert (LC : List.length C = List.length md). { rewrite (lm_len P x md HM), <- HS. now rewrite map_length. }
  destruct (moveaxis_aligned red C _ _ HL) as (u & Eu & Vu). destruct (aligned_moved red C _ _ u HL Vu) as (Nu & M1 & M2 & M3).
  assert (Er : r = x_jackknife_data K P (params_for md) (Some (Plain u, None)) rep_dim axis dim to_end x).
  { unfold r, x_jackknife_data at 1. assert (Ea : array_axes (params_for md) = Ok (axes_last (List.length md))). { unfold array_axes, x_to_array, get_axes. cbn [xp_ndim params_for rbind]. destruct (ma_ndim K ok P HMA) as [L|L]; rewrite <- (lm_len P x md HM) in L; rewrite L; reflexivity. }
    rewrite Ea. cbn [rbind]. rewrite (is_axis_normalize _ _ _ F (proj1 (proj2 HL)) red _ eq_refl), <- LC, Eu. reflexivity. }
  rewrite Er. clearbody r. clear Er r. rewrite LC in M1, M2, M3. rewrite HS in M2, M3.
  assert (HG : moments_given P md outer (dim_size x) (Plain u)). { cbn [moments_given]. split; [|split; [exact M1|exact M2]]. rewrite Nu, <- LC.
    destruct HL as (A1 & A2 & A3 & A4 & A5). rewrite <- (seq_length (tndim red) 0). apply NoDup_incl_length; [exact A2|]. intros c Hc. apply in_seq. specialize (A3 c Hc). lia. }
  destruct (jackknife_given_named K ok P HMA (Plain u) rep_dim md axis dim d to_end x HM HC Nd) as [J _]. cbv zeta in J. destruct (J HG) as [J1 J2]. split; [|exact J2]. intros Fn.
  eapply by_name_ext; [reflexivity| |exact (J1 Fn)]. intros env Hi. cbv beta. do 2 f_equal. cbn [given_at]. apply (proj1 HP). intros m Hm. apply M3; [|exact Hm].
  intros k Hk. apply in_seq in Hk. apply (outer_inside P x md d rep_dim to_end _ env HM Hd Nd Fn Hi). apply nth_In. exact (proj2 Hk).
Qed.

