(* Functions of Datasets of values: jackknife; results that go into one Dataset. *)
From Coq Require Import String Permutation.
From Verif Require Import Base BaseLemmas ModelPush ModelKernels ModelIndex ModelAxes ModelSelect ModelParams ModelWrap ModelNd ModelLabel ModelDataset Spec SpecAxes SpecNd SpecLabel SpecLabelTwo SpecLabelVals SpecDataset
  ProofAxes ProofArrays ProofIndex ProofNd PropAxes PropParams PropWrap PropLabelled PropNd PropNdUse ProofLabel ProofLabelMany ProofLabelVals PropLabel PropLabelTwo PropLabelReduce PropLabelJack PropLabelExp PropLabelVals PropLabelValsMore ProofDataset PropDataset PropDatasetTwo PropDatasetReduce PropDatasetVals.
Local Open Scope string_scope.
Local Open Scope nat_scope.

(* ---- jackknife ------------------------------------------------------------------------------------ *)

Lemma labelled_In x l : In x (labelled_of l) <-> In (Labelled x) l.
Proof.
  unfold labelled_of. rewrite in_flat_map. split.
  - intros ([z|t] & I & Q); [destruct Q as [->|[]]; exact I|destruct Q].
  - intros I. exists (Labelled x). split; [exact I|now left].
Qed.
(* names of the dimensions of one result *)
Section Names.
  Context {T : Type} (dflt : T) (s : xset) (d : sname) (n : nat) (others : list dop) (ex : list (dop * list sname)).
  Hypotheses (Hs : set_ok s) (Hf : all_fit s (others ++ map fst ex)) (Low : forall a, In a others -> one_axis a).
  Let chosen (v : sname * xarr) : bool := (has_values d others v && forallb (fun a => part_has (snd a) (fst v) (fst a)) ex)%bool.
  Lemma one_names md (F : list tensor -> res (grid T)) to_end v o g : moment_names md -> ~ In d md -> moments_free md s -> In v s -> chosen v = true ->
    Forall2 (fun a b => arrays_of b = arrays_of a /\ (fits s a -> fits s b) /\ forall ds n, part_has ds n b = part_has ds n a) others o ->
    rbind (apply_ufunc (values_args d (snd v) (map (its_part (fst v)) o) ++ map (fun a => (its_part (fst v) (fst a), snd a)) ex) (d :: md) [] F) (finish_values dflt to_end (snd v) (fun n => n) md) = Ok g ->
    lg_wf g /\ (forall m, In m (lg_dims g) -> In m (d :: md) \/ In m (x_dims (snd v)) \/ exists a x, In a (others ++ map fst ex) /\ In x (arrays_of a) /\ In m (x_dims x)) /\ In d (lg_dims g).
  Proof.
    intros Hm Nd Mf Iv C F2 E. pose proof (proj1 (proj2 Hs) v Iv) as Hx. assert (Nx : NoDup (d :: md)) by (constructor; [exact Nd|apply Hm]).
    destruct (apply_ufunc _ _ _ _) as [g0|] eqn:Ap; [|discriminate]. cbn [rbind] in E. destruct (apply_dims _ _ _ _ _ Nx Ap) as [W (pre & Epre)].
    assert (Bk : forall b, In b (o ++ map fst ex) -> exists a, In a (others ++ map fst ex) /\ arrays_of b = arrays_of a /\ fits s b).
    { intros b Ib. apply in_app_or in Ib as [Ib|Ib]; [|exists b; repeat split; [apply in_or_app; now right|apply Hf, in_or_app; now right]].
      assert (Q : exists a, In a others /\ arrays_of b = arrays_of a /\ (fits s a -> fits s b)).
      { clear -F2 Ib. induction F2 as [|a c l o (H1 & H2 & _) F IH]; [destruct Ib|]. destruct Ib as [->|I]; [exists a; repeat split; auto; now left|]. destruct (IH I) as (a' & ? & ?). exists a'. split; [now right|assumption]. }
      destruct Q as (a & Ia & Ea & Fa). exists a. split; [apply in_or_app; now left|]. split; [exact Ea|]. apply Fa, Hf, in_or_app. now left. }
    assert (Oks : forall x, In x (labelled_of (map fst (values_args d (snd v) (map (its_part (fst v)) o) ++ map (fun a => (its_part (fst v) (fst a), snd a)) ex))) ->
      x_ok x /\ (x = snd v \/ exists a, In a (others ++ map fst ex) /\ In x (arrays_of a))).
    { intros x Ix. apply labelled_In in Ix. rewrite map_app in Ix. unfold values_args in Ix. rewrite !map_map in Ix. cbn [fst map] in Ix. destruct Ix as [[= <-]|Ix]; [auto|].
      assert (Q : exists b, In b (o ++ map fst ex) /\ Labelled x = its_part (fst v) b).
      { apply in_app_or in Ix as [Ix|Ix]; apply in_map_iff in Ix as (b & Eb & Ib).
        - apply in_map_iff in Ib as (c & <- & Ic). exists c. split; [apply in_or_app; now left|auto].
        - exists (fst b). split; [apply in_or_app; right; apply in_map_iff; now exists b|auto]. }
      destruct Q as (b & Ib & Eb). destruct (Bk b Ib) as (a & Ia & Ea & Fb). destruct (part_array s b v x Fb) as [Q1 Q2]; [apply labelled_In; rewrite <- Eb; now left|]. split; [exact Q2|]. right. exists a. split; [exact Ia|]. now rewrite <- Ea. }
    assert (Names : forall m, In m (lg_dims g0) -> In m (d :: md) \/ In m (x_dims (snd v)) \/ exists a x, In a (others ++ map fst ex) /\ In x (arrays_of a) /\ In m (x_dims x)).
    { intros m Hn. apply (apply_names _ _ _ _ _ Ap (fun x Ix => proj1 (Oks x Ix))) in Hn as [Hn|(_ & _ & x & Ix & Hn)]; [now left|right]. destruct (Oks x Ix) as (_ & [->|(a & Ia & Q)]); [now left|right; eauto]. }
    assert (Hd0 : In d (lg_dims g0)) by (rewrite Epre; apply in_or_app; right; now left).
    unfold finish_values in E. destruct to_end; [injection E as <-; auto|]. rewrite transpose_like_front, map_id in E.
    destruct (transposed_names dflt (x_dims (snd v) ++ md) g0 g W) as [W' N'].
    { apply NoDup_filter. rewrite <- (map_id (x_dims (snd v))). now apply (order_free md s). }
    { exact E. }
    split; [exact W'|]. split; [intros m Hn; apply Names, N', Hn|]. now apply N'.
  Qed.
End Names.

Lemma xprepare_name n d x others d' o : xprepare_values n Missing (Val d) x others = Ok (d', o) -> d' = d.
Proof.
  unfold xprepare_values. destruct (negb _); [discriminate|]. destruct (select_axis_dim _ _ _ _ _ _ _) as [(a & d1)|] eqn:E; [|discriminate]. cbn [rbind]. intros H.
  assert (d1 = d). { unfold select_axis_dim, guard in E. cbn [validate_not_none rbind axis_dim_defaults is_missing andb negb] in E. destruct (get_axis_num (x_dims x) d); [|discriminate]. cbn [rbind snd] in E. unfold raise_if_dim_in_mom_dims in E. cbn [default_x_params xp_dims rbind] in E. congruence. }
  destruct (sizes _ _ _); [|discriminate]. cbn [rbind] in H. destruct (mapR _ _); [|discriminate]. cbn [rbind] in H. congruence.
Qed.
Lemma dprepare_name n d s others d' o : ds_prepare_values n Missing (Val d) s others = Ok (d', o) -> d' = d.
Proof.
  unfold ds_prepare_values. destruct (negb _); [discriminate|]. destruct (ds_dims s) as [dims|]; [|discriminate]. cbn [rbind]. destruct (select_axis_dim _ _ _ _ _ _ _) as [(a & d1)|] eqn:E; [|discriminate]. cbn [rbind]. intros H.
  assert (d1 = d). { unfold select_axis_dim, guard in E. cbn [validate_not_none rbind axis_dim_defaults is_missing andb negb] in E. unfold raise_if_dim_in_mom_dims in E. cbn [default_x_params xp_dims rbind] in E. congruence. }
  destruct (ds_size _ _); [|discriminate]. cbn [rbind] in H. destruct (hd_error s); [|discriminate]. cbn [of_opt rbind] in H. destruct (mapR _ _); [|discriminate]. cbn [rbind] in H. congruence.
Qed.

Theorem jackknife_vals_given_set : forall {A V} (K : pusher A V) (P : packer A) (R : reader V) red rep_dim md d to_end s w y, set_ok s -> moment_names md -> ~ In d md -> moments_free md s ->
  all_fit s (w :: y ++ [red]) -> (forall a, In a (w :: y) -> one_axis a) -> new_free d rep_dim s -> (forall a, In a (w :: y ++ [red]) -> new_free_in d rep_dim a) -> (forall n, rep_dim = Some n -> ~ In n md) ->
  (exists v, In v s /\ (has_values d (w :: y) v && part_has md (fst v) red)%bool = true) ->
  each_variable (fun v => if (has_values d (w :: y) v && part_has md (fst v) red)%bool
                          then x_jackknife_vals K P R (params_for md) (Some (its_part (fst v) red)) rep_dim Missing (Val d) to_end (snd v) (its_part (fst v) w) (map (its_part (fst v)) y)
                          else Ok (renamed_grid d rep_dim (passed (fun q => q) (if to_end then d :: md else (x_dims (snd v) ++ md)%list) (snd v))))
    s (ds_jackknife_vals K P R (params_for md) (Some red) rep_dim Missing (Val d) to_end s w y).
Proof.
  intros A V K P R red rep md d to_end s w y Hs Hm Nd Mf Hf Low Nf Nf' Nm Ch.
  set (F := fun ts => call_values (fun x w y => rmap to_grid (jackknife_vals_nd K P R (Some (last ts (Tensor [0] []))) (AInt (-1)) false x w y)) (removelast ts)).
  set (ch := fun v => (has_values d (w :: y) v && part_has md (fst v) red)%bool).
  assert (Ch' : exists v, In v s /\ (has_values d (w :: y) v && forallb (fun a => part_has (snd a) (fst v) (fst a)) [(red, md)])%bool = true).
  { destruct Ch as (v & Iv & C). exists v. cbn [forallb fst snd]. rewrite andb_true_r. auto. }
  pose (base := fun v : sname * xarr => if ch v then x_jackknife_vals K P R (params_for md) (Some (its_part (fst v) red)) None Missing (Val d) to_end (snd v) (its_part (fst v) w) (map (its_part (fst v)) y)
                          else Ok (passed (fun q => q) (if to_end then d :: md else (x_dims (snd v) ++ md)%list) (snd v))).
  assert (Er : ds_jackknife_vals K P R (params_for md) (Some red) rep Missing (Val d) to_end s w y = rbind (ds_jackknife_vals K P R (params_for md) (Some red) None Missing (Val d) to_end s w y) (ds_rename d rep)).
  { unfold ds_jackknife_vals. cbn [rbind]. destruct (ds_prepare_values _ _ _ _ _) as [(d' & o)|] eqn:E; [|reflexivity]. apply dprepare_name in E. subst d'. cbn [rbind]. rewrite params_core, params_dims. cbn [rbind]. destruct (ds_apply _ _ _ _ _ _ _); [|reflexivity]. cbn [rbind]. destruct (ds_finish _ _ _ _ _ _ _); reflexivity. }
  assert (Ex : forall x p q l, x_jackknife_vals K P R (params_for md) (Some p) rep Missing (Val d) to_end x q l = rbind (x_jackknife_vals K P R (params_for md) (Some p) None Missing (Val d) to_end x q l) (opt_rename d rep)).
  { intros x p q l. unfold x_jackknife_vals. cbn [rbind]. destruct (xprepare_values _ _ _ _ _) as [(d' & o)|] eqn:E; [|reflexivity]. apply xprepare_name in E. subst d'. cbn [rbind]. rewrite params_core, params_dims. cbn [rbind]. destruct (apply_ufunc _ _ _ _); [|reflexivity]. cbn [rbind]. destruct (finish_values _ _ _ _ _ _); reflexivity. }
  assert (HB : each_variable base s (ds_jackknife_vals K P R (params_for md) (Some red) None Missing (Val d) to_end s w y)).
  { eapply each_ext; [|apply (values_set 0%Qc (fun q => q) s d (S (mom_ndim P)) (w :: y) [(red, md)] Hs) with (out_core := d :: md) (F := F) (to_end := to_end) (replace := fun n => n) (append := md)
      (fx := fun v => x_jackknife_vals K P R (params_for md) (Some (its_part (fst v) red)) None Missing (Val d) to_end (snd v) (its_part (fst v) w) (map (its_part (fst v)) y))].
    - intros v _. unfold base, ch. cbn [forallb fst snd]. rewrite andb_true_r, map_id. reflexivity.
    - exact Hf.
    - exact Low.
    - exact Ch'.
    - constructor; [exact Nd|apply Hm].
    - intros _ v Iv. now apply (order_free md s).
    - intros e E. unfold ds_jackknife_vals. cbn [rbind]. now rewrite E.
    - intros o E. unfold ds_jackknife_vals. cbn [rbind]. rewrite E. cbn [rbind]. rewrite params_core, params_dims. cbn [rbind app]. destruct (ds_apply _ _ _ _ _ _ _); [|reflexivity]. cbn [rbind]. destruct (ds_finish _ _ _ _ _ _ _); reflexivity.
    - intros v e E. unfold x_jackknife_vals. cbn [rbind]. cbn [map] in E. now rewrite E.
    - intros v o E. unfold x_jackknife_vals. cbn [rbind]. cbn [map] in E. rewrite E. cbn [rbind]. rewrite params_core, params_dims. cbn [rbind map app fst snd]. destruct (apply_ufunc _ _ _ _); [|reflexivity]. cbn [rbind]. unfold finish_values. destruct to_end; [reflexivity|]. destruct (transpose_like _ _ _ _ _ _); reflexivity. }
  assert (Ord : forall v, In v s -> NoDup (filter (fun n => smem n (x_dims (snd v))) (if to_end then d :: md else (x_dims (snd v) ++ md)%list))).
  { intros v Iv. apply NoDup_filter. destruct to_end; [constructor; [exact Nd|apply Hm]|]. rewrite <- (map_id (x_dims (snd v))). now apply (order_free md s). }
  assert (Hd : forall v, ch v = true -> In d (x_dims (snd v))).
  { intros v C. unfold ch, has_values in C. apply andb_true_iff in C as [C _]. apply andb_true_iff in C as [C _]. apply has_names_In in C. apply C. now left. }
  assert (Nn : forall v g, In v s -> base v = Ok g -> lg_wf g /\ (forall m, In m (lg_dims g) -> In m (d :: md) \/ In m (x_dims (snd v)) \/ exists a x, In a (w :: y ++ [red]) /\ In x (arrays_of a) /\ In m (x_dims x)) /\ (ch v = true -> In d (lg_dims g))).
  { intros v g Iv E. unfold base in E. destruct (ch v) eqn:C.
    - assert (C' : (has_values d (w :: y) v && forallb (fun a => part_has (snd a) (fst v) (fst a)) [(red, md)])%bool = true) by (cbn [forallb fst snd]; now rewrite andb_true_r).
      destruct (values_prepared s d (S (mom_ndim P)) (w :: y) [(red, md)] Hs Hf Low Ch') as [(e & _ & X)|(o & _ & F2 & X)]; specialize (X v Iv C'); cbn [map] in X; unfold x_jackknife_vals in E; cbn [rbind] in E; rewrite X in E; [discriminate|]. cbn [rbind] in E. rewrite params_core, params_dims in E. cbn [rbind app] in E.
      destruct (one_names 0%Qc s d (w :: y) [(red, md)] Hs Hf md F to_end v o g Hm Nd Mf Iv C' F2) as (N1 & N2 & N3).
      { cbn [map fst snd]. fold F in E. destruct (apply_ufunc _ _ _ _) as [g0|]; [|discriminate]. cbn [rbind] in *. destruct (finish_values _ _ _ _ _ _); [|discriminate]. cbn [rbind opt_rename] in E. exact E. }
      split; [exact N1|]. split; [exact N2|auto].
    - injection E as <-. destruct (passed_wf (fun q => q) (if to_end then d :: md else (x_dims (snd v) ++ md)%list) (snd v) (proj1 (proj2 Hs) v Iv) (Ord v Iv)) as [W N']. split; [exact W|]. split; [|discriminate]. intros m Hm'. right. left. now apply N'. }
  assert (Fr : forall n, rep = Some n -> n <> d -> forall v g, In v s -> base v = Ok g -> ~ In n (lg_dims g)).
  { intros n En Hn v g Iv E Q. destruct (Nn v g Iv E) as (_ & N' & _). destruct (N' n Q) as [[Q1|Q1]|[Q1|(a & x & Ia & Ix & Q1)]]; [congruence|now apply (Nm n En)|now apply (Nf n En Hn v Iv)|now apply (Nf' a Ia n En Hn x Ix)]. }
  rewrite Er. eapply each_ext; [|apply (each_rename base d rep s _ HB)].
  - intros v Iv. cbn beta. fold (ch v). unfold base. destruct (ch v) eqn:C; [now rewrite Ex|]. cbn [rbind].
    assert (B : base v = Ok (passed (fun q => q) (if to_end then d :: md else (x_dims (snd v) ++ md)%list) (snd v))) by (unfold base; now rewrite C).
    apply rename_wf; [now apply (Nn v _ Iv B)|]. intros n En Hn. now apply (Fr n En Hn v).
  - intros v g Iv E. now apply (Nn v g Iv E).
  - exact Fr.
  - right. destruct Ch as (v & Iv & C). exists v. split; [exact Iv|]. intros g E. now apply (Nn v g Iv E).
Qed.

(* ---- results that go into one Dataset ------------------------------------------------------------- *)

(* sz are the sizes of all dimensions *)
Definition sized_by (sz : sname -> nat) (s : xset) (l : list dop) : Prop :=
  (forall v n, In v s -> In n (x_dims (snd v)) -> dim_size (snd v) n = sz n) /\ forall a x n, In a l -> In x (arrays_of a) -> In n (x_dims x) -> dim_size x n = sz n.
(* the variables with the dimension are values that go with their arguments *)
Definition values_where {A} (P : packer A) (d : sname) (md : list sname) (sz : sname -> nat) (s : xset) (w : dop) (y : list dop) : Prop :=
  sized_by sz s (w :: y) /\ forall v, In v s -> has_values d (w :: y) v = true -> values_given P d md sz (snd v) (its_part (fst v) w) (map (its_part (fst v)) y).

Lemma passed_by {T} (inj : Qc -> T) sz s l order v : set_ok s -> sized_by sz s l -> In v s -> NoDup (filter (fun n => smem n (x_dims (snd v))) order) ->
  exists dims, NoDup dims /\ incl dims (x_dims (snd v)) /\ l_named sz dims (passed inj order (snd v)).
Proof.
  intros Hs Hz Iv No. destruct (passed_any_sized inj s order v Hs Iv No) as (dims & N & I & L). exists dims. split; [exact N|]. split; [exact I|]. eapply named_resize; [|exact L]. intros n Hn. rewrite <- (proj1 Hz v n Iv (I n Hn)). apply set_size_of; auto.
Qed.
Lemma free_order md s v to_end d : set_ok s -> moment_names md -> moments_free md s -> ~ In d md -> In v s ->
  NoDup (filter (fun n => smem n (x_dims (snd v))) (if to_end : bool then d :: md else (x_dims (snd v) ++ md)%list)).
Proof. intros Hs Hm Mf Nd Iv. apply NoDup_filter. destruct to_end; [constructor; [exact Nd|apply Hm]|]. rewrite <- (map_id (x_dims (snd v))). now apply (order_free md s). Qed.
Lemma has_chooses d l v : has_values d l v = true -> chooses 0 Missing (Val d) d (snd v).
Proof. intros C. left. repeat split. unfold has_values in C. apply andb_true_iff in C as [C _]. apply has_names_In in C. apply C. now left. Qed.
Lemma has_dimension d l v : has_values d l v = true -> In d (x_dims (snd v)).
Proof. intros C. unfold has_values in C. apply andb_true_iff in C as [C _]. apply has_names_In in C. apply C. now left. Qed.
Lemma reduced_by_sz {A V} (K : pusher A V) (P : packer A) (R : reader V) d md sz x w y g : values_given P d md sz x w y -> values_reduced K P R d md sz x w y (Ok g) ->
  NoDup (other_names d (Labelled x :: w :: y) ++ md) /\ l_named sz (other_names d (Labelled x :: w :: y) ++ md) g.
Proof.
  intros HV (E1 & E2 & E3 & _). split; [|repeat split; auto]. pose proof (vg_NoDup P d md sz x (w :: y) (proj2 HV)) as N. apply NoDup_app_iff in N as (N1 & N2 & N3). apply NoDup_app_iff. inversion_clear N2. split; [exact N1|]. split; [assumption|]. intros n Hn Q. apply (N3 n Hn). now right.
Qed.

Theorem reduce_vals_set_alone : forall {A V} (K : pusher A V) ok P R, values_array K ok P R ->
  forall md d sz s w y, set_ok s -> moment_names md -> all_fit s (w :: y) -> (forall a, In a (w :: y) -> one_axis a) -> values_where P d md sz s w y ->
  (exists v, In v s /\ has_values d (w :: y) v = true) ->
  each_alone (fun v => if has_values d (w :: y) v then x_reduce_vals K P R (params_for md) Missing (Val d) (snd v) (its_part (fst v) w) (map (its_part (fst v)) y)
                       else Ok (passed (fun q => q) (x_dims (snd v)) (snd v)))
    s (ds_reduce_vals K P R (params_for md) Missing (Val d) s w y).
Proof.
  intros A V K ok P R HA md d sz s w y Hs Hm Hf Low (Hz & Hv) Ch. apply alone_sized; [now apply reduce_vals_set|]. exists sz. intros v g Iv. destruct (has_values d (w :: y) v) eqn:C; intros E.
  - pose proof (Hv v Iv C) as HV. pose proof (reduce_vals_named K ok P R HA Missing (Val d) d md sz (snd v) _ _ (has_chooses d _ v C) HV) as H. rewrite E in H. eexists. eapply reduced_by_sz; eauto.
  - injection E as <-. destruct (passed_by (fun q => q) sz s (w :: y) (x_dims (snd v)) v Hs Hz Iv) as (dims & N & _ & L); [apply NoDup_filter; now apply Hs|]. eauto.
Qed.

Theorem rolling_vals_set_alone : forall {A V} (K : pusher A V) ok P R, values_array K ok P R ->
  forall window min_periods center zero md d sz to_end s w y, set_ok s -> moment_names md -> ~ In d md -> moments_free md s -> (0 < window)%Z ->
  all_fit s (w :: y) -> (forall a, In a (w :: y) -> one_axis a) -> values_where P d md sz s w y -> (exists v, In v s /\ has_values d (w :: y) v = true) ->
  each_alone (fun v => if has_values d (w :: y) v
                       then x_rolling_vals K P R (params_for md) window min_periods center zero Missing (Val d) to_end (snd v) (its_part (fst v) w) (map (its_part (fst v)) y)
                       else Ok (passed Some (if to_end then d :: md else (x_dims (snd v) ++ md)%list) (snd v)))
    s (ds_rolling_vals K P R (params_for md) window min_periods center zero Missing (Val d) to_end s w y).
Proof.
  intros A V K ok P R HA window mp center zero md d sz to_end s w y Hs Hm Nd Mf Hw Hf Low (Hz & Hv) Ch. apply alone_sized; [now apply rolling_vals_set|]. exists sz. intros v g Iv. destruct (has_values d (w :: y) v) eqn:C; intros E.
  - pose proof (Hv v Iv C) as HV. assert (W : (0 <= window)%Z) by lia.
    destruct (rolling_vals_named K ok P R HA window mp center zero Missing (Val d) d md sz to_end (snd v) _ _ (has_chooses d _ v C) HV W) as [H _]. specialize (H (or_intror Hw)). rewrite E in H. apply by_name_named in H. eexists. split; [|exact H].
    destruct HV as (_ & Hg & Nmd & Hmd & _). apply values_dims_NoDup; auto; [now apply Hs|now apply (has_dimension d _ v C)].
  - injection E as <-. destruct (passed_by Some sz s (w :: y) (if to_end then d :: md else (x_dims (snd v) ++ md)%list) v Hs Hz Iv) as (dims & N & _ & L); [now apply (free_order md s)|]. eauto.
Qed.

Theorem rolling_exp_vals_set_alone : forall {A V} (K : pusher A V) ok P R, values_array K ok P R ->
  forall alpha adjust min_periods zero md d sz to_end s w y, set_ok s -> moment_names md -> ~ In d md -> moments_free md s ->
  all_fit s (w :: alpha :: y) -> (forall a, In a (w :: alpha :: y) -> one_axis a) -> sized_by sz s (w :: alpha :: y) -> S (List.length y) = List.length (pk_shape P) ->
  (forall v, In v s -> has_values d (w :: alpha :: y) v = true ->
     operands_given P d md sz (snd v) (map (its_part (fst v)) (w :: alpha :: y)) /\ incl (all_names (Labelled (snd v) :: map (its_part (fst v)) (w :: alpha :: y))) (all_names (Labelled (snd v) :: map (its_part (fst v)) (w :: y)))) ->
  (exists v, In v s /\ has_values d (w :: alpha :: y) v = true) ->
  each_alone (fun v => if has_values d (w :: alpha :: y) v
                       then x_rolling_exp_vals K P R (params_for md) (its_part (fst v) alpha) adjust min_periods zero Missing (Val d) to_end (snd v) (its_part (fst v) w) (map (its_part (fst v)) y)
                       else Ok (passed Some (if to_end then d :: md else (x_dims (snd v) ++ md)%list) (snd v)))
    s (ds_rolling_exp_vals K P R (params_for md) alpha adjust min_periods zero Missing (Val d) to_end s w y).
Proof.
  intros A V K ok P R HA alpha adjust mp zero md d sz to_end s w y Hs Hm Nd Mf Hf Low Hz Ly Hv Ch. apply alone_sized; [now apply rolling_exp_vals_set|]. exists sz. intros v g Iv. destruct (has_values d (w :: alpha :: y) v) eqn:C; intros E.
  - destruct (Hv v Iv C) as [HO HI]. cbn [map] in HO, HI.
    assert (Ly' : S (List.length (map (its_part (fst v)) y)) = List.length (pk_shape P)) by now rewrite map_length.
    pose proof (rolling_exp_vals_named K ok P R HA (its_part (fst v) alpha) adjust mp zero Missing (Val d) d md sz to_end (snd v) _ _ (has_chooses d _ v C) Ly' HO HI) as H. cbv zeta in H. rewrite E in H. apply by_name_named in H. eexists. split; [|exact H].
    destruct HO as (Hg & Nmd & Hmd & _). apply values_dims_NoDup; auto; [now apply Hs|now apply (has_dimension d _ v C)].
  - injection E as <-. destruct (passed_by Some sz s (w :: alpha :: y) (if to_end then d :: md else (x_dims (snd v) ++ md)%list) v Hs Hz Iv) as (dims & N & _ & L); [now apply (free_order md s)|]. eauto.
Qed.

Theorem resample_vals_set_alone : forall {A V} (K : pusher A V) ok P R, values_array K ok P R ->
  forall freq nrep rep md d sz to_end s w y, set_ok s -> moment_names md -> ~ In d md -> ~ In rep md -> moments_free md s -> (forall v, In v s -> ~ In rep (x_dims (snd v))) ->
  (forall a x, In a (w :: y) -> In x (arrays_of a) -> ~ In rep (x_dims x)) ->
  all_fit s (w :: y ++ [freq]) -> (forall a, In a (w :: y) -> one_axis a) -> values_where P d md sz s w y ->
  (forall v, In v s -> has_values d (w :: y) v = true -> part_has [rep; d] (fst v) freq = true -> counts_named (its_part (fst v) freq) rep d nrep (sz d)) ->
  (exists v, In v s /\ (has_values d (w :: y) v && part_has [rep; d] (fst v) freq)%bool = true) ->
  each_alone (fun v => if (has_values d (w :: y) v && part_has [rep; d] (fst v) freq)%bool
                       then x_resample_vals K P R (params_for md) (its_part (fst v) freq) rep Missing (Val d) to_end (snd v) (its_part (fst v) w) (map (its_part (fst v)) y)
                       else Ok (passed (fun q => q) (if to_end then rep :: md else (map (fun n => if String.eqb n d then rep else n) (x_dims (snd v)) ++ md)%list) (snd v)))
    s (ds_resample_vals K P R (params_for md) freq rep Missing (Val d) to_end s w y).
Proof.
  intros A V K ok P R HA freq nrep rep md d sz to_end s w y Hs Hm Nd Nrm Mf Nr Nr' Hf Low (Hz & Hv) Cn Ch. apply alone_sized; [now apply resample_vals_set|]. exists (result_size sz rep nrep). intros v g Iv. destruct (_ && _)%bool eqn:C; intros E.
  - apply andb_true_iff in C as [C C']. pose proof (Hv v Iv C) as HV.
    assert (Fr : ~ In rep (all_names (Labelled (snd v) :: its_part (fst v) w :: map (its_part (fst v)) y))).
    { intros Q. apply all_names_In in Q as (z & Iz & Q). destruct Iz as [[= <-]|Iz]; [now apply (Nr v Iv)|]. change (In (Labelled z) (map (its_part (fst v)) (w :: y))) in Iz. apply in_map_iff in Iz as (a & Ea & Ia).
      destruct (part_array s a v z) as [Q1 _]; [apply Hf; destruct Ia as [->|Ia]; [now left|right; apply in_or_app; now left]|apply labelled_In; rewrite Ea; now left|]. now apply (Nr' a z). }
    destruct (resample_vals_named K ok P R HA (its_part (fst v) freq) rep nrep (sz d) Missing (Val d) d md sz to_end (snd v) _ _ (has_chooses d _ v C) HV (Cn v Iv C C') Nrm) as [H _]. specialize (H eq_refl (or_introl Fr)). rewrite E in H. apply by_name_named in H. eexists. split; [|exact H].
    destruct HV as (_ & Hg & Nmd & Hmd & _). apply values_dims_NoDup; auto; [now apply Hs|now apply (has_dimension d _ v C)].
  - injection E as <-. destruct (passed_by (fun q => q) sz s (w :: y) (if to_end then rep :: md else (map (fun n => if String.eqb n d then rep else n) (x_dims (snd v)) ++ md)%list) v Hs Hz Iv) as (dims & N & I & L).
    + apply NoDup_filter. destruct to_end; [constructor; [exact Nrm|apply Hm]|]. apply (order_nodup_free md s); auto.
      * apply NoDup_map_in; [now apply Hs|]. intros a b Ia Ib. destruct (String.eqb_spec a d) as [->|Da], (String.eqb_spec b d) as [->|Db]; auto; intros E; exfalso; apply (Nr v Iv); congruence.
      * intros n Hn. destruct (String.eqb_spec n d); [exact Nrm|]. intros Q. now apply (Mf v n Iv).
    + exists dims. split; [exact N|]. eapply named_resize; [|exact L]. intros n Hn. unfold result_size. destruct (String.eqb_spec n rep) as [->|]; [|reflexivity]. exfalso. apply (Nr v Iv). now apply I.
Qed.

Lemma passed_more {T} (inj : Qc -> T) md s v d (to_end : bool) : moments_free md s -> In v s ->
  passed inj (if to_end then d :: md else (x_dims (snd v) ++ md)%list) (snd v) = passed inj (if to_end then d :: md else x_dims (snd v)) (snd v).
Proof.
  intros Mf Iv. destruct to_end; [reflexivity|]. assert (E : passed_dims (x_dims (snd v) ++ md) (snd v) = passed_dims (x_dims (snd v)) (snd v)); [|unfold passed; now rewrite E].
  unfold passed_dims. rewrite filter_app, (filter_none _ md), app_nil_r.
  - f_equal. unfold except_name. rewrite !filter_none; [reflexivity| |]; intros n Hn; destruct (in_dec string_dec n _) as [|Q]; auto; exfalso; apply Q; auto using in_or_app.
  - intros m Hm. apply smem_false. now apply (Mf v m Iv).
Qed.

Theorem jackknife_vals_set_alone : forall {A V} (K : pusher A V) ok P R, values_array K ok P R ->
  forall rep_dim md d sz to_end s w y, set_ok s -> moment_names md -> ~ In d md -> moments_free md s -> all_fit s (w :: y) -> (forall a, In a (w :: y) -> one_axis a) ->
  values_where P d md sz s w y -> new_free d rep_dim s -> (forall a, In a (w :: y) -> new_free_in d rep_dim a) -> (forall n, rep_dim = Some n -> ~ In n md) ->
  (exists v, In v s /\ has_values d (w :: y) v = true) ->
  each_alone (fun v => if has_values d (w :: y) v
                       then x_jackknife_vals K P R (params_for md) None rep_dim Missing (Val d) to_end (snd v) (its_part (fst v) w) (map (its_part (fst v)) y)
                       else Ok (renamed_grid d rep_dim (passed (fun q => q) (if to_end then d :: md else (x_dims (snd v) ++ md)%list) (snd v))))
    s (ds_jackknife_vals K P R (params_for md) None rep_dim Missing (Val d) to_end s w y).
Proof.
  intros A V K ok P R HA rep md d sz to_end s w y Hs Hm Nd Mf Hf Low Hvw Nf Nf' Nm Ch. pose proof Hvw as (Hz & Hv).
  pose proof (reduce_vals_set_alone K ok P R HA md d sz s w y Hs Hm Hf Low Hvw Ch) as Rd.
  set (f0 := fun v : sname * xarr => if has_values d (w :: y) v then x_reduce_vals K P R (params_for md) Missing (Val d) (snd v) (its_part (fst v) w) (map (its_part (fst v)) y) else Ok (passed (fun q => q) (x_dims (snd v)) (snd v))) in *.
  assert (Er : ds_jackknife_vals K P R (params_for md) None rep Missing (Val d) to_end s w y =
    rbind (ds_reduce_vals K P R (params_for md) Missing (Val d) s w y) (fun l => ds_jackknife_vals K P R (params_for md) (Some (DSet (to_xset l))) rep Missing (Val d) to_end s w y)).
  { unfold ds_jackknife_vals at 1. destruct (ds_reduce_vals _ _ _ _ _ _ _ _ _); reflexivity. }
  rewrite Er. clear Er. destruct (ds_reduce_vals _ _ _ _ _ _ _ _ _) as [l|e]; cbn [rbind].
  2: { destruct Rd as (v & Iv & E). exists v. split; [exact Iv|]. unfold f0 in E. destruct (has_values d (w :: y) v); [|discriminate]. unfold x_jackknife_vals. now rewrite E. }
  cbn [each_alone] in Rd. set (t := to_xset l).
  assert (Ft : Forall2 (fun v u => fst u = fst v /\ exists g, f0 v = Ok g /\ snd u = to_xarr g) s t).
  { unfold t, to_xset. clear -Rd. induction Rd as [|v u s l [E1 E2] Rd IH]; [constructor|]. cbn [map]. constructor; [|exact IH]. cbn [fst snd]. eauto. }
  assert (Et : map fst t = map fst s) by (clear -Ft; induction Ft as [|v u s t [E _] F IH]; [reflexivity|]; cbn; now rewrite IH, E).
  assert (Back : forall u, In u t -> exists v g, In v s /\ fst u = fst v /\ f0 v = Ok g /\ snd u = to_xarr g).
  { clear -Ft. induction Ft as [|v z s t (E & g & E1 & E2) F IH]; intros u; [intros []|]. intros [->|I]; [exists v, g; repeat split; auto; now left|]. destruct (IH u I) as (v' & g' & ? & ? & ?). exists v', g'. split; [now right|auto]. }
  assert (Sized : forall v g, In v s -> f0 v = Ok g -> x_ok (to_xarr g) /\ (forall n, In n (x_dims (to_xarr g)) -> dim_size (to_xarr g) n = sz n) /\
     (forall n, In n (x_dims (to_xarr g)) -> In n (x_dims (snd v)) \/ In n md \/ exists a x, In a (w :: y) /\ In x (arrays_of a) /\ In n (x_dims x)) /\ (has_values d (w :: y) v = true -> incl md (x_dims (to_xarr g)))).
  { intros v g Iv E. unfold f0 in E. destruct (has_values d (w :: y) v) eqn:C.
    - pose proof (Hv v Iv C) as HV. pose proof (reduce_vals_named K ok P R HA Missing (Val d) d md sz (snd v) _ _ (has_chooses d _ v C) HV) as H. rewrite E in H. destruct (reduced_by_sz K P R d md sz _ _ _ g HV H) as [N L].
      destruct (to_xarr_named _ _ _ L N) as (X1 & X2 & X3). rewrite X2. split; [exact X1|]. split; [exact X3|]. split; [|intros _ n Hn; apply in_or_app; now right].
      intros n Hn. apply in_app_or in Hn as [Hn|Hn]; [|auto]. apply except_In in Hn as [Hn _]. apply all_names_In in Hn as (z & Iz & Q). destruct Iz as [[= <-]|Iz]; [now left|]. change (In (Labelled z) (map (its_part (fst v)) (w :: y))) in Iz. apply in_map_iff in Iz as (a & Ea & Ia).
      destruct (part_array s a v z) as [Q1 _]; [now apply Hf|apply labelled_In; rewrite Ea; now left|]. right. right. eauto.
    - injection E as <-. destruct (passed_by (fun q => q) sz s (w :: y) (x_dims (snd v)) v Hs Hz Iv) as (dims & N & I & L); [apply NoDup_filter; now apply Hs|]. destruct (to_xarr_named _ _ _ L N) as (X1 & X2 & X3). rewrite X2. split; [exact X1|]. split; [exact X3|]. split; [auto|discriminate]. }
  assert (Part : forall v, In v s -> exists g, f0 v = Ok g /\ its_part (fst v) (DSet t) = Labelled (to_xarr g)).
  { intros v Iv. destruct (get_var_name (fst v) t) as (z & Gy & Iy); [rewrite Et; apply in_map_iff; now exists v|]. destruct (Back _ Iy) as (v' & g & Iv' & Ef & E & Ey). cbn [fst snd] in Ef, Ey.
    assert (v' = v). { pose proof (get_var_In v s (proj1 Hs) Iv) as Q. pose proof (get_var_In v' s (proj1 Hs) Iv') as Q'. rewrite <- Ef in Q'. destruct v, v'. cbn in *. subst. congruence. }
    subst v'. exists g. split; [exact E|]. cbn [its_part]. now rewrite Gy, Ey. }
  assert (All : forall a x n, In a (w :: y ++ [DSet t]) -> In x (arrays_of a) -> In n (x_dims x) -> dim_size x n = sz n).
  { intros a x n Ia Ix Hn. rewrite app_comm_cons in Ia. apply in_app_or in Ia as [Ia|[<-|[]]]; [now apply (proj2 Hz a)|]. cbn [arrays_of] in Ix. apply in_map_iff in Ix as (u & <- & Iu). destruct (Back u Iu) as (v & g & Iv & _ & E & Eu). rewrite Eu in *. now apply (Sized v g Iv E). }
  assert (Fits : all_fit s (w :: y ++ [DSet t])).
  { split.
    - intros a Ia. rewrite app_comm_cons in Ia. apply in_app_or in Ia as [Ia|[<-|[]]]; [now apply Hf|]. split; [split; [|split]|split].
      + rewrite Et. apply Hs.
      + intros u Iu. destruct (Back u Iu) as (v & g & Iv & _ & E & ->). now apply (Sized v g Iv E).
      + intros u u' Iu Iu' n Hn Hn'. assert (X : forall u, In u t -> In n (x_dims (snd u)) -> dim_size (snd u) n = sz n); [|rewrite !X; auto]. intros z Iz Hz'. apply (All (DSet t) (snd z) n); [rewrite app_comm_cons; apply in_or_app; right; now left|cbn; apply in_map_iff; now exists z|exact Hz'].
      + intros n. now rewrite Et.
      + intros v u Iv Iu n Hn Hn'. rewrite (proj1 Hz v n Iv Hn). symmetry. apply (All (DSet t) (snd u) n); [rewrite app_comm_cons; apply in_or_app; right; now left|cbn; apply in_map_iff; now exists u|exact Hn'].
    - intros a b x z Ia Ib Ix Iz n Hn Hn'. now rewrite (All a x n Ia Ix Hn), (All b z n Ib Iz Hn'). }
  assert (Nf2 : forall a, In a (w :: y ++ [DSet t]) -> new_free_in d rep a).
  { intros a Ia. rewrite app_comm_cons in Ia. apply in_app_or in Ia as [Ia|[<-|[]]]; [now apply Nf'|]. intros n En Hn x Ix Q. cbn [arrays_of] in Ix. apply in_map_iff in Ix as (u & <- & Iu). destruct (Back u Iu) as (v & g & Iv & _ & E & Eu). rewrite Eu in Q.
    destruct (proj1 (proj2 (proj2 (Sized v g Iv E))) n Q) as [Q1|[Q1|(a & x & Ia & Ix & Q1)]]; [now apply (Nf n En Hn v Iv)|now apply (Nm n En)|now apply (Nf' a Ia n En Hn x Ix)]. }
  assert (Ph : forall v, In v s -> has_values d (w :: y) v = true -> part_has md (fst v) (DSet t) = true).
  { intros v Iv C. destruct (Part v Iv) as (g & E & Ep). unfold part_has. rewrite Ep. apply has_names_In. now apply (Sized v g Iv E). }
  assert (Ch2 : exists v, In v s /\ (has_values d (w :: y) v && part_has md (fst v) (DSet t))%bool = true).
  { destruct Ch as (v & Iv & C). exists v. split; [exact Iv|]. now rewrite C, (Ph v Iv C). }
  pose proof (jackknife_vals_given_set K P R (DSet t) rep md d to_end s w y Hs Hm Nd Mf Fits Low Nf Nf2 Nm Ch2) as J.
  set (r := ds_jackknife_vals _ _ _ _ _ _ _ _ _ _ _ _) in *. clearbody r.
  assert (J' : each_variable (fun v => if has_values d (w :: y) v
                       then x_jackknife_vals K P R (params_for md) None rep Missing (Val d) to_end (snd v) (its_part (fst v) w) (map (its_part (fst v)) y)
                       else Ok (renamed_grid d rep (passed (fun q => q) (if to_end then d :: md else (x_dims (snd v) ++ md)%list) (snd v)))) s r).
  { eapply each_ext; [|exact J]. intros v Iv. cbn beta. destruct (has_values d (w :: y) v) eqn:C; [|reflexivity]. rewrite (Ph v Iv C). cbn [andb]. destruct (Part v Iv) as (g & E & Ep). rewrite Ep. unfold f0 in E. rewrite C in E. unfold x_jackknife_vals at 2. now rewrite E. }
  apply alone_sized; [exact J'|]. exists (result_size sz (renamed d rep) (sz d)). intros v g Iv. destruct (has_values d (w :: y) v) eqn:C; intros E.
  - pose proof (Hv v Iv C) as HV.
    assert (Fr : name_free d rep (all_names (Labelled (snd v) :: its_part (fst v) w :: map (its_part (fst v)) y) ++ md)).
    { unfold name_free. destruct rep as [n|]; [|exact I]. destruct (string_dec n d) as [->|D]; [now left|]. right. intros Q. apply in_app_or in Q as [Q|Q]; [|now apply (Nm n eq_refl)]. apply all_names_In in Q as (z & Iz & Q). destruct Iz as [[= <-]|Iz]; [now apply (Nf n eq_refl D v Iv)|]. change (In (Labelled z) (map (its_part (fst v)) (w :: y))) in Iz. apply in_map_iff in Iz as (a & Ea & Ia).
      destruct (part_array s a v z) as [Q1 _]; [now apply Hf|apply labelled_In; rewrite Ea; now left|]. now apply (Nf' a Ia n eq_refl D z). }
    destruct (jackknife_vals_named K ok P R HA rep Missing (Val d) d md sz to_end (snd v) _ _ (has_chooses d _ v C) HV) as [H _]. specialize (H Fr). rewrite E in H. apply by_name_named in H. eexists. split; [|exact H].
    destruct HV as (_ & Hg & Nmd & Hmd & _). apply values_dims_NoDup; auto.
    + now apply Hs.
    + now apply (has_dimension d _ v C).
    + unfold renamed. unfold name_free in Fr. destruct rep as [n|]; [|now left]. destruct Fr as [->|Fr]; [now left|right]. intros Q. apply Fr, in_or_app. now left.
    + unfold renamed. destruct rep as [n|]; [now apply Nm|exact Nd].
  - injection E as <-. rewrite (passed_more (fun q => q) md s v d to_end Mf Iv).
    destruct (passed_renamed_sized s md d rep (sz d) Hs Hm Nd Nf (fun q => q) to_end v Iv (fun H => proj1 Hz v d Iv H)) as (dims & N & L). exists dims. split; [exact N|]. eapply named_resize; [|exact L]. intros n Hn. unfold result_size. destruct (String.eqb_spec n (renamed d rep)) as [|Q]; [reflexivity|].
    destruct L as (D & _). rewrite <- D in Hn.
    assert (Ip : forall m, In m (lg_dims (passed (fun q => q) (if to_end then d :: md else x_dims (snd v)) (snd v))) -> In m (x_dims (snd v))).
    { intros m Q'. apply (passed_wf (fun q => q) (if to_end then d :: md else x_dims (snd v)) (snd v) (proj1 (proj2 Hs) v Iv)) in Q'; [exact Q'|]. apply NoDup_filter. destruct to_end; [constructor; [exact Nd|apply Hm]|now apply Hs]. }
    assert (In n (x_dims (snd v))).
    { unfold renamed in Q. destruct rep as [k|]; cbn [renamed_grid lg_dims] in Hn; [|now apply Ip]. apply in_map_iff in Hn as (m & Em & Im). destruct (String.eqb_spec m d); [congruence|]. subst m. now apply Ip. }
    rewrite <- (proj1 Hz v n Iv H). now apply set_size_of.
Qed.
