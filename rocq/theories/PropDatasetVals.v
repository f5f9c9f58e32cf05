(* Functions of Datasets of values act on each variable as the functions of DataArrays
   do, when plain arguments have at most one axis. *)
From Coq Require Import String Permutation.
From Verif Require Import Base BaseLemmas ModelPush ModelKernels ModelIndex ModelAxes ModelSelect ModelParams ModelWrap ModelNd ModelLabel ModelDataset Spec SpecAxes SpecNd SpecLabel SpecLabelTwo SpecLabelVals SpecDataset
  ProofAxes ProofArrays ProofIndex ProofNd PropAxes PropParams PropWrap PropLabelled PropNd PropNdUse ProofLabel ProofLabelMany PropLabel PropLabelTwo PropLabelReduce PropLabelJack PropLabelExp PropLabelVals PropLabelValsMore ProofDataset PropDataset PropDatasetTwo PropDatasetReduce.
Local Open Scope string_scope.
Local Open Scope nat_scope.

(* a plain argument is a number or has one axis *)
Definition one_axis (a : dop) : Prop := match a with DArr (Plain t) => tndim t <= 1 | _ => True end.
(* the arguments go with the Dataset and with each other *)
Definition all_fit (s : xset) (l : list dop) : Prop :=
  (forall a, In a l -> fits s a) /\ forall a b x y, In a l -> In b l -> In x (arrays_of a) -> In y (arrays_of b) -> sizes_agree x y.
(* the variable and all its arguments have the dimension *)
Definition has_values (d : sname) (others : list dop) (v : sname * xarr) : bool :=
  (has_names [d] (snd v) && forallb (part_has [d] (fst v)) others)%bool.

Definition prep (k : nat) (a : dop) : res dop := match a with DArr (Plain t) => rmap (fun t => DArr (Plain t)) (prepare_secondary (-1) k true t) | _ => Ok a end.
Definition prepx (k : nat) (o : xop) : res xop := match o with Plain t => rmap Plain (prepare_secondary (-1) k true t) | _ => Ok o end.
Lemma low_secondary axis k t : tndim t <= 1 -> prepare_secondary axis k true t = prepare_secondary (-1) k true t.
Proof. intros H. unfold prepare_secondary. destruct (tndim t) as [|[|n]]; [reflexivity|reflexivity|lia]. Qed.

Section Prepare.
  Context (s : xset) (d : sname) (others : list dop).
  Hypotheses (Hs : set_ok s) (Hf : forall a, In a others -> fits s a) (Low : forall a, In a others -> one_axis a).
  Lemma ds_prepare_eq v n : In v s -> In d (x_dims (snd v)) -> S (List.length others) = n ->
    ds_prepare_values n Missing (Val d) s others = rbind (mapR (prep (dim_size (snd v) d)) others) (fun o => Ok (d, o)).
  Proof.
    intros Iv Hd E. unfold ds_prepare_values. rewrite E, Nat.eqb_refl. cbn [negb]. destruct (ds_dims_ok s Hs) as (dims & Ed & _). rewrite Ed. cbn [rbind]. unfold select_axis_dim, guard. cbn [validate_not_none rbind]. unfold raise_if_dim_in_mom_dims. cbn [default_x_params xp_dims rbind].
    rewrite (ds_size_ok s v d Hs Iv Hd). cbn [rbind]. destruct s as [|v0 l]; [destruct Iv|]. cbn [hd_error of_opt rbind]. f_equal. apply mapR_ext. intros a Ia. specialize (Low a Ia). destruct a as [t|[z|t]]; cbn [prep]; auto. now rewrite low_secondary.
  Qed.
  Lemma parts_prepared v : In v s -> forall k l, incl l others ->
    mapR (prepx k) (map (its_part (fst v)) l) = rmap (map (its_part (fst v))) (mapR (prep k) l).
  Proof.
    intros Iv k. induction l as [|a l IH]; intros I; [reflexivity|]. cbn [map mapR]. rewrite IH by (intros b Hb; apply I; now right).
    assert (E : prepx k (its_part (fst v) a) = rmap (its_part (fst v)) (prep k a)).
    { destruct a as [t|[z|t]]; [|reflexivity|cbn; now destruct (prepare_secondary _ _ _ _)]. destruct (Hf (DSet t)) as (_ & E & _); [apply I; now left|]. destruct (get_var_name (fst v) t) as (y & Gy & _); [apply E; apply in_map_iff; now exists v|]. cbn [prep its_part]. unfold rmap. cbn [rbind its_part]. rewrite Gy. reflexivity. }
    rewrite E. destruct (prep k a); cbn [rmap rbind]; [|reflexivity]. destruct (mapR (prep k) l); reflexivity.
  Qed.
  Lemma x_prepare_parts v n : In v s -> In d (x_dims (snd v)) -> S (List.length others) = n ->
    xprepare_values n Missing (Val d) (snd v) (map (its_part (fst v)) others) = rbind (mapR (prep (dim_size (snd v) d)) others) (fun o => Ok (d, map (its_part (fst v)) o)).
  Proof.
    intros Iv Hd E. unfold xprepare_values. rewrite map_length, E, Nat.eqb_refl. cbn [negb]. pose proof (proj1 (proj2 Hs) v Iv) as Hx.
    destruct (chooses_select (snd v) [] Missing (Val d) d (proj1 (proj2 Hx)) ltac:(intros []) (or_introl (conj eq_refl (conj eq_refl Hd)))) as (a & _ & Ea).
    assert (Es : select_axis_dim default_x_params (XArr (x_dims (snd v))) Missing (Val d) Missing Missing false = Ok (a, d)).
    { unfold select_axis_dim, guard in *. cbn [validate_not_none rbind axis_dim_defaults is_missing andb negb] in *. destruct (get_axis_num (x_dims (snd v)) d); [|discriminate]. cbn [rbind snd] in *. unfold raise_if_dim_in_mom_dims in *. cbn [default_x_params params_for xp_dims smem existsb rbind] in *. exact Ea. }
    rewrite Es. cbn [rbind]. rewrite sizes_named by exact Hd. cbn [rbind].
    rewrite (mapR_ext _ (prepx (dim_size (snd v) d))).
    - rewrite (parts_prepared v Iv _ others (incl_refl _)). destruct (mapR _ others); reflexivity.
    - intros o Io. apply in_map_iff in Io as (b & <- & Ib). specialize (Low b Ib). destruct b as [t|[z|t]]; cbn [its_part prepx one_axis] in *; [|reflexivity|now rewrite low_secondary].
      destruct (Hf (DSet t) Ib) as (_ & Q & _). destruct (get_var_name (fst v) t) as (y & -> & _); [apply Q; apply in_map_iff; now exists v|reflexivity].
  Qed.
  Lemma prepared_same k o : mapR (prep k) others = Ok o -> Forall2 (fun a b => arrays_of b = arrays_of a /\ (fits s a -> fits s b) /\ forall ds n, part_has ds n b = part_has ds n a) others o.
  Proof.
    intros E. apply ProofAxes.mapR_Forall2 in E. eapply Forall2_imp_; [|exact E]. intros a b H. cbn beta in H. destruct a as [t|[z|t]]; cbn [prep] in H; [injection H as <-; auto|injection H as <-; auto|].
    destruct (prepare_secondary _ _ _ _) as [u|]; [|discriminate]. injection H as <-. split; [reflexivity|]. split; [intros _; exact I|reflexivity].
  Qed.
End Prepare.

(* the common part of the functions of values *)
Section ValuesSet.
  Context {T : Type} (dflt : T) (inj : Qc -> T) (s : xset) (d : sname) (n : nat) (others : list dop) (ex : list (dop * list sname)).
  Hypotheses (Hs : set_ok s) (Hf : all_fit s (others ++ map fst ex)) (Low : forall a, In a others -> one_axis a).
  Let chosen (v : sname * xarr) : bool := (has_values d others v && forallb (fun a => part_has (snd a) (fst v) (fst a)) ex)%bool.
  Hypothesis Ch : exists v, In v s /\ chosen v = true.

  Lemma chosen_dim v : chosen v = true -> In d (x_dims (snd v)).
  Proof. unfold chosen, has_values. intros H. apply andb_true_iff in H as [H _]. apply andb_true_iff in H as [H _]. apply has_names_In in H. apply H. now left. Qed.
  (* what is prepared for the Dataset is what is prepared for its variables *)
  Lemma values_prepared : (exists e, ds_prepare_values n Missing (Val d) s others = Raise e /\ forall v, In v s -> chosen v = true -> xprepare_values n Missing (Val d) (snd v) (map (its_part (fst v)) others) = Raise e) \/
    exists o, ds_prepare_values n Missing (Val d) s others = Ok (d, o) /\ Forall2 (fun a b => arrays_of b = arrays_of a /\ (fits s a -> fits s b) /\ forall ds n, part_has ds n b = part_has ds n a) others o /\
      forall v, In v s -> chosen v = true -> xprepare_values n Missing (Val d) (snd v) (map (its_part (fst v)) others) = Ok (d, map (its_part (fst v)) o).
  Proof.
    destruct (Nat.eq_dec (S (List.length others)) n) as [E|E].
    - assert (Hf' : forall a, In a others -> fits s a) by (intros a Ia; apply Hf, in_or_app; now left). destruct Ch as (v0 & Iv0 & C0). pose proof (chosen_dim v0 C0) as Hd0. rewrite (ds_prepare_eq s d others Hs Hf' Low v0 n Iv0 Hd0 E).
      assert (X : forall v, In v s -> chosen v = true -> xprepare_values n Missing (Val d) (snd v) (map (its_part (fst v)) others) = rbind (mapR (prep (dim_size (snd v0) d)) others) (fun o => Ok (d, map (its_part (fst v)) o))).
      { intros v Iv C. pose proof (chosen_dim v C) as Hd. rewrite (x_prepare_parts s d others Hs Hf' Low v n Iv Hd E). replace (dim_size (snd v) d) with (dim_size (snd v0) d) by (now apply Hs). reflexivity. }
      destruct (mapR (prep _) others) as [o|e] eqn:M; cbn [rbind] in *; [right; exists o|left; exists e]; auto. split; [reflexivity|]. split; [|exact X]. eapply prepared_same; eauto.
    - left. exists EValue. split; [|intros v _ _]; [unfold ds_prepare_values|unfold xprepare_values; rewrite map_length]; (destruct (Nat.eqb_spec (S (List.length others)) n) as [Q|_]; [contradiction|reflexivity]).
  Qed.
  Lemma prepared_fit o : Forall2 (fun a b => arrays_of b = arrays_of a /\ (fits s a -> fits s b) /\ forall ds n, part_has ds n b = part_has ds n a) others o ->
    (forall a, In a (map fst (ds_args d o ++ ex)) -> fits s a) /\
    (forall a b, In a (map fst (ds_args d o ++ ex)) -> In b (map fst (ds_args d o ++ ex)) -> forall x y, In x (arrays_of a) -> In y (arrays_of b) -> sizes_agree x y) /\
    (forall v, (has_names [d] (snd v) && forallb (fun a => part_has (snd a) (fst v) (fst a)) (ds_args d o ++ ex))%bool = chosen v).
  Proof.
    intros F. assert (Em : map fst (ds_args d o) = o) by (unfold ds_args; rewrite map_map; apply map_id).
    assert (Bk : forall b, In b o -> exists a, In a others /\ arrays_of b = arrays_of a /\ (fits s a -> fits s b)).
    { clear -F. induction F as [|a b l o (H1 & H2 & _) F IH]; intros c; [intros []|]. intros [->|I]; [exists a; repeat split; auto; now left|]. destruct (IH c I) as (a' & ? & ?). exists a'. split; [now right|assumption]. }
    assert (Bk' : forall b, In b (map fst (ds_args d o ++ ex)) -> exists a, In a (others ++ map fst ex) /\ arrays_of b = arrays_of a /\ (fits s a -> fits s b)).
    { intros b Ib. rewrite map_app, Em in Ib. apply in_app_or in Ib as [Ib|Ib]; [destruct (Bk b Ib) as (a & ? & ?); exists a|exists b]; (split; [apply in_or_app; tauto|]); auto. }
    split; [|split].
    - intros b Ib. destruct (Bk' b Ib) as (a & Ia & _ & Q). now apply Q, Hf.
    - intros b c Ib Ic x y Ix Iy. destruct (Bk' b Ib) as (a & Ia & Ea & _), (Bk' c Ic) as (a' & Ia' & Ea' & _). rewrite Ea in Ix. rewrite Ea' in Iy. exact (proj2 Hf a a' x y Ia Ia' Ix Iy).
    - intros v. unfold chosen, has_values. rewrite forallb_app, andb_assoc. f_equal. f_equal. clear -F. unfold ds_args. induction F as [|a b l o (_ & _ & H) F IH]; [reflexivity|]. cbn [map forallb fst snd]. now rewrite H, IH.
  Qed.
  Lemma args_eq o (v : sname * xarr) : ((Labelled (snd v), [d]) :: map (fun a => (its_part (fst v) (fst a), snd a)) (ds_args d o ++ ex))%list =
    (values_args d (snd v) (map (its_part (fst v)) o) ++ map (fun a => (its_part (fst v) (fst a), snd a)) ex)%list.
  Proof. unfold values_args, ds_args. cbn [map app]. now rewrite map_app, !map_map. Qed.
  Lemma values_set out_core (F : list tensor -> res (grid T)) to_end replace append (fx : sname * xarr -> res (lgrid T)) r : NoDup out_core ->
    (to_end = false -> forall v, In v s -> NoDup (map replace (x_dims (snd v)) ++ append)) ->
    (forall e, ds_prepare_values n Missing (Val d) s others = Raise e -> r = Raise e) ->
    (forall o, ds_prepare_values n Missing (Val d) s others = Ok (d, o) -> r = rbind (ds_apply inj s [d] (ds_args d o ++ ex) out_core [] F) (ds_finish dflt to_end s replace append out_core)) ->
    (forall v e, xprepare_values n Missing (Val d) (snd v) (map (its_part (fst v)) others) = Raise e -> fx v = Raise e) ->
    (forall v o, xprepare_values n Missing (Val d) (snd v) (map (its_part (fst v)) others) = Ok (d, o) ->
       fx v = rbind (apply_ufunc (values_args d (snd v) o ++ map (fun a => (its_part (fst v) (fst a), snd a)) ex) out_core [] F) (fun g => if to_end then Ok g else transpose_like dflt (x_dims (snd v)) replace [] append g)) ->
    each_variable (fun v => if chosen v then fx v else Ok (passed inj (if to_end then out_core else (map replace (x_dims (snd v)) ++ append)%list) (snd v))) s r.
  Proof.
    intros No Nr R1 R2 X1 X2. destruct values_prepared as [(e & E & X)|(o & E & F2 & X)].
    - rewrite (R1 e E). destruct Ch as (v & Iv & C). left. exists v. split; [exact Iv|]. rewrite C. auto.
    - rewrite (R2 o E). destruct (prepared_fit o F2) as (P1 & P2 & P3). eapply each_ext; [|apply (each_data dflt inj s [d] (ds_args d o ++ ex) out_core [] F to_end replace append Hs No P1 P2 Nr)].
      intros v Iv. unfold done_var, order_of. rewrite P3. destruct (chosen v) eqn:C; [|reflexivity]. rewrite (X2 v _ (X v Iv C)). now rewrite args_eq.
  Qed.
  (* without a transpose at the end *)
  Lemma values_apply out_core (F : list tensor -> res (grid T)) (fx : sname * xarr -> res (lgrid T)) r : NoDup out_core ->
    (forall e, ds_prepare_values n Missing (Val d) s others = Raise e -> r = Raise e) ->
    (forall o, ds_prepare_values n Missing (Val d) s others = Ok (d, o) -> r = ds_apply inj s [d] (ds_args d o ++ ex) out_core [] F) ->
    (forall v e, xprepare_values n Missing (Val d) (snd v) (map (its_part (fst v)) others) = Raise e -> fx v = Raise e) ->
    (forall v o, xprepare_values n Missing (Val d) (snd v) (map (its_part (fst v)) others) = Ok (d, o) ->
       fx v = apply_ufunc (values_args d (snd v) o ++ map (fun a => (its_part (fst v) (fst a), snd a)) ex) out_core [] F) ->
    each_variable (fun v => if chosen v then fx v else Ok (passed inj (x_dims (snd v)) (snd v))) s r.
  Proof.
    intros No R1 R2 X1 X2. destruct values_prepared as [(e & E & X)|(o & E & F2 & X)].
    - rewrite (R1 e E). destruct Ch as (v & Iv & C). left. exists v. split; [exact Iv|]. rewrite C. auto.
    - rewrite (R2 o E). destruct (prepared_fit o F2) as (P1 & P2 & P3). eapply each_ext; [|apply (ds_apply_each inj s [d] (ds_args d o ++ ex) out_core [] F Hs No P1 P2)].
      intros v Iv. unfold var_fun. rewrite P3. destruct (chosen v) eqn:C; [|now rewrite copied_passed by (now apply Hs)]. rewrite (X2 v _ (X v Iv C)). now rewrite args_eq.
  Qed.
End ValuesSet.

(* no variable has a dimension with the name of the moments *)
Definition moments_free (md : list sname) (s : xset) : Prop := forall v m, In v s -> In m md -> ~ In m (x_dims (snd v)).

Theorem reduce_vals_set : forall {A V} (K : pusher A V) (P : packer A) (R : reader V) md d s w y, set_ok s -> moment_names md -> all_fit s (w :: y) -> (forall a, In a (w :: y) -> one_axis a) ->
  (exists v, In v s /\ has_values d (w :: y) v = true) ->
  each_variable (fun v => if has_values d (w :: y) v then x_reduce_vals K P R (params_for md) Missing (Val d) (snd v) (its_part (fst v) w) (map (its_part (fst v)) y)
                          else Ok (passed (fun q => q) (x_dims (snd v)) (snd v)))
    s (ds_reduce_vals K P R (params_for md) Missing (Val d) s w y).
Proof.
  intros A V K P R md d s w y Hs Hm Hf Low Ch. set (F := call_values (fun x w y => rmap to_grid (reduce_vals_nd K P R (AInt (-1)) x w y))).
  eapply each_ext; [|apply (values_apply (fun q => q) s d (S (mom_ndim P)) (w :: y) [] Hs) with (out_core := md) (F := F) (fx := fun v => x_reduce_vals K P R (params_for md) Missing (Val d) (snd v) (its_part (fst v) w) (map (its_part (fst v)) y))].
  - intros v _. cbn beta. cbn [forallb]. now rewrite andb_true_r.
  - cbn [map]. now rewrite app_nil_r.
  - exact Low.
  - destruct Ch as (v & Iv & C). exists v. rewrite C. auto.
  - apply Hm.
  - intros e E. unfold ds_reduce_vals. now rewrite E.
  - intros o E. unfold ds_reduce_vals. rewrite E. cbn [rbind]. rewrite params_dims. cbn [rbind]. now rewrite app_nil_r.
  - intros v e E. unfold x_reduce_vals. cbn [map] in E. now rewrite E.
  - intros v o E. unfold x_reduce_vals. cbn [map] in E. rewrite E. cbn [rbind]. rewrite params_dims. cbn [rbind map]. now rewrite app_nil_r.
Qed.
Lemma order_nodup_free md (s : xset) v (replace : sname -> sname) : moment_names md -> In v s -> NoDup (map replace (x_dims (snd v))) -> (forall n, In n (x_dims (snd v)) -> ~ In (replace n) md) -> NoDup (map replace (x_dims (snd v)) ++ md).
Proof. intros Hm Iv N H. apply NoDup_app_; [exact N|apply Hm|]. intros n Hn Q. apply in_map_iff in Hn as (m & <- & Hmm). now apply (H m Hmm). Qed.
Lemma order_free md s v : set_ok s -> moment_names md -> moments_free md s -> In v s -> NoDup (map (fun n => n) (x_dims (snd v)) ++ md).
Proof. intros Hs Hm Mf Iv. apply (order_nodup_free md s); auto; [rewrite map_id; now apply Hs|]. intros n Hn Q. now apply (Mf v n Iv). Qed.
Theorem rolling_vals_set : forall {A V} (K : pusher A V) (P : packer A) (R : reader V) window min_periods center zero md d to_end s w y, set_ok s -> moment_names md -> ~ In d md -> moments_free md s ->
  all_fit s (w :: y) -> (forall a, In a (w :: y) -> one_axis a) -> (exists v, In v s /\ has_values d (w :: y) v = true) ->
  each_variable (fun v => if has_values d (w :: y) v
                          then x_rolling_vals K P R (params_for md) window min_periods center zero Missing (Val d) to_end (snd v) (its_part (fst v) w) (map (its_part (fst v)) y)
                          else Ok (passed Some (if to_end then d :: md else (x_dims (snd v) ++ md)%list) (snd v)))
    s (ds_rolling_vals K P R (params_for md) window min_periods center zero Missing (Val d) to_end s w y).
Proof.
  intros A V K P R window mp center zero md d to_end s w y Hs Hm Nd Mf Hf Low Ch. set (F := call_values (fun x w y => rolling_vals_nd K P R window mp center zero (AInt (-1)) false x w y)).
  eapply each_ext; [|apply (values_set None Some s d (S (mom_ndim P)) (w :: y) [] Hs) with (out_core := d :: md) (F := F) (to_end := to_end) (replace := fun n => n) (append := md)
    (fx := fun v => x_rolling_vals K P R (params_for md) window mp center zero Missing (Val d) to_end (snd v) (its_part (fst v) w) (map (its_part (fst v)) y))].
  - intros v _. cbn beta. cbn [forallb]. rewrite andb_true_r, map_id. reflexivity.
  - cbn [map]. now rewrite app_nil_r.
  - exact Low.
  - destruct Ch as (v & Iv & C). exists v. rewrite C. auto.
  - constructor; [exact Nd|apply Hm].
  - intros _ v Iv. now apply (order_free md s).
  - intros e E. unfold ds_rolling_vals. now rewrite E.
  - intros o E. unfold ds_rolling_vals. rewrite E. cbn [rbind]. rewrite params_core, params_dims. cbn [rbind app]. now rewrite app_nil_r.
  - intros v e E. unfold x_rolling_vals. cbn [map] in E. now rewrite E.
  - intros v o E. unfold x_rolling_vals. cbn [map] in E. rewrite E. cbn [rbind]. rewrite params_core, params_dims. cbn [rbind map app]. now rewrite app_nil_r.
Qed.
Theorem rolling_exp_vals_set : forall {A V} (K : pusher A V) (P : packer A) (R : reader V) alpha adjust min_periods zero md d to_end s w y, set_ok s -> moment_names md -> ~ In d md -> moments_free md s ->
  all_fit s (w :: alpha :: y) -> (forall a, In a (w :: alpha :: y) -> one_axis a) -> (exists v, In v s /\ has_values d (w :: alpha :: y) v = true) ->
  each_variable (fun v => if has_values d (w :: alpha :: y) v
                          then x_rolling_exp_vals K P R (params_for md) (its_part (fst v) alpha) adjust min_periods zero Missing (Val d) to_end (snd v) (its_part (fst v) w) (map (its_part (fst v)) y)
                          else Ok (passed Some (if to_end then d :: md else (x_dims (snd v) ++ md)%list) (snd v)))
    s (ds_rolling_exp_vals K P R (params_for md) alpha adjust min_periods zero Missing (Val d) to_end s w y).
Proof.
  intros A V K P R alpha adjust mp zero md d to_end s w y Hs Hm Nd Mf Hf Low Ch.
  set (F := fun ts : list tensor => match ts with x :: w :: alpha :: y => rolling_exp_vals_nd K P R alpha adjust mp zero (AInt (-1)) false x w y | _ => Raise EType end).
  eapply each_ext; [|apply (values_set None Some s d (S (S (mom_ndim P))) (w :: alpha :: y) [] Hs) with (out_core := d :: md) (F := F) (to_end := to_end) (replace := fun n => n) (append := md)
    (fx := fun v => x_rolling_exp_vals K P R (params_for md) (its_part (fst v) alpha) adjust mp zero Missing (Val d) to_end (snd v) (its_part (fst v) w) (map (its_part (fst v)) y))].
  - intros v _. cbn beta. cbn [forallb]. rewrite andb_true_r, map_id. reflexivity.
  - cbn [map]. now rewrite app_nil_r.
  - exact Low.
  - destruct Ch as (v & Iv & C). exists v. rewrite C. auto.
  - constructor; [exact Nd|apply Hm].
  - intros _ v Iv. now apply (order_free md s).
  - intros e E. unfold ds_rolling_exp_vals. now rewrite E.
  - intros o E. unfold ds_rolling_exp_vals. rewrite E. cbn [rbind]. rewrite params_core, params_dims. cbn [rbind app]. now rewrite app_nil_r.
  - intros v e E. unfold x_rolling_exp_vals. cbn [map] in E. now rewrite E.
  - intros v o E. unfold x_rolling_exp_vals. cbn [map] in E. rewrite E. cbn [rbind]. rewrite params_core, params_dims. cbn [rbind map app]. now rewrite app_nil_r.
Qed.
Theorem resample_vals_set : forall {A V} (K : pusher A V) (P : packer A) (R : reader V) freq rep md d to_end s w y, set_ok s -> moment_names md -> ~ In d md -> ~ In rep md -> moments_free md s ->
  (forall v, In v s -> ~ In rep (x_dims (snd v))) ->
  all_fit s (w :: y ++ [freq]) -> (forall a, In a (w :: y) -> one_axis a) -> (exists v, In v s /\ (has_values d (w :: y) v && part_has [rep; d] (fst v) freq)%bool = true) ->
  each_variable (fun v => if (has_values d (w :: y) v && part_has [rep; d] (fst v) freq)%bool
                          then x_resample_vals K P R (params_for md) (its_part (fst v) freq) rep Missing (Val d) to_end (snd v) (its_part (fst v) w) (map (its_part (fst v)) y)
                          else Ok (passed (fun q => q) (if to_end then rep :: md else (map (fun n => if String.eqb n d then rep else n) (x_dims (snd v)) ++ md)%list) (snd v)))
    s (ds_resample_vals K P R (params_for md) freq rep Missing (Val d) to_end s w y).
Proof.
  intros A V K P R freq rep md d to_end s w y Hs Hm Nd Nrm Mf Nr Hf Low Ch.
  set (F := fun ts => call_values (fun x w y => rmap to_grid (resample_vals_nd K P R (last ts (Tensor [0] [])) (AInt (-1)) false x w y)) (removelast ts)).
  eapply each_ext; [|apply (values_set 0%Qc (fun q => q) s d (S (mom_ndim P)) (w :: y) [(freq, [rep; d])] Hs) with (out_core := rep :: md) (F := F) (to_end := to_end) (replace := fun n => if String.eqb n d then rep else n) (append := md)
    (fx := fun v => x_resample_vals K P R (params_for md) (its_part (fst v) freq) rep Missing (Val d) to_end (snd v) (its_part (fst v) w) (map (its_part (fst v)) y))].
  - intros v _. cbn beta. cbn [forallb fst snd]. rewrite andb_true_r. reflexivity.
  - exact Hf.
  - exact Low.
  - destruct Ch as (v & Iv & C). exists v. cbn [forallb fst snd]. rewrite andb_true_r. auto.
  - constructor; [exact Nrm|apply Hm].
  - intros _ v Iv. apply (order_nodup_free md s); auto.
    + apply NoDup_map_in; [now apply Hs|]. intros a b Ia Ib. destruct (String.eqb_spec a d) as [->|Da], (String.eqb_spec b d) as [->|Db]; auto; intros E; exfalso; apply (Nr v Iv); congruence.
    + intros n Hn. destruct (String.eqb_spec n d); [exact Nrm|]. intros Q. now apply (Mf v n Iv).
  - intros e E. unfold ds_resample_vals. now rewrite E.
  - intros o E. unfold ds_resample_vals. rewrite E. cbn [rbind]. rewrite params_core, params_dims. cbn [rbind app]. reflexivity.
  - intros v e E. unfold x_resample_vals. cbn [map] in E. now rewrite E.
  - intros v o E. unfold x_resample_vals. cbn [map] in E. rewrite E. cbn [rbind]. rewrite params_core, params_dims. cbn [rbind map app]. reflexivity.
Qed.
