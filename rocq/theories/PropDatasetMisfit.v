(* Second arguments that do not go with a Dataset are refused. *)
From Coq Require Import String.
From Verif Require Import Base BaseLemmas Checks ModelPush ModelPushCov ModelKernels ModelIndex ModelAxes ModelSelect ModelParams ModelWrap ModelNd ModelLabel ModelDataset Spec SpecAxes SpecNd SpecLabel SpecLabelTwo SpecDataset
  ProofAxes ProofArrays ProofIndex ProofNd PropAxes PropParams PropWrap PropLabelled PropNd PropNdUse ProofLabel ProofLabelMany PropLabel PropLabelTwo ProofDataset PropDataset PropDatasetTwo PropDatasetReduce PropDatasetSampler PropLabelCheck PropLabelVals PropLabelValsCheck PropDatasetCheck.
Local Open Scope string_scope.
Local Open Scope nat_scope.

(* two of the arrays have a dimension with different sizes, or a Dataset among the
   arguments has other names than the data *)
Definition misfit (s : xset) (args : list dop) : Prop :=
  (exists x y n, In x (flat_map arrays_of (DSet s :: args)) /\ In y (flat_map arrays_of (DSet s :: args)) /\ In n (x_dims x) /\ In n (x_dims y) /\ dim_size x n <> dim_size y n) \/
  (exists t, In (DSet t) args /\ ~ (forall n, In n (map fst s) <-> In n (map fst t))).
Definition arrays_ok (args : list dop) : Prop := forall a x, In a args -> In x (arrays_of a) -> x_ok x.

Lemma align_conflict args x y n : (forall z, In z (flat_map arrays_of args) -> x_ok z) -> 1 < List.length args ->
  In x (flat_map arrays_of args) -> In y (flat_map arrays_of args) -> In n (x_dims x) -> In n (x_dims y) -> dim_size x n <> dim_size y n -> align [] args = Raise EValue.
Proof.
  intros Ok L Ix Iy Hx Hy D. destruct (align [] args) as [u|e] eqn:E; [|now rewrite (align_error _ _ _ E)]. exfalso. apply D. unfold align in E.
  destruct (Nat.leb_spec (List.length args) 1); [lia|]. set (xs := flat_map arrays_of args) in *.
  replace (foldR (fun sz z => foldR (unify_dim []) (combine (x_dims z) (x_shape z)) sz) xs []) with (foldR (fun sz l => foldR (unify_dim []) l sz) (map (fun z => combine (x_dims z) (x_shape z)) xs) []) in E.
  2: { clear. generalize (@nil (sname * nat)). induction xs as [|z xs IH]; intros acc; [reflexivity|]. cbn [map foldR]. destruct (foldR (unify_dim []) _ acc); cbn [rbind]; auto. }
  rewrite foldR_concat in E. destruct (foldR _ _ []) as [sz|] eqn:F; [|discriminate].
  assert (G : forall z, In z xs -> In n (x_dims z) -> lookup n sz = Some (dim_size z n)).
  { intros z Iz Hz. apply (unify_adds _ _ _ _ F); [intros []|]. apply in_concat. exists (combine (x_dims z) (x_shape z)). split; [apply in_map_iff; now exists z|]. rewrite combine_named by auto. apply in_map_iff. now exists n. }
  pose proof (G x Ix Hx). pose proof (G y Iy Hy). congruence.
Qed.
Lemma apply_misfit {T} (inj : Qc -> T) s core others out_core f : set_ok s -> arrays_ok (map fst others) -> others <> [] -> misfit s (map fst others) ->
  ds_apply inj s core others out_core [] f = Raise EValue.
Proof.
  intros Hs Ha Ne [(x & y & n & Ix & Iy & Hx & Hy & D)|(t & It & H)]; unfold ds_apply.
  - rewrite (align_conflict _ x y n); auto; [|destruct others; [congruence|cbn; lia]]. intros z Iz. cbn [flat_map] in Iz. apply in_app_or in Iz as [Iz|Iz].
    + apply in_map_iff in Iz as (v & <- & Iv). now apply Hs.
    + apply in_flat_map in Iz as (a & I1 & I2). eauto.
  - destruct (align _ _) as [[]|e] eqn:E; cbn [rbind]; [|now rewrite (align_error _ _ _ E)].
    match goal with |- context [negb ?b] => assert (Q : b = false) end; [|rewrite Q; reflexivity].
    apply not_true_is_false. rewrite forallb_forall. intros Q. specialize (Q _ It). cbn [same_keys] in Q. apply H. apply andb_true_iff in Q as [Q1 Q2]. rewrite forallb_forall in Q1, Q2. intros n. split; intros I; apply smem_In; auto.
Qed.

Theorem resample_misfit : forall {A V} (K : pusher A V) (P : packer A) freq rep md d to_end s, set_ok s -> moment_names md -> ~ In d md -> arrays_ok [freq] -> misfit s [freq] ->
  ds_resample_data K P (params_for md) freq rep Missing (Val d) to_end s = Raise EValue.
Proof.
  intros A V K P freq rep md d to_end s Hs Hm Nd Ha Hf. unfold ds_resample_data. rewrite (ds_with_dim_eq s md d _ Hs Nd (proj2 Hm)). unfold core_dims. cbn [params_for xp_dims rbind app]. unfold iter_dims. cbn [params_for xp_dims rbind app].
  rewrite apply_misfit; auto. discriminate.
Qed.
Lemma plain_no_misfit s t : set_ok s -> misfit s [DArr (Plain t)] -> False.
Proof.
  intros Hs [(x & y & n & Ix & Iy & Hx & Hy & D)|(u & [[=]|[]] & _)]. cbn [flat_map arrays_of labelled_of app] in Ix, Iy. rewrite app_nil_r in Ix, Iy. apply in_map_iff in Ix as (v & <- & Iv). apply in_map_iff in Iy as (w & <- & Iw). apply D. now apply Hs.
Qed.
Theorem rolling_exp_misfit : forall {A V} (K : pusher A V) (P : packer A) alpha alpha_axis adjust min_periods zero md d to_end s, set_ok s -> moment_names md -> ~ In d md -> arrays_ok [alpha] -> misfit s [alpha] ->
  ds_rolling_exp_data K P (params_for md) alpha alpha_axis adjust min_periods zero Missing (Val d) to_end s = Raise EValue.
Proof.
  intros A V K P alpha alpha_axis adjust min_periods zero md d to_end s Hs Hm Nd Ha Hf. unfold ds_rolling_exp_data. rewrite (ds_with_dim_eq s md d _ Hs Nd (proj2 Hm)).
  destruct alpha as [t|[x|t]]; [| |now apply plain_no_misfit in Hf]; cbn [rbind]; (rewrite apply_misfit; [reflexivity|exact Hs|exact Ha|discriminate|exact Hf]).
Qed.
Theorem jackknife_misfit : forall {A V} (K : pusher A V) (P : packer A) red mom_axes rep_dim md d to_end s, set_ok s -> moment_names md -> ~ In d md -> arrays_ok [red] -> misfit s [red] ->
  ds_jackknife_data K P (params_for md) (Some (red, mom_axes)) rep_dim Missing (Val d) to_end s = Raise EValue.
Proof.
  intros A V K P red mom_axes rep_dim md d to_end s Hs Hm Nd Ha Hf. unfold ds_jackknife_data. destruct red as [t|[x|t]]; [| |now apply plain_no_misfit in Hf]; cbn [rbind];
    rewrite (ds_with_dim_eq s md d _ Hs Nd (proj2 Hm)); (rewrite apply_misfit; [reflexivity|exact Hs|exact Ha|discriminate|exact Hf]).
Qed.

(* ---- values ----------------------------------------------------------------------------------------- *)

Lemma prepared_misfit n axis dim s others d o : ds_prepare_values n axis dim s others = Ok (d, o) -> Forall2 (fun a b => arrays_of b = arrays_of a /\ forall t, a = DSet t -> b = DSet t) others o.
Proof.
  unfold ds_prepare_values. destruct (negb _); [discriminate|]. destruct (ds_dims s); [|discriminate]. cbn [rbind]. destruct (select_axis_dim _ _ _ _ _ _ _) as [[ax d0]|]; [|discriminate]. cbn [rbind]. destruct (ds_size s d0) as [k|]; [|discriminate]. cbn [rbind].
  destruct (hd_error s) as [v|]; [|discriminate]. cbn [of_opt rbind]. destruct (mapR _ others) as [o'|] eqn:M; [|discriminate]. cbn [rbind]. intros [= -> ->]. apply ProofAxes.mapR_Forall2 in M. eapply Forall2_imp_; [|exact M].
  intros a0 b. cbv beta. destruct a0 as [t|[x|t]]; [intros [= <-]; split; [reflexivity|auto]|intros [= <-]; split; [reflexivity|discriminate]|].
  destruct (prepare_secondary _ _ _ _); [|discriminate]. intros [= <-]. split; [reflexivity|discriminate].
Qed.
Lemma prepared_arrays others o ex : Forall2 (fun a b => arrays_of b = arrays_of a /\ forall t, a = DSet t -> b = DSet t) others o -> flat_map arrays_of (o ++ ex) = flat_map arrays_of (others ++ ex) /\ (forall t, In (DSet t) (others ++ ex) -> In (DSet t) (o ++ ex)).
Proof.
  induction 1 as [|a b l l' [E1 E2] H [IH1 IH2]]; [auto|]. cbn [app flat_map]. rewrite E1, IH1. split; [reflexivity|]. intros t [->|I]; [left; now apply E2|right; auto].
Qed.
Lemma args_fst d (o ex : list dop) (cs : dop -> list sname) : map fst (ds_args d o ++ map (fun e => (e, cs e)) ex) = (o ++ ex)%list.
Proof. unfold ds_args. rewrite map_app, !map_map. cbn [fst]. now rewrite !map_id. Qed.
Lemma values_misfit {T} (inj : Qc -> T) n axis dim s others ex cs out_core (f : sname -> list tensor -> res (grid T)) d o : set_ok s -> arrays_ok (others ++ ex) -> others <> [] -> misfit s (others ++ ex) ->
  ds_prepare_values n axis dim s others = Ok (d, o) -> ds_apply inj s [d] (ds_args d o ++ map (fun e => (e, cs e)) ex) out_core [] (f d) = Raise EValue.
Proof.
  intros Hs Ha Ne Hf E. apply prepared_misfit in E. pose proof (prepared_arrays _ _ ex E) as [F1 F2]. apply apply_misfit; auto.
  - rewrite args_fst. intros a x Ia Ix. assert (I : In x (flat_map arrays_of (o ++ ex))) by (apply in_flat_map; eauto). rewrite F1 in I. apply in_flat_map in I as (b & I1 & I2). eauto.
  - inversion E; subst; [congruence|discriminate].
  - rewrite args_fst. destruct Hf as [(x & y & m & Ix & Iy & Q)|(t & It & H)]; [left|right].
    + exists x, y, m. cbn [flat_map] in *. now rewrite F1.
    + exists t. auto.
Qed.
Theorem reduce_vals_misfit : forall {A V} (K : pusher A V) (P : packer A) (R : reader V) md d s w y, set_ok s -> arrays_ok (w :: y) -> misfit s (w :: y) ->
  exists e, ds_reduce_vals K P R (params_for md) Missing (Val d) s w y = Raise e.
Proof.
  intros A V K P R md d s w y Hs Ha Hf. unfold ds_reduce_vals. destruct (ds_prepare_values _ _ _ _ _) as [[d' o]|e] eqn:E; cbn [rbind]; [|eauto]. unfold iter_dims. cbn [params_for xp_dims rbind].
  pose proof (values_misfit (fun q => q) (S (mom_ndim P)) Missing (Val d) s (w :: y) [] (fun _ => []) md (fun _ => call_values (fun x w y => rmap to_grid (reduce_vals_nd K P R (AInt (-1)) x w y))) d' o Hs) as X. cbn [map] in X. rewrite !app_nil_r in X. rewrite X by (exact Ha || exact Hf || exact E || discriminate). cbn [rbind]. eauto.
Qed.
Theorem rolling_vals_misfit : forall {A V} (K : pusher A V) (P : packer A) (R : reader V) window min_periods center zero md d to_end s w y, set_ok s -> arrays_ok (w :: y) -> misfit s (w :: y) ->
  exists e, ds_rolling_vals K P R (params_for md) window min_periods center zero Missing (Val d) to_end s w y = Raise e.
Proof.
  intros A V K P R window min_periods center zero md d to_end s w y Hs Ha Hf. unfold ds_rolling_vals. destruct (ds_prepare_values _ _ _ _ _) as [[d' o]|e] eqn:E; cbn [rbind]; [|eauto]. unfold core_dims, iter_dims. cbn [params_for xp_dims rbind].
  pose proof (values_misfit Some (S (mom_ndim P)) Missing (Val d) s (w :: y) [] (fun _ => []) ([d'] ++ md)%list (fun _ => call_values (fun x w y => rolling_vals_nd K P R window min_periods center zero (AInt (-1)) false x w y)) d' o Hs) as X. cbn [map] in X. rewrite !app_nil_r in X. rewrite X by (exact Ha || exact Hf || exact E || discriminate). cbn [rbind]. eauto.
Qed.
Theorem rolling_exp_vals_misfit : forall {A V} (K : pusher A V) (P : packer A) (R : reader V) alpha adjust min_periods zero md d to_end s w y, set_ok s -> arrays_ok (w :: alpha :: y) -> misfit s (w :: alpha :: y) ->
  exists e, ds_rolling_exp_vals K P R (params_for md) alpha adjust min_periods zero Missing (Val d) to_end s w y = Raise e.
Proof.
  intros A V K P R alpha adjust min_periods zero md d to_end s w y Hs Ha Hf. unfold ds_rolling_exp_vals. destruct (ds_prepare_values _ _ _ _ _) as [[d' o]|e] eqn:E; cbn [rbind]; [|eauto]. unfold core_dims, iter_dims. cbn [params_for xp_dims rbind].
  match goal with |- context [ds_apply Some s _ _ _ _ ?f] => pose proof (values_misfit Some (S (S (mom_ndim P))) Missing (Val d) s (w :: alpha :: y) [] (fun _ => []) ([d'] ++ md)%list (fun _ => f) d' o Hs) as X end. cbn [map] in X. rewrite !app_nil_r in X. rewrite X by (exact Ha || exact Hf || exact E || discriminate). cbn [rbind]. eauto.
Qed.
Theorem resample_vals_misfit : forall {A V} (K : pusher A V) (P : packer A) (R : reader V) freq rep md d to_end s w y, set_ok s -> arrays_ok (w :: y ++ [freq]) -> misfit s (w :: y ++ [freq]) ->
  exists e, ds_resample_vals K P R (params_for md) freq rep Missing (Val d) to_end s w y = Raise e.
Proof.
  intros A V K P R freq rep md d to_end s w y Hs Ha Hf. unfold ds_resample_vals. destruct (ds_prepare_values _ _ _ _ _) as [[d' o]|e] eqn:E; cbn [rbind]; [|eauto]. unfold core_dims, iter_dims. cbn [params_for xp_dims rbind].
  match goal with |- context [ds_apply _ s _ _ _ _ ?f] => pose proof (values_misfit (fun q => q) (S (mom_ndim P)) Missing (Val d) s (w :: y) [freq] (fun _ => [rep; d']) ([rep] ++ md)%list (fun _ => f) d' o Hs) as X end. cbn [map app] in X |- *. rewrite X by (exact Ha || exact Hf || exact E || discriminate). cbn [rbind]. eauto.
Qed.
Theorem jackknife_vals_misfit : forall {A V} (K : pusher A V) (P : packer A) (R : reader V) red rep_dim md d to_end s w y, set_ok s -> arrays_ok (w :: y ++ [red]) -> misfit s (w :: y ++ [red]) ->
  exists e, ds_jackknife_vals K P R (params_for md) (Some red) rep_dim Missing (Val d) to_end s w y = Raise e.
Proof.
  intros A V K P R red rep_dim md d to_end s w y Hs Ha Hf. unfold ds_jackknife_vals. cbn [rbind]. destruct (ds_prepare_values _ _ _ _ _) as [[d' o]|e] eqn:E; cbn [rbind]; [|eauto]. unfold core_dims, iter_dims. cbn [params_for xp_dims rbind].
  match goal with |- context [ds_apply _ s _ _ _ _ ?f] => pose proof (values_misfit (fun q => q) (S (mom_ndim P)) Missing (Val d) s (w :: y) [red] (fun _ => md) ([d'] ++ md)%list (fun _ => f) d' o Hs) as X end. cbn [map app] in X |- *. rewrite X by (exact Ha || exact Hf || exact E || discriminate). cbn [rbind]. eauto.
Qed.

(* the dimension k of a variable that is not resampled has 2 entries; one of the frequencies
   has no variable *)
Example misfit_ex : set_ok dset2 /\ arrays_ok [DArr (Labelled lfreq); DSet dfreq] /\
  misfit dset2 [DArr (Labelled (XA ["rep"; "s"; "k"] (Tensor [1; 3; 1] (lz [1; 1; 1]%Z))))] /\ misfit [("a", lx1)] [DSet dfreq].
Proof.
  split; [exact dset2_ok|]. split; [intros a x [<-|[<-|[]]] Ix; cbn in Ix|split].
  - destruct Ix as [<-|[]]. exact lfreq_ok.
  - destruct Ix as [<-|[<-|[]]]; [exact lfreq_ok|split; [reflexivity|split; [apply names2; discriminate|reflexivity]]].
  - left. exists dc, (XA ["rep"; "s"; "k"] (Tensor [1; 3; 1] (lz [1; 1; 1]%Z))), "k". cbn. repeat split; auto.
  - right. exists dfreq. split; [now left|]. intros H. destruct (proj2 (H "c")) as [Q|[]]; [cbn; auto|discriminate].
Qed.
