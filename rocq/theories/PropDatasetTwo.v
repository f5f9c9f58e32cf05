(* Functions of Datasets with a second argument: resampling, exponential windows and
   jackknife act on each variable as the functions of DataArrays do. *)
From Coq Require Import String Permutation.
From Verif Require Import Base BaseLemmas ModelPush ModelKernels ModelIndex ModelAxes ModelParams ModelWrap ModelNd ModelLabel ModelDataset Spec SpecAxes SpecNd SpecLabel SpecLabelTwo SpecDataset
  ProofAxes ProofArrays ProofIndex ProofNd PropAxes PropParams PropWrap PropLabelled PropNd PropNdUse ProofLabel ProofLabelMany PropLabel PropLabelTwo PropLabelReduce PropLabelJack PropLabelExp ProofDataset PropDataset.
Local Open Scope string_scope.
Local Open Scope nat_scope.

Lemma fits_agree s a b c x y : fits s a -> In b [a] -> In c [a] -> In x (arrays_of b) -> In y (arrays_of c) -> sizes_agree x y.
Proof.
  intros F [<-|[]] [<-|[]]. destruct a as [t|[z|t]]; cbn [arrays_of labelled_of flat_map app].
  - intros Ix Iy. apply in_map_iff in Ix as (v & <- & Iv). apply in_map_iff in Iy as (w & <- & Iw). destruct F as ((_ & _ & A) & _). now apply A.
  - intros [<-|[]] [<-|[]] n _ _. reflexivity.
  - intros [].
Qed.
Lemma two_set {T} (dflt : T) (inj : Qc -> T) s md d rd a ds2 to_end replace (f : list tensor -> res (grid T)) : set_ok s -> moment_names md -> ~ In rd md -> fits s a ->
  (to_end = false -> forall v, In v s -> NoDup (map replace (x_dims (snd v)))) ->
  each_variable (fun v => if (has_names (d :: md) (snd v) && part_has ds2 (fst v) a)%bool
                          then rbind (apply_ufunc [(Labelled (snd v), d :: md); (its_part (fst v) a, ds2)] (rd :: md) [] f)
                                 (fun g => if to_end then Ok g else transpose_like dflt (x_dims (snd v)) replace [] [] g)
                          else Ok (passed inj (if to_end then rd :: md else map replace (x_dims (snd v))) (snd v)))
    s (rbind (ds_apply inj s (d :: md) [(a, ds2)] (rd :: md) [] f) (ds_finish dflt to_end s replace [] (rd :: md))).
Proof.
  intros Hs (Nm & _) Nd Fa Nr. eapply each_ext; [|apply (each_data dflt inj s (d :: md) [(a, ds2)] (rd :: md) [] f to_end replace [] Hs)].
  - intros v Iv. unfold done_var, order_of. cbn [forallb map fst snd]. rewrite andb_true_r. destruct (_ && _)%bool; [reflexivity|]. now rewrite app_nil_r.
  - now constructor.
  - intros b [<-|[]]. exact Fa.
  - intros b c Ib Ic x y Ix Iy. exact (fits_agree s a b c x y Fa Ib Ic Ix Iy).
  - intros E v Iv. rewrite app_nil_r. auto.
Qed.

(* ---- exponential windows ----------------------------------------------------------------- *)

Theorem rolling_exp_set : forall {A V} (K : pusher A V) (P : packer A) alpha alpha_axis adjust min_periods zero md d to_end s, set_ok s -> moment_names md -> ~ In d md -> fits s alpha ->
  (exists v, In v s /\ has_names (d :: md) (snd v) = true) ->
  each_variable (fun v => if (has_names (d :: md) (snd v) && part_has [d] (fst v) alpha)%bool
                          then x_rolling_exp_data K P (params_for md) (its_part (fst v) alpha) alpha_axis adjust min_periods zero Missing (Val d) to_end (snd v)
                          else Ok (passed Some (if to_end then d :: md else x_dims (snd v)) (snd v)))
    s (ds_rolling_exp_data K P (params_for md) alpha alpha_axis adjust min_periods zero Missing (Val d) to_end s).
Proof.
  intros A V K P alpha aa adjust mp zero md d to_end s Hs Hm Nd Fa (v0 & Iv0 & S0). unfold ds_rolling_exp_data. rewrite (ds_with_dim_eq s md d _ Hs Nd (proj2 Hm)).
  assert (Hd0 : In d (x_dims (snd v0))) by (apply has_names_In in S0; apply S0; now left).
  assert (Same : forall a, fits s a -> (forall v, In v s -> part_has [d] (fst v) a = part_has [d] (fst v) alpha) ->
    (forall v, In v s -> has_names (d :: md) (snd v) = true -> part_has [d] (fst v) alpha = true ->
       match its_part (fst v) alpha with Plain t => rmap (fun q => Plain (snd q)) (prepare_alpha aa (dim_size (snd v) d) true t) | Labelled _ => Ok (its_part (fst v) alpha) end = Ok (its_part (fst v) a)) ->
    each_variable (fun v => if (has_names (d :: md) (snd v) && part_has [d] (fst v) alpha)%bool
                          then x_rolling_exp_data K P (params_for md) (its_part (fst v) alpha) aa adjust mp zero Missing (Val d) to_end (snd v)
                          else Ok (passed Some (if to_end then d :: md else x_dims (snd v)) (snd v)))
      s (rbind (ds_apply Some s (d :: md) [(a, [d])] (d :: md) [] (fun ts => rolling_exp_data_at K P (arg 1 ts) (-1) adjust mp zero (axis_value (AInt (- (Z.of_nat (List.length md) + 1)))) (axes_last (List.length md)) (arg 0 ts)))
           (ds_finish None to_end s (fun n => n) [] (d :: md)))).
  { intros a Fa' Eh Ep. eapply each_ext; [|apply (two_set None Some s md d d a [d] to_end (fun n => n)); auto].
    - intros v Iv. cbn beta. rewrite Eh by exact Iv. destruct (_ && _)%bool eqn:S; [|now rewrite map_id]. apply andb_true_iff in S as [S S']. unfold x_rolling_exp_data. enter Hs Iv Hm Nd S.
      assert (Hd : In d (x_dims (snd v))) by (apply has_names_In in S; apply S; now left). rewrite sizes_named by exact Hd. cbn [rbind]. rewrite (Ep v Iv S S'). reflexivity.
    - intros _ v Iv. rewrite map_id. now apply Hs. }
  destruct alpha as [t|[z|t]].
  - cbn [rbind]. apply Same; auto. intros v Iv S S'. unfold part_has in S'. cbn [its_part] in *. destruct (get_var (fst v) t) as [z|] eqn:G; [reflexivity|]. exfalso. destruct Fa as (_ & E & _).
    destruct (get_var_name (fst v) t) as (y & Gy & _); [apply E; apply in_map_iff; now exists v|congruence].
  - cbn [rbind]. apply Same; auto.
  - rewrite (ds_size_ok s v0 d Hs Iv0 Hd0). cbn [rbind]. destruct (prepare_alpha aa (dim_size (snd v0) d) true t) as [q|e] eqn:Pr; cbn [rbind rmap].
    + apply Same; [exact I|reflexivity|]. intros v Iv S _. cbn [its_part]. assert (Hd : In d (x_dims (snd v))) by (apply has_names_In in S; apply S; now left).
      replace (dim_size (snd v) d) with (dim_size (snd v0) d) by now apply Hs. now rewrite Pr.
    + left. exists v0. split; [exact Iv0|]. rewrite S0. cbn [andb part_has its_part]. change (part_has [d] (fst v0) (DArr (Plain t))) with true. cbn [andb]. unfold x_rolling_exp_data. enter Hs Iv0 Hm Nd S0. rewrite sizes_named by exact Hd0. cbn [rbind]. now rewrite Pr.
Qed.

(* ---- resampling ------------------------------------------------------------------------------ *)

(* the counts have no dimension but these *)
Definition only_dims (ds : list sname) (a : dop) : Prop := forall x, In x (arrays_of a) -> incl (x_dims x) ds.
Lemma l_transpose_same {T} (dflt : T) supplied g g' : l_transpose dflt supplied g = Ok g' -> NoDup (lg_dims g') ->
  infix_dims (map Some (lg_dims g')) (lg_dims g') = Ok (lg_dims g') /\ l_transpose dflt (map Some (lg_dims g')) g' = Ok g'.
Proof.
  intros H N. pose proof (infix_exact (lg_dims g') (lg_dims g') N (incl_refl _) (incl_refl _)) as I. split; [exact I|].
  assert (G : grid_ok (lg_val g') /\ List.length (gshape (lg_val g')) = List.length (lg_dims g')).
  { unfold l_transpose in H. destruct (infix_dims _ _) as [ds|]; [|discriminate]. cbn [rbind] in H. destruct (mapR _ ds) as [o|] eqn:E; [|discriminate]. cbn [rbind] in H. injection H as <-. cbn [lg_val lg_dims].
    split; [apply gtabulate_ok|]. cbn [gtranspose gtabulate gshape]. rewrite map_length. now apply mapR_length in E. }
  destruct G as [G L]. set (sz := fun n => nth (position String.eqb n (lg_dims g')) (gshape (lg_val g')) 0).
  assert (Sz : gshape (lg_val g') = map sz (lg_dims g')).
  { rewrite map_named. rewrite <- L. transitivity (map (fun a => nth a (gshape (lg_val g')) 0) (seq 0 (List.length (gshape (lg_val g'))))); [symmetry; now apply map_nth_seq|]. apply map_ext_in. intros a Ha. apply in_seq in Ha. unfold sz. now rewrite pos_nth by (auto; lia). }
  assert (Ln : l_named sz (lg_dims g') g') by (repeat split; auto).
  destruct (l_transpose_ok dflt (map Some (lg_dims g')) sz (lg_dims g') (lg_dims g') g' Ln N) as (h & E & Lh & _ & F).
  - rewrite known_some. rewrite filter_all; [exact I|]. intros n Hn. now apply smem_In.
  - rewrite E. f_equal. apply (named_eq dflt sz (lg_dims g')); auto.
Qed.
Theorem resample_set : forall {A V} (K : pusher A V) (P : packer A) freq rep md d to_end s, set_ok s -> moment_names md -> ~ In d md -> ~ In rep md -> fits s freq -> only_dims [rep; d] freq ->
  (forall v, In v s -> ~ In rep (x_dims (snd v))) ->
  each_variable (fun v => if (has_names (d :: md) (snd v) && part_has [rep; d] (fst v) freq)%bool
                          then x_resample_data K P (params_for md) (its_part (fst v) freq) rep Missing (Val d) to_end (snd v)
                          else Ok (passed (fun q => q) (if to_end then rep :: md else map (fun n => if String.eqb n d then rep else n) (x_dims (snd v))) (snd v)))
    s (ds_resample_data K P (params_for md) freq rep Missing (Val d) to_end s).
Proof.
  intros A V K P freq rep md d to_end s Hs Hm Nd Nrm Ff Od Nr. unfold ds_resample_data. rewrite (ds_with_dim_eq s md d _ Hs Nd (proj2 Hm)).
  assert (Nrep : forall v, In v s -> NoDup (map (fun n => if String.eqb n d then rep else n) (x_dims (snd v)))).
  { intros v Iv. apply NoDup_map_in; [now apply Hs|]. intros a b Ia Ib. destruct (String.eqb_spec a d) as [->|Da], (String.eqb_spec b d) as [->|Db]; auto; intros E; exfalso; apply (Nr v Iv); congruence. }
  eapply each_ext; [|apply (two_set 0%Qc (fun q => q) s md d rep freq [rep; d] to_end (fun n => if String.eqb n d then rep else n)); auto].
  intros v Iv. cbn beta. destruct (_ && _)%bool eqn:S; [|reflexivity]. apply andb_true_iff in S as [S S']. unfold x_resample_data. enter Hs Iv Hm Nd S. cbn [core_dims iter_dims params_for xp_dims rbind app].
  unfold core_dims, iter_dims. cbn [params_for xp_dims rbind app]. destruct (apply_ufunc _ _ _ _) as [g|] eqn:Ap; cbn [rbind]; [|reflexivity]. destruct to_end; [reflexivity|]. rewrite transpose_like_front, app_nil_r. set (order := map _ (x_dims (snd v))).
  pose proof (proj1 (proj2 Hs) v Iv) as Hx. pose proof S as S0. apply has_names_In in S. assert (Hd : In d (x_dims (snd v))) by (apply S; now left).
  destruct (apply_dims _ _ _ _ _ (NoDup_cons rep Nrm (proj1 Hm)) Ap) as [W _]. assert (No : NoDup order) by now apply Nrep.
  destruct (l_transpose_total 0%Qc order g W (NoDup_filter _ No)) as (g' & E & _ & W' & D). rewrite E. cbn [rbind].
  assert (Names : forall n, In n (lg_dims g) <-> In n order).
  { intros n. rewrite (apply_names _ _ _ _ _ Ap).
    - cbn [flat_map map fst snd labelled_of app]. rewrite !app_nil_r. unfold order. rewrite in_map_iff. split.
      + intros [[<-|Q]|(_ & Nc & x & Ix & Q)].
        * exists d. now rewrite String.eqb_refl.
        * exists n. destruct (String.eqb_spec n d) as [->|]; [contradiction|]. split; [reflexivity|]. apply S. now right.
        * exists n. assert (X : In n (x_dims (snd v))).
          { destruct Ix as [<-|Ix]; [exact Q|]. exfalso. apply Nc. right. apply in_or_app. right. assert (Ia : In x (arrays_of freq)).
            { destruct freq as [t|o]; cbn [its_part arrays_of] in *; [|destruct o; [|destruct Ix]; destruct Ix as [<-|[]]; now left]. destruct (get_var (fst v) t) as [z|] eqn:Gz; [|destruct Ix]. destruct Ix as [<-|[]].
              unfold get_var in Gz. destruct (find _ t) as [w|] eqn:Fw; [|discriminate]. injection Gz as <-. apply find_some in Fw as [Fw _]. apply in_map_iff. now exists w. }
            apply (Od x Ia) in Q. exact Q. }
          destruct (String.eqb_spec n d) as [->|]; [exfalso; apply Nc; now left|]. auto.
      + intros (m & Em & Im). cbn beta in Em. destruct (String.eqb_spec m d) as [Dm|D'] in Em.
        * rewrite <- Em. left. now left.
        * rewrite Em in *. destruct (in_dec string_dec n md) as [Q|Q]; [left; now right|]. right. split; [intros []|]. split.
          -- intros [->|R]; [now apply D'|]. apply in_app_or in R as [R|[<-|[<-|[]]]]; [contradiction|now apply (Nr v Iv)|now apply D'].
          -- exists (snd v). split; [now left|exact Im].
    - intros x Ix. cbn [map fst labelled_of flat_map app] in Ix. destruct Ix as [<-|Ix]; [exact Hx|]. rewrite app_nil_r in Ix. destruct freq as [t|o]; cbn [its_part] in Ix.
      + destruct (get_var (fst v) t) as [z|] eqn:Gz; [|destruct Ix]. destruct Ix as [<-|[]]. unfold get_var in Gz. destruct (find _ t) as [w|] eqn:Fw; [|discriminate]. injection Gz as <-. apply find_some in Fw as [Fw _]. now apply Ff.
      + destruct o as [z|]; [|destruct Ix]. destruct Ix as [<-|[]]. apply Ff. }
  assert (Eo : (firstn a (x_dims (snd v)) ++ rep :: skipn (Datatypes.S a) (x_dims (snd v)))%list = order).
  { unfold order. pose proof (proj1 (proj2 Hx)) as Nx. clear -Ea Nx. revert a Ea. induction (x_dims (snd v)) as [|n l IH]; intros [|a] Ea; try discriminate.
    - injection Ea as ->. cbn [firstn skipn app map]. rewrite String.eqb_refl. f_equal. inversion_clear Nx as [|? ? Nn Nl]. rewrite (map_ext_in _ (fun m => m)); [now rewrite map_id|]. intros m Hm. destruct (String.eqb_spec m d) as [->|]; [contradiction|reflexivity].
    - cbn [nth_error] in Ea. inversion_clear Nx as [|? ? Nn Nl]. cbn [firstn skipn app map]. destruct (String.eqb_spec n d) as [->|]; [exfalso; apply Nn; now apply nth_error_In in Ea|]. f_equal. now apply IH. }
  assert (Dg : lg_dims g' = order).
  { rewrite D. rewrite (filter_all _ order) by (intros n Hn; apply smem_In; now apply Names). unfold except_name. rewrite (filter_none _ (lg_dims g)); [reflexivity|]. intros n Hn. apply Names in Hn. now destruct (in_dec string_dec n order). }
  rewrite Eo. rewrite <- Dg. destruct (l_transpose_same 0%Qc (None :: map Some order) g g' E (proj1 W')) as [I1 I2]. rewrite I1. cbn [rbind]. now rewrite I2.
Qed.

(* ---- results that go into one Dataset ---------------------------------------------------------- *)

Lemma passed_any_sized {T} (inj : Qc -> T) s order v : set_ok s -> In v s -> NoDup (filter (fun n => smem n (x_dims (snd v))) order) ->
  exists dims, NoDup dims /\ incl dims (x_dims (snd v)) /\ l_named (set_size s) dims (passed inj order (snd v)).
Proof.
  intros Hs Iv No. pose proof (proj1 (proj2 Hs) v Iv) as Hx. exists (passed_dims order (snd v)). pose proof (passed_perm order (snd v) (proj1 (proj2 Hx)) No) as Pm. split; [eapply Permutation_NoDup; [apply Permutation_sym, Pm|apply Hx]|].
  assert (I : incl (passed_dims order (snd v)) (x_dims (snd v))) by (intros n; now apply Permutation_in). split; [exact I|].
  eapply named_resize; [|apply (passed_named inj order (snd v) Hx No)]. intros n Hn. symmetry. apply set_size_of; auto.
Qed.
Lemma named_chooses md d x : has_names (d :: md) x = true -> chooses (List.length md) Missing (Val d) d x.
Proof. intros S. left. repeat split. apply has_names_In in S. apply S. now left. Qed.

Theorem rolling_exp_set_alone : forall {A V} (K : pusher A V) ok P, moment_array K ok P ->
  forall alpha alpha_axis adjust min_periods zero md d to_end s, set_ok s -> moment_names md -> ~ In d md -> moments_where P [d] md s -> fits s alpha ->
  (exists v, In v s /\ has_names (d :: md) (snd v) = true) ->
  (forall v, In v s -> has_names (d :: md) (snd v) = true -> part_has [d] (fst v) alpha = true ->
     exists b, decays_given d (except_name (x_dims (snd v)) (d :: md)) (snd v) (its_part (fst v) alpha) alpha_axis b) ->
  each_alone (fun v => if (has_names (d :: md) (snd v) && part_has [d] (fst v) alpha)%bool
                       then x_rolling_exp_data K P (params_for md) (its_part (fst v) alpha) alpha_axis adjust min_periods zero Missing (Val d) to_end (snd v)
                       else Ok (passed Some (if to_end then d :: md else x_dims (snd v)) (snd v)))
    s (ds_rolling_exp_data K P (params_for md) alpha alpha_axis adjust min_periods zero Missing (Val d) to_end s).
Proof.
  intros A V K ok P HMA alpha aa adjust mp zero md d to_end s Hs Hm Nd Mw Fa Ex Dg. apply alone_sized; [now apply rolling_exp_set|]. exists (set_size s). intros v g Iv. destruct (_ && _)%bool eqn:S; intros E.
  - apply andb_true_iff in S as [S S']. destruct (Dg v Iv S S') as (b & D).
    pose proof (proj1 (rolling_exp_named K ok P HMA (its_part (fst v) alpha) aa b adjust mp zero md Missing (Val d) d to_end (snd v) (Mw v Iv S) (named_chooses md d (snd v) S) Nd) D) as H. cbv zeta in H. rewrite E in H. eapply by_name_sized; eauto.
  - injection E as <-. now apply (passed_sized s md d Hs Hm Nd).
Qed.

Theorem resample_set_alone : forall {A V} (K : pusher A V) ok P, moment_array K ok P ->
  forall freq nrep rep md d to_end s, set_ok s -> moment_names md -> ~ In d md -> ~ In rep md -> moments_where P [d] md s -> fits s freq -> only_dims [rep; d] freq ->
  (forall v, In v s -> ~ In rep (x_dims (snd v))) ->
  (forall v, In v s -> has_names (d :: md) (snd v) = true -> part_has [rep; d] (fst v) freq = true -> counts_named (its_part (fst v) freq) rep d nrep (dim_size (snd v) d)) ->
  each_alone (fun v => if (has_names (d :: md) (snd v) && part_has [rep; d] (fst v) freq)%bool
                       then x_resample_data K P (params_for md) (its_part (fst v) freq) rep Missing (Val d) to_end (snd v)
                       else Ok (passed (fun q => q) (if to_end then rep :: md else map (fun n => if String.eqb n d then rep else n) (x_dims (snd v))) (snd v)))
    s (ds_resample_data K P (params_for md) freq rep Missing (Val d) to_end s).
Proof.
  intros A V K ok P HMA freq nrep rep md d to_end s Hs Hm Nd Nrm Mw Ff Od Nr Cn. apply alone_sized; [now apply resample_set|]. exists (result_size (set_size s) rep nrep). intros v g Iv. destruct (_ && _)%bool eqn:S; intros E.
  - apply andb_true_iff in S as [S S']. pose proof (Cn v Iv S S') as C.
    pose proof (proj1 (resample_named K ok P HMA (its_part (fst v) freq) rep nrep (dim_size (snd v) d) md Missing (Val d) d to_end (snd v) (Mw v Iv S) (named_chooses md d (snd v) S) Nd C) eq_refl (or_introl (Nr v Iv))) as H. cbv zeta in H. rewrite E in H.
    assert (Fr : new_free d (Some rep) s) by (intros n [= <-] _; exact Nr). destruct (regrouped_sized s md d (Some rep) nrep Hs Hm Nd Fr _ _ _ to_end v g Iv S H) as (dims & N & _ & L). eauto.
  - injection E as <-. destruct (passed_any_sized (fun q => q) s (if to_end then rep :: md else map (fun n => if String.eqb n d then rep else n) (x_dims (snd v))) v Hs Iv) as (dims & N & I & L).
    + apply NoDup_filter. destruct to_end; [constructor; [exact Nrm|apply Hm]|]. apply NoDup_map_in; [now apply Hs|]. intros a b Ia Ib. destruct (String.eqb_spec a d) as [->|Da], (String.eqb_spec b d) as [->|Db]; auto; intros E; exfalso; apply (Nr v Iv); congruence.
    + exists dims. split; [exact N|]. eapply named_resize; [|exact L]. intros n Hn. unfold result_size. destruct (String.eqb_spec n rep) as [->|]; [|reflexivity]. exfalso. apply (Nr v Iv). now apply I.
Qed.
