(* Reductions of objects that hold a Dataset: reduce, cumulative, resample_and_reduce and
   jackknife_and_reduce give the results of the variables (C166). *)
From Coq Require Import String.
From Verif Require Import Base BaseLemmas ModelPush ModelKernels ModelIndex ModelAccum ModelAxes ModelState ModelParams ModelNd ModelWrap ModelSampler ModelLabel ModelMethods ModelConstruct ModelMethodsX ModelDataset ModelMethodsS
  Spec SpecIndex SpecAxes SpecNd SpecMoments PropLabelled SpecLabel SpecLabelTwo SpecLabelVals SpecMethods SpecMethodsX SpecDataset SpecMethodsS
  ProofIndex ProofAxes ProofNd ProofMulti ProofLabel ProofDataset PropNd PropIndex PropLabelTwo PropDataset PropDatasetTwo PropDatasetReduce PropMethodsX PropMethodsXReduce PropMethodsS PropMethodsSMore.
Local Open Scope string_scope.
Local Open Scope nat_scope.

(* results of the variables as variables of an object *)
Lemma object_of c (f : sname * xarr -> res (lgrid Qc)) r : each_alone f (cs_obj c) r ->
  each_object (fun v => rmap (fun g => by_itself (cs_params c) (to_xarr g)) (f v)) c (cs_with c r).
Proof.
  intros H. destruct r as [l|e]; cbn [cs_with rmap rbind each_object each_alone] in *.
  - split; [reflexivity|]. cbn [cs_obj]. unfold to_xset. induction H as [|v w s l [E1 E2] _ IH]; cbn [map]; constructor; [|exact IH]. split; [exact E1|]. rewrite E2. reflexivity.
  - destruct H as (v & Iv & E). exists v. split; [exact Iv|]. now rewrite E.
Qed.
(* a variable that is not reduced: its dimensions in another order *)
Definition kept_as (p : xparams) (order : list sname) (x : xarr) : cmdata := by_itself p (to_xarr (passed (fun q => q) order x)).

(* C166: without groups *)
Theorem reduce_object_set : forall {A V} (K : pusher A V) ok P, moment_array K ok P ->
  forall argsort c md dim ds first group_dim to_end keepdims use_map, sholds c md -> NoDup ds -> (forall n, In n ds -> ~ In n md) ->
  names_dims dim ds -> ds <> [] -> List.length ds = 1 \/ use_map = Some false -> moments_where P ds md (cs_obj c) -> (forall n, In n ds -> has_dim (cs_obj c) n) ->
  (keepdims = false \/ forall w n, In w (cs_obj c) -> has_names (ds ++ md) (snd w) = false -> In n ds -> In n (x_dims (snd w)) -> dim_size (snd w) n = 1) ->
  each_object (fun v => if has_names (ds ++ md) (snd v) then cx_reduce K P argsort (by_itself (cs_params c) (snd v)) RMissing dim None None first group_dim to_end keepdims
                        else Ok (kept_as (cs_params c) (reduce_order keepdims false ds md (snd v)) (snd v)))
    c (cs_reduce K P argsort c RMissing dim None None first group_dim to_end keepdims use_map).
Proof.
  intros A V K ok P HMA argsort c md dim ds first gd to_end keepdims um HC Nds Dds Hn Ne One Mw All Kd. pose proof HC as (Hs & Hm & Ep & (v0 & Iv0 & M0) & _).
  assert (All' : forall n, In n (ds ++ md) -> has_dim (cs_obj c) n) by (intros n H; apply in_app_iff in H as [H|H]; [now apply All|]; exists v0; split; [exact Iv0|]; now apply (proj1 (has_names_In md (snd v0)) M0)).
  pose proof (proj1 (reduce_set_alone K ok P HMA md dim ds keepdims false um (cs_obj c) Hs Hm Nds Dds Hn Ne One Mw All') Kd) as X. apply object_of in X.
  unfold cs_reduce. cbn [rbind many_axes]. rewrite Ep in *. eapply each_object_ext; [|exact X]. intros v Iv. cbn beta. destruct (has_names (ds ++ md) (snd v)); [|reflexivity].
  unfold cx_reduce, by_itself, cx_with. cbn [rbind many_axes cx_params cx_obj]. destruct Hn as [->|[->|(d & -> & ->)]]; reflexivity.
Qed.

(* the labels of the groups along a dimension with n entries *)
Definition labels_of (n : nat) (by_ : option (list Z)) (block : option Z) (l : list Z) : Prop :=
  by_ = Some l \/ (by_ = None /\ exists b, block = Some b /\ block_by (Z.of_nat n) b "drop_last" = Ok l).
Lemma block_set c md d b : sholds c md -> ~ In d md -> has_dim (cs_obj c) d -> cs_block_by c b RMissing (Val (DStr d)) = block_by (Z.of_nat (set_size (cs_obj c) d)) b "drop_last".
Proof.
  intros (Hs & Hm & Ep & _) Nd (v & Iv & Hv). unfold cs_block_by. cbn [axis_marg one_dim rbind]. destruct (ds_dims_ok _ Hs) as (dims & -> & _). cbn [rbind]. rewrite Ep.
  unfold select_axis_dim. cbn [validate_not_none guard rbind]. unfold guard. cbn [rbind]. unfold raise_if_dim_in_mom_dims. cbn [xp_dims params_for]. rewrite (proj2 (smem_false d md) Nd). cbn [rbind].
  rewrite (ds_size_ok _ v d Hs Iv Hv). cbn [rbind]. now rewrite (set_size_of _ v d Hs Iv Hv).
Qed.
Lemma by_name_along md d x : has_names (d :: md) x = true -> along (List.length md) RMissing (Val (DStr d)) d x.
Proof. intros H. left. split; [reflexivity|]. split; [reflexivity|]. apply (proj1 (has_names_In _ _) H). now left. Qed.
Lemma names_tail d md x : has_names (d :: md) x = true -> has_names md x = true.
Proof. intros H. apply has_names_In. intros n Hn. apply (proj1 (has_names_In _ _) H). now right. Qed.
(* the labels are the same for the object and for its variables *)
Lemma labels_set {A V} (K : pusher A V) P argsort c md d by_ block l first gd to_end keepdims um : sholds c md -> ~ In d md -> has_dim (cs_obj c) d -> labels_of (set_size (cs_obj c) d) by_ block l ->
  cs_reduce K P argsort c RMissing (Val (DStr d)) by_ block first gd to_end keepdims um = cs_reduce K P argsort c RMissing (Val (DStr d)) (Some l) None first gd to_end keepdims um /\
  forall v, In v (cs_obj c) -> has_names (d :: md) (snd v) = true ->
    cx_reduce K P argsort (by_itself (cs_params c) (snd v)) RMissing (Val (DStr d)) by_ block first gd to_end keepdims =
    cx_reduce K P argsort (by_itself (cs_params c) (snd v)) RMissing (Val (DStr d)) (Some l) None first gd to_end keepdims.
Proof.
  intros HC Nd Hd [->|(-> & b & -> & E)]; [split; [reflexivity|intros; reflexivity]|]. split.
  - unfold cs_reduce. rewrite (block_set c md d b HC Nd Hd), E. reflexivity.
  - intros v Iv M. unfold cx_reduce. rewrite (block_by_named (by_itself (cs_params c) (snd v)) md (by_itself_holds c md v HC Iv (names_tail _ _ _ M)) RMissing (Val (DStr d)) d b (by_name_along md d (snd v) M) Nd).
    unfold by_itself at 1. cbn [cx_obj]. rewrite <- (set_size_of (cs_obj c) v d) by (apply HC || exact Iv || (apply (proj1 (has_names_In _ _) M); now left)). rewrite E. reflexivity.
Qed.
(* C166: with groups, coords_policy="group" or None *)
Theorem grouped_object_set : forall {A V} (K : pusher A V) ok P, moment_array K ok P ->
  forall argsort c md d by_ block l mx group_dim to_end keepdims use_map, sholds c md -> ~ In d md -> has_dim (cs_obj c) d -> moments_where P [d] md (cs_obj c) -> new_free d group_dim (cs_obj c) ->
  labels_of (set_size (cs_obj c) d) by_ block l -> zmax l = Ok mx -> (-1 <= mx)%Z ->
  (forall w, In w (cs_obj c) -> In d (x_dims (snd w)) -> has_names md (snd w) = true \/ dim_size (snd w) d = Z.to_nat (mx + 1)) ->
  each_object (fun v => if has_names (d :: md) (snd v) then cx_reduce K P argsort (by_itself (cs_params c) (snd v)) RMissing (Val (DStr d)) by_ block false group_dim to_end keepdims
                        else Ok (by_itself (cs_params c) (to_xarr (renamed_grid d group_dim (passed (fun q => q) (if to_end then d :: md else x_dims (snd v)) (snd v))))))
    c (cs_reduce K P argsort c RMissing (Val (DStr d)) by_ block false group_dim to_end keepdims use_map).
Proof.
  intros A V K ok P HMA argsort c md d by_ block l mx gd to_end keepdims um HC Nd Hd Mw Nf HL Hz Hx Hw. pose proof HC as (Hs & Hm & Ep & _).
  destruct (labels_set K P argsort c md d by_ block l false gd to_end keepdims um HC Nd Hd HL) as [E1 E2]. rewrite E1.
  pose proof (proj1 (grouped_set_alone K ok P HMA l mx gd md d to_end (cs_obj c) Hs Hm Nd Mw Nf Hz Hx (or_intror Hd))) as X. cbv zeta in X.
  specialize (X (fun w Iw Iwd => match Hw w Iw Iwd with or_introl H => or_introl (proj1 (has_names_In _ _) H) | or_intror H => or_intror H end)). apply object_of in X.
  unfold cs_reduce. cbn [rbind axis_marg one_dim]. rewrite Ep in X |- *. eapply each_object_ext; [|exact X]. intros v Iv. cbn beta. destruct (has_names (d :: md) (snd v)) eqn:M; [|reflexivity].
  rewrite <- Ep, (E2 v Iv M), Ep. reflexivity.
Qed.
(* C166: with groups, coords_policy="first" or "last": the labels that occur *)
Theorem labels_object_set : forall {A V} (K : pusher A V) ok P, moment_array K ok P ->
  forall argsort c md d by_ block l groups group_dim to_end keepdims use_map, sorts argsort -> sholds c md -> ~ In d md -> has_dim (cs_obj c) d -> moments_where P [d] md (cs_obj c) -> new_free d group_dim (cs_obj c) ->
  labels_of (set_size (cs_obj c) d) by_ block l -> List.length l = set_size (cs_obj c) d -> l <> [] -> distinct_labels l groups ->
  (forall w, In w (cs_obj c) -> In d (x_dims (snd w)) -> has_names md (snd w) = true \/ dim_size (snd w) d = List.length groups) ->
  each_object (fun v => if has_names (d :: md) (snd v) then cx_reduce K P argsort (by_itself (cs_params c) (snd v)) RMissing (Val (DStr d)) by_ block true group_dim to_end keepdims
                        else Ok (by_itself (cs_params c) (to_xarr (renamed_grid d group_dim (passed (fun q => q) (if to_end then d :: md else x_dims (snd v)) (snd v))))))
    c (cs_reduce K P argsort c RMissing (Val (DStr d)) by_ block true group_dim to_end keepdims use_map).
Proof.
  intros A V K ok P HMA argsort c md d by_ block l groups gd to_end keepdims um Hsort HC Nd Hd Mw Nf HL Ll Hne HG Hw. pose proof HC as (Hs & Hm & Ep & _).
  destruct (labels_set K P argsort c md d by_ block l true gd to_end keepdims um HC Nd Hd HL) as [E1 E2]. rewrite E1.
  destruct (factor_by_to_index Z.eqb Z.leb (fun v => (v <? 0)%Z) argsort (int_labels l)) as [[groups' index] [start end_]] eqn:Ef.
  destruct (label_facts argsort Hsort l groups' index start end_ Ef) as (HG' & Ls & _).
  assert (Eg : groups' = groups). { apply sorted_unique; [apply HG'|apply HG|]. intros v. rewrite (proj2 HG' v), (proj2 HG v). tauto. } subst groups'.
  destruct Hd as (v1 & Iv1 & Hv1). rewrite (set_size_of _ v1 d Hs Iv1 Hv1) in Ll.
  pose proof (index_valid K ok P HMA argsort l groups index start end_ _ Hsort Hne Ll Ef) as Vi.
  pose proof (proj1 (indexed_set_alone K ok P HMA index start end_ None gd md d to_end (cs_obj c) Hs Hm Nd Mw Nf (ex_intro _ v1 (conj Iv1 (conj Hv1 Vi))))) as X. cbv zeta in X. rewrite Ls in X.
  specialize (X (fun w Iw Iwd => match Hw w Iw Iwd with or_introl H => or_introl (proj1 (has_names_In _ _) H) | or_intror H => or_intror H end)). apply object_of in X.
  unfold cs_reduce. cbn [rbind axis_marg one_dim]. rewrite Ef. rewrite Ep in X |- *. eapply each_object_ext; [|exact X]. intros v Iv. cbn beta. destruct (has_names (d :: md) (snd v)) eqn:M; [|reflexivity].
  rewrite <- Ep, (E2 v Iv M), Ep. unfold cx_reduce, by_itself, cx_with. cbn [rbind axis_marg one_dim cx_params cx_obj]. rewrite Ef. reflexivity.
Qed.

(* C166: cumulative gives a Dataset *)
Theorem cumulative_object_set : forall {A V} (K : pusher A V) ok P, moment_array K ok P ->
  forall c md d to_end, sholds c md -> ~ In d md -> moments_where P [d] md (cs_obj c) ->
  each_alone (fun v => if has_names (d :: md) (snd v) then cx_cumulative K P (by_itself (cs_params c) (snd v)) Missing (Val d) to_end
                       else Ok (passed (fun q => q) (if to_end then d :: md else x_dims (snd v)) (snd v)))
    (cs_obj c) (cs_cumulative K P c Missing (Val d) to_end).
Proof.
  intros A V K ok P HMA c md d to_end (Hs & Hm & Ep & _) Nd Mw. unfold cs_cumulative, cx_cumulative, by_itself. cbn [cx_params cx_obj]. rewrite Ep. now apply (cumulative_set_alone K ok P HMA).
Qed.
(* C166: resampling *)
Theorem resample_object_set : forall {A V} (K : pusher A V) ok P, moment_array K ok P ->
  forall c freq nrep rep md d to_end, sholds c md -> ~ In d md -> ~ In rep md -> moments_where P [d] md (cs_obj c) -> fits (cs_obj c) freq -> only_dims [rep; d] freq ->
  (forall v, In v (cs_obj c) -> ~ In rep (x_dims (snd v))) ->
  (forall v, In v (cs_obj c) -> has_names (d :: md) (snd v) = true -> part_has [rep; d] (fst v) freq = true -> counts_named (its_part (fst v) freq) rep d nrep (dim_size (snd v) d)) ->
  each_object (fun v => if (has_names (d :: md) (snd v) && part_has [rep; d] (fst v) freq)%bool
                        then cx_resample_and_reduce K P (by_itself (cs_params c) (snd v)) (its_part (fst v) freq) rep Missing (Val d) to_end
                        else Ok (kept_as (cs_params c) (if to_end then rep :: md else map (fun n => if String.eqb n d then rep else n) (x_dims (snd v))) (snd v)))
    c (cs_resample_and_reduce K P c freq rep Missing (Val d) to_end).
Proof.
  intros A V K ok P HMA c freq nrep rep md d to_end (Hs & Hm & Ep & _) Nd Nr Mw Ff Od Nf Cn.
  pose proof (resample_set_alone K ok P HMA freq nrep rep md d to_end (cs_obj c) Hs Hm Nd Nr Mw Ff Od Nf Cn) as X. apply object_of in X. unfold cs_resample_and_reduce. rewrite Ep in *.
  eapply each_object_ext; [|exact X]. intros v Iv. cbn beta. destruct (_ && _)%bool; reflexivity.
Qed.
(* C166: jackknife *)
Theorem jackknife_object_set : forall {A V} (K : pusher A V) ok P, moment_array K ok P ->
  forall c rep_dim md d to_end, sholds c md -> ~ In d md -> moments_where P [d] md (cs_obj c) -> new_free d rep_dim (cs_obj c) ->
  (exists v, In v (cs_obj c) /\ has_names (d :: md) (snd v) = true) ->
  each_object (fun v => if has_names (d :: md) (snd v) then cx_jackknife_and_reduce K P (by_itself (cs_params c) (snd v)) None rep_dim Missing (Val d) to_end
                        else Ok (by_itself (cs_params c) (to_xarr (renamed_grid d rep_dim (passed (fun q => q) (if to_end then d :: md else x_dims (snd v)) (snd v))))))
    c (cs_jackknife_and_reduce K P c None rep_dim Missing (Val d) to_end).
Proof.
  intros A V K ok P HMA c rep md d to_end (Hs & Hm & Ep & _) Nd Mw Nf Ex.
  pose proof (jackknife_set_alone K ok P HMA rep md d to_end (cs_obj c) Hs Hm Nd Mw Nf Ex) as X. apply object_of in X. unfold cs_jackknife_and_reduce. cbn [option_map]. rewrite Ep in *.
  eapply each_object_ext; [|exact X]. intros v Iv. cbn beta. destruct (has_names _ _); reflexivity.
Qed.
