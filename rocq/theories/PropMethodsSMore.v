(* What pushes onto an object that holds a Dataset do at every position (C163), the
   variables as objects before and after (C164), sums and differences (C165). *)
From Coq Require Import String Permutation.
From Verif Require Import Base BaseLemmas ModelPush ModelKernels ModelIndex ModelAccum ModelAxes ModelState ModelParams ModelNd ModelWrap ModelLabel ModelMethods ModelConstruct ModelMethodsX ModelDataset ModelMethodsS
  Spec SpecAxes SpecNd PropWrap PropLabelled PropNd PropNdVals SpecLabel SpecLabelTwo SpecLabelVals SpecMethods SpecMethodsX SpecDataset SpecOut SpecMethodsS
  Laws ProofAxes ProofArrays ProofMulti ProofNd PropParams ProofIndex ProofLabel ProofLabelMany PropLabelVals ProofOut ProofMethodsX PropMethodsX PropMethodsXUse PropMethodsXMore ProofDataset PropDataset PropDatasetVals PropMethodsS.
Local Open Scope string_scope.
Local Open Scope nat_scope.

Lemma by_itself_holds c md v : sholds c md -> In v (cs_obj c) -> has_names md (snd v) = true -> xholds (by_itself (cs_params c) (snd v)) md.
Proof.
  intros (Hs & (Nm & Lm) & Ep & _ & Hz) Iv M. unfold xholds, by_itself. cbn [cx_obj cx_params]. split; [now apply (proj1 (proj2 Hs))|]. split; [exact Nm|]. split; [exact Lm|]. split; [now apply has_names_In|]. split; [|exact Ep].
  apply Forall_forall. intros n Hn. now apply (Hz v n).
Qed.
Lemma takes_part_names md d call v : takes_part md d call v = true -> has_names md (snd v) = true.
Proof. intros H. now apply andb_prop in H as [H _]. Qed.

Section PushAt.
  Context {A V : Type} (K : pusher A V) (ok : A -> Prop) (P : packer A) (R : reader V).
  Hypothesis VA : values_array K ok P R.
  Context (stretch : bool) (c : csdata) (md : list sname).
  Hypothesis HC : sholds c md.
  Let s := cs_obj c.

  Theorem push_set_named call d at_ : args_fit s (call_args call) -> along_samples md call d -> (exists v, In v s /\ takes_part md d call v = true) ->
    (forall v, In v s -> takes_part md d call v = true -> map (dim_size (snd v)) md = pk_shape P /\
       named_call_at P R md (except_name (x_dims (snd v)) md) (dim_size (snd v)) (call_for (fst v) call) (at_ (fst v))) ->
    match run_set K P R stretch c call with
    | Ok c' => cs_params c' = cs_params c /\
        Forall2 (fun v w => fst w = fst v /\ if takes_part md d call v then pushed_named K P md (snd v) (at_ (fst v)) (Ok (by_itself (cs_params c) (snd w))) else snd w = snd v) s (cs_obj c')
    | Raise e => e = EZeroDiv /\ exists v env, In v s /\ takes_part md d call v = true /\ inside_names (dim_size (snd v)) (except_name (x_dims (snd v)) md) env /\
        run_op K (moments_named P (snd v) md env) (at_ (fst v) env) = None
    end.
  Proof.
    intros Ft Hd Ex At. pose proof (push_set K P R stretch c md HC call d Ft Hd Ex) as H.
    assert (Each : forall v, In v s -> takes_part md d call v = true -> pushed_named K P md (snd v) (at_ (fst v)) (run_named K P R stretch (by_itself (cs_params c) (snd v)) (call_for (fst v) call))).
    { intros v Iv T. destruct (At v Iv T) as [A1 A2]. exact (push_call_named K ok P R VA stretch (by_itself (cs_params c) (snd v)) md (by_itself_holds c md v HC Iv (takes_part_names _ _ _ _ T)) A1 _ _ A2). }
    unfold each_object in H. fold s in H. destruct (run_set K P R stretch c call) as [c'|e].
    - destruct H as [H1 H2]. split; [exact H1|]. revert Each H2. generalize s, (cs_obj c'). clear. intros s l Each H. induction H as [|v w s l [E1 E2] _ IH]; constructor; [|apply IH; intros u Hu; apply Each; now right].
      split; [exact E1|]. destruct (takes_part md d call v) eqn:T; [|injection E2 as E2; now symmetry]. specialize (Each v (or_introl eq_refl) T). rewrite E2 in Each. exact Each.
    - destruct H as (v & Iv & E). destruct (takes_part md d call v) eqn:T; [|discriminate E]. specialize (Each v Iv T). rewrite E in Each. destruct Each as (-> & env & He & Ho). split; [reflexivity|]. exists v, env. auto.
  Qed.
End PushAt.

(* ---- the variables as objects --------------------------------------------------------------- *)

(* C164: the dict view has the variables with moments, and they are the objects that
   selection by name gives *)
Theorem as_dict_spec : forall c md, sholds c md -> exists l, cs_as_dict c = Ok l /\
  map fst l = map fst (filter (fun v => has_names md (snd v)) (cs_obj c)) /\
  (forall n o, In (n, o) l <-> exists x, In (n, x) (cs_obj c) /\ has_names md x = true /\ o = by_itself (cs_params c) x) /\
  (forall n o, In (n, o) l -> xholds o md) /\
  forall n, cs_getitem c n = match find (fun e => String.eqb (fst e) n) l with Some e => Ok (snd e) | None => if smem n (map fst (cs_obj c)) then Raise EValue else Raise EKey end.
Proof.
  intros c md HC. pose proof HC as (Hs & (Nm & Lm) & Ep & (v0 & Iv0 & M0) & Hz). set (s := cs_obj c) in *.
  exists (map (fun v => (fst v, by_itself (cs_params c) (snd v))) (filter (fun v => has_names md (snd v)) s)).
  assert (Il : forall n o, In (n, o) (map (fun v => (fst v, by_itself (cs_params c) (snd v))) (filter (fun v => has_names md (snd v)) s)) <-> exists x, In (n, x) s /\ has_names md x = true /\ o = by_itself (cs_params c) x).
  { intros n o. rewrite in_map_iff. split.
    - intros ([m x] & E & Ix). cbn [fst snd] in E. injection E as -> <-. apply filter_In in Ix as [Ix M]. eauto.
    - intros (x & Ix & M & ->). exists (n, x). split; [reflexivity|]. apply filter_In. auto. }
  split; [|split; [|split; [exact Il|split]]].
  - unfold cs_as_dict. rewrite Ep, params_dims. reflexivity.
  - rewrite map_map. reflexivity.
  - intros n o I. apply Il in I as (x & Ix & M & ->). apply (by_itself_holds c md (n, x) HC Ix M).
  - intros n. unfold cs_getitem. fold s. rewrite Ep, params_dims.
    assert (Fd : forall l, NoDup (map fst l) -> find (fun e => String.eqb (fst e) n) (map (fun v => (fst v, by_itself (params_for md) (snd v))) (filter (fun v : sname * xarr => has_names md (snd v)) l)) =
      match get_var n l with Some x => if has_names md x then Some (n, by_itself (params_for md) x) else None | None => None end).
    { clear. intros l N. unfold get_var. induction l as [|[m x] l IH]; [reflexivity|]. cbn [map fst] in N. inversion_clear N as [|? ? Nm N']. specialize (IH N'). cbn [filter find fst snd]. destruct (String.eqb_spec m n) as [->|D].
      - cbn [option_map snd]. destruct (has_names md x) eqn:M; cbn [map find fst snd]; [now rewrite String.eqb_refl|]. destruct (find _ (map _ _)) as [e|] eqn:F; [|reflexivity]. exfalso. apply find_some in F as [F1 F2]. apply String.eqb_eq in F2. apply Nm. apply in_map_iff in F1 as (v & <- & Iv). apply filter_In in Iv as [Iv _]. apply in_map_iff. exists v. auto.
      - destruct (has_names md x); cbn [map find fst snd]; [destruct (String.eqb_spec m n); [contradiction|]|]; exact IH. }
    rewrite (Fd s (proj1 Hs)). destruct (get_var n s) as [x|] eqn:G; cbn [of_opt rbind].
    + assert (Ix : In (n, x) s).
      { unfold get_var in G. destruct (find _ s) as [v|] eqn:F; [|discriminate G]. cbn in G. injection G as <-. apply find_some in F as [F1 F2]. apply String.eqb_eq in F2. subst n. now destruct v. }
      replace (smem n (map fst s)) with true by (symmetry; apply smem_In, in_map_iff; now exists (n, x)).
      change (x_contains md x) with (has_names md x). destruct (has_names md x) eqn:M; cbn [negb snd]; [|reflexivity].
      assert (E1 : x_get_mom_shape (params_for md) (x_dims x) (x_shape x) = Ok (map (dim_size x) md)).
      { unfold x_get_mom_shape. rewrite params_dims. cbn [rbind]. rewrite (mapR_ok _ (dim_size x)); [reflexivity|]. intros m Hm. apply sizes_named. now apply (proj1 (has_names_In md x) M). }
      assert (E2 : s_mom_shape (params_for md) s = Ok (map (dim_size x) md)).
      { unfold s_mom_shape. rewrite params_dims. cbn [rbind]. rewrite (mapR_ok _ (dim_size x)); [reflexivity|]. intros m Hm. apply (ds_size_ok s (n, x) m Hs Ix). now apply (proj1 (has_names_In md x) M). }
      rewrite E1, E2. cbn [rbind]. unfold raise_if_wrong_mom_shape. rewrite (proj2 (nats_eqb_eq _ _) eq_refl). reflexivity.
    + replace (smem n (map fst s)) with false; [reflexivity|]. symmetry. apply smem_false. intros Q. destruct (get_var_name n s Q) as (x & G' & _). congruence.
Qed.

(* pushes keep the moment dimensions of a labelled object *)
Lemma x_update_dims c md args f c' : NoDup md -> x_update c md args f = Ok c' -> incl md (x_dims (cx_obj c')) /\ cx_params c' = cx_params c.
Proof.
  intros Nm H. unfold x_update, cx_with in H. destruct (apply_ufunc _ _ _ _) as [g|] eqn:E; [|discriminate H]. cbn [rmap rbind] in H. injection H as <-. destruct (proj2 (apply_dims _ _ _ _ _ Nm E)) as (pre & Ed). split; [|reflexivity].
  cbn [cx_obj to_xarr x_dims]. rewrite Ed. intros n Hn. apply in_or_app. now right.
Qed.
Lemma run_named_dims {A V} (K : pusher A V) P R stretch c md call c' : xholds c md -> run_named K P R stretch c call = Ok c' -> incl md (x_dims (cx_obj c')) /\ cx_params c' = cx_params c.
Proof.
  intros HC H. pose proof (obj_params c md HC) as Ep. assert (Nm : NoDup md) by apply HC.
  destruct call as [a scale|axis dim ma a|x w y|axis dim x w y]; cbn [run_named] in H.
  - unfold cx_push_data in H. rewrite Ep in H. cbn [rbind] in H. now apply x_update_dims in H.
  - unfold cx_push_datas in H. rewrite Ep in H. cbn [rbind] in H. match type of H with rbind ?m _ = _ => destruct m as [[d o]|]; [|discriminate H] end. cbn [rbind] in H. now apply x_update_dims in H.
  - unfold cx_push_val in H. destruct (negb _); [discriminate H|]. rewrite Ep in H. cbn [rbind] in H. now apply x_update_dims in H.
  - unfold cx_push_vals in H. rewrite Ep in H. cbn [rbind] in H. match type of H with rbind ?m _ = _ => destruct m as [[d o]|]; [|discriminate H] end. cbn [rbind] in H. now apply x_update_dims in H.
Qed.
(* C164: a push is a push onto the entries of the dict view, when the arguments have
   their dimensions; the other variables stay *)
Theorem as_dict_push : forall {A V} (K : pusher A V) P R stretch c md call d c', sholds c md -> args_fit (cs_obj c) (call_args call) -> along_samples md call d ->
  (forall v, In v (cs_obj c) -> has_names md (snd v) = true -> takes_part md d call v = true) -> run_set K P R stretch c call = Ok c' ->
  exists l l', cs_as_dict c = Ok l /\ cs_as_dict c' = Ok l' /\
    Forall2 (fun e e' => fst e' = fst e /\ run_named K P R stretch (snd e) (call_for (fst e) call) = Ok (snd e')) l l' /\
    filter (fun v => negb (has_names md (snd v))) (cs_obj c') = filter (fun v => negb (has_names md (snd v))) (cs_obj c).
Proof.
  intros A V K P R stretch c md call d c' HC Ft Hd Al E. pose proof HC as (Hs & (Nm & Lm) & Ep & (v0 & Iv0 & M0) & _).
  assert (Ex : exists v, In v (cs_obj c) /\ takes_part md d call v = true) by (exists v0; auto).
  pose proof (push_set K P R stretch c md HC call d Ft Hd Ex) as H. rewrite E in H. destruct H as [Pc F2].
  unfold cs_as_dict. rewrite Pc, Ep, params_dims. cbn [rbind]. eexists. eexists. split; [reflexivity|]. split; [reflexivity|].
  assert (Kp : forall v w : sname * xarr, In v (cs_obj c) -> (if takes_part md d call v then run_named K P R stretch (by_itself (cs_params c) (snd v)) (call_for (fst v) call) else Ok (by_itself (cs_params c) (snd v))) = Ok (CX (snd w) (cs_params c)) ->
    has_names md (snd w) = has_names md (snd v)).
  { intros v w Iv Ev. destruct (takes_part md d call v) eqn:T; [|injection Ev as <-; reflexivity]. pose proof (takes_part_names _ _ _ _ T) as M. rewrite M. apply has_names_In. now apply (run_named_dims K P R stretch _ md _ _ (by_itself_holds c md v HC Iv M) Ev). }
  rewrite Ep in *. revert Al F2 Kp. generalize (cs_obj c), (cs_obj c'). clear. intros s l Al F2 Kp. induction F2 as [|v w s l [E1 E2] _ IH]; [split; [constructor|reflexivity]|].
  destruct IH as [IH1 IH2]; [intros u Iu; apply Al; now right|intros u z Iu; apply Kp; now right|]. cbn [filter]. change (x_contains md (snd v)) with (has_names md (snd v)). change (x_contains md (snd w)) with (has_names md (snd w)).
  rewrite (Kp v w (or_introl eq_refl) E2). destruct (has_names md (snd v)) eqn:M; cbn [negb map].
  - split; [|exact IH2]. constructor; [|exact IH1]. cbn [fst snd]. split; [exact E1|]. rewrite (Al v (or_introl eq_refl) M) in E2. exact E2.
  - split; [exact IH1|]. rewrite IH2. f_equal. unfold takes_part in E2. rewrite M in E2. cbn [andb] in E2. injection E2 as E2. destruct v, w; cbn in *; congruence.
Qed.

(* ---- sums and differences ---------------------------------------------------------------------- *)

(* the object o has the names and sizes of c *)
Definition set_pair (c o : csdata) (md : list sname) : Prop := sholds c md /\ sholds o md /\ fits (cs_obj c) (DSet (cs_obj o)) /\
  exists v, In v (cs_obj c) /\ has_names md (snd v) = true /\ part_has md (fst v) (DSet (cs_obj o)) = true.
Section Sums.
  Context {A V : Type} (K : pusher A V) (P : packer A) (stretch : bool).
  (* variable number name of o as an object *)
  Definition other_part (o : csdata) (name : sname) : cmdata := by_itself (cs_params o) (match get_var name (cs_obj o) with Some x => x | None => XA [] (Tensor [] []) end).

  Lemma check_set c o md : set_pair c o md -> cs_check_other c o = Ok tt.
  Proof.
    intros (Hc & Ho & Ft & v & Iv & M & Mo). pose proof Hc as (Hs & _ & Ep & _). pose proof Ho as (Hs' & _ & Ep' & _). unfold cs_check_other. rewrite Ep, Ep'.
    destruct (part_labelled (cs_obj c) (cs_obj o) v Hs Ft Iv) as (x & Ex & Ix & Hx). unfold part_has in Mo. rewrite Ex in Mo.
    assert (E1 : s_mom_shape (params_for md) (cs_obj o) = Ok (map (dim_size x) md)).
    { unfold s_mom_shape. rewrite params_dims. cbn [rbind]. rewrite (mapR_ok _ (dim_size x)); [reflexivity|]. intros m Hm. apply (ds_size_ok (cs_obj o) (fst v, x) m Hs' Ix). now apply (proj1 (has_names_In md x) Mo). }
    assert (E2 : s_mom_shape (params_for md) (cs_obj c) = Ok (map (dim_size x) md)).
    { unfold s_mom_shape. rewrite params_dims. cbn [rbind]. rewrite (mapR_ok _ (dim_size x)); [reflexivity|]. intros m Hm. rewrite (ds_size_ok (cs_obj c) v m Hs Iv) by (now apply (proj1 (has_names_In md (snd v)) M)). f_equal.
      apply (proj2 (proj2 Ft) v (fst v, x) Iv Ix); [now apply (proj1 (has_names_In md (snd v)) M)|now apply (proj1 (has_names_In md x) Mo)]. }
    rewrite E1, E2. cbn [rbind]. unfold raise_if_wrong_mom_shape. now rewrite (proj2 (nats_eqb_eq _ _) eq_refl).
  Qed.
  Lemma check_part c o md v : set_pair c o md -> In v (cs_obj c) -> has_names md (snd v) = true -> part_has md (fst v) (DSet (cs_obj o)) = true ->
    cx_check_other (by_itself (cs_params c) (snd v)) (other_part o (fst v)) = Ok tt /\ its_part (fst v) (DSet (cs_obj o)) = Labelled (cx_obj (other_part o (fst v))).
  Proof.
    intros (Hc & Ho & Ft & _) Iv M Mo. pose proof Hc as (Hs & _ & Ep & _). pose proof Ho as (Hs' & _ & Ep' & _).
    destruct (part_labelled (cs_obj c) (cs_obj o) v Hs Ft Iv) as (x & Ex & Ix & Hx). unfold part_has in Mo. rewrite Ex in Mo.
    assert (G : get_var (fst v) (cs_obj o) = Some x) by (cbn [its_part] in Ex; destruct (get_var _ _); [now injection Ex as ->|discriminate Ex]).
    unfold other_part. rewrite G. split; [|exact Ex]. unfold cx_check_other, cx_mom_shape, by_itself. cbn [cx_obj cx_params]. rewrite Ep, Ep'.
    assert (E1 : x_get_mom_shape (params_for md) (x_dims x) (x_shape x) = Ok (map (dim_size x) md)).
    { unfold x_get_mom_shape. rewrite params_dims. cbn [rbind]. rewrite (mapR_ok _ (dim_size x)); [reflexivity|]. intros m Hm. apply sizes_named. now apply (proj1 (has_names_In md x) Mo). }
    assert (E2 : x_get_mom_shape (params_for md) (x_dims (snd v)) (x_shape (snd v)) = Ok (map (dim_size x) md)).
    { unfold x_get_mom_shape. rewrite params_dims. cbn [rbind]. rewrite (mapR_ok _ (dim_size x)); [reflexivity|]. intros m Hm. rewrite sizes_named by (now apply (proj1 (has_names_In md (snd v)) M)). f_equal.
      apply (proj2 (proj2 Ft) v (fst v, x) Iv Ix); [now apply (proj1 (has_names_In md (snd v)) M)|now apply (proj1 (has_names_In md x) Mo)]. }
    rewrite E1, E2. cbn [rbind]. unfold raise_if_wrong_mom_shape. now rewrite (proj2 (nats_eqb_eq _ _) eq_refl).
  Qed.
  Lemma pair_fit c o md : set_pair c o md -> args_fit (cs_obj c) [DSet (cs_obj o)].
  Proof.
    intros (_ & Ho & Ft & _). split; [intros a [<-|[]]; exact Ft|]. intros a b x y [<-|[]] [<-|[]] Ix Iy. apply in_map_iff in Ix as (v & <- & Iv). apply in_map_iff in Iy as (w & <- & Iw). now apply Ho.
  Qed.
  (* C165: + and - of objects that hold Datasets are + and - of the variables that both
     have with moments; the other variables are those of the left object *)
  Theorem add_set (R : reader V) c o md : set_pair c o md ->
    each_object (fun v => if (has_names md (snd v) && part_has md (fst v) (DSet (cs_obj o)))%bool then cx_add K P stretch (by_itself (cs_params c) (snd v)) (other_part o (fst v)) else Ok (by_itself (cs_params c) (snd v)))
      c (cs_add K P stretch c o).
  Proof.
    intros H. unfold cs_add. rewrite (check_set c o md H). cbn [rbind]. pose proof H as (Hc & _ & _ & v0 & Iv0 & M0 & M0').
    pose proof (push_set K P R stretch c md Hc (SData (DSet (cs_obj o)) None) "" (pair_fit c o md H) I) as X. cbn [run_set] in X.
    eapply each_object_ext; [|apply X; exists v0; split; [exact Iv0|]; unfold takes_part; cbn [call_args call_core forallb]; now rewrite M0, M0'].
    intros v Iv. cbn beta. unfold takes_part. cbn [call_args call_core forallb]. rewrite andb_true_r. destruct (has_names md (snd v)) eqn:M; [|reflexivity]. cbn [andb]. destruct (part_has md (fst v) (DSet (cs_obj o))) eqn:M'; [|reflexivity].
    destruct (check_part c o md v H Iv M M') as [E1 E2]. unfold cx_add. rewrite E1. cbn [rbind call_for run_named]. now rewrite E2.
  Qed.
  Theorem subtract_set (R : reader V) c o md : set_pair c o md ->
    each_object (fun v => if (has_names md (snd v) && part_has md (fst v) (DSet (cs_obj o)))%bool then cx_sub K P stretch (by_itself (cs_params c) (snd v)) (other_part o (fst v)) else Ok (by_itself (cs_params c) (snd v)))
      c (cs_sub K P stretch c o).
  Proof.
    intros H. unfold cs_sub. rewrite (check_set c o md H). cbn [rbind]. pose proof H as (Hc & _ & _ & v0 & Iv0 & M0 & M0').
    pose proof (push_set K P R stretch c md Hc (SData (DSet (cs_obj o)) (Some (Tensor [] [(-(1))%Qc]))) "" (pair_fit c o md H) I) as X. cbn [run_set] in X.
    eapply each_object_ext; [|apply X; exists v0; split; [exact Iv0|]; unfold takes_part; cbn [call_args call_core forallb]; now rewrite M0, M0'].
    intros v Iv. cbn beta. unfold takes_part. cbn [call_args call_core forallb]. rewrite andb_true_r. destruct (has_names md (snd v)) eqn:M; [|reflexivity]. cbn [andb]. destruct (part_has md (fst v) (DSet (cs_obj o))) eqn:M'; [|reflexivity].
    destruct (check_part c o md v H Iv M M') as [E1 E2]. unfold cx_sub. rewrite E1. cbn [rbind call_for run_named]. now rewrite E2.
  Qed.
End Sums.
