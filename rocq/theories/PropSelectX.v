(* Selected moments of labelled arrays, by name. *)
From Coq Require Import String Permutation.
From Verif Require Import Base BaseLemmas ModelPush ModelKernels ModelIndex ModelAxes ModelState ModelParams ModelNd ModelWrap ModelLabel ModelMoments ModelMomentsX
  Spec SpecAxes SpecNd PropLabelled SpecLabel SpecMethodsX SpecMoments SpecMomentsX
  ProofAxes ProofArrays ProofNd PropParams ProofLabel ProofLabelMany PropLabelJack ProofMethodsX ProofMoments PropConvert PropMoments PropSelect PropAssign ProofMomentsX PropMomentsX.
Local Open Scope string_scope.
Local Open Scope nat_scope.


(* the dimensions that select_moment declares for its result *)
Definition declared (md : list sname) (squeeze : bool) (combined : sname) (name : string) : list sname :=
  if combines (params_for md) name squeeze then [combined] else kept_dims md name.
Section Named.
  Context (md : list sname) (sz : sname -> nat).
  Hypothesis Lm : List.length md = 1 \/ List.length md = 2.

  Lemma declared_is squeeze combined name qs at_ : In (name, (qs, at_)) (moment_names squeeze (map sz md)) -> name <> "all" ->
    declared md squeeze combined name = selection_dims md squeeze combined name /\
    ((own_dim md squeeze name /\ combines (params_for md) name squeeze = true /\ selection_dims md squeeze combined name = [combined] /\ qs = [List.length md]) \/
     (~ own_dim md squeeze name /\ combines (params_for md) name squeeze = false /\ incl (selection_dims md squeeze combined name) md /\
        List.length (selection_dims md squeeze combined name) <= 1 /\ qs = map sz (selection_dims md squeeze combined name))).
  Proof.
    intros H Na. unfold own_dim. destruct md as [|a [|b [|]]]; cbn in Lm; try lia.
    - cbn [map moment_names] in H. destruct squeeze; repeat (destruct H as [H|H]; [injection H as <- <- <-; try (now elim Na)|]); try destruct H;
      (split; [reflexivity|]);
      first [right; split; [intros [C1 C2]; cbn in C1, C2; clear - C1 C2; destruct C2 as [C2|C2]; try discriminate C2; repeat (destruct C1 as [C1|C1]; [discriminate C1|]); exact C1|]; split; [reflexivity|]; split; [intros n []|]; split; [cbn; lia|reflexivity]
            |left; split; [split; [cbn; tauto|now right]|]; repeat split; reflexivity].
    - cbn [map moment_names] in H. repeat (destruct H as [H|H]; [injection H as <- <- <-; try (now elim Na)|]); try destruct H;
      (split; [destruct squeeze; reflexivity|]);
      first [right; split; [intros [C1 _]; cbn in C1; clear - C1; repeat (destruct C1 as [C1|C1]; [discriminate C1|]); exact C1|]; split; [destruct squeeze; reflexivity|]; split; [destruct squeeze; intros n; cbn; tauto|]; split; [destruct squeeze; cbn; lia|destruct squeeze; reflexivity]
            |left; split; [split; [cbn; tauto|now left]|]; repeat split; destruct squeeze; reflexivity].
  Qed.
End Named.

Lemma name_bind_map l (f : sname -> nat) env n : NoDup l -> In n l -> name_bind l (map f l) env n = f n.
Proof.
  intros N Hn. destruct (In_nth _ _ "" Hn) as (k & Hk & <-). rewrite name_bind_in by (auto; apply map_length). rewrite (nth_indep _ 0 (f "")) by (now rewrite map_length). apply map_nth.
Qed.
Lemma dims_of md : iter_dims (params_for md) = Ok md.
Proof. reflexivity. Qed.

(* ---- C144: selected moments ---------------------------------------------------------------- *)

Section SelectX.
  Context (x : xarr) (md : list sname).
  Hypothesis HM : has_moments md x.
  Let outer := except_name (x_dims x) md.
  Let sz := dim_size x.

  Lemma select_stage name squeeze combined coords qs at_ : In (name, (qs, at_)) (moment_names squeeze (map sz md)) -> name <> "all" ->
    (own_dim md squeeze name -> coords_fit md coords) ->
    x_select_moment (params_for md) name squeeze combined coords x =
    rmap to_xarr (x_apply [(Labelled x, md)] (selection_dims md squeeze combined name) (fun ts => select_moment_nd name (axes_last (List.length md)) squeeze (arg 0 ts))).
  Proof.
    intros H Na HC. destruct HM as (Hx & Nm & Lm & Im). destruct (declared_is md sz Lm squeeze combined name qs at_ H Na) as (D & O). unfold x_select_moment. destruct (String.eqb_spec name "all") as [E|_]; [elim (Na E)|].
    rewrite dims_of. cbn [rbind]. destruct (moments_params md Lm) as (_ & Ea). rewrite Ea. cbn [rbind]. unfold declared in D. destruct O as [(O & Ec & E1 & E2)|(O & Ec & _)]; rewrite Ec in *.
    - change (xp_ndim (params_for md)) with (Some (Z.of_nat (List.length md))). destruct coords as [l|]; [rewrite (HC O)|]; rewrite Z.eqb_refl; cbn [rbind]; rewrite D; reflexivity.
    - cbn [rbind]. rewrite D. reflexivity.
  Qed.

  (* the entries of the result are the named moments; the dimension of averages and
     variances, or the moment dimension that is left, comes last *)
  Theorem select_moment_named name squeeze combined coords qs at_ : In (name, (qs, at_)) (moment_names squeeze (map sz md)) -> name <> "all" ->
    Forall (lt 0) (map sz md) -> all_exist (map sz md) qs at_ -> (own_dim md squeeze name -> coords_fit md coords /\ combined_ok x md combined) ->
    let qd := selection_dims md squeeze combined name in
    result_is (outer ++ qd) (sizes_with qd qs sz) (fun env => named_moment x md env (at_ (map env qd))) (x_select_moment (params_for md) name squeeze combined coords x).
  Proof.
    intros H Na Pos Ex HC qd. rewrite (select_stage name squeeze combined coords qs at_ H Na) by (intros O; now apply HC). pose proof HM as (Hx & Nm & Lm & Im).
    destruct (declared_is md sz Lm squeeze combined name qs at_ H Na) as (_ & O). fold qd in O.
    assert (Q : NoDup qd /\ List.length qs = List.length qd /\ (forall n, In n qd -> ~ In n outer) /\ forall n, In n qd -> In n (x_dims x) -> sizes_with qd qs sz n = sz n).
    { destruct O as [(O & _ & E1 & E2)|(O & _ & I & L1 & E2)].
      - rewrite E1, E2. destruct (HC O) as (_ & C1 & C2). split; [repeat constructor; intros []|]. split; [reflexivity|]. split; [intros n [<-|[]]; exact C1|].
        intros n [<-|[]] Hn. unfold sizes_with, name_bind. cbn. rewrite String.eqb_refl. cbn. symmetry. apply C2. destruct (in_dec string_dec combined md) as [J|J]; [exact J|]. elim C1. now apply except_name_In.
      - assert (Nq : NoDup qd) by (destruct qd as [|q [|? ?]]; [constructor|repeat constructor; intros []|cbn in L1; lia]). split; [exact Nq|]. rewrite E2, map_length. split; [reflexivity|]. split; [intros n Hn C; apply except_name_In in C; now apply C, I|].
        intros n Hn _. unfold sizes_with. now apply name_bind_map. }
    destruct Q as (Nq & Lq & Oq & Sq). destruct (one_array x md HM qd (fun ts => select_moment_nd name (axes_last (List.length md)) squeeze (arg 0 ts)) (conj Nq Oq)) as (t & T1 & T2 & A & S1 & S2 & En & Res & _).
    fold outer in T2, A, S1, S2, En, Res. fold sz in T2, S1, S2, En, Res.
    assert (LM : List.length (seq (List.length outer) (List.length md)) = 1 \/ List.length (seq (List.length outer) (List.length md)) = 2) by (now rewrite seq_length).
    destruct (select_moment_entries _ _ _ t A LM name squeeze qs at_) as (out & E & To & So & G); rewrite ?S2; auto.
    rewrite S1 in So, G. assert (Mq : map (sizes_with qd qs sz) qd = qs) by (unfold sizes_with; now apply map_name_bind).
    apply (Res out); auto.
    - now rewrite So, Mq.
    - intros n Hn. unfold sizes_with. apply name_bind_out. intros C. now apply (Oq n C).
    - intros env He. apply env_split in He. destruct He as [He Vm]. rewrite Mq in Vm.
      assert (He' : inside_names sz outer env). { intros n Hn. specialize (He n Hn). unfold sizes_with in He. rewrite name_bind_out in He; [exact He|]. intros C. now apply (Oq n C). }
      rewrite G by (try exact Vm; now apply inside_names_valid). apply En; [exact He'|]. now apply Ex.
  Qed.
  (* a moment beyond the ones kept *)
  Theorem select_moment_named_missing name squeeze combined coords qs at_ : In (name, (qs, at_)) (moment_names squeeze (map sz md)) -> name <> "all" ->
    ~ all_exist (map sz md) qs at_ -> (own_dim md squeeze name -> coords_fit md coords /\ ~ In combined outer) ->
    x_select_moment (params_for md) name squeeze combined coords x = Raise EIndex.
  Proof.
    intros H Na NE HC. rewrite (select_stage name squeeze combined coords qs at_ H Na) by (intros O; now apply HC). pose proof HM as (Hx & Nm & Lm & Im).
    destruct (declared_is md sz Lm squeeze combined name qs at_ H Na) as (_ & O). set (qd := selection_dims md squeeze combined name) in *.
    assert (Q : new_names x md qd).
    { destruct O as [(O & _ & E1 & E2)|(O & _ & I & L1 & E2)].
      - rewrite E1. split; [repeat constructor; intros []|]. intros n [<-|[]]. now apply HC.
      - split; [destruct qd as [|q [|? ?]]; [constructor|repeat constructor; intros []|cbn in L1; lia]|]. intros n Hn C. apply except_name_In in C. now apply C, I. }
    destruct (one_array x md HM qd (fun ts => select_moment_nd name (axes_last (List.length md)) squeeze (arg 0 ts)) Q) as (t & T1 & T2 & A & S1 & S2 & En & _ & Rs).
    assert (LM : List.length (seq (List.length outer) (List.length md)) = 1 \/ List.length (seq (List.length outer) (List.length md)) = 2) by (now rewrite seq_length).
    rewrite (Rs EIndex); [reflexivity|]. fold outer in A, S2. fold sz in S2. apply (select_moment_missing _ _ _ t A LM name squeeze qs at_); now rewrite S2.
  Qed.
  (* a name that stands for nothing *)
  Theorem select_moment_named_unknown name squeeze combined coords : ~ In name (map fst (moment_names squeeze (map sz md))) ->
    x_select_moment (params_for md) name squeeze combined coords x = Raise EValue.
  Proof.
    intros NI. pose proof HM as (Hx & Nm & Lm & Im).
    assert (K : name <> "all" /\ combines (params_for md) name squeeze = false /\ kept_dims md name = kept_dims md name).
    { split; [|split; [|reflexivity]].
      - intros ->. apply NI. destruct md as [|a [|b [|]]]; cbn in Lm; try lia; cbn; now left.
      - unfold combines. destruct (String.eqb_spec name "ave") as [->|N1]; [elim NI; destruct md as [|a [|b [|]]]; cbn in Lm; try lia; destruct squeeze; cbn; tauto|].
        destruct (String.eqb_spec name "var") as [->|N2]; [elim NI; destruct md as [|a [|b [|]]]; cbn in Lm; try lia; destruct squeeze; cbn; tauto|]. reflexivity. }
    destruct K as (Na & Ec & _). unfold x_select_moment. destruct (String.eqb_spec name "all") as [E|_]; [elim (Na E)|].
    rewrite dims_of. cbn [rbind]. destruct (moments_params md Lm) as (_ & Ea). rewrite Ea. cbn [rbind]. rewrite Ec. cbn [rbind].
    assert (Q : new_names x md (kept_dims md name)).
    { split.
      - unfold kept_dims. destruct (prefix _ _); [|destruct (prefix _ _); [|constructor]]; (destruct md as [|a [|b [|]]]; cbn in Lm; try lia; cbn; repeat constructor; intros []).
      - intros n Hn C. apply except_name_In in C. apply C. unfold kept_dims in Hn. destruct (prefix _ _); [rewrite <- (firstn_skipn 1 md); apply in_or_app; now right|]. destruct (prefix _ _); [rewrite <- (firstn_skipn 1 md); apply in_or_app; now left|destruct Hn]. }
    destruct (one_array x md HM _ (fun ts => select_moment_nd name (axes_last (List.length md)) squeeze (arg 0 ts)) Q) as (t & T1 & T2 & A & S1 & S2 & En & _ & Rs).
    assert (LM : List.length (seq (List.length outer) (List.length md)) = 1 \/ List.length (seq (List.length outer) (List.length md)) = 2) by (now rewrite seq_length).
    rewrite (Rs EValue); [reflexivity|]. fold outer in A, S2. fold sz in S2. apply (select_moment_unknown _ _ _ t A LM name squeeze). now rewrite S2.
  Qed.
  (* averages and variances: as many coordinates as variables, and a dimension that is
     not a value dimension *)
  Theorem select_moment_named_refused name squeeze combined coords : own_dim md squeeze name -> ~ coords_fit md coords \/ In combined outer ->
    x_select_moment (params_for md) name squeeze combined coords x = Raise EValue.
  Proof.
    intros O R. pose proof HM as (Hx & Nm & Lm & Im). unfold x_select_moment.
    destruct (String.eqb_spec name "all") as [->|_]; [destruct O as [[O|[O|[]]] _]; discriminate O|].
    rewrite dims_of. cbn [rbind]. destruct (moments_params md Lm) as (_ & Ea). rewrite Ea. cbn [rbind].
    assert (Ec : combines (params_for md) name squeeze = true).
    { unfold combines, params_for. cbn [xp_ndim]. destruct O as [O O2]. assert (W : (String.eqb name "ave" || String.eqb name "var")%bool = true) by (destruct O as [<-|[<-|[]]]; reflexivity). rewrite W.
      destruct O2 as [-> | ->]; [reflexivity|]. cbn. apply Bool.orb_true_r. }
    rewrite Ec. cbn [xp_ndim params_for].
    assert (Tk : In combined outer -> rmap to_xarr (x_apply [(Labelled x, md)] [combined] (fun ts => select_moment_nd name (axes_last (List.length md)) squeeze (arg 0 ts))) = Raise EValue).
    { intros J. apply except_name_In in J. rewrite (apply_taken x md [combined] _ combined); [reflexivity|exact Hx|now left|apply J|apply J]. }
    destruct coords as [l|]; [|rewrite Z.eqb_refl; cbn [rbind]; destruct R as [R|R]; [elim R; exact I|now apply Tk]].
    destruct (Z.eqb_spec (Z.of_nat (List.length l)) (Z.of_nat (List.length md))) as [E|E]; [|reflexivity]. cbn [rbind]. apply Nat2Z.inj in E.
    destruct R as [R|R]; [elim R; exact E|now apply Tk].
  Qed.
End SelectX.
(* "all" is the array itself, with its dimensions in their order *)
Theorem select_all_named : forall x p squeeze combined coords, x_select_moment p "all" squeeze combined coords x = Ok x.
Proof. reflexivity. Qed.
(* a dimension that is missing *)
Theorem select_moment_named_absent : forall x md name squeeze combined coords, x_ok x -> List.length md = 1 \/ List.length md = 2 -> ~ incl md (x_dims x) -> name <> "all" ->
  x_select_moment (params_for md) name squeeze combined coords x = Raise EValue.
Proof.
  intros x md name squeeze combined coords Hx Lm NI Na. unfold x_select_moment. destruct (String.eqb_spec name "all") as [E|_]; [elim (Na E)|]. rewrite dims_of. cbn [rbind]. destruct (moments_params md Lm) as (_ & Ea). rewrite Ea. cbn [rbind].
  destruct (if combines _ _ _ then _ else _) as [out|e] eqn:E; cbn [rbind]; [now rewrite apply_missing|].
  destruct (combines _ _ _); [|discriminate E]. cbn [xp_ndim params_for] in E. destruct coords as [l|]; destruct (Z.eqb _ _); congruence.
Qed.
