(* Reductions and selections along stacked and selected dimensions. *)
From Coq Require Import String Permutation.
From Verif Require Import Base BaseLemmas Checks ModelPush ModelPushCov ModelKernels ModelIndex ModelAxes ModelSelect ModelParams ModelWrap ModelNd ModelLabel ModelDataset ModelShape
  Spec SpecAxes SpecNd SpecLabel SpecLabelTwo SpecDataset SpecShape ProofAxes ProofArrays ProofIndex ProofMulti ProofNd PropAxes PropParams PropWrap PropReshape PropLabelled PropNd PropNdUse PropMethodsUse ProofLabel ProofLabelMany PropLabel PropLabelTwo PropLabelReduce ProofDataset PropMethodsReduce PropMethodsX PropLabelUse PropShape.
Local Open Scope string_scope.
Local Open Scope nat_scope.

Lemma rows_agree {A} (P : packer A) x ds md e e' : packer_ok P -> labelled_moments P md x -> NoDup ds -> (forall n, In n (except_name (x_dims x) (ds ++ md)) -> e n = e' n) ->
  rows_named P x ds md e = rows_named P x ds md e'.
Proof.
  intros HP (Hx & Nm & Im & Mm) Nd H. unfold rows_named. apply map_ext_in. intros i Hi. apply all_idx_valid in Hi. assert (Li : List.length i = List.length ds) by (rewrite <- (map_length (dim_size x) ds); exact (valid_length _ _ Hi)).
  unfold moments_named. apply HP. intros m Vm. assert (Lm : List.length m = List.length md) by (rewrite <- (map_length (dim_size x) md), Mm; exact (valid_length _ _ Vm)).
  apply x_at_agree. intros n Hn. destruct (in_dec string_dec n md) as [M|M]; [now apply name_bind_any|]. rewrite !(name_bind_out md) by exact M.
  destruct (in_dec string_dec n ds) as [J|J]; [now apply name_bind_any|]. rewrite !(name_bind_out ds) by exact J. apply H. apply except_name_In. split; [exact Hn|]. rewrite in_app_iff. tauto.
Qed.
(* an index for all names inside sizes, if the moments are not empty *)
Lemma moments_pos {A} (P : packer A) x md n : packer_ok P -> labelled_moments P md x -> In n md -> 0 < dim_size x n.
Proof. intros HP (_ & _ & _ & Mm) Hn. destruct HP as [_ F]. rewrite <- Mm in F. rewrite Forall_forall in F. apply F. now apply in_map. Qed.
Lemma except_self a md : (forall n, In n md -> ~ In n a) -> except_name (a ++ md) md = a.
Proof.
  intros D. unfold except. rewrite filter_app, (filter_none _ md), app_nil_r.
  - apply filter_all. intros n Hn. destruct (in_dec string_dec n md) as [M|M]; [elim (D n M Hn)|reflexivity].
  - intros n Hn. now destruct (in_dec string_dec n md).
Qed.

(* Reducing along the stacked dimension is reducing along the dimensions themselves, also
   when a ZeroDivisionError is the result. *)
Theorem stack_reduce_named : forall {A V} (K : pusher A V) ok P, moment_array K ok P ->
  forall c md z ds to_end, xholds c md -> map (dim_size (cx_obj c)) md = pk_shape P -> stackable z ds (cx_obj c) -> (forall n, In n ds -> ~ In n md) ->
  exists c', cx_stack c z ds = Ok c' /\
  x_reduce_data K P (params_for md) Missing (Val (DStr z)) false to_end (cx_obj c') = x_reduce_data K P (params_for md) Missing (Val (DSeq ds)) false true (cx_obj c).
Proof.
  intros A V K ok P MA c md z ds to_end H Mm St D. pose proof (ma_packer _ _ _ MA) as HP. pose proof St as (Ne & Nd & Id & Zn & _). destruct (proj1 (stack_named c md z ds H Ne) St D) as (y & Ey & Hy & Sy & Dy).
  eexists. split; [exact Ey|]. cbn [cx_obj]. set (x := cx_obj c) in *. pose proof H as (Ho & Nm & Lm & Im & _). fold x in Ho, Im. pose proof Hy as (Hyo & _ & _ & Imy & _). cbn [cx_obj] in Hyo, Imy.
  assert (HM : labelled_moments P md x) by (repeat split; auto; apply Ho).
  assert (Ms : forall n, In n md -> dim_size y n = dim_size x n) by (intros n Hn; apply Sy; [now apply Im|]; intros Q; now apply (D n Q)).
  assert (HMy : labelled_moments P md y). { split; [exact Hyo|]. split; [exact Nm|]. split; [exact Imy|]. rewrite <- Mm. apply map_ext_in. exact Ms. }
  assert (Zm : ~ In z md) by (intros Q; apply Zn; now apply Im).
  assert (Cx : chooses_many md Missing (Val (DSeq ds)) ds x) by (split; [exact Id|]; split; [exact Nd|]; split; [exact Ne|]; split; [exact D|]; right; right; left; auto).
  assert (Cy : chooses_many md Missing (Val (DStr z)) [z] y).
  { split; [intros n [<-|[]]; apply Sy; now left|]. split; [constructor; [intros []|constructor]|]. split; [discriminate|]. split; [intros n [<-|[]]; exact Zm|]. right. left. eauto. }
  pose proof (reduce_named K ok P MA md _ _ _ false true x HM Cx) as Rx. pose proof (reduce_named K ok P MA md _ _ _ false to_end y HMy Cy) as Ry.
  set (rx := x_reduce_data _ _ _ _ _ _ _ x) in *. set (ry := x_reduce_data _ _ _ _ _ _ _ y) in *. clearbody rx ry.
  set (outer := except_name (x_dims x) (ds ++ md)) in *.
  assert (Oz : ~ In z outer) by (intros Q; apply except_name_In in Q; tauto).
  assert (Om : forall n, In n md -> ~ In n outer) by (intros n Hn Q; apply except_name_In in Q; rewrite in_app_iff in Q; tauto).
  assert (Oy : except_name (x_dims y) ([z] ++ md) = outer).
  { rewrite Dy. change (z :: md) with ([z] ++ md)%list. apply except_self. intros n Hn. apply in_app_iff in Hn as [[<-|[]]|Hn]; auto. }
  assert (Dd : reduced_dims false to_end (x_dims y) [z] md = (outer ++ md)%list).
  { unfold reduced_dims. rewrite Oy. destruct to_end; [reflexivity|]. rewrite Dy. unfold except. rewrite filter_app. cbn [filter]. destruct (in_dec string_dec z [z]) as [_|Q]; [|elim Q; now left]. cbn [negb].
    f_equal; apply filter_all; intros n Hn; (destruct (in_dec string_dec n [z]) as [[<-|[]]|Q]; [contradiction|reflexivity]). }
  unfold reduced_by_name in Rx, Ry. cbv zeta in Rx, Ry. rewrite Dd, Oy in Ry. cbn [reduced_dims] in Rx. fold outer in Rx.
  assert (Ro : forall n, In n outer -> In n (x_dims x) /\ ~ In n ds /\ ~ In n md /\ n <> z) by (intros n Hn; pose proof Hn as Q; apply except_name_In in Q; rewrite in_app_iff in Q; split; [tauto|]; split; [tauto|]; split; [tauto|]; intros ->; contradiction).
  assert (Szs : forall n, In n (outer ++ md) -> (if in_dec string_dec n [z] then 1 else dim_size y n) = dim_size x n /\ (if in_dec string_dec n ds then 1 else dim_size x n) = dim_size x n).
  { intros n Hn. assert (Q : In n (x_dims x) /\ ~ In n ds /\ n <> z) by (apply in_app_iff in Hn as [Hn|Hn]; [destruct (Ro n Hn); tauto|split; [now apply Im|]; split; [intros Q; now apply (D n Q)|intros ->; contradiction]]).
    destruct (in_dec string_dec n [z]) as [[E|[]]|_]; [now subst n|]. destruct (in_dec string_dec n ds); [tauto|]. split; [|reflexivity]. apply Sy; tauto. }
  assert (Nod : NoDup (outer ++ md)) by (apply NoDup_app_; [apply NoDup_filter, Ho|exact Nm|intros n Hn Q; now apply (Om n)]).
  assert (Rows : forall env, inside_names (dim_size x) outer env -> rows_named P y [z] md env = rows_named P x ds md env) by (intros env He; now apply stacked_rows).
  assert (Full : forall env, inside_names (dim_size x) outer env -> exists e, inside_names (dim_size x) (outer ++ md) e /\ forall n, In n outer -> e n = env n).
  { intros env He. exists (fun n => if in_dec string_dec n md then 0 else env n). split.
    - intros n Hn. destruct (in_dec string_dec n md) as [M|M]; [now apply (moments_pos P x md)|]. apply He. apply in_app_iff in Hn. tauto.
    - intros n Hn. destruct (in_dec string_dec n md) as [M|M]; [elim (Om n M Hn)|reflexivity]. }
  assert (Rx' : forall env env', (forall n, In n outer -> env n = env' n) -> rows_named P x ds md env = rows_named P x ds md env') by (intros e e' He; apply rows_agree; auto).
  assert (Part : forall e, inside_names (dim_size x) (outer ++ md) e -> inside_names (dim_size x) outer e) by (intros e He n Hn; apply He, in_app_iff; now left).
  destruct rx as [g|ex], ry as [h|ey].
  - f_equal. destruct Rx as (A1 & A2 & A3 & A4), Ry as (B1 & B2 & B3 & B4).
    apply (named_eq 0%Qc (dim_size x) (outer ++ md)); [exact Nod| | |].
    + split; [exact B1|]. split; [exact B2|]. rewrite B3. apply map_ext_in. intros n Hn. now apply Szs.
    + split; [exact A1|]. split; [exact A2|]. rewrite A3. apply map_ext_in. intros n Hn. now apply Szs.
    + intros env He. destruct (A4 env) as (a & A5 & A6); [intros n Hn; rewrite (proj2 (Szs n Hn)); now apply He|]. destruct (B4 env) as (b & B5 & B6); [intros n Hn; rewrite (proj1 (Szs n Hn)); now apply He|].
      rewrite A6, B6. rewrite (Rows env (Part env He)) in B5. congruence.
  - exfalso. destruct Ry as (_ & env & He & B). assert (He' : inside_names (dim_size x) outer env) by (intros n Hn; rewrite <- (proj1 (proj2 (proj2 Sy)) n); [now apply He|now apply Ro|now apply Ro]).
    destruct (Full env He') as (e & E1 & E2). destruct Rx as (_ & _ & _ & A4). destruct (A4 e) as (a & A5 & _); [intros n Hn; rewrite (proj2 (Szs n Hn)); now apply E1|].
    rewrite (Rows env He') in B. rewrite (Rx' e env E2) in A5. congruence.
  - exfalso. destruct Rx as (_ & env & He & B). destruct (Full env He) as (e & E1 & E2). destruct Ry as (_ & _ & _ & A4). destruct (A4 e) as (a & A5 & _); [intros n Hn; rewrite (proj1 (Szs n Hn)); now apply E1|].
    rewrite (Rows e (Part e E1)), (Rx' e env E2) in A5. congruence.
  - destruct Rx as [-> _], Ry as [-> _]. reflexivity.
Qed.
