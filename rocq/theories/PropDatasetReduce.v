(* reduce_data and jackknife_data of Datasets act on each variable as the functions of
   DataArrays do. *)
From Coq Require Import String Permutation.
From Verif Require Import Base BaseLemmas ModelPush ModelKernels ModelIndex ModelAxes ModelParams ModelWrap ModelNd ModelLabel ModelDataset Spec SpecAxes SpecNd SpecLabel SpecLabelTwo SpecDataset
  ProofAxes ProofArrays ProofIndex ProofNd PropAxes PropParams PropWrap PropLabelled PropNd PropNdUse ProofLabel ProofLabelMany PropLabel PropLabelTwo PropLabelReduce PropLabelJack PropLabelExp ProofDataset PropDataset PropDatasetTwo.
Local Open Scope string_scope.
Local Open Scope nat_scope.

(* dim= names the dimensions ds *)
Definition names_dims (dim : marg dims_arg) (ds : list sname) : Prop :=
  dim = Val (DSeq ds) \/ dim = Val (DIter ds) \/ exists d, ds = [d] /\ dim = Val (DStr d).
(* some variable has the dimension *)
Definition has_dim (s : xset) (n : sname) : Prop := exists v, In v s /\ In n (x_dims (snd v)).
(* the last dimensions of a variable that reduce_data passes on *)
Definition reduce_order (keepdims to_end : bool) (ds md : list sname) (x : xarr) : list sname :=
  match keepdims, to_end with
  | true, true => ds ++ md
  | false, true => md
  | true, false => x_dims x
  | false, false => except_name (x_dims x) ds
  end%list.

Lemma copied_passed {T} (inj : Qc -> T) x : x_ok x -> copied inj x = passed inj (x_dims x) x.
Proof.
  intros H. destruct (copied_named inj x H) as [C1 C2]. destruct (passed_named inj (x_dims x) x H) as [P1 P2]; [apply NoDup_filter, H|].
  assert (E : passed_dims (x_dims x) x = x_dims x).
  { unfold passed_dims, except_name. rewrite filter_none by (intros n Hn; now destruct (in_dec string_dec n (x_dims x))). apply filter_all. intros n Hn. now apply smem_In. }
  rewrite E in P1. apply (named_eq (inj 0%Qc) (dim_size x) (x_dims x)); [apply H|exact C1|exact P1|]. intros env He. now rewrite C2, P2.
Qed.
Lemma dims_dec s dims l : (forall n, In n dims <-> has_dim s n) -> forallb (fun n => smem n dims) l = true <-> forall n, In n l -> has_dim s n.
Proof. intros E. rewrite forallb_forall. split; intros H n Hn; [apply E, smem_In, H, Hn|apply smem_In, E, H, Hn]. Qed.
Lemma names_select md dims dim ds : (forall n, In n ds -> ~ In n md) -> names_dims dim ds -> select_axis_dim_mult (params_for md) (XSet dims) Missing dim Missing Missing false = Ok ([], ds).
Proof.
  intros Nd H. unfold select_axis_dim_mult. assert (C : check_dim (params_for md) false ds = Ok tt).
  { unfold check_dim. destruct (existsb _ ds) eqn:E; [|reflexivity]. exfalso. apply existsb_exists in E as (n & Hn & E). apply smem_In in E. now apply (Nd n Hn). }
  destruct H as [->|[->|(d & -> & ->)]]; cbn [dims_of_arg rbind]; unfold guard; now rewrite C.
Qed.
Lemma params_axes md : moment_names md -> array_axes (params_for md) = Ok (axes_last (List.length md)).
Proof. intros (_ & L). unfold array_axes, x_to_array, get_axes. cbn [params_for xp_ndim rbind]. destruct L as [L|L]; rewrite L; reflexivity. Qed.

Section Reduce.
  Context {A V : Type} (K : pusher A V) (P : packer A) (md ds : list sname) (keepdims to_end : bool) (s : xset).
  Hypotheses (Hs : set_ok s) (Hm : moment_names md) (Nds : NoDup ds) (Dds : forall n, In n ds -> ~ In n md).

  Lemma x_reduce_eq x : x_ok x -> has_names (ds ++ md) x = true ->
    x_reduce_data K P (params_for md) Missing (Val (DSeq ds)) keepdims to_end x =
    rbind (apply_ufunc [(Labelled x, (ds ++ md)%list)] (if keepdims then (ds ++ md)%list else md) ds
             (fun ts => rmap to_grid (reduce_data_nd K P (axes_last (List.length md)) (Some (map (fun i => AInt (Z.of_nat i - Z.of_nat (List.length ds) - Z.of_nat (List.length md))) (seq 0 (List.length ds)))) keepdims false (arg 0 ts))))
      (fun g => l_transpose 0%Qc (None :: map Some (reduce_order keepdims to_end ds md x)) g).
  Proof.
    intros Hx S. apply has_names_In in S. unfold x_reduce_data.
    assert (E : exists axes, select_axis_dim_mult (params_for md) (XArr (x_dims x)) Missing (Val (DSeq ds)) Missing Missing false = Ok (axes, ds)).
    { exists (map (fun n => position String.eqb n (x_dims x)) ds). apply select_mult_exact; [apply Hx|]. split; [apply positions_of; intros n Hn; apply S, in_or_app; now left|]. split; [right; intros n Hn; now apply Dds|]. right; left. split; [reflexivity|]. eexists. split; [reflexivity|]. now left. }
    destruct E as (axes & E). rewrite E. cbn [rbind]. unfold core_dims, iter_dims. cbn [params_for xp_dims xp_ndim rbind of_opt]. rewrite (params_axes md Hm). cbn [rbind].
    destruct (apply_ufunc _ _ _ _) as [g|]; [|reflexivity]. cbn [rbind]. unfold reduce_order, transpose_like. destruct to_end; [now destruct keepdims|]. cbn [map app]. rewrite map_id, app_nil_r. destruct keepdims; [now rewrite filter_all|].
    f_equal. f_equal. f_equal. unfold except_name, except. apply filter_ext_in. intros n Hn. destruct (in_dec string_dec n ds) as [Q|Q]; [apply smem_In in Q|apply smem_false in Q]; now rewrite Q.
  Qed.
  Lemma reduce_order_nodup x : x_ok x -> NoDup (reduce_order keepdims to_end ds md x).
  Proof.
    intros Hx. unfold reduce_order. destruct keepdims, to_end; [apply NoDup_app_; auto; apply Hm|apply Hx|apply Hm|apply NoDup_filter, Hx].
  Qed.
  Definition reduced_var (v : sname * xarr) : res (lgrid Qc) :=
    if has_names (ds ++ md) (snd v) then x_reduce_data K P (params_for md) Missing (Val (DSeq ds)) keepdims to_end (snd v)
    else Ok (passed (fun q => q) (reduce_order keepdims to_end ds md (snd v)) (snd v)).
  Lemma each_reduced :
    each_variable reduced_var s
      (rbind (ds_apply (fun q => q) s (ds ++ md)%list [] (if keepdims then (ds ++ md)%list else md) ds
             (fun ts => rmap to_grid (reduce_data_nd K P (axes_last (List.length md)) (Some (map (fun i => AInt (Z.of_nat i - Z.of_nat (List.length ds) - Z.of_nat (List.length md))) (seq 0 (List.length ds)))) keepdims false (arg 0 ts)))) (fun r =>
       if to_end then ls_map (fun _ => l_transpose 0%Qc (None :: map Some (if keepdims then (ds ++ md)%list else md))) r
       else ds_transpose_like 0%Qc s (fun n => n) (if keepdims then [] else ds) [] r)).
  Proof.
    set (oc := if keepdims then (ds ++ md)%list else md). set (f := fun ts => rmap to_grid _).
    assert (Noc : NoDup oc) by (unfold oc; destruct keepdims; [apply NoDup_app_; auto|]; apply Hm).
    destruct (ds_apply_each (fun q => q) s (ds ++ md)%list [] oc ds f Hs Noc) as [H W]; [intros a []|intros a b []|].
    set (fin := fun n g => if to_end then l_transpose 0%Qc (None :: map Some oc) g else rbind (of_opt EKey (get_var n s)) (fun x => transpose_like 0%Qc (x_dims x) (fun n => n) (if keepdims then [] else ds) [] g)).
    assert (Ef : forall v g, In v s -> fin (fst v) g = l_transpose 0%Qc (None :: map Some (reduce_order keepdims to_end ds md (snd v))) g).
    { intros v g Iv. unfold fin, reduce_order, transpose_like, oc. rewrite (get_var_In v s (proj1 Hs) Iv). cbn [of_opt rbind]. destruct to_end; [now destruct keepdims|]. cbn [map app]. rewrite map_id, app_nil_r. destruct keepdims; [now rewrite filter_all|].
      f_equal. f_equal. f_equal. unfold except_name, except. apply filter_ext_in. intros n Hn. destruct (in_dec string_dec n ds) as [Q|Q]; [apply smem_In in Q|apply smem_false in Q]; now rewrite Q. }
    assert (Tot : forall v g, In v s -> lg_wf g -> exists g', fin (fst v) g = Ok g' /\ same_sizes g g').
    { intros v g Iv Wg. rewrite (Ef v g Iv). destruct (l_transpose_total 0%Qc (reduce_order keepdims to_end ds md (snd v)) g Wg) as (g' & ? & ? & _); [apply NoDup_filter, reduce_order_nodup; now apply Hs|]. eauto. }
    assert (E : forall r, rbind r (fun r => if to_end then ls_map (fun _ => l_transpose 0%Qc (None :: map Some oc)) r else ds_transpose_like 0%Qc s (fun n => n) (if keepdims then [] else ds) [] r) = rbind r (ls_map fin)).
    { intros [r|]; [|reflexivity]. cbn [rbind]. unfold ds_transpose_like, fin. now destruct to_end. }
    rewrite E. eapply each_ext; [|apply (each_finish _ fin s _ H)].
    - intros v Iv. cbn beta. unfold var_fun, reduced_var. cbn [forallb map]. rewrite andb_true_r. destruct (has_names _ _) eqn:S.
      + rewrite x_reduce_eq by (auto; now apply Hs). fold oc. fold f. destruct (apply_ufunc _ _ _ _) as [g|]; [|reflexivity]. cbn [rbind]. now apply Ef.
      + cbn [rbind]. rewrite (Ef v _ Iv). apply passed_transpose; [now apply Hs|]. apply NoDup_filter, reduce_order_nodup. now apply Hs.
    - intros v g Iv Ev. destruct (Tot v g Iv (W v g Iv Ev)) as (g' & ? & _). eauto.
    - intros v w g h g' h' Iv Iw Ev Ew Fv Fw. destruct (Tot v g Iv (W v g Iv Ev)) as (g1 & F1 & S1), (Tot w h Iw (W w h Iw Ew)) as (h1 & F2 & S2).
      assert (g1 = g') by congruence. assert (h1 = h') by congruence. subst. now apply same_sizes_clash.
  Qed.
End Reduce.

(* one name, or use_map=False: variables with all the dimensions are reduced *)
Theorem reduce_set : forall {A V} (K : pusher A V) (P : packer A) md dim ds keepdims to_end use_map s, set_ok s -> moment_names md -> NoDup ds -> (forall n, In n ds -> ~ In n md) ->
  names_dims dim ds -> ds <> [] -> List.length ds = 1 \/ use_map = Some false ->
  let r := ds_reduce_data K P (params_for md) Missing dim keepdims to_end use_map s in
  ((forall n, In n (ds ++ md) -> has_dim s n) ->
   each_variable (fun v => if has_names (ds ++ md) (snd v) then x_reduce_data K P (params_for md) Missing (Val (DSeq ds)) keepdims to_end (snd v)
                           else Ok (passed (fun q => q) (reduce_order keepdims to_end ds md (snd v)) (snd v))) s r) /\
  (~ (forall n, In n (ds ++ md) -> has_dim s n) -> r = Raise EValue).
Proof.
  intros A V K P md dim ds keepdims to_end um s Hs Hm Nds Dds Hn Ne One r.
  destruct (ds_dims_ok s Hs) as (dims & Ed & Hd).
  assert (Er : r = if negb (forallb (fun n => smem n dims) (ds ++ md)) then Raise EValue else
    rbind (ds_apply (fun q => q) s (ds ++ md)%list [] (if keepdims then (ds ++ md)%list else md) ds
             (fun ts => rmap to_grid (reduce_data_nd K P (axes_last (List.length md)) (Some (map (fun i => AInt (Z.of_nat i - Z.of_nat (List.length ds) - Z.of_nat (List.length md))) (seq 0 (List.length ds)))) keepdims false (arg 0 ts)))) (fun r =>
       if to_end then ls_map (fun _ => l_transpose 0%Qc (None :: map Some (if keepdims then (ds ++ md)%list else md))) r
       else ds_transpose_like 0%Qc s (fun n => n) (if keepdims then [] else ds) [] r)).
  { unfold r, ds_reduce_data. rewrite Ed. cbn [rbind]. unfold iter_dims at 1. cbn [params_for xp_dims rbind]. fold (params_for md).
    assert (Q : (match dim with PyNone => Ok None | _ => rmap (fun r => Some (snd r)) (select_axis_dim_mult (params_for md) (XSet dims) Missing dim Missing Missing false) end) = Ok (Some ds)).
    { rewrite (names_select md dims dim ds Dds Hn). destruct Hn as [->|[->|(d & _ & ->)]]; reflexivity. }
    rewrite Q. cbn [rbind]. destruct (negb (forallb _ (ds ++ md))); [reflexivity|].
    assert (B : (match um with Some b => b | None => true end && Nat.ltb 1 (List.length ds))%bool = false) by (destruct One as [->| ->]; [now rewrite andb_comm|reflexivity]). rewrite B.
    assert (Y : match um, Some ds with Some true, Some [] => Ok (map (fun v => (fst v, copied (fun q => q) (snd v))) s) | _, _ => Raise EType end = @Raise (lset Qc) EType) by (destruct um as [[|]|]; [destruct ds; [congruence|]| |]; reflexivity).
    rewrite (names_select md dims (Val (DSeq ds)) ds Dds (or_introl eq_refl)). unfold core_dims, iter_dims. cbn [params_for xp_dims xp_ndim rbind of_opt]. fold (params_for md). rewrite (params_axes md Hm). cbn [rbind].
    destruct um as [[|]|]; [destruct ds; [congruence|]| |]; reflexivity. }
  split; intros H.
  - apply (proj2 (dims_dec s dims (ds ++ md) Hd)) in H. rewrite Er, H. cbn [negb]. now apply each_reduced.
  - rewrite Er. destruct (forallb _ (ds ++ md)) eqn:F; [|reflexivity]. exfalso. apply H. now apply (dims_dec s dims).
Qed.

Lemma l_transpose_nodup {T} (dflt : T) supplied g g' : NoDup (lg_dims g) -> l_transpose dflt supplied g = Ok g' -> NoDup (lg_dims g').
Proof.
  intros N E. unfold l_transpose in E. destruct (infix_dims _ _) as [ds|] eqn:I; [|discriminate]. cbn [rbind] in E. destruct (mapR _ ds); [|discriminate]. cbn [rbind] in E. injection E as <-. cbn [lg_dims].
  eapply Permutation_NoDup; [apply Permutation_sym, (proj1 (infix_ok _ _ _ N I))|exact N].
Qed.
Lemma x_reduce_nodup {A V} (K : pusher A V) (P : packer A) md dim keepdims to_end x g : x_ok x -> moment_names md ->
  (dim = PyNone \/ exists ds, dim = Val (DSeq ds) /\ NoDup ds /\ forall n, In n ds -> ~ In n md) ->
  x_reduce_data K P (params_for md) Missing dim keepdims to_end x = Ok g -> NoDup (lg_dims g).
Proof.
  intros Hx Hm Hd E. unfold x_reduce_data in E. destruct (select_axis_dim_mult _ _ _ _ _ _ _) as [[axes ds]|] eqn:S; [|discriminate]. cbn [rbind] in E.
  assert (D : NoDup ds /\ forall n, In n ds -> ~ In n md).
  { unfold select_axis_dim_mult, axis_dim_defaults in S. destruct Hd as [->|(l & -> & Nl & Dl)]; cbn [rbind dims_of_arg is_missing andb negb] in S.
    - destruct (mapR _ _); [|discriminate]. cbn [rbind snd] in S. unfold guard in S. destruct (check_dim (params_for md) _ _); [|discriminate]. cbn [rbind] in S. injection S as _ <-. split; [apply NoDup_filter, Hx|]. intros n Hn. apply filter_In in Hn as [_ Hn]. now apply negb_true_iff, smem_false in Hn.
    - destruct (mapR _ _); [|discriminate]. cbn [rbind snd] in S. unfold guard in S. destruct (check_dim (params_for md) _ _); [|discriminate]. cbn [rbind] in S. injection S as _ <-. auto. }
  destruct D as [Nds Dds]. unfold core_dims, iter_dims in E. cbn [params_for xp_dims xp_ndim rbind of_opt] in E. fold (params_for md) in E. rewrite (params_axes md Hm) in E. cbn [rbind] in E.
  destruct (apply_ufunc _ _ _ _) as [h|] eqn:Ap; [|discriminate]. cbn [rbind] in E. apply apply_dims in Ap as [W _]; [|destruct keepdims; [apply NoDup_app_; auto|]; apply Hm].
  unfold transpose_like in E. destruct to_end; (eapply l_transpose_nodup; [|exact E]; apply W).
Qed.

(* several names or dim=None: each variable with moments is reduced along its own
   dimensions among them; other variables stay as they are *)
Theorem reduce_set_map : forall {A V} (K : pusher A V) (P : packer A) md dim names keepdims to_end use_map s, set_ok s -> moment_names md -> use_map <> Some false ->
  (dim = PyNone /\ names = None \/ exists ds, names_dims dim ds /\ names = Some ds /\ NoDup ds /\ (forall n, In n ds -> ~ In n md) /\ 2 <= List.length ds) ->
  let r := ds_reduce_data K P (params_for md) Missing dim keepdims to_end use_map s in
  ((forall n, In n (match names with Some ds => ds | None => [] end ++ md) -> has_dim s n) ->
   each_variable (fun v => if has_names md (snd v) then
                             match names with
                             | None => x_reduce_data K P (params_for md) Missing PyNone keepdims to_end (snd v)
                             | Some ds => match filter (fun n => smem n (x_dims (snd v))) ds with
                                          | [] => Ok (passed (fun q => q) (x_dims (snd v)) (snd v))
                                          | here => x_reduce_data K P (params_for md) Missing (Val (DSeq here)) keepdims to_end (snd v)
                                          end
                             end
                           else Ok (passed (fun q => q) (x_dims (snd v)) (snd v))) s r) /\
  (~ (forall n, In n (match names with Some ds => ds | None => [] end ++ md) -> has_dim s n) -> r = Raise EValue).
Proof.
  intros A V K P md dim names keepdims to_end um s Hs Hm Hu Hn r.
  destruct (ds_dims_ok s Hs) as (dims & Ed & Hd). set (want := (match names with Some ds => ds | None => [] end ++ md)%list).
  assert (Er : r = if negb (forallb (fun n => smem n dims) want) then Raise EValue else rbind (mapR (fun v => rmap (pair (fst v)) (map_reduce K P (params_for md) md names keepdims to_end (snd v))) s) ls_checked).
  { unfold r, ds_reduce_data. rewrite Ed. cbn [rbind]. unfold iter_dims at 1. cbn [params_for xp_dims rbind]. fold (params_for md).
    assert (Q : (match dim with PyNone => Ok None | _ => rmap (fun r => Some (snd r)) (select_axis_dim_mult (params_for md) (XSet dims) Missing dim Missing Missing false) end) = Ok names).
    { destruct Hn as [[-> ->]|(ds & Hn & -> & _ & Dds & _)]; [reflexivity|]. rewrite (names_select md dims dim ds Dds Hn). destruct Hn as [->|[->|(d & _ & ->)]]; reflexivity. }
    rewrite Q. cbn [rbind]. fold want. destruct (negb (forallb _ want)); [reflexivity|].
    assert (B : (match um with Some b => b | None => true end && match names with None => true | Some ds => Nat.ltb 1 (List.length ds) end)%bool = true).
    { apply andb_true_iff. split; [destruct um as [[|]|]; congruence|]. destruct Hn as [[_ ->]|(ds & _ & -> & _ & _ & L)]; [reflexivity|]. apply Nat.ltb_lt. lia. }
    now rewrite B. }
  split; intros H.
  - apply (proj2 (dims_dec s dims want Hd)) in H. rewrite Er, H. cbn [negb].
    eapply each_ext; [|apply (each_checked (fun v => map_reduce K P (params_for md) md names keepdims to_end (snd v)) s)].
    + intros v Iv. cbn beta. unfold map_reduce. fold (has_names md (snd v)). destruct (has_names md (snd v)); cbn [negb]; [|rewrite copied_passed by (now apply Hs); reflexivity].
      destruct names as [ds|]; [|reflexivity]. destruct (filter _ ds); [rewrite copied_passed by (now apply Hs)|]; reflexivity.
    + intros v g Iv. unfold map_reduce. fold (has_names md (snd v)). destruct (has_names md (snd v)) eqn:S; cbn [negb]; [|intros [= <-]; now apply Hs].
      destruct names as [ds|].
      * destruct Hn as [[_ Q]|(ds' & _ & [= <-] & Nds & Dds & _)]; [discriminate|]. destruct (filter _ ds) as [|n l] eqn:F; [intros [= <-]; now apply Hs|]. rewrite <- F. intros E. refine (x_reduce_nodup K P md _ keepdims to_end (snd v) g _ Hm _ E); [now apply Hs|]. right. eexists. split; [reflexivity|].
        split; [now apply NoDup_filter|]. intros m Hmm. apply filter_In in Hmm. now apply Dds.
      * intros E. refine (x_reduce_nodup K P md _ keepdims to_end (snd v) g _ Hm _ E); [now apply Hs|now left].
  - rewrite Er. destruct (forallb _ want) eqn:F; [|reflexivity]. exfalso. apply H. now apply (dims_dec s dims).
Qed.

(* ---- results that go into one Dataset ---------------------------------------------------------- *)

Lemma many_choose md ds x : (forall n, In n ds -> ~ In n md) -> NoDup ds -> ds <> [] -> has_names (ds ++ md) x = true -> chooses_many md Missing (Val (DSeq ds)) ds x.
Proof. intros Dds Nds Ne S. apply has_names_In in S. split; [intros n Hn; apply S, in_or_app; now left|]. split; [exact Nds|]. split; [exact Ne|]. split; [exact Dds|]. right; right; left. auto. Qed.
(* sizes of a result of reduce_data *)
Definition reduced_size (keepdims : bool) (ds : list sname) (sz : sname -> nat) (n : sname) : nat := if (keepdims && smem n ds)%bool then 1 else sz n.
Lemma reduced_sized {A V} (K : pusher A V) (P : packer A) md ds keepdims to_end s v g : set_ok s -> moment_names md -> NoDup ds -> (forall n, In n ds -> ~ In n md) -> In v s -> has_names (ds ++ md) (snd v) = true ->
  reduced_by_name K P keepdims to_end ds md (snd v) (Ok g) ->
  exists dims, NoDup dims /\ l_named (reduced_size keepdims ds (set_size s)) dims g /\ incl md dims /\ incl dims (x_dims (snd v)) /\
    (keepdims = false -> forall n, In n ds -> ~ In n dims) /\ (keepdims = true -> incl ds dims).
Proof.
  intros Hs Hm Nds Dds Iv S (D1 & D2 & D3 & _). apply has_names_In in S. pose proof (proj1 (proj2 Hs) v Iv) as Hx. set (dims := reduced_dims keepdims to_end (x_dims (snd v)) ds md) in *.
  assert (Ids : incl ds (x_dims (snd v))) by (intros n Hn; apply S, in_or_app; now left). assert (Imd : incl md (x_dims (snd v))) by (intros n Hn; apply S, in_or_app; now right).
  assert (Ic : incl dims (x_dims (snd v))).
  { unfold dims. intros n Hn. destruct keepdims, to_end; cbn [reduced_dims] in Hn; [|exact Hn| |now apply except_In in Hn]; rewrite ?in_app_iff in Hn.
    - destruct Hn as [Hn|[Hn|Hn]]; [now apply except_In in Hn|auto|auto].
    - destruct Hn as [Hn|Hn]; [now apply except_In in Hn|auto]. }
  assert (Out : keepdims = false -> forall n, In n ds -> ~ In n dims).
  { intros -> n Hn Q. unfold dims in Q. destruct to_end; cbn [reduced_dims] in Q; [|now apply except_In in Q]. apply in_app_or in Q as [Q|Q]; [|now apply (Dds n)]. apply except_In in Q as [_ Q]. apply Q, in_or_app. now left. }
  exists dims. repeat split.
  - unfold dims. destruct keepdims, to_end; cbn [reduced_dims]; [|apply Hx| |apply NoDup_filter, Hx].
    + apply NoDup_app_; [apply NoDup_filter, Hx|apply NoDup_app_; auto; apply Hm|]. intros n Hn. now apply except_In in Hn.
    + apply NoDup_app_; [apply NoDup_filter, Hx|apply Hm|]. intros n Hn Q. apply except_In in Hn as [_ Hn]. apply Hn, in_or_app. now right.
  - exact D1.
  - exact D2.
  - rewrite D3. apply map_ext_in. intros n Hn. unfold reduced_size. destruct (in_dec string_dec n ds) as [Q|Q].
    + rewrite (proj2 (smem_In n ds) Q). destruct keepdims; [reflexivity|]. exfalso. now apply (Out eq_refl n).
    + rewrite (proj2 (smem_false n ds) Q), andb_false_r. symmetry. apply set_size_of; auto.
  - unfold dims. intros n Hn. destruct keepdims, to_end; cbn [reduced_dims]; rewrite ?in_app_iff; auto. apply except_In. split; [auto|]. intros Q. now apply (Dds n).
  - exact Ic.
  - exact Out.
  - intros ->. unfold dims. intros n Hn. destruct to_end; cbn [reduced_dims]; rewrite ?in_app_iff; auto.
Qed.
Theorem reduce_set_alone : forall {A V} (K : pusher A V) ok P, moment_array K ok P ->
  forall md dim ds keepdims to_end use_map s, set_ok s -> moment_names md -> NoDup ds -> (forall n, In n ds -> ~ In n md) ->
  names_dims dim ds -> ds <> [] -> List.length ds = 1 \/ use_map = Some false -> moments_where P ds md s -> (forall n, In n (ds ++ md) -> has_dim s n) ->
  let f := fun v => if has_names (ds ++ md) (snd v) then x_reduce_data K P (params_for md) Missing (Val (DSeq ds)) keepdims to_end (snd v)
                    else Ok (passed (fun q => q) (reduce_order keepdims to_end ds md (snd v)) (snd v)) in
  let r := ds_reduce_data K P (params_for md) Missing dim keepdims to_end use_map s in
  ((keepdims = false \/ forall w n, In w s -> has_names (ds ++ md) (snd w) = false -> In n ds -> In n (x_dims (snd w)) -> dim_size (snd w) n = 1) -> each_alone f s r) /\
  (forall v w n g, keepdims = true -> In v s -> has_names (ds ++ md) (snd v) = true -> f v = Ok g ->
     In w s -> has_names (ds ++ md) (snd w) = false -> In n ds -> In n (x_dims (snd w)) -> dim_size (snd w) n <> 1 -> exists e, r = Raise e).
Proof.
  intros A V K ok P HMA md dim ds keepdims to_end um s Hs Hm Nds Dds Hn Ne One Mw All f r. pose proof (proj1 (reduce_set K P md dim ds keepdims to_end um s Hs Hm Nds Dds Hn Ne One) All) as H. fold f r in H.
  assert (Z : forall v g, In v s -> has_names (ds ++ md) (snd v) = true -> f v = Ok g -> reduced_by_name K P keepdims to_end ds md (snd v) (Ok g)).
  { intros v g Iv S E. unfold f in E. rewrite S in E. rewrite <- E. apply (reduce_named K ok P HMA); [now apply Mw|]. now apply many_choose. }
  assert (Ord : forall v, In v s -> NoDup (filter (fun n => smem n (x_dims (snd v))) (reduce_order keepdims to_end ds md (snd v)))).
  { intros v Iv. apply NoDup_filter. apply (reduce_order_nodup md ds keepdims to_end Hm Nds Dds). now apply Hs. }
  split.
  - intros Hw. apply alone_sized; [exact H|]. exists (reduced_size keepdims ds (set_size s)). intros v g Iv E. destruct (has_names (ds ++ md) (snd v)) eqn:S.
    + destruct (reduced_sized K P md ds keepdims to_end s v g Hs Hm Nds Dds Iv S (Z v g Iv S E)) as (dims & N & L & _). eauto.
    + unfold f in E. rewrite S in E. injection E as <-. destruct (passed_any_sized (fun q => q) s (reduce_order keepdims to_end ds md (snd v)) v Hs Iv (Ord v Iv)) as (dims & N & I & L). exists dims. split; [exact N|].
      eapply named_resize; [|exact L]. intros n Hnn. unfold reduced_size. destruct (keepdims && smem n ds)%bool eqn:Q; [|reflexivity]. apply andb_true_iff in Q as [Q1 Q2]. apply smem_In in Q2. destruct Hw as [Hw|Hw]; [congruence|]. rewrite <- (Hw v n Iv S Q2 (I n Hnn)). apply set_size_of; auto.
  - intros v w n g Kd Iv S E Iw Sw Hnn Hw N1. destruct r as [l|e]; [exfalso|eauto]. destruct H as [F C].
    assert (Get : forall v, In v s -> exists u, In u l /\ f v = Ok (snd u)).
    { clear -F. induction F as [|a b s l [_ E] F IH]; intros v; [intros []|]. intros [->|I]; [exists b; split; [now left|exact E]|]. destruct (IH v I) as (u & ? & ?). exists u. split; [now right|assumption]. }
    destruct (Get v Iv) as (u1 & I1 & E1), (Get w Iw) as (u2 & I2 & E2). apply (C u1 u2 I1 I2).
    destruct (reduced_sized K P md ds keepdims to_end s v (snd u1) Hs Hm Nds Dds Iv S (Z v (snd u1) Iv S E1)) as (d1 & M1 & (D1 & _ & S1) & _ & _ & _ & In1).
    unfold f in E2. rewrite Sw in E2. injection E2 as E2. destruct (passed_any_sized (fun q => q) s (reduce_order keepdims to_end ds md (snd w)) w Hs Iw (Ord w Iw)) as (d2 & M2 & I & (D2 & _ & S2)). rewrite E2 in D2, S2.
    assert (Hn2 : In n d2). { rewrite <- D2, <- E2. apply passed_wf; [now apply Hs|now apply Ord|exact Hw]. }
    exists n, 1, (dim_size (snd w) n). rewrite D1, S1, D2, S2.
    assert (X : forall sz ds, In n ds -> lookup n (combine ds (map sz ds)) = Some (sz n)).
    { clear. intros sz ds I. replace (combine ds (map sz ds)) with (map (fun n => (n, sz n)) ds) by (clear; induction ds as [|m ds IH]; [reflexivity|]; cbn; now rewrite IH). rewrite lookup_tab. apply smem_In in I. now rewrite I. }
    rewrite !X by (auto; now apply In1). unfold reduced_size. rewrite Kd, (proj2 (smem_In n ds) Hnn). cbn [andb]. split; [reflexivity|]. split; [|auto]. f_equal. apply set_size_of; auto.
Qed.

(* ---- jackknife ------------------------------------------------------------------------------------ *)

(* the new name of d is no dimension of the second argument *)
Definition new_free_in (d : sname) (new : option sname) (a : dop) : Prop :=
  forall n, new = Some n -> n <> d -> forall x, In x (arrays_of a) -> ~ In n (x_dims x).
Lemma part_array s a (v : sname * xarr) x : fits s a -> In x (labelled_of [its_part (fst v) a]) -> In x (arrays_of a) /\ x_ok x.
Proof.
  intros F Ix. destruct a as [t|[z|t]]; cbn [its_part arrays_of] in *.
  - destruct (get_var (fst v) t) as [z|] eqn:Gz; [|destruct Ix]. destruct Ix as [<-|[]]. unfold get_var in Gz. destruct (find _ t) as [w|] eqn:Fw; [|discriminate]. injection Gz as <-. apply find_some in Fw as [Fw _]. split; [apply in_map_iff; now exists w|]. now apply F.
  - destruct Ix as [<-|[]]. split; [now left|apply F].
  - destruct Ix.
Qed.
Theorem jackknife_given_set : forall {A V} (K : pusher A V) (P : packer A) red mom_axes rep_dim md d to_end s, set_ok s -> moment_names md -> ~ In d md -> fits s red ->
  new_free d rep_dim s -> new_free_in d rep_dim red -> (exists v, In v s /\ has_names (d :: md) (snd v) = true) ->
  each_variable (fun v => if (has_names (d :: md) (snd v) && part_has md (fst v) red)%bool
                          then x_jackknife_data K P (params_for md) (Some (its_part (fst v) red, mom_axes)) rep_dim Missing (Val d) to_end (snd v)
                          else Ok (renamed_grid d rep_dim (passed (fun q => q) (if to_end then d :: md else x_dims (snd v)) (snd v))))
    s (ds_jackknife_data K P (params_for md) (Some (red, mom_axes)) rep_dim Missing (Val d) to_end s).
Proof.
  intros A V K P red ma rep md d to_end s Hs Hm Nd Fr Nf Nf' Ex.
  assert (Same : forall a, fits s a -> new_free_in d rep a -> (forall v, In v s -> part_has md (fst v) a = part_has md (fst v) red) ->
    (forall v, In v s -> has_names (d :: md) (snd v) = true -> part_has md (fst v) red = true ->
       match Some (its_part (fst v) red, ma) with
       | Some (Plain r, Some ma) => rbind (array_axes (params_for md)) (fun mom => rmap Plain (np_moveaxis ma mom r))
       | Some (r, _) => Ok r | None => Raise EType end = Ok (its_part (fst v) a)) ->
    each_variable (fun v => if (has_names (d :: md) (snd v) && part_has md (fst v) red)%bool
                          then x_jackknife_data K P (params_for md) (Some (its_part (fst v) red, ma)) rep Missing (Val d) to_end (snd v)
                          else Ok (renamed_grid d rep (passed (fun q => q) (if to_end then d :: md else x_dims (snd v)) (snd v))))
      s (ds_with_dim (params_for md) Missing (Val d) s (fun d md core mom ax =>
           rbind (ds_apply (fun q => q) s core [(a, md)] core []
             (fun ts => rmap to_grid (jackknife_data_at K P (arg 1 ts, axes_last (List.length mom)) (axis_value ax) mom (arg 0 ts)))) (fun r =>
           rbind (ds_finish 0%Qc to_end s (fun n => n) [] (d :: md) r) (ds_rename d rep))))).
  { intros a Fa Na Eh Ep. rewrite (ds_with_dim_eq s md d _ Hs Nd (proj2 Hm)).
    set (f := fun ts => rmap to_grid _).
    assert (Q : forall r : res (lset Qc), rbind r (fun r => rbind (ds_finish 0%Qc to_end s (fun n => n) [] (d :: md) r) (ds_rename d rep)) = rbind (rbind r (ds_finish 0%Qc to_end s (fun n => n) [] (d :: md))) (ds_rename d rep)) by (intros [r|]; reflexivity).
    rewrite Q.
    pose (base := fun v : sname * xarr => if (has_names (d :: md) (snd v) && part_has md (fst v) a)%bool
                          then rbind (apply_ufunc [(Labelled (snd v), d :: md); (its_part (fst v) a, md)] (d :: md) [] f)
                                 (fun g => if to_end then Ok g else transpose_like 0%Qc (x_dims (snd v)) (fun n => n) [] [] g)
                          else Ok (passed (fun q => q) (if to_end then d :: md else map (fun n => n) (x_dims (snd v))) (snd v))).
    assert (HB : each_variable base s (rbind (ds_apply (fun q => q) s (d :: md) [(a, md)] (d :: md) [] f) (ds_finish 0%Qc to_end s (fun n => n) [] (d :: md)))).
    { unfold base. apply two_set; auto. intros _ v Iv. rewrite map_id. now apply Hs. }
    assert (Nm : forall v g, In v s -> base v = Ok g -> lg_wf g /\ (forall n, In n (lg_dims g) -> In n (x_dims (snd v)) \/ exists x, In x (arrays_of a) /\ In n (x_dims x)) /\ (In d (x_dims (snd v)) -> In d (lg_dims g))).
    { intros v g Iv E. pose proof (proj1 (proj2 Hs) v Iv) as Hx. assert (Nx : NoDup (d :: md)) by (constructor; [exact Nd|apply Hm]). unfold base in E. destruct (_ && _)%bool eqn:S.
      - apply andb_true_iff in S as [S _]. apply has_names_In in S. destruct (apply_ufunc _ _ _ _) as [g0|] eqn:Ap; [|discriminate]. cbn [rbind] in E. destruct (apply_dims _ _ _ _ _ Nx Ap) as [W (pre & Epre)].
        assert (Oks : forall x, In x (labelled_of (map fst [(Labelled (snd v), d :: md); (its_part (fst v) a, md)])) -> x_ok x).
        { intros x Ix. cbn [map fst] in Ix. change (labelled_of [Labelled (snd v); its_part (fst v) a]) with (snd v :: labelled_of [its_part (fst v) a])%list in Ix. destruct Ix as [<-|Ix]; [exact Hx|]. now apply (part_array s a v x Fa). }
        assert (Names : forall n, In n (lg_dims g0) -> In n (x_dims (snd v)) \/ exists x, In x (arrays_of a) /\ In n (x_dims x)).
        { intros n Hn. apply (apply_names _ _ _ _ _ Ap Oks) in Hn as [Hn|(_ & _ & x & Ix & Hn)]; [left; now apply S|]. cbn [map fst] in Ix. change (labelled_of [Labelled (snd v); its_part (fst v) a]) with (snd v :: labelled_of [its_part (fst v) a])%list in Ix.
          destruct Ix as [<-|Ix]; [now left|]. right. exists x. split; [now apply (part_array s a v x Fa)|exact Hn]. }
        assert (Hd0 : In d (lg_dims g0)) by (rewrite Epre; apply in_or_app; right; now left).
        destruct to_end; [injection E as <-; auto|]. rewrite transpose_like_front, map_id, app_nil_r in E. destruct (transposed_names 0%Qc (x_dims (snd v)) g0 g W) as [W' N']; [apply NoDup_filter, Hx|exact E|].
        split; [exact W'|]. split; [intros n Hn; apply Names, N', Hn|]. intros _. now apply N'.
      - injection E as <-. destruct (passed_wf (fun q => q) (if to_end then d :: md else map (fun n => n) (x_dims (snd v))) (snd v) Hx) as [W N']; [apply NoDup_filter; destruct to_end; [exact Nx|rewrite map_id; apply Hx]|]. split; [exact W|]. split; [intros n Hn; left; now apply N'|]. intros Hd. now apply N'. }
    eapply each_ext; [|apply (each_rename base d rep s _ HB)].
    - intros v Iv. cbn beta. unfold base at 1. rewrite Eh by exact Iv. destruct (_ && _)%bool eqn:S.
      + apply andb_true_iff in S as [S S']. unfold x_jackknife_data. pose proof (Ep v Iv S S') as E. cbv beta iota in E.
        match goal with |- _ = rbind ?m _ => replace m with (@Ok xop (its_part (fst v) a)) by (symmetry; exact E) end. cbn [rbind]. enter Hs Iv Hm Nd S. unfold iter_dims. cbn [params_for xp_dims rbind]. fold (params_for md). destruct (apply_ufunc _ _ _ _) as [g|]; [|reflexivity]. cbn [rbind]. reflexivity.
      + cbn [rbind]. rewrite map_id. assert (B : base v = Ok (passed (fun q => q) (if to_end then d :: md else x_dims (snd v)) (snd v))) by (unfold base; rewrite Eh, S, map_id by exact Iv; reflexivity).
        apply rename_wf; [now apply (Nm v _ Iv B)|]. intros n En Hn Q'. destruct (Nm v _ Iv B) as (_ & N' & _). destruct (N' n Q') as [Q1|(x & Ix & Q1)]; [now apply (Nf n En Hn v Iv)|]. now apply (Na n En Hn x Ix).
    - intros v g Iv Ev. now apply (Nm v g Iv Ev).
    - intros n En Hn v g Iv Ev Q'. destruct (Nm v _ Iv Ev) as (_ & N' & _). destruct (N' n Q') as [Q1|(x & Ix & Q1)]; [now apply (Nf n En Hn v Iv)|]. now apply (Na n En Hn x Ix).
    - right. destruct Ex as (v & Iv & S). exists v. split; [exact Iv|]. intros g Ev. apply (Nm v g Iv Ev). apply has_names_In in S. apply S. now left. }
  unfold ds_jackknife_data. destruct red as [t|[z|t]].
  - cbn [rbind]. apply Same; auto. intros v Iv S S'. unfold part_has in S'. cbn [its_part] in *. destruct (get_var (fst v) t) as [z|] eqn:G; [now destruct ma|]. exfalso. destruct Fr as (_ & E & _).
    destruct (get_var_name (fst v) t) as (y & Gy & _); [apply E; apply in_map_iff; now exists v|congruence].
  - cbn [rbind]. apply Same; auto; intros v Iv S S1; now destruct ma.
  - destruct ma as [ma|]; [|cbn [rbind]; apply Same; auto]. rewrite (params_axes md Hm). cbn [rbind]. destruct (np_moveaxis ma (axes_last (List.length md)) t) as [u|e] eqn:Mv; cbn [rmap rbind].
    + apply Same; [exact I|intros n En Hn x []|reflexivity|]. intros v Iv S _. cbn [its_part]. rewrite (params_axes md Hm). cbn [rbind]. now rewrite Mv.
    + left. destruct Ex as (v0 & Iv0 & S0). exists v0. split; [exact Iv0|]. rewrite S0. change (part_has md (fst v0) (DArr (Plain t))) with true. cbn [andb its_part]. unfold x_jackknife_data. rewrite (params_axes md Hm). cbn [rbind]. now rewrite Mv.
Qed.

(* without data_reduced, every variable is left out of its own total *)
Theorem jackknife_set_alone : forall {A V} (K : pusher A V) ok P, moment_array K ok P ->
  forall rep_dim md d to_end s, set_ok s -> moment_names md -> ~ In d md -> moments_where P [d] md s -> new_free d rep_dim s -> (exists v, In v s /\ has_names (d :: md) (snd v) = true) ->
  each_alone (fun v => if has_names (d :: md) (snd v) then x_jackknife_data K P (params_for md) None rep_dim Missing (Val d) to_end (snd v)
                       else Ok (renamed_grid d rep_dim (passed (fun q => q) (if to_end then d :: md else x_dims (snd v)) (snd v))))
    s (ds_jackknife_data K P (params_for md) None rep_dim Missing (Val d) to_end s).
Proof.
  intros A V K ok P HMA rep md d to_end s Hs Hm Nd Mw Nf Ex.
  assert (N1 : NoDup [d]) by (repeat constructor; intros []). assert (D1 : forall n, In n [d] -> ~ In n md) by (intros n [<-|[]]; exact Nd).
  assert (All : forall n, In n ([d] ++ md) -> has_dim s n) by (intros n Hn; destruct Ex as (v & Iv & S); exists v; split; [exact Iv|]; apply has_names_In in S; now apply S).
  pose proof (proj1 (reduce_set_alone K ok P HMA md (Val (DStr d)) [d] false true None s Hs Hm N1 D1 (or_intror (or_intror (ex_intro _ d (conj eq_refl eq_refl)))) ltac:(discriminate) (or_introl eq_refl) Mw All) (or_introl eq_refl)) as R. cbn [app] in R.
  set (f0 := fun v : sname * xarr => if has_names (d :: md) (snd v) then x_reduce_data K P (params_for md) Missing (Val (DSeq [d])) false true (snd v) else Ok (passed (fun q => q) (reduce_order false true [d] md (snd v)) (snd v))) in *.
  assert (Str : forall x, x_reduce_data K P (params_for md) Missing (Val (DStr d)) false true x = x_reduce_data K P (params_for md) Missing (Val (DSeq [d])) false true x) by reflexivity.
  assert (Er : ds_jackknife_data K P (params_for md) None rep Missing (Val d) to_end s =
    rbind (ds_reduce_data K P (params_for md) Missing (Val (DStr d)) false true None s) (fun l => ds_jackknife_data K P (params_for md) (Some (DSet (to_xset l), None)) rep Missing (Val d) to_end s)).
  { unfold ds_jackknife_data at 1. destruct (ds_reduce_data _ _ _ _ _ _ _ _ _); reflexivity. }
  rewrite Er. clear Er. destruct (ds_reduce_data _ _ _ _ _ _ _ _ _) as [l|e]; cbn [rbind].
  2: { destruct R as (v & Iv & E). exists v. split; [exact Iv|]. unfold f0 in E. destruct (has_names (d :: md) (snd v)); [|discriminate]. unfold x_jackknife_data. rewrite Str, E. reflexivity. }
  cbn [each_alone] in R. set (t := to_xset l).
  assert (Ft : Forall2 (fun v w => fst w = fst v /\ exists g, f0 v = Ok g /\ snd w = to_xarr g) s t).
  { unfold t, to_xset. clear -R. induction R as [|v w s l [E1 E2] R IH]; [constructor|]. cbn [map]. constructor; [|exact IH]. cbn [fst snd]. eauto. }
  assert (Et : map fst t = map fst s) by (clear -Ft; induction Ft as [|v w s t [E _] F IH]; [reflexivity|]; cbn; now rewrite IH, E).
  assert (Back : forall w, In w t -> exists v g, In v s /\ fst w = fst v /\ f0 v = Ok g /\ snd w = to_xarr g).
  { clear -Ft. induction Ft as [|v w s t (E & g & E1 & E2) F IH]; intros u; [intros []|]. intros [->|I]; [exists v, g; repeat split; auto; now left|]. destruct (IH u I) as (v' & g' & ? & ? & ?). exists v', g'. split; [now right|auto]. }
  assert (Sized : forall v g, In v s -> f0 v = Ok g -> x_ok (to_xarr g) /\ (forall n, In n (x_dims (to_xarr g)) -> dim_size (to_xarr g) n = set_size s n) /\ incl (x_dims (to_xarr g)) (x_dims (snd v)) /\
     (has_names (d :: md) (snd v) = true -> incl md (x_dims (to_xarr g)))).
  { intros v g Iv E. unfold f0 in E. destruct (has_names (d :: md) (snd v)) eqn:S.
    - pose proof (reduce_named K ok P HMA md Missing (Val (DSeq [d])) [d] false true (snd v) (Mw v Iv S) (many_choose md [d] (snd v) D1 N1 ltac:(discriminate) S)) as H. rewrite E in H.
      destruct (reduced_sized K P md [d] false true s v g Hs Hm N1 D1 Iv S H) as (dims & N & L & I1 & I2 & _). destruct (to_xarr_named _ _ _ L N) as (X1 & X2 & X3). rewrite X2. split; [exact X1|]. split; [exact X3|]. auto.
    - injection E as <-. destruct (passed_any_sized (fun q => q) s md v Hs Iv) as (dims & N & I & L); [apply NoDup_filter, Hm|]. destruct (to_xarr_named _ _ _ L N) as (X1 & X2 & X3). cbn [reduce_order]. rewrite X2. split; [exact X1|]. split; [exact X3|]. split; [exact I|discriminate]. }
  assert (Fits : fits s (DSet t)).
  { split; [split; [|split]|split].
    - rewrite Et. apply Hs.
    - intros w Iw. destruct (Back w Iw) as (v & g & Iv & _ & E & ->). now apply (Sized v g Iv E).
    - intros w w' Iw Iw'. destruct (Back w Iw) as (v & g & Iv & _ & E & ->), (Back w' Iw') as (v' & g' & Iv' & _ & E' & ->). intros n Hn Hn'. destruct (Sized v g Iv E) as (_ & Z & _), (Sized v' g' Iv' E') as (_ & Z' & _). now rewrite Z, Z'.
    - intros n. now rewrite Et.
    - intros v w' Iv Iw'. destruct (Back w' Iw') as (v' & g' & Iv' & _ & E' & ->). intros n Hn Hn'. destruct (Sized v' g' Iv' E') as (_ & Z' & _). rewrite Z' by exact Hn'. symmetry. now apply set_size_of. }
  assert (Part : forall v, In v s -> exists g, f0 v = Ok g /\ its_part (fst v) (DSet t) = Labelled (to_xarr g)).
  { intros v Iv. destruct (get_var_name (fst v) t) as (y & Gy & Iy); [rewrite Et; apply in_map_iff; now exists v|]. destruct (Back _ Iy) as (v' & g & Iv' & Ef & E & Ey). cbn [fst snd] in Ef, Ey.
    assert (v' = v). { pose proof (get_var_In v s (proj1 Hs) Iv) as Q. pose proof (get_var_In v' s (proj1 Hs) Iv') as Q'. rewrite <- Ef in Q'. destruct v, v'. cbn in *. subst. congruence. }
    subst v'. exists g. split; [exact E|]. cbn [its_part]. now rewrite Gy, Ey. }
  assert (Nf' : new_free_in d rep (DSet t)).
  { intros n En Hn x Ix Q. cbn [arrays_of] in Ix. apply in_map_iff in Ix as (w & <- & Iw). destruct (Back w Iw) as (v & g & Iv & _ & E & Ex'). rewrite Ex' in Q. apply (Nf n En Hn v Iv). now apply (Sized v g Iv E). }
  pose proof (jackknife_given_set K P (DSet t) None rep md d to_end s Hs Hm Nd Fits Nf Nf' Ex) as J.
  set (r := ds_jackknife_data _ _ _ _ _ _ _ _ _) in *. clearbody r.
  assert (J' : each_variable (fun v => if has_names (d :: md) (snd v) then x_jackknife_data K P (params_for md) None rep Missing (Val d) to_end (snd v)
                       else Ok (renamed_grid d rep (passed (fun q => q) (if to_end then d :: md else x_dims (snd v)) (snd v)))) s r).
  { eapply each_ext; [|exact J]. intros v Iv. cbn beta. destruct (has_names (d :: md) (snd v)) eqn:S; [|reflexivity]. destruct (Part v Iv) as (g & E & Ep). unfold part_has. rewrite Ep. cbn [andb].
    rewrite (proj2 (has_names_In md (to_xarr g)) (proj2 (proj2 (proj2 (Sized v g Iv E))) S)). unfold f0 in E. rewrite S in E. unfold x_jackknife_data at 2. rewrite Str, E. reflexivity. }
  apply (regrouped_alone (fun q => q) s md d rep (set_size s d) to_end _ r Hs Hm Nd Nf J').
  - intros v Iv S. now rewrite S.
  - intros v g Iv S E. rewrite S in E. pose proof (jackknife_named K ok P HMA rep md Missing (Val d) d to_end (snd v) (Mw v Iv S) (named_chooses md d (snd v) S) Nd) as [H _]. cbv zeta in H.
    assert (F : free_name (snd v) d rep). { unfold free_name, renamed. destruct rep as [n|]; [|now left]. destruct (string_dec n d) as [->|D]; [now left|]. right. now apply (Nf n eq_refl D v). }
    specialize (H F). rewrite E in H. assert (Hd : In d (x_dims (snd v))) by (apply has_names_In in S; apply S; now left). rewrite <- (set_size_of s v d Hs Iv Hd) in H. eapply regrouped_sized; eauto.
  - intros w Iw Hd. right. symmetry. now apply set_size_of.
Qed.
