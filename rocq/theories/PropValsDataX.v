(* Moments of single labelled samples, by name. *)
From Coq Require Import String Permutation.
From Verif Require Import Base BaseLemmas ModelPush ModelKernels ModelIndex ModelAxes ModelState ModelParams ModelNd ModelWrap ModelLabel ModelMoments ModelMomentsX
  Spec SpecAxes SpecNd PropLabelled SpecLabel SpecMethodsX SpecMethods SpecMoments SpecMomentsX
  ProofAxes ProofArrays ProofNd ProofMethods PropParams ProofLabel ProofLabelMany PropLabelJack ProofMethodsX ProofMoments PropConvert PropMoments PropSelect PropAssign PropValsData ProofMomentsX PropMomentsX PropSelectX PropComomentsX PropAssignX PropNdVals PropLabelValsMore.
Local Open Scope string_scope.
Local Open Scope nat_scope.

Lemma names_params k asked out : k = 1 \/ k = 2 -> chosen_names k asked out -> x_factory false MPNone (Some (Z.of_nat k)) asked None OOther None = Ok (params_for out).
Proof.
  intros Hk (L & H). unfold x_factory. cbn [is_x_params as_mpdict set_ndim d_ndim d_dims d_axes setdefault kwarg]. unfold x_from_params, validate_mom_dims_and_mom_ndim, validate_dims_ndim_axes, validate_mom_ndim_and_mom_axes, validate_mom_dims, params_for.
  destruct H as [->|[[-> ->]|(d & -> & ->)]]; destruct Hk as [-> | ->]; try discriminate L; cbn - [Z.of_nat Z.eqb]; rewrite ?L; reflexivity.
Qed.
Lemma mom_validated ns : mom_positive ns -> validate_mom (IIter (map Z.of_nat ns)) = Ok (map Z.of_nat ns).
Proof.
  intros H. pose proof (mom_read ns H) as E. unfold array_factory_mom in E. destruct (validate_mom _) as [m|]; [|discriminate]. cbn [rbind] in E. f_equal.
  destruct (array_factory _ _ _) as [p|]; [|discriminate E]. cbn [rbind] in E. congruence.
Qed.
Lemma arrays_entries ns x w y loop : mom_positive ns -> S (List.length y) = List.length ns -> broadcasts (map tshape (x :: w :: y)) loop ->
  exists out, vals_to_data_arrays (map Z.of_nat ns) (axes_last (List.length ns)) x w y = Ok out /\ tensor_ok out /\ tshape out = (loop ++ map S ns)%list /\
    forall p m, valid loop p -> valid (map S ns) m -> tget out (p ++ m) = one_sample_moment (map (fun t => value_on t p) (x :: y)) (value_on w p) m.
Proof.
  intros H Ly HB. destruct (vals_to_data_entries ns x w y loop H Ly HB) as (out & E & R). exists out. split; [|exact R].
  unfold vals_to_data_nd in E. rewrite (mom_read ns H) in E. cbn [rbind iter_axes ap_axes] in E. rewrite axes_last_length, Ly, Nat.eqb_refl in E. exact E.
Qed.

(* ---- the common shape of the operands --------------------------------------------------------- *)
Section Operands.
  Context (os : list xop) (sz : sname -> nat).
  Let outer := met_dims os.
  Hypothesis F : Forall (lines_up [] [] outer sz) os.

  Lemma labelled_os : flat_map (fun o => match o with Labelled z => x_dims z | Plain _ => [] end) os = flat_map x_dims (labelled_of os).
  Proof. clear. induction os as [|[z|t] l IH]; cbn; [reflexivity|now rewrite IH|exact IH]. Qed.
  Lemma met_In n : In n outer <-> exists z, In (Labelled z) os /\ In n (x_dims z).
  Proof.
    unfold outer, met_dims. rewrite <- in_rev, nodup_In, <- in_rev, in_flat_map. split.
    - intros ([z|t] & Ho & Hn); [eauto|destruct Hn].
    - intros (z & Hz & Hn). exists (Labelled z). auto.
  Qed.
  Lemma met_NoDup : NoDup outer.
  Proof. apply NoDup_rev, NoDup_nodup. Qed.
  (* a dimension of an operand has its full length in its array *)
  Lemma dim_covered z t i : In (Labelled z) os -> broadcast_compat outer [] z = Ok t -> i < List.length outer -> In (nth i outer "") (x_dims z) ->
    exists j, i = List.length outer - List.length (tshape t) + j /\ j < List.length (tshape t) /\ List.length (tshape t) <= List.length outer /\ nth j (tshape t) 1 = sz (nth i outer "").
  Proof.
    intros Hz Et Hi Hn. rewrite Forall_forall in F. destruct (F _ Hz) as (H1 & _ & H2 & H3 & _). rewrite app_nil_r in H2.
    destruct (broadcast_placed z outer [] H1) as (t' & E' & _ & Sh & _); [rewrite app_nil_r; apply met_NoDup|now rewrite app_nil_r|intros n []|].
    rewrite Et in E'. injection E' as <-. rewrite app_nil_r in Sh. destruct (trim_spec (x_dims z) outer) as (pre & Ep & Hp). set (tr := trim (x_dims z) outer) in *.
    assert (Ls : List.length (tshape t) = List.length tr) by (rewrite Sh; apply map_length). assert (Lo : List.length outer = List.length pre + List.length tr) by (rewrite Ep at 1; apply app_length).
    assert (Ge : List.length pre <= i). { destruct (Nat.lt_ge_cases i (List.length pre)) as [C|C]; [|exact C]. exfalso. apply (Hp (nth i outer "")); [|exact Hn]. rewrite Ep. rewrite app_nth1 by exact C. now apply nth_In. }
    exists (i - List.length pre). rewrite Ls. split; [lia|]. split; [lia|]. split; [lia|]. rewrite Sh. rewrite (nth_indep _ 1 (sizes_of z "")) by (rewrite map_length; lia). rewrite map_nth.
    assert (En : nth (i - List.length pre) tr "" = nth i outer "") by (rewrite Ep; now rewrite app_nth2 by exact Ge). rewrite En. unfold sizes_of. pose proof Hn as Hn'. apply smem_In in Hn'. rewrite Hn'.
    apply H3; [exact Hn|now apply nth_In].
  Qed.
  Lemma from_end_nth l k : k < List.length l -> from_end l k = nth (List.length l - S k) l 1.
  Proof. intros H. unfold from_end. now rewrite rev_nth. Qed.
  Lemma operands_broadcast ts : mapR (fun a : xop * list sname => match fst a with Labelled z => broadcast_compat outer (snd a) z | Plain t => Ok t end) (map (fun o => (o, [])) os) = Ok ts ->
    (forall t, In t ts -> fits_shape (tshape t) (map sz outer)) -> os <> [] -> broadcasts (map tshape ts) (map sz outer).
  Proof.
    intros E Fit Ne. assert (G : forall z, In (Labelled z) os -> exists t, In t ts /\ broadcast_compat outer [] z = Ok t).
    { clear - E. revert ts E. generalize outer as ou. intros ou. induction os as [|o l IH]; intros ts E z Hz; [destruct Hz|]. cbn [map mapR fst snd] in E. destruct (match o with Labelled z0 => _ | Plain t => _ end) as [t|] eqn:Et; [|discriminate]. cbn [rbind] in E.
      destruct (mapR _ _) as [ts'|] eqn:Er; [|discriminate]. cbn [rbind] in E. injection E as <-. destruct Hz as [->|Hz]; [exists t; split; [now left|exact Et]|]. destruct (IH ts' eq_refl z Hz) as (t' & I & E'). exists t'. split; [now right|exact E']. }
    split; [|split].
    - intros s Hs. apply in_map_iff in Hs. destruct Hs as (t & <- & Ht). apply (Fit t Ht). now left.
    - destruct outer as [|n0 r] eqn:Eo; [now left|right]. assert (I0 : In n0 outer) by (rewrite Eo; now left). apply met_In in I0. destruct I0 as (z & Hz & Hn). destruct (G z Hz) as (t & Ht & Et). rewrite <- Eo in *.
      destruct (dim_covered z t 0 Hz Et) as (j & J1 & J2 & J3 & _); [rewrite Eo; cbn; lia|rewrite Eo; exact Hn|]. exists (tshape t). split; [now apply in_map|]. rewrite map_length. lia.
    - intros k Hk. rewrite map_length in Hk. split.
      + intros s Hs. apply in_map_iff in Hs. destruct Hs as (t & <- & Ht). apply (Fit t Ht); [now rewrite map_length|now left].
      + right. set (i := List.length outer - S k). assert (Hi : i < List.length outer) by (unfold i; lia). assert (I0 : In (nth i outer "") outer) by now apply nth_In. apply met_In in I0. destruct I0 as (z & Hz & Hn). destruct (G z Hz) as (t & Ht & Et).
        destruct (dim_covered z t i Hz Et Hi Hn) as (j & J1 & J2 & J3 & J4). exists (tshape t). split; [now apply in_map|]. rewrite from_end_nth by (unfold i in J1; lia). rewrite from_end_nth by (now rewrite map_length).
        rewrite map_length. fold i. rewrite (nth_indep (map sz outer) 1 (sz "")) by (now rewrite map_length). rewrite map_nth, <- J4. f_equal. unfold i in J1. lia.
  Qed.
End Operands.

Lemma except_nothing l : except_name l [] = l.
Proof. apply (except_none string_dec). intros n _ []. Qed.

(* ---- C147: moments of single samples --------------------------------------------------------- *)

(* one sample per position of the dimensions met in x, the weight and the values: weight,
   averages, zeros; the moment dimensions come last *)
Theorem vals_to_data_named : forall ns asked md x w y sz, mom_positive ns -> S (List.length y) = List.length ns -> chosen_names (List.length ns) asked md -> NoDup md ->
  let os := Labelled x :: w :: y in let outer := met_dims os in (forall n, In n md -> ~ In n outer) -> Forall (lines_up [] [] outer sz) os ->
  result_is (outer ++ md) (sizes_with md (map S ns) sz)
    (fun env => one_sample_moment (map (fun o => operand_at [] outer o env []) (Labelled x :: y)) (operand_at [] outer w env []) (map env md))
    (x_vals_to_data (IIter (map Z.of_nat ns)) MPNone asked x w y).
Proof.
  intros ns asked md x w y sz Hn Ly HC Nm os outer Nmo F. pose proof HC as (Lmd & _). assert (L12 : List.length ns = 1 \/ List.length ns = 2) by apply Hn.
  unfold x_vals_to_data. rewrite (mom_validated ns Hn). cbn [rbind]. rewrite map_length, (names_params (List.length ns) asked md L12 HC). cbn [rbind].
  destruct (moments_params md) as (Ed & Ea); [now rewrite Lmd|]. rewrite Ed. cbn [rbind]. rewrite Ea. cbn [rbind params_for xp_ndim]. rewrite Ly, Lmd, Z.eqb_refl. cbn [negb]. fold os.
  assert (No : NoDup (outer ++ [])) by (rewrite app_nil_r; apply met_NoDup).
  destruct (operands_tensors [] [] outer sz os F No eq_refl) as (l & El & Fl).
  assert (Fit : forall t, In t (map fst l) -> fits_shape (tshape t) (map sz outer)).
  { intros t Ht. apply in_map_iff in Ht. destruct Ht as ([t' sd] & <- & Hq). revert Fl Hq; clear; generalize outer; intros ot Fl Hq. induction Fl as [|q o l os (E1 & E2 & _) Fl IH]; [destruct Hq|]. destruct Hq as [->|Hq]; [|now apply IH]. cbn [fst snd] in *. now rewrite E1, app_nil_r. }
  pose proof (operands_broadcast os sz F (map fst l) El Fit ltac:(discriminate)) as HB. fold outer in HB.
  assert (Ld : exists tx tw ty, map fst l = tx :: tw :: ty /\ List.length ty = List.length y). { assert (LL : List.length (map fst l) = S (S (List.length y))) by (rewrite map_length; clear - Fl; change (S (S (List.length y))) with (List.length os); induction Fl; cbn; congruence). destruct (map fst l) as [|tx [|tw ty]]; cbn in LL; try lia. exists tx, tw, ty. split; [reflexivity|lia]. }
  destruct Ld as (tx & tw & ty & Et & Lt). rewrite Et in HB. destruct (arrays_entries ns tx tw ty (map sz outer) Hn) as (out & Eo & To & So & G); [congruence|exact HB|].
  assert (OD : outer_dims [] (flat_map snd (map (fun o : xop => (o, @nil sname)) os) ++ md) (labelled_of (map fst (map (fun o : xop => (o, @nil sname)) os))) = outer).
  { unfold outer_dims. rewrite map_map, map_id. assert (Q : flat_map snd (map (fun o : xop => (o, @nil sname)) os) = []) by (clear; induction os; cbn; auto). rewrite Q. cbn [app]. rewrite except_nothing, <- labelled_os.
    change (first_seen (flat_map (fun o => match o with Labelled z => x_dims z | Plain _ => [] end) os)) with outer. apply (except_none string_dec). intros n Hq C. now apply (Nmo n C). }
  assert (Run : x_apply (map (fun o => (o, [])) os) md (fun ts => vals_to_data_arrays (map Z.of_nat ns) (axes_last (List.length ns)) (arg 0 ts) (arg 1 ts) (skipn 2 ts)) = Ok (LG (outer ++ md) (to_grid out))).
  { unfold x_apply. rewrite (apply_ufunc_eq _ _ _ _ sz (map fst l)).
    - rewrite OD, Et. cbn [arg nth skipn]. unfold arg. cbn [nth]. rewrite Eo. reflexivity.
    - rewrite map_map, map_id. intros z Hz. assert (Iz : In (Labelled z) os). { clear - Hz. unfold labelled_of in Hz. apply in_flat_map in Hz. destruct Hz as ([z'|t] & Ho & Hz); [|destruct Hz]. destruct Hz as [->|[]]. exact Ho. }
      rewrite Forall_forall in F. destruct (F _ Iz) as (H1 & _ & H2 & H3 & _). rewrite app_nil_r in H2. split; [exact H1|]. intros n Hz' _. apply H3; [exact Hz'|now apply H2].
    - rewrite OD. exact El.
    - rewrite OD, Et. unfold arg. cbn [nth skipn]. rewrite Eo. cbn [rmap rbind]. intros g Eg. injection Eg as <-. change (gshape (to_grid out)) with (tshape out). rewrite So. split; [rewrite !app_length, !map_length; lia|].
      intros n k Hk _ Hq. assert (Iq : In n outer). { rewrite map_map, map_id, <- labelled_os in Hq. unfold outer, met_dims. rewrite <- in_rev, nodup_In, <- in_rev. exact Hq. }
      assert (So' : (map sz outer ++ map S ns)%list = map (sizes_with md (map S ns) sz) (outer ++ md)).
      { rewrite map_app. f_equal; [apply map_ext_in; intros m Hm; symmetry; unfold sizes_with; apply name_bind_out; intros C; now apply (Nmo m C)|]. symmetry. unfold sizes_with. apply map_name_bind; [exact Nm|rewrite map_length; now symmetry]. }
      rewrite So' in Hk. apply in_combine_map in Hk. destruct Hk as [_ ->]. unfold sizes_with. apply name_bind_out. intros C. now apply (Nmo n C). }
  rewrite Run. cbn [rmap rbind]. eexists. split; [reflexivity|].
  assert (NN : NoDup (outer ++ md)). { apply NoDup_app_iff. rewrite app_nil_r in No. split; [exact No|]. split; [exact Nm|]. intros n Hq C. now apply (Nmo n C). }
  set (osz := sizes_with md (map S ns) sz).
  assert (Mo : map osz outer = map sz outer) by (apply map_ext_in; intros m Hm; unfold osz, sizes_with; apply name_bind_out; intros C; now apply (Nmo m C)).
  assert (Mm : map osz md = map S ns) by (unfold osz, sizes_with; apply map_name_bind; [exact Nm|rewrite map_length; now symmetry]).
  assert (LN : l_named osz (outer ++ md) (LG (outer ++ md) (to_grid out))) by (split; [reflexivity|split; [exact To|]]; change (gshape (lg_val (LG (outer ++ md) (to_grid out)))) with (tshape out); rewrite So, map_app, Mo, Mm; reflexivity).
  destruct (to_xarr_named _ _ _ LN NN) as (A & B & C). split; [exact A|]. split; [exact B|]. split; [exact C|].
  intros env He. apply env_split in He. destruct He as [He Vm]. rewrite Mm in Vm. assert (He' : inside_names sz outer env). { intros n Hq. specialize (He n Hq). unfold osz, sizes_with in He. rewrite name_bind_out in He; [exact He|]. intros D. now apply (Nmo n D). }
  assert (V : map (fun t => value_on t (map env outer)) (map fst l) = map (fun o => operand_at [] outer o env []) os).
  { revert Fl He'; clear; generalize outer; intros ot Fl He. induction Fl as [|q o l os (E1 & _ & E3) Fl IH]; [reflexivity|]. cbn [map]. f_equal; [|exact IH]. rewrite <- (E3 env [] He ltac:(constructor)), app_nil_r. unfold value_on. now rewrite E1, app_nil_r. }
  rewrite Et in V. unfold os in V. cbn [map] in V. injection V as Vx Vw Vy.
  unfold x_at. rewrite B, map_app. assert (G' := G (map env outer) (map env md) (inside_names_valid _ _ _ He') Vm). cbn [map] in G' |- *. fold outer. rewrite Vx, Vw, Vy in G'. exact G'.
Qed.

(* as many sets of values as moment dimensions *)
Theorem vals_to_data_named_count : forall ns asked md x w y, mom_positive ns -> S (List.length y) <> List.length ns -> chosen_names (List.length ns) asked md ->
  x_vals_to_data (IIter (map Z.of_nat ns)) MPNone asked x w y = Raise EValue.
Proof.
  intros ns asked md x w y Hn Ly HC. pose proof HC as (Lmd & _). assert (L12 : List.length ns = 1 \/ List.length ns = 2) by apply Hn.
  unfold x_vals_to_data. rewrite (mom_validated ns Hn). cbn [rbind]. rewrite map_length, (names_params (List.length ns) asked md L12 HC). cbn [rbind].
  destruct (moments_params md) as (Ed & Ea); [now rewrite Lmd|]. rewrite Ed. cbn [rbind]. rewrite Ea. cbn [rbind params_for xp_ndim]. destruct (Z.eqb_spec (Z.of_nat (S (List.length y))) (Z.of_nat (List.length md))) as [E|_]; [|reflexivity]. exfalso. lia.
Qed.
(* a name for a moment dimension that some operand already has, or a dimension with
   two sizes *)
Theorem vals_to_data_named_refused : forall ns asked md x w y, mom_positive ns -> chosen_names (List.length ns) asked md ->
  (exists z n, In (Labelled z) (Labelled x :: w :: y) /\ In n md /\ In n (x_dims z)) \/
  (exists z z' n, In (Labelled z) (Labelled x :: w :: y) /\ In (Labelled z') (Labelled x :: w :: y) /\ x_ok z /\ x_ok z' /\ In n (x_dims z) /\ In n (x_dims z') /\ dim_size z n <> dim_size z' n) ->
  argument_error (x_vals_to_data (IIter (map Z.of_nat ns)) MPNone asked x w y).
Proof.
  intros ns asked md x w y Hn HC H. destruct (Nat.eq_dec (S (List.length y)) (List.length ns)) as [Ly|Ly]; [|left; now apply (vals_to_data_named_count ns asked md)].
  pose proof HC as (Lmd & _). assert (L12 : List.length ns = 1 \/ List.length ns = 2) by apply Hn.
  unfold x_vals_to_data. rewrite (mom_validated ns Hn). cbn [rbind]. rewrite map_length, (names_params (List.length ns) asked md L12 HC). cbn [rbind].
  destruct (moments_params md) as (Ed & Ea); [now rewrite Lmd|]. rewrite Ed. cbn [rbind]. rewrite Ea. cbn [rbind params_for xp_ndim]. rewrite Ly, Lmd, Z.eqb_refl. cbn [negb].
  apply argument_error_bind. unfold x_apply. generalize dependent (Labelled x :: w :: y). intros os H. destruct H as [(z & n & I1 & I2 & I3)|(z & z' & n & I1 & I2 & H1 & H2 & I3 & I4 & Ne)].
  - apply (apply_ufunc_misfit _ _ _ _ z [] n); [apply in_map_iff; now exists (Labelled z)|]. right. split; [exact I3|]. split; [intros []|]. apply in_or_app. now right.
  - left. apply (apply_ufunc_conflict _ _ _ _ z z' n); try assumption; try (intros []); rewrite map_map, map_id; unfold labelled_of; apply in_flat_map; [exists (Labelled z)|exists (Labelled z')]; (split; [assumption|now left]).
Qed.
