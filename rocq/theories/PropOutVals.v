(* C150: out= of the functions of values. *)
From Coq Require Import String Permutation.
From Verif Require Import Base BaseLemmas ModelPush ModelKernels ModelIndex ModelAxes ModelState ModelParams ModelWrap ModelNd ModelLabel ModelMoments ModelMomentsX ModelOut Spec SpecAxes SpecNd SpecLabel SpecLabelTwo SpecMomentsX SpecOut.
From Verif Require Import ProofAxes ProofArrays ProofNd PropAxes PropParams PropLabelled PropNdUse ProofLabel PropLabelReduce PropLabelJack PropLabelVals ProofMomentsX ProofOut PropOut.
Local Open Scope string_scope.
Local Open Scope nat_scope.

(* moving one axis in front of m moment axes *)
Lemma one_view nd m a : a < nd -> view_axes (Some ([positive_to_negative_index (Z.of_nat a) (Z.of_nat nd) - Z.of_nat m], [- (Z.of_nat m + 1)])%Z) (nd + m) =
  Ok (except_nat (seq 0 nd) [a] ++ a :: seq nd m)%list.
Proof.
  intros Ha. cbn [view_axes]. set (vo := (except_nat (seq 0 nd) [a] ++ a :: seq nd m)%list).
  assert (Pn : positive_to_negative_index (Z.of_nat a) (Z.of_nat nd) = (Z.of_nat a - Z.of_nat nd)%Z) by (unfold positive_to_negative_index; destruct (Z.ltb_spec (Z.of_nat a) 0); lia). rewrite Pn.
  destruct (moveaxis_order_spec (nd + m) [Z.of_nat a - Z.of_nat nd - Z.of_nat m]%Z [- (Z.of_nat m + 1)]%Z [a] [nd - 1]) as (o & E & Mo).
  - constructor; [|constructor]. split; [lia|right; lia].
  - constructor; [|constructor]. split; [lia|right; lia].
  - constructor; [intros []|constructor].
  - constructor; [intros []|constructor].
  - reflexivity.
  - rewrite E. f_equal. apply (moves_unique (nd + m) [a] [nd - 1]); [constructor; [intros []|constructor]|intros b [<-|[]]; lia|exact Mo|].
    assert (Ie : forall b, In b (except_nat (seq 0 nd) [a]) <-> b < nd /\ b <> a).
    { intros b. rewrite except_In, in_seq. cbn. split; [intros [H1 H2]; split; [lia|intros ->; tauto]|intros [H1 H2]; split; [lia|intros [Q|[]]; congruence]]. }
    assert (Le : List.length (except_nat (seq 0 nd) [a]) = nd - 1).
    { pose proof (except_length (seq 0 nd) [a] (seq_NoDup _ _)) as L. rewrite seq_length in L. cbn [List.length] in L. specialize (L ltac:(constructor; [intros []|constructor]) ltac:(intros b [<-|[]]; apply in_seq; lia)). lia. }
    split; [|split].
    + apply NoDup_Permutation; [|apply seq_NoDup|].
      * unfold vo. apply NoDup_app_iff. split; [apply NoDup_filter, seq_NoDup|]. split; [constructor; [rewrite in_seq; lia|apply seq_NoDup]|]. intros b Hb. apply Ie in Hb. intros [<-|Q]; [tauto|]. apply in_seq in Q. lia.
      * intros b. unfold vo. rewrite in_app_iff, Ie. cbn [In]. rewrite !in_seq. lia.
    + constructor; [|constructor]. unfold vo. rewrite nth_error_app2 by lia. now rewrite Le, Nat.sub_diag.
    + unfold vo. rewrite seq_app, !except_app. rewrite except_none; [|intros b Hb; apply Ie in Hb; intros [Q|[]]; lia]. f_equal. unfold except. cbn [filter]. destruct (in_dec Nat.eq_dec a [a]) as [_|Q]; [reflexivity|elim Q; now left].
Qed.

Section Values.
  Context {T : Type} (dflt : T) (x : xarr) (md : list sname) (d rd : sname) (axis : marg axis_arg) (dim : marg sname).
  Let dims := x_dims x.
  Let outer := except_name dims [d].
  Let rep := fun n => if String.eqb n d then rd else n.
  Let Dx := (map rep dims ++ md)%list.
  Hypothesis HX : x_ok x.
  Hypothesis NM : NoDup md.
  Hypothesis DM : forall n, In n md -> ~ In n dims.
  Hypothesis HC : chooses 0 axis dim d x.
  Hypothesis HR : rd = d \/ ~ In rd dims.
  Hypothesis RM : ~ In rd md.

  Let Nx : NoDup dims.
  Proof. apply HX. Qed.
  Let Id : In d dims.
  Proof. exact (chooses_dim _ _ _ _ _ HC). Qed.
  Let inj : forall a b, In a dims -> In b dims -> rep a = rep b -> a = b.
  Proof. intros a b Ha Hb. unfold rep. destruct (String.eqb_spec a d) as [->|], (String.eqb_spec b d) as [->|]; try congruence; intros E; subst; destruct HR; congruence. Qed.
  Let InR n : In n (map rep dims) <-> n = rd \/ (In n dims /\ n <> d).
  Proof.
    rewrite in_map_iff. unfold rep. split.
    - intros (m & <- & Hm). destruct (String.eqb_spec m d); auto.
    - intros [->|[H1 H2]]; [exists d; rewrite String.eqb_refl; auto|]. exists n. destruct (String.eqb_spec n d); tauto.
  Qed.
  Lemma vals_NoDup : NoDup Dx.
  Proof.
    unfold Dx. apply NoDup_app_iff. split; [now apply NoDup_map_in|]. split; [exact NM|]. intros n Hn Q. apply InR in Hn. destruct Hn as [->|[Hn _]]; [tauto|]. exact (DM n Q Hn).
  Qed.
  Lemma vals_calc_NoDup : NoDup (outer ++ rd :: md).
  Proof.
    apply NoDup_app_iff. split; [now apply NoDup_filter|]. split; [now constructor|]. intros n Hn. apply except_name_In in Hn. destruct Hn as [Hn Q]. intros [<-|X]; [|exact (DM n X Hn)]. destruct HR as [->|H]; [apply Q; now left|tauto].
  Qed.
  Lemma vals_same n : In n Dx <-> In n (outer ++ rd :: md).
  Proof.
    unfold Dx, outer. rewrite !in_app_iff, InR, except_name_In. cbn [In]. split.
    - intros [[->|[H1 H2]]|H]; auto. left. split; [exact H1|]. intros [Q|[]]. congruence.
    - intros [[H1 H2]|[->|H]]; auto. left. right. split; [exact H1|]. intros ->. tauto.
  Qed.
  Lemma vals_chosen : chosen_axis default_x_params axis dim x = Ok (position String.eqb d dims, d).
  Proof.
    unfold chosen_axis. apply select_axis_dim_exact; [exact Nx|]. destruct (pos_lt _ _ Id) as [P1 P2]. split; [rewrite <- P2 at 2; now apply nth_error_nth'|]. split; [right; intros []|].
    destruct HC as [(H1 & H2 & _)|(H1 & ax & a & H2 & H3 & H4)]; [right; auto|]. left. exists ax. split; [exact H2|]. split; [exact H1|]. rewrite (PropLabelVals.position_nth _ a d Nx H4). exact H3.
  Qed.
  Lemma vals_view : exists moves vo, rbind (chosen_axis default_x_params axis dim x) (fun '(_, d) => moves_vals (params_for md) d false x) = Ok moves /\
    view_axes moves (List.length Dx) = Ok vo /\ map (fun a => nth a Dx "") vo = (outer ++ rd :: md)%list.
  Proof.
    destruct (pos_lt _ _ Id) as [P1 P2]. set (a := position String.eqb d dims) in *.
    eexists. exists (except_nat (seq 0 (List.length dims)) [a] ++ a :: seq (List.length dims) (List.length md))%list. split; [|split].
    - rewrite vals_chosen. cbn [rbind]. unfold moves_vals, get_axis_num. fold dims. assert (S : smem d dims = true) by now apply smem_In. rewrite S. cbn [rbind params_for xp_ndim of_opt]. reflexivity.
    - fold dims. fold a. unfold Dx. rewrite app_length, map_length. now apply one_view.
    - assert (Nd : forall k, k < List.length dims -> nth k Dx "" = rep (nth k dims "")).
      { intros k Hk. unfold Dx. rewrite app_nth1 by (now rewrite map_length). rewrite (nth_indep _ "" (rep "")) by (now rewrite map_length). apply map_nth. }
      rewrite map_app. cbn [map]. f_equal; [|f_equal].
      + pose proof (except_positions dims [d] Nx ltac:(intros n [<-|[]]; exact Id)) as X. cbn [map] in X. fold a in X. unfold outer. rewrite <- X. apply map_ext_in. intros k Hk. apply except_In in Hk. destruct Hk as [Hk Q]. apply in_seq in Hk. rewrite Nd by lia.
        unfold rep. destruct (String.eqb_spec (nth k dims "") d) as [E|]; [|reflexivity]. exfalso. apply Q. left. rewrite <- P2 in E. symmetry. apply (proj1 (NoDup_nth dims "") Nx); auto; lia.
      + rewrite Nd by exact P1. rewrite P2. unfold rep. now rewrite String.eqb_refl.
      + transitivity (map (fun k => nth k md "") (seq 0 (List.length md))); [|apply map_nth_dims]. rewrite (map_seq_shift _ (List.length dims)). apply map_ext. intros k. unfold Dx. rewrite app_nth2 by (rewrite map_length; lia). f_equal. rewrite map_length. lia.
  Qed.
  Lemma vals_back : forall g sz, l_named sz (outer ++ rd :: md) g ->
    exists y, transpose_like dflt dims rep [] md g = Ok y /\ l_named sz Dx y /\ forall env, inside_names sz (outer ++ rd :: md) env -> l_at dflt y env = l_at dflt g env.
  Proof.
    intros g sz Ng. pose proof vals_calc_NoDup as N.
    assert (FL : filter (fun n => smem n (outer ++ rd :: md)) (map rep (except_name dims []) ++ md) = Dx).
    { unfold except at 1. rewrite (filter_all _ dims) by (intros; reflexivity). apply filter_all. intros n Hn. now apply smem_In, vals_same. }
    destruct (transpose_like_ok dflt dims rep [] md sz (outer ++ rd :: md) g Ng N) as (g' & E & G' & F); [cbv zeta; rewrite FL; exact vals_NoDup|].
    cbv zeta in G'. rewrite FL in G'. exists g'. split; [exact E|]. split; [|exact F].
    assert (X : except_name (outer ++ rd :: md) Dx = []) by (apply filter_none; intros n Hn; apply vals_same in Hn; destruct (in_dec _ n Dx); tauto). rewrite X in G'. exact G'.
  Qed.
  (* a function of the form: calculate; put the axes back; rename *)
  Lemma vals_fills (G : res (lgrid T)) new to_end (F : bool -> res (lgrid T)) :
    (forall g, G = Ok g -> lg_dims g = (outer ++ rd :: md)%list /\ List.length (gshape (lg_val g)) = List.length (lg_dims g) /\ grid_ok (lg_val g)) ->
    (forall b, F b = rbind G (fun g => rbind (finish_values dflt b x rep md g) (opt_rename d new))) ->
    fills (F to_end) (fun out => along_vals_out dflt (params_for md) axis dim to_end x out (F true)).
  Proof.
    intros HG HF y Ey out. unfold along_vals_out.
    assert (RV : forall g z, opt_rename d new g = Ok z -> @lg_val T z = lg_val g).
    { intros g z. unfold opt_rename, l_rename. destruct new as [n|]; [|now intros [= <-]]. destruct (_ && _)%bool; [discriminate|]. now intros [= <-]. }
    rewrite HF in Ey. destruct G as [g|] eqn:EG; [|discriminate]. cbn [rbind] in Ey. destruct (HG g eq_refl) as (Dg & Lg & Gg).
    destruct to_end.
    - cbn [rbind finish_values] in Ey. rewrite HF. cbn [rbind finish_values]. rewrite Ey. pose proof (RV _ _ Ey) as V. rewrite vals_chosen. cbn [rbind moves_vals]. apply plain_fills. now rewrite V.
    - destruct vals_view as (moves & vo & -> & Ev & Em). destruct (shaped_named (outer ++ rd :: md) g vals_calc_NoDup Dg Gg) as (sz & Ng); [now rewrite Lg, Dg|].
      destruct (vals_back g sz Ng) as (y0 & E0 & N0 & A0). unfold finish_values in Ey. fold dims in Ey. rewrite E0 in Ey. cbn [rbind] in Ey.
      assert (RG : exists z, opt_rename d new g = Ok z).
      { revert Ey. unfold opt_rename, l_rename. destruct new as [n|]; [|eauto]. destruct (String.eqb_spec d n) as [->|Q]; cbn [negb andb]; [eauto|].
        destruct (smem n (lg_dims y0)) eqn:S; [discriminate|]. intros _. apply smem_false in S. assert (S' : smem n (lg_dims g) = false).
        { apply smem_false. intros X. apply S. rewrite Dg in X. rewrite (proj1 N0). now apply vals_same. }
        rewrite S'. eauto. }
      destruct RG as (z & Ez). rewrite HF. cbn [rbind finish_values]. rewrite Ez. rewrite (RV _ _ Ey). pose proof (RV _ _ Ez) as Vz.
      pose proof (view_fills dflt sz _ Dx g y0 _ vo vals_NoDup Ng N0 A0 Ev Em out) as VF. unfold with_out in *. cbn [rbind] in *. rewrite Vz. exact VF.
  Qed.
  (* what apply_ufunc gives *)
  Lemma vals_calc (others : list xop) (more : list (xop * list sname)) (f : list tensor -> res (grid T)) oc : (oc = rd :: md \/ oc = md) ->
    Forall (no_new_names dims) others -> Forall (fun o => no_new_names (rd :: md ++ dims) (fst o)) more -> incl (flat_map snd more) (rd :: d :: md) ->
    (forall n, In n (flat_map x_dims (labelled_of (map fst more))) -> In n dims \/ In n (flat_map snd more ++ oc)) ->
    (forall ts g, f ts = Ok g -> grid_ok g) ->
    forall g, apply_ufunc (values_args d x others ++ more) oc [] f = Ok g ->
      lg_dims g = (outer ++ oc)%list /\ List.length (gshape (lg_val g)) = List.length (lg_dims g) /\ grid_ok (lg_val g).
  Proof.
    intros Hoc HO HMo IO ID W g E.
    assert (EL : labelled_of (map fst (values_args d x others ++ more)) = x :: labelled_of others ++ labelled_of (map fst more)).
    { unfold values_args. rewrite map_app, map_map. cbn [map fst]. rewrite map_id. unfold labelled_of. cbn [app flat_map]. now rewrite flat_map_app. }
    assert (OO : forall z, In z (labelled_of others) -> x_ok z /\ incl (x_dims z) dims).
    { clear - HO. induction HO as [|o l H HO IH]; [intros z []|]. intros z Hz. destruct o as [y|t]; cbn in Hz; [destruct Hz as [<-|Hz]|]; auto. }
    assert (OM : forall z, In z (labelled_of (map fst more)) -> x_ok z).
    { clear - HMo. induction HMo as [|o l H HO IH]; [intros z []|]. intros z Hz. destruct o as [[y|t] c]; cbn in Hz, H; [destruct Hz as [<-|Hz]|]; auto. apply H. }
    assert (EC : forall n, In n (flat_map snd (values_args d x others)) <-> n = d).
    { intros n. unfold values_args. cbn [map flat_map snd app In]. split; [|auto]. intros [<-|H]; [reflexivity|]. apply in_flat_map in H. destruct H as ([o c] & H1 & H2). apply in_map_iff in H1. destruct H1 as (o' & [= <- <-] & _). destruct H2 as [<-|[]]. reflexivity. }
    apply apply_ufunc_dims in E.
    2: { rewrite EL. constructor; [exact HX|]. apply Forall_app. split; apply Forall_forall; [intros z Hz; now apply OO|exact OM]. }
    destruct E as (E & L & ts & Fg). split; [|split; [exact L|exact (W _ _ Fg)]]. rewrite E. f_equal. rewrite EL, outer_first.
    - apply except_ext. intros n Hn. fold dims in Hn. rewrite flat_map_app, !in_app_iff, EC. split.
      + intros [[->|Q]|Q]; [now left| |].
        * apply IO in Q. destruct Q as [<-|[<-|Q]]; [destruct HR as [->|H]; [now left|tauto]|now left|elim (DM n Q Hn)].
        * destruct Hoc as [-> | ->]; [destruct Q as [<-|Q]; [destruct HR as [->|H]; [now left|tauto]|elim (DM n Q Hn)]|elim (DM n Q Hn)].
      + intros [<-|[]]. auto.
    - exact Nx.
    - intros n [].
    - intros n Hn. rewrite flat_map_app in Hn. apply in_app_or in Hn. destruct Hn as [Hn|Hn].
      + left. apply in_flat_map in Hn. destruct Hn as (z & Hz & Hn). apply (OO z Hz). exact Hn.
      + apply ID in Hn. destruct Hn as [Hn|Hn]; [now left|right]. rewrite flat_map_app, !in_app_iff in *. tauto.
  Qed.
End Values.

Section ValueFunctions.
  Context {A V : Type} (K : pusher A V) (P : packer A) (R : reader V) (x : xarr) (md : list sname) (d : sname) (axis : marg axis_arg) (dim : marg sname) (w : xop) (y : list xop).
  Let dims := x_dims x.
  Hypothesis HX : x_ok x.
  Hypothesis NM : NoDup md.
  Hypothesis LM : List.length md = 1 \/ List.length md = 2.
  Hypothesis DM : forall n, In n md -> ~ In n dims.
  Hypothesis HC : chooses 0 axis dim d x.
  Hypothesis HO : Forall (no_new_names dims) (w :: y).

  Let Id : In d dims.
  Proof. exact (chooses_dim _ _ _ _ _ HC). Qed.
  Let Dd : ~ In d md.
  Proof. intros Q. exact (DM d Q Id). Qed.
  Lemma prepared_names n others : Forall (no_new_names dims) others -> (exists e, xprepare_values n axis dim x others = Raise e) \/
    exists others', xprepare_values n axis dim x others = Ok (d, others') /\ Forall (no_new_names dims) others'.
  Proof.
    intros F. unfold xprepare_values. destruct (negb _); [eauto|]. assert (C : select_axis_dim default_x_params (XArr (x_dims x)) axis dim Missing Missing false = Ok (position String.eqb d dims, d)) by (apply vals_chosen; assumption).
    rewrite C. cbn [rbind]. destruct (sizes _ _ _); [|left; eexists; reflexivity]. cbn [rbind]. destruct (mapR _ others) as [o|] eqn:E; [|left; eexists; reflexivity]. cbn [rbind]. right. exists o. split; [reflexivity|].
    apply mapR_Forall2 in E. clear - E F. induction E as [|u v l l' Hab E IH]; [constructor|]. inversion F; subst. constructor; [|auto]. destruct u; [now injection Hab as <-|]. apply rmap_inv in Hab. destruct Hab as (q & _ & ->). exact I.
  Qed.
  Lemma finish_plain {T} (dflt : T) b g : finish_values dflt b x (fun n => n) md g = finish_values dflt b x (fun n => if String.eqb n d then d else n) md g.
  Proof. unfold finish_values. destruct b; [reflexivity|]. unfold transpose_like. rewrite (map_ext (fun n => if String.eqb n d then d else n) (fun n => n)) by (intros n; destruct (String.eqb_spec n d); congruence). reflexivity. Qed.

  Lemma reduce_vals_at : fills (x_reduce_vals K P R (params_for md) axis dim x w y) (x_reduce_vals_into K P R (params_for md) axis dim x w y).
  Proof.
    intros g E out. unfold x_reduce_vals_into. rewrite E. apply plain_fills. unfold x_reduce_vals in E.
    destruct (prepared_names (S (mom_ndim P)) (w :: y) HO) as [(e & X)|(o & X & Fo)]; rewrite X in E; [discriminate|]. cbn [rbind iter_dims params_for xp_dims] in E.
    unfold apply_ufunc in E. destruct (unified_dim_sizes _ _); [|discriminate]. cbn [rbind] in E. destruct (mapR _ _) as [ts|]; [|discriminate]. cbn [rbind] in E.
    destruct (call_values _ ts) as [r|] eqn:Er; [|discriminate]. cbn [rbind] in E. destruct (negb _); [discriminate|]. destruct (existsb _ _); [discriminate|]. injection E as <-. cbn [lg_val].
    unfold call_values in Er. destruct ts as [|t1 [|t2 ts]]; try discriminate. exact (reduce_vals_whole _ _ _ _ _ _ _ _ Er).
  Qed.
  Lemma resample_vals_at freq rep_dim to_end : rep_dim = d \/ ~ In rep_dim dims -> ~ In rep_dim md -> no_new_names (rep_dim :: dims) freq ->
    fills (x_resample_vals K P R (params_for md) freq rep_dim axis dim to_end x w y) (x_resample_vals_into K P R (params_for md) freq rep_dim axis dim to_end x w y).
  Proof.
    intros HR RM HF.
    destruct (prepared_names (S (mom_ndim P)) (w :: y) HO) as [(e & X)|(o & X & Fo)]; [intros g E; unfold x_resample_vals in E; rewrite X in E; discriminate|].
    apply (vals_fills 0%Qc x md d rep_dim axis dim HX NM DM HC HR RM
      (apply_ufunc (values_args d x o ++ [(freq, [rep_dim; d])]) (rep_dim :: md) [] (fun ts => call_values (fun x w y => rmap to_grid (resample_vals_nd K P R (last ts (Tensor [0] [])) (AInt (-1)) false x w y)) (removelast ts)))
      None to_end (fun b => x_resample_vals K P R (params_for md) freq rep_dim axis dim b x w y)).
    - apply (vals_calc x md d rep_dim axis dim HX DM HC HR RM); [now left|exact Fo| |intros n [<-|[<-|[]]]; [now left|right; now left]| |].
      + constructor; [|constructor]. cbn [fst]. destruct freq as [z|]; [|exact I]. destruct HF as [H1 H2]. split; [exact H1|]. intros n Hn. apply H2 in Hn. destruct Hn as [<-|Hn]; [now left|right]. apply in_or_app. now right.
      + intros n Hn. cbn [flat_map snd app]. destruct freq as [z|]; cbn in Hn; [|destruct Hn]. rewrite app_nil_r in Hn. apply (proj2 HF) in Hn. destruct Hn as [<-|Hn]; [right; now left|now left].
      + intros ts g. unfold call_values. destruct (removelast ts) as [|t1 [|t2 l]]; try discriminate. apply resample_vals_whole.
    - intros b. unfold x_resample_vals. rewrite X. cbn [rbind core_dims iter_dims params_for xp_dims app].
      destruct (apply_ufunc _ _ _ _); [|reflexivity]. cbn [rbind]. now destruct (finish_values _ _ _ _ _ _).
  Qed.
  Theorem jackknife_vals_fills data_reduced rep_dim to_end : match data_reduced with Some r => no_new_names (md ++ dims) r | None => True end ->
    fills (x_jackknife_vals K P R (params_for md) data_reduced rep_dim axis dim to_end x w y) (x_jackknife_vals_out K P R (params_for md) data_reduced rep_dim axis dim to_end x w y).
  Proof.
    intros HD.
    destruct (prepared_names (S (mom_ndim P)) (w :: y) HO) as [(e & X)|(o & X & Fo)].
    { intros g E. unfold x_jackknife_vals in E. destruct (match data_reduced with None => _ | Some _ => _ end); [|discriminate]. cbn [rbind] in E. rewrite X in E. discriminate. }
    set (RED := match data_reduced with None => rmap (fun g => Labelled (to_xarr g)) (x_reduce_vals K P R (params_for md) axis dim x w y) | Some r => Ok r end).
    assert (HRED : forall r, RED = Ok r -> no_new_names (md ++ dims) r).
    { intros r. unfold RED. clear RED. destruct data_reduced as [z|]; [now intros [= <-]|]. intros E. apply rmap_inv in E. destruct E as (g & E & ->).
      unfold x_reduce_vals in E. rewrite X in E. cbn [rbind iter_dims params_for xp_dims] in E. rewrite <- (app_nil_r (values_args d x o)) in E.
      assert (Hd' : d = d \/ ~ In d dims) by now left.
      assert (W : forall ts q, call_values (fun x w y => rmap to_grid (reduce_vals_nd K P R (AInt (-1)) x w y)) ts = Ok q -> grid_ok q) by (intros ts q; unfold call_values; destruct ts as [|t1 [|t2 l]]; try discriminate; apply reduce_vals_whole).
      destruct (vals_calc x md d d axis dim HX DM HC Hd' Dd o [] _ md (or_intror eq_refl) Fo (Forall_nil _) (fun n (H : In n []) => match H with end) (fun n (H : In n []) => match H with end) W g E) as (Dg & Lg & Gg). fold dims in Dg.
      assert (N : NoDup (except_name dims [d] ++ md)).
      { apply NoDup_app_iff. split; [apply NoDup_filter, HX|]. split; [exact NM|]. intros n Hn Q. apply except_name_In in Hn. now apply (DM n Q). }
      destruct (shaped_named _ g N Dg Gg) as (sz & Ng); [now rewrite Lg, Dg|]. destruct (to_xarr_named sz _ g Ng N) as (X1 & X2 & _). split; [exact X1|]. rewrite X2. intros n Hn. apply in_app_or in Hn. apply in_or_app. destruct Hn as [Hn|Hn]; [apply except_name_In in Hn; tauto|tauto]. }
    apply (vals_fills 0%Qc x md d d axis dim HX NM DM HC (or_introl eq_refl) Dd
      (rbind RED (fun red => apply_ufunc (values_args d x o ++ [(red, md)]) (d :: md) [] (fun ts => call_values (fun x w y => rmap to_grid (jackknife_vals_nd K P R (Some (last ts (Tensor [0] []))) (AInt (-1)) false x w y)) (removelast ts))))
      rep_dim to_end (fun b => x_jackknife_vals K P R (params_for md) data_reduced rep_dim axis dim b x w y)).
    - intros g. destruct RED as [r|]; [|discriminate]. cbn [rbind]. specialize (HRED r eq_refl).
      apply (vals_calc x md d d axis dim HX DM HC (or_introl eq_refl) Dd); [now left|exact Fo| |intros n Hn; cbn in Hn; rewrite app_nil_r in Hn; right; now right| |].
      + constructor; [|constructor]. cbn [fst]. destruct r as [z|]; [|exact I]. destruct HRED as [H1 H2]. split; [exact H1|]. intros n Hn. right. now apply H2.
      + intros n Hn. cbn [flat_map snd app]. destruct r as [z|]; cbn in Hn; [|destruct Hn]. rewrite app_nil_r in Hn. apply (proj2 HRED), in_app_or in Hn. destruct Hn as [Hn|Hn]; [right|now left]. rewrite !in_app_iff. auto.
      + intros ts q. unfold call_values. destruct (removelast ts) as [|t1 [|t2 l]]; try discriminate. apply jackknife_vals_whole.
    - intros b. unfold x_jackknife_vals. fold RED. destruct RED as [r|]; [|reflexivity]. cbn [rbind]. rewrite X. cbn [rbind core_dims iter_dims params_for xp_dims app].
      destruct (apply_ufunc _ _ _ _); [|reflexivity]. cbn [rbind]. now rewrite finish_plain.
  Qed.
  Lemma rolling_vals_at window min_periods zero to_end :
    fills (x_rolling_vals K P R (params_for md) window min_periods false zero axis dim to_end x w y) (x_rolling_vals_into K P R (params_for md) window min_periods zero axis dim to_end x w y).
  Proof.
    destruct (prepared_names (S (mom_ndim P)) (w :: y) HO) as [(e & X)|(o & X & Fo)]; [intros g E; unfold x_rolling_vals in E; rewrite X in E; discriminate|].
    apply (vals_fills None x md d d axis dim HX NM DM HC (or_introl eq_refl) Dd
      (apply_ufunc (values_args d x o ++ []) (d :: md) [] (call_values (fun x w y => rolling_vals_nd K P R window min_periods false zero (AInt (-1)) false x w y)))
      None to_end (fun b => x_rolling_vals K P R (params_for md) window min_periods false zero axis dim b x w y)).
    - apply (vals_calc x md d d axis dim HX DM HC (or_introl eq_refl) Dd); [now left|exact Fo|constructor|intros n []|intros n []|]. intros ts g. unfold call_values. destruct ts as [|t1 [|t2 l]]; try discriminate. apply rolling_vals_whole.
    - intros b. unfold x_rolling_vals. rewrite X, app_nil_r. cbn [rbind core_dims iter_dims params_for xp_dims app]. destruct (apply_ufunc _ _ _ _); [|reflexivity]. cbn [rbind]. rewrite finish_plain. now destruct (finish_values _ _ _ _ _ _).
  Qed.
  Lemma rolling_exp_vals_at alpha adjust min_periods zero to_end : no_new_names dims alpha ->
    fills (x_rolling_exp_vals K P R (params_for md) alpha adjust min_periods zero axis dim to_end x w y) (x_rolling_exp_vals_into K P R (params_for md) alpha adjust min_periods zero axis dim to_end x w y).
  Proof.
    intros Ha. assert (HO' : Forall (no_new_names dims) (w :: alpha :: y)) by (inversion HO; subst; repeat constructor; assumption).
    destruct (prepared_names (S (S (mom_ndim P))) (w :: alpha :: y) HO') as [(e & X)|(o & X & Fo)]; [intros g E; unfold x_rolling_exp_vals in E; rewrite X in E; discriminate|].
    apply (vals_fills None x md d d axis dim HX NM DM HC (or_introl eq_refl) Dd
      (apply_ufunc (values_args d x o ++ []) (d :: md) [] (fun ts => match ts with x :: w :: alpha :: y => rolling_exp_vals_nd K P R alpha adjust min_periods zero (AInt (-1)) false x w y | _ => Raise EType end))
      None to_end (fun b => x_rolling_exp_vals K P R (params_for md) alpha adjust min_periods zero axis dim b x w y)).
    - apply (vals_calc x md d d axis dim HX DM HC (or_introl eq_refl) Dd); [now left|exact Fo|constructor|intros n []|intros n []|]. intros ts g. destruct ts as [|t1 [|t2 [|t3 l]]]; try discriminate. apply rolling_exp_vals_whole.
    - intros b. unfold x_rolling_exp_vals. rewrite X, app_nil_r. cbn [rbind core_dims iter_dims params_for xp_dims app]. destruct (apply_ufunc _ _ _ _); [|reflexivity]. cbn [rbind]. rewrite finish_plain. now destruct (finish_values _ _ _ _ _ _).
  Qed.
End ValueFunctions.

Section ValueOrders.
  Context {A V : Type} (KK : list nat -> pusher A V) (PP : list nat -> packer A) (R : reader V) (mom : list nat) (x : xarr) (md : list sname) (d : sname) (axis : marg axis_arg) (dim : marg sname) (w : xop) (y : list xop).
  Let dims := x_dims x.
  Let m := List.length md.
  Hypothesis HX : x_ok x.
  Hypothesis NM : NoDup md.
  Hypothesis DM : forall n, In n md -> ~ In n dims.
  Hypothesis HC : chooses 0 axis dim d x.
  Hypothesis HO : Forall (no_new_names dims) (w :: y).

  Let sizes_out {T} (out : grid T) : out_moments (params_for md) out = skipn (List.length (gshape out) - m) (gshape out).
  Proof. unfold out_moments. cbn [params_for xp_ndim]. now rewrite Nat2Z.id. Qed.

  Theorem reduce_vals_fills : fills_order m (fun s => x_reduce_vals (KK s) (PP s) R (params_for md) axis dim x w y) (x_reduce_vals_out KK PP R mom (params_for md) axis dim x w y).
  Proof. intros out g E. unfold x_reduce_vals_out. rewrite sizes_out. exact (reduce_vals_at _ _ R x md d axis dim w y HX HC HO g E out). Qed.
  Theorem resample_vals_fills freq rep_dim to_end : rep_dim = d \/ ~ In rep_dim dims -> ~ In rep_dim md -> no_new_names (rep_dim :: dims) freq ->
    fills_order m (fun s => x_resample_vals (KK s) (PP s) R (params_for md) freq rep_dim axis dim to_end x w y) (x_resample_vals_out KK PP R mom (params_for md) freq rep_dim axis dim to_end x w y).
  Proof. intros H1 H2 H3 out g E. unfold x_resample_vals_out. rewrite sizes_out. exact (resample_vals_at _ _ R x md d axis dim w y HX NM DM HC HO freq rep_dim to_end H1 H2 H3 g E out). Qed.
  Theorem rolling_vals_fills window min_periods zero to_end :
    fills_order m (fun s => x_rolling_vals (KK s) (PP s) R (params_for md) window min_periods false zero axis dim to_end x w y) (x_rolling_vals_out KK PP R mom (params_for md) window min_periods zero axis dim to_end x w y).
  Proof. intros out g E. unfold x_rolling_vals_out. rewrite sizes_out. exact (rolling_vals_at _ _ R x md d axis dim w y HX NM DM HC HO window min_periods zero to_end g E out). Qed.
  Theorem rolling_exp_vals_fills alpha adjust min_periods zero to_end : no_new_names dims alpha ->
    fills_order m (fun s => x_rolling_exp_vals (KK s) (PP s) R (params_for md) alpha adjust min_periods zero axis dim to_end x w y)
      (x_rolling_exp_vals_out KK PP R mom (params_for md) alpha adjust min_periods zero axis dim to_end x w y).
  Proof. intros H1 out g E. unfold x_rolling_exp_vals_out. rewrite sizes_out. exact (rolling_exp_vals_at _ _ R x md d axis dim w y HX NM DM HC HO alpha adjust min_periods zero to_end H1 g E out). Qed.
End ValueOrders.
