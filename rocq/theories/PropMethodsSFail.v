(* C170: the object after a call of push_data that raised.  C171: selections of
   variables; sums of objects with other moments. *)
From Coq Require Import String Permutation.
From Verif Require Import Base BaseLemmas ModelPush ModelKernels ModelIndex ModelAccum ModelAxes ModelState ModelParams ModelNd ModelWrap ModelLabel ModelMethods ModelConstruct ModelMethodsX ModelDataset ModelMethodsS
  Spec SpecAxes SpecNd PropWrap PropLabelled PropNd PropNdVals SpecLabel SpecLabelTwo SpecLabelVals SpecMethods SpecMethodsX SpecDataset SpecOut SpecMethodsS
  Laws ProofAxes ProofArrays ProofMulti ProofNd PropParams ProofIndex ProofLabel ProofLabelMany PropLabelJack PropLabelVals ProofOut ProofMethodsX PropMethodsX PropMethodsXUse PropMethodsXMore ProofDataset PropDataset PropDatasetVals PropMethodsS PropMethodsSMore.
Local Open Scope string_scope.
Local Open Scope nat_scope.

Lemma position_absent n (l : list sname) : ~ In n l -> List.length l <= position String.eqb n l.
Proof. induction l as [|a l IH]; intros H; cbn [position List.length]; [lia|]. destruct (String.eqb_spec n a) as [->|]; [elim H; now left|]. apply le_n_S, IH. intros Q. apply H. now right. Qed.
Lemma run_vars_until f s e : mapR (fun v => rmap (pair (fst v)) (f v)) s = Raise e ->
  exists pre v post pre', s = (pre ++ v :: post)%list /\ f v = Raise e /\ fst (run_vars f s) = (pre' ++ v :: post)%list /\
    Forall2 (fun (u w : sname * xarr) => fst w = fst u /\ exists g, f u = Ok g /\ snd w = written (snd u) g) pre pre'.
Proof.
  induction s as [|v s IH]; [discriminate|]. cbn [mapR run_vars]. destruct (f v) as [g|e'] eqn:Ev; cbn [rmap rbind].
  - destruct (mapR _ s) as [l|e2] eqn:Em; [discriminate|]. cbn [rbind]. intros [= ->]. destruct (IH eq_refl) as (pre & u & post & pre' & E1 & E2 & E3 & E4).
    exists (v :: pre)%list, u, post, ((fst v, written (snd v) g) :: pre')%list. split; [cbn; now rewrite <- E1|]. split; [exact E2|]. destruct (run_vars f s) as [l' o]. cbn [fst] in *. split; [cbn; now rewrite E3|].
    constructor; [|exact E4]. split; [reflexivity|]. eauto.
  - intros [= ->]. exists [], v, s, []. repeat split; auto.
Qed.
Lemma apply_var_fun {T} (inj : Qc -> T) s core others out_core excl f v : set_ok s -> (forall a, In a (map fst others) -> fits s a) -> In v s ->
  apply_var inj core others out_core excl f v = var_fun inj core others out_core excl f v.
Proof.
  intros Hs Ft Iv. unfold apply_var. rewrite (mapR_ext _ (fun a => Ok (its_part (fst v) a))) by (intros a Ia; apply (operand_part s); auto).
  assert (E : mapR (fun a => Ok (its_part (fst v) a)) (map fst others) = Ok (map (its_part (fst v)) (map fst others))) by (generalize (map fst others); intros l; induction l as [|a l IH]; [reflexivity|]; cbn [mapR rbind map]; now rewrite IH).
  rewrite E. cbn [rbind]. unfold var_fun. rewrite map_map.
  assert (C : combine (map (fun a => its_part (fst v) (fst a)) others) (map snd others) = map (fun a => (its_part (fst v) (fst a), snd a)) others) by (clear; induction others as [|a l IH]; [reflexivity|]; cbn; now rewrite IH).
  rewrite C. cbn [forallb]. change (has_core (Labelled (snd v), core)) with (has_names core (snd v)).
  assert (F : forallb has_core (map (fun a => (its_part (fst v) (fst a), snd a)) others) = forallb (fun a => part_has (snd a) (fst v) (fst a)) others).
  { clear. induction others as [|a l IH]; [reflexivity|]. cbn [map forallb]. rewrite IH. reflexivity. }
  rewrite F. reflexivity.
Qed.

Section Failed.
  Context {A V : Type} (K : pusher A V) (P : packer A) (stretch : bool) (c : csdata) (md : list sname) (data : dop) (scale : option tensor).
  Hypothesis HC : sholds c md.
  Hypothesis HA : args_fit (cs_obj c) [data].
  Let s := cs_obj c.
  (* the same call for a variable by itself *)
  Let alone_push (v : sname * xarr) : res cmdata :=
    if (has_names md (snd v) && part_has md (fst v) data)%bool then cx_push_data K P stretch (by_itself (cs_params c) (snd v)) (its_part (fst v) data) scale else Ok (by_itself (cs_params c) (snd v)).
  Let F := fun ts => rmap to_grid (update_data K P stretch scale (arg 0 ts) (tl ts)).
  Let VF := var_fun (fun q => q) md [(data, md)] md [] F.

  Let push_alone v : In v s -> alone_push v = rmap (fun g => by_itself (cs_params c) (to_xarr g)) (VF v).
  Proof.
    intros Iv. unfold alone_push, VF, var_fun. cbn [forallb map fst snd]. rewrite andb_true_r. destruct (_ && _)%bool; [|cbn [rmap rbind]; now rewrite to_xarr_copied].
    unfold cx_push_data, by_itself. cbn [cx_params cx_obj]. pose proof HC as (_ & _ & Ep & _). rewrite Ep. cbn [iter_dims params_for xp_dims rbind]. unfold x_update. cbn [cx_obj]. fold F. now destruct (apply_ufunc _ _ _ _).
  Qed.
  Let HS : set_ok s.
  Proof. apply HC. Qed.
  (* dimensions that only the result has come from the data and have length 1 *)
  Lemma new_names_one v g n : In v s -> VF v = Ok g -> In n (lg_dims g) -> ~ In n (x_dims (snd v)) -> nth (position String.eqb n (lg_dims g)) (gshape (lg_val g)) 0 = 1.
  Proof.
    intros Iv E Hn Nv. pose proof HC as (_ & (Nm & _) & _). assert (Hx : x_ok (snd v)) by (now apply (proj1 (proj2 HS))).
    unfold VF, var_fun in E. cbn [forallb map fst snd] in E. rewrite andb_true_r in E. destruct (has_names md (snd v)) eqn:M; [destruct (part_has md (fst v) data)|]; cbn [andb] in E; [|injection E as <-; elim Nv; exact Hn..].
    assert (HX : xholds (by_itself (cs_params c) (snd v)) md) by (now apply by_itself_holds). assert (Ix : incl md (x_dims (snd v))) by apply HX.
    assert (U : exists r, x_update (by_itself (cs_params c) (snd v)) md [(its_part (fst v) data, md)] (update_data K P stretch scale) = Ok r) by (unfold x_update, by_itself, cx_with; cbn [cx_obj]; fold F; rewrite E; cbn [rmap rbind]; eauto).
    destruct U as (r & U).
    assert (Pk : forall z, its_part (fst v) data = Labelled z -> x_ok z) by (intros z Ez; apply (part_array s data v z HS (proj1 HA data (or_introl eq_refl)) Iv Ez)).
    assert (Fx : Forall x_ok (labelled_of (map fst [(Labelled (snd v), md); (its_part (fst v) data, md)]))).
    { apply Forall_forall. intros x I. apply labelled_of_iff in I. cbn [map fst In] in I. destruct I as [I|[I|[]]]; [injection I as <-; exact Hx|now apply Pk]. }
    destruct (apply_dims _ _ _ _ _ Nm E) as [[W1 W2] _].
    assert (L : lookup n (l_sizes g) = Some (nth (position String.eqb n (lg_dims g)) (gshape (lg_val g)) 0)) by (unfold l_sizes; rewrite lookup_combine by assumption; apply smem_In in Hn; now rewrite Hn).
    assert (Oc : forall m, In m md -> exists x, In x (labelled_of (map fst [(Labelled (snd v), md); (its_part (fst v) data, md)])) /\ In m (x_dims x)).
    { intros m Hm. exists (snd v). split; [apply labelled_of_iff; now left|now apply Ix]. }
    destruct (first_arg_In _ _ _ _ Fx Oc Nm E n _ L) as (x & Jx & Nx & Ex).
    apply labelled_of_iff in Jx. cbn [map fst In] in Jx. destruct Jx as [Jx|[Jx|[]]]; [injection Jx as <-; contradiction|]. rewrite <- Ex. destruct (Nat.eq_dec (dim_size x n) 1) as [|Q]; [assumption|]. exfalso.
    rewrite Jx in U. revert U. apply (update_refused_named _ md HX _ _ x md); [apply data_keeps|now left|now apply Pk|right; right; right; exists n; split; [exact Nx|]; split; [exact Nv|]; split; [intros I; now apply Nv, Ix|exact Q]|cbn [flat_map snd]; rewrite app_nil_r; intros m; auto].
  Qed.
  Lemma written_at v g : In v s -> VF v = Ok g -> x_dims (written (snd v) g) = x_dims (snd v) /\ x_shape (written (snd v) g) = x_shape (snd v) /\ x_ok (written (snd v) g) /\
    forall env, x_inside (snd v) env -> (forall n, ~ In n (x_dims (snd v)) -> env n = 0) -> x_at (written (snd v) g) env = x_at (to_xarr g) env.
  Proof.
    intros Iv E. assert (Hx : x_ok (snd v)) by (now apply (proj1 (proj2 HS))). split; [reflexivity|]. split; [reflexivity|]. split.
    - split; [apply tabulate_ok|]. split; [apply Hx|]. apply Hx.
    - intros env He H0. unfold x_at, written. cbn [x_val x_dims to_xarr]. rewrite tget_tabulate.
      + unfold tget, to_tensor, gget. cbn. f_equal. f_equal. apply map_ext_in. intros n Hn. destruct (in_dec string_dec n (x_dims (snd v))) as [I|I].
        * destruct (pos_lt _ _ I) as [P1 P2]. rewrite (nth_indep _ 0 (env "")) by (now rewrite map_length). rewrite map_nth. now rewrite P2.
        * rewrite H0 by exact I. apply nth_overflow. rewrite map_length. now apply position_absent.
      + rewrite (shape_named _ Hx). now apply inside_names_valid.
  Qed.

  (* the variables before the one that raises hold what the push gives for them, in
     their old order of dimensions; that one and those after it are as before *)
  Theorem push_data_failed c' e : cs_after_push_data K P stretch c data scale = (c', Some e) ->
    cs_params c' = cs_params c /\ exists pre v post pre', cs_obj c = (pre ++ v :: post)%list /\ cs_obj c' = (pre' ++ v :: post)%list /\ alone_push v = Raise e /\
      Forall2 (fun u w => fst w = fst u /\ x_dims (snd w) = x_dims (snd u) /\ x_shape (snd w) = x_shape (snd u) /\ x_ok (snd w) /\
        exists z, alone_push u = Ok (by_itself (cs_params c) z) /\ (forall n, In n (x_dims z) -> ~ In n (x_dims (snd u)) -> dim_size z n = 1) /\
          forall env, x_inside (snd u) env -> (forall n, ~ In n (x_dims (snd u)) -> env n = 0) -> x_at (snd w) env = x_at z env) pre pre'.
  Proof.
    unfold cs_after_push_data. pose proof HC as (_ & (Nm & _) & Ep & _). unfold cs_push_data. assert (Im : iter_dims (cs_params c) = Ok md) by (now rewrite Ep). rewrite Im. cbn [rbind].
    pose proof (update_each c md HC [(data, md)] (update_data K P stretch scale) HA) as UE.
    destruct (s_update c md [(data, md)] (update_data K P stretch scale)) as [c2|e2] eqn:ES; [discriminate|].
    rewrite (fits_align (cs_obj c) [data] [] HS (proj1 HA)) by (intros a b Ia Ib x y; now apply (proj2 HA)). cbn [rbind]. rewrite (fits_keys _ _ (proj1 HA data (or_introl eq_refl))). cbn [negb].
    fold F s. intros [= <- <-]. cbn [cs_params cs_obj]. split; [reflexivity|].
    assert (EV : forall v, In v s -> apply_var (fun q => q) md [(data, md)] md [] F v = VF v) by (intros v Iv; apply (apply_var_fun _ s); [exact HS|exact (proj1 HA)|exact Iv]).
    assert (EM : mapR (fun v => rmap (pair (fst v)) (apply_var (fun q => q) md [(data, md)] md [] F v)) s = Raise e2).
    { unfold s_update in ES. fold s F in ES. unfold ds_apply in ES. cbn [map fst] in ES. rewrite (fits_align s [data] [] HS (proj1 HA)) in ES by (intros a b Ia Ib x y; now apply (proj2 HA)). cbn [rbind forallb] in ES.
      rewrite (fits_keys s data (proj1 HA data (or_introl eq_refl))) in ES. cbn [andb negb] in ES.
      destruct (mapR _ s) as [l|e3] eqn:EM; [|cbn in ES; congruence]. exfalso. destruct UE as (v & Iv & Ev). fold s in Iv.
      assert (X : exists g, VF v = Ok g).
      { apply ProofAxes.mapR_Forall2 in EM. clear -EM Iv EV. induction EM as [|u w s l H _ IH]; [destruct Iv|]. destruct Iv as [<-|Iv]; [|apply IH; [exact Iv|intros; apply EV; now right]].
        rewrite EV in H by now left. destruct (VF u); [eauto|discriminate H]. }
      destruct X as (g & X). unfold VF, var_fun in X. cbn [forallb map fst snd] in X, Ev. destruct (_ && _)%bool; [|discriminate Ev]. unfold x_update, cx_with, by_itself in Ev. cbn [cx_obj] in Ev. fold F in Ev. rewrite X in Ev. discriminate Ev. }
    destruct (run_vars_until _ _ _ EM) as (pre & v & post & pre' & E1 & E2 & E3 & E4). exists pre, v, post, pre'. split; [exact E1|]. split; [exact E3|].
    assert (Ip : forall u, In u (pre ++ [v])%list -> In u s) by (intros u Iu; rewrite E1; apply in_app_or in Iu; apply in_or_app; destruct Iu as [Iu|[<-|[]]]; [now left|right; now left]).
    split.
    - assert (Iv : In v s) by (apply Ip, in_or_app; right; now left). rewrite push_alone by exact Iv. rewrite <- EV, E2 by exact Iv. reflexivity.
    - assert (Iq : forall u, In u pre -> In u s) by (intros u Iu; apply Ip, in_or_app; now left). clear -E4 Iq EV push_alone HC HA HS. induction E4 as [|u w pre pre' (H1 & g & H2 & H3) _ IH]; constructor; [|apply IH; intros; apply Iq; now right].
      assert (Iu : In u s) by (apply Iq; now left). rewrite EV in H2 by exact Iu. rewrite H3. split; [exact H1|]. destruct (written_at u g Iu H2) as (W1 & W2 & W3 & W4). split; [exact W1|]. split; [exact W2|]. split; [exact W3|].
      exists (to_xarr g). split; [rewrite push_alone by exact Iu; now rewrite H2|]. split; [|exact W4]. intros n Hn Nu. exact (new_names_one u g n Iu H2 Hn Nu).
  Qed.
End Failed.
(* a Dataset with other names, or one that cannot be aligned, is refused before any
   variable changes *)
Theorem push_data_refused_whole : forall {A V} (K : pusher A V) P stretch c t scale md, sholds c md -> ~ (forall n, In n (map fst t) <-> In n (map fst (cs_obj c))) ->
  exists e, cs_push_data K P stretch c (DSet t) scale = Raise e /\ cs_after_push_data K P stretch c (DSet t) scale = (c, Some e).
Proof.
  intros A V K P stretch c t scale md (_ & (Nm & _) & Ep & _) H.
  assert (Ks : same_keys (cs_obj c) (DSet t) = false).
  { apply not_true_is_false. cbn [same_keys]. intros Q. apply H. apply andb_true_iff in Q as [Q1 Q2]. rewrite forallb_forall in Q1, Q2. intros n. split; intros I; apply smem_In; auto. }
  unfold cs_after_push_data, cs_push_data, s_update, ds_apply. assert (Im : iter_dims (cs_params c) = Ok md) by (now rewrite Ep). rewrite Im. cbn [rbind map fst forallb]. rewrite Ks. cbn [andb negb].
  destruct (align [] [DSet (cs_obj c); DSet t]) as [u|e]; cbn; eauto.
Qed.

(* ---- selections, sums ------------------------------------------------------------------ *)

Lemma set_mom_shape c md v : sholds c md -> In v (cs_obj c) -> has_names md (snd v) = true -> s_mom_shape (cs_params c) (cs_obj c) = Ok (map (dim_size (snd v)) md).
Proof.
  intros (Hs & _ & Ep & _) Iv M. unfold s_mom_shape. rewrite Ep, params_dims. cbn [rbind]. rewrite (mapR_ok _ (dim_size (snd v))); [reflexivity|]. intros m Hm. apply (ds_size_ok _ v m Hs Iv). now apply (proj1 (has_names_In md (snd v)) M).
Qed.
(* c[names] holds the variables with these names, in this order; a name that there is
   not is a KeyError *)
Theorem getitems_spec : forall c md names, sholds c md -> NoDup names ->
  (forall n, In n names -> ~ In n (map fst (cs_obj c)) -> cs_getitems c names = Raise EKey) /\
  (incl names (map fst (cs_obj c)) -> (exists v, In v (cs_obj c) /\ In (fst v) names /\ has_names md (snd v) = true) ->
   exists c', cs_getitems c names = Ok c' /\ sholds c' md /\ cs_params c' = cs_params c /\ map fst (cs_obj c') = names /\ incl (cs_obj c') (cs_obj c)).
Proof.
  intros c md names HC N. pose proof HC as (Hs & Hm & Ep & _ & Hz). split.
  - intros n Hn Hc. unfold cs_getitems. assert (E : mapR (fun n => rmap (pair n) (of_opt EKey (get_var n (cs_obj c)))) names = Raise EKey).
    { clear N. induction names as [|m l IH]; [destruct Hn|]. cbn [mapR]. destruct (get_var m (cs_obj c)) as [x|] eqn:G; [|reflexivity]. cbn [of_opt rmap rbind]. destruct Hn as [->|Hn].
      - exfalso. apply Hc. unfold get_var in G. destruct (find _ (cs_obj c)) as [v|] eqn:F; [|discriminate G]. apply find_some in F. destruct F as [F1 F2]. apply String.eqb_eq in F2. subst n. now apply in_map.
      - now rewrite IH. }
    rewrite E. reflexivity.
  - intros I (v & Iv & Nv & M).
    assert (S : exists s, mapR (fun n => rmap (pair n) (of_opt EKey (get_var n (cs_obj c)))) names = Ok s /\ map fst s = names /\ incl s (cs_obj c)).
    { clear N Nv. induction names as [|m l IH]; [exists []; split; [reflexivity|split; [reflexivity|intros u []]]|]. destruct IH as (s & E1 & E2 & E3); [intros n Hn; apply I; now right|].
      destruct (get_var_name m (cs_obj c)) as (x & G & J); [apply I; now left|]. exists ((m, x) :: s)%list. cbn [mapR]. rewrite G. cbn [of_opt rmap rbind]. rewrite E1. cbn [rbind map fst]. split; [reflexivity|]. split; [now rewrite E2|].
      intros u [<-|Hu]; auto. }
    destruct S as (s & E1 & E2 & E3).
    assert (Js : In v s).
    { rewrite <- E2 in Nv. apply in_map_iff in Nv. destruct Nv as (u & E & Iu). replace v with u; [exact Iu|]. pose proof (get_var_In u (cs_obj c) (proj1 Hs) (E3 u Iu)) as G1. pose proof (get_var_In v (cs_obj c) (proj1 Hs) Iv) as G2. rewrite E in G1. rewrite G1 in G2. injection G2 as G2. destruct u, v; cbn in *; congruence. }
    assert (Os : set_ok s) by (split; [now rewrite E2|split; [intros u Hu; now apply (proj1 (proj2 Hs)), E3|intros u w Hu Hw; apply (proj2 (proj2 Hs)); auto]]).
    assert (HC' : sholds (CS s (cs_params c)) md) by (split; [exact Os|]; split; [exact Hm|]; split; [exact Ep|]; split; [eauto|]; intros u n Hu; apply Hz; auto).
    exists (CS s (cs_params c)). split; [|split; [exact HC'|split; [reflexivity|split; [exact E2|exact E3]]]].
    unfold cs_getitems. rewrite E1. cbn [rbind]. assert (Im : iter_dims (cs_params c) = Ok md) by (now rewrite Ep). rewrite Im. cbn [rbind]. destruct (ds_dims_ok s Os) as (dims & -> & Hd). cbn [rbind].
    assert (Fb : forallb (fun n => smem n dims) md = true) by (apply forallb_forall; intros n Hn; apply smem_In, Hd; exists v; split; [exact Js|]; now apply (proj1 (has_names_In md (snd v)) M)). rewrite Fb. cbn [negb].
    pose proof (set_mom_shape (CS s (cs_params c)) md v HC' Js M) as S1. cbn [cs_obj cs_params] in S1. rewrite S1. cbn [rbind]. rewrite (set_mom_shape c md v HC Iv M). cbn [rbind]. unfold raise_if_wrong_mom_shape.
    unfold nats_eqb. now destruct (list_eq_dec _ _ _).
Qed.
(* sums and differences of objects whose moments have other sizes are a ValueError *)
Theorem add_sizes_refused : forall {A V} (K : pusher A V) (P : packer A) stretch c o md v w, sholds c md -> sholds o md -> In v (cs_obj c) -> has_names md (snd v) = true -> In w (cs_obj o) -> has_names md (snd w) = true ->
  map (dim_size (snd v)) md <> map (dim_size (snd w)) md -> cs_add K P stretch c o = Raise EValue /\ cs_sub K P stretch c o = Raise EValue.
Proof.
  intros A V K P stretch c o md v w HC HO Iv Mv Iw Mw D. unfold cs_add, cs_sub, cs_check_other. rewrite (set_mom_shape o md w HO Iw Mw). cbn [rbind]. rewrite (set_mom_shape c md v HC Iv Mv). cbn [rbind]. unfold raise_if_wrong_mom_shape.
  unfold nats_eqb. destruct (list_eq_dec _ _ _) as [E|]; [congruence|split; reflexivity].
Qed.
