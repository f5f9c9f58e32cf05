(* Statistics of Datasets: each variable with moments as a DataArray, the others as they are
   (C185 to C187). *)
From Coq Require Import String Permutation.
From Verif Require Import Base BaseLemmas ModelPush ModelKernels ModelIndex ModelAxes ModelState ModelParams ModelNd ModelWrap ModelLabel ModelMoments ModelMomentsX ModelDataset ModelMethodsS ModelMomentsS
  Spec SpecAxes SpecNd PropLabelled SpecLabel SpecMethodsX SpecMoments SpecMomentsX SpecDataset
  ProofAxes ProofArrays ProofNd PropParams ProofLabel ProofLabelMany PropLabelJack ProofMethodsX ProofMoments PropMoments PropSelect PropAssign ProofMomentsX PropMomentsX PropSelectX PropAssignX ProofDataset PropDataset.
Local Open Scope string_scope.
Local Open Scope nat_scope.

(* r holds what f gives for the variables with the dimensions md, and the other variables *)
Definition each_with_moments (md : list sname) (f : xarr -> res xarr) (s : xset) (r : res (lset Qc)) : Prop :=
  each_variable (fun v => rmap (copied (fun q => q)) (if has_names md (snd v) then f (snd v) else Ok (snd v))) s r.
(* the dimensions that a labelled value for a moment has to have *)
Definition wanted_dims (md : list sname) (squeeze : bool) (combined : option sname) (name : string) : list sname :=
  if in_dec string_dec name ["ave"; "var"] then
    match combined with Some (String a d) => if (Nat.eqb (List.length md) 1 && squeeze)%bool then [] else [String a d] | _ => [] end
  else if prefix "xmom_" name then tl md else if prefix "ymom_" name then firstn 1 md else if string_dec name "all" then md else [].
(* a second argument for a variable has these dimensions; an array has no names *)
Definition value_has (md : list sname) (squeeze : bool) (combined : option sname) (n : sname) (nv : string * dop) : bool :=
  match its_part n (snd nv) with Labelled z => has_names (wanted_dims md squeeze combined (fst nv)) z | Plain _ => true end.

Lemma copied_to_xarr (g : lgrid Qc) : copied (fun q => q) (to_xarr g) = g.
Proof. destruct g as [dims [sh l]]. unfold copied, to_xarr. cbn. now rewrite map_id. Qed.
Lemma rmap_copied (r : res (lgrid Qc)) : rmap (copied (fun q => q)) (rmap to_xarr r) = r.
Proof. destruct r; [|reflexivity]. unfold rmap. cbn [rbind]. now rewrite copied_to_xarr. Qed.
Lemma to_xarr_copied (x : xarr) : to_xarr (copied (fun q => q) x) = x.
Proof. destruct x as [dims [sh l]]. unfold copied, to_xarr. cbn. now rewrite map_id. Qed.

Section Set_.
  Variables (s : xset) (md : list sname).
  Hypothesis Hs : set_ok s.
  Hypothesis Hm : SpecDataset.moment_names md.

  Lemma each_same : each_variable (fun v => Ok (copied (fun q => q) (snd v))) s (Ok (s_same s)).
  Proof.
    split.
    - unfold s_same. clear Hs. induction s as [|v l IH]; constructor; auto.
    - intros v w Iv Iw (n & a & b & Ea & Eb & Nab). unfold s_same in Iv, Iw. apply in_map_iff in Iv, Iw. destruct Iv as (v' & <- & Iv), Iw as (w' & <- & Iw). cbn [snd copied lg_dims lg_val gshape] in Ea, Eb.
      destruct Hs as (_ & Ok_ & Ag). pose proof (Ok_ v' Iv) as Xv. pose proof (Ok_ w' Iw) as Xw. rewrite (shape_named _ Xv) in Ea. rewrite (shape_named _ Xw) in Eb.
      apply lookup_In in Ea, Eb.
      assert (Q : forall x k, In (n, k) (combine (x_dims x) (map (dim_size x) (x_dims x))) -> In n (x_dims x) /\ k = dim_size x n).
      { intros x k H. split; [now apply in_combine_l in H|]. clear -H. induction (x_dims x) as [|m t IH]; [destruct H|]. cbn in H. destruct H as [[= -> <-]|H]; [reflexivity|auto]. }
      apply Q in Ea, Eb. destruct Ea as [Ia ->], Eb as [Ib ->]. apply Nab. now apply (Ag v' w').
  Qed.

  Theorem select_moment_set name squeeze combined coords : coords_fit md coords ->
    each_with_moments md (x_select_moment (params_for md) name squeeze combined coords) s (ds_select_moment (params_for md) name squeeze combined coords s).
  Proof.
    intros Cf. unfold each_with_moments, ds_select_moment, x_select_moment. destruct (String.eqb name "all") eqn:Ea.
    - eapply each_ext; [|exact each_same]. intros v Iv. cbn beta. now destruct (has_names md (snd v)).
    - destruct (moments_params md (proj2 Hm)) as [Ei Ex]. rewrite Ei, Ex. cbn [rbind].
      match goal with |- context[rbind ?r (fun out => s_apply _ _ _ out _)] => assert (O : exists out, r = Ok out /\ NoDup out) end.
      { destruct (combines (params_for md) name squeeze).
        - exists [combined]. split; [|repeat constructor; intros []]. cbn [params_for xp_ndim]. destruct coords as [l|]; cbn in Cf; rewrite ?Cf, Z.eqb_refl; reflexivity.
        - exists (kept_dims md name). split; [reflexivity|]. pose proof (proj1 Hm) as N. unfold kept_dims. destruct (prefix "xmom_" name); [|destruct (prefix "ymom_" name); [|constructor]].
          + destruct md as [|a l]; [constructor|]. now inversion N.
          + destruct md as [|a l]; [constructor|]. cbn. constructor; [intros []|constructor]. }
      destruct O as (out & O & No). rewrite O. cbn [rbind]. unfold s_apply.
      destruct (ds_apply_each (fun q => q) s md [] out [] (fun ts => rmap to_grid (select_moment_nd name (axes_last (List.length md)) squeeze (arg 0 ts))) Hs No) as [E _]; [intros a []|intros a b []|].
      eapply each_ext; [|exact E]. intros v Iv. unfold var_fun. cbn [forallb map]. rewrite andb_true_r. destruct (has_names md (snd v)); [|reflexivity]. rewrite rmap_copied. reflexivity.
  Qed.
  Theorem select_moment_set_coords name squeeze combined coords : own_dim md squeeze name -> ~ coords_fit md coords -> ds_select_moment (params_for md) name squeeze combined coords s = Raise EValue.
  Proof.
    intros [On O] C. unfold ds_select_moment. assert (Na : String.eqb name "all" = false) by (destruct On as [<-|[<-|[]]]; reflexivity). rewrite Na. destruct (moments_params md (proj2 Hm)) as [Ei Ex]. rewrite Ei, Ex. cbn [rbind].
    assert (Cb : combines (params_for md) name squeeze = true).
    { unfold combines. assert (Q : (String.eqb name "ave" || String.eqb name "var")%bool = true) by (destruct On as [<-|[<-|[]]]; reflexivity). rewrite Q. cbn [andb params_for xp_ndim]. destruct O as [-> | ->]; [reflexivity|apply orb_true_r]. }
    rewrite Cb. destruct coords as [l|]; [|elim C; exact I]. cbn [params_for xp_ndim]. cbn in C. destruct (Z.eqb_spec (Z.of_nat (List.length l)) (Z.of_nat (List.length md))); [lia|]. reflexivity.
  Qed.

  Lemma wanted_core squeeze combined n nv : fits s (snd nv) -> (exists v, In v s /\ fst v = n) -> part_has (ds_value_core (params_for md) md squeeze combined nv) n (snd nv) = value_has md squeeze combined n nv /\
    ds_value_core (params_for md) md squeeze combined nv = value_core (params_for md) md squeeze combined (fst nv) (its_part n (snd nv)).
  Proof.
    intros Ft (v & Iv & <-). destruct nv as [name a]. cbn [fst snd] in *.
    assert (W : forall z, value_core (params_for md) md squeeze combined name (Labelled z) = wanted_dims md squeeze combined name).
    { intros z. unfold value_core, wanted_dims, combines. cbn [params_for xp_ndim].
      assert (Q1 : negb match Z.of_nat (List.length md) with 1%Z => true | _ => false end = negb (Nat.eqb (List.length md) 1)) by (destruct (proj2 Hm) as [L1|L1]; rewrite L1; reflexivity).
      replace (match Z.of_nat (List.length md) with 1%Z => true | _ => false end) with (Nat.eqb (List.length md) 1) by (destruct (proj2 Hm) as [L1|L1]; rewrite L1; reflexivity).
      destruct (in_dec string_dec name ["ave"; "var"]) as [I|NI].
      - assert (Q : (String.eqb name "ave" || String.eqb name "var")%bool = true) by (destruct I as [<-|[<-|[]]]; reflexivity). rewrite Q. cbn [andb].
        assert (P1 : prefix "xmom_" name = false /\ prefix "ymom_" name = false /\ String.eqb name "all" = false) by (destruct I as [<-|[<-|[]]]; repeat split; reflexivity). destruct P1 as (P1 & P2 & P3). rewrite P1, P2, P3.
        rewrite <- negb_andb. destruct (Nat.eqb (List.length md) 1 && squeeze)%bool; cbn [negb]; destruct combined as [[|]|]; reflexivity.
      - assert (Q : (String.eqb name "ave" || String.eqb name "var")%bool = false).
        { destruct (String.eqb_spec name "ave") as [->|]; [elim NI; now left|]. destruct (String.eqb_spec name "var") as [->|]; [elim NI; right; now left|]. reflexivity. }
        rewrite Q. cbn [andb]. destruct (string_dec name "all") as [->|Na]; [reflexivity|]. apply String.eqb_neq in Na. rewrite Na. destruct md; reflexivity. }
    assert (X : forall o, part_has (value_core (params_for md) md squeeze combined name (match a with DArr o' => o' | DSet _ => o end)) (fst v) a = true -> True) by auto. clear X.
    unfold value_has, part_has. cbn [fst snd]. unfold ds_value_core. cbn [fst snd]. destruct a as [t|o].
    - destruct Ft as (_ & E & _). cbn [its_part]. destruct (get_var_name (fst v) t) as (x & -> & _); [apply E, in_map_iff; now exists v|]. rewrite !W. split; reflexivity.
    - cbn [its_part]. destruct o as [z|t]; [rewrite W|]; split; reflexivity.
  Qed.

  Theorem assign_moment_set names squeeze combined : (forall nv, In nv names -> fits s (snd nv)) ->
    (forall a b, In a (map snd names) -> In b (map snd names) -> forall x y, In x (arrays_of a) -> In y (arrays_of b) -> sizes_agree x y) ->
    each_variable (fun v => rmap (copied (fun q => q))
      (if (has_names md (snd v) && forallb (value_has md squeeze combined (fst v)) names)%bool
       then x_assign_moment (params_for md) (map (fun nv => (fst nv, its_part (fst v) (snd nv))) names) squeeze combined (snd v) else Ok (snd v)))
      s (ds_assign_moment (params_for md) names squeeze combined s).
  Proof.
    intros Ft Ag. unfold ds_assign_moment, x_assign_moment. destruct (moments_params md (proj2 Hm)) as [Ei Ex]. rewrite Ei, Ex. cbn [rbind]. unfold s_apply.
    set (others := map (fun nv => (snd nv, ds_value_core (params_for md) md squeeze combined nv)) names).
    assert (Mo : map fst others = map snd names) by (unfold others; rewrite map_map; reflexivity).
    destruct (ds_apply_each (fun q => q) s md others md [] (fun ts => rmap to_grid (assign_moment_nd (combine (map fst names) (tl ts)) (axes_last (List.length md)) squeeze (arg 0 ts))) Hs (proj1 Hm)) as [E _].
    - rewrite Mo. intros a Ha. apply in_map_iff in Ha. destruct Ha as (nv & <- & Hn). now apply Ft.
    - rewrite Mo. exact Ag.
    - eapply each_ext; [|exact E]. intros v Iv. unfold var_fun.
      assert (Fb : forallb (fun a => part_has (snd a) (fst v) (fst a)) others = forallb (value_has md squeeze combined (fst v)) names).
      { unfold others. clear -Ft Iv Hm. induction names as [|nv l IH]; [reflexivity|]. cbn [map forallb fst snd]. rewrite IH by (intros; apply Ft; now right). f_equal. apply wanted_core; [apply Ft; now left|eauto]. }
      rewrite Fb. destruct (has_names md (snd v) && forallb (value_has md squeeze combined (fst v)) names)%bool; [|reflexivity]. rewrite rmap_copied. unfold x_apply. rewrite map_map. cbn [fst snd]. 
      assert (Ea : map (fun a => (its_part (fst v) (fst a), snd a)) others = map (fun x => (its_part (fst v) (snd x), value_core (params_for md) md squeeze combined (fst x) (its_part (fst v) (snd x)))) names).
      { unfold others. rewrite map_map. cbn [fst snd]. apply map_ext_in. intros nv Hn. f_equal. apply wanted_core; [now apply Ft|eauto]. }
      rewrite Ea, map_map. reflexivity.
  Qed.

  Theorem moments_type_set nmax to to_end order :
    each_with_moments md (x_moments_type nmax to (params_for md) to_end order) s (ds_moments_type nmax to (params_for md) to_end order s).
  Proof.
    unfold each_with_moments, ds_moments_type, x_moments_type. destruct (moments_params md (proj2 Hm)) as [Ei Ex]. rewrite Ei, Ex. cbn [rbind]. unfold s_apply.
    set (f := fun ts => rmap to_grid (moments_type_nd nmax to (axes_last (List.length md)) false order (arg 0 ts))).
    destruct to_end.
    - destruct (ds_apply_each (fun q => q) s md [] md [] f Hs (proj1 Hm)) as [E _]; [intros a []|intros a b []|].
      assert (R : forall r : res (lset Qc), rbind r (fun r => Ok r) = r) by (intros []; reflexivity). rewrite R.
      eapply each_ext; [|exact E]. intros v Iv. unfold var_fun. cbn [forallb map]. rewrite andb_true_r. destruct (has_names md (snd v)); [|reflexivity]. rewrite rmap_copied. unfold x_apply, finish. fold f. now destruct (apply_ufunc _ _ _ _).
    - pose proof (each_data 0%Qc (fun q => q) s md [] md [] f false (fun n => n) [] Hs (proj1 Hm)) as E. unfold ds_finish in E. specialize (E ltac:(intros a []) ltac:(intros a b [])).
      assert (Nr : false = false -> forall v, In v s -> NoDup (map (fun n : sname => n) (x_dims (snd v)) ++ [])) by (intros _ v Iv; rewrite map_id, app_nil_r; now apply Hs). specialize (E Nr).
      eapply each_ext; [|exact E]. intros v Iv. unfold done_var, order_of. cbn [forallb map]. rewrite andb_true_r. destruct (has_names md (snd v)); [rewrite rmap_copied; reflexivity|]. unfold rmap. cbn [rbind]. rewrite map_id, app_nil_r.
      assert (Hx : x_ok (snd v)) by now apply Hs. assert (Nx : NoDup (x_dims (snd v))) by apply Hx.
      assert (Fx : filter (fun n => smem n (x_dims (snd v))) (x_dims (snd v)) = x_dims (snd v)) by (apply filter_all; intros n Hn; now apply smem_In).
      destruct (passed_named (fun q => q) (x_dims (snd v)) (snd v) Hx) as [P1 P2]; [now rewrite Fx|]. destruct (copied_named (fun q : Qc => q) (snd v) Hx) as [C1 C2].
      assert (Pd : passed_dims (x_dims (snd v)) (snd v) = x_dims (snd v)).
      { unfold passed_dims. rewrite Fx. replace (except_name (x_dims (snd v)) (x_dims (snd v))) with (@nil sname); [reflexivity|]. symmetry. destruct (except_name (x_dims (snd v)) (x_dims (snd v))) as [|n l] eqn:Q; [reflexivity|]. assert (H : In n (except_name (x_dims (snd v)) (x_dims (snd v)))) by (rewrite Q; now left). apply except_name_In in H. tauto. }
      rewrite Pd in P1. f_equal. apply (named_eq 0%Qc (dim_size (snd v)) (x_dims (snd v))); [exact Nx|exact P1|exact C1|]. intros env He. rewrite P2, C2 by exact He. reflexivity.
  Qed.
End Set_.
