(* Pushes onto an object that holds a Dataset are pushes onto its variables (C163). *)
From Coq Require Import String Permutation.
From Verif Require Import Base BaseLemmas ModelPush ModelKernels ModelIndex ModelAccum ModelAxes ModelState ModelParams ModelNd ModelWrap ModelLabel ModelMethods ModelConstruct ModelMethodsX ModelDataset ModelMethodsS
  Spec SpecAxes SpecNd PropWrap PropLabelled PropNd PropNdVals SpecLabel SpecLabelTwo SpecLabelVals SpecMethods SpecMethodsX SpecDataset SpecOut SpecMethodsS
  ProofAxes ProofArrays ProofNd PropParams ProofLabel ProofLabelMany PropLabelVals ProofOut PropMethodsXMore ProofDataset PropDataset PropDatasetVals.
Local Open Scope string_scope.
Local Open Scope nat_scope.

(* ---- sizes of the results of apply_ufunc ----------------------------------------------- *)

Lemma first_arg_In {T} args out_core (f : list tensor -> res (grid T)) g : Forall x_ok (labelled_of (map fst args)) ->
  (forall n, In n out_core -> exists x, In x (labelled_of (map fst args)) /\ In n (x_dims x)) -> NoDup out_core ->
  apply_ufunc args out_core [] f = Ok g -> forall n k, lookup n (l_sizes g) = Some k -> exists x, In x (labelled_of (map fst args)) /\ In n (x_dims x) /\ dim_size x n = k.
Proof.
  intros Ox Io No H n k L. pose proof (proj1 (apply_dims _ _ _ _ _ No H)) as (N & _). unfold apply_ufunc in H. destruct (unified_dim_sizes _ _) as [sz|] eqn:U; [|discriminate H]. cbn [rbind] in H.
  destruct (mapR _ args); [|discriminate H]. cbn [rbind] in H. destruct (f _) as [v|]; [|discriminate H]. cbn [rbind] in H. destruct (Nat.eqb _ _) eqn:E; [|discriminate H]. cbn [negb] in H.
  destruct (existsb _ _) eqn:X; [discriminate H|]. injection H as <-. unfold l_sizes in L. cbn [lg_dims lg_val] in *.
  assert (Ex : exists x, In x (labelled_of (map fst args)) /\ In n (x_dims x)).
  { apply lookup_In in L. apply in_combine_l in L. apply in_app_or in L as [L|L]; [|now apply Io]. apply filter_In in L as [L _]. rewrite (unified_names [] _ sz Ox U) in L. apply first_seen_In, except_name_In in L as [L _].
    apply in_flat_map in L as (x & Ix & Hn). eauto. }
  destruct Ex as (x & Ix & Hn). exists x. split; [exact Ix|]. split; [exact Hn|]. pose proof (unified_lookup [] _ sz x n U Ix (proj1 (Forall_forall _ _) Ox x Ix) Hn ltac:(intros [])) as Lx.
  rewrite <- Bool.not_true_iff_false in X. destruct (Nat.eq_dec (dim_size x n) k) as [Q|Q]; [exact Q|]. exfalso. apply X. apply existsb_exists. exists (n, k). split; [now apply lookup_In|]. cbn [fst snd]. rewrite Lx. now apply Bool.negb_true_iff, Nat.eqb_neq.
Qed.
Lemma labelled_of_iff l x : In x (labelled_of l) <-> In (Labelled x) l.
Proof.
  unfold labelled_of. rewrite in_flat_map. split.
  - intros (o & Io & Ho). destruct o as [z|t]; [|destruct Ho]. destruct Ho as [->|[]]. exact Io.
  - intros H. exists (Labelled x). split; [exact H|now left].
Qed.
Lemma part_array s a v x : set_ok s -> fits s a -> In v s -> its_part (fst v) a = Labelled x -> In x (arrays_of a) /\ x_ok x /\ forall u, In u s -> sizes_agree (snd u) x.
Proof.
  intros Hs F Iv E. destruct a as [t|[z|t]]; cbn [its_part fits arrays_of labelled_of flat_map app] in *; [|injection E as ->; repeat split; [now left|apply F..]|discriminate E].
  destruct F as (Ht & Ek & Ag). destruct (get_var_name (fst v) t) as (y & Gy & Iy); [apply Ek; apply in_map_iff; now exists v|]. rewrite Gy in E. injection E as ->. split; [apply in_map_iff; now exists (fst v, x)|].
  split; [now apply (proj1 (proj2 Ht) (fst v, x))|]. intros u Iu. now apply (Ag u (fst v, x)).
Qed.
Lemma to_xarr_copied x : to_xarr (copied (fun q => q) x) = x.
Proof. destruct x as [ds [sh data]]. unfold copied, to_xarr, to_tensor, x_shape. cbn. now rewrite map_id. Qed.

Section Update.
  Context (c : csdata) (md : list sname).
  Hypothesis HC : sholds c md.
  Let s := cs_obj c.

  Lemma result_sizes args (F : list tensor -> res (grid Qc)) : args_fit s (map fst args) -> forall v g n k, In v s -> var_fun (fun q => q) md args md [] F v = Ok g -> lookup n (l_sizes g) = Some k ->
    exists x, ((exists u, In u s /\ x = snd u) \/ exists a, In a (map fst args) /\ In x (arrays_of a)) /\ In n (x_dims x) /\ dim_size x n = k /\ forall u, In u s -> sizes_agree (snd u) x.
  Proof.
    intros [Ft Ag]. destruct HC as (Hs & (Nm & _) & _). fold s in Hs. intros v g n k Iv H L. unfold var_fun in H. destruct (has_names md (snd v)) eqn:M; [destruct (forallb _ args)|]; cbn [andb] in H.
      - assert (Ar : forall x, In x (labelled_of (map fst ((Labelled (snd v), md) :: map (fun a => (its_part (fst v) (fst a), snd a)) args))) ->
          x_ok x /\ ((exists u, In u s /\ x = snd u) \/ exists a, In a (map fst args) /\ In x (arrays_of a)) /\ forall u, In u s -> sizes_agree (snd u) x).
        { intros x Ix. apply labelled_of_iff in Ix. cbn [map fst] in Ix. destruct Ix as [Ix|Ix]; [cbn [fst] in Ix; injection Ix as <-|].
          - split; [now apply (proj1 (proj2 Hs))|]. split; [left; eauto|]. intros u Iu. now apply (proj2 (proj2 Hs)).
          - apply in_map_iff in Ix as (p & Ep & Ip). apply in_map_iff in Ip as (a & <- & Ia). cbn [fst] in Ep. assert (Ia' : In (fst a) (map fst args)) by (apply in_map_iff; eauto).
            destruct (part_array s (fst a) v x Hs (Ft _ Ia') Iv Ep) as (J1 & J2 & J3). split; [exact J2|]. split; [right; eauto|exact J3]. }
        assert (Ao : Forall x_ok (labelled_of (map fst ((Labelled (snd v), md) :: map (fun a => (its_part (fst v) (fst a), snd a)) args)))) by (apply Forall_forall; intros x Ix; apply (Ar x Ix)).
        assert (Am : forall m, In m md -> exists x, In x (labelled_of (map fst ((Labelled (snd v), md) :: map (fun a => (its_part (fst v) (fst a), snd a)) args))) /\ In m (x_dims x)).
        { intros m Hm. exists (snd v). split; [apply labelled_of_iff; now left|]. now apply (proj1 (has_names_In md (snd v)) M). }
        destruct (first_arg_In _ md F g Ao Am Nm H n k L) as (x & Ix & Hn & Hk).
        exists x. destruct (Ar x Ix) as (_ & J1 & J2). auto.
      - injection H as <-. unfold copied, l_sizes in L. cbn [lg_dims lg_val gshape] in L. fold (x_shape (snd v)) in L. pose proof (proj1 (proj2 Hs) v Iv) as Hx. rewrite (combine_named _ Hx) in L. apply lookup_In, in_map_iff in L as (m & Em & Im). injection Em as <- <-.
        exists (snd v). split; [left; eauto|]. split; [exact Im|]. split; [reflexivity|]. intros u Iu. now apply (proj2 (proj2 Hs)).
      - injection H as <-. unfold copied, l_sizes in L. cbn [lg_dims lg_val gshape] in L. fold (x_shape (snd v)) in L. pose proof (proj1 (proj2 Hs) v Iv) as Hx. rewrite (combine_named _ Hx) in L. apply lookup_In, in_map_iff in L as (m & Em & Im). injection Em as <- <-.
        exists (snd v). split; [left; eauto|]. split; [exact Im|]. split; [reflexivity|]. intros u Iu. now apply (proj2 (proj2 Hs)).
  Qed.
  Lemma update_each args (f : tensor -> list tensor -> res tensor) : args_fit s (map fst args) ->
    each_object (fun v => if (has_names md (snd v) && forallb (fun a => part_has (snd a) (fst v) (fst a)) args)%bool
                          then x_update (by_itself (cs_params c) (snd v)) md (map (fun a => (its_part (fst v) (fst a), snd a)) args) f
                          else Ok (by_itself (cs_params c) (snd v))) c (s_update c md args f).
  Proof.
    intros [Ft Ag]. destruct HC as (Hs & (Nm & _) & _). fold s in Hs. set (F := fun ts => rmap to_grid (f (arg 0 ts) (tl ts))).
    destruct (ds_apply_each (fun q => q) s md args md [] F Hs Nm Ft (fun a b Ia Ib x y => Ag a b x y Ia Ib)) as [E _].
    pose proof (result_sizes args F (conj Ft Ag)) as Sz.
    assert (Al : each_alone (var_fun (fun q => q) md args md [] F) s (ds_apply (fun q => q) s md args md [] F)).
    { apply (PropDataset.alone _ _ _ E). intros v w g h Iv Iw Ev Ew (n & a & b & La & Lb & D). apply D.
      destruct (Sz v g n a Iv Ev La) as (x & [(u & Iu & Ex)|(o & Io & Ix)] & Nx & <- & Ax), (Sz w h n b Iw Ew Lb) as (y & [(u' & Iu' & Ey)|(o' & Io' & Iy)] & Ny & <- & Ay).
      - subst x. now apply (Ay u Iu).
      - subst x. now apply (Ay u Iu).
      - subst y. symmetry. now apply (Ax u' Iu').
      - now apply (Ag o o'). }
    unfold s_update. fold s F. unfold each_object. fold s. destruct (ds_apply _ _ _ _ _ _ _) as [l|e]; cbn [cs_with rmap rbind each_alone] in *.
    - split; [reflexivity|]. cbn [cs_obj]. revert Al. generalize s. clear. intros s H. induction H as [|v w s l [E1 E2] H IH]; constructor; [|exact IH]. cbn [fst snd]. split; [exact E1|].
      unfold var_fun in E2. destruct (_ && _)%bool; [|injection E2 as <-; unfold by_itself; now rewrite to_xarr_copied]. unfold x_update, by_itself. cbn [cx_obj]. fold F. rewrite E2. reflexivity.
    - destruct Al as (v & Iv & Ev). exists v. split; [exact Iv|]. unfold var_fun in Ev. destruct (_ && _)%bool; [|discriminate Ev]. unfold x_update, by_itself. cbn [cx_obj]. fold F. now rewrite Ev.
  Qed.
  (* the object after a push is an object with the same names *)
  Lemma update_holds args (f : tensor -> list tensor -> res tensor) : args_fit s (map fst args) -> (forall t ts u, f t ts = Ok u -> tensor_ok u) ->
    forall c', s_update c md args f = Ok c' -> sholds c' md /\ map fst (cs_obj c') = map fst s /\ cs_params c' = cs_params c.
  Proof.
    intros [Ft Ag] Ho c' E. pose proof HC as (Hs & (Nm & Lm) & Ep & (v0 & Iv0 & M0) & Hz). fold s in Hs, Iv0, Hz. set (F := fun ts => rmap to_grid (f (arg 0 ts) (tl ts))).
    destruct (ds_apply_each (fun q => q) s md args md [] F Hs Nm Ft (fun a b Ia Ib x y => Ag a b x y Ia Ib)) as [Ea Wf].
    pose proof (result_sizes args F (conj Ft Ag)) as Sz. unfold s_update in E. fold s F in E. destruct (ds_apply _ _ _ _ _ _ _) as [l|e]; cbn [cs_with rmap rbind] in E; [|discriminate E]. injection E as <-. cbn [cs_obj cs_params].
    destruct Ea as [F2 Nc].
    assert (Nf : map fst l = map fst s) by (clear -F2; induction F2 as [|v w s l [H _] _ IH]; [reflexivity|]; cbn [map]; now rewrite H, IH).
    assert (Back : forall w, In w l -> exists v, In v s /\ fst w = fst v /\ var_fun (fun q => q) md args md [] F v = Ok (snd w)).
    { clear -F2. induction F2 as [|v w s l [H1 H2] _ IH]; intros u; [intros []|]. intros [<-|I]; [exists v; split; [now left|auto]|]. destruct (IH u I) as (v' & ? & ?). exists v'. split; [now right|auto]. }
    assert (Fwd : forall v, In v s -> exists w, In w l /\ fst w = fst v /\ var_fun (fun q => q) md args md [] F v = Ok (snd w)).
    { clear -F2. induction F2 as [|v w s l [H1 H2] _ IH]; intros u; [intros []|]. intros [<-|I]; [exists w; split; [now left|auto]|]. destruct (IH u I) as (v' & ? & ?). exists v'. split; [now right|auto]. }
    assert (Ox : forall w, In w l -> x_ok (to_xarr (snd w))).
    { intros w Iw. destruct (Back w Iw) as (v & Iv & _ & Ev). destruct (Wf v _ Iv Ev) as [W1 W2]. split; [|split; [exact W1|symmetry; exact W2]]. unfold var_fun in Ev. destruct (_ && _)%bool.
      - unfold apply_ufunc in Ev. destruct (unified_dim_sizes _ _); [|discriminate Ev]. cbn [rbind] in Ev. destruct (mapR _ _) as [ts|]; [|discriminate Ev]. cbn [rbind] in Ev. destruct (F ts) as [u|] eqn:Fu; [|discriminate Ev]. cbn [rbind] in Ev.
        destruct (negb _); [discriminate Ev|]. destruct (existsb _ _); [discriminate Ev|]. injection Ev as <-. unfold F in Fu. destruct (f _ _) as [u0|] eqn:Fe; [|discriminate Fu]. injection Fu as <-. apply Ho in Fe. exact Fe.
      - injection Ev as <-. rewrite to_xarr_copied. now apply Hs. }
    assert (Sl : forall w n, In w l -> In n (x_dims (to_xarr (snd w))) -> lookup n (l_sizes (snd w)) = Some (dim_size (to_xarr (snd w)) n)).
    { intros w n Iw Hn. pose proof (combine_named _ (Ox w Iw)) as C. change (combine (x_dims (to_xarr (snd w))) (x_shape (to_xarr (snd w)))) with (l_sizes (snd w)) in C. rewrite C. apply In_lookup.
      - rewrite map_map. cbn. rewrite map_id. apply (Ox w Iw).
      - apply in_map_iff. now exists n. }
    assert (Sk : forall w, In w l -> forall v, In v s -> sizes_agree (snd v) (to_xarr (snd w))).
    { intros w Iw v Iv n Nv Nw. destruct (Back w Iw) as (v' & Iv' & _ & Ev). destruct (Sz v' _ n _ Iv' Ev (Sl w n Iw Nw)) as (x & _ & Nx & Ex & Ax). rewrite <- Ex. now apply (Ax v Iv). }
    split; [|split; [unfold to_xset; rewrite map_map; exact Nf|reflexivity]]. unfold sholds. cbn [cs_obj cs_params].
    assert (Iv' : forall v, In v (to_xset l) -> exists w, In w l /\ v = (fst w, to_xarr (snd w))) by (intros v Iv; apply in_map_iff in Iv as (w & <- & Iw); eauto).
    split; [|split; [split; [exact Nm|exact Lm]|split; [exact Ep|split]]].
    - split; [unfold to_xset; rewrite map_map; cbn [fst]; change (NoDup (map fst l)); rewrite Nf; apply Hs|]. split.
      + intros v Iv. destruct (Iv' v Iv) as (w & Iw & ->). now apply Ox.
      + intros v u Iv Iu n Nv Nu. destruct (Iv' v Iv) as (w & Iw & ->), (Iv' u Iu) as (w' & Iw' & ->). cbn [snd] in *. destruct (Nat.eq_dec (dim_size (to_xarr (snd w)) n) (dim_size (to_xarr (snd w')) n)) as [Q|Q]; [exact Q|].
        exfalso. apply (Nc w w' Iw Iw'). exists n, (dim_size (to_xarr (snd w)) n), (dim_size (to_xarr (snd w')) n). split; [now apply Sl|]. split; [now apply Sl|exact Q].
    - destruct (Fwd v0 Iv0) as (w & Iw & _ & Ev). exists (fst w, to_xarr (snd w)). split; [apply in_map_iff; eauto|]. cbn [snd]. apply has_names_In. unfold var_fun in Ev. destruct (_ && _)%bool.
      + destruct (proj2 (apply_dims _ _ _ _ _ Nm Ev)) as (pre & Ed). cbn [to_xarr x_dims]. rewrite Ed. intros m Hm. apply in_or_app. now right.
      + injection Ev as <-. rewrite to_xarr_copied. now apply has_names_In.
    - intros u n Iu Mu Hn. destruct (Iv' u Iu) as (w & Iw & ->). cbn [snd] in *. assert (Nw : In n (x_dims (to_xarr (snd w)))) by (now apply (proj1 (has_names_In _ _) Mu)).
      rewrite <- (Sk w Iw v0 Iv0 n); [now apply (Hz v0 n)|now apply (proj1 (has_names_In _ _) M0)|exact Nw].
  Qed.
  Lemma each_object_ext (f g : sname * xarr -> res cmdata) r : (forall v, In v s -> f v = g v) -> each_object f c r -> each_object g c r.
  Proof.
    intros X H. unfold each_object in *. fold s in H |- *. destruct r as [c'|e].
    - destruct H as [H1 H2]. split; [exact H1|]. revert X H2. generalize s, (cs_obj c'). clear. intros s l X H. induction H as [|v w s l H _ IH]; constructor; [|apply IH; intros u Hu; apply X; now right]. rewrite <- X by now left. exact H.
    - destruct H as (v & Iv & E). exists v. split; [exact Iv|]. now rewrite <- X.
  Qed.
End Update.

(* ---- preparation of the arguments --------------------------------------------------------- *)

Definition prep_with (g : tensor -> res tensor) (a : dop) : res dop := match a with DArr (Plain t) => rmap (fun t => DArr (Plain t)) (g t) | _ => Ok a end.
Definition prepx_with (g : tensor -> res tensor) (o : xop) : res xop := match o with Labelled _ => Ok o | Plain t => rmap Plain (g t) end.
Lemma prep_same g l o : mapR (prep_with g) l = Ok o -> Forall2 (fun a b => arrays_of b = arrays_of a /\ (forall s, fits s a -> fits s b) /\ forall ds n, part_has ds n b = part_has ds n a) l o.
Proof.
  intros E. apply ProofAxes.mapR_Forall2 in E. eapply Forall2_imp_; [|exact E]. intros a b H. cbn beta in H. destruct a as [t|[z|t]]; cbn [prep_with] in H; [injection H as <-; auto|injection H as <-; auto|].
  destruct (g t) as [u|]; [|discriminate H]. injection H as <-. split; [reflexivity|]. split; [intros s _; exact I|reflexivity].
Qed.
Lemma prep_parts g s v l : set_ok s -> In v s -> (forall a, In a l -> fits s a) ->
  mapR (prepx_with g) (map (its_part (fst v)) l) = rmap (map (its_part (fst v))) (mapR (prep_with g) l).
Proof.
  intros Hs Iv. induction l as [|a l IH]; intros F; [reflexivity|]. cbn [map mapR]. rewrite IH by (intros b Hb; apply F; now right).
  assert (E : prepx_with g (its_part (fst v) a) = rmap (its_part (fst v)) (prep_with g a)).
  { destruct a as [t|[z|t]]; [|reflexivity|cbn; now destruct (g t)]. destruct (F (DSet t) (or_introl eq_refl)) as (_ & E & _). destruct (get_var_name (fst v) t) as (y & Gy & _); [apply E; apply in_map_iff; now exists v|]. cbn [prep_with its_part]. unfold rmap. cbn [rbind its_part]. now rewrite Gy. }
  rewrite E. destruct (prep_with g a); cbn [rmap rbind]; [|reflexivity]. destruct (mapR (prep_with g) l); reflexivity.
Qed.
Lemma same_fit s l o : Forall2 (fun a b => arrays_of b = arrays_of a /\ (forall s, fits s a -> fits s b) /\ forall ds n, part_has ds n b = part_has ds n a) l o -> args_fit s l -> args_fit s o.
Proof.
  intros F [Ft Ag].
  assert (Back : forall b, In b o -> exists a, In a l /\ arrays_of b = arrays_of a /\ (fits s a -> fits s b)).
  { clear -F. induction F as [|a b l o (H1 & H2 & _) F IH]; intros c; [intros []|]. intros [<-|I]; [exists a; split; [now left|auto]|]. destruct (IH c I) as (a' & ? & ?). exists a'. split; [now right|auto]. }
  split.
  - intros b Ib. destruct (Back b Ib) as (a & Ia & _ & H). auto.
  - intros b b' x y Ib Ib' Ix Iy. destruct (Back b Ib) as (a & Ia & E & _), (Back b' Ib') as (a' & Ia' & E' & _). rewrite E in Ix. rewrite E' in Iy. now apply (Ag a a').
Qed.
Lemma same_parts l o ds n : Forall2 (fun a b => arrays_of b = arrays_of a /\ (forall s, fits s a -> fits s b) /\ forall ds n, part_has ds n b = part_has ds n a) l o ->
  forallb (part_has ds n) o = forallb (part_has ds n) l.
Proof. induction 1 as [|a b l o (_ & _ & H) F IH]; [reflexivity|]. cbn [forallb]. now rewrite H, IH. Qed.
Lemma forallb_pairs {X} (h : X -> dop -> bool) (k : X) l : forallb (fun a => h (snd a) (fst a)) (map (fun o => (o, k)) l) = forallb (h k) l.
Proof. induction l as [|a l IH]; [reflexivity|]. cbn [map forallb fst snd]. now rewrite IH. Qed.
Lemma map_pairs {X Y} (h : dop -> X) (k : Y) l : map (fun a => (h (fst a), snd a)) (map (fun o => (o, k)) l) = map (fun o => (o, k)) (map h l).
Proof. now rewrite !map_map. Qed.
Lemma map_fst_pairs {X Y} (k : Y) (l : list X) : map fst (map (fun o => (o, k)) l) = l.
Proof. rewrite map_map. cbn. apply map_id. Qed.

(* ---- pushes -------------------------------------------------------------------------------- *)

Lemma fits_other s t a l : set_ok s -> args_fit s (DSet t :: l) -> In a l -> fits t a.
Proof.
  intros Hs [Ft Ag] Ia. destruct (Ft (DSet t) (or_introl eq_refl)) as (Ht & Kt & _). pose proof (Ft a (or_intror Ia)) as Fa.
  assert (Ax : forall x y, In x (map snd t) -> In y (arrays_of a) -> sizes_agree x y) by (intros x y Ix Iy; apply (Ag (DSet t) a x y); [now left|now right|exact Ix|exact Iy]).
  assert (Iw : forall w, In w t -> In (snd w) (map snd t)) by (intros w Hw; apply in_map_iff; eauto).
  destruct a as [u|[z|u]]; cbn [fits arrays_of labelled_of flat_map app] in *; [|split; [apply Fa|]; intros v Iv; apply Ax; [auto|now left]|exact I].
  destruct Fa as (Hu & Ku & _). split; [exact Hu|]. split; [intros n; now rewrite <- Kt, Ku|]. intros v w Iv Jw. apply Ax; [auto|]. apply in_map_iff. eauto.
Qed.
Lemma select_named z md axis dim d : x_ok z -> ~ In d md -> chooses (List.length md) axis dim d z -> exists a, select_axis_dim (params_for md) (XArr (x_dims z)) axis dim Missing Missing false = Ok (a, d).
Proof. intros H N C. destruct (chooses_select z md axis dim d (proj1 (proj2 H)) N C) as (a & _ & E). eauto. Qed.
Lemma part_labelled s t v : set_ok s -> fits s (DSet t) -> In v s -> exists x, its_part (fst v) (DSet t) = Labelled x /\ In (fst v, x) t /\ x_ok x.
Proof.
  intros Hs (Ht & Kt & _) Iv. destruct (get_var_name (fst v) t) as (x & G & Ix); [apply Kt; apply in_map_iff; now exists v|]. exists x. cbn [its_part]. rewrite G. split; [reflexivity|]. split; [exact Ix|]. now apply (proj1 (proj2 Ht) (fst v, x)).
Qed.

Section Push.
  Context {A V : Type} (K : pusher A V) (P : packer A) (R : reader V) (stretch : bool) (c : csdata) (md : list sname).
  Hypothesis HC : sholds c md.
  Let s := cs_obj c.

  Let result (call : set_call) (d : sname) (v : sname * xarr) : res cmdata :=
    if takes_part md d call v then run_named K P R stretch (by_itself (cs_params c) (snd v)) (call_for (fst v) call) else Ok (by_itself (cs_params c) (snd v)).

  Lemma output_ok args obj axes f u : gufunc_update K P stretch args obj axes f = Ok u -> tensor_ok u.
  Proof.
    unfold gufunc_update. intros H. repeat match type of H with
      | rbind ?m _ = _ => destruct m; [|discriminate H]; cbn [rbind] in H
      | (if ?b then _ else _) = _ => destruct b; [discriminate H|]
      | (let _ := _ in _) = _ => cbv zeta in H
      end. injection H as <-. apply tabulate_ok.
  Qed.
  Lemma data_output_ok scale t ts u : update_data K P stretch scale t ts = Ok u -> tensor_ok u.
  Proof. unfold update_data. destruct scale; apply output_ok. Qed.
  Let Both (call : set_call) (d : sname) (r : res csdata) : Prop :=
    each_object (result call d) c r /\ forall c', r = Ok c' -> sholds c' md /\ map fst (cs_obj c') = map fst s.
  Lemma push_both call d : args_fit s (call_args call) -> along_samples md call d -> (exists v, In v s /\ takes_part md d call v = true) -> Both call d (run_set K P R stretch c call).
  Proof.
    intros Ft Hd (v0 & Iv0 & T0). pose proof HC as (Hs & (Nm & Lm) & Ep & _). fold s in Hs. pose proof (params_dims md) as Pd. rewrite <- Ep in Pd.
    assert (Stop : forall e, (forall v, In v s -> takes_part md d call v = true -> run_named K P R stretch (by_itself (cs_params c) (snd v)) (call_for (fst v) call) = Raise e) -> Both call d (Raise e)).
    { intros e H. split; [|intros c' Q; discriminate Q]. exists v0. split; [exact Iv0|]. unfold result. rewrite T0. now apply H. }
    assert (Go : forall args f, args_fit s (map fst args) ->
      (forall v, In v s -> forallb (fun a => part_has (snd a) (fst v) (fst a)) args = forallb (part_has (call_core md d call) (fst v)) (call_args call)) ->
      (forall v, In v s -> takes_part md d call v = true -> run_named K P R stretch (by_itself (cs_params c) (snd v)) (call_for (fst v) call) =
         x_update (by_itself (cs_params c) (snd v)) md (map (fun a => (its_part (fst v) (fst a), snd a)) args) f) -> (forall t ts u, f t ts = Ok u -> tensor_ok u) -> Both call d (s_update c md args f)).
    { intros args f F1 F2 F3 F4. split; [|intros c' E; destruct (update_holds c md HC args f F1 F4 c' E) as (U1 & U2 & _); now split]. eapply each_object_ext; [|apply (update_each c md HC args f F1)]. intros v Iv. cbn beta. unfold result. rewrite (F2 v Iv). fold (takes_part md d call v). destruct (takes_part md d call v) eqn:T; [|reflexivity]. now rewrite (F3 v Iv T). }
    destruct call as [a scale|axis dim ma a|x w y|axis dim x w y]; cbn [run_set call_args call_core call_for along_samples] in *.
    - unfold cs_push_data. rewrite Pd. cbn [rbind]. apply Go; [exact Ft|reflexivity| |solve [intros t1 ts1 u1; first [apply output_ok|apply data_output_ok]]]. intros v Iv _. cbn [run_named]. unfold cx_push_data, by_itself. cbn [cx_params]. now rewrite Pd.
    - unfold cs_push_datas. rewrite Pd. cbn [rbind]. destruct a as [t|[z|t]]; cbn [prepare_datas].
      + destruct Hd as (-> & -> & Nd). assert (Fa : fits s (DSet t)) by (apply (proj1 Ft); now left). destruct (ds_dims_ok t (proj1 Fa)) as (dims & Ed & _). rewrite Ed. cbn [rbind].
        assert (Es : exists n, select_axis_dim (cs_params c) (XSet dims) Missing (Val d) Missing Missing false = Ok (n, d)).
        { rewrite Ep. unfold select_axis_dim, guard. cbn [validate_not_none rbind]. unfold raise_if_dim_in_mom_dims. cbn [xp_dims params_for]. rewrite (proj2 (smem_false d md) Nd). cbn [rbind]. eauto. }
        destruct Es as (n & ->). cbn [rbind]. apply Go; [exact Ft|reflexivity| |solve [intros t1 ts1 u1; first [apply output_ok|apply data_output_ok]]]. intros v Iv T. cbn [run_named]. unfold cx_push_datas, by_itself. cbn [cx_params]. rewrite Pd. cbn [rbind map fst snd].
        destruct (part_labelled s t v Hs Fa Iv) as (x & Ex & _ & Hx). rewrite Ex. destruct (select_named x md Missing (Val d) d Hx Nd) as (k & Ek).
        { left. split; [reflexivity|]. split; [reflexivity|]. unfold takes_part in T. apply andb_prop in T as [_ T]. cbn [call_args call_core forallb] in T. apply andb_prop in T as [T _]. unfold part_has in T. rewrite Ex in T. apply (proj1 (has_names_In _ _) T). now left. }
        rewrite Ep, Ek. reflexivity.
      + destruct Hd as [Hd Nd]. assert (Fa : fits s (DArr (Labelled z))) by (apply (proj1 Ft); now left). destruct (select_named z md axis dim d (proj1 Fa) Nd Hd) as (k & Ek). rewrite Ep, Ek. cbn [rbind]. apply Go; [exact Ft|reflexivity| |solve [intros t1 ts1 u1; first [apply output_ok|apply data_output_ok]]].
        intros v Iv T. cbn [run_named its_part]. unfold cx_push_datas, by_itself. cbn [cx_params]. rewrite Pd, Ep, Ek. reflexivity.
      + destruct (array_factory _ _ _ _ _) as [q|e] eqn:E1; cbn [rbind].
        2:{ apply Stop. intros v Iv T. cbn [run_named its_part]. unfold cx_push_datas, by_itself. cbn [cx_params]. rewrite Pd, E1. reflexivity. }
        destruct (iter_axes q) as [mom|e] eqn:E2; cbn [rbind].
        2:{ apply Stop. intros v Iv T. cbn [run_named its_part]. unfold cx_push_datas, by_itself. cbn [cx_params]. rewrite Pd, E1. cbn [rbind]. now rewrite E2. }
        destruct (given_axis axis) as [ax|e] eqn:E3; cbn [rbind].
        2:{ apply Stop. intros v Iv T. cbn [run_named its_part]. unfold cx_push_datas, by_itself. cbn [cx_params]. rewrite Pd, E1. cbn [rbind]. rewrite E2. cbn [rbind]. now rewrite E3. }
        destruct (prepare_data ax mom true t) as [[[a1 m1] t1]|e] eqn:E4; cbn [rbind].
        2:{ apply Stop. intros v Iv T. cbn [run_named its_part]. unfold cx_push_datas, by_itself. cbn [cx_params]. rewrite Pd, E1. cbn [rbind]. rewrite E2. cbn [rbind]. rewrite E3. cbn [rbind]. now rewrite E4. }
        apply Go; [| | |solve [intros t9 ts9 u9; first [apply output_ok|apply data_output_ok]]].
        * split; [intros b [<-|[]]; exact I|]. intros b b' p q' [<-|[]] _ []. 
        * intros v Iv. reflexivity.
        * intros v Iv T. cbn [run_named its_part]. unfold cx_push_datas, by_itself. cbn [cx_params]. rewrite Pd, E1. cbn [rbind]. rewrite E2. cbn [rbind]. rewrite E3. cbn [rbind]. rewrite E4. reflexivity.
    - unfold cs_push_val. destruct (negb _) eqn:L.
      + apply Stop. intros v Iv _. cbn [run_named]. unfold cx_push_val. now rewrite map_length, L.
      + rewrite Pd. cbn [rbind]. apply Go; [| | |solve [intros t9 ts9 u9; first [apply output_ok|apply data_output_ok]]].
        * rewrite map_fst_pairs. exact Ft.
        * intros v Iv. apply (forallb_pairs (fun ds => part_has ds (fst v)) []).
        * intros v Iv _. cbn [run_named]. unfold cx_push_val, by_itself. rewrite map_length, L. cbn [cx_params]. rewrite Pd. cbn [rbind]. now rewrite map_pairs.
    - unfold cs_push_vals. rewrite Pd. cbn [rbind].
      assert (Tx : forall v, In v s -> takes_part md d (SVals axis dim x w y) v = true -> part_has [d] (fst v) x = true).
      { intros v Iv T. unfold takes_part in T. apply andb_prop in T as [_ T]. cbn [call_args call_core forallb] in T. now apply andb_prop in T as [T _]. }
      destruct x as [t|[z|t]]; cbn [prepare_vals].
      + destruct Hd as (-> & -> & Nr). assert (Fa : fits s (DSet t)) by (apply (proj1 Ft); now left).
        assert (Fo : forall a, In a (w :: y) -> fits t a) by (intros a Ia; apply (fits_other s t a (w :: y) Hs Ft Ia)).
        assert (Low : forall a, In a (w :: y) -> one_axis a) by (intros a Ia; exact (proj1 (Forall_forall _ _) Nr a Ia)).
        assert (Vx : forall v, In v s -> takes_part md d (SVals Missing (Val d) (DSet t) w y) v = true ->
          exists x, its_part (fst v) (DSet t) = Labelled x /\ In (fst v, x) t /\ In d (x_dims x)).
        { intros v Iv T. destruct (part_labelled s t v Hs Fa Iv) as (x & Ex & Ix & _). exists x. split; [exact Ex|]. split; [exact Ix|]. pose proof (Tx v Iv T) as Q. unfold part_has in Q. rewrite Ex in Q. apply (proj1 (has_names_In _ _) Q). now left. }
        destruct (Vx v0 Iv0 T0) as (x0 & Ex0 & Ix0 & Hx0).
        destruct (Nat.eqb (List.length (w :: y)) (mom_ndim P)) eqn:Ln.
        2:{ unfold ds_prepare_values. replace (Nat.eqb (Datatypes.S (List.length (w :: y))) (Datatypes.S (mom_ndim P))) with false by (cbn [Nat.eqb]; now rewrite Ln). cbn [negb rmap rbind]. apply Stop. intros v Iv T. cbn [run_named].
            destruct (Vx v Iv T) as (x & Ex & _). unfold cx_push_vals, by_itself. cbn [cx_params]. rewrite Pd, Ex. cbn [rbind]. unfold xprepare_values.
            replace (Nat.eqb (Datatypes.S (List.length (its_part (fst v) w :: map (its_part (fst v)) y))) (Datatypes.S (mom_ndim P))) with false by (cbn [Nat.eqb List.length] in *; now rewrite map_length, Ln). reflexivity. }
        apply Nat.eqb_eq in Ln.
        rewrite (ds_prepare_eq t d (w :: y) (proj1 Fa) Fo Low (fst v0, x0) _ Ix0 Hx0 (f_equal Datatypes.S Ln)). cbn [snd].
        assert (Each : forall v, In v s -> takes_part md d (SVals Missing (Val d) (DSet t) w y) v = true ->
          run_named K P R stretch (by_itself (cs_params c) (snd v)) (NVals Missing (Val d) (its_part (fst v) (DSet t)) (its_part (fst v) w) (map (its_part (fst v)) y)) =
          rbind (mapR (prep (dim_size x0 d)) (w :: y)) (fun o => x_update (by_itself (cs_params c) (snd v)) md (map (fun a => (its_part (fst v) (fst a), snd a)) (map (fun o => (o, [d])) (DSet t :: o))) (update_vals K P R stretch))).
        { intros v Iv T. destruct (Vx v Iv T) as (x & Ex & Ix & Hx). cbn [run_named]. unfold cx_push_vals, by_itself. cbn [cx_params]. rewrite Pd, Ex. cbn [rbind].
          pose proof (x_prepare_parts t d (w :: y) (proj1 Fa) Fo Low (fst v, x) _ Ix Hx (f_equal Datatypes.S Ln)) as E. cbn [fst snd map] in E. rewrite E.
          replace (dim_size x d) with (dim_size x0 d) by (apply (proj2 (proj2 (proj1 Fa)) (fst v0, x0) (fst v, x)); auto).
          clear E. destruct (mapR (prep (dim_size x0 d)) (w :: y)) as [o|]; cbn [rbind rmap]; [|reflexivity]. rewrite map_pairs. cbn [map]. now rewrite Ex. }
        cbn [call_for its_part] in Each. destruct (mapR (prep (dim_size x0 d)) (w :: y)) as [o|e] eqn:Eo; cbn [rbind rmap].
        2:{ apply Stop. intros v Iv T. exact (Each v Iv T). }
        pose proof (prep_same _ _ _ Eo) as Sm.
        assert (Sm' : Forall2 (fun a b => arrays_of b = arrays_of a /\ (forall s, fits s a -> fits s b) /\ forall ds n, part_has ds n b = part_has ds n a) (DSet t :: w :: y) (DSet t :: o)) by (constructor; [auto|exact Sm]).
        apply Go; [| | |solve [intros t9 ts9 u9; first [apply output_ok|apply data_output_ok]]].
        * rewrite map_fst_pairs. exact (same_fit s _ _ Sm' Ft).
        * intros v Iv. rewrite (forallb_pairs (fun ds => part_has ds (fst v)) [d]). now apply same_parts.
        * exact Each.
      + assert (Fa : fits s (DArr (Labelled z))) by (apply (proj1 Ft); now left). destruct (select_named z [] axis dim d (proj1 Fa) ltac:(intros []) Hd) as (k & Ek).
        assert (Ek' : select_axis_dim default_x_params (XArr (x_dims z)) axis dim Missing Missing false = Ok (k, d)).
        { rewrite <- Ek. reflexivity. }
        set (g := prepare_secondary (positive_to_negative_index (Z.of_nat k) (Z.of_nat (List.length (x_dims z)))) (dim_size z d) true).
        assert (Ea : arr_prepare_values (Datatypes.S (mom_ndim P)) axis dim z (w :: y) =
          if negb (Nat.eqb (Datatypes.S (List.length (w :: y))) (Datatypes.S (mom_ndim P))) then Raise EValue else rbind (mapR (prep_with g) (w :: y)) (fun o => Ok (d, o))).
        { unfold arr_prepare_values. destruct (negb _); [reflexivity|]. rewrite Ek'. cbn [rbind]. rewrite sizes_named by (eapply chooses_dim; exact Hd). reflexivity. }
        assert (Ev : forall v, In v s -> xprepare_values (Datatypes.S (mom_ndim P)) axis dim z (map (its_part (fst v)) (w :: y)) =
          rbind (arr_prepare_values (Datatypes.S (mom_ndim P)) axis dim z (w :: y)) (fun '(d, o) => Ok (d, map (its_part (fst v)) o))).
        { intros v Iv. rewrite Ea. unfold xprepare_values. rewrite map_length. destruct (negb _); [reflexivity|]. rewrite Ek'. cbn [rbind]. rewrite sizes_named by (eapply chooses_dim; exact Hd). cbn [rbind].
          change (mapR _ (map (its_part (fst v)) (w :: y))) with (mapR (prepx_with g) (map (its_part (fst v)) (w :: y))).
          rewrite (prep_parts g s v (w :: y) Hs Iv) by (intros a Ia; apply (proj1 Ft); now right). destruct (mapR (prep_with g) (w :: y)); reflexivity. }
        assert (Each : forall v, In v s -> run_named K P R stretch (by_itself (cs_params c) (snd v)) (NVals axis dim (Labelled z) (its_part (fst v) w) (map (its_part (fst v)) y)) =
          rbind (arr_prepare_values (Datatypes.S (mom_ndim P)) axis dim z (w :: y))
            (fun '(d, o) => x_update (by_itself (cs_params c) (snd v)) md (map (fun a => (its_part (fst v) (fst a), snd a)) (map (fun o => (o, [d])) (DArr (Labelled z) :: o))) (update_vals K P R stretch))).
        { intros v Iv. cbn [run_named]. unfold cx_push_vals, by_itself. cbn [cx_params]. rewrite Pd. cbn [rbind]. pose proof (Ev v Iv) as E. cbn [map] in E. rewrite E.
          destruct (arr_prepare_values _ _ _ _ _) as [[d' o]|]; cbn [rbind rmap]; [|reflexivity]. rewrite map_pairs. reflexivity. }
        rewrite Ea in Each |- *. destruct (negb _); cbn [rmap rbind] in *; [apply Stop; intros v Iv _; now apply Each|]. destruct (mapR (prep_with g) (w :: y)) as [o|e] eqn:Eo; cbn [rmap rbind] in *; [|apply Stop; intros v Iv _; now apply Each].
        pose proof (prep_same _ _ _ Eo) as Sm.
        assert (Sm' : Forall2 (fun a b => arrays_of b = arrays_of a /\ (forall s, fits s a -> fits s b) /\ forall ds n, part_has ds n b = part_has ds n a) (DArr (Labelled z) :: w :: y) (DArr (Labelled z) :: o)) by (constructor; [auto|exact Sm]).
        apply Go; [| | |solve [intros t9 ts9 u9; first [apply output_ok|apply data_output_ok]]].
        * rewrite map_fst_pairs. exact (same_fit s _ _ Sm' Ft).
        * intros v Iv. rewrite (forallb_pairs (fun ds => part_has ds (fst v)) [d]). now apply same_parts.
        * intros v Iv _. now apply Each.
      + destruct Hd as [-> Pl].
        assert (Ts : exists ts, w :: y = map (fun t => DArr (Plain t)) ts).
        { clear -Pl. induction Pl as [|a l (t & ->) _ (ts & ->)]; [now exists []|]. now exists (t :: ts). }
        destruct Ts as (ts & Ets).
        assert (Em : mapR dop_plain (w :: y) = Ok ts).
        { rewrite Ets. clear. induction ts as [|t ts IH]; [reflexivity|]. cbn [map mapR]. rewrite IH. reflexivity. }
        assert (Ep' : forall v : sname * xarr, map as_plain (its_part (fst v) w :: map (its_part (fst v)) y) = ts).
        { intros v. change (map as_plain (map (its_part (fst v)) (w :: y)) = ts). rewrite Ets, !map_map. cbn. apply map_id. }
        destruct (negb _) eqn:Ln.
        { apply Stop. intros v Iv _. cbn [run_named its_part]. unfold cx_push_vals, by_itself. cbn [cx_params]. rewrite Pd. cbn [rbind]. cbn [List.length] in *. now rewrite map_length, Ln. }
        destruct (given_axis axis) as [ax|e] eqn:E3; cbn [rbind].
        2:{ apply Stop. intros v Iv _. cbn [run_named its_part]. unfold cx_push_vals, by_itself. cbn [cx_params]. rewrite Pd. cbn [rbind]. cbn [List.length] in *. rewrite map_length, Ln, E3. reflexivity. }
        rewrite Em. cbn [rbind]. destruct (prepare_values (Datatypes.S (mom_ndim P)) ax true t ts) as [[a1 [x1 o1]]|e] eqn:E4; cbn [rmap rbind].
        2:{ apply Stop. intros v Iv _. cbn [run_named its_part]. unfold cx_push_vals, by_itself. cbn [cx_params]. rewrite Pd. cbn [rbind]. cbn [List.length] in *. rewrite map_length, Ln, E3. cbn [rbind]. rewrite Ep', E4. reflexivity. }
        apply Go; [| | |solve [intros t9 ts9 u9; first [apply output_ok|apply data_output_ok]]].
        * rewrite map_fst_pairs. split; [intros b Ib; apply in_map_iff in Ib as (? & <- & _); exact I|]. intros b b' p q' Ib _ Ip. apply in_map_iff in Ib as (? & <- & _). destruct Ip.
        * intros v Iv. rewrite (forallb_pairs (fun ds => part_has ds (fst v))). rewrite Ets. cbn [forallb]. change (part_has ["_dummy123"] (fst v) (DArr (Plain t))) with true. cbn [andb].
          assert (Q : forall l, forallb (part_has ["_dummy123"] (fst v)) (map (fun t => DArr (Plain t)) l) = true) by (induction l; [reflexivity|assumption]). unfold dummy_dim. now rewrite !Q.
        * intros v Iv _. cbn [run_named its_part]. unfold cx_push_vals, by_itself. cbn [cx_params]. rewrite Pd. cbn [rbind]. cbn [List.length] in *. rewrite map_length, Ln, E3. cbn [rbind]. rewrite Ep', E4. cbn [rmap rbind]. rewrite map_pairs. rewrite !map_map. reflexivity.
  Qed.
  (* C163: a push onto an object that holds a Dataset pushes onto each variable that has
     the moments and whose arguments have their dimensions, as the object with that
     variable alone does; the other variables stay *)
  Theorem push_set call d : args_fit s (call_args call) -> along_samples md call d -> (exists v, In v s /\ takes_part md d call v = true) ->
    each_object (fun v => if takes_part md d call v then run_named K P R stretch (by_itself (cs_params c) (snd v)) (call_for (fst v) call) else Ok (by_itself (cs_params c) (snd v)))
      c (run_set K P R stretch c call).
  Proof. intros Ft Hd Ex. apply (push_both call d Ft Hd Ex). Qed.
  (* and gives an object with the same names, which takes further calls *)
  Theorem push_set_holds call d : args_fit s (call_args call) -> along_samples md call d -> (exists v, In v s /\ takes_part md d call v = true) ->
    forall c', run_set K P R stretch c call = Ok c' -> sholds c' md /\ map fst (cs_obj c') = map fst s.
  Proof. intros Ft Hd Ex. apply (push_both call d Ft Hd Ex). Qed.
End Push.
