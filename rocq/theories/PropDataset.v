(* Functions of Datasets act on each variable that has the dimensions they need, as the
   functions of DataArrays do, and pass on the other variables. *)
From Coq Require Import String Permutation.
From Verif Require Import Base BaseLemmas ModelPush ModelKernels ModelIndex ModelAxes ModelParams ModelWrap ModelNd ModelLabel ModelDataset Spec SpecAxes SpecNd SpecLabel SpecLabelTwo SpecDataset
  ProofAxes ProofArrays ProofIndex ProofNd PropAxes PropParams PropWrap PropLabelled PropNd PropNdUse ProofLabel ProofLabelMany PropLabel ProofDataset.
Local Open Scope string_scope.
Local Open Scope nat_scope.

(* ---- one argument ------------------------------------------------------------------------- *)

Lemma has_names_In ds x : has_names ds x = true <-> incl ds (x_dims x).
Proof. unfold has_names. apply forallb_incl. Qed.
Lemma one_set {T} (dflt : T) (inj : Qc -> T) s md d to_end excl (f : list tensor -> res (grid T)) : set_ok s -> moment_names md -> ~ In d md ->
  each_variable (fun v => if has_names (d :: md) (snd v)
                          then rbind (apply_ufunc [(Labelled (snd v), d :: md)] (d :: md) excl f) (finish dflt to_end (snd v))
                          else Ok (passed inj (if to_end then d :: md else x_dims (snd v)) (snd v)))
    s (rbind (ds_apply inj s (d :: md) [] (d :: md) excl f) (ds_finish dflt to_end s (fun n => n) [] (d :: md))).
Proof.
  intros Hs (Nm & _) Nd. eapply each_ext; [|apply (each_data dflt inj s (d :: md) [] (d :: md) excl f to_end (fun n => n) [] Hs)].
  - intros v Iv. unfold done_var, order_of. cbn [forallb map]. rewrite andb_true_r. destruct (has_names _ _); [reflexivity|]. now rewrite map_id, app_nil_r.
  - now constructor.
  - intros a [].
  - intros a b [].
  - intros _ v Iv. rewrite map_id, app_nil_r. now apply Hs.
Qed.
Lemma x_start {X} x md d (f : nat -> sname -> list sname -> list Z -> axis_arg -> res X) : x_ok x -> moment_names md -> ~ In d md -> has_names (d :: md) x = true ->
  exists a, nth_error (x_dims x) a = Some d /\
    with_dim (params_for md) Missing (Val d) x f = f a d (d :: md) (axes_last (List.length md)) (AInt (- (Z.of_nat (List.length md) + 1))).
Proof. intros Hx (_ & L) Nd H. apply has_names_In in H. apply with_dim_eq; [apply Hx|exact Nd|exact L|]. left. repeat split; auto. apply H. now left. Qed.
Ltac enter Hs Iv Hm Nd S := match goal with |- context[with_dim _ _ _ _ ?f] => let a := fresh "a" in let Ea := fresh "Ea" in let E := fresh "E" in
  destruct (x_start _ _ _ f (proj1 (proj2 Hs) _ Iv) Hm Nd S) as (a & Ea & E); rewrite E; clear E end.

Theorem cumulative_set : forall {A V} (K : pusher A V) (P : packer A) inverse md d to_end s, set_ok s -> moment_names md -> ~ In d md ->
  each_variable (fun v => if has_names (d :: md) (snd v) then x_cumulative K P (params_for md) inverse Missing (Val d) to_end (snd v)
                          else Ok (passed (fun q => q) (if to_end then d :: md else x_dims (snd v)) (snd v)))
    s (ds_cumulative K P (params_for md) inverse Missing (Val d) to_end s).
Proof.
  intros A V K P inverse md d to_end s Hs Hm Nd. unfold ds_cumulative. rewrite (ds_with_dim_eq s md d _ Hs Nd (proj2 Hm)).
  eapply each_ext; [|apply one_set; auto]. intros v Iv. cbn beta. destruct (has_names _ _) eqn:S; [|reflexivity]. unfold x_cumulative. now enter Hs Iv Hm Nd S.
Qed.
Theorem rolling_set : forall {A V} (K : pusher A V) (P : packer A) window min_periods center zero md d to_end s, set_ok s -> moment_names md -> ~ In d md ->
  each_variable (fun v => if has_names (d :: md) (snd v) then x_rolling_data K P (params_for md) window min_periods center zero Missing (Val d) to_end (snd v)
                          else Ok (passed Some (if to_end then d :: md else x_dims (snd v)) (snd v)))
    s (ds_rolling_data K P (params_for md) window min_periods center zero Missing (Val d) to_end s).
Proof.
  intros A V K P w mp c z md d to_end s Hs Hm Nd. unfold ds_rolling_data. rewrite (ds_with_dim_eq s md d _ Hs Nd (proj2 Hm)).
  eapply each_ext; [|apply one_set; auto]. intros v Iv. cbn beta. destruct (has_names _ _) eqn:S; [|reflexivity]. unfold x_rolling_data. now enter Hs Iv Hm Nd S.
Qed.

(* ---- renamed dimensions ---------------------------------------------------------------------- *)

Lemma rename_wf {T} d new (g : lgrid T) : lg_wf g -> (forall n, new = Some n -> n <> d -> ~ In n (lg_dims g)) -> opt_rename d new g = Ok (renamed_grid d new g).
Proof.
  intros W F. destruct new as [n|]; [|reflexivity]. cbn [opt_rename renamed_grid]. unfold l_rename. destruct (String.eqb_spec d n) as [->|D]; [reflexivity|]. cbn [negb andb]. now rewrite (proj2 (smem_false _ _) (F n eq_refl (fun E => D (eq_sym E)))).
Qed.
Lemma rename_sizes {T} d n (g : lgrid T) m : lg_wf g -> (n <> d -> ~ In n (lg_dims g)) ->
  lookup m (l_sizes (renamed_grid d (Some n) g)) = if String.eqb m n then lookup d (l_sizes g) else if String.eqb m d then None else lookup m (l_sizes g).
Proof.
  intros (N & L) F. unfold l_sizes, renamed_grid. cbn [lg_dims lg_val]. revert L F. generalize (gshape (lg_val g)). generalize (lg_dims g) N. clear. intros dims N. induction N as [|a dims Na N IH]; intros [|k shape] L F; try discriminate.
  - cbn. now destruct (String.eqb m n), (String.eqb m d).
  - injection L as L. cbn [map combine]. unfold lookup in *. cbn [find fst snd]. specialize (IH shape L (fun H Q => F H (or_intror Q))).
    destruct (String.eqb_spec a d) as [->|Da].
    + destruct (String.eqb_spec n m) as [->|Dm]; [now rewrite String.eqb_refl|]. rewrite IH. destruct (String.eqb_spec m n); [congruence|]. destruct (String.eqb_spec m d) as [->|D]; [reflexivity|]. destruct (String.eqb_spec d m); [congruence|reflexivity].
    + destruct (String.eqb_spec a m) as [->|Dm].
      * destruct (String.eqb_spec m n) as [->|]; [|destruct (String.eqb_spec m d); [congruence|reflexivity]]. exfalso. apply F; [auto|now left].
      * exact IH.
Qed.
Lemma rename_clash {T} d new (g h : lgrid T) : lg_wf g -> lg_wf h -> (forall n, new = Some n -> n <> d -> ~ In n (lg_dims g) /\ ~ In n (lg_dims h)) ->
  clash g h <-> clash (renamed_grid d new g) (renamed_grid d new h).
Proof.
  intros Wg Wh F. destruct new as [n|]; [|reflexivity].
  assert (Sg : forall m, lookup m (l_sizes (renamed_grid d (Some n) g)) = if String.eqb m n then lookup d (l_sizes g) else if String.eqb m d then None else lookup m (l_sizes g)) by (intros m; apply rename_sizes; [exact Wg|]; intros H; now apply (F n eq_refl H)).
  assert (Sh : forall m, lookup m (l_sizes (renamed_grid d (Some n) h)) = if String.eqb m n then lookup d (l_sizes h) else if String.eqb m d then None else lookup m (l_sizes h)) by (intros m; apply rename_sizes; [exact Wh|]; intros H; now apply (F n eq_refl H)).
  unfold clash. fold (l_sizes g) (l_sizes h) (l_sizes (renamed_grid d (Some n) g)) (l_sizes (renamed_grid d (Some n) h)). split; intros (m & a & b & A & B & D).
  - destruct (String.eqb_spec m d) as [->|E].
    + exists n, a, b. rewrite Sg, Sh, String.eqb_refl. auto.
    + exists m, a, b. rewrite Sg, Sh. destruct (String.eqb_spec m n) as [->|E']; [exfalso|destruct (String.eqb_spec m d); [congruence|auto]].
      apply lookup_In in A. unfold l_sizes in A. apply in_combine_l in A. destruct (F n eq_refl E) as [F1 _]. now apply F1.
  - rewrite Sg in A. rewrite Sh in B. destruct (String.eqb m n); [exists d, a, b; auto|]. destruct (String.eqb m d); [discriminate|]. exists m, a, b. auto.
Qed.
Lemma each_rename {T} (f : sname * xarr -> res (lgrid T)) d new s r : each_variable f s r -> (forall v g, In v s -> f v = Ok g -> lg_wf g) ->
  (forall n, new = Some n -> n <> d -> forall v g, In v s -> f v = Ok g -> ~ In n (lg_dims g)) ->
  (new = None \/ exists v, In v s /\ forall g, f v = Ok g -> In d (lg_dims g)) ->
  each_variable (fun v => rbind (f v) (opt_rename d new)) s (rbind r (ds_rename d new)).
Proof.
  intros H W F Ex. assert (E : rbind r (ds_rename d new) = rbind r (ls_map (fun _ => opt_rename d new))).
  { destruct r as [l|]; [|reflexivity]. cbn [rbind]. destruct new as [n|]; cbn [ds_rename opt_rename].
    - destruct Ex as [Ex|(v & Iv & Ex)]; [discriminate|]. destruct H as [H _].
      assert (X : existsb (fun w => smem d (lg_dims (snd w))) l = true).
      { apply existsb_exists. clear -H Iv Ex. induction H as [|u w s l [_ E] H IH]; [destruct Iv|]. destruct Iv as [->|Iv]; [exists w; split; [now left|]; apply smem_In, Ex, E|]. destruct (IH Iv) as (w' & ? & ?). exists w'. split; [now right|assumption]. }
      rewrite X. reflexivity.
    - unfold ls_map. symmetry. transitivity (@Ok (lset T) (map (fun v => v) l)); [|now rewrite map_id]. clear. induction l as [|[n g] l IH]; [reflexivity|]. cbn [mapR map rmap rbind fst snd]. unfold ls_map in IH. now rewrite IH. }
  rewrite E. assert (X : forall v g, In v s -> f v = Ok g -> opt_rename d new g = Ok (renamed_grid d new g)).
  { intros v g Iv Ev. apply rename_wf; [eauto|]. intros n Hn Hd. eapply F; eauto. }
  apply (each_finish f (fun _ => opt_rename d new) s r H).
  - intros v g Iv Ev. rewrite (X v g Iv Ev). eauto.
  - intros v w g h g' h' Iv Iw Ev Ew. rewrite (X v g Iv Ev), (X w h Iw Ew). intros [= <-] [= <-]. apply rename_clash; [eauto|eauto|]. intros n Hn Hd. split; [apply (F n Hn Hd v)|apply (F n Hn Hd w)]; auto.
Qed.

Lemma unify_names excl l n : forall acc s, foldR (unify_dim excl) l acc = Ok s -> In n (map fst s) <-> In n (map fst acc) \/ ~ In n excl /\ In n (map fst l).
Proof.
  induction l as [|[m k] l IH]; intros acc s H; [injection H as ->; cbn; tauto|]. cbn [foldR] in H. unfold unify_dim at 1 in H. cbn [fst snd] in H. cbn [map fst In].
  destruct (smem m excl) eqn:S; cbn [rbind] in H.
  - rewrite (IH _ _ H). apply smem_In in S. split; [tauto|]. intros [Q|[Q [<-|R]]]; tauto.
  - apply smem_false in S. destruct (lookup m acc) as [j|] eqn:L.
    + destruct (Nat.eqb j k); [|discriminate]. cbn [rbind] in H. rewrite (IH _ _ H). apply lookup_In in L. assert (I : In m (map fst acc)) by (apply in_map_iff; now exists (m, j)). split; [tauto|]. intros [Q|[Q [<-|R]]]; tauto.
    + cbn [rbind] in H. rewrite (IH _ _ H), map_app, in_app_iff. cbn [map fst In]. split; [|tauto]. intros [[Q|[<-|[]]]|Q]; tauto.
Qed.
(* the dimensions of a result of apply_ufunc *)
Lemma apply_names {T} args out_core excl (f : list tensor -> res (grid T)) g : apply_ufunc args out_core excl f = Ok g -> (forall x, In x (labelled_of (map fst args)) -> x_ok x) ->
  forall n, In n (lg_dims g) <-> In n out_core \/ ~ In n excl /\ ~ In n (flat_map snd args) /\ exists x, In x (labelled_of (map fst args)) /\ In n (x_dims x).
Proof.
  intros H Oks n. unfold apply_ufunc in H. destruct (unified_dim_sizes _ _) as [sz|] eqn:U; [|discriminate]. cbn [rbind] in H. destruct (mapR _ args); [|discriminate]. cbn [rbind] in H. destruct (f _) as [v|]; [|discriminate]. cbn [rbind] in H.
  destruct (Nat.eqb _ _) eqn:E; [|discriminate]. cbn [negb] in H. destruct (existsb _ _); [discriminate|]. injection H as <-. cbn [lg_dims]. rewrite in_app_iff, filter_In.
  assert (G : forall xs acc s, (forall x, In x xs -> x_ok x) -> foldR (fun sz x => if sdup (x_dims x) then Raise EValue else foldR (unify_dim excl) (combine (x_dims x) (x_shape x)) sz) xs acc = Ok s ->
    In n (map fst s) <-> In n (map fst acc) \/ ~ In n excl /\ exists x, In x xs /\ In n (x_dims x)).
  { clear. induction xs as [|x xs IH]; intros acc s O H; [injection H as ->; split; [now left|intros [Q|(_ & y & [] & _)]; exact Q]|]. cbn [foldR] in H. destruct (sdup _); [discriminate|]. destruct (foldR (unify_dim excl) _ acc) as [a|] eqn:E; [|discriminate]. cbn [rbind] in H.
    rewrite (IH _ _ (fun y Q => O y (or_intror Q)) H), (unify_names _ _ n _ _ E), (combine_named x) by (apply O; now left). rewrite map_map. cbn [fst]. rewrite map_id. split.
    - intros [[Q|[Q1 Q2]]|(Q1 & y & Q2 & Q3)]; [now left|right; split; [exact Q1|]; exists x; split; [now left|exact Q2]|right; split; [exact Q1|]; exists y; split; [now right|exact Q3]].
    - intros [Q|(Q1 & y & [->|Q2] & Q3)]; [tauto|tauto|]. right. split; [exact Q1|]. now exists y. }
  unfold unified_dim_sizes in U. rewrite (G _ _ _ Oks U). cbn [map In]. assert (Em : negb (smem n (flat_map snd args ++ out_core)) = true <-> ~ In n (flat_map snd args) /\ ~ In n out_core).
  { rewrite negb_true_iff, smem_false, in_app_iff. tauto. }
  rewrite Em. destruct (in_dec string_dec n out_core) as [Q|Q]; [tauto|]. split; [|intros [R|(R1 & R2 & R3)]; [contradiction|left; tauto]]. intros [[[[]|R] S]|R]; [right; tauto|contradiction].
Qed.
Lemma transposed_names {T} (dflt : T) order g g' : lg_wf g -> NoDup (filter (fun n => smem n (lg_dims g)) order) -> l_transpose dflt (None :: map Some order) g = Ok g' ->
  lg_wf g' /\ forall n, In n (lg_dims g') <-> In n (lg_dims g).
Proof.
  intros W N E. destruct (l_transpose_total dflt order g W N) as (h & E' & _ & W' & D). assert (h = g') by congruence. subst h. split; [exact W'|]. intros n. rewrite D, in_app_iff, except_In, filter_In, smem_In. destruct (in_dec string_dec n order); tauto.
Qed.
Lemma passed_wf {T} (inj : Qc -> T) order x : x_ok x -> NoDup (filter (fun n => smem n (x_dims x)) order) -> lg_wf (passed inj order x) /\ forall n, In n (lg_dims (passed inj order x)) <-> In n (x_dims x).
Proof.
  intros H No. pose proof (passed_perm order x (proj1 (proj2 H)) No) as Pm. split; [split; [cbn; eapply Permutation_NoDup; [apply Permutation_sym, Pm|apply H]|cbn; now rewrite map_length]|].
  intros n. cbn [passed lg_dims]. split; apply Permutation_in; [exact Pm|now apply Permutation_sym].
Qed.

Section OneRenamed.
  Context {T : Type} (dflt : T) (inj : Qc -> T) (s : xset) (md : list sname) (d : sname) (to_end : bool) (excl : list sname) (f : list tensor -> res (grid T)).
  Hypotheses (Hs : set_ok s) (Hm : moment_names md) (Nd : ~ In d md) (Hex : incl excl [d]).
  Let base (v : sname * xarr) : res (lgrid T) :=
    if has_names (d :: md) (snd v) then rbind (apply_ufunc [(Labelled (snd v), d :: md)] (d :: md) excl f) (finish dflt to_end (snd v))
    else Ok (passed inj (if to_end then d :: md else x_dims (snd v)) (snd v)).
  Lemma base_names v g : In v s -> base v = Ok g -> lg_wf g /\ forall n, In n (lg_dims g) <-> In n (x_dims (snd v)).
  Proof.
    intros Iv E. pose proof (proj1 (proj2 Hs) v Iv) as Hx. assert (Nx : NoDup (d :: md)) by (constructor; [exact Nd|apply Hm]). unfold base in E. destruct (has_names _ _) eqn:S.
    - destruct (apply_ufunc _ _ _ _) as [g0|] eqn:A; [|discriminate]. cbn [rbind] in E. destruct (apply_dims _ _ _ _ _ Nx A) as [W _].
      assert (Names : forall n, In n (lg_dims g0) <-> In n (x_dims (snd v))).
      { intros n. rewrite (apply_names _ _ _ _ _ A) by (intros x [<-|[]]; exact Hx). apply has_names_In in S. cbn [map fst snd labelled_of flat_map app]. rewrite app_nil_r. split.
        - intros [Q|(_ & _ & x & [<-|[]] & Q)]; [now apply S|exact Q].
        - intros Q. destruct (in_dec string_dec n (d :: md)) as [R|R]; [now left|]. right. split; [intros Q'; apply Hex in Q'; destruct Q' as [<-|[]]; apply R; now left|]. split; [exact R|]. exists (snd v). split; [now left|exact Q]. }
      unfold finish in E. destruct to_end; [injection E as <-; auto|]. rewrite transpose_like_front, map_id, app_nil_r in E.
      destruct (transposed_names dflt (x_dims (snd v)) g0 g W) as [W' N']; [apply NoDup_filter, Hx|exact E|]. split; [exact W'|]. intros n. rewrite N'. apply Names.
    - injection E as <-. apply passed_wf; [exact Hx|]. apply NoDup_filter. destruct to_end; [exact Nx|apply Hx].
  Qed.
  Lemma one_renamed new : new_free d new s -> (new = None \/ exists v, In v s /\ In d (x_dims (snd v))) ->
    each_variable (fun v => if has_names (d :: md) (snd v)
                            then rbind (apply_ufunc [(Labelled (snd v), d :: md)] (d :: md) excl f) (fun g => rbind (finish dflt to_end (snd v) g) (opt_rename d new))
                            else Ok (renamed_grid d new (passed inj (if to_end then d :: md else x_dims (snd v)) (snd v))))
      s (rbind (ds_apply inj s (d :: md) [] (d :: md) excl f) (fun r => rbind (ds_finish dflt to_end s (fun n => n) [] (d :: md) r) (ds_rename d new))).
  Proof.
    intros Fr Ex. assert (E : forall r, rbind r (fun r => rbind (ds_finish dflt to_end s (fun n => n) [] (d :: md) r) (ds_rename d new)) = rbind (rbind r (ds_finish dflt to_end s (fun n => n) [] (d :: md))) (ds_rename d new)) by (intros [r|]; reflexivity).
    rewrite E. eapply each_ext; [|apply (each_rename base d new s)].
    - intros v Iv. cbn beta. unfold base. destruct (has_names _ _) eqn:S; [destruct (apply_ufunc _ _ _ _); reflexivity|]. cbn [rbind]. apply rename_wf.
      + apply (base_names v); [exact Iv|]. unfold base. now rewrite S.
      + intros n En Hn Q. apply (Fr n En Hn v Iv). apply (proj2 (base_names v (passed inj (if to_end then d :: md else x_dims (snd v)) (snd v)) Iv ltac:(unfold base; now rewrite S)) n). exact Q.
    - unfold base. now apply one_set.
    - intros v g Iv Ev. now apply (base_names v).
    - intros n En Hn v g Iv Ev Q. apply (base_names v g Iv Ev) in Q. now apply (Fr n En Hn v Iv).
    - destruct Ex as [Ex|(v & Iv & Hd)]; [now left|]. right. exists v. split; [exact Iv|]. intros g Ev. now apply (base_names v g Iv Ev).
  Qed.
End OneRenamed.

Theorem grouped_set : forall {A V} (K : pusher A V) (P : packer A) by_ group_dim md d to_end s, set_ok s -> moment_names md -> ~ In d md ->
  new_free d group_dim s -> (group_dim = None \/ exists v, In v s /\ In d (x_dims (snd v))) ->
  each_variable (fun v => if has_names (d :: md) (snd v) then x_reduce_data_grouped K P (params_for md) by_ group_dim Missing (Val d) to_end (snd v)
                          else Ok (renamed_grid d group_dim (passed (fun q => q) (if to_end then d :: md else x_dims (snd v)) (snd v))))
    s (ds_reduce_data_grouped K P (params_for md) by_ group_dim Missing (Val d) to_end s).
Proof.
  intros A V K P by_ gd md d to_end s Hs Hm Nd Fr Ex. unfold ds_reduce_data_grouped. rewrite (ds_with_dim_eq s md d _ Hs Nd (proj2 Hm)).
  eapply each_ext; [|apply one_renamed; auto using incl_refl]. intros v Iv. cbn beta. destruct (has_names _ _) eqn:S; [|reflexivity]. unfold x_reduce_data_grouped. now enter Hs Iv Hm Nd S.
Qed.
(* the dimension must be a dimension of the Dataset *)
Theorem indexed_set : forall {A V} (K : pusher A V) (P : packer A) index start end_ scale group_dim md d to_end s, set_ok s -> moment_names md -> ~ In d md ->
  new_free d group_dim s ->
  let f := fun v => if has_names (d :: md) (snd v) then x_reduce_data_indexed K P (params_for md) index start end_ scale group_dim Missing (Val d) to_end (snd v)
                    else Ok (renamed_grid d group_dim (passed (fun q => q) (if to_end then d :: md else x_dims (snd v)) (snd v))) in
  let r := ds_reduce_data_indexed K P (params_for md) index start end_ scale group_dim Missing (Val d) to_end s in
  (forall v, In v s -> In d (x_dims (snd v)) ->
     match validate_index (dim_size (snd v) d) index start end_ with Ok _ => each_variable f s r | Raise e => r = Raise e end) /\
  ((forall v, In v s -> ~ In d (x_dims (snd v))) -> r = Raise EKey).
Proof.
  intros A V K P index start end_ scale gd md d to_end s Hs Hm Nd Fr f r. unfold r, ds_reduce_data_indexed. rewrite (ds_with_dim_eq s md d _ Hs Nd (proj2 Hm)). split.
  - intros v0 Iv0 Hd. rewrite (ds_size_ok s v0 d Hs Iv0 Hd). cbn [rbind]. destruct (validate_index _ _ _ _) as [[]|e] eqn:Vi; [|reflexivity]. cbn [rbind].
    eapply each_ext; [|apply one_renamed; auto using incl_refl; right; now exists v0]. intros v Iv. cbn beta. unfold f. destruct (has_names _ _) eqn:S; [|reflexivity]. unfold x_reduce_data_indexed. enter Hs Iv Hm Nd S.
    apply has_names_In in S. assert (Hdv : In d (x_dims (snd v))) by (apply S; now left). rewrite sizes_named by exact Hdv. cbn [rbind]. replace (dim_size (snd v) d) with (dim_size (snd v0) d) by now apply Hs. now rewrite Vi.
  - intros No. destruct (ds_sizes_ok s Hs) as (sz & E & Hn & _). unfold ds_size. rewrite E. cbn [rbind]. destruct (lookup d sz) as [k|] eqn:L; [|reflexivity]. exfalso. apply lookup_In in L.
    destruct (proj1 (Hn d)) as (v & Iv & Hv); [apply in_map_iff; now exists (d, k)|]. now apply (No v).
Qed.

(* ---- results that go into one Dataset ---------------------------------------------------------------- *)

Lemma named_no_clash {T} sz1 sz2 d1 d2 (g h : lgrid T) : NoDup d1 -> NoDup d2 -> l_named sz1 d1 g -> l_named sz2 d2 h -> (forall n, In n d1 -> In n d2 -> sz1 n = sz2 n) -> ~ clash g h.
Proof.
  intros N1 N2 (E1 & _ & S1) (E2 & _ & S2) Eq (n & a & b & A & B & D). apply D. rewrite E1, S1 in A. rewrite E2, S2 in B.
  assert (X : forall sz ds k, lookup n (combine ds (map sz ds)) = Some k -> In n ds /\ k = sz n).
  { intros sz ds k L. replace (combine ds (map sz ds)) with (map (fun n => (n, sz n)) ds) in L by (clear; induction ds as [|m ds IH]; [reflexivity|]; cbn; now rewrite IH). rewrite lookup_tab in L. destruct (smem n ds) eqn:S; [|discriminate]. apply smem_In in S. split; congruence. }
  destruct (X _ _ _ A) as [I1 ->], (X _ _ _ B) as [I2 ->]. auto.
Qed.
Lemma alone {T} (f : sname * xarr -> res (lgrid T)) s r : each_variable f s r -> (forall v w g h, In v s -> In w s -> f v = Ok g -> f w = Ok h -> ~ clash g h) -> each_alone f s r.
Proof.
  intros H N. destruct r as [l|e]; [apply H|]. destruct H as [H|(_ & v & w & g & h & Iv & Iw & Ev & Ew & C)]; [exact H|]. exfalso. now apply (N v w g h).
Qed.
(* every result has the sizes sz of its dimensions *)
Lemma alone_sized {T} (f : sname * xarr -> res (lgrid T)) s r : each_variable f s r ->
  (exists sz : sname -> nat, forall v g, In v s -> f v = Ok g -> exists dims, NoDup dims /\ l_named sz dims g) -> each_alone f s r.
Proof.
  intros H (sz & Z). apply alone; [exact H|]. intros v w g h Iv Iw Ev Ew. destruct (Z v g Iv Ev) as (d1 & N1 & L1), (Z w h Iw Ew) as (d2 & N2 & L2). apply (named_no_clash sz sz d1 d2 g h N1 N2 L1 L2); auto.
Qed.
Lemma set_size_of s v n : set_ok s -> In v s -> In n (x_dims (snd v)) -> set_size s n = dim_size (snd v) n.
Proof.
  intros (_ & _ & A) Iv Hn. unfold set_size. destruct (find _ s) as [w|] eqn:F.
  - apply find_some in F as [Iw Hw]. apply smem_In in Hw. now apply A.
  - exfalso. apply (find_none _ _ F) in Iv. apply smem_false in Iv. auto.
Qed.
Lemma named_resize {T} sz sz' dims (g : lgrid T) : (forall n, In n dims -> sz n = sz' n) -> l_named sz dims g -> l_named sz' dims g.
Proof. intros E (A & B & C). repeat split; auto. rewrite C. now apply map_ext_in. Qed.
Lemma by_name_named {B T} (dflt : T) (val : B -> list nat -> T) run dims sz rd md g : by_name dflt val run dims sz rd md (Ok g) -> l_named sz dims g.
Proof. intros (A1 & A2 & A3 & _). repeat split; auto. Qed.
Lemma result_dims_nodup to_end dims d md : NoDup dims -> NoDup md -> ~ In d md -> NoDup (result_dims to_end dims d d md).
Proof.
  intros N Nm Nd. unfold result_dims. destruct to_end.
  - apply NoDup_app_; [now apply NoDup_filter|now constructor|]. intros n Hn. now apply except_In in Hn.
  - rewrite (map_ext _ (fun n => n)); [now rewrite map_id|]. intros n. destruct (String.eqb_spec n d); auto.
Qed.
Lemma result_dims_incl to_end dims d md n : In d dims -> incl md dims -> In n (result_dims to_end dims d d md) -> In n dims.
Proof.
  intros Hd Hm H. unfold result_dims in H. destruct to_end.
  - apply in_app_or in H as [H|[<-|H]]; [now apply except_In in H|exact Hd|now apply Hm].
  - apply in_map_iff in H as (m & E & Hm'). destruct (String.eqb_spec m d); subst; auto.
Qed.

Section Alone.
  Context {A : Type} (P : packer A) (s : xset) (md : list sname) (d : sname).
  Hypotheses (Hs : set_ok s) (Hm : moment_names md) (Nd : ~ In d md).
  Lemma passed_sized {T} (inj : Qc -> T) to_end v : In v s ->
    exists dims, NoDup dims /\ l_named (set_size s) dims (passed inj (if to_end : bool then d :: md else x_dims (snd v)) (snd v)).
  Proof.
    intros Iv. pose proof (proj1 (proj2 Hs) v Iv) as Hx. set (order := if to_end then d :: md else x_dims (snd v)).
    assert (No : NoDup (filter (fun n => smem n (x_dims (snd v))) order)) by (apply NoDup_filter; unfold order; destruct to_end; [constructor; [exact Nd|apply Hm]|apply Hx]).
    exists (passed_dims order (snd v)). pose proof (passed_perm order (snd v) (proj1 (proj2 Hx)) No) as Pm. split; [eapply Permutation_NoDup; [apply Permutation_sym, Pm|apply Hx]|].
    eapply named_resize; [|apply (passed_named inj order (snd v) Hx No)]. intros n Hn. symmetry. apply set_size_of; auto. now apply (Permutation_in _ Pm).
  Qed.
  Lemma by_name_sized {B T} (dflt : T) (val : B -> list nat -> T) run to_end v g : In v s -> has_names (d :: md) (snd v) = true ->
    by_name dflt val run (result_dims to_end (x_dims (snd v)) d d md) (dim_size (snd v)) d md (Ok g) -> exists dims, NoDup dims /\ l_named (set_size s) dims g.
  Proof.
    intros Iv S H. apply has_names_In in S. pose proof (proj1 (proj2 Hs) v Iv) as Hx. apply by_name_named in H. eexists. split; [|eapply named_resize; [|exact H]].
    - apply result_dims_nodup; [apply Hx|apply Hm|exact Nd].
    - intros n Hn. symmetry. apply set_size_of; auto. apply result_dims_incl in Hn; [exact Hn|apply S; now left|]. intros m Hmm. apply S. now right.
  Qed.
End Alone.

Theorem cumulative_set_alone : forall {A V} (K : pusher A V) ok P, moment_array K ok P ->
  forall inverse md d to_end s, set_ok s -> moment_names md -> ~ In d md -> moments_where P [d] md s ->
  each_alone (fun v => if has_names (d :: md) (snd v) then x_cumulative K P (params_for md) inverse Missing (Val d) to_end (snd v)
                       else Ok (passed (fun q => q) (if to_end then d :: md else x_dims (snd v)) (snd v)))
    s (ds_cumulative K P (params_for md) inverse Missing (Val d) to_end s).
Proof.
  intros A V K ok P HMA inverse md d to_end s Hs Hm Nd Mw. apply alone_sized; [now apply cumulative_set|]. exists (set_size s). intros v g Iv. destruct (has_names _ _) eqn:S; intros E.
  - assert (HC : chooses (List.length md) Missing (Val d) d (snd v)) by (left; repeat split; apply has_names_In in S; apply S; now left).
    pose proof (cumulative_named K ok P HMA inverse md Missing (Val d) d to_end (snd v) (Mw v Iv S) HC Nd) as H. rewrite E in H. eapply by_name_sized; eauto.
  - injection E as <-. now apply (passed_sized s md d Hs Hm Nd).
Qed.
Theorem rolling_set_alone : forall {A V} (K : pusher A V) ok P, moment_array K ok P ->
  forall window min_periods center zero md d to_end s, set_ok s -> moment_names md -> ~ In d md -> moments_where P [d] md s -> (0 <= window)%Z ->
  each_alone (fun v => if has_names (d :: md) (snd v) then x_rolling_data K P (params_for md) window min_periods center zero Missing (Val d) to_end (snd v)
                       else Ok (passed Some (if to_end then d :: md else x_dims (snd v)) (snd v)))
    s (ds_rolling_data K P (params_for md) window min_periods center zero Missing (Val d) to_end s).
Proof.
  intros A V K ok P HMA window mp center zero md d to_end s Hs Hm Nd Mw Hw. apply alone_sized; [now apply rolling_set|]. exists (set_size s). intros v g Iv. destruct (has_names _ _) eqn:S; intros E.
  - assert (HC : chooses (List.length md) Missing (Val d) d (snd v)) by (left; repeat split; apply has_names_In in S; apply S; now left).
    pose proof (rolling_named K ok P HMA window mp center zero md Missing (Val d) d to_end (snd v) (Mw v Iv S) HC Nd Hw) as [H H0].
    assert (C : center = false \/ (0 < window)%Z \/ (center = true /\ window = 0%Z)) by (destruct center; [right|now left]; lia).
    destruct C as [C|[C|[C1 C2]]]; [specialize (H (or_introl C)); rewrite E in H; eapply by_name_sized; eauto|specialize (H (or_intror C)); rewrite E in H; eapply by_name_sized; eauto|]. rewrite (H0 C1 C2) in E. discriminate.
  - injection E as <-. now apply (passed_sized s md d Hs Hm Nd).
Qed.

Section Regrouped.
  Context {A : Type} (P : packer A) (s : xset) (md : list sname) (d : sname) (new : option sname) (k : nat).
  Hypotheses (Hs : set_ok s) (Hm : moment_names md) (Nd : ~ In d md) (Fr : new_free d new s).
  Let rd := renamed d new.
  Let sz := result_size (set_size s) rd k.
  Lemma regrouped_sized {B T} (dflt : T) (val : B -> list nat -> T) run to_end v g : In v s -> has_names (d :: md) (snd v) = true ->
    by_name dflt val run (result_dims to_end (x_dims (snd v)) d rd md) (result_size (dim_size (snd v)) rd k) rd md (Ok g) -> exists dims, NoDup dims /\ In rd dims /\ l_named sz dims g.
  Proof.
    intros Iv S H. apply has_names_In in S. pose proof (proj1 (proj2 Hs) v Iv) as Hx. apply by_name_named in H. assert (Hd : In d (x_dims (snd v))) by (apply S; now left).
    assert (Fd : rd = d \/ ~ In rd (x_dims (snd v))).
    { unfold rd, renamed. destruct new as [n|] eqn:En; [|now left]. destruct (string_dec n d) as [->|D]; [now left|]. right. now apply (Fr n eq_refl D). }
    eexists. split; [|split; [|eapply named_resize; [|exact H]]].
    - unfold result_dims. destruct to_end.
      + apply NoDup_app_; [apply NoDup_filter, Hx|constructor; [|apply Hm]|].
        * destruct Fd as [->|Fd]; [exact Nd|]. intros Q. apply Fd, S. now right.
        * intros n Hn [<-|Q]; apply except_In in Hn as [Hn Hn']; [|apply Hn'; now right]. destruct Fd as [Fd|Fd]; [|contradiction]. apply Hn'. now left.
      + apply NoDup_map_in; [apply Hx|]. intros a b Ia Ib. destruct (String.eqb_spec a d) as [->|Da], (String.eqb_spec b d) as [->|Db]; auto; intros E; destruct Fd as [Fd|Fd]; congruence.
    - unfold result_dims. destruct to_end; [apply in_or_app; right; now left|]. apply in_map_iff. exists d. rewrite String.eqb_refl. auto.
    - intros n Hn. unfold sz, result_size. destruct (String.eqb_spec n rd) as [|Q]; [reflexivity|]. symmetry. apply set_size_of; auto. unfold result_dims in Hn. destruct to_end.
      + apply in_app_or in Hn as [Hn|[E|Hn]]; [now apply except_In in Hn|congruence|]. apply S. now right.
      + apply in_map_iff in Hn as (m & E & Hm'). destruct (String.eqb_spec m d); subst; [contradiction|auto].
  Qed.
  Lemma passed_renamed_sized {T} (inj : Qc -> T) to_end v : In v s -> (In d (x_dims (snd v)) -> dim_size (snd v) d = k) ->
    exists dims, NoDup dims /\ l_named sz dims (renamed_grid d new (passed inj (if to_end : bool then d :: md else x_dims (snd v)) (snd v))).
  Proof.
    intros Iv Hd. destruct (passed_sized s md d Hs Hm Nd inj to_end v Iv) as (dims & N & L). set (g := passed _ _ _) in *.
    assert (Dn : forall n, In n dims -> In n (x_dims (snd v))).
    { intros n Hn. destruct L as (E & _). rewrite <- E in Hn. pose proof (proj1 (proj2 Hs) v Iv) as Hx. apply (passed_wf inj (if to_end then d :: md else x_dims (snd v)) (snd v) Hx); [|exact Hn]. apply NoDup_filter. destruct to_end; [constructor; [exact Nd|apply Hm]|apply Hx]. }
    clearbody g. unfold sz, rd, renamed. destruct new as [n|] eqn:En.
    - cbn [renamed_grid]. exists (map (fun m => if String.eqb m d then n else m) dims). destruct L as (E & G & S). split; [|repeat split; [cbn; now rewrite E|exact G|]].
      + apply NoDup_map_in; [exact N|]. intros a b Ia Ib. destruct (String.eqb_spec a d) as [->|Da], (String.eqb_spec b d) as [->|Db]; auto; intros Q; exfalso; [apply (Fr n eq_refl ltac:(congruence) v Iv); rewrite Q|apply (Fr n eq_refl ltac:(congruence) v Iv); rewrite <- Q]; auto.
      + cbn [lg_val]. rewrite S, map_map. apply map_ext_in. intros m Hm'. unfold result_size. destruct (String.eqb_spec m d) as [->|D].
        * rewrite String.eqb_refl. rewrite <- Hd by auto. apply set_size_of; auto.
        * destruct (String.eqb_spec m n) as [->|]; [|reflexivity]. exfalso. apply (Fr n eq_refl D v Iv). auto.
    - exists dims. split; [exact N|]. cbn [renamed_grid]. eapply named_resize; [|exact L]. intros m Hm'. unfold result_size. destruct (String.eqb_spec m d) as [->|]; [|reflexivity]. rewrite <- Hd by auto. apply set_size_of; auto.
  Qed.
End Regrouped.

Lemma regrouped_alone {T} (inj : Qc -> T) s md d new k to_end (f : sname * xarr -> res (lgrid T)) r : set_ok s -> moment_names md -> ~ In d md -> new_free d new s -> each_variable f s r ->
  (forall v, In v s -> has_names (d :: md) (snd v) = false -> f v = Ok (renamed_grid d new (passed inj (if to_end : bool then d :: md else x_dims (snd v)) (snd v)))) ->
  (forall v g, In v s -> has_names (d :: md) (snd v) = true -> f v = Ok g -> exists dims, NoDup dims /\ In (renamed d new) dims /\ l_named (result_size (set_size s) (renamed d new) k) dims g) ->
  ((forall w, In w s -> In d (x_dims (snd w)) -> incl md (x_dims (snd w)) \/ dim_size (snd w) d = k) -> each_alone f s r) /\
  (forall v w g, In v s -> has_names (d :: md) (snd v) = true -> f v = Ok g -> In w s -> In d (x_dims (snd w)) -> ~ incl md (x_dims (snd w)) -> dim_size (snd w) d <> k -> exists e, r = Raise e).
Proof.
  intros Hs Hm Nd Fr H Ps Z.
  split.
  - intros Hw. apply alone_sized; [exact H|]. exists (result_size (set_size s) (renamed d new) k). intros v g Iv E. destruct (has_names (d :: md) (snd v)) eqn:S.
    + destruct (Z v g Iv S E) as (dims & N & _ & L). eauto.
    + rewrite (Ps v Iv S) in E. injection E as <-. apply passed_renamed_sized; auto. intros Hd. destruct (Hw v Iv Hd) as [I|]; [|assumption]. exfalso. assert (X : has_names (d :: md) (snd v) = true); [|congruence]. apply has_names_In. intros n [<-|Hn]; auto.
  - intros v w g Iv S E Iw Hd Nm Ne. destruct r as [l|e]; [exfalso|eauto]. destruct H as [F C].
    assert (Get : forall v, In v s -> exists u, In u l /\ f v = Ok (snd u)).
    { clear -F. induction F as [|a b s l [_ E] F IH]; intros v; [intros []|]. intros [->|I]; [exists b; split; [now left|exact E]|]. destruct (IH v I) as (u & ? & ?). exists u. split; [now right|assumption]. }
    destruct (Get v Iv) as (u1 & I1 & E1), (Get w Iw) as (u2 & I2 & E2). apply (C u1 u2 I1 I2). destruct (Z v (snd u1) Iv S E1) as (dims & N & Hr & L).
    assert (Sw : has_names (d :: md) (snd w) = false). { destruct (has_names (d :: md) (snd w)) eqn:Q; [|reflexivity]. exfalso. apply Nm. apply has_names_In in Q. intros n Hn. apply Q. now right. }
    rewrite (Ps w Iw Sw) in E2. injection E2 as E2. destruct (passed_renamed_sized s md d new (dim_size (snd w) d) Hs Hm Nd Fr inj to_end w Iw (fun _ => eq_refl)) as (dims2 & N2 & L2). rewrite E2 in L2.
    assert (Hr2 : In (renamed d new) dims2).
    { destruct L2 as (D2 & _). rewrite <- D2, <- E2. set (p := passed _ _ _). assert (Hp : In d (lg_dims p)). { apply passed_wf; [now apply Hs| |exact Hd]. apply NoDup_filter. destruct to_end; [constructor; [exact Nd|apply Hm]|now apply Hs]. }
      unfold renamed. destruct new as [n|]; [|exact Hp]. cbn [renamed_grid lg_dims]. apply in_map_iff. exists d. now rewrite String.eqb_refl. }
    exists (renamed d new), k, (dim_size (snd w) d). destruct L as (D1 & _ & S1), L2 as (D2 & _ & S2). rewrite D1, S1, D2, S2.
    assert (X : forall sz ds, In (renamed d new) ds -> lookup (renamed d new) (combine ds (map sz ds)) = Some (sz (renamed d new))).
    { intros sz ds I. replace (combine ds (map sz ds)) with (map (fun n => (n, sz n)) ds) by (clear; induction ds as [|m ds IH]; [reflexivity|]; cbn; now rewrite IH). rewrite lookup_tab. apply smem_In in I. now rewrite I. }
    rewrite !X by assumption. unfold result_size. rewrite String.eqb_refl. auto.
Qed.

(* grouped moments go into one Dataset unless a variable that is passed on has the
   dimension with another size *)
Theorem grouped_set_alone : forall {A V} (K : pusher A V) ok P, moment_array K ok P ->
  forall by_ mx group_dim md d to_end s, set_ok s -> moment_names md -> ~ In d md -> moments_where P [d] md s -> new_free d group_dim s -> zmax by_ = Ok mx -> (-1 <= mx)%Z ->
  (group_dim = None \/ exists v, In v s /\ In d (x_dims (snd v))) ->
  let f := fun v => if has_names (d :: md) (snd v) then x_reduce_data_grouped K P (params_for md) by_ group_dim Missing (Val d) to_end (snd v)
                    else Ok (renamed_grid d group_dim (passed (fun q => q) (if to_end then d :: md else x_dims (snd v)) (snd v))) in
  let r := ds_reduce_data_grouped K P (params_for md) by_ group_dim Missing (Val d) to_end s in
  ((forall w, In w s -> In d (x_dims (snd w)) -> incl md (x_dims (snd w)) \/ dim_size (snd w) d = Z.to_nat (mx + 1)) -> each_alone f s r) /\
  (forall v w g, In v s -> has_names (d :: md) (snd v) = true -> f v = Ok g -> In w s -> In d (x_dims (snd w)) -> ~ incl md (x_dims (snd w)) -> dim_size (snd w) d <> Z.to_nat (mx + 1) -> exists e, r = Raise e).
Proof.
  intros A V K ok P HMA by_ mx gd md d to_end s Hs Hm Nd Mw Fr Mx Hmx Ex f r. pose proof (grouped_set K P by_ gd md d to_end s Hs Hm Nd Fr Ex) as H. fold f r in H.
  assert (Z : forall v g, In v s -> has_names (d :: md) (snd v) = true -> f v = Ok g -> exists dims, NoDup dims /\ In (renamed d gd) dims /\ l_named (result_size (set_size s) (renamed d gd) (Z.to_nat (mx + 1))) dims g).
  { intros v g Iv S E. unfold f in E. rewrite S in E.
    assert (HC : chooses (List.length md) Missing (Val d) d (snd v)) by (left; repeat split; apply has_names_In in S; apply S; now left).
    pose proof (grouped_named K ok P HMA by_ gd md Missing (Val d) d to_end (snd v) (Mw v Iv S) HC Nd) as G. cbv zeta in G. rewrite Mx in G. destruct G as (G1 & G2 & G3).
    destruct (Nat.eq_dec (List.length by_) (dim_size (snd v) d)) as [L|L]; [|rewrite G2 in E by auto; discriminate].
    assert (F : free_name (snd v) d gd). { unfold free_name, renamed. destruct gd as [n|]; [|now left]. destruct (string_dec n d) as [->|D]; [now left|]. right. now apply (Fr n eq_refl D v). }
    specialize (G1 L Hmx F). rewrite E in G1. eapply regrouped_sized; eauto. }
  apply (regrouped_alone (fun q => q) s md d gd (Z.to_nat (mx + 1)) to_end f r); auto. intros v Iv S. unfold f. now rewrite S.
Qed.
Theorem indexed_set_alone : forall {A V} (K : pusher A V) ok P, moment_array K ok P ->
  forall index start end_ scale group_dim md d to_end s, set_ok s -> moment_names md -> ~ In d md -> moments_where P [d] md s -> new_free d group_dim s ->
  let f := fun v => if has_names (d :: md) (snd v) then x_reduce_data_indexed K P (params_for md) index start end_ scale group_dim Missing (Val d) to_end (snd v)
                    else Ok (renamed_grid d group_dim (passed (fun q => q) (if to_end then d :: md else x_dims (snd v)) (snd v))) in
  let r := ds_reduce_data_indexed K P (params_for md) index start end_ scale group_dim Missing (Val d) to_end s in
  (exists v, In v s /\ In d (x_dims (snd v)) /\ validate_index (dim_size (snd v) d) index start end_ = Ok tt) ->
  ((forall w, In w s -> In d (x_dims (snd w)) -> incl md (x_dims (snd w)) \/ dim_size (snd w) d = List.length start) -> each_alone f s r) /\
  (forall v w g, In v s -> has_names (d :: md) (snd v) = true -> f v = Ok g -> In w s -> In d (x_dims (snd w)) -> ~ incl md (x_dims (snd w)) -> dim_size (snd w) d <> List.length start -> exists e, r = Raise e).
Proof.
  intros A V K ok P HMA index start end_ scale gd md d to_end s Hs Hm Nd Mw Fr f r (v0 & Iv0 & Hd0 & V0).
  pose proof (proj1 (indexed_set K P index start end_ scale gd md d to_end s Hs Hm Nd Fr) v0 Iv0 Hd0) as H. rewrite V0 in H. fold f r in H.
  apply (regrouped_alone (fun q => q) s md d gd (List.length start) to_end f r); auto; [intros v Iv S; unfold f; now rewrite S|].
  intros v g Iv S E. unfold f in E. rewrite S in E. assert (Hd : In d (x_dims (snd v))) by (apply has_names_In in S; apply S; now left).
  assert (HC : chooses (List.length md) Missing (Val d) d (snd v)) by (left; auto).
  pose proof (indexed_named K ok P HMA index start end_ scale gd md Missing (Val d) d to_end (snd v) (Mw v Iv S) HC Nd) as G. cbv zeta in G. destruct G as (G1 & G2 & G3).
  assert (Vv : validate_index (dim_size (snd v) d) index start end_ = Ok tt) by (replace (dim_size (snd v) d) with (dim_size (snd v0) d) by (now apply Hs); exact V0).
  assert (F : free_name (snd v) d gd). { unfold free_name, renamed. destruct gd as [n|]; [|now left]. destruct (string_dec n d) as [->|D]; [now left|]. right. now apply (Fr n eq_refl D v). }
  assert (Sc : (forall q, scale = Some q -> List.length q = List.length index) \/ ~ (forall q, scale = Some q -> List.length q = List.length index)).
  { destruct scale as [q|]; [|left; discriminate]. destruct (Nat.eq_dec (List.length q) (List.length index)) as [L|L]; [left; now intros q' [= <-]|right]. intros Q. now apply L, Q. }
  destruct Sc as [Sc|Sc]; [|rewrite G2 in E by tauto; discriminate]. specialize (G1 (conj Vv Sc) F). rewrite E in G1. eapply regrouped_sized; eauto.
Qed.
