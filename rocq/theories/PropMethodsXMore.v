(* Push calls of CentralMomentsData with labelled arrays that do not fit (C136), sums
   and differences of labelled objects (C137). *)
From Coq Require Import String Permutation.
From Verif Require Import Base BaseLemmas ModelPush ModelKernels ModelIndex ModelAccum ModelAxes ModelState ModelParams ModelNd ModelWrap ModelLabel ModelMethods ModelConstruct ModelMethodsX
  Spec SpecAxes SpecNd ProofSpec PropReduce PropWrap PropLabelled PropNd PropNdVals PropNdUse PropNdValsUse SpecLabel SpecLabelTwo SpecLabelVals SpecMethods SpecMethodsX
  Laws ProofAxes ProofArrays ProofMulti ProofNd PropParams ProofNdVals ProofLabel ProofLabelMany ProofLabelVals ProofMethods PropMethods PropMethodsUse PropMethodsArith PropLabelVals PropLabelValsMore PropConstructMake ProofMethodsX PropMethodsX PropMethodsXUse.
Local Open Scope string_scope.
Local Open Scope nat_scope.

(* ---- apply_ufunc and a function that returns its first argument ----------------------- *)

Lemma lookup_None n s : lookup n s = None -> ~ In n (map fst s).
Proof.
  unfold lookup. induction s as [|[m k] s IH]; [intros _ []|]. cbn [find fst map]. destruct (String.eqb_spec m n) as [->|Q]; [discriminate|]. intros H [E|I]; [contradiction|]. now apply IH.
Qed.
Lemma lookup_Some_In n s k : lookup n s = Some k -> In n (map fst s).
Proof.
  unfold lookup. induction s as [|[m j] s IH]; [discriminate|]. cbn [find fst map]. destruct (String.eqb_spec m n) as [->|Q]; [now left|]. intros H. right. now apply IH.
Qed.
Lemma unify_NoDup excl l : forall acc s, foldR (unify_dim excl) l acc = Ok s -> NoDup (map fst acc) -> NoDup (map fst s).
Proof.
  induction l as [|p l IH]; intros acc s H N; [injection H as <-; exact N|]. cbn [foldR] in H. destruct (unify_dim excl acc p) as [acc'|] eqn:U; [|discriminate]. cbn [rbind] in H. apply (IH _ _ H).
  unfold unify_dim in U. destruct (smem _ _); [injection U as <-; exact N|]. destruct (lookup (fst p) acc) eqn:L; [destruct (Nat.eqb _ _); [injection U as <-; exact N|discriminate]|]. injection U as <-.
  rewrite map_app. apply lookup_None in L. apply NoDup_app_iff. split; [exact N|]. split; [constructor; [intros []|constructor]|]. intros n Hn [<-|[]]. contradiction.
Qed.
Lemma unified_NoDup excl xs s : unified_dim_sizes excl xs = Ok s -> NoDup (map fst s).
Proof.
  unfold unified_dim_sizes. assert (G : forall acc, foldR (fun sz x => if sdup (x_dims x) then Raise EValue else foldR (unify_dim excl) (combine (x_dims x) (x_shape x)) sz) xs acc = Ok s -> NoDup (map fst acc) -> NoDup (map fst s)).
  { induction xs as [|z l IH]; intros acc H N; [injection H as <-; exact N|]. cbn [foldR] in H. destruct (sdup _); [discriminate|].
    destruct (foldR (unify_dim excl) _ acc) as [acc'|] eqn:U; [|discriminate]. cbn [rbind] in H. apply (IH _ H). now apply (unify_NoDup _ _ _ _ U). }
  intros H. apply (G _ H). constructor.
Qed.
Lemma unified_lookup excl xs s x n : unified_dim_sizes excl xs = Ok s -> In x xs -> x_ok x -> In n (x_dims x) -> ~ In n excl -> lookup n s = Some (dim_size x n).
Proof.
  intros U Ix Hx Nx He.
  assert (X : forall xs acc s, foldR (fun sz x => if sdup (x_dims x) then Raise EValue else foldR (unify_dim excl) (combine (x_dims x) (x_shape x)) sz) xs acc = Ok s ->
    (forall n k, ~ In n excl -> lookup n acc = Some k -> lookup n s = Some k) /\ forall x, In x xs -> x_ok x -> In n (x_dims x) -> lookup n s = Some (dim_size x n)).
  { clear - He. induction xs as [|y xs IH]; intros acc s H; [injection H as <-; split; [auto|intros x []]|]. cbn [foldR] in H. destruct (sdup (x_dims y)); [discriminate|].
    destruct (foldR (unify_dim excl) (combine (x_dims y) (x_shape y)) acc) as [acc'|] eqn:G; [|discriminate]. cbn [rbind] in H. destruct (IH _ _ H) as [J1 J2]. split.
    - intros m k Hm L. apply J1; [exact Hm|]. now apply (unify_known _ _ _ _ G m k).
    - intros x [->|I] Hx Hn; [|now apply J2]. apply J1; [exact He|]. apply (unify_adds _ _ _ _ G); [exact He|]. rewrite (combine_named x Hx). apply in_map_iff. now exists n. }
  now apply (proj2 (X _ _ _ U)).
Qed.
Lemma in_combine_map_same {X} (f : sname -> X) l n : In n l -> In (n, f n) (combine l (map f l)).
Proof. induction l as [|m l IH]; [intros []|]. cbn [map combine]. intros [->|I]; [now left|right; auto]. Qed.

(* the result keeps the shape of the first argument, so it has no room for a
   dimension of another one that is longer than 1 *)
Lemma kept_shape_refused (x : xarr) md args (f : tensor -> list tensor -> res tensor) z n :
  x_ok x -> NoDup md -> incl md (x_dims x) ->
  (forall out ts u, f out ts = Ok u -> tshape u = tshape out) ->
  In (Labelled z) (map fst args) -> x_ok z -> In n (x_dims z) -> ~ In n (x_dims x) -> ~ In n (flat_map snd args) -> dim_size z n <> 1 ->
  forall g, apply_ufunc ((Labelled x, md) :: args) md [] (fun ts => rmap to_grid (f (arg 0 ts) (tl ts))) <> Ok g.
Proof.
  intros Hx Nm Im Hf Iz Hz Nz Nx Nc D g H. unfold apply_ufunc in H. cbn [map fst flat_map snd] in H.
  destruct (unified_dim_sizes _ _) as [s|] eqn:U; [|discriminate]. cbn [rbind] in H. cbv zeta in H.
  set (bd := filter (fun d => negb (smem d ((md ++ flat_map snd args) ++ md))) (map fst s)) in *.
  assert (Lz : lookup n s = Some (dim_size z n)).
  { apply (unified_lookup _ _ _ z n U); [|exact Hz|exact Nz|intros []]. change (In z (x :: labelled_of (map fst args))). right. now apply labelled_of_In. }
  assert (Nb : In n bd).
  { unfold bd. apply filter_In. split; [now apply lookup_Some_In in Lz|]. apply Bool.negb_true_iff, smem_false. rewrite !in_app_iff. intros [[Q|Q]|Q]; [apply Nx; now apply Im|contradiction|apply Nx; now apply Im]. }
  cbn [mapR fst snd] in H. destruct (broadcast_compat bd md x) as [t0|] eqn:B; [|discriminate]. cbn [rbind] in H.
  assert (Nd : NoDup (bd ++ md)).
  { apply NoDup_app_iff. split; [apply NoDup_filter, (unified_NoDup _ _ _ U)|]. split; [exact Nm|]. intros m Hm Q. unfold bd in Hm. apply filter_In in Hm. destruct Hm as [_ Hm].
    apply Bool.negb_true_iff, smem_false in Hm. apply Hm. rewrite !in_app_iff. auto. }
  assert (Ic : incl (x_dims x) (bd ++ md)).
  { intros m Hm. apply in_or_app. destruct (in_dec string_dec m bd) as [Q|Q]; [now left|]. destruct (in_dec string_dec m md) as [Q'|Q']; [now right|]. rewrite (broadcast_extra bd md x m Hm Q Q') in B. discriminate. }
  destruct (broadcast_placed x bd md Hx Nd Ic Im) as (t & E & _ & Sh & _). rewrite B in E. injection E as <-.
  destruct (mapR _ args) as [ts|]; [|discriminate]. cbn [rbind arg nth tl] in H. destruct (f t0 ts) as [u|] eqn:F; [|discriminate]. cbn [rmap rbind] in H. apply Hf in F.
  destruct (Nat.eqb_spec (List.length (gshape (to_grid u))) (List.length (bd ++ md))) as [L|L]; cbn [negb] in H; [|discriminate].
  change (gshape (to_grid u)) with (tshape u) in *. rewrite F, Sh in *.
  assert (T : trim (x_dims x) bd = bd).
  { destruct (trim_spec (x_dims x) bd) as (pre & Ep & _). rewrite map_length, !app_length in L. pose proof (f_equal (@List.length _) Ep) as Q. rewrite app_length in Q.
    destruct pre as [|p pre]; [symmetry; exact Ep|]. cbn in Q. lia. }
  rewrite T in *. match type of H with (if ?b then _ else _) = _ => destruct b eqn:X end; [discriminate|].
  rewrite <- Bool.not_true_iff_false in X. apply X. apply existsb_exists. exists (n, sizes_of x n). split; [apply in_combine_map_same, in_or_app; now left|].
  cbn [fst snd]. rewrite Lz. apply Bool.negb_true_iff, Nat.eqb_neq. unfold sizes_of. destruct (smem n (x_dims x)) eqn:Sn; [apply smem_In in Sn; contradiction|]. exact D.
Qed.
Lemma update_keeps_shape {A V} (K : pusher A V) P stretch args obj axes f u : gufunc_update K P stretch args obj axes f = Ok u -> tshape u = tshape obj.
Proof.
  unfold gufunc_update. intros H. repeat match type of H with
    | rbind ?m _ = _ => destruct m; [|discriminate]; cbn [rbind] in H
    | (if ?b then _ else _) = _ => destruct b; [discriminate|]
    | (let _ := _ in _) = _ => cbv zeta in H
    end. injection H as <-. reflexivity.
Qed.

(* ---- arrays that do not fit ----------------------------------------------------------- *)

(* z, whose own dimensions are core, does not fit the object x with moment dimensions md:
   it lacks one of core; it has a moment dimension it should not have; it and the object
   have different sizes for a name; it has a longer dimension that the object lacks *)
Definition misnamed (md core : list sname) (x z : xarr) : Prop :=
  (exists n, In n core /\ ~ In n (x_dims z)) \/ (exists n, In n md /\ ~ In n core /\ In n (x_dims z)) \/
  (exists n, In n (x_dims x) /\ In n (x_dims z) /\ dim_size x n <> dim_size z n) \/
  (exists n, In n (x_dims z) /\ ~ In n (x_dims x) /\ ~ In n core /\ dim_size z n <> 1).
Inductive misnamed_call (md : list sname) (x : xarr) : named_call -> Prop :=
| mn_data z scale : x_ok z -> misnamed md md x z -> misnamed_call md x (NData (Labelled z) scale)
| mn_datas axis dim mom_axes d z : x_ok z -> chooses (List.length md) axis dim d z -> ~ In d md -> In d (x_dims x) \/ misnamed md (d :: md) x z ->
    misnamed_call md x (NDatas axis dim mom_axes (Labelled z))
| mn_val v w y z : In (Labelled z) (v :: w :: y) -> x_ok z -> misnamed md [] x z -> misnamed_call md x (NVal v w y)
| mn_vals axis dim d v w y z : chooses 0 axis dim d v -> x_ok v -> Forall operand_ok (w :: y) -> In (Labelled z) (Labelled v :: w :: y) -> x_ok z ->
    In d (except_name (x_dims x) md) \/ misnamed md [d] x z -> misnamed_call md x (NVals axis dim (Labelled v) w y).

Section Refused.
  Context {A V : Type} (K : pusher A V) (P : packer A) (R : reader V) (stretch : bool) (c : cmdata) (md : list sname).
  Hypothesis HC : xholds c md.
  Let x := cx_obj c.

  Lemma update_refused_named args (f : tensor -> list tensor -> res tensor) z core : (forall out ts u, f out ts = Ok u -> tshape u = tshape out) ->
    In (Labelled z, core) args -> x_ok z -> misnamed md core x z -> incl (flat_map snd args) core ->
    forall r, x_update c md args f <> Ok r.
  Proof.
    intros Hf Iz Hz M Ic r H. unfold x_update, cx_with in H. fold x in H. pose proof HC as (Hx & Nm & _ & Im & _). fold x in Hx, Im.
    destruct (apply_ufunc _ _ _ _) as [g|] eqn:E; [|discriminate]. clear H.
    assert (NE : forall T (r : res T) v, argument_error r -> r <> Ok v) by (intros T r' v [-> | ->]; discriminate).
    assert (Iz' : In (Labelled z) (map fst args)) by (apply in_map_iff; now exists (Labelled z, core)).
    destruct M as [(n & N1 & N2)|[(n & N1 & N2 & N3)|[(n & N1 & N2 & N3)|(n & N1 & N2 & N3 & N4)]]].
    - revert E. apply NE. apply (apply_ufunc_misfit _ _ _ _ z core n); [now right|]. left. auto.
    - revert E. apply NE. apply (apply_ufunc_misfit _ _ _ _ z core n); [now right|]. right. split; [exact N3|]. split; [exact N2|]. apply in_or_app. now right.
    - rewrite (apply_ufunc_conflict _ _ _ _ x z n) in E; [discriminate|cbn; now left| |exact Hx|exact Hz|exact N1|exact N2|intros []|exact N3].
      change (In z (x :: labelled_of (map fst args))). right. now apply labelled_of_In.
    - revert E. apply (kept_shape_refused x md args f z n); auto.
  Qed.
  Lemma update_refused_taken args (f : tensor -> list tensor -> res tensor) d : In d (x_dims x) -> ~ In d md -> In d (flat_map snd args) -> forall r, x_update c md args f <> Ok r.
  Proof.
    intros Id Nd Ia r H. unfold x_update, cx_with in H. fold x in H.
    assert (E : argument_error (apply_ufunc ((Labelled x, md) :: args) md [] (fun ts => rmap to_grid (f (arg 0 ts) (tl ts))))).
    { apply (apply_ufunc_misfit _ _ _ _ x md d); [now left|]. right. split; [exact Id|]. split; [exact Nd|]. apply in_or_app. left. cbn [flat_map snd]. apply in_or_app. now right. }
    destruct E as [E|E]; rewrite E in H; discriminate.
  Qed.
  Lemma data_keeps scale out ts u : update_data K P stretch scale out ts = Ok u -> tshape u = tshape out.
  Proof. unfold update_data. destruct scale; apply update_keeps_shape. Qed.

  (* C136: a push of labelled arrays that do not fit the object by name is never
     carried out *)
  Theorem push_call_misnamed call : misnamed_call md x call -> forall r, run_named K P R stretch c call <> Ok r.
  Proof.
    intros H r. pose proof (obj_params c md HC) as Ep. pose proof HC as (Hx & Nm & Lm & Im & Fm & Eq). fold x in Hx, Im. destruct H; cbn [run_named].
    - unfold cx_push_data. rewrite Ep. cbn [rbind]. apply (update_refused_named _ _ z md); auto; [apply data_keeps|now left|]. cbn [flat_map snd]. rewrite app_nil_r. intros n; auto.
    - unfold cx_push_datas. rewrite Ep. cbn [rbind]. change (cx_params c = params_for md) in Eq. rewrite Eq.
      destruct (chooses_select z md axis dim d (proj1 (proj2 H)) H1 H0) as (a & _ & E). rewrite E. cbn [rbind].
      destruct H2 as [H2|H2].
      + apply (update_refused_taken _ _ d); auto. cbn. now left.
      + apply (update_refused_named _ _ z (d :: md)); auto; [intros out ts u; apply update_keeps_shape|now left|]. cbn [flat_map snd]. rewrite app_nil_r. intros n; auto.
    - unfold cx_push_val. destruct (negb _); [discriminate|]. rewrite Ep. cbn [rbind]. apply (update_refused_named _ _ z []); auto; [intros out ts u; apply update_keeps_shape|apply in_map_iff; now exists (Labelled z)|].
      intros n Hn. apply in_flat_map in Hn. destruct Hn as (p & Hp & Hn). apply in_map_iff in Hp. destruct Hp as (o & <- & _). exact Hn.
    - unfold cx_push_vals. rewrite Ep. cbn [rbind].
      destruct (xprepare_cases (S (mom_ndim P)) axis dim d v (w :: y) H H0 H1) as [G|(others & G & _ & HL & _)].
      { destruct G as [-> | ->]; discriminate. }
      rewrite G. cbn [rmap rbind].
      assert (Fl : incl (flat_map snd (map (fun o : xop => (o, [d])) (Labelled v :: others))) [d]).
      { intros n Hn. apply in_flat_map in Hn. destruct Hn as (p & Hp & Hn). apply in_map_iff in Hp. destruct Hp as (o & <- & _). exact Hn. }
      destruct H4 as [H4|H4].
      + apply except_name_In in H4. apply (update_refused_taken _ _ d); [tauto|tauto|cbn; now left].
      + apply (update_refused_named _ _ z [d]); auto; [intros out ts u; apply update_keeps_shape|]. apply in_map_iff. exists (Labelled z). split; [reflexivity|]. destruct H2 as [<-|H2]; [now left|right; now apply HL].
  Qed.
End Refused.

(* ---- sums and differences -------------------------------------------------------------- *)

Section Sums.
  Context {A V : Type} (K : pusher A V) (ok : A -> Prop) (P : packer A) (R : reader V).
  Hypothesis VA : values_array K ok P R.
  Let MA : moment_array K ok P := va_array K ok P R VA.
  Context (stretch : bool).
  Local Notation at_ c md env := (moments_named P (cx_obj c) md env).

  (* the result of a combination by names *)
  Definition combined_named (op : (sname -> nat) -> option A) (md : list sname) (x : xarr) (r : res cmdata) : Prop :=
    let outer := except_name (x_dims x) md in
    match r with
    | Ok c => xholds c md /\ x_dims (cx_obj c) = (outer ++ md)%list /\ (forall n, In n (x_dims x) -> dim_size (cx_obj c) n = dim_size x n) /\
        forall env, inside_names (dim_size x) outer env -> op env = Some (at_ c md env)
    | Raise e => e = EZeroDiv /\ exists env, inside_names (dim_size x) outer env /\ op env = None
    end.
  (* o, an object with moment dimensions md', can be added to c *)
  Definition addable (c : cmdata) (md : list sname) (o : cmdata) (md' : list sname) : Prop :=
    xholds c md /\ xholds o md' /\ map (dim_size (cx_obj c)) md = pk_shape P /\ map (dim_size (cx_obj o)) md' = pk_shape P /\ map (dim_size (cx_obj o)) md = pk_shape P /\
    incl md (x_dims (cx_obj o)) /\ incl (x_dims (cx_obj o)) (x_dims (cx_obj c)) /\ forall n, In n (x_dims (cx_obj o)) -> dim_size (cx_obj o) n = dim_size (cx_obj c) n.

  Lemma addable_lines c md o md' : addable c md o md' -> lines_up md (pk_shape P) (except_name (x_dims (cx_obj c)) md) (dim_size (cx_obj c)) (Labelled (cx_obj o)).
  Proof.
    intros (H1 & H2 & H3 & H4 & H5 & H6 & H7 & H8). cbn [lines_up]. split; [apply H2|]. split; [exact H6|]. split; [|split; [intros n Hn _; now apply H8|exact H5]].
    intros n Hn. apply in_or_app. rewrite except_name_In. destruct (in_dec string_dec n md); [now right|left]. split; [now apply H7|assumption].
  Qed.
  Lemma check_named c md o md' : addable c md o md' -> cx_check_other c o = Ok tt.
  Proof.
    intros (H1 & H2 & H3 & H4 & _). unfold cx_check_other. rewrite (mom_shape_of _ _ H2), (mom_shape_of _ _ H1), H3, H4. cbn [rbind]. unfold raise_if_wrong_mom_shape. now rewrite nats_eqb_refl.
  Qed.

  (* C137: + and - of labelled objects act position by position, by name; the right
     operand may lack dimensions of the left one *)
  Theorem add_named c md o md' : addable c md o md' -> combined_named (fun env => acc_add K (at_ c md env) (at_ o md env)) md (cx_obj c) (cx_add K P stretch c o).
  Proof.
    intros H. unfold cx_add. rewrite (check_named c md o md' H). cbn [rbind]. pose proof (addable_lines c md o md' H) as L. destruct H as (H1 & H2 & H3 & _).
    pose proof (push_data_named K ok P R VA stretch c md H1 H3 (Labelled (cx_obj o)) None _ (nc_data P R md _ _ _ L)) as X. unfold pushed_named in X. unfold combined_named. cbv zeta in *.
    destruct (cx_push_data K P stretch c (Labelled (cx_obj o)) None) as [r|e]; exact X.
  Qed.
  Lemma scalar_fits s : fits_shape [] s.
  Proof.
    split; [intros l [<-|[<-|[]]]; cbn; lia|]. split; [right; exists s; cbn; auto|]. intros k Hk. split; [intros l [<-|[<-|[]]]; [right; now destruct k|now left]|]. right. exists s. cbn. auto.
  Qed.
  Theorem subtract_named c md o md' : addable c md o md' -> combined_named (fun env => acc_sub K (at_ c md env) (at_ o md env)) md (cx_obj c) (cx_sub K P stretch c o).
  Proof.
    intros H. unfold cx_sub. rewrite (check_named c md o md' H). cbn [rbind]. pose proof (addable_lines c md o md' H) as L. destruct H as (H1 & H2 & H3 & _). set (m1 := Tensor [] [(-(1))%Qc]).
    assert (F1 : fits_shape (tshape m1) (map (dim_size (cx_obj c)) (except_name (x_dims (cx_obj c)) md))).
    { apply scalar_fits. }
    pose proof (push_data_named K ok P R VA stretch c md H1 H3 (Labelled (cx_obj o)) (Some m1) _ (nc_scale P R md _ _ _ m1 L F1)) as X. unfold pushed_named in X. unfold combined_named. cbv zeta in *.
    destruct (cx_push_data K P stretch c (Labelled (cx_obj o)) (Some m1)) as [r|e]; exact X.
  Qed.

  Lemma named_ok x md env : ok (moments_named P x md env).
  Proof. apply (ma_pack_ok _ _ _ MA). Qed.
  (* the same object, but for the order of its dimensions *)
  Lemma same_by_moments c c' md : xholds c md -> xholds c' md -> map (dim_size (cx_obj c)) md = pk_shape P -> 
    (forall n, In n (x_dims (cx_obj c)) <-> In n (x_dims (cx_obj c'))) -> (forall n, In n (x_dims (cx_obj c)) -> dim_size (cx_obj c) n = dim_size (cx_obj c') n) ->
    (forall env, inside_names (dim_size (cx_obj c)) (except_name (x_dims (cx_obj c)) md) env -> at_ c md env = at_ c' md env) -> x_same (cx_obj c) (cx_obj c').
  Proof.
    intros H1 H2 Es D S E. split; [exact D|]. split; [exact S|]. intros env He.
    assert (Vm : valid (pk_shape P) (map env md)).
    { rewrite <- Es. apply inside_names_valid. intros n Hn. apply He. now apply H1. }
    assert (X : forall c, xholds c md -> x_at (cx_obj c) env = x_at (cx_obj c) (name_bind md (map env md) env)).
    { intros d Hd. unfold x_at. f_equal. apply map_ext_in. intros n _. destruct (in_dec string_dec n md) as [Q|Q]; [|now rewrite name_bind_out].
      destruct (In_nth _ _ "" Q) as (k & Hk & <-). rewrite name_bind_in; [|apply Hd|now rewrite map_length|exact Hk]. now rewrite (nth_map_dims env md k Hk). }
    rewrite (X c H1), (X c' H2).
    assert (En : inside_names (dim_size (cx_obj c)) (except_name (x_dims (cx_obj c)) md) env) by (intros n Hn; apply except_name_In in Hn; apply He; tauto).
    specialize (E env En). apply (f_equal (fun a => pk_unpack P a (map env md))) in E. unfold moments_named in E.
    rewrite (ma_unpack_pack K ok P MA (fun m => x_at (cx_obj c) (name_bind md m env)) _ Vm), (ma_unpack_pack K ok P MA (fun m => x_at (cx_obj c') (name_bind md m env)) _ Vm) in E. exact E.
  Qed.
  (* two objects with the same names and sizes *)
  Definition alike (c o : cmdata) (md : list sname) : Prop :=
    xholds c md /\ xholds o md /\ map (dim_size (cx_obj c)) md = pk_shape P /\ (forall n, In n (x_dims (cx_obj c)) <-> In n (x_dims (cx_obj o))) /\
    forall n, In n (x_dims (cx_obj c)) -> dim_size (cx_obj c) n = dim_size (cx_obj o) n.
  Lemma alike_sym c o md : alike c o md -> alike o c md.
  Proof.
    intros (H1 & H2 & H3 & H4 & H5). split; [exact H2|]. split; [exact H1|]. split; [rewrite <- H3; apply map_ext_in; intros n Hn; symmetry; apply H5; now apply H1|].
    split; [intros n; symmetry; apply H4|]. intros n Hn. symmetry. apply H5. now apply H4.
  Qed.
  Lemma alike_trans a b c md : alike a b md -> alike b c md -> alike a c md.
  Proof.
    intros (H1 & H2 & H3 & H4 & H5) (_ & H2' & _ & H4' & H5'). split; [exact H1|]. split; [exact H2'|]. split; [exact H3|]. split; [intros n; now rewrite H4|].
    intros n Hn. rewrite H5 by exact Hn. apply H5'. now apply H4.
  Qed.
  Lemma alike_addable c o md : alike c o md -> addable c md o md.
  Proof.
    intros H. pose proof (alike_sym _ _ _ H) as (_ & _ & S & _ & E). destruct H as (H1 & H2 & H3 & H4 & H5). repeat (split; [assumption|]). split; [apply H2|]. split; [intros n; apply H4|]. exact E.
  Qed.
  Lemma alike_inside c o md env : alike c o md -> inside_names (dim_size (cx_obj c)) (except_name (x_dims (cx_obj c)) md) env ->
    inside_names (dim_size (cx_obj o)) (except_name (x_dims (cx_obj o)) md) env.
  Proof. intros (_ & _ & _ & H4 & H5) He n Hn. apply except_name_In in Hn. destruct Hn as [Hn Nm]. apply H4 in Hn. rewrite <- H5 by exact Hn. apply He. now apply except_name_In. Qed.
  Lemma combined_alike op c md r : xholds c md -> map (dim_size (cx_obj c)) md = pk_shape P -> combined_named op md (cx_obj c) (Ok r) ->
    alike c r md /\ forall env, inside_names (dim_size (cx_obj c)) (except_name (x_dims (cx_obj c)) md) env -> op env = Some (at_ r md env).
  Proof.
    intros Hc Hs (X1 & X2 & X3 & X4). split; [|exact X4]. split; [exact Hc|]. split; [exact X1|]. split; [exact Hs|]. split; [|intros n Hn; symmetry; now apply X3].
    intros n. rewrite X2. split; intros Q; [eapply Permutation_in; [symmetry; apply (outer_perm c md Hc)|exact Q]|eapply Permutation_in; [apply (outer_perm c md Hc)|exact Q]].
  Qed.
  (* results that agree by name *)
  Definition agree_named (r r' : res cmdata) : Prop :=
    match r, r' with Ok c, Ok c' => x_same (cx_obj c) (cx_obj c') | Raise e, Raise e' => e = e' | _, _ => False end.
  Lemma combined_agree op op' c o md r r' : alike c o md -> combined_named op md (cx_obj c) r -> combined_named op' md (cx_obj o) r' ->
    (forall env, inside_names (dim_size (cx_obj c)) (except_name (x_dims (cx_obj c)) md) env -> op env = op' env) -> agree_named r r'.
  Proof.
    intros HA H H' E. pose proof (alike_sym _ _ _ HA) as HA'. destruct r as [d|e], r' as [d'|e']; cbn [agree_named].
    - destruct (combined_alike op c md d (proj1 HA) (proj1 (proj2 (proj2 HA))) H) as [A1 X1].
      destruct (combined_alike op' o md d' (proj1 HA') (proj1 (proj2 (proj2 HA'))) H') as [A2 X2].
      pose proof (alike_trans _ _ _ _ (alike_sym _ _ _ A1) (alike_trans _ _ _ _ HA A2)) as A3. destruct A3 as (G1 & G2 & G3 & G4 & G5).
      apply (same_by_moments d d' md); auto. intros env He. apply (alike_inside d c md env (alike_sym _ _ _ A1)) in He. specialize (X1 env He). rewrite (E env He), (X2 env (alike_inside c o md env HA He)) in X1. congruence.
    - cbn [combined_named] in *. destruct H' as [_ (env & He & H')]. apply (alike_inside o c md env HA') in He. destruct H as (_ & _ & _ & H). specialize (H env He). rewrite (E env He) in H. congruence.
    - cbn [combined_named] in *. destruct H as [_ (env & He & H)]. destruct H' as (_ & _ & _ & H'). specialize (H' env (alike_inside c o md env HA He)). rewrite <- (E env He) in H'. congruence.
    - destruct H as [-> _], H' as [-> _]. reflexivity.
  Qed.

  (* C137: the usual laws, for objects with the same names and sizes in any order *)
  Theorem add_named_commutative c o md : alike c o md ->
    (forall env, inside_names (dim_size (cx_obj c)) (except_name (x_dims (cx_obj c)) md) env -> clean K (at_ c md env) /\ clean K (at_ o md env) /\
       (p_wt K (at_ c md env) <> 0 -> p_wt K (at_ o md env) <> 0 -> p_wt K (at_ c md env) + p_wt K (at_ o md env) <> 0)%Qc) ->
    agree_named (cx_add K P stretch c o) (cx_add K P stretch o c).
  Proof.
    intros HA H. apply (combined_agree _ _ c o md _ _ HA (add_named c md o md (alike_addable _ _ _ HA)) (add_named o md c md (alike_addable _ _ _ (alike_sym _ _ _ HA)))).
    intros env He. destruct (H env He) as (C1 & C2 & C3). apply (add_commutative K ok (ma_kernel _ _ _ MA)); auto; apply named_ok.
  Qed.
  Theorem subtract_named_undoes_add c o md : alike c o md ->
    (forall env, inside_names (dim_size (cx_obj c)) (except_name (x_dims (cx_obj c)) md) env -> (p_wt K (at_ c md env) <> 0 /\ p_wt K (at_ c md env) + p_wt K (at_ o md env) <> 0)%Qc) ->
    exists r c', cx_add K P stretch c o = Ok r /\ cx_sub K P stretch r o = Ok c' /\ x_same (cx_obj c') (cx_obj c).
  Proof.
    intros HA H.
    assert (U : forall env, inside_names (dim_size (cx_obj c)) (except_name (x_dims (cx_obj c)) md) env ->
      exists r, acc_add K (at_ c md env) (at_ o md env) = Some r /\ acc_sub K r (at_ o md env) = Some (at_ c md env)).
    { intros env He. destruct (H env He) as [N1 N2]. apply (subtract_undoes_add K ok (ma_kernel _ _ _ MA)); auto; apply named_ok. }
    pose proof (add_named c md o md (alike_addable _ _ _ HA)) as X. destruct (cx_add K P stretch c o) as [r|e].
    2: { exfalso. destruct X as [_ (env & He & X)]. destruct (U env He) as (? & U1 & _). congruence. }
    destruct (combined_alike _ c md r (proj1 HA) (proj1 (proj2 (proj2 HA))) X) as [A1 X1].
    pose proof (alike_trans _ _ _ _ (alike_sym _ _ _ A1) HA) as A2.
    pose proof (subtract_named r md o md (alike_addable _ _ _ A2)) as Y. exists r.
    assert (U2 : forall env, inside_names (dim_size (cx_obj r)) (except_name (x_dims (cx_obj r)) md) env -> acc_sub K (at_ r md env) (at_ o md env) = Some (at_ c md env)).
    { intros env He. apply (alike_inside r c md env (alike_sym _ _ _ A1)) in He. destruct (U env He) as (q & U1 & U2). rewrite (X1 env He) in U1. injection U1 as <-. exact U2. }
    destruct (cx_sub K P stretch r o) as [c'|e].
    2: { exfalso. destruct Y as [_ (env & He & Y)]. rewrite (U2 env He) in Y. discriminate. }
    exists c'. split; [reflexivity|]. split; [reflexivity|]. destruct (combined_alike _ r md c' (proj1 A2) (proj1 (proj2 (proj2 A2))) Y) as [A3 X3].
    pose proof (alike_trans _ _ _ _ (alike_sym _ _ _ A3) (alike_sym _ _ _ A1)) as (G1 & G2 & G3 & G4 & G5).
    apply (same_by_moments c' c md); auto. intros env He. apply (alike_inside c' r md env (alike_sym _ _ _ A3)) in He. specialize (X3 env He). rewrite (U2 env He) in X3. congruence.
  Qed.
  (* objects with different orders of moments are not added *)
  Theorem add_named_checks_moments c md o md' : xholds c md -> xholds o md' -> map (dim_size (cx_obj c)) md <> map (dim_size (cx_obj o)) md' ->
    cx_add K P stretch c o = Raise EValue /\ cx_sub K P stretch c o = Raise EValue.
  Proof.
    intros H1 H2 N. assert (E : cx_check_other c o = Raise EValue).
    { unfold cx_check_other. rewrite (mom_shape_of _ _ H2), (mom_shape_of _ _ H1). cbn [rbind]. unfold raise_if_wrong_mom_shape.
      match goal with |- context [nats_eqb ?a ?b] => destruct (nats_eqb a b) eqn:Q end; [apply nats_eqb_eq in Q; congruence|reflexivity]. }
    unfold cx_add, cx_sub. rewrite E. split; reflexivity.
  Qed.
  (* nor are objects whose names do not fit: the right one has a longer dimension that
     the left one lacks, or sizes differ, or a moment dimension of the left one is missing *)
  Theorem add_named_misnamed c md o : xholds c md -> x_ok (cx_obj o) -> misnamed md md (cx_obj c) (cx_obj o) ->
    forall r, cx_add K P stretch c o <> Ok r /\ cx_sub K P stretch c o <> Ok r.
  Proof.
    intros H1 H2 M r. unfold cx_add, cx_sub. destruct (cx_check_other c o); cbn [rbind]; [|split; discriminate]. split.
    - apply (push_call_misnamed K P R stretch c md H1 (NData (Labelled (cx_obj o)) None)). now constructor.
    - apply (push_call_misnamed K P R stretch c md H1 (NData (Labelled (cx_obj o)) (Some _))). now constructor.
  Qed.
End Sums.
