(* Moments and comoments of labelled arrays, by name. *)
From Coq Require Import String Permutation.
From Verif Require Import Base BaseLemmas ModelPush ModelKernels ModelIndex ModelAxes ModelState ModelParams ModelNd ModelWrap ModelLabel ModelMoments ModelMomentsX
  Spec SpecAxes SpecNd PropLabelled SpecLabel SpecMethodsX SpecMoments SpecMomentsX
  ProofAxes ProofArrays ProofNd PropParams ProofLabel ProofLabelMany PropLabelJack ProofMethodsX ProofMoments PropConvert PropMoments PropSelect PropAssign ProofMomentsX PropMomentsX.
Local Open Scope string_scope.
Local Open Scope nat_scope.

Lemma names_read k asked out : k = 1 \/ k = 2 -> chosen_names k asked out -> exists p, x_factory false MPNone (Some (Z.of_nat k)) asked None OOther None = Ok p /\ iter_dims p = Ok out.
Proof.
  intros Hk (L & H). unfold x_factory. cbn [is_x_params as_mpdict set_ndim d_ndim d_dims d_axes setdefault kwarg]. unfold x_from_params, validate_mom_dims_and_mom_ndim, validate_dims_ndim_axes, validate_mom_ndim_and_mom_axes, validate_mom_dims.
  destruct H as [->|[[-> ->]|(d & -> & ->)]]; destruct Hk as [-> | ->]; try discriminate L; cbn - [Z.of_nat Z.eqb]; rewrite ?L; eexists; split; reflexivity.
Qed.

(* ---- a dimension under another name -------------------------------------------------------- *)
Section Renamed.
  Context (x : xarr) (d d' : sname).
  Hypothesis Hx : x_ok x.
  Hypothesis Hd : In d (x_dims x).
  Hypothesis Nd : ~ In d' (x_dims x).
  Let f n := if String.eqb n d then d' else n.
  Let z := x_rename f x.

  Lemma ren_inj a b : In a (x_dims x) -> In b (x_dims x) -> f a = f b -> a = b.
  Proof. unfold f. intros Ha Hb. destruct (String.eqb_spec a d), (String.eqb_spec b d); intros E; subst; congruence. Qed.
  Lemma ren_ok : x_ok z.
  Proof. destruct Hx as (A & B & C). split; [exact A|]. cbn [z x_rename x_dims]. split; [apply NoDup_map_in; [exact B|exact ren_inj]|]. now rewrite map_length. Qed.
  Lemma ren_size n : In n (x_dims x) -> dim_size z (f n) = dim_size x n.
  Proof.
    intros Hn. destruct (In_nth _ _ "" Hn) as (k & Hk & <-). rewrite <- (dim_size_nth x k Hx Hk).
    assert (E : f (nth k (x_dims x) "") = nth k (x_dims z) "").
    { cbn [z x_rename x_dims]. symmetry. rewrite (nth_indep _ "" (f "")) by (now rewrite map_length). apply map_nth. }
    rewrite E, <- (dim_size_nth z k ren_ok); [reflexivity|]. cbn [z x_rename x_dims]. now rewrite map_length.
  Qed.
  Lemma ren_other n : n <> d -> f n = n.
  Proof. unfold f. destruct (String.eqb_spec n d); congruence. Qed.
  Lemma ren_except md : In d md -> incl md (x_dims x) -> except_name (x_dims z) (map f md) = except_name (x_dims x) md.
  Proof.
    intros Im I. cbn [z x_rename x_dims]. assert (Q : incl (x_dims x) (x_dims x)) by (intros n; auto). revert Q. generalize (x_dims x) at 1 3 4. intros l. induction l as [|n l IH]; intros Q; [reflexivity|].
    assert (IHl : except_name (map f l) (map f md) = except_name l md) by (apply IH; intros m Hm; apply Q; now right). unfold except in *. cbn [map filter].
    assert (Hn : In n (x_dims x)) by (apply Q; now left).
    destruct (in_dec string_dec n md) as [J|J].
    - destruct (in_dec string_dec (f n) (map f md)) as [_|K]; [exact IHl|]. elim K. now apply in_map.
    - destruct (in_dec string_dec (f n) (map f md)) as [K|_].
      + apply in_map_iff in K. destruct K as (m & E & Hm). apply ren_inj in E; [congruence|now apply I|exact Hn].
      + rewrite IHl. f_equal. apply ren_other. congruence.
  Qed.
  Lemma ren_moment md env m : In d md -> incl md (x_dims x) -> NoDup md -> List.length m = List.length md -> named_moment z (map f md) env m = named_moment x md env m.
  Proof.
    intros Im I N L. unfold named_moment, x_at. cbn [z x_rename x_dims x_val]. rewrite map_map. f_equal. apply map_ext_in. intros n Hn.
    assert (Nf : NoDup (map f md)) by (apply NoDup_map_in; [exact N|intros a b Ha Hb; apply ren_inj; auto]).
    destruct (in_dec string_dec n md) as [J|J].
    - destruct (In_nth _ _ "" J) as (k & Hk & <-). rewrite (name_bind_in md) by auto. assert (E : f (nth k md "") = nth k (map f md) "") by (symmetry; rewrite (nth_indep _ "" (f "")) by (now rewrite map_length); apply map_nth).
      rewrite E. apply name_bind_in; [exact Nf|now rewrite map_length|now rewrite map_length].
    - rewrite (name_bind_out md) by exact J. rewrite name_bind_out; [f_equal; apply ren_other; congruence|]. intros K. apply in_map_iff in K. destruct K as (b & E & Hb). apply ren_inj in E; [congruence|now apply I|exact Hn].
  Qed.
  Lemma ren_run : x_rename_dim d d' x = Ok z.
  Proof.
    unfold x_rename_dim. pose proof Hd as I. apply smem_In in I. rewrite I. cbn [negb]. apply smem_false in Nd. rewrite Nd, Bool.andb_false_r. reflexivity.
  Qed.
  Lemma ren_moments md : In d md -> has_moments md x -> has_moments (map f md) z.
  Proof.
    intros Im (_ & N & L & I). split; [exact ren_ok|]. split; [apply NoDup_map_in; [exact N|intros a b Ha Hb; apply ren_inj; auto]|]. rewrite map_length. split; [exact L|]. cbn [z x_rename x_dims]. intros n Hn. apply in_map_iff in Hn. destruct Hn as (m & <- & Hm). apply in_map. now apply I.
  Qed.
  Lemma ren_result md out ms g r : In d md -> incl md (x_dims x) -> NoDup md -> NoDup out -> List.length ms = List.length out -> (forall env, List.length (g env) = List.length md) ->
    result_is (except_name (x_dims z) (map f md) ++ out) (sizes_with out ms (dim_size z)) (fun env => named_moment z (map f md) env (g env)) r ->
    result_is (except_name (x_dims x) md ++ out) (sizes_with out ms (dim_size x)) (fun env => named_moment x md env (g env)) r.
  Proof.
    intros Im I N No Lm Lg (y & Ey & Hy & Dy & Sy & Ay). rewrite (ren_except md Im I) in Dy, Sy, Ay. exists y. split; [exact Ey|]. split; [exact Hy|]. split; [exact Dy|].
    assert (Sz : forall n, In n (except_name (x_dims x) md ++ out) -> sizes_with out ms (dim_size z) n = sizes_with out ms (dim_size x) n).
    { intros n Hn. unfold sizes_with. destruct (in_dec string_dec n out) as [Q|Q].
      - destruct (In_nth _ _ "" Q) as (k & Hk & <-). now rewrite !name_bind_in by auto.
      - apply in_app_or in Hn. destruct Hn as [Hn|Hn]; [|tauto]. apply except_name_In in Hn. destruct Hn as [Hn Hq]. rewrite !name_bind_out by exact Q.
        rewrite <- (ren_size n Hn), ren_other; [reflexivity|]. intros ->. now apply Hq. }
    split; [intros n Hn; rewrite Sy by exact Hn; now apply Sz|]. intros env He. rewrite Ay by (intros n Hn; rewrite Sz by exact Hn; now apply He). now apply ren_moment.
  Qed.
End Renamed.
Lemma temporary_other d : temporary d <> d.
Proof. unfold temporary. intros E. apply (f_equal String.length) in E. cbn in E. lia. Qed.

Section ToComoments.
  Context (x : xarr) (d : sname).
  Hypothesis HM : has_moments [d] x.
  Let outer := except_name (x_dims x) [d].
  Let sz := dim_size x.

  (* the call on the array itself or on the array under the temporary name *)
  Lemma comoments_run mom a b m0 m1 : new_names x [d] [a; b] -> ~ In d [a; b] -> resolved mom (Z.of_nat (sz d) - 1) (Z.of_nat m0, Z.of_nat m1) ->
    result_is (outer ++ [a; b]) (sizes_with [a; b] [S m0; S m1] sz) (fun env => named_moment x [d] env [env a + env b])
      (rmap to_xarr (x_apply [(Labelled x, [d])] [a; b] (fun ts => moments_to_comoments_nd [fst mom; snd mom] (-1) (arg 0 ts)))).
  Proof.
    intros HN Nd R. destruct (one_array x [d] HM [a; b] (fun ts => moments_to_comoments_nd [fst mom; snd mom] (-1) (arg 0 ts)) HN) as (t & T1 & T2 & A & S1 & S2 & En & Res & _).
    fold outer in T2, A, S1, S2, En, Res. fold sz in T2, S1, S2, En, Res. cbn [List.length seq map axes_last] in A, S2, En. change (axes_last 1) with [(-1)%Z] in A.
    assert (Sd : shape_of t (List.length outer) = sz d) by congruence.
    rewrite <- Sd in R. destruct (moments_to_comoments_entries mom (-1)%Z _ _ t m0 m1 A R) as (out & E & To & So & G). destruct HN as [No Ho].
    assert (Nab : a <> b) by (inversion No as [|? ? Q _]; subst; intros <-; apply Q; now left).
    assert (Sa : sizes_with [a; b] [S m0; S m1] sz a = S m0) by (unfold sizes_with, name_bind; cbn; now rewrite String.eqb_refl).
    assert (Sb : sizes_with [a; b] [S m0; S m1] sz b = S m1) by (unfold sizes_with, name_bind; cbn; destruct (String.eqb_spec a b); [congruence|now rewrite String.eqb_refl]).
    apply (Res out); auto.
    - rewrite So, S1. cbn [map]. now rewrite Sa, Sb.
    - intros n Hn. unfold sizes_with. apply name_bind_out. intros C. now apply (Ho n C).
    - intros n Hn Hx. exfalso. apply (Ho n Hn). rewrite except_name_In. split; [exact Hx|]. intros [<-|[]]. tauto.
    - intros env He. apply env_split in He. destruct He as [He Vm]. cbn [map] in Vm. rewrite Sa, Sb in Vm. inversion Vm as [|? ? ? ? V0 V1]; subst. inversion V1 as [|? ? ? ? V2 _]; subst.
      assert (He' : inside_names sz outer env). { intros n Hn. specialize (He n Hn). unfold sizes_with in He. rewrite name_bind_out in He; [exact He|]. intros C. now apply (Ho n C). }
      cbn [map]. rewrite S1 in G. rewrite G by (try lia; now apply inside_names_valid). apply En; [exact He'|]. constructor; [|constructor].
      destruct R as (_ & _ & _ & R). cbn [fst snd] in R. rewrite <- Sd. lia.
  Qed.
End ToComoments.

Lemma orders_refused mom M e : ModelConvert.validate_mom_moments_to_comoments mom M = Raise e -> e = EValue.
Proof. unfold ModelConvert.validate_mom_moments_to_comoments. destruct mom as [|? [|? [|]]]; try congruence. destruct (_ || _)%bool; congruence. Qed.
(* the input as it is handed to the kernel: itself, or with d standing aside *)
Definition aside (d : sname) (out : list sname) (x : xarr) : sname * xarr :=
  if smem d out then (temporary d, x_rename (fun n => if String.eqb n d then temporary d else n) x) else (d, x).
Lemma aside_facts x d out : has_moments [d] x -> (In d out -> can_stand_aside x out d) -> let (d', z) := aside d out x in
  has_moments [d'] z /\ ~ In d' out /\ dim_size z d' = dim_size x d /\ except_name (x_dims z) [d'] = except_name (x_dims x) [d].
Proof.
  intros HM HT. pose proof HM as (Hx & _ & _ & Id). assert (Hd : In d (x_dims x)) by (apply Id; now left). unfold aside. destruct (smem d out) eqn:Sm.
  - apply smem_In in Sm. destruct (HT Sm) as [T1 T2]. set (f := fun n => if String.eqb n d then temporary d else n). set (z := x_rename f x).
    assert (Fd : f d = temporary d) by (unfold f; now rewrite String.eqb_refl).
    pose proof (ren_moments x d (temporary d) Hx T1 [d] (or_introl eq_refl) HM) as H1. pose proof (ren_size x d (temporary d) Hx T1 d Hd) as H2. pose proof (ren_except x d (temporary d) T1 [d] (or_introl eq_refl) Id) as H3. fold f z in H1, H2, H3. cbn [map] in H1, H3. rewrite Fd in H1, H2, H3. auto.
  - apply smem_false in Sm. auto.
Qed.
Lemma comoments_stage x d mom asked a b : has_moments [d] x -> chosen_names 2 asked [a; b] -> (In d [a; b] -> can_stand_aside x [a; b] d) ->
  x_moments_to_comoments (params_for [d]) mom asked x =
    rbind (ModelConvert.validate_mom_moments_to_comoments mom (Z.of_nat (dim_size x d) - 1)) (fun _ =>
      let (d', z) := aside d [a; b] x in rmap to_xarr (x_apply [(Labelled z, [d'])] [a; b] (fun ts => moments_to_comoments_nd mom (-1) (arg 0 ts)))).
Proof.
  intros HM HC HT. unfold x_moments_to_comoments. destruct (names_read 2 asked [a; b] (or_intror eq_refl) HC) as (p & E1 & E2). change (Z.of_nat 2) with 2%Z in E1. rewrite E1. cbn [rbind]. rewrite E2. cbn [rbind].
  change (iter_dims (params_for [d])) with (Ok [d]). cbn [rbind]. pose proof (aside_facts x d [a; b] HM HT) as AF.
  assert (Q : (if smem d [a; b] then rmap (fun z => (temporary d, z)) (x_rename_dim d (temporary d) x) else Ok (d, x)) = Ok (aside d [a; b] x)).
  { unfold aside. destruct (smem d [a; b]) eqn:Sm; [|reflexivity]. apply smem_In in Sm. destruct (HT Sm) as [T1 T2]. rewrite (ren_run x d (temporary d)); [reflexivity|apply HM; now left|exact T1]. }
  rewrite Q. cbn [rbind]. destruct (aside d [a; b] x) as [d' z]. destruct AF as (HM' & _ & Sd & _). unfold sizes.
  assert (Iz : In d' (x_dims z)) by (apply HM'; now left). apply smem_In in Iz. rewrite Iz. cbn [rbind]. change (nth (position String.eqb d' (x_dims z)) (x_shape z) 0) with (dim_size z d'). now rewrite Sd.
Qed.

(* ---- C143: comoments of labelled arrays -------------------------------------------------------- *)

(* entry (i, j) of the comoments is the moment of order i + j; the new dimensions are
   the last ones *)
Theorem moments_to_comoments_named : forall x d mom asked a b m0 m1, has_moments [d] x -> chosen_names 2 asked [a; b] -> new_names x [d] [a; b] ->
  (In d [a; b] -> can_stand_aside x [a; b] d) -> resolved mom (Z.of_nat (dim_size x d) - 1) (Z.of_nat m0, Z.of_nat m1) ->
  result_is (except_name (x_dims x) [d] ++ [a; b]) (sizes_with [a; b] [S m0; S m1] (dim_size x)) (fun env => named_moment x [d] env [env a + env b])
    (x_moments_to_comoments (params_for [d]) [fst mom; snd mom] asked x).
Proof.
  intros x d mom asked a b m0 m1 HM HC HN HT R. rewrite (comoments_stage x d _ asked a b HM HC HT). destruct mom as [q0 q1]. cbn [fst snd]. pose proof R as R'. apply comoment_orders_resolved in R'. rewrite R'. cbn [rbind].
  pose proof (aside_facts x d [a; b] HM HT) as AF. unfold aside in *. destruct (smem d [a; b]) eqn:Sm.
  - set (f := fun n => if String.eqb n d then temporary d else n) in *. set (z := x_rename f x) in *. destruct AF as (HM' & N' & Sd & Ex). apply smem_In in Sm. destruct (HT Sm) as [T1 T2]. pose proof HM as (Hx & _ & _ & Id).
    assert (Fd : f d = temporary d) by (unfold f; now rewrite String.eqb_refl).
    apply (ren_result x d (temporary d) Hx T1 [d] [a; b] [S m0; S m1] (fun env => [env a + env b])); auto; [now left|repeat constructor; intros []|apply HN|].
    cbn [map]. rewrite String.eqb_refl. fold f z. apply (comoments_run z (temporary d) HM' (q0, q1)); [|exact T2|now rewrite Sd].
    destruct HN as [N1 N2]. split; [exact N1|]. rewrite Ex. exact N2.
  - apply smem_false in Sm. now apply (comoments_run x d HM (q0, q1)).
Qed.

(* a name already carried by a value dimension cannot be taken *)
Theorem moments_to_comoments_named_taken : forall x d mom asked a b n, has_moments [d] x -> chosen_names 2 asked [a; b] -> (In d [a; b] -> can_stand_aside x [a; b] d) ->
  In n [a; b] -> In n (except_name (x_dims x) [d]) -> x_moments_to_comoments (params_for [d]) mom asked x = Raise EValue.
Proof.
  intros x d mom asked a b n HM HC HT I1 I2. rewrite (comoments_stage x d mom asked a b HM HC HT). pose proof (aside_facts x d [a; b] HM HT) as AF. destruct (aside d [a; b] x) as [d' z].
  destruct AF as (HM' & N' & Sd & Ex). rewrite <- Ex in I2. apply except_name_In in I2. destruct I2 as [I2 I3].
  destruct (ModelConvert.validate_mom_moments_to_comoments mom (Z.of_nat (dim_size x d) - 1)) as [c|e] eqn:Ev; cbn [rbind].
  - rewrite (apply_taken z [d'] [a; b] _ n); [reflexivity|apply HM'|exact I1|exact I2|exact I3].
  - now rewrite (orders_refused _ _ _ Ev).
Qed.
(* orders that do not resolve *)
Theorem moments_to_comoments_named_orders : forall x d mom asked a b, has_moments [d] x -> chosen_names 2 asked [a; b] -> (In d [a; b] -> can_stand_aside x [a; b] d) ->
  ~ (exists c, resolved mom (Z.of_nat (dim_size x d) - 1) c) -> x_moments_to_comoments (params_for [d]) [fst mom; snd mom] asked x = Raise EValue.
Proof.
  intros x d [q0 q1] asked a b HM HC HT NR. rewrite (comoments_stage x d _ asked a b HM HC HT). cbn [fst snd].
  destruct (ModelConvert.validate_mom_moments_to_comoments [q0; q1] (Z.of_nat (dim_size x d) - 1)) as [c|e] eqn:Ev; [|cbn [rbind]; now rewrite (orders_refused _ _ _ Ev)].
  elim NR. exists c. now apply comoment_orders_resolved.
Qed.
(* without the moments dimension: a KeyError, or a ValueError if a new dimension
   should take its name *)
Theorem moments_to_comoments_named_missing : forall x d mom asked a b, ~ In d (x_dims x) -> chosen_names 2 asked [a; b] ->
  x_moments_to_comoments (params_for [d]) mom asked x = Raise (if in_dec string_dec d [a; b] then EValue else EKey).
Proof.
  intros x d mom asked a b N HC. unfold x_moments_to_comoments. destruct (names_read 2 asked [a; b] (or_intror eq_refl) HC) as (p & E1 & E2). change (Z.of_nat 2) with 2%Z in E1. rewrite E1. cbn [rbind]. rewrite E2. cbn [rbind].
  change (iter_dims (params_for [d])) with (Ok [d]). cbn [rbind]. apply smem_false in N. destruct (in_dec string_dec d [a; b]) as [I|I].
  - apply smem_In in I. rewrite I. unfold x_rename_dim. now rewrite N.
  - apply smem_false in I. rewrite I. cbn [rbind]. unfold sizes. now rewrite N.
Qed.
(* the input dimension that cannot stand aside: the call raises though no name clashes *)
Theorem moments_to_comoments_named_aside : forall x d mom asked a b, has_moments [d] x -> chosen_names 2 asked [a; b] -> In d [a; b] -> In ("_tmp_" ++ d) (x_dims x) ->
  x_moments_to_comoments (params_for [d]) mom asked x = Raise EValue.
Proof.
  intros x d mom asked a b HM HC I T. unfold x_moments_to_comoments. destruct (names_read 2 asked [a; b] (or_intror eq_refl) HC) as (p & E1 & E2). change (Z.of_nat 2) with 2%Z in E1. rewrite E1. cbn [rbind]. rewrite E2. cbn [rbind].
  change (iter_dims (params_for [d])) with (Ok [d]). cbn [rbind]. apply smem_In in I. rewrite I. unfold x_rename_dim. assert (Hd : In d (x_dims x)) by (apply HM; now left). apply smem_In in Hd. rewrite Hd. cbn [negb].
  apply smem_In in T. change (temporary d) with ("_tmp_" ++ d). rewrite T. destruct (String.eqb_spec d ("_tmp_" ++ d)) as [E|_]; [|reflexivity]. elim (temporary_other d). now symmetry.
Qed.

Section FromComoments.
  Context (x : xarr) (a b : sname).
  Hypothesis HM : has_moments [a; b] x.
  Let outer := except_name (x_dims x) [a; b].
  Let sz := dim_size x.

  Lemma moments_run junk d : new_names x [a; b] [d] -> ~ In d [a; b] -> 0 < sz a -> 0 < sz b ->
    result_is (outer ++ [d]) (sizes_with [d] [sz a + sz b - 1] sz) (fun env => named_moment x [a; b] env [env d - (sz b - 1); Nat.min (env d) (sz b - 1)])
      (rmap to_xarr (x_apply [(Labelled x, [a; b])] [d] (fun ts => comoments_to_moments_nd junk [-2; -1]%Z (arg 0 ts)))).
  Proof.
    intros HN Nd Pa Pb. destruct (one_array x [a; b] HM [d] (fun ts => comoments_to_moments_nd junk [-2; -1]%Z (arg 0 ts)) HN) as (t & T1 & T2 & A & S1 & S2 & En & Res & _).
    fold outer in T2, A, S1, S2, En, Res. fold sz in T2, S1, S2, En, Res. cbn [List.length seq map] in A, S2, En. change (axes_last 2) with [-2; -1]%Z in A.
    injection S2 as Sa Sb. rewrite <- Sa in Pa. rewrite <- Sb in Pb. destruct (PropMoments.comoments_to_moments_entries junk _ _ _ _ t A Pa Pb) as (out & E & To & So & G). destruct HN as [No Ho].
    assert (Sd : sizes_with [d] [sz a + sz b - 1] sz d = sz a + sz b - 1) by (unfold sizes_with, name_bind; cbn; now rewrite String.eqb_refl).
    rewrite Sa, Sb in *. apply (Res out); auto.
    - rewrite So, S1. cbn [map]. now rewrite Sd.
    - intros n Hn. unfold sizes_with. apply name_bind_out. intros C. now apply (Ho n C).
    - intros n Hn Hx. exfalso. apply (Ho n Hn). rewrite except_name_In. split; [exact Hx|]. intros C. destruct Hn as [<-|[]]. tauto.
    - intros env He. apply env_split in He. destruct He as [He Vm]. cbn [map] in Vm. rewrite Sd in Vm. inversion Vm as [|? ? ? ? V0 _]; subst.
      assert (He' : inside_names sz outer env). { intros n Hn. specialize (He n Hn). unfold sizes_with in He. rewrite name_bind_out in He; [exact He|]. intros C. now apply (Ho n C). }
      cbn [map]. rewrite S1 in G. destruct (G (map env outer) (env d)) as (i & j & Ek & Hi & Hj & Min & ->); [now apply inside_names_valid|exact V0|].
      rewrite En; [|exact He'|repeat constructor; assumption]. assert (Q : i <= env d - (sz b - 1)) by (apply (Min _ (env d - (env d - (sz b - 1)))); lia).
      f_equal. f_equal; [lia|]. f_equal. lia.
  Qed.
End FromComoments.

(* ---- moments of comoments ---------------------------------------------------------------------- *)

(* the moment of order k is the comoment (i, k - i) of the first row i that has one *)
Theorem comoments_to_moments_named : forall junk x a b asked d, has_moments [a; b] x -> chosen_names 1 asked [d] -> new_names x [a; b] [d] ->
  (In d [a; b] -> ~ In ("_tmp_" ++ d) (x_dims x)) -> 0 < dim_size x a -> 0 < dim_size x b ->
  result_is (except_name (x_dims x) [a; b] ++ [d]) (sizes_with [d] [dim_size x a + dim_size x b - 1] (dim_size x))
    (fun env => named_moment x [a; b] env [env d - (dim_size x b - 1); Nat.min (env d) (dim_size x b - 1)])
    (x_comoments_to_moments junk (params_for [a; b]) asked x).
Proof.
  intros junk x a b asked d HM HC HN HT Pa Pb. unfold x_comoments_to_moments. destruct (names_read 1 asked [d] (or_introl eq_refl) HC) as (p & E1 & E2). change (Z.of_nat 1) with 1%Z in E1. rewrite E1. cbn [rbind]. rewrite E2. cbn [rbind].
  change (iter_dims (params_for [a; b])) with (Ok [a; b]). cbn [rbind]. pose proof HM as (Hx & Nm & _ & Id).
  destruct (smem d [a; b]) eqn:Sm.
  - apply smem_In in Sm. specialize (HT Sm). assert (Hd : In d (x_dims x)) by now apply Id.
    rewrite (ren_run x d (temporary d) Hd HT). cbn [rmap rbind]. set (f := fun n => if String.eqb n d then temporary d else n). set (z := x_rename f x).
    pose proof (ren_moments x d (temporary d) Hx HT [a; b] Sm HM) as HM'. pose proof (ren_except x d (temporary d) HT [a; b] Sm Id) as Ex.
    pose proof (ren_size x d (temporary d) Hx HT a (Id a (or_introl eq_refl))) as Sa. pose proof (ren_size x d (temporary d) Hx HT b (Id b (or_intror (or_introl eq_refl)))) as Sb. fold f z in HM', Ex, Sa, Sb.
    cbn [map] in HM', Ex |- *.
    assert (Q : mapR (sizes (x_dims z) (x_shape z)) [f a; f b] = Ok [dim_size z (f a); dim_size z (f b)]).
    { cbn [mapR]. unfold sizes. assert (I1 : In (f a) (x_dims z)) by (apply HM'; now left). assert (I2 : In (f b) (x_dims z)) by (apply HM'; right; now left). apply smem_In in I1, I2. rewrite I1, I2. reflexivity. }
    rewrite Q. cbn [rbind]. apply (ren_result x d (temporary d) Hx HT [a; b] [d] [dim_size x a + dim_size x b - 1] (fun env => [env d - (dim_size x b - 1); Nat.min (env d) (dim_size x b - 1)])); auto; [apply HN|].
    change (map (fun n => if String.eqb n d then temporary d else n) [a; b]) with [f a; f b]. fold f z.
    assert (Nt : ~ In d [f a; f b]). { intros C. destruct C as [C|[C|[]]]; unfold f in C; [destruct (String.eqb_spec a d)|destruct (String.eqb_spec b d)]; try congruence; now apply (temporary_other d). }
    pose proof (moments_run z (f a) (f b) HM' junk d) as MR. rewrite Sa, Sb in MR. apply MR; auto. destruct HN as [N1 N2]. split; [exact N1|]. rewrite Ex. exact N2.
  - apply smem_false in Sm. cbn [rbind].
    assert (Q : mapR (sizes (x_dims x) (x_shape x)) [a; b] = Ok [dim_size x a; dim_size x b]).
    { cbn [mapR]. unfold sizes. assert (I1 : In a (x_dims x)) by (apply Id; now left). assert (I2 : In b (x_dims x)) by (apply Id; right; now left). apply smem_In in I1, I2. rewrite I1, I2. reflexivity. }
    rewrite Q. cbn [rbind]. now apply moments_run.
Qed.

(* a missing moments dimension *)
Theorem comoments_to_moments_named_missing : forall junk x a b asked d, ~ (In a (x_dims x) /\ In b (x_dims x)) -> chosen_names 1 asked [d] -> ~ In d [a; b] ->
  x_comoments_to_moments junk (params_for [a; b]) asked x = Raise EKey.
Proof.
  intros junk x a b asked d N HC Nd. unfold x_comoments_to_moments. destruct (names_read 1 asked [d] (or_introl eq_refl) HC) as (p & E1 & E2). change (Z.of_nat 1) with 1%Z in E1. rewrite E1. cbn [rbind]. rewrite E2. cbn [rbind].
  change (iter_dims (params_for [a; b])) with (Ok [a; b]). cbn [rbind]. apply smem_false in Nd. rewrite Nd. cbn [rbind mapR]. unfold sizes.
  destruct (smem a (x_dims x)) eqn:Ia; [|reflexivity]. cbn [rbind]. destruct (smem b (x_dims x)) eqn:Ib; [|reflexivity]. elim N. split; now apply smem_In.
Qed.

(* comoments and back: the moments of orders 0 to m0 + m1 *)
Theorem comoments_named_round_trip : forall junk x d mom asked a b m0 m1 asked' d', has_moments [d] x -> chosen_names 2 asked [a; b] -> new_names x [d] [a; b] ->
  (In d [a; b] -> can_stand_aside x [a; b] d) -> resolved mom (Z.of_nat (dim_size x d) - 1) (Z.of_nat m0, Z.of_nat m1) ->
  chosen_names 1 asked' [d'] -> new_names x [d] [d'] -> (In d' [a; b] -> ~ In ("_tmp_" ++ d') (except_name (x_dims x) [d] ++ [a; b])) ->
  result_is (except_name (x_dims x) [d] ++ [d']) (sizes_with [d'] [S (m0 + m1)] (dim_size x)) (fun env => named_moment x [d] env [env d'])
    (rbind (x_moments_to_comoments (params_for [d]) [fst mom; snd mom] asked x) (x_comoments_to_moments junk (params_for [a; b]) asked')).
Proof.
  intros junk x d mom asked a b m0 m1 asked' d' HM HC HN HT R HC' HN' HT'. destruct (moments_to_comoments_named x d mom asked a b m0 m1 HM HC HN HT R) as (y & -> & Hy & Dy & Sy & Ay). cbn [rbind].
  set (outer := except_name (x_dims x) [d]) in *. destruct HN as [N1 N2]. destruct HN' as [N1' N2'].
  assert (Nab : a <> b) by (inversion N1 as [|? ? Q _]; subst; intros <-; apply Q; now left).
  assert (Sa : dim_size y a = S m0) by (rewrite Sy by (apply in_or_app; right; now left); unfold sizes_with, name_bind; cbn; now rewrite String.eqb_refl).
  assert (Sb : dim_size y b = S m1) by (rewrite Sy by (apply in_or_app; right; right; now left); unfold sizes_with, name_bind; cbn; destruct (String.eqb_spec a b); [congruence|now rewrite String.eqb_refl]).
  assert (Nout : forall n, In n outer -> ~ In n [a; b]) by (intros n Hn C; now apply (N2 n C)).
  assert (Ey : except_name (x_dims y) [a; b] = outer). { rewrite Dy. rewrite except_app, (except_none string_dec outer) by exact Nout. assert (Z : except_name [a; b] [a; b] = []) by (apply (except_all string_dec); intros n; auto). now rewrite Z, app_nil_r. }
  assert (HMy : has_moments [a; b] y). { split; [exact Hy|]. split; [exact N1|]. split; [now right|]. rewrite Dy. intros n Hn. apply in_or_app. now right. }
  destruct (comoments_to_moments_named junk y a b asked' d' HMy HC') as (w & Ew & Hw & Dw & Sw & Aw).
  - split; [exact N1'|]. rewrite Ey. exact N2'.
  - rewrite Dy. exact HT'.
  - lia.
  - lia.
  - rewrite Ey in Dw, Sw, Aw. rewrite Sa, Sb in Sw, Aw. exists w. split; [exact Ew|]. split; [exact Hw|]. split; [exact Dw|]. replace (S m0 + S m1 - 1) with (S (m0 + m1)) in Sw, Aw by lia.
    assert (Sz : forall n, In n (outer ++ [d']) -> sizes_with [d'] [S (m0 + m1)] (dim_size y) n = sizes_with [d'] [S (m0 + m1)] (dim_size x) n).
    { intros n Hn. unfold sizes_with. destruct (in_dec string_dec n [d']) as [Q|Q]; [destruct Q as [<-|[]]; now rewrite !(name_bind_in [d'] _ _ 0) by (auto; cbn; lia)|].
      rewrite !name_bind_out by exact Q. apply in_app_or in Hn. destruct Hn as [Hn|Hn]; [|tauto]. rewrite Sy by (apply in_or_app; now left). unfold sizes_with. apply name_bind_out. now apply Nout. }
    split; [intros n Hn; rewrite Sw by exact Hn; now apply Sz|]. intros env He.
    rewrite Aw by (intros n Hn; rewrite Sz by exact Hn; now apply He). assert (Hk : env d' < S (m0 + m1)). { specialize (He d' ltac:(apply in_or_app; right; now left)). unfold sizes_with, name_bind in He. cbn in He. now rewrite String.eqb_refl in He. }
    set (i := env d' - (S m1 - 1)). set (j := Nat.min (env d') (S m1 - 1)). unfold named_moment at 1. rewrite Ay.
    + assert (Ba : name_bind [a; b] [i; j] env a = i) by (unfold name_bind; cbn; now rewrite String.eqb_refl).
      assert (Bb : name_bind [a; b] [i; j] env b = j) by (unfold name_bind; cbn; destruct (String.eqb_spec a b); [congruence|now rewrite String.eqb_refl]).
      rewrite Ba, Bb. replace (i + j) with (env d') by (unfold i, j; lia). unfold named_moment, x_at. f_equal. apply map_ext_in. intros n Hn. destruct (in_dec string_dec n [d]) as [Q|Q].
      * destruct Q as [<-|[]]. unfold name_bind. cbn. now rewrite !String.eqb_refl.
      * rewrite !(name_bind_out [d]) by exact Q. apply name_bind_out. apply Nout. unfold outer. now apply except_name_In.
    + intros n Hn. unfold sizes_with. destruct (in_dec string_dec n [a; b]) as [Q|Q].
      * destruct Q as [<-|[<-|[]]]; unfold name_bind; cbn [combine find fst snd]; rewrite ?String.eqb_refl; [cbn [snd]; unfold i; lia|]. destruct (String.eqb_spec a b); [congruence|]. rewrite ?String.eqb_refl. cbn [snd]. unfold j. lia.
      * rewrite !name_bind_out by exact Q. apply in_app_or in Hn. destruct Hn as [Hn|Hn]; [|tauto]. specialize (He n (in_or_app _ _ _ (or_introl Hn))). unfold sizes_with in He. rewrite name_bind_out in He; [exact He|]. intros C. now apply (N2' n C).
Qed.
