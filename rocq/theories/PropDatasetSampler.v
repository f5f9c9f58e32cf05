(* Resampling of a Dataset with one table for each variable. *)
From Coq Require Import String.
From Verif Require Import Base BaseLemmas ModelPush ModelKernels ModelIndex ModelAxes ModelSelect ModelParams ModelWrap ModelNd ModelLabel ModelDataset Spec SpecAxes SpecNd SpecLabel SpecLabelTwo SpecDataset
  ProofAxes ProofArrays ProofIndex ProofNd PropAxes PropParams PropWrap PropLabelled PropNd PropNdUse ProofLabel PropLabel PropLabelTwo ProofDataset PropDataset PropDatasetTwo PropDatasetReduce.
Local Open Scope string_scope.
Local Open Scope nat_scope.

Lemma foldR_error {X Y} (f : Y -> X -> res Y) e0 : (forall a x e, f a x = Raise e -> e = e0) -> forall l a e, foldR f l a = Raise e -> e = e0.
Proof. intros H. induction l as [|x l IH]; intros a e; cbn [foldR]; [discriminate|]. destruct (f a x) eqn:E; cbn [rbind]; [apply IH|]. intros [= <-]. eauto. Qed.
Lemma align_error excl l e : align excl l = Raise e -> e = EValue.
Proof.
  unfold align. destruct (Nat.leb _ _); [discriminate|]. destruct (foldR _ _ _) eqn:E; [discriminate|]. intros [= <-]. revert E. apply foldR_error. intros a x e1. apply foldR_error. intros b p e2. unfold unify_dim. destruct (smem _ _); [discriminate|]. destruct (lookup _ _); [|discriminate]. destruct (Nat.eqb _ _); congruence.
Qed.
(* a Dataset of tables with other names is refused *)
Theorem resample_other_names : forall {A V} (K : pusher A V) (P : packer A) t rep md d to_end s, set_ok s -> moment_names md -> ~ In d md ->
  ~ (forall n, In n (map fst s) <-> In n (map fst t)) -> ds_resample_data K P (params_for md) (DSet t) rep Missing (Val d) to_end s = Raise EValue.
Proof.
  intros A V K P t rep md d to_end s Hs Hm Nd H. unfold ds_resample_data. rewrite (ds_with_dim_eq s md d _ Hs Nd (proj2 Hm)). unfold core_dims. cbn [params_for xp_dims rbind app]. unfold iter_dims. cbn [rbind]. unfold ds_apply.
  destruct (align _ _) as [[]|e] eqn:E; cbn [rbind]; [|now rewrite (align_error _ _ _ E)].
  match goal with |- context [negb ?b] => assert (Q : b = false) end; [|rewrite Q; reflexivity].
  cbn [map fst forallb same_keys]. rewrite andb_true_r. apply not_true_is_false. intros Q. apply H. apply andb_true_iff in Q as [Q1 Q2]. rewrite forallb_forall in Q1, Q2. intros n. split; intros I; apply smem_In; auto.
Qed.

Lemma each_alone_ext {T} (f g : sname * xarr -> res (lgrid T)) s r : (forall v, In v s -> f v = g v) -> each_alone g s r -> each_alone f s r.
Proof.
  intros Eq H. destruct r as [l|e]; cbn [each_alone] in *.
  - revert Eq. induction H as [|v u s l [E1 E2] H IH]; intros Eq; [constructor|]. constructor; [|apply IH; intros z Iz; apply Eq; now right]. split; [exact E1|]. rewrite <- E2. apply Eq. now left.
  - destruct H as (v & Iv & E). exists v. split; [exact Iv|]. rewrite <- E. now apply Eq.
Qed.
Lemma full_filter {X} (p : X -> bool) l : List.length (filter p l) = List.length l -> filter p l = l.
Proof.
  assert (Le : forall l, List.length (filter p l) <= List.length l) by (clear; induction l as [|x l IH]; [reflexivity|]; cbn; destruct (p x); cbn; lia).
  induction l as [|x l IH]; [reflexivity|]. cbn. specialize (Le l). destruct (p x); cbn; intros L; [f_equal; apply IH; lia|lia].
Qed.
(* the tables of an unpaired sampler *)
Definition own_tables (rep d : sname) (nrep : nat) (table : sname -> xarr) (s : xset) : Prop :=
  forall n, x_ok (table n) /\ x_dims (table n) = [rep; d] /\ x_shape (table n) = [nrep; set_size s d].
Lemma own_sizes rep d nrep table s n : own_tables rep d nrep table s -> rep <> d -> dim_size (table n) rep = nrep /\ dim_size (table n) d = set_size s d.
Proof.
  intros H D. destruct (H n) as (_ & E1 & E2). unfold dim_size. rewrite E1, E2. cbn [position]. rewrite String.eqb_refl. destruct (String.eqb_spec d rep) as [Q|_]; [congruence|]. rewrite String.eqb_refl. auto.
Qed.
Theorem resample_unpaired : forall {A V} (K : pusher A V) ok P, moment_array K ok P ->
  forall table nrep rep md d to_end s, set_ok s -> moment_names md -> ~ In d md -> ~ In rep md -> rep <> d -> moments_where P [d] md s -> (forall v, In v s -> ~ In rep (x_dims (snd v))) ->
  own_tables rep d nrep table s -> s <> [] ->
  let freq := unpaired_tables (d :: md) table s in
  let r := ds_resample_data K P (params_for md) freq rep Missing (Val d) to_end s in
  let having := filter (fun v => has_names (d :: md) (snd v)) s in
  (* all variables are resampled, or one only *)
  (List.length having = List.length s \/ List.length having = 1 ->
   each_alone (fun v => if has_names (d :: md) (snd v) then x_resample_data K P (params_for md) (Labelled (table (fst v))) rep Missing (Val d) to_end (snd v)
                        else Ok (passed (fun q => q) (if to_end then rep :: md else map (fun n => if String.eqb n d then rep else n) (x_dims (snd v))) (snd v))) s r) /\
  (List.length having <> List.length s -> List.length having <> 1 -> r = Raise EValue).
Proof.
  intros A V K ok P HMA table nrep rep md d to_end s Hs Hm Nd Nrm Drd Mw Nr Ot Ns freq r having.
  assert (Names : forall n, has_names [rep; d] (table n) = true). { intros n. apply has_names_In. destruct (Ot n) as (_ & -> & _). apply incl_refl. }
  assert (Agree : forall v n, In v s -> sizes_agree (snd v) (table n)).
  { intros v n Iv m Hm' Hm2. destruct (Ot n) as (_ & E & _). rewrite E in Hm2. destruct Hm2 as [<-|[<-|[]]]; [exfalso; now apply (Nr v Iv)|]. rewrite (proj2 (own_sizes rep d nrep table s n Ot Drd)). symmetry. now apply set_size_of. }
  assert (Cn : forall v n, In v s -> In d (x_dims (snd v)) -> counts_named (Labelled (table n)) rep d nrep (dim_size (snd v) d)).
  { intros v n Iv Hd. destruct (own_sizes rep d nrep table s n Ot Drd) as [S1 S2]. destruct (Ot n) as (X & E & _). split; [exact X|]. split; [exact Drd|]. split; [intros m; rewrite E; cbn; intuition|]. split; [exact S1|]. rewrite S2. now apply set_size_of. }
  assert (Run : fits s freq -> only_dims [rep; d] freq -> (forall v, In v s -> has_names (d :: md) (snd v) = true -> its_part (fst v) freq = Labelled (table (fst v))) ->
    each_alone (fun v => if has_names (d :: md) (snd v) then x_resample_data K P (params_for md) (Labelled (table (fst v))) rep Missing (Val d) to_end (snd v)
                        else Ok (passed (fun q => q) (if to_end then rep :: md else map (fun n => if String.eqb n d then rep else n) (x_dims (snd v))) (snd v))) s r).
  { intros Ff Od Ep. assert (H : each_alone (fun v => if (has_names (d :: md) (snd v) && part_has [rep; d] (fst v) freq)%bool
                       then x_resample_data K P (params_for md) (its_part (fst v) freq) rep Missing (Val d) to_end (snd v)
                       else Ok (passed (fun q => q) (if to_end then rep :: md else map (fun n => if String.eqb n d then rep else n) (x_dims (snd v))) (snd v))) s r).
    { apply (resample_set_alone K ok P HMA freq nrep rep md d to_end s); auto. intros v Iv S _. rewrite (Ep v Iv S). apply Cn; [exact Iv|]. apply has_names_In in S. apply S. now left. }
    assert (Eq : forall v, In v s -> (if (has_names (d :: md) (snd v) && part_has [rep; d] (fst v) freq)%bool
                       then x_resample_data K P (params_for md) (its_part (fst v) freq) rep Missing (Val d) to_end (snd v)
                       else Ok (passed (fun q => q) (if to_end then rep :: md else map (fun n => if String.eqb n d then rep else n) (x_dims (snd v))) (snd v)))
                     = if has_names (d :: md) (snd v) then x_resample_data K P (params_for md) (Labelled (table (fst v))) rep Missing (Val d) to_end (snd v)
                        else Ok (passed (fun q => q) (if to_end then rep :: md else map (fun n => if String.eqb n d then rep else n) (x_dims (snd v))) (snd v))).
    { intros v Iv. destruct (has_names (d :: md) (snd v)) eqn:S; [|reflexivity]. unfold part_has. rewrite (Ep v Iv S), Names. reflexivity. }
    refine (each_alone_ext _ _ s r _ H). intros v Iv. symmetry. now apply Eq. }
  assert (Fq : freq = match having with [v] => DArr (Labelled (table (fst v))) | l => DSet (map (fun v => (fst v, table (fst v))) l) end) by (unfold freq, unpaired_tables, having, has_names; destruct (filter _ s) as [|v0 [|v1 l]]; reflexivity).
  assert (Set_ : having = s -> freq = DSet (map (fun v => (fst v, table (fst v))) s) -> each_alone (fun v => if has_names (d :: md) (snd v) then x_resample_data K P (params_for md) (Labelled (table (fst v))) rep Missing (Val d) to_end (snd v)
                        else Ok (passed (fun q => q) (if to_end then rep :: md else map (fun n => if String.eqb n d then rep else n) (x_dims (snd v))) (snd v))) s r).
  { intros Eh Ef. set (t := map (fun v => (fst v, table (fst v))) s) in *. assert (Et : map fst t = map fst s) by (unfold t; rewrite map_map; reflexivity).
    assert (It : forall u, In u t -> snd u = table (fst u)) by (intros u Iu; apply in_map_iff in Iu as (v & <- & _); reflexivity).
    apply Run.
    - rewrite Ef. split; [split; [now rewrite Et; apply Hs|split]|split].
      + intros u Iu. rewrite (It u Iu). apply Ot.
      + intros u u' Iu Iu' n Hn Hn'. rewrite (It u Iu), (It u' Iu') in *. destruct (Ot (fst u)) as (_ & E & _). rewrite E in Hn. destruct (own_sizes rep d nrep table s (fst u) Ot Drd), (own_sizes rep d nrep table s (fst u') Ot Drd). destruct Hn as [<-|[<-|[]]]; congruence.
      + intros n. now rewrite Et.
      + intros v u Iv Iu. rewrite (It u Iu). now apply Agree.
    - rewrite Ef. intros x Ix. cbn [arrays_of] in Ix. apply in_map_iff in Ix as (u & <- & Iu). rewrite (It u Iu). destruct (Ot (fst u)) as (_ & -> & _). apply incl_refl.
    - intros v Iv _. rewrite Ef. cbn [its_part]. destruct (get_var_name (fst v) t) as (y & Gy & Iy); [rewrite Et; apply in_map_iff; now exists v|]. rewrite Gy. pose proof (It _ Iy) as Q. cbn [fst snd] in Q. now rewrite Q. }
  assert (Len : List.length having = List.length s -> having = s).
  { apply full_filter. }
  destruct having as [|v0 [|v1 l]] eqn:Eh.
  - split; [intros [L|L]; [|discriminate]; destruct s; [contradiction|discriminate]|]. intros L _. unfold r. rewrite Fq. apply resample_other_names; auto. cbn [map]. intros Q. destruct s as [|v s']; [contradiction|]. apply (Q (fst v)). now left.
  - split; [|intros _ Q; contradiction]. intros _. assert (I0 : In v0 having) by (rewrite Eh; now left). apply filter_In in I0 as [I0 S0].
    apply Run; rewrite Fq; [split; [apply Ot|intros v Iv; now apply Agree]| |].
    + intros x [<-|[]]. destruct (Ot (fst v0)) as (_ & -> & _). apply incl_refl.
    + intros v Iv S. cbn [its_part]. assert (I1 : In v having) by (apply filter_In; auto). rewrite Eh in I1. destruct I1 as [<-|[]]. reflexivity.
  - split.
    + intros [L|L]; [|discriminate]. apply Set_; [now apply Len|]. rewrite Fq. now rewrite (Len L).
    + intros L _. unfold r. rewrite Fq. apply resample_other_names; auto. intros Q. apply L. rewrite <- Eh. unfold having. rewrite (filter_all _ s); [reflexivity|]. intros v Iv.
      assert (In (fst v) (map fst (v0 :: v1 :: l))). { replace (map fst (v0 :: v1 :: l)) with (map fst (map (fun v : string * xarr => (fst v, table (fst v))) (v0 :: v1 :: l))) by (now rewrite map_map). apply Q. apply in_map_iff. now exists v. }
      apply in_map_iff in H as (u & Eu & Iu). rewrite <- Eh in Iu. apply filter_In in Iu as [Iu Su].
      pose proof (get_var_In v s (proj1 Hs) Iv) as G1. pose proof (get_var_In u s (proj1 Hs) Iu) as G2. rewrite Eu in G2. replace (snd v) with (snd u) by congruence. exact Su.
Qed.
