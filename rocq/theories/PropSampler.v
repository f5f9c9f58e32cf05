(* Random tables, the lazily computed attributes of IndexSampler, and what
   factory_sampler makes of its arguments (C63, C83-C86). *)
From Coq Require Import String Permutation.
From Verif Require Import Base BaseLemmas ModelIndex ModelAxes ModelState ModelParams ModelSampler SpecIndex SpecAxes
  ProofIndex ProofAxes ProofArrays PropIndex PropParams PropState.
Close Scope string_scope.

(* ---- what numpy promises --------------------------------------------------------- *)

Definition in_table (ndat : Z) (i : Z) : Prop := (0 <= i < ndat)%Z.
(* Generator.choice(ndat, size=(nrep, nsamp), replace) for arguments it accepts *)
Definition good_choice (choice : source * nat -> bool -> Z -> nat -> nat -> list (list Z)) : Prop :=
  forall d replace ndat nrep nsamp, (0 < ndat \/ Z.of_nat (nrep * nsamp) = 0)%Z -> (replace = true \/ Z.of_nat (nrep * nsamp) <= ndat)%Z ->
  let t := choice d replace ndat nrep nsamp in
  List.length t = nrep /\ Forall (fun r => List.length r = nsamp /\ Forall (in_table ndat) r) t /\ (replace = false -> NoDup (concat t)).
(* Generator.shuffle(x, axis=1): some order of the columns *)
Definition good_shuffle (shuffled : source * nat -> nat -> list nat) : Prop := forall d n, Permutation (shuffled d n) (seq 0 n).

(* a generator that can be drawn from *)
Definition usable (rng : seedarg) (st : rstate) : Prop :=
  exists st1 g x, validate_rng rng st = (st1, Ok g) /\ nth_error (heap st1) g = Some x.

Lemma sbind_ok {S T} (x : rnd S) (f : S -> rnd T) st st2 t :
  sbind x f st = (st2, Ok t) <-> exists st1 s, x st = (st1, Ok s) /\ f s st1 = (st2, Ok t).
Proof.
  unfold sbind. destruct (x st) as [st1 [s|e]]; split; try (intros (a & b & E & F); inversion E; subst; auto).
  - intros H. eauto.
  - discriminate.
Qed.
Lemma drawn_ok g st st1 d : drawn g st = (st1, Ok d) <-> nth_error (heap st) g = Some d /\ st1 = RState (upd (heap st) g (fst d, S (snd d))) (internal st).
Proof.
  unfold drawn, draw. destruct (nth_error (heap st) g) as [[src k]|]; cbn; split.
  - intros E. inversion E; subst. auto.
  - intros [E ->]. inversion E; subst. reflexivity.
  - discriminate.
  - intros [E _]. discriminate.
Qed.

(* ---- random tables (C83) ------------------------------------------------------------- *)

Definition size_of (ndat : Z) (nsamp : option Z) : Z := match nsamp with Some n => n | None => ndat end.

Lemma random_indices_inv choice nrep ndat nsamp rng replace st st' t :
  random_indices choice nrep ndat nsamp rng replace st = (st', Ok t) ->
  let n := size_of ndat nsamp in
  (0 <= nrep /\ 0 <= n /\ (0 < ndat \/ nrep * n = 0))%Z /\ (replace = true \/ nrep * n <= ndat)%Z /\
  exists st1 g d, validate_rng rng st = (st1, Ok g) /\ nth_error (heap st1) g = Some d /\
    t = Tab (Z.to_nat n) (choice d replace ndat (Z.to_nat nrep) (Z.to_nat n)).
Proof.
  unfold random_indices. intros E. apply sbind_ok in E. destruct E as (st1 & g & V & E). cbv zeta. change (dflt ndat nsamp) with (size_of ndat nsamp) in E.
  set (n := size_of ndat nsamp) in *. unfold np_choice in E.
  destruct (Z.ltb_spec nrep 0); [discriminate|]. destruct (Z.ltb_spec n 0); [discriminate|]. cbn [orb] in E.
  destruct (Z.leb_spec ndat 0), (Z.eqb_spec (nrep * n) 0); cbn [andb negb] in E; try discriminate.
  all: destruct replace; cbn [negb andb] in E; try destruct (Z.ltb_spec ndat (nrep * n)); try discriminate.
  all: apply sbind_ok in E; destruct E as (st2 & d & D & E); apply drawn_ok in D; destruct D as [D ->]; inversion E; subst.
  all: split; [lia|]; split; [auto|]; exists st1, g, d; auto.
Qed.

(* A random table has the requested shape and entries; without replacement no entry occurs
   twice in the whole table. *)
Theorem random_indices_spec : forall choice nrep ndat nsamp rng replace st st' t, good_choice choice ->
  random_indices choice nrep ndat nsamp rng replace st = (st', Ok t) ->
  Z.of_nat (List.length (t_rows t)) = nrep /\ Z.of_nat (t_cols t) = size_of ndat nsamp /\
  Forall (fun r => Z.of_nat (List.length r) = size_of ndat nsamp /\ Forall (in_table ndat) r) (t_rows t) /\
  (replace = false -> NoDup (concat (t_rows t))).
Proof.
  intros choice nrep ndat nsamp rng replace st st' t G E. apply random_indices_inv in E. cbv zeta in E.
  destruct E as ((H1 & H2 & H3) & H4 & st1 & g & d & _ & _ & ->). set (n := size_of ndat nsamp) in *. cbn [t_rows t_cols].
  destruct (G d replace ndat (Z.to_nat nrep) (Z.to_nat n)) as (A & B & C).
  - destruct H3; [auto|right; lia].
  - destruct H4; [auto|right; lia].
  - split; [lia|]. split; [lia|]. split; [|exact C]. eapply Forall_impl; [|exact B]. cbn. intros r [X Y]. split; [lia|exact Y].
Qed.
(* When it succeeds: sizes not negative, something to choose from, and without replacement
   at most ndat entries in the whole table. *)
Theorem random_indices_succeeds : forall choice nrep ndat nsamp rng replace st, usable rng st ->
  let n := size_of ndat nsamp in
  ((exists st' t, random_indices choice nrep ndat nsamp rng replace st = (st', Ok t)) <->
   (0 <= nrep /\ 0 <= n /\ (0 < ndat \/ nrep * n = 0))%Z /\ (replace = true \/ nrep * n <= ndat)%Z) /\
  ((exists st' t, random_indices choice nrep ndat nsamp rng replace st = (st', Ok t)) \/
   exists st', random_indices choice nrep ndat nsamp rng replace st = (st', Raise EValue)).
Proof.
  intros choice nrep ndat nsamp rng replace st (st1 & g & x & V & X) n.
  assert (K : forall b, (0 <= nrep /\ 0 <= n /\ (0 < ndat \/ nrep * n = 0))%Z /\ (replace = true \/ nrep * n <= ndat)%Z -> b = tt ->
     exists st' t, random_indices choice nrep ndat nsamp rng replace st = (st', Ok t)).
  { intros b ((H1 & H2 & H3) & H4) _. unfold random_indices, sbind. rewrite V. unfold np_choice. change (dflt ndat nsamp) with n.
    destruct (Z.ltb_spec nrep 0); [lia|]. destruct (Z.ltb_spec n 0); [lia|]. cbn [orb].
    destruct (Z.leb_spec ndat 0), (Z.eqb_spec (nrep * n) 0); cbn [andb negb]; try lia.
    all: destruct replace; cbn [negb andb]; try destruct (Z.ltb_spec ndat (nrep * n)); try (destruct H4; [discriminate|lia]).
    all: unfold sbind; destruct (drawn g st1) as [st2 [d|err0]] eqn:D; [do 2 eexists; reflexivity|]; unfold drawn, draw in D; rewrite X in D; destruct x; discriminate. }
  split; [split; [|intros H; exact (K tt H eq_refl)]|].
  - intros (st' & t & E). apply random_indices_inv in E. cbv zeta in E. fold n in E. tauto.
  - unfold random_indices, sbind. rewrite V. unfold np_choice. change (dflt ndat nsamp) with n.
    destruct ((nrep <? 0)%Z || (n <? 0)%Z)%bool; [right; eexists; reflexivity|].
    destruct ((ndat <=? 0)%Z && negb (Z.eqb (nrep * n) 0))%bool; [right; eexists; reflexivity|].
    destruct (negb replace && (ndat <? nrep * n)%Z)%bool; [right; eexists; reflexivity|]. left.
    unfold sbind. destruct (drawn g st1) as [st2 [d|err0]] eqn:D; [do 2 eexists; reflexivity|]. unfold drawn, draw in D. rewrite X in D. destruct x; discriminate.
Qed.
(* Consequence: resampling without replacement cannot be done for two replicates of full
   size, though every single replicate could be drawn. *)
Theorem without_replacement_one_replicate : forall choice nrep ndat rng st, usable rng st -> (0 < ndat)%Z -> (0 <= nrep)%Z ->
  ((exists st' t, random_indices choice nrep ndat None rng false st = (st', Ok t)) <-> (nrep <= 1)%Z) /\
  ((2 <= nrep)%Z -> exists st', random_indices choice nrep ndat None rng false st = (st', Raise EValue)).
Proof.
  intros choice nrep ndat rng st U Hn Hr. destruct (random_indices_succeeds choice nrep ndat None rng false st U) as [A B]. cbn [size_of] in A, B.
  assert (C : (exists st' t, random_indices choice nrep ndat None rng false st = (st', Ok t)) <-> (nrep <= 1)%Z).
  { rewrite A. split.
    - intros (_ & [X|X]); [discriminate|]. nia.
    - intros H. split; [lia|]. right. nia. }
  split; [exact C|]. intros H. destruct B as [B|B]; [|exact B]. apply C in B. lia.
Qed.
(* each replicate alone may be without repetition; the call for several is refused *)
Theorem without_replacement_per_replicate_refuted : exists choice st st1 st2, good_choice choice /\
  (exists t, random_indices choice 1 3 None (SSeed 0) false st = (st1, Ok t)) /\
  random_indices choice 2 3 None (SSeed 0) false st = (st2, Raise EValue).
Proof.
  exists (fun (d : source * nat) (replace : bool) (ndat : Z) nrep nsamp => map (fun i => map (fun j => if replace then 0%Z else Z.of_nat (i * nsamp + j)) (seq 0 nsamp)) (seq 0 nrep)), (RState [] None).
  do 2 eexists. split; [|split; [eexists; reflexivity|reflexivity]].
  intros d replace ndat nrep nsamp H1 H2. cbv zeta. split; [now rewrite map_length, seq_length|]. split.
  - apply Forall_map, Forall_forall. intros i Hi. apply in_seq in Hi. split; [now rewrite map_length, seq_length|].
    apply Forall_map, Forall_forall. intros j Hj. apply in_seq in Hj. unfold in_table.
    assert (i * nsamp + j < nrep * nsamp)%nat by nia. destruct replace; [lia|]. destruct H2; [discriminate|]. lia.
  - intros ->. clear. 
    assert (E : concat (map (fun i => map (fun j => Z.of_nat (i * nsamp + j)) (seq 0 nsamp)) (seq 0 nrep)) = map Z.of_nat (seq 0 (nrep * nsamp))).
    { induction nrep as [|n IH]; [reflexivity|]. rewrite seq_S, map_app, concat_app, IH. cbn [map concat]. rewrite app_nil_r.
      replace (S n * nsamp)%nat with (n * nsamp + nsamp)%nat by lia. rewrite seq_app, map_app. f_equal. cbn [Nat.add].
      rewrite <- (map_map (fun j => n * nsamp + j)%nat Z.of_nat). f_equal. 
      generalize (n * nsamp)%nat. intros k. clear. induction nsamp as [|m IH]; [reflexivity|]. rewrite !seq_S, map_app, IH. reflexivity. }
    rewrite E. apply FinFun.Injective_map_NoDup; [intros a b; lia|apply seq_NoDup].
Qed.
(* Frequency tables: one row of length ndat per replicate, with nsamp samples in each;
   without replacement no observation is used twice. *)
Theorem random_freq_spec : forall choice nrep ndat nsamp rng replace st st' t, good_choice choice ->
  random_freq choice nrep ndat nsamp rng replace st = (st', Ok t) ->
  Z.of_nat (List.length (t_rows t)) = nrep /\ Z.of_nat (t_cols t) = ndat /\
  Forall (fun r => Z.of_nat (List.length r) = ndat /\ zsum r = size_of ndat nsamp /\ Forall (fun f => 0 <= f)%Z r) (t_rows t) /\
  (replace = false -> forall j, (zsum (map (fun r => nth j r 0) (t_rows t)) <= 1)%Z).
Proof.
  intros choice nrep ndat nsamp rng replace st st' t G E. unfold random_freq in E. apply sbind_ok in E. destruct E as (st1 & i & R & E).
  destruct (random_indices_spec _ _ _ _ _ _ _ _ _ G R) as (A & B & C & D). apply random_indices_inv in R. cbv zeta in R. destruct R as ((_ & _ & H3) & _).
  unfold table_to_freq in E. cbn [andb] in E. inversion E as [[X1 X2]]. clear E X1.
  assert (Ne : concat (t_rows i) <> []) by (intros Z; unfold indices_to_freq in X2; rewrite Z in X2; discriminate).
  assert (Pos : (0 < ndat)%Z).
  { destruct H3 as [H3|H3]; [exact H3|]. exfalso. apply Ne. destruct (t_rows i) as [|r l] eqn:Er; [reflexivity|].
    cbn [List.length] in A. assert (S0 : size_of ndat nsamp = 0%Z) by nia. rewrite S0 in C. clear -C. induction C as [|x rs [X _] C IH]; [reflexivity|]. cbn. 
    destruct x; [exact IH|cbn in X; lia]. }
  assert (In_ : Forall (Forall (in_range (Z.to_nat ndat))) (t_rows i)).
  { eapply Forall_impl; [|exact C]. cbn. intros r [_ F]. eapply Forall_impl; [|exact F]. unfold in_table, in_range. intros z. lia. }
  destruct (indices_to_freq_counts _ _ In_ Ne) as (f & Ef & Lf & Rf). rewrite Ef in X2. cbn [rbind] in X2. inversion X2; subst t. clear X2. cbn [t_rows t_cols].
  split; [lia|]. split; [lia|].
  assert (Rows : forall r, In r f -> exists k, (k < List.length (t_rows i))%nat /\ r = nth k f []).
  { intros r Hr. apply (In_nth _ _ []) in Hr. destruct Hr as (k & Hk & <-). exists k. split; [lia|reflexivity]. }
  split.
  - apply Forall_forall. intros r Hr. destruct (Rows r Hr) as (k & Hk & ->). destruct (Rf k Hk) as (R1 & R2 & R3).
    split; [lia|]. split.
    + rewrite R3. rewrite Forall_forall in C. apply C. now apply nth_In.
    + apply Forall_forall. intros z Hz. apply (In_nth _ _ 0%Z) in Hz. destruct Hz as (j & Hj & <-). rewrite R2 by lia. lia.
  - intros Er j. specialize (D Er). destruct (Nat.lt_ge_cases j (Z.to_nat ndat)) as [Hj|Hj].
    + assert (Sm : zsum (map (fun r => nth j r 0%Z) f) = Z.of_nat (occ (concat (t_rows i)) (Z.of_nat j))).
      { clear -Rf Lf Hj. revert f Lf Rf. generalize (t_rows i). induction l as [|r l IH]; intros f Lf Rf.
        - destruct f; [|discriminate]. reflexivity.
        - destruct f as [|f0 f]; [discriminate|]. cbn [map zsum fold_right concat]. fold (zsum (map (fun r => nth j r 0%Z) f)). rewrite (IH f).
          + destruct (Rf 0%nat ltac:(cbn; lia)) as (_ & R & _). cbn [nth] in R. rewrite R by exact Hj. rewrite count_occ_app. lia.
          + cbn in Lf. lia.
          + intros k Hk. exact (Rf (S k) ltac:(cbn; lia)). }
      rewrite Sm. rewrite (NoDup_count_occ Z.eq_dec) in D. specialize (D (Z.of_nat j)). lia.
    + assert (Zr : zsum (map (fun r => nth j r 0%Z) f) = 0%Z); [|lia].
      assert (Zl : forall r, In r f -> nth j r 0%Z = 0%Z).
      { intros r Hr. destruct (Rows r Hr) as (k & Hk & ->). destruct (Rf k Hk) as (R1 & _). apply nth_overflow. lia. }
      clear -Zl. induction f as [|r f IH]; [reflexivity|]. cbn [map zsum fold_right]. fold (zsum (map (fun r => nth j r 0%Z) f)). rewrite IH by (intros; apply Zl; now right). rewrite Zl by now left. reflexivity.
Qed.

(* ---- attributes (C84) ------------------------------------------------------------------ *)

Definition head_table (t : tables) : res table := match t with One t | Many (t :: _) => Ok t | Many [] => Raise EValue end.
Definition cols (t : tables) : res nat := rbind (head_table t) (fun t => Ok (t_cols t)).
Definition nrows (t : tables) : res nat := rbind (head_table t) (fun t => Ok (List.length (t_rows t))).
(* every table of a collection *)
Definition each (f : table -> res table) (t : tables) : res tables :=
  match t with One t => rbind (f t) (fun r => Ok (One r)) | Many l => rbind (mapR f l) (fun r => Ok (Many r)) end.
(* values of the attributes of a sampler as it was created, without caching *)
Definition ndat_of (s : sampler) : res nat :=
  match s_ndat s, s_freq s, s_indices s with
  | Some n, _, _ => Ok n
  | None, Some f, _ => cols f
  | None, None, Some i => cols i
  | None, None, None => Raise EMem
  end.
Definition nrep_of (s : sampler) : res nat :=
  match s_freq s, s_indices s with Some f, _ => nrows f | None, Some i => nrows i | None, None => Raise EMem end.
Definition freq_of (s : sampler) : res tables :=
  match s_freq s, s_indices s with
  | Some f, _ => Ok f
  | None, Some i => rbind (ndat_of s) (fun n => each (table_to_freq (s_labelled s) n) i)
  | None, None => Raise EMem
  end.
(* without shuffling *)
Definition sorted_table (junk : Z) (t : table) : res table :=
  rbind (freq_to_indices junk (t_rows t)) (fun rows => Ok (Tab (List.length (hd [] rows)) rows)).
Definition indices_of (junk : Z) (s : sampler) : res tables :=
  match s_indices s, s_freq s with
  | Some i, _ => Ok i
  | None, Some f => each (sorted_table junk) f
  | None, None => Raise EMem
  end.
Definition value_of (junk : Z) (s : sampler) (a : access) : res value :=
  match a with
  | AFreq => rbind (freq_of s) (fun t => Ok (VTables t))
  | AIndices => rbind (indices_of junk s) (fun t => Ok (VTables t))
  | ANdat => rbind (ndat_of s) (fun n => Ok (VNat n))
  | ANrep => rbind (nrep_of s) (fun n => Ok (VNat n))
  end.

Lemma mapS_pure {S T} (f : S -> res T) l st : mapS (fun t => ret (f t)) l st = (st, mapR f l).
Proof.
  induction l as [|a l IH]; [reflexivity|]. cbn [mapS mapR]. unfold sbind, ret in *. destruct (f a); cbn [rbind]; [|reflexivity].
  rewrite IH. destruct (mapR f l); reflexivity.
Qed.
Lemma tables_pure (f : table -> res table) t st : tables_map (fun t => ret (f t)) t st = (st, each f t).
Proof.
  destruct t as [t|l]; cbn [tables_map each]; unfold sbind; [unfold ret; destruct (f t); reflexivity|]. rewrite mapS_pure. destruct (mapR f l); reflexivity.
Qed.
Lemma mapS_ext {S T} (f g : S -> rnd T) l : (forall a st, f a st = g a st) -> forall st, mapS f l st = mapS g l st.
Proof.
  intros E. induction l as [|a l IH]; intros st; [reflexivity|]. cbn [mapS]. unfold sbind. rewrite E. destruct (g a st) as [st1 [b|e]]; [|reflexivity]. now rewrite IH.
Qed.
Lemma tables_ext f g t : (forall a st, f a st = g a st) -> forall st, tables_map f t st = tables_map g t st.
Proof.
  intros E st. destruct t as [t|l]; cbn [tables_map]; unfold sbind; [now rewrite E|now rewrite (mapS_ext f g l E)].
Qed.
Lemma first_head t : first_table t = head_table t.
Proof. destruct t as [t|[|t l]]; reflexivity. Qed.
Lemma shape0_nrows t : shape0 t = nrows t.
Proof. unfold shape0, nrows. now rewrite first_head. Qed.
Lemma shape1_cols t : shape1 t = cols t.
Proof. unfold shape1, cols. now rewrite first_head. Qed.
Lemma get_ndat_eq s : exists s1, get_ndat s = (s1, ndat_of s) /\ s_freq s1 = s_freq s /\ s_indices s1 = s_indices s /\ s_shuffle s1 = s_shuffle s /\
  s_rng s1 = s_rng s /\ s_labelled s1 = s_labelled s /\ ndat_of s1 = ndat_of s /\ (forall n, ndat_of s = Ok n -> s_ndat s1 = Some n).
Proof.
  unfold get_ndat, ndat_of, first_known. destruct (s_ndat s) as [n|] eqn:N; [exists s; rewrite N; repeat split; auto; congruence|].
  destruct (s_freq s) as [f|] eqn:F; [|destruct (s_indices s) as [i|] eqn:I].
  - cbn [rbind]. rewrite shape1_cols. destruct (cols f) as [n|e] eqn:C.
    + eexists. split; [reflexivity|]. cbn. rewrite ?F. repeat split; auto; congruence.
    + exists s. rewrite ?N, ?F, ?C. repeat split; auto; congruence.
  - cbn [rbind]. rewrite shape1_cols. destruct (cols i) as [n|e] eqn:C.
    + eexists. split; [reflexivity|]. cbn. rewrite ?F, ?I. repeat split; auto; congruence.
    + exists s. rewrite ?N, ?F, ?I, ?C. repeat split; auto; congruence.
  - exists s. rewrite ?N, ?F, ?I. repeat split; auto; congruence.
Qed.
Lemma get_nrep_eq s : get_nrep s = (s, nrep_of s).
Proof. unfold get_nrep, nrep_of, first_known. destruct (s_freq s), (s_indices s); cbn [rbind]; rewrite ?shape0_nrows; reflexivity. Qed.

(* length of mapR *)
Lemma mapR_length {S T} (f : S -> res T) l r : mapR f l = Ok r -> List.length r = List.length l.
Proof.
  revert r. induction l as [|a l IH]; intros r E; cbn [mapR] in E; [inversion E; reflexivity|].
  apply rbind_ok in E. destruct E as (b & _ & E). apply rbind_ok in E. destruct E as (r' & E & X). inversion X. cbn. now rewrite (IH r').
Qed.
Lemma freq_nrows lab n t f : table_to_freq lab n t = Ok f -> List.length (t_rows f) = List.length (t_rows t).
Proof.
  unfold table_to_freq. intros E. apply rbind_ok in E. destruct E as (r & E & X). inversion X. cbn. unfold indices_to_freq in E.
  apply rbind_ok in E. destruct E as (m & _ & E). destruct (_ <=? _)%Z; [discriminate|]. now apply mapR_length in E.
Qed.
Lemma each_nrows g t r : (forall a b, g a = Ok b -> List.length (t_rows b) = List.length (t_rows a)) -> each g t = Ok r -> nrows r = nrows t.
Proof.
  intros G E. destruct t as [t|l]; cbn [each] in E; apply rbind_ok in E; destruct E as (b & E & X); inversion X; unfold nrows; cbn.
  - now rewrite (G _ _ E).
  - destruct l as [|a l]; cbn [mapR] in E; [inversion E; reflexivity|]. apply rbind_ok in E. destruct E as (c & E & F).
    apply rbind_ok in F. destruct F as (r' & _ & F). inversion F. cbn. now rewrite (G _ _ E).
Qed.
(* same attributes apart from the indices *)
Definition same_but_indices (s s1 : sampler) : Prop :=
  s_shuffle s1 = s_shuffle s /\ s_rng s1 = s_rng s /\ s_labelled s1 = s_labelled s /\
  ndat_of s1 = ndat_of s /\ freq_of s1 = freq_of s /\ nrep_of s1 = nrep_of s.
Lemma sbi_trans a b c : same_but_indices a b -> same_but_indices b c -> same_but_indices a c.
Proof. unfold same_but_indices. intros. intuition congruence. Qed.
Lemma get_ndat_step s : exists s1, get_ndat s = (s1, ndat_of s) /\ same_but_indices s s1 /\ s_indices s1 = s_indices s /\ s_freq s1 = s_freq s.
Proof.
  destruct (get_ndat_eq s) as (s1 & E & A & B & C & D & F & G & _). exists s1. split; [exact E|]. split; [|auto]. unfold same_but_indices, freq_of, nrep_of.
  rewrite A, B, C, D, F, G. auto 10.
Qed.
Lemma get_freq_step s st : exists s1, get_freq s st = (st, Ok (s1, freq_of s)) /\ same_but_indices s s1 /\ s_indices s1 = s_indices s /\
  (s_indices s = None -> s_freq s1 = s_freq s).
Proof.
  unfold get_freq. destruct (s_freq s) as [f|] eqn:F.
  - exists s. unfold freq_of. rewrite F. split; [reflexivity|]. split; [unfold same_but_indices; auto 10|auto].
  - destruct (s_indices s) as [i|] eqn:I.
    + destruct (get_ndat_eq s) as (s1 & E0 & A & B & C & D & E & G & H). rewrite E0.
      assert (Fq : freq_of s = rbind (ndat_of s) (fun n => each (table_to_freq (s_labelled s) n) i)) by (unfold freq_of; now rewrite F, I).
      assert (S1 : same_but_indices s s1) by (unfold same_but_indices, freq_of, nrep_of; rewrite A, B, C, D, E, G; auto 10).
      destruct (ndat_of s) as [n|e] eqn:N; cbn [rbind] in Fq; [|exists s1; rewrite Fq; split; [reflexivity|]; split; [exact S1|]; split; congruence].
      rewrite tables_pure, Fq. destruct (each (table_to_freq (s_labelled s) n) i) as [f|e] eqn:T; [|exists s1; split; [reflexivity|]; split; [exact S1|]; split; congruence].
      eexists. split; [reflexivity|]. unfold same_but_indices. cbn. rewrite B, C, D, E. split; [|split; [auto|congruence]]. repeat split.
      * rewrite N. unfold ndat_of. cbn. now rewrite (H n eq_refl).
      * rewrite Fq. reflexivity.
      * unfold nrep_of. cbn. rewrite F, I. eapply each_nrows; [|exact T]. intros a b. apply freq_nrows.
    + exists s. unfold freq_of. rewrite F, I. split; [reflexivity|]. split; [unfold same_but_indices; auto 10|auto].
Qed.
Section Reads.
  Variable junk : Z.
  Variable shuffled : source * nat -> nat -> list nat.
  Lemma get_indices_step s st : exists st1 s1 r, get_indices junk shuffled s st = (st1, Ok (s1, r)) /\ same_but_indices s s1 /\
    (forall t, r = Ok t -> s_indices s1 = Some t) /\ (forall e, r = Raise e -> s1 = s) /\
    (forall t, s_indices s = Some t -> st1 = st /\ s1 = s /\ r = Ok t) /\
    (s_shuffle s = false -> st1 = st /\ r = indices_of junk s).
  Proof.
    unfold get_indices, indices_of. destruct (s_indices s) as [i|] eqn:I.
    - exists st, s, (Ok i). split; [reflexivity|]. split; [unfold same_but_indices; auto 10|]. repeat split; try congruence.
    - destruct (s_freq s) as [f|] eqn:F.
      + assert (Eq : forall a st0, s_shuffle s = false -> table_to_indices junk shuffled (s_shuffle s) (s_rng s) a st0 = ret (sorted_table junk a) st0).
        { intros a st0 Sh. unfold table_to_indices, sorted_table. rewrite Sh. destruct (freq_to_indices junk (t_rows a)) as [rows|e]; [|reflexivity]. destruct rows; reflexivity. }
        destruct (tables_map (table_to_indices junk shuffled (s_shuffle s) (s_rng s)) f st) as [st1 [t|e]] eqn:T.
        * do 3 eexists. split; [reflexivity|]. split.
          { unfold same_but_indices, freq_of, nrep_of, ndat_of. cbn. rewrite F, ?I. auto 10. }
          split; [intros t' X; inversion X; reflexivity|]. split; [discriminate|]. split; [discriminate|]. intros Sh.
          rewrite (tables_ext _ (fun a => ret (sorted_table junk a))) in T by (intros a st0; now apply Eq). rewrite tables_pure in T. inversion T. auto.
        * do 3 eexists. split; [reflexivity|]. split; [unfold same_but_indices; auto 10|]. split; [discriminate|]. split; [auto|]. split; [discriminate|]. intros Sh.
          rewrite (tables_ext _ (fun a => ret (sorted_table junk a))) in T by (intros a st0; now apply Eq). rewrite tables_pure in T. inversion T. auto.
      + do 3 eexists. split; [reflexivity|]. split; [unfold same_but_indices; auto 10|]. split; [discriminate|]. split; [auto|]. split; [discriminate|]. auto.
  Qed.
  Lemma read_step a s st st1 s1 v : read junk shuffled a s st = (st1, s1, v) ->
    same_but_indices s s1 /\ (a <> AIndices -> v = value_of junk s a /\ st1 = st /\ s_indices s1 = s_indices s) /\
    (a = AIndices -> forall t, v = Ok t -> exists i, t = VTables i /\ s_indices s1 = Some i) /\
    (forall i, s_indices s = Some i -> s_indices s1 = Some i /\ st1 = st /\ (a = AIndices -> v = Ok (VTables i))) /\
    (s_shuffle s = false -> st1 = st /\ v = value_of junk s a /\ indices_of junk s1 = indices_of junk s).
  Proof.
    intros E. destruct a; cbn [read] in E.
    - destruct (get_freq_step s st) as (s2 & G & S & I & K). rewrite G in E. inversion E; subst. split; [exact S|]. split; [intros _; cbn; auto|].
      split; [discriminate|]. split; [intros i Hi; rewrite I; repeat split; auto; discriminate|]. intros Sh. repeat split; auto.
      unfold indices_of. rewrite I. destruct (s_indices s); [reflexivity|]. now rewrite K.
    - destruct (get_indices_step s st) as (st2 & s2 & r & G & S & R1 & R2 & R3 & R4). rewrite G in E. inversion E; subst. split; [exact S|]. split; [congruence|].
      split.
      { intros _ t Ht. destruct r as [i|e]; cbn in Ht; [|discriminate]. inversion Ht. eauto. }
      split.
      { intros i Hi. destruct (R3 i Hi) as (-> & -> & ->). auto. }
      intros Sh. destruct (R4 Sh) as (-> & Er). cbn. split; [reflexivity|]. split; [now rewrite Er|].
      destruct r as [i|e].
      + unfold indices_of at 1. rewrite (R1 i eq_refl). exact Er.
      + now rewrite (R2 e eq_refl).
    - destruct (get_ndat_step s) as (s2 & G & S & I & K). rewrite G in E. inversion E; subst. split; [exact S|]. split; [intros _; cbn; auto|].
      split; [discriminate|]. split; [intros i Hi; rewrite I; repeat split; auto; discriminate|]. intros Sh. repeat split; auto. unfold indices_of. now rewrite I, K.
    - rewrite get_nrep_eq in E. inversion E; subst. split; [unfold same_but_indices; auto 10|]. split; [intros _; cbn; auto|]. split; [discriminate|].
      split; [intros i Hi; repeat split; auto; discriminate|]. auto.
  Qed.

  (* Without shuffling attributes are values: reading them in any order and any number of
     times gives what a fresh sampler gives, and no random numbers are used. *)
  Theorem attributes_are_values : forall l s st, s_shuffle s = false ->
    exists s', reads junk shuffled l s st = (st, s', map (value_of junk s) l).
  Proof.
    assert (V : forall s s1 a, same_but_indices s s1 -> indices_of junk s1 = indices_of junk s -> value_of junk s1 a = value_of junk s a).
    { intros s s1 a S I. destruct S as (_ & _ & _ & N & F & R). destruct a; cbn; congruence. }
    induction l as [|a l IH]; intros s st Sh; [exists s; reflexivity|]. cbn [reads].
    destruct (read junk shuffled a s st) as [[st1 s1] v] eqn:E. apply read_step in E. destruct E as (S & _ & _ & _ & K). destruct (K Sh) as (-> & -> & I).
    assert (Sh1 : s_shuffle s1 = false) by (destruct S as (X & _); congruence).
    destruct (IH s1 st Sh1) as (s' & E). rewrite E. exists s'. cbn [map]. f_equal. f_equal. apply map_ext. intros b. now apply V.
  Qed.
  Lemma reads_frozen : forall l s st st' s' vs i, reads junk shuffled l s st = (st', s', vs) -> s_indices s = Some i ->
    st' = st /\ forall k v, nth_error l k = Some AIndices -> nth_error vs k = Some v -> v = Ok (VTables i).
  Proof.
    induction l as [|a l IH]; intros s st st' s' vs i E I; cbn [reads] in E.
    - inversion E; subst. split; [reflexivity|]. intros [|k] v H; discriminate.
    - destruct (read junk shuffled a s st) as [[st1 s1] w] eqn:R. destruct (reads junk shuffled l s1 st1) as [[st2 s2] ws] eqn:E2. inversion E; subst.
      apply read_step in R. destruct R as (_ & _ & _ & K & _). destruct (K i I) as (I1 & -> & W). destruct (IH _ _ _ _ _ _ E2 I1) as [-> IHk]. split; [reflexivity|].
      intros [|k] v Hl Hv; cbn in Hl, Hv; [inversion Hl; inversion Hv; subst; auto|eauto].
  Qed.
  (* With shuffling too: freq, ndat and nrep are as before, and all successful reads of
     indices give the same table; random numbers are used only for indices. *)
  Theorem attributes_stable : forall l s st st' s' vs, reads junk shuffled l s st = (st', s', vs) ->
    List.length vs = List.length l /\
    (forall k a, nth_error l k = Some a -> a <> AIndices -> nth_error vs k = Some (value_of junk s a)) /\
    (forall j k v w, nth_error l j = Some AIndices -> nth_error l k = Some AIndices ->
       nth_error vs j = Some (Ok v) -> nth_error vs k = Some (Ok w) -> v = w) /\
    ((~ In AIndices l \/ s_indices s <> None) -> st' = st).
  Proof.
    assert (V : forall s s1 a, same_but_indices s s1 -> a <> AIndices -> value_of junk s1 a = value_of junk s a).
    { intros s s1 a (_ & _ & _ & N & F & R) Ha. destruct a; cbn; congruence. }
    induction l as [|a l IH]; intros s st st' s' vs E; cbn [reads] in E.
    - inversion E; subst. split; [reflexivity|]. split; [intros [|k] a H; discriminate|]. split; [intros [|j] k v w H; discriminate|auto].
    - destruct (read junk shuffled a s st) as [[st1 s1] v0] eqn:R. destruct (reads junk shuffled l s1 st1) as [[st2 s2] vs0] eqn:E2. inversion E; subst.
      destruct (IH _ _ _ _ _ E2) as (L & A & B & C). apply read_step in R. destruct R as (S & R1 & R2 & R3 & _).
      split; [cbn; now rewrite L|]. split.
      { intros [|k] b Hb Nb; cbn in Hb |- *; [inversion Hb; subst; destruct (R1 Nb) as [-> _]; reflexivity|]. rewrite (A k b Hb Nb). f_equal. now apply V. }
      assert (First : forall k v w, a = AIndices -> v0 = Ok v -> nth_error l k = Some AIndices -> nth_error vs0 k = Some (Ok w) -> v = w).
      { intros k v w Ha Hv Hl Hw. destruct (R2 Ha v Hv) as (i & -> & Hi). destruct (reads_frozen _ _ _ _ _ _ _ E2 Hi) as [_ Q]. specialize (Q k _ Hl Hw). congruence. }
      split.
      { intros [|j] [|k] v w Hj Hk Hv Hw; cbn in Hj, Hk, Hv, Hw.
        - congruence.
        - inversion Hj; inversion Hv; subst. eapply First; eauto.
        - inversion Hk; inversion Hw; subst. symmetry. eapply First; eauto.
        - exact (B j k v w Hj Hk Hv Hw). }
      intros [H|H].
      + assert (Na : a <> AIndices) by (intros ->; apply H; now left). destruct (R1 Na) as (_ & -> & _). apply C. left. intros X. apply H. now right.
      + destruct (s_indices s) as [i|]; [|congruence]. destruct (R3 i eq_refl) as (Hi & -> & _). apply C. right. congruence.
  Qed.
End Reads.

(* frequency table and index table describe the same replicates *)
Definition coherent (i f : table) : Prop :=
  List.length (t_rows i) = List.length (t_rows f) /\
  forall r, (r < List.length (t_rows f))%nat ->
    List.length (nth r (t_rows f) []) = t_cols f /\ List.length (nth r (t_rows i) []) = t_cols i /\
    Forall (in_range (t_cols f)) (nth r (t_rows i) []) /\
    forall j, (j < t_cols f)%nat -> nth j (nth r (t_rows f) []) 0%Z = Z.of_nat (occ (nth r (t_rows i) []) (Z.of_nat j)).
(* tables a user may pass: rectangular, indices in range and some of them; frequencies not
   negative with equal sums *)
Definition good_indices (n : nat) (t : table) : Prop :=
  concat (t_rows t) <> [] /\ Forall (fun r => List.length r = t_cols t /\ Forall (in_range n) r) (t_rows t).
Definition good_freq (t : table) : Prop :=
  t_rows t <> [] /\ exists nsamp, Forall (fun r => List.length r = t_cols t /\ nonneg r /\ zsum r = nsamp) (t_rows t).

Lemma coherent_from_indices lab n t f : (0 < n)%nat -> good_indices n t -> table_to_freq lab n t = Ok f -> coherent t f.
Proof.
  intros Hn [Ne G] E. unfold table_to_freq in E. destruct (Nat.eqb_spec n 0); [lia|]. rewrite andb_false_r in E.
  assert (R : Forall (Forall (in_range n)) (t_rows t)) by (eapply Forall_impl; [|exact G]; cbn; tauto).
  destruct (indices_to_freq_counts n (t_rows t) R Ne) as (rows & Ef & L & K). rewrite Ef in E. inversion E; subst f. split; [cbn; lia|]. cbn [t_rows t_cols].
  intros r Hr. destruct (K r ltac:(lia)) as (K1 & K2 & _). rewrite Forall_forall in G. destruct (G (nth r (t_rows t) []) ltac:(apply nth_In; lia)) as [G1 G2]. auto.
Qed.
Lemma permuted_row (r : list Z) p : Permutation p (seq 0 (List.length r)) -> Permutation (map (fun k => nth k r 0%Z) p) r.
Proof.
  intros P. eapply Permutation_trans; [apply Permutation_map; exact P|]. rewrite map_nth_seq by reflexivity. apply Permutation_refl.
Qed.
Lemma coherent_from_freq junk shuffled shuffle rng t st st1 i : good_shuffle shuffled -> good_freq t ->
  table_to_indices junk shuffled shuffle rng t st = (st1, Ok i) -> coherent i t.
Proof.
  intros Gs (Ne & nsamp & G) E. unfold table_to_indices in E.
  destruct (freq_to_indices_lists junk (t_rows t) nsamp Ne) as (rows & Ef & L & K).
  { eapply Forall_impl; [|exact G]. cbn. tauto. }
  { eapply Forall_impl; [|exact G]. cbn. tauto. }
  rewrite Ef in E.
  assert (Len : forall r, In r rows -> Z.of_nat (List.length r) = nsamp).
  { intros r Hr. apply (In_nth _ _ []) in Hr. destruct Hr as (k & Hk & <-). apply K. lia. }
  set (n := match rows with [] => 0%nat | r :: _ => List.length r end) in *.
  assert (Hn : forall r, In r rows -> List.length r = n).
  { intros r Hr. unfold n. destruct rows as [|r0 l]; [contradiction|]. pose proof (Len r Hr). pose proof (Len r0 (or_introl eq_refl)). lia. }
  assert (Sorted : forall r, (r < List.length (t_rows t))%nat -> List.length (nth r (t_rows t) []) = t_cols t /\ List.length (nth r rows []) = n /\
     Forall (in_range (t_cols t)) (nth r rows []) /\ forall j, (j < t_cols t)%nat -> nth j (nth r (t_rows t) []) 0%Z = Z.of_nat (occ (nth r rows []) (Z.of_nat j))).
  { intros r Hr. destruct (K r Hr) as (_ & _ & K3 & K4). rewrite Forall_forall in G. destruct (G (nth r (t_rows t) []) ltac:(apply nth_In; lia)) as (G1 & _).
    rewrite G1 in K3, K4. split; [exact G1|]. split; [apply Hn, nth_In; lia|]. split; [exact K3|]. intros j Hj. symmetry. now apply K4. }
  destruct shuffle.
  - apply sbind_ok in E. destruct E as (st2 & g & _ & E). apply sbind_ok in E. destruct E as (st3 & d & _ & E). inversion E; subst i. split; [cbn; rewrite map_length; lia|].
    intros r Hr. destruct (Sorted r Hr) as (S1 & S2 & S3 & S4). cbn [t_rows t_cols].
    assert (En : nth r (map (fun r => map (fun k => nth k r 0%Z) (shuffled d n)) rows) [] = map (fun k => nth k (nth r rows []) 0%Z) (shuffled d n)).
    { rewrite (nth_indep _ [] (map (fun k => nth k [] 0%Z) (shuffled d n))) by (rewrite map_length; lia).
      exact (map_nth (fun r => map (fun k => nth k r 0%Z) (shuffled d n)) rows [] r). }
    rewrite En.
    assert (P : Permutation (map (fun k => nth k (nth r rows []) 0%Z) (shuffled d n)) (nth r rows [])) by (apply permuted_row; rewrite S2; apply Gs).
    split; [exact S1|]. split; [rewrite (Permutation_length P); exact S2|]. split.
    + rewrite Forall_forall in S3 |- *. intros z Hz. apply S3. eapply Permutation_in; eauto.
    + intros j Hj. rewrite (S4 j Hj). f_equal. apply Permutation_count_occ. now apply Permutation_sym.
  - inversion E; subst i. split; [cbn; lia|]. exact Sorted.
Qed.

(* Made from one table, freq and indices agree whatever is read in whatever order, with and
   without shuffling. *)
Theorem freq_and_indices_agree : forall junk shuffled l s st st' s' vs j k ti tf,
  good_shuffle shuffled ->
  (exists t n, s_indices s = Some (One t) /\ s_freq s = None /\ ndat_of s = Ok n /\ (0 < n)%nat /\ good_indices n t) \/
  (exists t, s_indices s = None /\ s_freq s = Some (One t) /\ good_freq t) ->
  reads junk shuffled l s st = (st', s', vs) ->
  nth_error l j = Some AFreq -> nth_error l k = Some AIndices ->
  nth_error vs j = Some (Ok (VTables tf)) -> nth_error vs k = Some (Ok (VTables ti)) ->
  exists f i, tf = One f /\ ti = One i /\ coherent i f.
Proof.
  intros junk shuffled l s st st' s' vs j k ti tf Gs H E Hj Hk Vj Vk.
  destruct (attributes_stable junk shuffled _ _ _ _ _ _ E) as (_ & A & _ & _). rewrite (A j AFreq Hj) in Vj by discriminate. clear A.
  inversion Vj as [Vf]. cbn in Vf. apply rbind_ok in Vf. destruct Vf as (tf' & Vf & X). inversion X; subst tf'. clear X Vj.
  destruct H as [(t & n & I & F & N & Hn & G)|(t & I & F & G)].
  - destruct (reads_frozen junk shuffled _ _ _ _ _ _ _ E I) as [_ Q]. specialize (Q k _ Hk Vk). inversion Q; subst ti.
    unfold freq_of in Vf. rewrite F, I, N in Vf. cbn [rbind each] in Vf. apply rbind_ok in Vf. destruct Vf as (f & Vf & X). inversion X. exists f, t. repeat split.
    + apply (coherent_from_indices _ _ _ _ Hn G Vf).
    + apply (coherent_from_indices _ _ _ _ Hn G Vf). assumption.
    + apply (coherent_from_indices _ _ _ _ Hn G Vf). assumption.
    + apply (coherent_from_indices _ _ _ _ Hn G Vf). assumption.
    + apply (coherent_from_indices _ _ _ _ Hn G Vf). assumption.
  - unfold freq_of in Vf. rewrite F in Vf. inversion Vf; subst tf. clear Vf.
    assert (K : exists st0 st1 i, ti = One i /\ table_to_indices junk shuffled (s_shuffle s) (s_rng s) t st0 = (st1, Ok i)).
    { clear Hj. revert s st st' s' vs k I F E Hk Vk. induction l as [|a l IH]; intros s st st' s' vs k I F E Hk Vk; [destruct k; discriminate|].
      cbn [reads] in E. destruct (read junk shuffled a s st) as [[st1 s1] v0] eqn:R. destruct (reads junk shuffled l s1 st1) as [[st2 s2] vs0] eqn:E2. inversion E; subst. clear E.
      destruct a.
      - (* freq *) cbn [read] in R. unfold get_freq in R. rewrite F in R. unfold ret in R. inversion R; subst. destruct k as [|k]; [discriminate|]. cbn in Hk, Vk. exact (IH _ _ _ _ _ k I F E2 Hk Vk).
      - cbn [read] in R. unfold get_indices in R. rewrite I, F in R. cbn [tables_map] in R. unfold sbind, ret in R.
        destruct (table_to_indices junk shuffled (s_shuffle s) (s_rng s) t st) as [st3 [i|e]] eqn:T.
        + inversion R; subst. clear R. cbn [rbind] in Vk. exists st, st1, i. split; [|exact T].
          destruct k as [|k]; cbn in Hk, Vk; [inversion Vk; reflexivity|].
          destruct (reads_frozen junk shuffled _ _ _ _ _ _ (One i) E2 eq_refl) as [_ Q]. specialize (Q k _ Hk Vk). congruence.
        + inversion R; subst. clear R. destruct k as [|k]; cbn in Hk, Vk; [discriminate|]. exact (IH _ _ _ _ _ k I F E2 Hk Vk).
      - cbn [read] in R. destruct (get_ndat_eq s) as (s3 & G1 & A1 & A2 & A3 & A4 & _). rewrite G1 in R. inversion R; subst. destruct k as [|k]; [discriminate|]. cbn in Hk, Vk.
        rewrite <- A3, <- A4. eapply IH; [..|exact E2|exact Hk|exact Vk]; congruence.
      - cbn [read] in R. rewrite get_nrep_eq in R. inversion R; subst. destruct k as [|k]; [discriminate|]. cbn in Hk, Vk. exact (IH _ _ _ _ _ k I F E2 Hk Vk). }
    destruct K as (st0 & st1 & i & -> & T). exists t, i. split; [reflexivity|]. split; [reflexivity|]. eapply coherent_from_freq; eauto.
Qed.
(* Given both, nothing checks that they agree. *)
Theorem both_tables_not_compared_refuted : exists i f s, new_sampler (Some (One i)) (Some (One f)) (Some 2%nat) false SNone false = Ok s /\
  good_indices 2 i /\ good_freq f /\ freq_of s = Ok (One f) /\ indices_of 0 s = Ok (One i) /\ ~ coherent i f.
Proof.
  exists (Tab 2 [[0; 0]]%Z), (Tab 2 [[1; 1]]%Z). eexists. split; [reflexivity|]. split; [|split; [|split; [reflexivity|split; [reflexivity|]]]].
  - split; [discriminate|]. repeat constructor; unfold in_range; cbn; try lia.
  - split; [discriminate|]. exists 2%Z. repeat constructor; cbn; lia.
  - intros (_ & H). destruct (H 0%nat ltac:(cbn; lia)) as (_ & _ & _ & K). specialize (K 0%nat ltac:(cbn; lia)). discriminate.
Qed.
(* A constructor call is refused exactly if no table is given, or ndat is not the number of
   columns of freq. *)
Theorem new_sampler_checks : forall i f n sh rng lab,
  new_sampler i f n sh rng lab =
  match i, f with
  | None, None => Raise EValue
  | _, Some f => match n with
                 | None => Ok (Sampler i (Some f) n sh rng lab)
                 | Some k => match cols f with Ok c => if Nat.eqb c k then Ok (Sampler i (Some f) n sh rng lab) else Raise EValue | Raise e => Raise e end
                 end
  | _, None => Ok (Sampler i f n sh rng lab)
  end.
Proof. intros [i|] [f|] [k|] sh rng lab; cbn; rewrite ?shape1_cols; try reflexivity; destruct (cols f); reflexivity. Qed.
(* Without ndat a sampler made from indices takes the number of samples for the number of
   observations: the table is too narrow, or the call is refused. *)
Theorem ndat_of_indices_refuted : exists i s1 s2,
  new_sampler (Some (One i)) None (Some 5%nat) false SNone false = Ok s1 /\ new_sampler (Some (One i)) None None false SNone false = Ok s2 /\
  freq_of s1 = Ok (One (Tab 5 [[1; 0; 0; 1; 0]]%Z)) /\ freq_of s2 = Raise EValue /\ ndat_of s2 = Ok 2%nat.
Proof. exists (Tab 2 [[0; 3]]%Z). do 2 eexists. repeat split. Qed.

(* ---- factory_sampler (C63, C85) ---------------------------------------------------------- *)

Lemma sbind_def {S T} (x : rnd S) (f : S -> rnd T) st : sbind x f st = match x st with (st1, Ok s) => f s st1 | (st1, Raise e) => (st1, Raise e) end.
Proof. reflexivity. Qed.
(* A sampler object is used as it is. *)
Theorem sampler_object_returned : forall choice s a lab data st, factory_sampler choice (SAObj s) a lab data st = (st, Ok s).
Proof. reflexivity. Qed.
(* A mapping is the same as its items given as keywords; an integer the same as the keyword
   nrep; all other keywords of the call have no effect. *)
Theorem mapping_is_keywords : forall choice m a lab data st,
  factory_sampler choice (SAMap m) a lab data st = factory_sampler choice SANone m lab data st.
Proof. reflexivity. Qed.
Theorem integer_is_nrep : forall choice n a lab data st,
  factory_sampler choice (SAInt n) a lab data st =
  factory_sampler choice SANone (FArgs None None (Some n) None None None None None None) lab data st.
Proof. reflexivity. Qed.
(* Given tables: nothing is drawn and the arguments for drawing have no effect. *)
Theorem tables_hide_random_arguments : forall choice a lab data st, f_indices a <> None \/ f_freq a <> None ->
  factory_sampler choice SANone a lab data st =
  (st, new_sampler (f_indices a) (f_freq a) (f_ndat a) false (match f_rng a with Some r => r | None => SNone end) lab).
Proof. intros choice [f i nrep ndat ns p rng rep sh] lab data st H. cbn in *. destruct i, f; try reflexivity. destruct H; congruence. Qed.
Theorem table_is_freq : forall choice t a lab0 lab data st,
  factory_sampler choice (SATable t lab) a lab0 data st =
  (st, new_sampler None (Some t) (f_ndat a) (match f_shuffle a with Some b => b | None => false end) (match f_rng a with Some r => r | None => SNone end) lab).
Proof. reflexivity. Qed.
(* Random tables: ndat given or found in the data; nothing else will do. *)
Theorem random_sampler_needs : forall choice a lab data st st' s, f_indices a = None -> f_freq a = None ->
  factory_sampler choice SANone a lab data st = (st', Ok s) ->
  f_nrep a <> None /\ (f_ndat a <> None \/ exists d n, data = Some d /\ da_ndat d = Ok n).
Proof.
  intros choice [f i nrep ndat ns p rng rep sh] lab data st st' s Hi Hf E. cbn in *. subst. destruct nrep as [nrep|]; [|discriminate]. split; [discriminate|].
  destruct ndat as [n|]; [left; discriminate|]. right. cbn in E. destruct data as [d|]; [|discriminate]. unfold from_data in E. apply sbind_ok in E. destruct E as (st1 & n & E & _).
  unfold ret in E. inversion E. eauto.
Qed.
(* Sizes of the tables of a sampler drawn with nrep, ndat and nsamp. *)
Theorem random_sampler_sizes : forall choice a lab data st st' s nrep ndat, good_choice choice -> f_indices a = None -> f_freq a = None ->
  f_nrep a = Some nrep -> f_ndat a = Some ndat ->
  factory_sampler choice SANone a lab data st = (st', Ok s) ->
  exists t, s_indices s = Some (One t) /\ s_freq s = None /\ s_ndat s = Some ndat /\ s_shuffle s = false /\
    Z.of_nat (List.length (t_rows t)) = nrep /\ Z.of_nat (t_cols t) = size_of (Z.of_nat ndat) (f_nsamp a) /\
    Forall (fun r => Z.of_nat (List.length r) = size_of (Z.of_nat ndat) (f_nsamp a) /\ Forall (in_table (Z.of_nat ndat)) r) (t_rows t) /\
    (f_replace a = Some false -> NoDup (concat (t_rows t))).
Proof.
  intros choice [f i nrep0 ndat0 ns p rng rep sh] lab data st st' s nrep ndat G Hi Hf Hr Hn E. cbn in *. subst. cbn in E. unfold from_params in E.
  apply sbind_ok in E. destruct E as (st1 & t & R & E). unfold ret in E. inversion E; subst. exists t.
  destruct (random_indices_spec _ _ _ _ _ _ _ _ _ G R) as (A & B & C & D). cbn. repeat split; auto. intros X. apply D. subst rep. reflexivity.
Qed.
(* Arrays, DataArrays and paired Datasets of the same size give the same tables. *)
Theorem labelled_data_same_tables : forall choice n kind nrep nsamp paired rng st,
  match kind with KDataset _ => paired = true | _ => True end ->
  let r := from_data choice (Data (Ok n) KArray) nrep nsamp paired rng true st in
  let r' := from_data choice (Data (Ok n) kind) nrep nsamp paired rng true st in
  fst r' = fst r /\
  match snd r, snd r' with
  | Ok s, Ok s' => s_indices s' = s_indices s /\ s_freq s' = s_freq s /\ s_ndat s' = s_ndat s
  | Raise e, Raise e' => e = e'
  | _, _ => False
  end.
Proof.
  intros choice n kind nrep nsamp paired rng st H r r'.
  assert (E : forall lab, sbind (randsamp_labelled choice kind nrep n nsamp paired rng) (fun t => ret (Ok (Sampler (Some t) None (Some n) false SNone lab))) st =
     sbind (random_indices choice nrep (Z.of_nat n) nsamp rng true) (fun t => ret (Ok (Sampler (Some (One t)) None (Some n) false SNone lab))) st).
  { intros lab. unfold randsamp_labelled, random_indices, sbind. destruct (validate_rng rng st) as [st1 [g|e]]; [|reflexivity].
    destruct kind as [| |vars]; [| |subst paired]; cbn [validate_rng np_default_rng]; destruct (np_choice choice g (Z.of_nat n) nrep (dflt (Z.of_nat n) nsamp) true st1) as [st2 [t|e]]; reflexivity. }
  assert (R : r = sbind (random_indices choice nrep (Z.of_nat n) nsamp rng true) (fun t => ret (Ok (Sampler (Some (One t)) None (Some n) false SNone false))) st) by reflexivity.
  assert (R' : exists lab, r' = sbind (random_indices choice nrep (Z.of_nat n) nsamp rng true) (fun t => ret (Ok (Sampler (Some (One t)) None (Some n) false SNone lab))) st).
  { destruct kind as [| |vars]; [exists false; reflexivity|exists true; rewrite <- E; reflexivity|exists true; rewrite <- E; reflexivity]. }
  destruct R' as (lab & R'). rewrite R, R'. clear. unfold sbind. destruct (random_indices choice nrep (Z.of_nat n) nsamp rng true st) as [st1 [t|e]]; cbn; auto.
Qed.
(* Unpaired Datasets: a fresh draw for every variable which has the dimensions. *)
Theorem unpaired_draws : forall choice vars nrep ndat nsamp rng st st1 g src k,
  let n := size_of (Z.of_nat ndat) nsamp in
  (0 <= nrep /\ 0 <= n /\ (0 < ndat)%nat)%Z -> validate_rng rng st = (st1, Ok g) -> nth_error (heap st1) g = Some (src, k) ->
  let m := List.length (filter (fun b : bool => b) vars) in
  let tabs := map (fun i => Tab (Z.to_nat n) (choice (src, k + i)%nat true (Z.of_nat ndat) (Z.to_nat nrep) (Z.to_nat n))) (seq 0 m) in
  exists st', randsamp_labelled choice (KDataset vars) nrep ndat nsamp false rng st = (st', Ok (match tabs with [t] => One t | _ => Many tabs end)) /\
    nth_error (heap st') g = Some (src, k + m)%nat.
Proof.
  intros choice vars nrep ndat nsamp rng st st1 g src k n (H1 & H2 & H3) V Hg m tabs.
  set (one := random_indices choice nrep (Z.of_nat ndat) nsamp (SGen g) true).
  assert (One_ : forall s j, nth_error (heap s) g = Some (src, j) -> exists s', one s = (s', Ok (Tab (Z.to_nat n) (choice (src, j) true (Z.of_nat ndat) (Z.to_nat nrep) (Z.to_nat n)))) /\
     nth_error (heap s') g = Some (src, S j)).
  { intros s j Hs. unfold one, random_indices, sbind. cbn [validate_rng np_default_rng]. unfold np_choice. change (dflt (Z.of_nat ndat) nsamp) with n.
    destruct (Z.ltb_spec nrep 0); [lia|]. destruct (Z.ltb_spec n 0); [lia|]. cbn [orb]. destruct (Z.leb_spec (Z.of_nat ndat) 0); [lia|]. cbn [andb negb].
    unfold sbind, drawn, draw. rewrite Hs. eexists. split; [reflexivity|]. cbn. now apply (upd_nth_same _ _ _ (src, j)). }
  assert (Many_ : forall (l : list bool) s j, nth_error (heap s) g = Some (src, j) -> exists s', mapS (fun _ => one) l s =
     (s', Ok (map (fun i => Tab (Z.to_nat n) (choice (src, j + i)%nat true (Z.of_nat ndat) (Z.to_nat nrep) (Z.to_nat n))) (seq 0 (List.length l)))) /\ nth_error (heap s') g = Some (src, j + List.length l)%nat).
  { induction l as [|b l IH]; intros s j Hs; cbn [mapS List.length seq map].
    - exists s. split; [reflexivity|]. now rewrite Nat.add_0_r.
    - destruct (One_ s j Hs) as (s1 & E1 & G1). destruct (IH s1 (S j) G1) as (s2 & E2 & G2). exists s2. unfold sbind. rewrite E1, E2. split; [|rewrite G2; do 2 f_equal; lia].
      unfold ret. rewrite Nat.add_0_r. do 3 f_equal. rewrite <- seq_shift, map_map. apply map_ext. intros i. do 3 f_equal. lia. }
  destruct (Many_ (filter (fun b => b) vars) st1 k Hg) as (st' & E & G). exists st'. split; [|exact G].
  unfold randsamp_labelled. unfold sbind at 1. rewrite V. fold one. unfold sbind. rewrite E. fold m. fold tabs. destruct tabs as [|t [|t' l]]; reflexivity.
Qed.
(* A seed makes the sampler independent of everything drawn before. *)
Theorem seeded_sampler_reproducible : forall choice a lab data st1 st2 s, f_rng a = Some (SSeed s) ->
  snd (factory_sampler choice SANone a lab data st1) = snd (factory_sampler choice SANone a lab data st2).
Proof.
  intros choice [f i nrep ndat ns p rng rep sh] lab data st1 st2 s Hr. cbn in Hr. subst rng.
  (* one draw from generators at the same position *)
  assert (NC : forall g h sa sb n r m b, nth_error (heap sa) g = nth_error (heap sb) h ->
     snd (np_choice choice g n r m b sa) = snd (np_choice choice h n r m b sb) /\
     nth_error (heap (fst (np_choice choice g n r m b sa))) g = nth_error (heap (fst (np_choice choice h n r m b sb))) h).
  { intros g h sa sb n r m b H. unfold np_choice. destruct (_ || _)%bool; [auto|]. destruct (_ && _)%bool; [auto|]. destruct (_ && _)%bool; [auto|].
    unfold sbind, drawn, draw. rewrite H. destruct (nth_error (heap sb) h) as [[src k]|] eqn:K; cbn; [|now rewrite H, K].
    split; [reflexivity|]. now rewrite (upd_nth_same _ g _ (src, k)), (upd_nth_same _ h _ (src, k)). }
  assert (RI : forall n r m b, snd (random_indices choice n r m (SSeed s) b st1) = snd (random_indices choice n r m (SSeed s) b st2)).
  { intros n r m b. unfold random_indices, sbind. cbn [validate_rng np_default_rng]. destruct (s <? 0)%Z; [reflexivity|].
    apply NC. cbn. rewrite !nth_error_app2, !Nat.sub_diag by lia. reflexivity. }
  assert (RG : forall g h sa sb n r m b, nth_error (heap sa) g = nth_error (heap sb) h ->
     snd (random_indices choice n r m (SGen g) b sa) = snd (random_indices choice n r m (SGen h) b sb) /\
     nth_error (heap (fst (random_indices choice n r m (SGen g) b sa))) g = nth_error (heap (fst (random_indices choice n r m (SGen h) b sb))) h).
  { intros g h sa sb n r m b H. unfold random_indices, sbind. cbn [validate_rng np_default_rng]. now apply NC. }
  assert (RS : forall kind n r m b, snd (randsamp_labelled choice kind n r m b (SSeed s) st1) = snd (randsamp_labelled choice kind n r m b (SSeed s) st2)).
  { intros kind n r m b. unfold randsamp_labelled. rewrite !(sbind_def (validate_rng (SSeed s))). cbn [validate_rng np_default_rng]. destruct (s <? 0)%Z; [reflexivity|].
    set (sa := RState (heap st1 ++ _) _). set (sb := RState (heap st2 ++ _) _). set (g := List.length (heap st1)). set (h := List.length (heap st2)).
    assert (H : nth_error (heap sa) g = nth_error (heap sb) h) by (cbn; unfold g, h; rewrite !nth_error_app2, !Nat.sub_diag by lia; reflexivity).
    clearbody sa sb g h.
    assert (O : snd (sbind (random_indices choice n (Z.of_nat r) m (SGen g) true) (fun t => ret (Ok (One t))) sa) = snd (sbind (random_indices choice n (Z.of_nat r) m (SGen h) true) (fun t => ret (Ok (One t))) sb)).
    { destruct (RG g h sa sb n (Z.of_nat r) m true H) as [E _]. unfold sbind. destruct (random_indices choice n (Z.of_nat r) m (SGen g) true sa) as [s1 [t|e]], (random_indices choice n (Z.of_nat r) m (SGen h) true sb) as [s2 [t'|e']]; cbn in E |- *; congruence. }
    assert (M : forall l : list bool, snd (mapS (fun _ => random_indices choice n (Z.of_nat r) m (SGen g) true) l sa) = snd (mapS (fun _ => random_indices choice n (Z.of_nat r) m (SGen h) true) l sb)).
    { intros l. clear O. revert sa sb H. induction l as [|x l IH]; intros sa sb H; [reflexivity|]. cbn [mapS]. destruct (RG g h sa sb n (Z.of_nat r) m true H) as [E F]. unfold sbind.
      destruct (random_indices choice n (Z.of_nat r) m (SGen g) true sa) as [s1 [t|e]], (random_indices choice n (Z.of_nat r) m (SGen h) true sb) as [s2 [t'|e']]; cbn in E, F |- *; try congruence.
      specialize (IH s1 s2 F). destruct (mapS _ l s1) as [s3 [l1|e1]], (mapS _ l s2) as [s4 [l2|e2]]; cbn in IH |- *; inversion IH; inversion E; subst; reflexivity. }
    destruct kind as [| |vars]; [exact O|exact O|]. destruct b; [exact O|]. specialize (M (filter (fun b => b) vars)). unfold sbind.
    destruct (mapS _ _ sa) as [s3 [l1|e1]], (mapS _ _ sb) as [s4 [l2|e2]]; cbn in M |- *; inversion M; subst; reflexivity. }
  assert (Two : forall {A B} (x y : rstate * res A) (f : A -> B), snd x = snd y ->
    snd (match x with (s1, Ok t) => ret (Ok (f t)) s1 | (s1, Raise e) => (s1, Raise e) end) =
    snd (match y with (s1, Ok t) => ret (Ok (f t)) s1 | (s1, Raise e) => (s1, Raise e) end)).
  { intros A B [s1 [x|e]] [s2 [y|e']] f0 E; cbn in *; congruence. }
  cbn [factory_sampler]. unfold factory_none. cbn [f_indices f_freq f_nrep f_ndat f_nsamp f_paired f_rng f_replace dflt].
  destruct i, f; try reflexivity. destruct nrep as [nrep|]; [|reflexivity]. destruct ndat as [n|].
  - exact (Two _ _ _ _ _ (RI nrep (Z.of_nat n) ns (dflt true rep))).
  - destruct data as [[[n|e] kind]|]; [|reflexivity|reflexivity]. destruct kind as [| |vars].
    + exact (Two _ _ _ _ _ (RI nrep (Z.of_nat n) ns (dflt true rep))).
    + exact (Two _ _ _ _ _ (RS KDataArray nrep n ns (dflt true p))).
    + exact (Two _ _ _ _ _ (RS (KDataset vars) nrep n ns (dflt true p))).
Qed.

(* a generator for examples: with replacement always the first or the last observation *)
Definition wchoice (d : source * nat) (replace : bool) (ndat : Z) (nrep nsamp : nat) : list (list Z) :=
  map (fun i => map (fun j => if replace then match fst d with Seeded _ => 0%Z | Entropy _ => (ndat - 1)%Z end else Z.of_nat (i * nsamp + j)) (seq 0 nsamp)) (seq 0 nrep).
Lemma wchoice_good : good_choice wchoice.
Proof.
  intros d replace ndat nrep nsamp H1 H2. cbv zeta. unfold wchoice. split; [now rewrite map_length, seq_length|]. split.
  - apply Forall_map, Forall_forall. intros i Hi. apply in_seq in Hi. split; [now rewrite map_length, seq_length|].
    apply Forall_map, Forall_forall. intros j Hj. apply in_seq in Hj. unfold in_table.
    assert (i * nsamp + j < nrep * nsamp)%nat by nia. destruct replace; [destruct (fst d); lia|]. destruct H2; [discriminate|]. lia.
  - intros ->. clear.
    assert (E : concat (map (fun i => map (fun j => Z.of_nat (i * nsamp + j)) (seq 0 nsamp)) (seq 0 nrep)) = map Z.of_nat (seq 0 (nrep * nsamp))).
    { induction nrep as [|n IH]; [reflexivity|]. rewrite seq_S, map_app, concat_app, IH. cbn [map concat]. rewrite app_nil_r.
      replace (S n * nsamp)%nat with (n * nsamp + nsamp)%nat by lia. rewrite seq_app, map_app. f_equal. cbn [Nat.add].
      rewrite <- (map_map (fun j => n * nsamp + j)%nat Z.of_nat). f_equal.
      generalize (n * nsamp)%nat. intros k. clear. induction nsamp as [|m IH]; [reflexivity|]. rewrite !seq_S, map_app, IH. reflexivity. }
    rewrite E. apply FinFun.Injective_map_NoDup; [intros a b; lia|apply seq_NoDup].
Qed.
Definition with_rng (nrep : option Z) (ndat : option nat) (s : Z) : fargs := FArgs None None nrep ndat None None (Some (SSeed s)) None None.
(* The generator given with an integer sampler is not used: the result is not the one of
   nrep and rng given as keywords. *)
Theorem integer_sampler_rng_ignored_refuted : exists choice data st, good_choice choice /\
  snd (factory_sampler choice (SAInt 1) (with_rng None None 0) false (Some data) st) <>
  snd (factory_sampler choice SANone (with_rng (Some 1%Z) None 0) false (Some data) st).
Proof. exists wchoice, (Data (Ok 2%nat) KArray), (RState [] None). split; [exact wchoice_good|]. discriminate. Qed.
(* Neither is ndat: an integer sampler needs data. *)
Theorem integer_sampler_ndat_ignored_refuted : exists choice st s, good_choice choice /\
  snd (factory_sampler choice (SAInt 1) (with_rng None (Some 2%nat) 0) false None st) = Raise EValue /\
  snd (factory_sampler choice SANone (with_rng (Some 1%Z) (Some 2%nat) 0) false None st) = Ok s.
Proof. exists wchoice, (RState [] None). eexists. split; [exact wchoice_good|]. split; reflexivity. Qed.
(* shuffle=True with freq= : the keyword has no effect, though it has one if the table is
   given as sampler. *)
Theorem shuffle_ignored_refuted : exists choice f s1 s2 st,
  let a := FArgs (Some f) None None None None None (Some (SSeed 0)) None (Some true) in
  factory_sampler choice SANone a false None st = (st, Ok s1) /\ s_shuffle s1 = false /\
  factory_sampler choice (SATable f false) a false None st = (st, Ok s2) /\ s_shuffle s2 = true.
Proof. exists wchoice, (One (Tab 2 [[1; 1]]%Z)). do 2 eexists. exists (RState [] None). repeat split. Qed.
(* replace=False with labelled data: repeated observations, or a table that the same
   call refuses for an array. *)
Theorem replace_ignored_for_labels_refuted : exists choice st s t, good_choice choice /\
  snd (from_data choice (Data (Ok 2%nat) KDataArray) 2 None true (SSeed 0) false st) = Ok s /\
  s_indices s = Some (One t) /\ ~ NoDup (hd [] (t_rows t)) /\
  snd (from_data choice (Data (Ok 2%nat) KArray) 2 None true (SSeed 0) false st) = Raise EValue.
Proof.
  exists wchoice, (RState [] None). do 2 eexists. split; [exact wchoice_good|]. split; [reflexivity|]. split; [reflexivity|]. split; [|reflexivity].
  intros N. inversion N as [|? ? H _]. apply H. now left.
Qed.
Theorem replace_ignored_for_labels : forall choice n kind nrep nsamp paired rng replace st, kind <> KArray ->
  from_data choice (Data (Ok n) kind) nrep nsamp paired rng replace st = from_data choice (Data (Ok n) kind) nrep nsamp paired rng true st.
Proof. intros choice n kind nrep nsamp paired rng replace st H. destruct kind; [congruence|reflexivity|reflexivity]. Qed.

(* ---- select_ndat (C86) ------------------------------------------------------------------------ *)

(* the number n of moment axes and their positions M among r axes *)
Definition moment_positions (nd : option Z) (ax : option ints_arg) (r n : nat) (M : list nat) : Prop :=
  (nd = None /\ ax = None /\ n = 0%nat /\ M = []) \/
  ((nd <> None \/ ax <> None) /\ exists l, validate_mom_ndim_and_mom_axes nd ax None = Ok (Z.of_nat n, l) /\ Forall2 (is_axis r) l M).

Lemma ndim_axes_nat nd ax n l : validate_mom_ndim_and_mom_axes nd ax None = Ok (n, l) -> (0 <= n)%Z.
Proof. intros V. apply validate_ndim_axes_len in V; [|discriminate]. destruct V as (O & _). unfold one_or_two in O. lia. Qed.
Lemma raise_in_axes n M a : raise_if_in_mom_axes (AP n (Some (map Z.of_nat M))) [Z.of_nat a] = if nat_mem a M then Raise EValue else Ok tt.
Proof.
  unfold raise_if_in_mom_axes. cbn [ap_axes existsb]. rewrite orb_false_r.
  assert (E : existsb (Z.eqb (Z.of_nat a)) (map Z.of_nat M) = nat_mem a M).
  { unfold nat_mem. induction M as [|b M IH]; [reflexivity|]. cbn. rewrite IH. f_equal. destruct (Nat.eqb_spec a b), (Z.eqb_spec (Z.of_nat a) (Z.of_nat b)); try lia; auto. }
  now rewrite E.
Qed.
(* ndat is the length of the axis named, which is not one of the (distinct) moment axes. *)
Theorem select_ndat_array_exact : forall shape x nd ax k,
  select_ndat_array shape (Val x) MPNone nd ax = Ok k <->
  exists n M a, moment_positions nd ax (List.length shape) n M /\ NoDup M /\ names_axis (List.length shape) n x a /\ ~ In a M /\ nth_error shape a = Some k.
Proof.
  intros shape x nd ax k. unfold select_ndat_array.
  destruct (match nd, ax with None, None => true | _, _ => false end) eqn:C.
  - destruct nd, ax; try discriminate. cbn [array_factory is_array_params set_ndim as_mpdict kwarg setdefault d_axes d_ndim array_optional_from_params rbind]. unfold normalize_axes. cbn [ap_axes ap_ndim option_map rbind].
    rewrite rbind_ok. split.
    + intros (a & N & E). apply (normalize_num x (List.length shape) None) in N. cbn [raise_if_in_mom_axes ap_axes guard rbind] in E. apply nth_error_ok in E.
      exists 0%nat, [], a. repeat split; auto; [left; auto|constructor].
    + intros (n & M & a & [(_ & _ & -> & ->)|(H & _)] & _ & N & _ & E); [|destruct H; congruence]. exists a. split; [now apply (normalize_num x (List.length shape) None)|].
      cbn. now apply nth_error_ok.
  - assert (H0 : nd <> None \/ ax <> None) by (destruct nd, ax; try discriminate; [left|left|right]; discriminate).
    assert (F : array_factory true MPNone nd ax None = rbind (validate_mom_ndim_and_mom_axes nd ax None) (fun p => Ok (AP (Some (fst p)) (Some (snd p))))) by (destruct nd, ax; try discriminate; reflexivity).
    rewrite F. clear F C. destruct (validate_mom_ndim_and_mom_axes nd ax None) as [[n l]|e] eqn:V; cbn [rbind fst snd].
    2: { split; [discriminate|]. intros (n & M & a & [(-> & -> & _)|(_ & l & X & _)] & _); [destruct H0; congruence|congruence]. }
    pose proof (ndim_axes_nat _ _ _ _ V) as Hn. unfold normalize_axes. cbn [ap_axes ap_ndim]. rewrite rbind_ok.
    assert (T : forall M, normalize_axis_tuple (Some (map AInt l)) (List.length shape) None false = Ok M <-> Forall2 (is_axis (List.length shape)) l M /\ NoDup M).
    { intros M. rewrite normalize_tuple_ok. split; intros [A B]; (split; [|exact B]); clear -A.
      - revert M A. induction l as [|z l IH]; intros M A; inversion A; subst; constructor; auto.
      - induction A; cbn; constructor; auto. }
    split.
    + intros (p & E & G). apply rbind_ok in E. destruct E as (M & E & X). inversion X; subst p. clear X. apply T in E. destruct E as [E Nd].
      apply rbind_ok in G. destruct G as (a & N & G). cbn [ap_ndim] in N. apply normalize_num in N. rewrite raise_in_axes in G. destruct (nat_mem a M) eqn:Hm; [discriminate|]. cbn in G. apply nth_error_ok in G.
      exists (Z.to_nat n), M, a. split; [right; split; [exact H0|]; exists l; rewrite Z2Nat.id by exact Hn; auto|]. split; [exact Nd|]. split; [exact N|]. split; [|exact G].
      intros X. apply nat_mem_In in X. congruence.
    + intros (n' & M & a & [(-> & -> & _)|(_ & l' & X & Y)] & Nd & N & Hm & E); [destruct H0; congruence|]. rewrite V in X. inversion X; subst. clear X.
      exists (AP (Some (Z.of_nat n')) (Some (map Z.of_nat M))). split; [apply rbind_ok; exists M; split; [apply T; auto|reflexivity]|].
      apply rbind_ok. exists a. split; [apply normalize_num; cbn; now rewrite Nat2Z.id|]. rewrite raise_in_axes.
      destruct (nat_mem a M) eqn:X; [apply nat_mem_In in X; contradiction|]. cbn. now apply nth_error_ok.
Qed.
(* The same for labelled data, except that moment axes may be repeated. *)
Theorem select_ndat_labelled_exact : forall dims shape x nd ax k, NoDup dims -> List.length shape = List.length dims ->
  (select_ndat_dataarray dims shape (Val x) Missing MPNone nd ax None = Ok k <->
   exists n M a, moment_positions nd ax (List.length shape) n M /\ names_axis (List.length shape) n x a /\ ~ In a M /\ nth_error shape a = Some k).
Proof.
  intros dims shape x nd ax k N L. unfold select_ndat_dataarray. rewrite rbind_ok.
  assert (Sz : forall a d, nth_error dims a = Some d -> (sizes dims shape d = Ok k <-> nth_error shape a = Some k)).
  { intros a d Hd. rewrite (sizes_ok _ _ _ _ N L). split; [|eauto]. intros (b & Hb & E). assert (a = b); [|congruence].
    apply (proj1 (NoDup_nth_error dims) N); [apply nth_error_Some; congruence|congruence]. }
  destruct (match nd, ax with None, None => true | _, _ => false end) eqn:C.
  - destruct nd, ax; try discriminate. split.
    + intros (p & E & G). cbn in E. inversion E; subst p. apply rbind_ok in G. destruct G as ([a d] & G & S). apply select_axis_dim_exact in G; [|exact N].
      destruct G as (Hd & _ & [(x' & X & _ & Nm)|[X _]]); [|discriminate]. inversion X; subst x'. cbn [snd] in S. apply (Sz a d Hd) in S. cbn [counted xp_ndim] in Nm. rewrite <- L in Nm.
      exists 0%nat, [], a. repeat split; auto. left. auto.
    + intros (n & M & a & [(_ & _ & -> & ->)|(H & _)] & Nm & _ & E); [|destruct H; congruence]. exists (XP None None). split; [reflexivity|].
      assert (La : (a < List.length dims)%nat) by (rewrite <- L; apply nth_error_Some; congruence). destruct (nth_error dims a) as [d|] eqn:Hd; [|apply nth_error_None in Hd; lia].
      apply rbind_ok. exists (a, d). split; [|now apply (Sz a d Hd)]. apply select_axis_dim_exact; [exact N|]. split; [exact Hd|]. split; [right; intros []|]. left. exists x. rewrite L in Nm. auto.
  - assert (H0 : nd <> None \/ ax <> None) by (destruct nd, ax; try discriminate; [left|left|right]; discriminate).
    assert (F : x_factory true MPNone nd None ax (ODataArray dims) None = rbind (validate_mom_ndim_and_mom_axes nd ax None) (fun p =>
       rbind (mapR (py_get dims) (snd p)) (fun ds => Ok (XP (Some (fst p)) (Some ds))))).
    { assert (W : x_factory true MPNone nd None ax (ODataArray dims) None = rbind (validate_dims_ndim_axes None nd (ODataArray dims) ax) (fun p => Ok (XP (Some (snd p)) (Some (fst p))))) by (destruct nd, ax; try discriminate; reflexivity).
      rewrite W. unfold validate_dims_ndim_axes. destruct (validate_mom_ndim_and_mom_axes nd ax None) as [[n l]|]; [|reflexivity]. cbn [rbind fst snd validate_mom_dims]. destruct (mapR (py_get dims) l); reflexivity. }
    rewrite F. clear F C. destruct (validate_mom_ndim_and_mom_axes nd ax None) as [[n l]|e] eqn:V; cbn [rbind fst snd].
    2: { split; [intros (p & X & _); discriminate|]. intros (n & M & a & [(-> & -> & _)|(_ & l & X & _)] & _); [destruct H0; congruence|congruence]. }
    pose proof (ndim_axes_nat _ _ _ _ V) as Hn.
    assert (Pos : forall ds, mapR (py_get dims) l = Ok ds <-> exists M, Forall2 (is_axis (List.length shape)) l M /\ Forall2 (fun a d => nth_error dims a = Some d) M ds).
    { intros ds. rewrite py_get_list, L. clear. split.
      - intros F. induction F as [|z d l ds (a & A & D) F (M & IH1 & IH2)]; [exists []; split; constructor|]. exists (a :: M). split; constructor; auto.
      - intros (M & F & G). revert ds G. induction F as [|z a l M A F IH]; intros ds G; inversion G; subst; constructor; eauto. }
    assert (Mem : forall M ds a d, Forall2 (fun a d => nth_error dims a = Some d) M ds -> nth_error dims a = Some d -> (In d ds <-> In a M)).
    { intros M ds a d G Hd. clear -G Hd N. induction G as [|b e M ds Hb G IH]; [tauto|]. cbn. rewrite IH. split; intros [X|X]; auto; left.
      - subst e. apply (proj1 (NoDup_nth_error dims) N); [apply nth_error_Some; congruence|congruence].
      - congruence. }
    split.
    + intros (p & E & G). apply rbind_ok in E. destruct E as (ds & E & X). inversion X; subst p. clear X. apply Pos in E. destruct E as (M & E1 & E2).
      apply rbind_ok in G. destruct G as ([a d] & G & S). apply select_axis_dim_exact in G; [|exact N].
      destruct G as (Hd & [X|Hm] & [(x' & X' & _ & Nm)|[X' _]]); try discriminate. inversion X'; subst x'. cbn [snd] in S. apply (Sz a d Hd) in S. cbn [counted xp_ndim] in Nm. rewrite <- L in Nm.
      exists (Z.to_nat n), M, a. split; [right; split; [exact H0|]; exists l; rewrite Z2Nat.id by exact Hn; auto|]. split; [exact Nm|]. split; [|exact S].
      intros Ha. apply Hm. unfold is_moment. cbn. now apply (Mem M ds a d).
    + intros (n' & M & a & [(-> & -> & _)|(_ & l' & X & Y)] & Nm & Hm & E); [destruct H0; congruence|]. rewrite V in X. inversion X; subst. clear X.
      assert (Hds : exists ds, Forall2 (fun a d => nth_error dims a = Some d) M ds).
      { clear -Y L. induction Y as [|z b l' M A Y (ds & IH)]; [exists []; constructor|]. destruct (nth_error dims b) as [d|] eqn:Hd; [exists (d :: ds); constructor; auto|].
        apply nth_error_None in Hd. destruct A as [A _]. lia. }
      destruct Hds as (ds & Hds). exists (XP (Some (Z.of_nat n')) (Some ds)). split; [apply rbind_ok; exists ds; split; [apply Pos; eauto|reflexivity]|].
      assert (La : (a < List.length dims)%nat) by (rewrite <- L; apply nth_error_Some; congruence). destruct (nth_error dims a) as [d|] eqn:Hd; [|apply nth_error_None in Hd; lia].
      apply rbind_ok. exists (a, d). split; [|now apply (Sz a d Hd)]. apply select_axis_dim_exact; [exact N|]. split; [exact Hd|]. split.
      * right. unfold is_moment. cbn. intros X. apply Hm. now apply (Mem M ds a d).
      * left. exists x. cbn. rewrite Nat2Z.id, <- L. auto.
Qed.
(* Hence arrays and labelled data agree; by name as by axis. *)
Theorem select_ndat_agrees : forall dims shape x nd ax k, NoDup dims -> List.length shape = List.length dims ->
  select_ndat_array shape (Val x) MPNone nd ax = Ok k -> select_ndat_dataarray dims shape (Val x) Missing MPNone nd ax None = Ok k.
Proof.
  intros dims shape x nd ax k N L E. apply select_ndat_array_exact in E. apply select_ndat_labelled_exact; auto. destruct E as (n & M & a & A & _ & B & C & D). exists n, M, a. auto.
Qed.
Theorem select_ndat_agrees_back : forall dims shape x nd ax k, NoDup dims -> List.length shape = List.length dims ->
  (forall n M, moment_positions nd ax (List.length shape) n M -> NoDup M) ->
  select_ndat_dataarray dims shape (Val x) Missing MPNone nd ax None = Ok k -> select_ndat_array shape (Val x) MPNone nd ax = Ok k.
Proof.
  intros dims shape x nd ax k N L H E. apply select_ndat_labelled_exact in E; auto. apply select_ndat_array_exact. destruct E as (n & M & a & A & B & C & D). exists n, M, a. eauto 10.
Qed.
Theorem select_ndat_repeated_axes_refuted : exists dims shape k, NoDup dims /\ List.length shape = List.length dims /\
  select_ndat_dataarray dims shape (Val (AInt 0)) Missing MPNone None (Some (IIter [1; 1]%Z)) None = Ok k /\
  select_ndat_array shape (Val (AInt 0)) MPNone None (Some (IIter [1; 1]%Z)) = Raise EValue.
Proof.
  exists ["x"; "m"]%string, [7; 3]%nat, 7%nat. split; [|repeat split]. constructor; [intros [X|[]]; discriminate|]. constructor; [intros []|constructor].
Qed.
Theorem select_ndat_by_name : forall dims shape x d m nd ax md p a, NoDup dims -> 
  x_factory true m nd md ax (ODataArray dims) None = Ok p ->
  select_axis_dim p (XArr dims) (Val x) Missing Missing Missing false = Ok (a, d) ->
  select_ndat_dataarray dims shape Missing (Val d) m nd ax md = select_ndat_dataarray dims shape (Val x) Missing m nd ax md.
Proof.
  intros dims shape x d m nd ax md p a N F E. unfold select_ndat_dataarray. rewrite F. cbn [rbind]. rewrite E. rewrite (select_by_axis_or_name _ _ _ _ _ _ N E). reflexivity.
Qed.

(* ---- examples --------------------------------------------------------------------------------- *)

Example random_indices_ex : good_choice wchoice /\ usable (SSeed 3) (RState [] None) /\
  snd (random_indices wchoice 2 5 (Some 2%Z) (SSeed 3) false (RState [] None)) = Ok (Tab 2 [[0; 1]; [2; 3]]%Z).
Proof. split; [exact wchoice_good|]. split; [|reflexivity]. do 3 eexists. split; reflexivity. Qed.
Example random_freq_ex : snd (random_freq wchoice 2 5 (Some 2%Z) (SSeed 3) false (RState [] None)) = Ok (Tab 5 [[1; 1; 0; 0; 0]; [0; 0; 1; 1; 0]]%Z).
Proof. reflexivity. Qed.
Definition reversed (d : source * nat) (n : nat) : list nat := rev (seq 0 n).
Example reads_ex : let s := Sampler None (Some (One (Tab 3 [[2; 0; 1]; [0; 3; 0]]%Z))) None true (SSeed 0) false in
  good_shuffle reversed /\ good_freq (Tab 3 [[2; 0; 1]; [0; 3; 0]]%Z) /\
  snd (reads 0%Z reversed [ANdat; AIndices; AFreq; AIndices; ANrep] s (RState [] None)) =
  [Ok (VNat 3); Ok (VTables (One (Tab 3 [[2; 0; 0]; [1; 1; 1]]%Z))); Ok (VTables (One (Tab 3 [[2; 0; 1]; [0; 3; 0]]%Z)));
   Ok (VTables (One (Tab 3 [[2; 0; 0]; [1; 1; 1]]%Z))); Ok (VNat 2)].
Proof.
  split; [intros d n; apply Permutation_sym, Permutation_rev|]. split; [|reflexivity]. split; [discriminate|]. exists 3%Z. repeat constructor; cbn; lia.
Qed.
Example agree_indices_ex : good_indices 4 (Tab 2 [[3; 0]; [1; 1]]%Z) /\
  snd (reads 0%Z reversed [AIndices; AFreq] (Sampler (Some (One (Tab 2 [[3; 0]; [1; 1]]%Z))) None (Some 4%nat) false SNone false) (RState [] None)) =
  [Ok (VTables (One (Tab 2 [[3; 0]; [1; 1]]%Z))); Ok (VTables (One (Tab 4 [[1; 0; 0; 1]; [0; 2; 0; 0]]%Z)))].
Proof. split; [|reflexivity]. split; [discriminate|]. repeat constructor; unfold in_range; cbn; lia. Qed.
Example unpaired_ex : snd (randsamp_labelled (fun d _ _ _ _ => [[Z.of_nat (snd d)]]) (KDataset [true; false; true]) 1 1 None false (SSeed 5) (RState [] None)) =
  Ok (Many [Tab 1 [[0]]%Z; Tab 1 [[1]]%Z]).
Proof. reflexivity. Qed.
Example select_ndat_ex : select_ndat_array [2; 3; 4]%nat (Val (AComplex (-1))) MPNone (Some 2%Z) None = Ok 2%nat /\
  select_ndat_dataarray ["x"; "y"; "mom"]%string [2; 3; 4]%nat (Val (AInt 2)) Missing MPNone (Some 1%Z) None None = Raise EValue /\
  moment_positions (Some 2%Z) None 3 2 [1; 2]%nat.
Proof.
  split; [reflexivity|]. split; [reflexivity|]. right. split; [left; discriminate|]. exists [-2; -1]%Z. split; [reflexivity|]. repeat constructor; unfold is_axis; lia.
Qed.
