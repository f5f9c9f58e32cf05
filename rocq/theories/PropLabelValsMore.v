(* Functions of labelled arrays of values: decay factors, arguments that do not fit. *)
From Coq Require Import String Permutation.
From Verif Require Import Base BaseLemmas ModelPush ModelKernels ModelIndex ModelAxes ModelSelect ModelParams ModelWrap ModelNd ModelLabel Spec SpecAxes SpecNd SpecLabel SpecLabelTwo SpecLabelVals
  Laws ProofSpec ProofAxes ProofArrays ProofIndex ProofMulti ProofNd PropAxes PropParams PropWrap PropLabelled PropNd ProofNdVals PropNdVals ProofLabel ProofLabelMany ProofLabelReduce PropLabel PropLabelReduce PropLabelTwo PropLabelJack PropLabelExp ProofLabelVals PropLabelVals.
Local Open Scope string_scope.
Local Open Scope nat_scope.

(* decay factors alpha whose names x, the weights and y have *)
Theorem rolling_exp_vals_named : forall {A V} (K : pusher A V) ok P R, values_array K ok P R ->
  forall alpha adjust min_periods zero axis dim d md sz to_end x w y, chooses 0 axis dim d x ->
  S (List.length y) = List.length (pk_shape P) -> operands_given P d md sz x (w :: alpha :: y) ->
  incl (all_names (Labelled x :: w :: alpha :: y)) (all_names (Labelled x :: w :: y)) ->
  let ops := Labelled x :: w :: alpha :: y in let outer := other_names d ops in let r := from_last d x in
  by_name None (row_entry P zero)
    (fun env => of_opt EZeroDiv (rolling_exp_vals K adjust (match min_periods with None => 1%Z | Some k => Z.max 1 k end)
       (combine (map (value_at d outer r alpha env) (seq 0 (sz d))) (samples_named R d outer r (sz d) (Labelled x) w y env))))
    (values_dims to_end d d md x ops) sz d md (x_rolling_exp_vals K P R (params_for md) alpha adjust min_periods zero axis dim to_end x w y).
Proof.
  intros A V K ok P R HA alpha adjust mp zero axis dim d md sz to_end x w y HC Hy HO Hn ops outer r.
  destruct (start_operands P axis dim d md sz x (w :: alpha :: y) HC HO (S (S (mom_ndim P)))) as (others' & tx & ts & E1 & E2 & E3 & E4 & F); [cbn; unfold mom_ndim; now rewrite <- Hy|].
  pose proof HO as (Hg & Nmd & Hmd & Pm). cbv zeta in Hg, Hmd. fold ops outer r in Hg, Hmd, F, E3, E4. destruct (vg_x P d md sz x (w :: alpha :: y) HO) as (Hx & Hd & _).
  destruct (vg_len d sz x (w :: alpha :: y)) as [L1 L2]. fold ops outer in L1, L2. set (s := map sz (outer ++ [d])) in *.
  pose proof (ops_agree x (w :: alpha :: y) d sz r tx ts F) as [G1 G2]. pose proof (ops_shape x (w :: alpha :: y) d sz r Hg tx ts F) as G3. fold ops outer s in G3.
  destruct (Forall2_uncons _ _ _ _ F) as (tx0 & ts1 & Q0 & Fx & F1). injection Q0 as <- <-. destruct (Forall2_uncons _ _ _ _ F1) as (tw & ts2 & -> & Fw & F2). destruct (Forall2_uncons _ _ _ _ F2) as (ta & ty & -> & Fa & Fy).
  assert (F' : Forall2 (fits_value d outer sz r) (Labelled x :: w :: y) (tx :: tw :: ty)) by (constructor; [exact Fx|]; now constructor).
  assert (Ly : List.length ty = List.length y) by (symmetry; exact (Forall2_len _ _ _ Fy)).
  assert (VO : values_ok P (AInt (-1)) 0 tx tw ty s).
  { split; [rewrite Ly; exact Hy|]. split; [exact (proj1 (ops_agree_of x (w :: alpha :: y) d sz r (w :: y) tx (tw :: ty) F'))|].
    apply (ops_shape_of x (w :: alpha :: y) d sz r Hg (w :: y) tx (tw :: ty)); [|intros n Q|exact F'].
    - intros o [<-|Q]; [now left|now right; right].
    - apply Hn. apply (outer_In x (w :: alpha :: y) d sz r Hg). apply in_or_app. now left. }
  unfold x_rolling_exp_vals. rewrite E1. cbn [rbind]. rewrite params_core, params_dims. cbn [rbind app].
  destruct (@values_alone A (option A) (option Qc) P x (w :: alpha :: y) d md sz r others' tx (tw :: ta :: ty) Hg Nmd Hmd Pm E2 E3 E4) as [Q1 _].
  apply (values_kept x (w :: alpha :: y) d md Hx Hd Nmd Hmd).
  pose proof (rolling_exp_vals_array K ok P R HA ta adjust mp zero (AInt (-1)) false 0 tx tw ty s VO G1 G3) as J. unfold by_values in J. rewrite L1, L2, G2 in J.
  eapply Q1; [exact J|]. intros e env He Hi. cbv beta.
  assert (Rs : samples_in R tx tw ty 0 s e = samples_named R d outer r (sz d) (Labelled x) w y env) by exact (read_samples d sz x (w :: alpha :: y) R w y tx tw ty e env F' He Hi).
  do 2 f_equal. f_equal; [|exact Rs]. apply map_ext_in. intros i Q. apply in_seq in Q. rewrite <- L2.
  exact (read_operand d sz x (w :: alpha :: y) alpha ta e env i Fa He Hi ltac:(lia)).
Qed.

(* ---- arguments that do not fit ----------------------------------------------------- *)

Definition operand_ok (o : xop) : Prop := match o with Labelled z => x_ok z | Plain t => tensor_ok t end.
(* operands along d that do not fit: a labelled array without d; two labelled arrays
   that disagree in the size of a name; a name of the moments that an operand has; a
   plain array whose samples do not match *)
Definition operands_misfit (d : sname) (md : list sname) (x : xarr) (others : list xop) : Prop :=
  let ops := Labelled x :: others in
  (exists z, In (Labelled z) ops /\ ~ In d (x_dims z)) \/
  (exists z z' n, In (Labelled z) ops /\ In (Labelled z') ops /\ In n (x_dims z) /\ In n (x_dims z') /\ dim_size z n <> dim_size z' n) \/
  (exists n, In n md /\ n <> d /\ In n (all_names ops)) \/
  (exists t, In (Plain t) others /\ ~ fits_samples (dim_size x d) (from_last d x) t).

Lemma select_err ks s e : select ks s = Raise e -> e = EValue \/ e = EIndex.
Proof.
  revert s e. induction ks as [|k ks IH]; intros s e H; [destruct s; [discriminate|]; injection H as <-; now right|]. destruct k; cbn [select] in H.
  - destruct s as [|n s]; [injection H as <-; now right|]. unfold index_int in H. destruct (_ || _)%bool; [injection H as <-; now right|]. cbn [rbind] in H.
    destruct (select ks s) eqn:E; [discriminate|]. injection H as <-. eauto.
  - destruct s as [|n s]; [injection H as <-; now right|]. unfold slice_list in H. destruct (_ =? 0)%Z; [injection H as <-; now left|]. cbn [rbind] in H.
    destruct (select ks s) eqn:E; [discriminate|]. injection H as <-. eauto.
  - destruct (select ks s) eqn:E; [discriminate|]. injection H as <-. eauto.
  - injection H as <-. now right.
Qed.
Lemma getitem_err ks t e : np_getitem ks t = Raise e -> e = EValue \/ e = EIndex.
Proof.
  unfold np_getitem, expand_keys. destruct (_ <? _)%nat; [intros H; injection H as <-; now right|]. destruct (_ <? _)%nat; [intros H; injection H as <-; now right|]. cbn [rbind].
  destruct (select _ _) eqn:E; cbn [rbind]; [discriminate|]. intros H. injection H as <-. now apply select_err in E.
Qed.
Lemma broadcast_err bdims core x e : broadcast_compat bdims core x = Raise e -> e = EValue \/ e = EIndex.
Proof.
  unfold broadcast_compat. destruct (list_eq_dec _ _ _); [discriminate|]. destruct (existsb _ _); [intros H; injection H as <-; now left|].
  destruct (mapR _ _) as [order|e'] eqn:E; cbn [rbind].
  - destruct (sdup _); [intros H; injection H as <-; now left|]. destruct (list_eq_dec _ _ _); [discriminate|]. apply getitem_err.
  - intros H. injection H as <-. apply mapR_raise in E. destruct E as (m & _ & E). unfold get_axis_num in E. destruct (smem _ _); [discriminate|]. injection E as <-. now left.
Qed.
Lemma argument_error_bind {X T} (r : res X) (f : X -> res T) : argument_error r -> argument_error (rbind r f).
Proof. intros [-> | ->]; [now left|now right]. Qed.

(* a labelled argument that cannot be brought to its core dimensions *)
Lemma apply_ufunc_misfit {T} (args : list (xop * list sname)) out_core excl (f : list tensor -> res (grid T)) z c n :
  In (Labelled z, c) args -> In n c /\ ~ In n (x_dims z) \/ In n (x_dims z) /\ ~ In n c /\ In n (flat_map snd args ++ out_core) ->
  argument_error (apply_ufunc args out_core excl f).
Proof.
  intros Ha H. unfold apply_ufunc. destruct (unified_dim_sizes _ _) as [sz|e] eqn:Eu; cbn [rbind]; [|left; now rewrite (unified_err _ _ _ Eu)].
  cbv zeta. set (bd := filter _ (map fst sz)).
  match goal with |- argument_error (rbind ?m _) => destruct m as [ts|e] eqn:Em end.
  - exfalso. apply mapR_Forall2 in Em. destruct (Forall2_left _ _ _ _ Em Ha) as (t & _ & E). cbn [fst snd] in E. destruct H as [[H1 H2]|(H1 & H2 & H3)].
    + rewrite (broadcast_missing bd c z n H1 H2) in E. discriminate.
    + rewrite (broadcast_extra bd c z n H1) in E; [discriminate| |exact H2]. unfold bd. rewrite filter_In. intros [_ Q]. apply Bool.negb_true_iff, smem_false in Q. contradiction.
  - cbn [rbind]. apply mapR_raise in Em. destruct Em as ([o co] & _ & E). cbn [fst snd] in E. destruct o as [z'|t]; [|discriminate]. destruct (broadcast_err _ _ _ _ E) as [-> | ->]; [now left|now right].
Qed.

Lemma fits_samples_dec n r t : fits_samples n r t \/ ~ fits_samples n r t.
Proof. unfold fits_samples. destruct (Nat.eq_dec (tndim t) 0); [left; tauto|]. destruct (Nat.eq_dec (tndim t) 1), (Nat.eq_dec (dim_from_end t 0) n), (Nat.eq_dec (dim_from_end t r) n), (le_lt_dec 2 (tndim t)), (lt_dec r (tndim t)); try (left; tauto); right; lia. Qed.
Lemma xprepare_cases n axis dim d x others : chooses 0 axis dim d x -> x_ok x -> Forall operand_ok others ->
  argument_error (xprepare_values n axis dim x others) \/
  exists others', xprepare_values n axis dim x others = Ok (d, others') /\ S (List.length others) = n /\
    (forall z, In (Labelled z) others -> In (Labelled z) others') /\ forall t, In (Plain t) others -> fits_samples (dim_size x d) (from_last d x) t.
Proof.
  intros HC Hx HT. destruct (Nat.eq_dec (S (List.length others)) n) as [E|E].
  2: { left. unfold xprepare_values. destruct (Nat.eqb_spec (S (List.length others)) n); [contradiction|now left]. }
  set (f := fun o : xop => match o with Labelled _ => Ok o | Plain t => rmap Plain (prepare_secondary (-1 - Z.of_nat (from_last d x)) (dim_size x d) true t) end).
  rewrite Forall_forall in HT. destruct (mapR f others) as [others'|e] eqn:Em.
  - right. exists others'. split; [now apply xprepare_eq|]. split; [exact E|]. apply mapR_Forall2 in Em. split.
    + intros z Hz. destruct (Forall2_left _ _ _ _ Em Hz) as (o & Ho & Q). cbn [f] in Q. injection Q as <-. exact Ho.
    + intros t Ht. destruct (fits_samples_dec (dim_size x d) (from_last d x) t) as [|N]; [assumption|]. exfalso. destruct (Forall2_left _ _ _ _ Em Ht) as (o & _ & Q). cbn [f] in Q.
      destruct (secondary_misfit (from_last d x) (dim_size x d) true t (HT _ Ht) N) as [X|X]; rewrite X in Q; discriminate.
  - left. assert (A : e = EValue \/ e = EIndex).
    { apply mapR_raise in Em. destruct Em as (o & Ho & Q). destruct o as [z|t]; cbn [f] in Q; [discriminate|]. unfold rmap in Q.
      destruct (prepare_secondary _ _ _ _) eqn:X; [discriminate|]. injection Q as <-. exact (secondary_err _ _ _ _ _ (HT _ Ho) X). }
    assert (G : xprepare_values n axis dim x others = Raise e).
    { unfold xprepare_values. rewrite E, Nat.eqb_refl. cbn [negb]. pose proof (chooses_dim _ _ _ _ _ HC) as Hd. pose proof (proj1 (proj2 Hx)) as N.
      assert (Se : select_axis_dim default_x_params (XArr (x_dims x)) axis dim Missing Missing false = Ok (position String.eqb d (x_dims x), d)).
      { apply select_axis_dim_exact; [exact N|]. destruct (pos_lt _ _ Hd) as [P1 P2]. split; [rewrite <- P2 at 2; now apply nth_error_nth'|]. split; [right; intros []|].
        destruct HC as [(H1 & H2 & _)|(H1 & ax & a & H2 & H3 & H4)]; [right; auto|]. left. exists ax. split; [exact H2|]. split; [exact H1|]. rewrite (position_nth _ a d N H4). exact H3. }
      rewrite Se. cbn [rbind]. rewrite (sizes_named x d) by assumption. cbn [rbind].
      assert (Pn : positive_to_negative_index (Z.of_nat (position String.eqb d (x_dims x))) (Z.of_nat (List.length (x_dims x))) = (-1 - Z.of_nat (from_last d x))%Z).
      { destruct (pos_lt _ _ Hd) as [P1 _]. unfold positive_to_negative_index, from_last. destruct (Z.ltb_spec (Z.of_nat (position String.eqb d (x_dims x))) 0); lia. }
      rewrite Pn. fold f. rewrite Em. reflexivity. }
    rewrite G. destruct A as [-> | ->]; [now left|now right].
Qed.

Lemma values_ufunc_misfit {T} d md x others others' more ocore (f : list tensor -> res (grid T)) :
  x_ok x -> Forall operand_ok others -> (forall z, In (Labelled z) others -> In (Labelled z) others') -> (forall t, In (Plain t) others -> fits_samples (dim_size x d) (from_last d x) t) ->
  operands_misfit d md x others -> incl md ocore -> argument_error (apply_ufunc (values_args d x others' ++ more) ocore [] f).
Proof.
  intros Hx HT HL HP HM Hi. rewrite Forall_forall in HT.
  assert (Ia : forall z, In (Labelled z) (Labelled x :: others) -> In (Labelled z, [d]) (values_args d x others' ++ more)).
  { intros z Hz. apply in_or_app. left. unfold values_args. apply in_map_iff. exists (Labelled z). split; [reflexivity|]. destruct Hz as [Q|Q]; [now left|right; now apply HL]. }
  destruct HM as [(z & Hz & Nd)|[(z & z' & n & H1 & H2 & H3 & H4 & H5)|[(n & H1 & H2 & H3)|(t & Ht & N)]]].
  - apply (apply_ufunc_misfit _ _ _ _ z [d] d); [now apply Ia|]. left. split; [now left|exact Nd].
  - left. assert (K : forall u, In (Labelled u) (Labelled x :: others) -> x_ok u /\ In u (labelled_of (map fst (values_args d x others' ++ more)))).
    { intros u Hu. split; [destruct Hu as [Q|Q]; [injection Q as <-; exact Hx|exact (HT _ Q)]|]. apply labelled_of_In. apply in_map_iff. exists (Labelled u, [d]). split; [reflexivity|now apply Ia]. }
    destruct (K z H1), (K z' H2). apply (apply_ufunc_conflict _ _ _ _ z z' n); auto.
  - apply all_names_In in H3. destruct H3 as (z & Hz & Hn). apply (apply_ufunc_misfit _ _ _ _ z [d] n); [now apply Ia|]. right. split; [exact Hn|]. split; [intros [Q|[]]; congruence|]. apply in_or_app. right. now apply Hi.
  - elim N. now apply HP.
Qed.

Theorem values_named_checked : forall {A V} (K : pusher A V) (P : packer A) (R : reader V) axis dim d md to_end x w y, chooses 0 axis dim d x -> x_ok x -> Forall operand_ok (w :: y) ->
  S (List.length y) <> List.length (pk_shape P) \/ operands_misfit d md x (w :: y) ->
  argument_error (x_reduce_vals K P R (params_for md) axis dim x w y) /\
  (forall freq rep, argument_error (x_resample_vals K P R (params_for md) freq rep axis dim to_end x w y)) /\
  (forall red rep, argument_error (x_jackknife_vals K P R (params_for md) red rep axis dim to_end x w y)) /\
  (forall window mp center zero, argument_error (x_rolling_vals K P R (params_for md) window mp center zero axis dim to_end x w y)).
Proof.
  intros A V K P R axis dim d md to_end x w y HC Hx HT HM.
  destruct (xprepare_cases (S (mom_ndim P)) axis dim d x (w :: y) HC Hx HT) as [E|(others' & E & Hn & HL & HP)].
  - split; [|split; [|split]]; intros; [unfold x_reduce_vals|unfold x_resample_vals|unfold x_jackknife_vals|unfold x_rolling_vals]; [now apply argument_error_bind| | |now apply argument_error_bind].
    + now apply argument_error_bind.
    + destruct red as [r|]; cbn [rbind]; [now apply argument_error_bind|]. apply argument_error_bind. unfold rmap. assert (Q : argument_error (x_reduce_vals K P R (params_for md) axis dim x w y)) by (unfold x_reduce_vals; now apply argument_error_bind).
      destruct Q as [-> | ->]; [now left|now right].
  - destruct HM as [Q|HM]; [exfalso; cbn in Hn; unfold mom_ndim in Hn; lia|].
    assert (U : forall T more ocore (f : list tensor -> res (grid T)), incl md ocore -> argument_error (apply_ufunc (values_args d x others' ++ more) ocore [] f)).
    { intros T more ocore f. now apply (values_ufunc_misfit d md x (w :: y)). }
    assert (U0 : forall T ocore (f : list tensor -> res (grid T)), incl md ocore -> argument_error (apply_ufunc (values_args d x others') ocore [] f)).
    { intros T ocore f Hi. pose proof (U T [] ocore f Hi) as Q. now rewrite app_nil_r in Q. }
    assert (Ru : argument_error (x_reduce_vals K P R (params_for md) axis dim x w y)).
    { unfold x_reduce_vals. rewrite E. cbn [rbind]. rewrite params_dims. cbn [rbind]. apply U0. intros n Q. exact Q. }
    split; [exact Ru|]. split; [|split].
    + intros freq rep. unfold x_resample_vals. rewrite E. cbn [rbind]. rewrite params_core, params_dims. cbn [rbind]. apply argument_error_bind, U. intros n Q. now right.
    + intros red rep. unfold x_jackknife_vals. destruct red as [r|]; cbn [rbind].
      * rewrite E. cbn [rbind]. rewrite params_core, params_dims. cbn [rbind]. apply argument_error_bind, U. intros n Q. now right.
      * apply argument_error_bind. destruct Ru as [-> | ->]; [now left|now right].
    + intros window mp center zero. unfold x_rolling_vals. rewrite E. cbn [rbind]. rewrite params_core, params_dims. cbn [rbind]. apply argument_error_bind, U0. intros n Q. now right.
Qed.
Theorem rolling_exp_vals_named_checked : forall {A V} (K : pusher A V) (P : packer A) (R : reader V) axis dim d md to_end alpha adjust mp zero x w y, chooses 0 axis dim d x -> x_ok x ->
  Forall operand_ok (w :: alpha :: y) -> S (List.length y) <> List.length (pk_shape P) \/ operands_misfit d md x (w :: alpha :: y) ->
  argument_error (x_rolling_exp_vals K P R (params_for md) alpha adjust mp zero axis dim to_end x w y).
Proof.
  intros A V K P R axis dim d md to_end alpha adjust mp zero x w y HC Hx HT HM. unfold x_rolling_exp_vals.
  destruct (xprepare_cases (S (S (mom_ndim P))) axis dim d x (w :: alpha :: y) HC Hx HT) as [E|(others' & E & Hn & HL & HP)]; [now apply argument_error_bind|].
  destruct HM as [Q|HM]; [exfalso; cbn in Hn; unfold mom_ndim in Hn; lia|]. rewrite E. cbn [rbind]. rewrite params_core, params_dims. cbn [rbind]. apply argument_error_bind.
  rewrite <- (app_nil_r (values_args d x others')). apply (values_ufunc_misfit d md x (w :: alpha :: y)); auto. intros n Q. now right.
Qed.
(* replicates under a name that an operand has already *)
Theorem resample_vals_taken : forall {A V} (K : pusher A V) (P : packer A) (R : reader V) freq rep axis dim d md to_end x w y, chooses 0 axis dim d x -> x_ok x ->
  Forall operand_ok (w :: y) -> rep <> d -> In rep (all_names (Labelled x :: w :: y)) ->
  argument_error (x_resample_vals K P R (params_for md) freq rep axis dim to_end x w y).
Proof.
  intros A V K P R freq rep axis dim d md to_end x w y HC Hx HT Nr Hr. unfold x_resample_vals.
  destruct (xprepare_cases (S (mom_ndim P)) axis dim d x (w :: y) HC Hx HT) as [E|(others' & E & Hn & HL & HP)]; [now apply argument_error_bind|].
  rewrite E. cbn [rbind]. rewrite params_core, params_dims. cbn [rbind]. apply argument_error_bind.
  apply (values_ufunc_misfit d [rep] x (w :: y)); auto; [right; right; left; exists rep; split; [now left|auto]|]. intros n [<-|[]]. now left.
Qed.
(* no axis or dimension that x has *)
Theorem values_named_unchosen : forall {A V} (K : pusher A V) (P : packer A) (R : reader V) p axis dim to_end x w y, NoDup (x_dims x) -> axis <> PyNone -> dim <> PyNone ->
  (forall d, ~ chooses 0 axis dim d x) ->
  x_reduce_vals K P R p axis dim x w y = Raise EValue /\
  (forall freq rep, x_resample_vals K P R p freq rep axis dim to_end x w y = Raise EValue) /\
  (forall red rep, x_jackknife_vals K P R p red rep axis dim to_end x w y = Raise EValue) /\
  (forall window mp center zero, x_rolling_vals K P R p window mp center zero axis dim to_end x w y = Raise EValue) /\
  (forall alpha adjust mp zero, x_rolling_exp_vals K P R p alpha adjust mp zero axis dim to_end x w y = Raise EValue).
Proof.
  intros A V K P R p axis dim to_end x w y N Na Nd H.
  assert (E : forall k others, xprepare_values k axis dim x others = Raise EValue).
  { intros k others. unfold xprepare_values. destruct (negb _); [reflexivity|]. destruct (select_axis_dim_raises default_x_params (x_dims x) axis dim false) as [((a, d) & E)|E].
    - exfalso. apply select_axis_dim_exact in E; [|exact N]. destruct E as (E1 & _ & E2). apply (H d). destruct E2 as [(ax & Q1 & Q2 & Q3)|[Q1 Q2]].
      + right. split; [exact Q2|]. exists ax, a. split; [exact Q1|]. split; [exact Q3|exact E1].
      + left. split; [exact Q1|]. split; [exact Q2|]. eapply nth_error_In; eauto.
    - rewrite E. destruct axis, dim; try congruence; reflexivity. }
  assert (Ru : x_reduce_vals K P R p axis dim x w y = Raise EValue) by (unfold x_reduce_vals; now rewrite E).
  split; [exact Ru|]. split; [|split; [|split]]; intros.
  - unfold x_resample_vals. now rewrite E.
  - unfold x_jackknife_vals. destruct red; cbn [rbind]; [now rewrite E|]. now rewrite Ru.
  - unfold x_rolling_vals. now rewrite E.
  - unfold x_rolling_exp_vals. now rewrite E.
Qed.
