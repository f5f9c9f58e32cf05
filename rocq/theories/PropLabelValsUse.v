(* Relations between results of functions of labelled arrays of values: the order
   of the dimensions of the arguments does not matter. *)
From Coq Require Import String Permutation.
From Verif Require Import Base BaseLemmas Checks ModelPush ModelKernels ModelIndex ModelAxes ModelSelect ModelParams ModelWrap ModelNd ModelLabel Spec SpecAxes SpecNd SpecLabel SpecLabelTwo SpecLabelVals
  Laws ProofSpec ProofAxes ProofArrays ProofIndex ProofMulti ProofNd PropAxes PropParams PropWrap PropLabelled PropNd PropNdUse ProofNdVals PropNdVals ProofLabel ProofLabelMany ProofLabelReduce
  PropLabel PropLabelReduce PropLabelTwo PropLabelJack PropLabelExp PropLabelUse ProofLabelVals PropLabelVals PropLabelValsMore.
Local Open Scope string_scope.
Local Open Scope nat_scope.

(* the same array by name, or the same number *)
Definition same_operand (o o' : xop) : Prop :=
  match o, o' with
  | Labelled z, Labelled z' => x_ok z' /\ x_same z z'
  | Plain t, Plain t' => tndim t = 0 /\ t = t'
  | _, _ => False
  end.

Section Same.
  Context {A : Type} (P : packer A) (HP : packer_ok P).
  Variables (d : sname) (md : list sname) (sz : sname -> nat) (x x' : xarr) (others others' : list xop).
  Hypothesis HG : operands_given P d md sz x others.
  Hypothesis Hx' : x_ok x'.
  Hypothesis HS : x_same x x'.
  Hypothesis HO : Forall2 same_operand others others'.
  Let ops := Labelled x :: others.
  Let ops' := Labelled x' :: others'.
  Let outer := other_names d ops.
  Let outer' := other_names d ops'.
  Let r := from_last d x.
  Let r' := from_last d x'.

  Lemma same_all : Forall2 same_operand ops ops'.
  Proof. constructor; [split; [exact Hx'|exact HS]|exact HO]. Qed.
  Lemma same_names n : In n (all_names ops) <-> In n (all_names ops').
  Proof.
    pose proof same_all as F. rewrite !all_names_In. split; intros (z & Hz & Hn).
    - destruct (Forall2_left _ _ _ _ F Hz) as (o & Ho & Q). destruct o as [z'|]; [|destruct Q]. exists z'. split; [exact Ho|]. now apply Q.
    - destruct (Forall2_right _ _ _ _ F Hz) as (o & Ho & Q). destruct o as [z'|]; [|destruct Q]. exists z'. split; [exact Ho|]. now apply Q.
  Qed.
  Lemma same_given : operands_given P d md sz x' others'.
  Proof.
    destruct HG as (H1 & H2 & H3 & H4). split; [|split; [exact H2|split; [|exact H4]]].
    - intros o' Ho'. destruct (Forall2_right _ _ _ _ same_all Ho') as (o & Ho & Q). specialize (H1 o Ho). destruct o as [z|t], o' as [z'|t']; cbn [same_operand] in Q; try tauto.
      + destruct Q as [Q1 (Q2 & Q3 & _)]. destruct H1 as (_ & G1 & G2). split; [exact Q1|]. split; [now apply Q2|]. intros n Hn. rewrite <- Q3 by now apply Q2. apply G2. now apply Q2.
      + destruct Q as [Q ->]. now left.
    - intros n Hn Q. apply (H3 n Hn). now apply same_names.
  Qed.
  Lemma same_outer n : In n outer <-> In n outer'.
  Proof. unfold outer, outer', other_names. rewrite !except_name_In, same_names. reflexivity. Qed.
  Lemma same_value o o' env i : In o ops -> same_operand o o' -> inside_names sz outer env -> i < sz d -> value_at d outer r o env i = value_at d outer' r' o' env i.
  Proof.
    intros Ho Q I Hi. destruct HG as (H1 & _). pose proof (operand_incl x others d sz r H1 o Ho) as Io. specialize (H1 o Ho). destruct o as [z|t], o' as [z'|t']; cbn [same_operand value_given value_at] in *; try tauto.
    - destruct Q as [Q1 (Q2 & Q3 & Q4)]. destruct H1 as (_ & G1 & G2). apply Q4. intros n Hn. rewrite G2 by exact Hn. destruct (string_dec n d) as [->|Nd]; [unfold name_bind; cbn; rewrite String.eqb_refl; exact Hi|].
      rewrite name_bind_out by (intros [Q'|[]]; congruence). apply I. destruct (in_app_or _ _ _ (Io n Hn)) as [Q'|[Q'|[]]]; [exact Q'|congruence].
    - destruct Q as [Q ->]. now rewrite Q.
  Qed.
  Lemma same_samples {V} (R : reader V) w y w' y' n env : incl (w :: y) others -> same_operand w w' -> Forall2 same_operand y y' -> n <= sz d -> inside_names sz outer env ->
    samples_named R d outer r n (Labelled x) w y env = samples_named R d outer' r' n (Labelled x') w' y' env.
  Proof.
    intros I Hw Hy Hn Hi. unfold samples_named. apply map_ext_in. intros i Q. apply in_seq in Q. f_equal; [|apply same_value; auto; [right; apply I; now left|lia]].
    f_equal. cbn [map]. f_equal; [apply same_value; auto; [now left|split; assumption|lia]|].
    assert (Iy : incl y ops) by (intros o Ho; right; apply I; now right). clear I. induction Hy as [|o o' l l' Hoo F IH]; [reflexivity|]. cbn [map]. f_equal; [apply same_value; auto; [apply Iy; now left|lia]|].
    apply IH. intros o1 H1. apply Iy. now right.
  Qed.
  Lemma md_positive n : In n md -> 0 < sz n.
  Proof.
    intros Hm. destruct (pos_lt md n Hm) as [P1 P2]. destruct HG as (_ & _ & _ & Pm). rewrite <- P2, <- nth_map_dims, Pm by exact P1. pose proof (valid_zeros _ (proj2 HP)) as V0.
    assert (L : position String.eqb n md < List.length (pk_shape P)) by (rewrite <- Pm, map_length; exact P1). pose proof (valid_nth _ _ V0 _ L). lia.
  Qed.
  Lemma any_values {B T} (dflt : T) (val : B -> list nat -> T) run run' to_end to_end' rd SZ g g' :
    rd = d \/ ~ In rd (all_names ops) -> ~ In rd md -> 0 < SZ rd -> (forall n, n <> rd -> SZ n = sz n) ->
    by_name dflt val run (values_dims to_end d rd md x ops) SZ rd md g -> by_name dflt val run' (values_dims to_end' d rd md x' ops') SZ rd md g' ->
    (forall env, inside_names sz outer env -> run env = run' env) -> (forall env env', (forall n, In n outer -> env n = env' n) -> run env = run env') ->
    results_agree dflt (values_dims to_end d rd md x ops) SZ g g'.
  Proof.
    intros Hr Nr Pos Hsz H H' R Rx. destruct (vg_x P d md sz x others HG) as (Hx & Hd & _). pose proof HG as (_ & Nmd & Hmd & _). cbv zeta in Hmd. fold ops in Hmd.
    destruct (vg_x P d md sz x' others' same_given) as (_ & Hd' & _).
    assert (Out : forall n, In n (except_name (values_dims to_end d rd md x ops) (rd :: md)) <-> In n outer).
    { intros n. pose proof (values_dims_In x others d md Hd to_end rd n) as VI. fold ops outer in VI. rewrite except_name_In, VI, in_app_iff. split; [intros [[Q|Q] Q']; tauto|]. intros Q. split; [now left|].
      pose proof (outer_names_In x others d n) as OI. fold ops outer in OI. apply OI in Q. intros [Q'|Q']; [destruct Hr; subst; tauto|]. now apply (Hmd n). }
    apply (by_name_agree dflt val run run' _ _ _ _ rd md g g' H H').
    - intros n. pose proof (values_dims_In x others d md Hd to_end rd n) as VI. pose proof (values_dims_In x' others' d md Hd' to_end' rd n) as VI'. fold ops outer in VI. fold ops' outer' in VI'. rewrite VI, VI', !in_app_iff, same_outer. reflexivity.
    - reflexivity.
    - intros env I. apply R. intros n Hn. pose proof (I n (proj2 (Out n) Hn)) as L. rewrite Hsz in L; [exact L|]. pose proof (outer_names_In x others d n) as OI. fold ops outer in OI. apply OI in Hn. intros ->. destruct Hr; subst; tauto.
    - intros env env' E. apply Rx. intros n Hn. apply E. now apply Out.
    - intros n _ [<-|Hm]; [exact Pos|]. rewrite Hsz by (intros ->; tauto). now apply md_positive.
  Qed.
End Same.

Section AnyOrderValues.
  Context {A V : Type} (K : pusher A V) (ok : A -> Prop) (P : packer A) (R : reader V) (HA : values_array K ok P R).
  Variables (axis axis' : marg axis_arg) (dim dim' : marg sname) (d : sname) (md : list sname) (sz : sname -> nat) (to_end to_end' : bool) (x x' : xarr) (w w' : xop) (y y' : list xop).
  Hypothesis HC : chooses 0 axis dim d x.
  Hypothesis HC' : chooses 0 axis' dim' d x'.
  Hypothesis HV : values_given P d md sz x w y.
  Hypothesis Hx' : x_ok x'.
  Hypothesis HS : x_same x x'.
  Hypothesis Hw : same_operand w w'.
  Hypothesis Hy : Forall2 same_operand y y'.
  Let ops := Labelled x :: w :: y.
  Let HO : Forall2 same_operand (w :: y) (w' :: y') := Forall2_cons _ _ Hw Hy.
  Let HP : packer_ok P := ma_packer _ _ _ (va_array _ _ _ _ HA).

  Lemma same_values_given : values_given P d md sz x' w' y'.
  Proof. destruct HV as [H1 H2]. split; [now rewrite <- (Forall2_len _ _ _ Hy)|]. exact (same_given P d md sz x x' (w :: y) (w' :: y') H2 Hx' HS HO). Qed.
  Lemma samples_same n env : n <= sz d -> inside_names sz (other_names d ops) env ->
    samples_named R d (other_names d ops) (from_last d x) n (Labelled x) w y env =
    samples_named R d (other_names d (Labelled x' :: w' :: y')) (from_last d x') n (Labelled x') w' y' env.
  Proof. intros Hn I. apply (same_samples P d md sz x x' (w :: y) (w' :: y') (proj2 HV) Hx' HS R w y w' y' n env (fun o H => H) Hw Hy Hn I). Qed.
  Lemma samples_ext n env env' : (forall n, In n (other_names d ops) -> env n = env' n) ->
    samples_named R d (other_names d ops) (from_last d x) n (Labelled x) w y env = samples_named R d (other_names d ops) (from_last d x) n (Labelled x) w y env'.
  Proof. apply (samples_named_ext P d md sz x (w :: y) (proj2 HV) R w y n env env' (fun o H => H)). Qed.
  Lemma d_free : ~ In d md.
  Proof. exact (vg_d P d md sz x (w :: y) (proj2 HV)). Qed.

  Theorem reduce_vals_any_order_s : results_agree 0%Qc (other_names d ops ++ md) sz (x_reduce_vals K P R (params_for md) axis dim x w y) (x_reduce_vals K P R (params_for md) axis' dim' x' w' y').
  Proof.
    pose proof (reduce_vals_named K ok P R HA axis dim d md sz x w y HC HV) as G. pose proof (reduce_vals_named K ok P R HA axis' dim' d md sz x' w' y' HC' same_values_given) as G'.
    unfold values_reduced in G, G'. cbv zeta in G, G'. fold ops in G. pose proof (same_outer d x x' (w :: y) (w' :: y') Hx' HS HO) as So. fold ops in So.
    pose proof (md_positive P HP d md sz x x' (w :: y) (proj2 HV)) as Pm.
    assert (D : forall env, inside_names sz (other_names d ops ++ md) env -> inside_names sz (other_names d ops) env) by (intros env I n Hn; apply I, in_or_app; now left).
    assert (Up : forall env, inside_names sz (other_names d ops) env -> exists env', inside_names sz (other_names d ops ++ md) env' /\ inside_names sz (other_names d (Labelled x' :: w' :: y') ++ md) env' /\
      (forall n, In n (other_names d ops) -> env' n = env n)).
    { intros env I. exists (fun n => if in_dec string_dec n (other_names d ops) then env n else 0). split; [|split].
      - intros n Hn. destruct (in_dec string_dec n (other_names d ops)); [now apply I|]. apply in_app_or in Hn. destruct Hn; [tauto|]. now apply Pm.
      - intros n Hn. destruct (in_dec string_dec n (other_names d ops)) as [|Q]; [now apply I|]. apply in_app_or in Hn. destruct Hn as [Hn|]; [apply So in Hn; tauto|]. now apply Pm.
      - intros n Hn. destruct (in_dec string_dec n (other_names d ops)); tauto. }
    destruct (x_reduce_vals K P R (params_for md) axis dim x w y) as [g|e], (x_reduce_vals K P R (params_for md) axis' dim' x' w' y') as [g'|e']; cbn [results_agree]; [| | |exact I].
    - intros env I. destruct G as (_ & _ & _ & G), G' as (_ & _ & _ & G'). destruct (G env I) as (a & E1 & E2). destruct (G' env) as (a' & F1 & F2); [intros n Hn; apply I; apply in_app_or in Hn; apply in_or_app; rewrite So; tauto|].
      rewrite <- samples_same in F1 by auto. congruence.
    - destruct G as (_ & _ & _ & G), G' as (_ & env & I & E). assert (I' : inside_names sz (other_names d ops) env) by (intros n Hn; apply I; now apply So). destruct (Up env I') as (env' & U1 & _ & U3). destruct (G env' U1) as (a & E1 & _).
      rewrite <- samples_same in E by auto. rewrite (samples_ext (sz d) env' env U3) in E1. congruence.
    - destruct G' as (_ & _ & _ & G'), G as (_ & env & I & E). destruct (Up env I) as (env' & U1 & U2 & U3). destruct (G' env' U2) as (a & E1 & _).
      rewrite <- samples_same in E1 by auto. rewrite (samples_ext (sz d) env' env U3) in E1. congruence.
  Qed.
  Theorem rolling_vals_any_order_s window min_periods (center : bool) zero : (0 <= window)%Z -> 0 < sz d ->
    results_agree None (values_dims to_end d d md x ops) sz (x_rolling_vals K P R (params_for md) window min_periods center zero axis dim to_end x w y)
      (x_rolling_vals K P R (params_for md) window min_periods center zero axis' dim' to_end' x' w' y').
  Proof.
    intros Hwin Pos. destruct (rolling_vals_named K ok P R HA window min_periods center zero axis dim d md sz to_end x w y HC HV Hwin) as [G Z].
    destruct (rolling_vals_named K ok P R HA window min_periods center zero axis' dim' d md sz to_end' x' w' y' HC' same_values_given Hwin) as [G' Z']. cbv zeta in G, Z, G', Z'.
    assert (D : (center = false \/ (0 < window)%Z) \/ (center = true /\ window = 0%Z)) by (destruct center; [|auto]; destruct (Z.eq_dec window 0); [auto|left; right; lia]).
    destruct D as [D|[D1 D2]]; [|rewrite Z, Z' by assumption; exact I].
    eapply (any_values P HP d md sz x x' (w :: y) (w' :: y') (proj2 HV) Hx' HS HO); [now left|exact d_free|exact Pos|reflexivity|exact (G D)|exact (G' D)| |].
    - intros env I. cbv beta. rewrite samples_same by auto. reflexivity.
    - intros env env' E. cbv beta. fold ops. rewrite (samples_ext (sz d) env env' E). reflexivity.
  Qed.
  Theorem resample_vals_any_order_s freq rep nrep : counts_named freq rep d nrep (sz d) -> ~ In rep md -> ~ In rep (all_names ops) -> 0 < nrep ->
    results_agree 0%Qc (values_dims to_end d rep md x ops) (result_size sz rep nrep) (x_resample_vals K P R (params_for md) freq rep axis dim to_end x w y)
      (x_resample_vals K P R (params_for md) freq rep axis' dim' to_end' x' w' y').
  Proof.
    intros HF Nr Fr Pos. destruct (resample_vals_named K ok P R HA freq rep nrep (sz d) axis dim d md sz to_end x w y HC HV HF Nr) as [G _].
    destruct (resample_vals_named K ok P R HA freq rep nrep (sz d) axis' dim' d md sz to_end' x' w' y' HC' same_values_given HF Nr) as [G' _]. cbv zeta in G, G'.
    assert (Fr' : ~ In rep (all_names (Labelled x' :: w' :: y'))) by (intros Q; apply Fr; exact (proj2 (same_names x x' (w :: y) (w' :: y') Hx' HS HO rep) Q)).
    eapply (any_values P HP d md sz x x' (w :: y) (w' :: y') (proj2 HV) Hx' HS HO); [right; exact Fr|exact Nr| | |exact (G eq_refl (or_introl Fr))|exact (G' eq_refl (or_introl Fr'))| |].
    - unfold result_size. now rewrite String.eqb_refl.
    - intros n Hn. unfold result_size. destruct (String.eqb_spec n rep); [congruence|reflexivity].
    - intros env I. cbv beta. rewrite samples_same by auto. reflexivity.
    - intros env env' E. cbv beta. fold ops. rewrite (samples_ext (sz d) env env' E). reflexivity.
  Qed.
  Theorem jackknife_vals_any_order_s rep_dim : name_free d rep_dim (all_names ops ++ md) -> 0 < sz d ->
    results_agree 0%Qc (values_dims to_end d (renamed d rep_dim) md x ops) (result_size sz (renamed d rep_dim) (sz d)) (x_jackknife_vals K P R (params_for md) None rep_dim axis dim to_end x w y)
      (x_jackknife_vals K P R (params_for md) None rep_dim axis' dim' to_end' x' w' y').
  Proof.
    intros Fr Pos. destruct (jackknife_vals_named K ok P R HA rep_dim axis dim d md sz to_end x w y HC HV) as [G _].
    destruct (jackknife_vals_named K ok P R HA rep_dim axis' dim' d md sz to_end' x' w' y' HC' same_values_given) as [G' _]. cbv zeta in G, G'.
    assert (Fr' : name_free d rep_dim (all_names (Labelled x' :: w' :: y') ++ md)).
    { destruct rep_dim as [n|]; [|exact I]. cbn [name_free] in *. destruct Fr as [Q|Q]; [now left|right]. intros Q'. apply Q. apply in_app_or in Q'. apply in_or_app. destruct Q' as [Q'|Q']; [left|now right].
      exact (proj2 (same_names x x' (w :: y) (w' :: y') Hx' HS HO n) Q'). }
    assert (Rd : renamed d rep_dim = d \/ ~ In (renamed d rep_dim) (all_names ops ++ md)) by (destruct rep_dim as [n|]; [exact Fr|now left]).
    eapply (any_values P HP d md sz x x' (w :: y) (w' :: y') (proj2 HV) Hx' HS HO); [| | | |exact (G Fr)|exact (G' Fr')| |].
    - destruct Rd as [Q|Q]; [now left|right; intros Q'; apply Q, in_or_app; now left].
    - destruct Rd as [Q|Q]; [rewrite Q; exact d_free|intros Q'; apply Q, in_or_app; now right].
    - unfold result_size. now rewrite String.eqb_refl.
    - intros n Hn. unfold result_size. destruct (String.eqb_spec n (renamed d rep_dim)); [congruence|reflexivity].
    - intros env I. cbv beta. rewrite samples_same by auto. reflexivity.
    - intros env env' E. cbv beta. fold ops. rewrite (samples_ext (sz d) env env' E). reflexivity.
  Qed.
End AnyOrderValues.

(* the result by name depends on the arguments by name only: not on the order of
   their dimensions, on naming the dimension or its axis, or on axes_to_end *)
Theorem reduce_vals_any_order : forall {A V} (K : pusher A V) ok P R, values_array K ok P R ->
  forall axis dim axis' dim' d md sz x x' w w' y y', chooses 0 axis dim d x -> chooses 0 axis' dim' d x' -> values_given P d md sz x w y ->
  x_ok x' -> x_same x x' -> same_operand w w' -> Forall2 same_operand y y' ->
  results_agree 0%Qc (other_names d (Labelled x :: w :: y) ++ md) sz (x_reduce_vals K P R (params_for md) axis dim x w y) (x_reduce_vals K P R (params_for md) axis' dim' x' w' y').
Proof. intros. now apply (reduce_vals_any_order_s K ok). Qed.
Theorem rolling_vals_any_order : forall {A V} (K : pusher A V) ok P R, values_array K ok P R ->
  forall window min_periods center zero axis dim axis' dim' d md sz to_end to_end' x x' w w' y y', chooses 0 axis dim d x -> chooses 0 axis' dim' d x' -> values_given P d md sz x w y ->
  x_ok x' -> x_same x x' -> same_operand w w' -> Forall2 same_operand y y' -> (0 <= window)%Z -> 0 < sz d ->
  results_agree None (values_dims to_end d d md x (Labelled x :: w :: y)) sz (x_rolling_vals K P R (params_for md) window min_periods center zero axis dim to_end x w y)
    (x_rolling_vals K P R (params_for md) window min_periods center zero axis' dim' to_end' x' w' y').
Proof. intros. now apply (rolling_vals_any_order_s K ok). Qed.
Theorem resample_vals_any_order : forall {A V} (K : pusher A V) ok P R, values_array K ok P R ->
  forall freq rep nrep axis dim axis' dim' d md sz to_end to_end' x x' w w' y y', chooses 0 axis dim d x -> chooses 0 axis' dim' d x' -> values_given P d md sz x w y ->
  x_ok x' -> x_same x x' -> same_operand w w' -> Forall2 same_operand y y' -> counts_named freq rep d nrep (sz d) -> ~ In rep md -> ~ In rep (all_names (Labelled x :: w :: y)) -> 0 < nrep ->
  results_agree 0%Qc (values_dims to_end d rep md x (Labelled x :: w :: y)) (result_size sz rep nrep) (x_resample_vals K P R (params_for md) freq rep axis dim to_end x w y)
    (x_resample_vals K P R (params_for md) freq rep axis' dim' to_end' x' w' y').
Proof. intros. now apply (resample_vals_any_order_s K ok). Qed.
Theorem jackknife_vals_any_order : forall {A V} (K : pusher A V) ok P R, values_array K ok P R ->
  forall rep_dim axis dim axis' dim' d md sz to_end to_end' x x' w w' y y', chooses 0 axis dim d x -> chooses 0 axis' dim' d x' -> values_given P d md sz x w y ->
  x_ok x' -> x_same x x' -> same_operand w w' -> Forall2 same_operand y y' -> name_free d rep_dim (all_names (Labelled x :: w :: y) ++ md) -> 0 < sz d ->
  results_agree 0%Qc (values_dims to_end d (renamed d rep_dim) md x (Labelled x :: w :: y)) (result_size sz (renamed d rep_dim) (sz d))
    (x_jackknife_vals K P R (params_for md) None rep_dim axis dim to_end x w y) (x_jackknife_vals K P R (params_for md) None rep_dim axis' dim' to_end' x' w' y').
Proof. intros. now apply (jackknife_vals_any_order_s K ok). Qed.
Theorem rolling_exp_vals_any_order : forall {A V} (K : pusher A V) ok P R, values_array K ok P R ->
  forall adjust min_periods zero axis dim axis' dim' d md sz to_end to_end' x x' w w' alpha alpha' y y', chooses 0 axis dim d x -> chooses 0 axis' dim' d x' ->
  S (List.length y) = List.length (pk_shape P) -> operands_given P d md sz x (w :: alpha :: y) -> incl (all_names (Labelled x :: w :: alpha :: y)) (all_names (Labelled x :: w :: y)) ->
  x_ok x' -> x_same x x' -> same_operand w w' -> same_operand alpha alpha' -> Forall2 same_operand y y' -> 0 < sz d ->
  results_agree None (values_dims to_end d d md x (Labelled x :: w :: alpha :: y)) sz (x_rolling_exp_vals K P R (params_for md) alpha adjust min_periods zero axis dim to_end x w y)
    (x_rolling_exp_vals K P R (params_for md) alpha' adjust min_periods zero axis' dim' to_end' x' w' y').
Proof.
  intros A V K ok P R HA adjust mp zero axis dim axis' dim' d md sz to_end to_end' x x' w w' alpha alpha' y y' HC HC' Ly HG Ia Hx' HS Hw Ha Hy Pos.
  pose proof (ma_packer _ _ _ (va_array _ _ _ _ HA)) as HP. assert (HO : Forall2 same_operand (w :: alpha :: y) (w' :: alpha' :: y')) by (constructor; [exact Hw|]; now constructor).
  assert (HO2 : Forall2 same_operand (w :: y) (w' :: y')) by now constructor.
  assert (Iw : incl (w :: y) (w :: alpha :: y)) by (intros o [<-|Q]; [now left|now right; right]).
  pose proof (rolling_exp_vals_named K ok P R HA alpha adjust mp zero axis dim d md sz to_end x w y HC Ly HG Ia) as G.
  assert (G' : operands_given P d md sz x' (w' :: alpha' :: y')) by exact (same_given P d md sz x x' _ _ HG Hx' HS HO).
  assert (Ia' : incl (all_names (Labelled x' :: w' :: alpha' :: y')) (all_names (Labelled x' :: w' :: y'))).
  { intros n Hn. apply (proj1 (same_names x x' _ _ Hx' HS HO2 n)). apply Ia. exact (proj2 (same_names x x' _ _ Hx' HS HO n) Hn). }
  pose proof (rolling_exp_vals_named K ok P R HA alpha' adjust mp zero axis' dim' d md sz to_end' x' w' y' HC' ltac:(now rewrite <- (Forall2_len _ _ _ Hy)) G' Ia') as G2. cbv zeta in G, G2.
  eapply (any_values P HP d md sz x x' _ _ HG Hx' HS HO); [now left|exact (vg_d P d md sz x _ HG)|exact Pos|reflexivity|exact G|exact G2| |].
  - intros env I. cbv beta. do 3 f_equal.
    + apply map_ext_in. intros i Q. apply in_seq in Q. apply (same_value P d md sz x x' (w :: alpha :: y) (w' :: alpha' :: y') HG); auto; [now right; right; left|lia].
    + exact (same_samples P d md sz x x' (w :: alpha :: y) (w' :: alpha' :: y') HG Hx' HS R w y w' y' (sz d) env Iw Hw Hy (le_n _) I).
  - intros env env' E. cbv beta. do 3 f_equal.
    + apply map_ext. intros i. apply (value_at_ext P d md sz x (w :: alpha :: y) HG); [now right; right; left|exact E].
    + exact (samples_named_ext P d md sz x (w :: alpha :: y) HG R w y (sz d) env env' Iw E).
Qed.
