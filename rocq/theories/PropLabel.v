(* Functions of labelled arrays: results by name (C103-). *)
From Coq Require Import String Permutation.
From Verif Require Import Base BaseLemmas ModelPush ModelKernels ModelIndex ModelAxes ModelParams ModelWrap ModelNd ModelLabel Spec SpecAxes SpecNd SpecLabel
  ProofAxes ProofArrays ProofIndex ProofMulti ProofNd PropAxes PropParams PropWrap PropLabelled PropNd ProofLabel.
Local Open Scope string_scope.
Local Open Scope nat_scope.

Section Start.
  Context {A V : Type} (K : pusher A V) (ok : A -> Prop) (P : packer A) (HMA : moment_array K ok P).
  Variables (x : xarr) (md : list sname) (axis : marg axis_arg) (dim : marg sname) (d : sname).
  Hypothesis HM : labelled_moments P md x.
  Hypothesis HC : chooses (List.length md) axis dim d x.
  Hypothesis Nd : ~ In d md.
  Lemma start_named {X} (f : nat -> sname -> list sname -> list Z -> axis_arg -> res X) : exists a, nth_error (x_dims x) a = Some d /\
    with_dim (params_for md) axis dim x f = f a d (d :: md) (axes_last (List.length md)) (AInt (- (Z.of_nat (List.length md) + 1))).
  Proof. apply with_dim_eq; auto; [apply HM|]. rewrite (lm_len P x md HM). now apply (ma_ndim K ok). Qed.
End Start.
Ltac begin_with H := match goal with |- context[with_dim _ _ _ _ ?f] => let a := fresh "a" in let Ea := fresh "Ea" in let E := fresh "E" in destruct (H _ f) as (a & Ea & E); rewrite E; clear E end.

Theorem cumulative_named : forall {A V} (K : pusher A V) ok P, moment_array K ok P ->
  forall (inverse : bool) md axis dim d to_end x, labelled_moments P md x -> chooses (List.length md) axis dim d x -> ~ In d md ->
  by_name 0%Qc (pk_unpack P)
    (fun env => of_opt EZeroDiv ((if inverse then cumulative_inverse K else cumulative K) (rows_named P x [d] md env)))
    (result_dims to_end (x_dims x) d d md) (dim_size x) d md
    (x_cumulative K P (params_for md) inverse axis dim to_end x).
Proof.
  intros A V K ok P HMA inverse md axis dim d to_end x HM HC Nd. pose proof (ma_packer _ _ _ HMA) as HP. unfold x_cumulative.
  begin_with (@start_named _ _ K ok P HMA x md axis dim d HM HC Nd).
  apply (one_operand_same P HP x md d HM (chooses_dim _ _ _ _ _ HC) Nd 0%Qc (pk_unpack P) (fun rows => of_opt EZeroDiv ((if inverse then cumulative_inverse K else cumulative K) rows))
    (fun t => rmap to_grid (cumulative_nd K P inverse (AInt (- (Z.of_nat (List.length md) + 1))) (axes_last (List.length md)) false t))).
  intros t a' M HA Sd. exact (cumulative_array K ok P HMA inverse _ _ false a' M t HA).
Qed.

Theorem rolling_named : forall {A V} (K : pusher A V) ok P, moment_array K ok P ->
  forall window min_periods (center : bool) zero md axis dim d to_end x,
  labelled_moments P md x -> chooses (List.length md) axis dim d x -> ~ In d md -> (0 <= window)%Z ->
  (center = false \/ (0 < window)%Z ->
   by_name None (row_entry P zero)
    (fun env => if center then rolling_data_center K window min_periods (rows_named P x [d] md env)
                else of_opt EZeroDiv (rolling_data K (Z.to_nat window) (match min_periods with None => window | Some k => k end) (rows_named P x [d] md env)))
    (result_dims to_end (x_dims x) d d md) (dim_size x) d md
    (x_rolling_data K P (params_for md) window min_periods center zero axis dim to_end x)) /\
  (center = true -> window = 0%Z -> x_rolling_data K P (params_for md) window min_periods center zero axis dim to_end x = Raise EValue).
Proof.
  intros A V K ok P HMA window mp center zero md axis dim d to_end x HM HC Nd Hw. pose proof (ma_packer _ _ _ HMA) as HP. unfold x_rolling_data.
  begin_with (@start_named _ _ K ok P HMA x md axis dim d HM HC Nd). split; intros H.
  - apply (one_operand_same P HP x md d HM (chooses_dim _ _ _ _ _ HC) Nd None (row_entry P zero)
      (fun rows => if center then rolling_data_center K window mp rows else of_opt EZeroDiv (rolling_data K (Z.to_nat window) (match mp with None => window | Some k => k end) rows))
      (rolling_data_nd K P window mp center zero (AInt (- (Z.of_nat (List.length md) + 1))) (axes_last (List.length md)) false)).
    intros t a' M HA Sd. exact (proj1 (rolling_array K ok P HMA window mp center zero _ _ false a' M t HA Hw) H).
  - intros W. apply (one_operand_raise P x md d HM (chooses_dim _ _ _ _ _ HC) Nd None (rolling_data_nd K P window mp center zero (AInt (- (Z.of_nat (List.length md) + 1))) (axes_last (List.length md)) false)).
    + now left.
    + intros t a' M HA Sd. exact (proj2 (rolling_array K ok P HMA window mp center zero _ _ false a' M t HA Hw) H W).
Qed.

(* the name of the dimension of the result *)
Definition renamed (d : sname) (new : option sname) : sname := match new with Some n => n | None => d end.
(* a new name that is free *)
Definition free_name (x : xarr) (d : sname) (new : option sname) : Prop := renamed d new = d \/ ~ In (renamed d new) (x_dims x).

(* a function along d that may be renamed *)
Section Renamed.
  Context {A : Type} (P : packer A) (HP : packer_ok P) {B T : Type}.
  Variables (x : xarr) (md : list sname) (d : sname).
  Hypothesis HM : labelled_moments P md x.
  Hypothesis Hd : In d (x_dims x).
  Hypothesis Nd : ~ In d md.
  Lemma renamed_operand (dflt : T) (val : B -> list nat -> T) (F : list A -> res (list B)) (f : tensor -> res (grid T)) newlen (good : Prop) new to_end :
    let rd := renamed d new in
    let r := rbind (apply_ufunc [(Labelled x, d :: md)] (d :: md) [d] (fun ts => f (arg 0 ts))) (fun g => rbind (finish dflt to_end x g) (opt_rename d new)) in
    (forall t a M, axis_of_moments P (axes_last (List.length md)) (AInt (- (Z.of_nat (List.length md) + 1))) a M t -> shape_of t a = dim_size x d ->
       (good -> by_columns dflt val (fun e => F (rows_along P t [a] M e)) false newlen a M t (f t)) /\ (~ good -> f t = Raise EValue)) ->
    (good -> free_name x d new -> by_name dflt val (fun env => F (rows_named P x [d] md env)) (result_dims to_end (x_dims x) d rd md) (result_size (dim_size x) rd newlen) rd md r) /\
    (~ good -> r = Raise EValue) /\
    (good -> ~ free_name x d new -> exists e, r = Raise e).
  Proof.
    intros rd r H.
    assert (As : r = rbind (rbind (apply_ufunc [(Labelled x, d :: md)] (d :: md) [d] (fun ts => f (arg 0 ts))) (finish dflt to_end x)) (opt_rename d new)).
    { unfold r. destruct (apply_ufunc _ _ _ _); reflexivity. }
    assert (Good : good -> by_name dflt val (fun env => F (rows_named P x [d] md env)) (result_dims to_end (x_dims x) d d md) (result_size (dim_size x) d newlen) d md
       (rbind (apply_ufunc [(Labelled x, d :: md)] (d :: md) [d] (fun ts => f (arg 0 ts))) (finish dflt to_end x))).
    { intros G. apply (one_operand P HP x md d HM Hd Nd dflt val F f newlen [d] to_end); [now right|]. intros t a M HA Sd. now apply (H t a M HA Sd). }
    rewrite As. clearbody r. split; [|split].
    - intros G Fn. refine (rename_by_name P x md d HM Hd Nd dflt val _ newlen to_end _ new _ Fn (Good G)). intros env env' H'. f_equal. now apply (rows_named_ext P HP x md d HM).
    - intros G. rewrite (one_operand_raise P x md d HM Hd Nd dflt f EValue [d] to_end); [reflexivity|now right|]. intros t a M HA Sd. now apply (H t a M HA Sd).
    - intros G Nf. destruct new as [n|]; [|elim Nf; now left].
      assert (Q : n <> d /\ In n (x_dims x)). { unfold free_name in Nf. cbn [renamed] in Nf. split; [tauto|]. destruct (in_dec string_dec n (x_dims x)); tauto. }
      destruct (rename_collides P x md d HM Hd Nd dflt val _ _ to_end _ n (Good G) (proj1 Q) (proj2 Q)) as (e & Ee & _). eauto.
  Qed.
End Renamed.

Theorem grouped_named : forall {A V} (K : pusher A V) ok P, moment_array K ok P ->
  forall by_ group_dim md axis dim d to_end x, labelled_moments P md x -> chooses (List.length md) axis dim d x -> ~ In d md ->
  let rd := renamed d group_dim in let r := x_reduce_data_grouped K P (params_for md) by_ group_dim axis dim to_end x in
  match zmax by_ with
  | Ok mx =>
      (List.length by_ = dim_size x d -> (-1 <= mx)%Z -> free_name x d group_dim ->
       by_name 0%Qc (pk_unpack P) (fun env => reduce_data_grouped K by_ (rows_named P x [d] md env))
         (result_dims to_end (x_dims x) d rd md) (result_size (dim_size x) rd (Z.to_nat (mx + 1))) rd md r) /\
      (List.length by_ <> dim_size x d \/ (mx < -1)%Z -> r = Raise EValue) /\
      (~ free_name x d group_dim -> exists e, r = Raise e)
  | Raise _ => r = Raise EValue
  end.
Proof.
  intros A V K ok P HMA by_ gd md axis dim d to_end x HM HC Nd rd r. pose proof (ma_packer _ _ _ HMA) as HP. unfold r, x_reduce_data_grouped. clear r.
  begin_with (@start_named _ _ K ok P HMA x md axis dim d HM HC Nd). pose proof (chooses_dim _ _ _ _ _ HC) as Hd.
  pose proof (fun t a' M HA => grouped_array K ok P HMA by_ (axes_last (List.length md)) (AInt (- (Z.of_nat (List.length md) + 1))) false a' M t HA) as G.
  pose proof (fun newlen good => renamed_operand P HP x md d HM Hd Nd 0%Qc (pk_unpack P) (fun rows => reduce_data_grouped K by_ rows)
    (fun t => rmap to_grid (reduce_data_grouped_nd K P by_ (AInt (- (Z.of_nat (List.length md) + 1))) (axes_last (List.length md)) false t)) newlen good gd to_end) as R.
  destruct (zmax by_) as [mx|e].
  - destruct (R (Z.to_nat (mx + 1)) (List.length by_ = dim_size x d /\ (-1 <= mx)%Z)) as (R1 & R2 & R3).
    { intros t a' M HA Sd. split.
      - intros [H1 H2]. apply (proj1 (G t a' M HA)); [congruence|exact H2].
      - intros H. rewrite (proj2 (G t a' M HA)); [reflexivity|]. rewrite Sd. destruct (Z_lt_le_dec mx (-1)); [auto|]. destruct (Nat.eq_dec (List.length by_) (dim_size x d)); tauto. }
    split; [|split].
    + intros H1 H2. now apply R1.
    + intros H. apply R2. intros [H1 H2]. lia.
    + intros H. destruct (Nat.eq_dec (List.length by_) (dim_size x d)) as [H1|H1]; [|exists EValue; apply R2; tauto]. destruct (Z_lt_le_dec mx (-1)); [exists EValue; apply R2; lia|]. apply R3; auto.
  - destruct (R 0 False) as (_ & R2 & _); [|now apply R2]. intros t a' M HA _. split; [tauto|]. intros _. now rewrite (G t a' M HA).
Qed.

Theorem indexed_named : forall {A V} (K : pusher A V) ok P, moment_array K ok P ->
  forall index start end_ scale group_dim md axis dim d to_end x, labelled_moments P md x -> chooses (List.length md) axis dim d x -> ~ In d md ->
  let rd := renamed d group_dim in let r := x_reduce_data_indexed K P (params_for md) index start end_ scale group_dim axis dim to_end x in
  let good := validate_index (dim_size x d) index start end_ = Ok tt /\ (forall s, scale = Some s -> List.length s = List.length index) in
  (good -> free_name x d group_dim ->
   by_name 0%Qc (pk_unpack P) (fun env => reduce_data_indexed K (rows_named P x [d] md env) index start end_ scale)
     (result_dims to_end (x_dims x) d rd md) (result_size (dim_size x) rd (List.length start)) rd md r) /\
  (~ good -> r = Raise EValue) /\
  (good -> ~ free_name x d group_dim -> exists e, r = Raise e).
Proof.
  intros A V K ok P HMA index start end_ scale gd md axis dim d to_end x HM HC Nd rd r good. pose proof (ma_packer _ _ _ HMA) as HP. unfold r, x_reduce_data_indexed. clear r.
  begin_with (@start_named _ _ K ok P HMA x md axis dim d HM HC Nd). pose proof (chooses_dim _ _ _ _ _ HC) as Hd.
  rewrite sizes_named by exact Hd. cbn [rbind].
  pose proof (fun t a' M HA => indexed_array K ok P HMA index start end_ scale (axes_last (List.length md)) (AInt (- (Z.of_nat (List.length md) + 1))) false a' M t HA) as G.
  pose proof (renamed_operand P HP x md d HM Hd Nd 0%Qc (pk_unpack P) (fun rows => reduce_data_indexed K rows index start end_ scale)
    (fun t => rmap to_grid (reduce_data_indexed_nd K P index start end_ scale (AInt (- (Z.of_nat (List.length md) + 1))) (axes_last (List.length md)) false t)) (List.length start) good gd to_end) as R.
  destruct (validate_index (dim_size x d) index start end_) as [[]|e] eqn:Ev.
  - cbn [rbind]. apply R. intros t a' M HA Sd. specialize (G t a' M HA). cbv zeta in G. rewrite Sd, Ev in G. split; [apply G|]. intros H. now rewrite (proj2 G H).
  - cbn [rbind]. assert (Q : e = EValue).
    { rewrite validate_index_err in Ev by congruence. congruence. }
    subst e. split; [intros [H _]; discriminate|]. split; [reflexivity|]. intros [H _]; discriminate.
Qed.
