(* Relations between results of functions of labelled arrays: the order of the
   dimensions does not matter, and the results are those of the array functions. *)
From Coq Require Import String Permutation.
From Verif Require Import Base BaseLemmas Checks ModelPush ModelKernels ModelIndex ModelAxes ModelParams ModelWrap ModelNd ModelLabel Spec SpecAxes SpecNd SpecLabel SpecLabelTwo
  Laws ProofSpec ProofAxes ProofArrays ProofIndex ProofMulti ProofNd PropAxes PropParams PropWrap PropLabelled PropNd PropNdUse ProofNdVals ProofLabel ProofLabelMany ProofLabelReduce
  PropLabel PropLabelReduce PropLabelTwo PropLabelJack PropLabelExp.
Local Open Scope string_scope.
Local Open Scope nat_scope.

(* two results hold the same entries by name, or both raise *)
Definition results_agree {T} (dflt : T) (dims : list sname) (sz : sname -> nat) (r r' : res (lgrid T)) : Prop :=
  match r, r' with
  | Ok g, Ok g' => forall env, inside_names sz dims env -> l_at dflt g env = l_at dflt g' env
  | Raise _, Raise _ => True
  | _, _ => False
  end.

Lemma by_name_agree {B T} (dflt : T) (val : B -> list nat -> T) run run' dims dims' sz sz' rd md r r' :
  by_name dflt val run dims sz rd md r -> by_name dflt val run' dims' sz' rd md r' ->
  (forall n, In n dims <-> In n dims') -> (forall n, In n dims -> sz n = sz' n) ->
  (forall env, inside_names sz (except_name dims (rd :: md)) env -> run env = run' env) ->
  (forall env env', (forall n, In n (except_name dims (rd :: md)) -> env n = env' n) -> run env = run env') ->
  (forall n, In n dims -> In n (rd :: md) -> 0 < sz n) ->
  results_agree dflt dims sz r r'.
Proof.
  intros H H' Id Sz R Rx Pos.
  assert (Down : forall env, inside_names sz dims env -> inside_names sz (except_name dims (rd :: md)) env) by (intros env I n Hn; apply I; apply except_name_In in Hn; tauto).
  assert (Up : forall env, inside_names sz (except_name dims (rd :: md)) env -> inside_names sz dims (fun n => if in_dec string_dec n (rd :: md) then 0 else env n)).
  { intros env I n Hn. destruct (in_dec string_dec n (rd :: md)) as [Q|Q]; [now apply Pos|]. apply I, except_name_In. tauto. }
  assert (Same : forall env, run (fun n => if in_dec string_dec n (rd :: md) then 0 else env n) = run env).
  { intros env. apply Rx. intros n Hn. apply except_name_In in Hn. destruct (in_dec string_dec n (rd :: md)); tauto. }
  assert (Sw : forall env, inside_names sz dims env <-> inside_names sz' dims' env).
  { intros env. split; intros I n Hn; [rewrite <- Sz by now apply Id|rewrite Sz by exact Hn]; apply I; now apply Id. }
  assert (So : forall env, inside_names sz' (except_name dims' (rd :: md)) env -> inside_names sz (except_name dims (rd :: md)) env).
  { intros env I n Hn. apply except_name_In in Hn. destruct Hn as [H1 H2]. rewrite Sz by exact H1. apply I, except_name_In. split; [now apply Id|exact H2]. }
  destruct r as [g|e], r' as [g'|e']; cbn [by_name results_agree] in *; [| | |exact I].
  - intros env I. destruct H as (_ & _ & _ & H). destruct H' as (_ & _ & _ & H'). destruct (H env I) as (rows & b & E1 & E2 & E3). destruct (H' env (proj1 (Sw env) I)) as (rows' & b' & F1 & F2 & F3).
    rewrite (R env (Down env I)) in E1. congruence.
  - destruct H' as (env & I & E). destruct H as (_ & _ & _ & H). apply So in I. destruct (H _ (Up env I)) as (rows & b & E1 & _). rewrite Same in E1. rewrite (R env I) in E1. congruence.
  - destruct H as (env & I & E). destruct H' as (_ & _ & _ & H'). destruct (H' _ (proj1 (Sw _) (Up env I))) as (rows & b & E1 & _). rewrite <- (R _ (Down _ (Up env I))), Same in E1. congruence.
Qed.

(* ---- the order of the dimensions ------------------------------------------------------------------------ *)

Lemma same_moments {A} (P : packer A) md x y : labelled_moments P md x -> x_ok y -> x_same x y -> labelled_moments P md y.
Proof.
  intros (H1 & H2 & H3 & H4) Hy (S1 & S2 & S3). split; [exact Hy|]. split; [exact H2|]. split; [intros n Hn; apply S1; auto|]. rewrite <- H4. apply map_ext_in. intros n Hn. symmetry. apply S2. auto.
Qed.
Lemma rows_named_same {A} (P : packer A) (HP : packer_ok P) md ds x y env : labelled_moments P md x -> x_same x y -> NoDup ds -> incl ds (x_dims x) ->
  inside_names (dim_size x) (except_name (x_dims x) (ds ++ md)) env -> rows_named P x ds md env = rows_named P y ds md env.
Proof.
  intros (Hx & Nm & Im & Pm) (S1 & S2 & S3) Nd Id I. unfold rows_named. rewrite (map_ext_in (dim_size y) (dim_size x)) by (intros n Hn; symmetry; apply S2; auto).
  apply map_ext_in. intros i Hi. apply all_idx_valid in Hi. unfold moments_named. apply (proj1 HP). intros m Hm. apply S3. intros n Hn.
  pose proof (valid_length _ _ Hi) as Li. rewrite map_length in Li. rewrite <- Pm in Hm. pose proof (valid_length _ _ Hm) as Lm. rewrite map_length in Lm.
  destruct (in_dec string_dec n md) as [Q|Q].
  - destruct (pos_lt md n Q) as [P1 P2]. rewrite <- P2, name_bind_in by auto. rewrite <- nth_map_dims by exact P1. apply valid_nth; [exact Hm|]. now rewrite map_length.
  - rewrite name_bind_out by exact Q. destruct (in_dec string_dec n ds) as [Q'|Q'].
    + destruct (pos_lt ds n Q') as [P1 P2]. rewrite <- P2, name_bind_in by auto. rewrite <- nth_map_dims by exact P1. apply valid_nth; [exact Hi|]. now rewrite map_length.
    + rewrite name_bind_out by exact Q'. apply I, except_name_In. split; [exact Hn|]. rewrite in_app_iff. tauto.
Qed.

Section AnyOrder.
  Context {A : Type} (P : packer A) (HP : packer_ok P).
  Variables (md : list sname) (d : sname) (x y : xarr).
  Hypothesis HM : labelled_moments P md x.
  Hypothesis Hy : x_ok y.
  Hypothesis HS : x_same x y.
  Hypothesis Hd : In d (x_dims x).
  Hypothesis Nd : ~ In d md.
  Lemma result_dims_any to_end new n : free_name x d new -> In n (result_dims to_end (x_dims x) d (renamed d new) md) <-> In n (except_name (x_dims x) (d :: md) ++ renamed d new :: md).
  Proof. intros F. destruct to_end; [reflexivity|]. symmetry. now apply (result_dims_In P x md d HM Hd Nd). Qed.
  Lemma any_order {B T} (dflt : T) (val : B -> list nat -> T) (F : (sname -> nat) -> list A -> res (list B)) to_end to_end' new newlen r r' :
    (forall env env' rows, (forall n, In n (except_name (x_dims x) (d :: md)) -> env n = env' n) -> F env rows = F env' rows) ->
    free_name x d new -> 0 < newlen ->
    by_name dflt val (fun env => F env (rows_named P x [d] md env)) (result_dims to_end (x_dims x) d (renamed d new) md) (result_size (dim_size x) (renamed d new) newlen) (renamed d new) md r ->
    by_name dflt val (fun env => F env (rows_named P y [d] md env)) (result_dims to_end' (x_dims y) d (renamed d new) md) (result_size (dim_size y) (renamed d new) newlen) (renamed d new) md r' ->
    results_agree dflt (result_dims to_end (x_dims x) d (renamed d new) md) (result_size (dim_size x) (renamed d new) newlen) r r'.
  Proof.
    intros FX Fn Pos H H'. pose proof HS as (S1 & S2 & S3). set (rd := renamed d new) in *.
    assert (HMy : labelled_moments P md y) by (exact (same_moments P md x y HM Hy HS)).
    assert (Hdy : In d (x_dims y)) by now apply S1.
    assert (Fny : free_name y d new) by (destruct Fn as [Q|Q]; [now left|right; intros Q'; apply Q, S1, Q']).
    assert (Out : forall n, In n (except_name (result_dims to_end (x_dims x) d rd md) (rd :: md)) <-> In n (except_name (x_dims x) (d :: md))).
    { intros n. rewrite except_name_In. unfold rd. rewrite (result_dims_any to_end new n Fn). fold rd. rewrite in_app_iff. split; [tauto|]. intros Q. split; [now left|]. apply except_name_In in Q. destruct Q as [Q1 Q2].
      intros [<-|Q]; [|apply Q2; now right]. destruct Fn as [Q|Q]; [fold rd in Q; apply Q2; rewrite Q; now left|]. now apply Q. }
    apply (by_name_agree dflt val _ _ _ _ _ _ rd md r r' H H').
    - intros n. unfold rd. rewrite (result_dims_any to_end new n Fn). destruct to_end'; [|rewrite <- (result_dims_In P y md d HMy Hdy Nd (renamed d new) n Fny)]; cbn [result_dims]; rewrite !in_app_iff, !except_name_In, S1; tauto.
    - intros n Hn. unfold result_size. destruct (String.eqb_spec n rd) as [|Q]; [reflexivity|]. unfold rd in Hn. rewrite (result_dims_any to_end new n Fn) in Hn. apply S2. apply in_app_or in Hn. destruct Hn as [Hn|[Hn|Hn]]; [apply except_name_In in Hn; tauto|elim Q; symmetry; exact Hn|now apply HM].
    - intros env I. f_equal. apply (rows_named_same P HP md [d] x y env HM HS); [repeat constructor; intros []|intros n [<-|[]]; exact Hd|]. cbn [app]. intros n Hn. pose proof (I n (proj2 (Out n) Hn)) as L. unfold result_size in L.
      destruct (String.eqb_spec n rd) as [->|]; [|exact L]. apply except_name_In in Hn. destruct Hn as [Q1 Q2]. destruct Fn as [Q|Q]; [fold rd in Q; rewrite Q in Q2; elim Q2; now left|tauto].
    - intros env env' E. assert (E' : forall n, In n (except_name (x_dims x) (d :: md)) -> env n = env' n) by (intros n Hn; apply E, Out, Hn). rewrite (rows_named_ext P HP x md d HM env env' E'). now apply FX.
    - intros n Hn [<-|Hm]; [unfold result_size; now rewrite String.eqb_refl|]. unfold result_size. destruct (String.eqb_spec n rd); [exact Pos|]. destruct HM as (_ & _ & _ & Pm). destruct (pos_lt md n Hm) as [P1 P2].
      rewrite <- P2, <- nth_map_dims, Pm by exact P1. pose proof (valid_zeros _ (proj2 HP)) as V. assert (L : position String.eqb n md < List.length (pk_shape P)) by (rewrite <- Pm, map_length; exact P1). pose proof (valid_nth _ _ V _ L). lia.
  Qed.
  Lemma any_order_same {B T} (dflt : T) (val : B -> list nat -> T) (F : (sname -> nat) -> list A -> res (list B)) to_end to_end' r r' :
    (forall env env' rows, (forall n, In n (except_name (x_dims x) (d :: md)) -> env n = env' n) -> F env rows = F env' rows) -> 0 < dim_size x d ->
    by_name dflt val (fun env => F env (rows_named P x [d] md env)) (result_dims to_end (x_dims x) d d md) (dim_size x) d md r ->
    by_name dflt val (fun env => F env (rows_named P y [d] md env)) (result_dims to_end' (x_dims y) d d md) (dim_size y) d md r' ->
    results_agree dflt (x_dims x) (dim_size x) r r'.
  Proof.
    intros FX Pos H H'. assert (Ed : dim_size x d = dim_size y d) by (apply HS; exact Hd).
    pose proof (any_order dflt val F to_end to_end' None (dim_size x d) r r' FX (or_introl eq_refl) Pos) as G. cbn [renamed] in G.
    assert (G' : results_agree dflt (result_dims to_end (x_dims x) d d md) (result_size (dim_size x) d (dim_size x d)) r r').
    { apply G; [eapply by_name_ext; [| |exact H]|eapply by_name_ext; [| |exact H']]; try reflexivity; intros n _; unfold result_size; destruct (String.eqb_spec n d); congruence. }
    destruct r as [g|], r' as [g'|]; cbn [results_agree] in *; auto. intros env I. apply G'. intros n Hn. unfold result_size. destruct (String.eqb_spec n d) as [->|]; [now apply I|]. apply I.
    apply (result_dims_any to_end None n (or_introl eq_refl)) in Hn. now apply (lm_In P x md d HM Hd Nd).
  Qed.
End AnyOrder.

(* the result by name depends on the entries by name only: not on the order of the
   dimensions, on naming the dimension or its axis, or on axes_to_end *)
Theorem cumulative_any_order : forall {A V} (K : pusher A V) ok P, moment_array K ok P ->
  forall (inverse : bool) md axis dim axis' dim' d to_end to_end' x y, labelled_moments P md x -> x_ok y -> x_same x y ->
  chooses (List.length md) axis dim d x -> chooses (List.length md) axis' dim' d y -> ~ In d md -> 0 < dim_size x d ->
  results_agree 0%Qc (x_dims x) (dim_size x) (x_cumulative K P (params_for md) inverse axis dim to_end x) (x_cumulative K P (params_for md) inverse axis' dim' to_end' y).
Proof.
  intros A V K ok P HMA inverse md axis dim axis' dim' d to_end to_end' x y HM Hy HS C C' Nd Pos. pose proof (ma_packer _ _ _ HMA) as HP. pose proof (chooses_dim _ _ _ _ _ C) as Hd.
  pose proof (cumulative_named K ok P HMA inverse md axis dim d to_end x HM C Nd) as H. pose proof (cumulative_named K ok P HMA inverse md axis' dim' d to_end' y (same_moments P md x y HM Hy HS) C' Nd) as H'.
  exact (any_order_same P HP md d x y HM Hy HS Hd Nd 0%Qc (pk_unpack P) (fun _ rows => of_opt EZeroDiv ((if inverse then cumulative_inverse K else cumulative K) rows)) to_end to_end' _ _ (fun _ _ _ _ => eq_refl) Pos H H').
Qed.
Theorem rolling_any_order : forall {A V} (K : pusher A V) ok P, moment_array K ok P ->
  forall window min_periods (center : bool) zero md axis dim axis' dim' d to_end to_end' x y, labelled_moments P md x -> x_ok y -> x_same x y ->
  chooses (List.length md) axis dim d x -> chooses (List.length md) axis' dim' d y -> ~ In d md -> 0 < dim_size x d -> (0 <= window)%Z ->
  results_agree None (x_dims x) (dim_size x) (x_rolling_data K P (params_for md) window min_periods center zero axis dim to_end x)
    (x_rolling_data K P (params_for md) window min_periods center zero axis' dim' to_end' y).
Proof.
  intros A V K ok P HMA window mp center zero md axis dim axis' dim' d to_end to_end' x y HM Hy HS C C' Nd Pos Hw. pose proof (ma_packer _ _ _ HMA) as HP. pose proof (chooses_dim _ _ _ _ _ C) as Hd.
  destruct (rolling_named K ok P HMA window mp center zero md axis dim d to_end x HM C Nd Hw) as [H Z]. destruct (rolling_named K ok P HMA window mp center zero md axis' dim' d to_end' y (same_moments P md x y HM Hy HS) C' Nd Hw) as [H' Z'].
  assert (D : (center = false \/ (0 < window)%Z) \/ (center = true /\ window = 0%Z)) by (destruct center; [|auto]; destruct (Z.eq_dec window 0); [auto|left; right; lia]).
  destruct D as [D|[D1 D2]]; [|rewrite Z, Z' by assumption; exact I].
  exact (any_order_same P HP md d x y HM Hy HS Hd Nd None (row_entry P zero) (fun _ rows => if center then rolling_data_center K window mp rows
                else of_opt EZeroDiv (rolling_data K (Z.to_nat window) (match mp with None => window | Some k => k end) rows)) to_end to_end' _ _ (fun _ _ _ _ => eq_refl) Pos (H D) (H' D)).
Qed.
Theorem grouped_any_order : forall {A V} (K : pusher A V) ok P, moment_array K ok P ->
  forall by_ mx group_dim md axis dim axis' dim' d to_end to_end' x y, labelled_moments P md x -> x_ok y -> x_same x y ->
  chooses (List.length md) axis dim d x -> chooses (List.length md) axis' dim' d y -> ~ In d md -> zmax by_ = Ok mx -> (0 <= mx)%Z -> free_name x d group_dim ->
  results_agree 0%Qc (result_dims to_end (x_dims x) d (renamed d group_dim) md) (result_size (dim_size x) (renamed d group_dim) (Z.to_nat (mx + 1)))
    (x_reduce_data_grouped K P (params_for md) by_ group_dim axis dim to_end x) (x_reduce_data_grouped K P (params_for md) by_ group_dim axis' dim' to_end' y).
Proof.
  intros A V K ok P HMA by_ mx gd md axis dim axis' dim' d to_end to_end' x y HM Hy HS C C' Nd Hz Hmx Fn. pose proof (ma_packer _ _ _ HMA) as HP. pose proof (chooses_dim _ _ _ _ _ C) as Hd.
  pose proof (grouped_named K ok P HMA by_ gd md axis dim d to_end x HM C Nd) as G. pose proof (grouped_named K ok P HMA by_ gd md axis' dim' d to_end' y (same_moments P md x y HM Hy HS) C' Nd) as G'.
  cbv zeta in G, G'. rewrite Hz in G, G'. destruct G as (G1 & G2 & _), G' as (G1' & G2' & _). assert (Ed : dim_size x d = dim_size y d) by (apply HS; exact Hd).
  assert (Fny : free_name y d gd) by (destruct Fn as [Q|Q]; [now left|right; intros Q'; apply Q, HS, Q']).
  destruct (Nat.eq_dec (List.length by_) (dim_size x d)) as [E|E]; [|rewrite G2, G2' by (left; congruence); exact I].
  apply (any_order P HP md d x y HM Hy HS Hd Nd 0%Qc (pk_unpack P) (fun _ rows => reduce_data_grouped K by_ rows) to_end to_end' gd (Z.to_nat (mx + 1))); auto; [lia|apply G1; auto; lia|apply G1'; auto; [congruence|lia]].
Qed.
Theorem jackknife_any_order : forall {A V} (K : pusher A V) ok P, moment_array K ok P ->
  forall rep_dim md axis dim axis' dim' d to_end to_end' x y, labelled_moments P md x -> x_ok y -> x_same x y ->
  chooses (List.length md) axis dim d x -> chooses (List.length md) axis' dim' d y -> ~ In d md -> 0 < dim_size x d -> free_name x d rep_dim ->
  results_agree 0%Qc (result_dims to_end (x_dims x) d (renamed d rep_dim) md) (result_size (dim_size x) (renamed d rep_dim) (dim_size x d))
    (x_jackknife_data K P (params_for md) None rep_dim axis dim to_end x) (x_jackknife_data K P (params_for md) None rep_dim axis' dim' to_end' y).
Proof.
  intros A V K ok P HMA rep md axis dim axis' dim' d to_end to_end' x y HM Hy HS C C' Nd Pos Fn. pose proof (ma_packer _ _ _ HMA) as HP. pose proof (chooses_dim _ _ _ _ _ C) as Hd.
  assert (Ed : dim_size x d = dim_size y d) by (apply HS; exact Hd). assert (Fny : free_name y d rep) by (destruct Fn as [Q|Q]; [now left|right; intros Q'; apply Q, HS, Q']).
  destruct (jackknife_named K ok P HMA rep md axis dim d to_end x HM C Nd) as [G _]. destruct (jackknife_named K ok P HMA rep md axis' dim' d to_end' y (same_moments P md x y HM Hy HS) C' Nd) as [G' _].
  rewrite <- Ed in G'.
  exact (any_order P HP md d x y HM Hy HS Hd Nd 0%Qc (pk_unpack P) (fun _ rows => of_opt EZeroDiv (jackknife_data K rows)) to_end to_end' rep (dim_size x d) _ _ (fun _ _ _ _ => eq_refl) Fn Pos (G Fn) (G' Fny)).
Qed.
Theorem resample_any_order : forall {A V} (K : pusher A V) ok P, moment_array K ok P ->
  forall freq rep nrep ndat md axis dim axis' dim' d to_end to_end' x y, labelled_moments P md x -> x_ok y -> x_same x y ->
  chooses (List.length md) axis dim d x -> chooses (List.length md) axis' dim' d y -> ~ In d md -> counts_named freq rep d nrep ndat -> ndat = dim_size x d -> 0 < nrep -> ~ In rep (x_dims x) ->
  results_agree 0%Qc (result_dims to_end (x_dims x) d rep md) (result_size (dim_size x) rep nrep)
    (x_resample_data K P (params_for md) freq rep axis dim to_end x) (x_resample_data K P (params_for md) freq rep axis' dim' to_end' y).
Proof.
  intros A V K ok P HMA freq rep nrep ndat md axis dim axis' dim' d to_end to_end' x y HM Hy HS C C' Nd HF Hn Pos Fn. pose proof (ma_packer _ _ _ HMA) as HP. pose proof (chooses_dim _ _ _ _ _ C) as Hd.
  assert (Ed : dim_size x d = dim_size y d) by (apply HS; exact Hd). assert (Fny : ~ In rep (x_dims y)) by (intros Q; apply Fn, HS, Q).
  destruct (resample_named K ok P HMA freq rep nrep ndat md axis dim d to_end x HM C Nd HF) as [G _]. destruct (resample_named K ok P HMA freq rep nrep ndat md axis' dim' d to_end' y (same_moments P md x y HM Hy HS) C' Nd HF) as [G' _].
  exact (any_order P HP md d x y HM Hy HS Hd Nd 0%Qc (pk_unpack P) (fun _ rows => of_opt EZeroDiv (resample_data K (counts_table freq rep d nrep ndat) rows)) to_end to_end' (Some rep) nrep _ _ (fun _ _ _ _ => eq_refl)
    (or_intror Fn) Pos (G Hn (or_introl Fn)) (G' (eq_trans Hn Ed) (or_introl Fny))).
Qed.
Theorem rolling_exp_any_order : forall {A V} (K : pusher A V) ok P, moment_array K ok P ->
  forall z alpha_axis alpha_axis' adjust min_periods zero md axis dim axis' dim' d to_end to_end' x y, labelled_moments P md x -> x_ok y -> x_same x y ->
  chooses (List.length md) axis dim d x -> chooses (List.length md) axis' dim' d y -> ~ In d md -> 0 < dim_size x d ->
  x_ok z -> In d (x_dims z) -> incl (x_dims z) (x_dims x) -> (forall n, In n (x_dims z) -> ~ In n md /\ dim_size z n = dim_size x n) ->
  results_agree None (x_dims x) (dim_size x) (x_rolling_exp_data K P (params_for md) (Labelled z) alpha_axis adjust min_periods zero axis dim to_end x)
    (x_rolling_exp_data K P (params_for md) (Labelled z) alpha_axis' adjust min_periods zero axis' dim' to_end' y).
Proof.
  intros A V K ok P HMA z aa aa' adjust mp zero md axis dim axis' dim' d to_end to_end' x y HM Hy HS C C' Nd Pos Hz Iz Ii Sz. pose proof (ma_packer _ _ _ HMA) as HP. pose proof (chooses_dim _ _ _ _ _ C) as Hd.
  pose proof HS as (S1 & S2 & S3).
  destruct (rolling_exp_named K ok P HMA (Labelled z) aa 0 adjust mp zero md axis dim d to_end x HM C Nd) as [G _]. destruct (rolling_exp_named K ok P HMA (Labelled z) aa' 0 adjust mp zero md axis' dim' d to_end' y (same_moments P md x y HM Hy HS) C' Nd) as [G' _].
  cbv zeta in G, G'. cbn [decays_named] in G, G'. rewrite <- (S2 d Hd) in G'.
  apply (any_order_same P HP md d x y HM Hy HS Hd Nd None (row_entry P zero) (fun env rows => of_opt EZeroDiv (rolling_exp_data K adjust (match mp with None => 1%Z | Some k => Z.max 1 k end)
    (combine (map (fun i => x_at z (name_bind [d] [i] env)) (seq 0 (dim_size x d))) rows))) to_end to_end'); [|exact Pos|apply G|apply G'].
  - intros env env' rows E. do 3 f_equal. apply map_ext. intros i. unfold x_at. f_equal. apply map_ext_in. intros n Hn. destruct (string_dec n d) as [->|Q].
    + change d with (nth 0 [d] ""). rewrite !name_bind_in; cbn; auto; repeat constructor; intros [].
    + rewrite !name_bind_out by (intros [Q'|[]]; congruence). apply E, except_name_In. split; [auto|]. destruct (Sz n Hn) as [Q' _]. intros [Q''|Q'']; [congruence|tauto].
  - split; [exact Hz|]. split; [exact Iz|]. split; [|intros n Hn; now apply Sz]. intros n Hn. destruct (string_dec n d) as [->|Q]; [apply in_or_app; right; now left|]. apply in_or_app. left. apply except_name_In. split; [auto|]. destruct (Sz n Hn) as [Q' _]. intros [Q''|Q'']; [congruence|tauto].
  - split; [exact Hz|]. split; [exact Iz|]. split; [|intros n Hn; rewrite <- S2 by auto; now apply Sz]. intros n Hn. destruct (string_dec n d) as [->|Q]; [apply in_or_app; right; now left|]. apply in_or_app. left. apply except_name_In. split; [now apply S1, Ii|]. destruct (Sz n Hn) as [Q' _]. intros [Q''|Q'']; [congruence|tauto].
Qed.
Theorem reduce_any_order : forall {A V} (K : pusher A V) ok P, moment_array K ok P ->
  forall md axis dim axis' dim' ds keepdims to_end to_end' x y, labelled_moments P md x -> x_ok y -> x_same x y ->
  chooses_many md axis dim ds x -> chooses_many md axis' dim' ds y ->
  results_agree 0%Qc (reduced_dims keepdims to_end (x_dims x) ds md) (fun n => if in_dec string_dec n ds then 1 else dim_size x n)
    (x_reduce_data K P (params_for md) axis dim keepdims to_end x) (x_reduce_data K P (params_for md) axis' dim' keepdims to_end' y).
Proof.
  intros A V K ok P HMA md axis dim axis' dim' ds keepdims to_end to_end' x y HM Hy HS C C'. pose proof (ma_packer _ _ _ HMA) as HP. pose proof HS as (S1 & S2 & S3).
  pose proof (same_moments P md x y HM Hy HS) as HMy.
  pose proof (reduce_named K ok P HMA md axis dim ds keepdims to_end x HM C) as G. pose proof (reduce_named K ok P HMA md axis' dim' ds keepdims to_end' y HMy C') as G'. destruct C as (Ids & Nds & _ & Dm & _).
  assert (Inn : forall te z n, labelled_moments P md z -> (forall n, In n (x_dims x) <-> In n (x_dims z)) -> In n (reduced_dims keepdims te (x_dims z) ds md) <-> In n (x_dims x) /\ (keepdims = false -> ~ In n ds)).
  { intros te z n Hz Sz. destruct keepdims, te; cbn [reduced_dims]; rewrite ?in_app_iff, ?except_name_In, ?in_app_iff, <- ?Sz.
    - destruct (in_dec string_dec n ds) as [Q|Q], (in_dec string_dec n md) as [Q'|Q']; split; try tauto; intros H; split; try discriminate; try tauto; try (apply Ids; tauto); try (apply Sz; apply Hz; tauto).
    - split; [intros H; split; [exact H|discriminate]|tauto].
    - split; [intros [H|H]; [tauto|]|]. + split; [apply Sz, Hz, H|]. intros _ Q. now apply (Dm n Q). + intros [H1 H2]. destruct (in_dec string_dec n md); [now right|left]. split; [exact H1|]. specialize (H2 eq_refl). tauto.
    - split; [intros [H1 H2]; tauto|intros [H1 H2]; split; auto]. }
  assert (Pm : forall n, In n md -> 0 < dim_size x n).
  { intros n Hm. destruct (pos_lt md n Hm) as [P1 P2]. destruct HM as (_ & _ & _ & Pm). rewrite <- P2, <- nth_map_dims, Pm by exact P1. pose proof (valid_zeros _ (proj2 HP)) as V0. assert (L : position String.eqb n md < List.length (pk_shape P)) by (rewrite <- Pm, map_length; exact P1). pose proof (valid_nth _ _ V0 _ L). lia. }
  assert (Rw : forall env, inside_names (dim_size x) (except_name (x_dims x) (ds ++ md)) env -> rows_named P x ds md env = rows_named P y ds md env) by (intros env I; now apply (rows_named_same P HP md ds x y env HM HS)).
  assert (Sub : forall n, In n (except_name (x_dims x) (ds ++ md)) -> In n (reduced_dims keepdims to_end (x_dims x) ds md) /\ ~ In n ds /\ ~ In n md).
  { intros n Hn. apply except_name_In in Hn. rewrite in_app_iff in Hn. rewrite (Inn to_end x n HM) by reflexivity. tauto. }
  assert (Suby : forall n, In n (except_name (x_dims y) (ds ++ md)) <-> In n (except_name (x_dims x) (ds ++ md))) by (intros n; rewrite !except_name_In, S1; tauto).
  set (zero := fun (env : sname -> nat) n => if in_dec string_dec n (ds ++ md) then 0 else env n).
  assert (Z1 : forall env te, inside_names (dim_size x) (except_name (x_dims x) (ds ++ md)) env -> inside_names (fun n => if in_dec string_dec n ds then 1 else dim_size x n) (reduced_dims keepdims te (x_dims x) ds md) (zero env)).
  { intros env te I n Hn. apply (Inn te x n HM) in Hn; [|reflexivity]. unfold zero. destruct (in_dec string_dec n (ds ++ md)) as [Q|Q].
    - destruct (in_dec string_dec n ds); [lia|]. apply in_app_or in Q. destruct Q; [tauto|]. now apply Pm.
    - destruct (in_dec string_dec n ds) as [Q'|]; [elim Q; apply in_or_app; now left|]. apply I, except_name_In. tauto. }
  assert (Z2 : forall env, rows_named P x ds md (zero env) = rows_named P x ds md env).
  { intros env. unfold rows_named. apply map_ext_in. intros i Hi. apply all_idx_valid in Hi. pose proof (valid_length _ _ Hi) as Li. rewrite map_length in Li. unfold moments_named. apply (proj1 HP). intros m Hm. pose proof (valid_length _ _ Hm) as Lm. rewrite <- (lm_len P x md HM) in Lm.
    unfold x_at. f_equal. apply map_ext_in. intros n Hn. destruct (in_dec string_dec n md) as [Q|Q]; [destruct (pos_lt md n Q) as [P1 P2]; rewrite <- P2, !name_bind_in by (auto; apply HM); reflexivity|]. rewrite !(name_bind_out md) by exact Q.
    destruct (in_dec string_dec n ds) as [Q'|Q']; [destruct (pos_lt ds n Q') as [P1 P2]; rewrite <- P2, !name_bind_in by auto; reflexivity|]. rewrite !name_bind_out by exact Q'. unfold zero. destruct (in_dec string_dec n (ds ++ md)) as [Q''|]; [|reflexivity]. apply in_app_or in Q''. tauto. }
  assert (Dx : forall env te, inside_names (fun n => if in_dec string_dec n ds then 1 else dim_size x n) (reduced_dims keepdims te (x_dims x) ds md) env -> inside_names (dim_size x) (except_name (x_dims x) (ds ++ md)) env).
  { intros env te I n Hn. pose proof (Sub n Hn) as (Q1 & Q2 & Q3). apply (Inn to_end x n HM) in Q1; [|reflexivity]. pose proof (I n (proj2 (Inn te x n HM ltac:(reflexivity)) Q1)) as L. cbv beta in L. destruct (in_dec string_dec n ds); [tauto|exact L]. }
  assert (Sy : forall env te, inside_names (fun n => if in_dec string_dec n ds then 1 else dim_size x n) (reduced_dims keepdims te (x_dims x) ds md) env ->
     inside_names (fun n => if in_dec string_dec n ds then 1 else dim_size y n) (reduced_dims keepdims to_end' (x_dims y) ds md) env).
  { intros env te I n Hn. apply (Inn to_end' y n HMy S1) in Hn. rewrite <- S2 by apply Hn. apply (I n). apply (Inn te x n HM); [reflexivity|exact Hn]. }
  unfold reduced_by_name in G, G'. cbv zeta in G, G'. destruct (x_reduce_data K P (params_for md) axis dim keepdims to_end x) as [g|e], (x_reduce_data K P (params_for md) axis' dim' keepdims to_end' y) as [g'|e']; cbn [results_agree]; [| | |exact I].
  - intros env I. destruct G as (_ & _ & _ & G), G' as (_ & _ & _ & G'). destruct (G env I) as (v & E1 & E2), (G' env (Sy env _ I)) as (v' & F1 & F2). rewrite <- (Rw env (Dx env _ I)) in F1. congruence.
  - destruct G as (_ & _ & _ & G), G' as (_ & env & I & E). assert (Ix : inside_names (dim_size x) (except_name (x_dims x) (ds ++ md)) env).
    { intros n Hn. rewrite S2 by (apply except_name_In in Hn; tauto). apply I, Suby, Hn. }
    destruct (G (zero env) (Z1 env _ Ix)) as (v & E1 & _). rewrite Z2, (Rw env Ix) in E1. congruence.
  - destruct G' as (_ & _ & _ & G'), G as (_ & env & I & E). destruct (G' (zero env) (Sy _ _ (Z1 env to_end I))) as (v & E1 & _). rewrite <- (Rw _ (Dx _ to_end (Z1 env _ I))), Z2 in E1. congruence.
Qed.
Theorem indexed_any_order : forall {A V} (K : pusher A V) ok P, moment_array K ok P ->
  forall index start end_ scale group_dim md axis dim axis' dim' d to_end to_end' x y, labelled_moments P md x -> x_ok y -> x_same x y ->
  chooses (List.length md) axis dim d x -> chooses (List.length md) axis' dim' d y -> ~ In d md -> start <> [] -> free_name x d group_dim ->
  results_agree 0%Qc (result_dims to_end (x_dims x) d (renamed d group_dim) md) (result_size (dim_size x) (renamed d group_dim) (List.length start))
    (x_reduce_data_indexed K P (params_for md) index start end_ scale group_dim axis dim to_end x) (x_reduce_data_indexed K P (params_for md) index start end_ scale group_dim axis' dim' to_end' y).
Proof.
  intros A V K ok P HMA index start end_ scale gd md axis dim axis' dim' d to_end to_end' x y HM Hy HS C C' Nd Hs Fn. pose proof (ma_packer _ _ _ HMA) as HP. pose proof (chooses_dim _ _ _ _ _ C) as Hd.
  pose proof (indexed_named K ok P HMA index start end_ scale gd md axis dim d to_end x HM C Nd) as (G1 & G2 & _). pose proof (indexed_named K ok P HMA index start end_ scale gd md axis' dim' d to_end' y (same_moments P md x y HM Hy HS) C' Nd) as (G1' & G2' & _).
  assert (Ed : dim_size x d = dim_size y d) by (apply HS; exact Hd). rewrite <- Ed in G1', G2'.
  assert (Fny : free_name y d gd) by (destruct Fn as [Q|Q]; [now left|right; intros Q'; apply Q, HS, Q']).
  assert (D : (validate_index (dim_size x d) index start end_ = Ok tt /\ (forall s, scale = Some s -> List.length s = List.length index)) \/ ~ (validate_index (dim_size x d) index start end_ = Ok tt /\ (forall s, scale = Some s -> List.length s = List.length index))).
  { destruct (validate_index (dim_size x d) index start end_) as [[]|]; [|right; intros [Q _]; discriminate]. destruct scale as [s|]; [|left; split; [reflexivity|discriminate]].
    destruct (Nat.eq_dec (List.length s) (List.length index)); [left; split; [reflexivity|intros s' [= <-]; assumption]|right; intros [_ Q]; specialize (Q s eq_refl); tauto]. }
  destruct D as [D|D]; [|rewrite (G2 D), (G2' D); exact I].
  apply (any_order P HP md d x y HM Hy HS Hd Nd 0%Qc (pk_unpack P) (fun _ rows => reduce_data_indexed K rows index start end_ scale) to_end to_end' gd (List.length start)); auto. destruct start; [tauto|cbn; lia].
Qed.

(* ---- labelled arrays and plain arrays ------------------------------------------------------------------- *)

Section Positions.
  Context {A : Type} (P : packer A) (HP : packer_ok P).
  Variables (md : list sname) (d : sname) (x : xarr).
  Hypothesis HM : labelled_moments P md x.
  Hypothesis Hd : In d (x_dims x).
  Hypothesis Nd : ~ In d md.
  Let dims := x_dims x.
  Let t := x_val x.
  Let pos n := position String.eqb n dims.
  Let a := pos d.
  Let M := map pos md.

  Lemma at_ndim : tndim t = List.length dims.
  Proof. destruct HM as ((_ & _ & L) & _). symmetry. exact L. Qed.
  Lemma at_shape n : In n dims -> shape_of t (pos n) = dim_size x n.
  Proof. reflexivity. Qed.
  Lemma pos_inj n m : In n dims -> In m dims -> pos n = pos m -> n = m.
  Proof. intros Hn Hm E. destruct (pos_lt dims n Hn) as [_ E1], (pos_lt dims m Hm) as [_ E2]. unfold pos in E. congruence. Qed.
  Lemma at_NoDup : NoDup (a :: M).
  Proof.
    change (NoDup (map pos (d :: md))). assert (G : incl (d :: md) dims) by (intros n [<-|Hn]; [exact Hd|now apply HM]). assert (N : NoDup (d :: md)) by (constructor; [exact Nd|apply HM]).
    revert G N. generalize (d :: md). induction l as [|n l IH]; intros G N; [constructor|]. inversion N; subst. cbn [map]. constructor; [|apply IH; [intros m Hm; apply G; now right|assumption]].
    intros Q. apply in_map_iff in Q. destruct Q as (m & E & Hm). apply pos_inj in E; [subst; tauto| |]; apply G; [now right|now left].
  Qed.
  Lemma at_lt n : In n dims -> pos n < tndim t.
  Proof. intros Hn. rewrite at_ndim. now apply pos_lt. Qed.
  Lemma at_axes : axis_of_moments P (map Z.of_nat M) (AInt (Z.of_nat a)) a M t.
  Proof.
    destruct HM as (Hx & Nm & Im & Pm). split; [apply Hx|]. split; [|split; [|split; [exact at_NoDup|]]].
    - assert (G : forall l, incl l dims -> Forall2 (is_axis (tndim t)) (map Z.of_nat (map pos l)) (map pos l)); [|now apply G].
      induction l as [|n l IH]; intros Il; [constructor|]. cbn [map]. constructor; [|apply IH; intros m Hm; apply Il; now right]. split; [|now left]. apply at_lt, Il. now left.
    - cbn. split; [now apply at_lt|now left].
    - rewrite <- Pm. unfold M. rewrite map_map. reflexivity.
  Qed.
  Lemma at_rows e env : (forall k, k < List.length dims -> e k = env (nth k dims "")) -> rows_along P t [a] M e = rows_named P x [d] md env.
  Proof.
    intros He. destruct HM as (Hx & Nm & Im & Pm). unfold rows_along, rows_named. change (map (shape_of t) [a]) with (map (dim_size x) [d]). apply map_ext_in. intros i Hi. apply all_idx_valid in Hi. pose proof (valid_length _ _ Hi) as Li. rewrite map_length in Li.
    unfold moment_at, moments_named. apply (proj1 HP). intros m Hm. rewrite <- Pm in Hm. pose proof (valid_length _ _ Hm) as Lm. rewrite map_length in Lm.
    unfold t. apply entry_at; [exact Hx|]. intros k Hk. fold dims in Hk |- *. set (n := nth k dims ""). assert (Hn : In n dims) by now apply nth_In.
    assert (Ek : k = pos n) by (symmetry; apply pos_nth; [apply Hx|exact Hk]).
    destruct (in_dec string_dec n md) as [Q|Q].
    - destruct (pos_lt md n Q) as [P1 P2]. assert (IM : index_of k M = position String.eqb n md).
      { pose proof at_NoDup as NM. apply NoDup_cons_iff in NM. destruct NM as [_ NM]. assert (E : k = nth (position String.eqb n md) M 0) by (unfold M; rewrite (nth_map_in _ _ _ _ "") by exact P1; rewrite P2; exact Ek). rewrite E at 1. apply index_of_nth; [assumption|]. unfold M. now rewrite map_length. }
      rewrite bind_in; [|pose proof at_NoDup as NM; inversion NM; assumption|unfold M; now rewrite map_length|unfold M; rewrite Ek; now apply in_map]. rewrite IM. rewrite <- P2. rewrite name_bind_in by auto. now rewrite P2.
    - rewrite name_bind_out by exact Q. rewrite bind_out.
      2: { intros Q'. unfold M in Q'. apply in_map_iff in Q'. destruct Q' as (n' & E & Hn'). rewrite Ek in E. apply pos_inj in E; [apply Q; rewrite <- E; exact Hn'|now apply Im|exact Hn]. }
      destruct i as [|i [|]]; try discriminate. destruct (string_dec n d) as [E|E].
      + assert (Ka : k = a) by (rewrite Ek, E; reflexivity). rewrite Ka. assert (B1 : bind [a] [i] e a = i) by (unfold bind; cbn; now rewrite Nat.eqb_refl). rewrite B1. rewrite E. unfold name_bind. cbn. now rewrite String.eqb_refl.
      + rewrite bind_out by (intros [Q'|[]]; apply E; apply pos_inj; [exact Hn|exact Hd|rewrite <- Ek; exact (eq_sym Q')]). rewrite name_bind_out by (intros [Q'|[]]; congruence). now apply He.
  Qed.
  Lemma columns_at {B T} (dflt : T) (val : B -> list nat -> T) run run' newlen r :
    by_columns dflt val run false newlen a M t r ->
    (forall e env, (forall k, k < List.length dims -> e k = env (nth k dims "")) -> run e = run' env) ->
    by_name dflt val run' dims (result_size (dim_size x) d newlen) d md (rmap (LG dims) r).
  Proof.
    intros H R. assert (Nx : NoDup dims) by apply HM. destruct r as [g|e]; cbn [rmap rbind by_name by_columns] in *.
    - destruct H as (H1 & H2 & H3). cbn [column_axes] in H2, H3. rewrite at_ndim in H2, H3.
      assert (Sz : forall k, k < List.length dims -> (if k =? a then newlen else shape_of t k) = result_size (dim_size x) d newlen (nth k dims "")).
      { intros k Hk. unfold result_size. destruct (Nat.eqb_spec k a) as [->|Q].
        - unfold a, pos. rewrite (proj2 (pos_lt dims d Hd)). now rewrite String.eqb_refl.
        - destruct (String.eqb_spec (nth k dims "") d) as [E|E]; [elim Q; unfold a; rewrite <- E; symmetry; now apply pos_nth|]. apply dim_size_nth; [apply HM|exact Hk]. }
      split; [reflexivity|]. split; [exact H1|]. split.
      { cbn [lg_val]. rewrite H2, (map_named _ dims). apply map_ext_in. intros k Hk. apply in_seq in Hk. apply Sz. lia. }
      intros env I. destruct (H3 (fun k => env (nth k dims ""))) as (rows & b & E1 & E2 & E3).
      { intros k Hk. apply in_seq in Hk. rewrite Sz by lia. apply I, nth_In. lia. }
      exists rows, b. split; [rewrite <- E1; symmetry; now apply R|]. split; [rewrite <- E2; f_equal; f_equal; symmetry; now apply pos_lt|].
      unfold l_at. cbn [lg_val lg_dims]. rewrite (map_named env dims), E3. f_equal. unfold M. rewrite map_map. apply map_ext_in. intros n Hn. f_equal. apply pos_lt. now apply HM.
    - destruct H as (e0 & I & E). exists (fun n => e0 (pos n)). split.
      + intros n Hn. apply except_name_In in Hn. destruct Hn as [H1 H2]. unfold result_size. destruct (String.eqb_spec n d) as [->|Q]; [elim H2; now left|]. rewrite <- at_shape by exact H1. apply I. apply except_In. split; [apply in_seq; split; [lia|]; now apply at_lt|].
        intros [Q'|Q']; [apply pos_inj in Q'; auto|]. unfold M in Q'. apply in_map_iff in Q'. destruct Q' as (m & Em & Hm). apply pos_inj in Em; [subst; apply H2; now right|now apply HM|exact H1].
      + rewrite <- E. symmetry. apply R. intros k Hk. f_equal. symmetry. now apply pos_nth.
  Qed.
End Positions.

(* the values that hold by name are unique *)
Lemma holds_named_unique {B T} (dflt : T) (val : B -> list nat -> T) run dims sz rd md g g' : NoDup dims ->
  holds_named dflt val run dims sz rd md g -> holds_named dflt val run dims sz rd md g' -> g = g'.
Proof.
  intros N (D1 & D2 & D3 & D4) (E1 & E2 & E3 & E4). destruct g as [dg vg], g' as [dg' vg']. cbn [lg_dims lg_val] in *. subst dg dg'. f_equal.
  apply (grid_ext dflt); [exact D2|exact E2|congruence|]. intros idx Hv. rewrite D3 in Hv. pose proof (valid_length _ _ Hv) as Lv. rewrite map_length in Lv.
  set (env := name_bind dims idx (fun _ => 0)). assert (Em : map env dims = idx) by now apply map_name_bind.
  assert (I : inside_names sz dims env). { intros n Hn. destruct (pos_lt dims n Hn) as [P1 P2]. rewrite <- P2. unfold env. rewrite name_bind_in by auto. rewrite <- nth_map_dims by exact P1. apply valid_nth; [exact Hv|]. now rewrite map_length. }
  destruct (D4 env I) as (rows & b & F1 & F2 & F3), (E4 env I) as (rows' & b' & G1 & G2 & G3). unfold l_at in F3, G3. cbn [lg_val lg_dims] in F3, G3. rewrite Em in F3, G3. congruence.
Qed.
Definition same_or_raise {T} (r r' : res T) : Prop := match r, r' with Ok g, Ok g' => g = g' | Raise _, Raise _ => True | _, _ => False end.
Lemma by_name_unique {B T} (dflt : T) (val : B -> list nat -> T) run dims sz rd md r r' : NoDup dims ->
  by_name dflt val run dims sz rd md r -> by_name dflt val run dims sz rd md r' ->
  (forall env env', (forall n, In n (except_name dims (rd :: md)) -> env n = env' n) -> run env = run env') ->
  (forall n, In n dims -> In n (rd :: md) -> 0 < sz n) -> same_or_raise r r'.
Proof.
  intros N H H' Rx Pos. pose proof (by_name_agree dflt val run run dims dims sz sz rd md r r' H H' (fun n => conj (fun h => h) (fun h => h)) (fun n _ => eq_refl) (fun env _ => eq_refl) Rx Pos) as G.
  destruct r as [g|], r' as [g'|]; cbn [results_agree same_or_raise by_name] in *; auto. eapply holds_named_unique; eassumption.
Qed.

(* the position of a dimension *)
Definition axis_no (x : xarr) (n : sname) : Z := Z.of_nat (position String.eqb n (x_dims x)).
Section SameAsArray.
  Context {A : Type} (P : packer A) (HP : packer_ok P).
  Variables (md : list sname) (d : sname) (x : xarr).
  Hypothesis HM : labelled_moments P md x.
  Hypothesis Hd : In d (x_dims x).
  Hypothesis Nd : ~ In d md.
  Lemma array_positions : axis_of_moments P (map (axis_no x) md) (AInt (axis_no x d)) (position String.eqb d (x_dims x)) (map (fun n => position String.eqb n (x_dims x)) md) (x_val x).
  Proof. pose proof (at_axes P md d x HM Hd Nd) as H. rewrite map_map in H. exact H. Qed.
  Lemma same_as_array {B T} (dflt : T) (val : B -> list nat -> T) (F : list A -> res (list B)) newlen (r : res (lgrid T)) (g : res (grid T)) : 0 < newlen ->
    by_name dflt val (fun env => F (rows_named P x [d] md env)) (x_dims x) (result_size (dim_size x) d newlen) d md r ->
    by_columns dflt val (fun e => F (rows_along P (x_val x) [position String.eqb d (x_dims x)] (map (fun n => position String.eqb n (x_dims x)) md) e)) false newlen
      (position String.eqb d (x_dims x)) (map (fun n => position String.eqb n (x_dims x)) md) (x_val x) g ->
    same_or_raise r (rmap (LG (x_dims x)) g).
  Proof.
    intros Pos H G. assert (Nx : NoDup (x_dims x)) by apply HM.
    apply (by_name_unique dflt val (fun env => F (rows_named P x [d] md env)) (x_dims x) (result_size (dim_size x) d newlen) d md); [exact Nx|exact H| | |].
    - apply (columns_at P md d x HM Hd dflt val _ _ newlen g G). intros e env He. f_equal. now apply (at_rows P HP md d x HM Hd Nd).
    - intros env env' E. f_equal. now apply (rows_named_ext P HP x md d HM).
    - intros n Hn Q. unfold result_size. destruct (String.eqb_spec n d) as [|Q']; [exact Pos|]. destruct Q as [Q|Q]; [congruence|]. destruct HM as (_ & _ & _ & Pm). destruct (pos_lt md n Q) as [P1 P2].
      rewrite <- P2, <- nth_map_dims, Pm by exact P1. pose proof (valid_zeros _ (proj2 HP)) as V0. assert (L : position String.eqb n md < List.length (pk_shape P)) by (rewrite <- Pm, map_length; exact P1). pose proof (valid_nth _ _ V0 _ L). lia.
  Qed.
End SameAsArray.
Lemma result_dims_id dims d md : result_dims false dims d d md = dims.
Proof. cbn [result_dims]. rewrite <- (map_id dims) at 2. apply map_ext. intros n. destruct (String.eqb_spec n d); congruence. Qed.
Lemma by_name_own {B T} (dflt : T) (val : B -> list nat -> T) run x d md r : by_name dflt val run (result_dims false (x_dims x) d d md) (dim_size x) d md r ->
  by_name dflt val run (x_dims x) (result_size (dim_size x) d (dim_size x d)) d md r.
Proof. rewrite result_dims_id. intros H. eapply by_name_ext; [| |exact H]; [|reflexivity]. intros n _. unfold result_size. destruct (String.eqb_spec n d); congruence. Qed.
Lemma columns_grid {B} (val : B -> list nat -> Qc) run to_end newlen a M t r : by_columns_t val run to_end newlen a M t r -> by_columns 0%Qc val run to_end newlen a M t (rmap to_grid r).
Proof. intros H. destruct r; exact H. Qed.

(* a labelled array gives what its values give with the positions of its dimensions
   as axes, under the same dimensions *)
Theorem cumulative_same_as_array : forall {A V} (K : pusher A V) ok P, moment_array K ok P ->
  forall (inverse : bool) md axis dim d x, labelled_moments P md x -> chooses (List.length md) axis dim d x -> ~ In d md -> 0 < dim_size x d ->
  same_or_raise (x_cumulative K P (params_for md) inverse axis dim false x)
    (rmap (LG (x_dims x)) (rmap to_grid (cumulative_nd K P inverse (AInt (axis_no x d)) (map (axis_no x) md) false (x_val x)))).
Proof.
  intros A V K ok P HMA inverse md axis dim d x HM HC Nd Pos. pose proof (ma_packer _ _ _ HMA) as HP. pose proof (chooses_dim _ _ _ _ _ HC) as Hd.
  pose proof (array_positions P md d x HM Hd Nd) as HA.
  exact (same_as_array P HP md d x HM Hd Nd 0%Qc (pk_unpack P) (fun rows => of_opt EZeroDiv ((if inverse then cumulative_inverse K else cumulative K) rows)) _ _ _ Pos
    (by_name_own _ _ _ _ _ _ _ (cumulative_named K ok P HMA inverse md axis dim d false x HM HC Nd)) (columns_grid _ _ _ _ _ _ _ _ (cumulative_array K ok P HMA inverse _ _ false _ _ _ HA))).
Qed.
Theorem rolling_same_as_array : forall {A V} (K : pusher A V) ok P, moment_array K ok P ->
  forall window min_periods (center : bool) zero md axis dim d x, labelled_moments P md x -> chooses (List.length md) axis dim d x -> ~ In d md -> 0 < dim_size x d -> (0 <= window)%Z ->
  same_or_raise (x_rolling_data K P (params_for md) window min_periods center zero axis dim false x)
    (rmap (LG (x_dims x)) (rolling_data_nd K P window min_periods center zero (AInt (axis_no x d)) (map (axis_no x) md) false (x_val x))).
Proof.
  intros A V K ok P HMA window mp center zero md axis dim d x HM HC Nd Pos Hw. pose proof (ma_packer _ _ _ HMA) as HP. pose proof (chooses_dim _ _ _ _ _ HC) as Hd.
  pose proof (array_positions P md d x HM Hd Nd) as HA.
  destruct (rolling_named K ok P HMA window mp center zero md axis dim d false x HM HC Nd Hw) as [H Z]. destruct (rolling_array K ok P HMA window mp center zero _ _ false _ _ _ HA Hw) as [H' Z'].
  assert (D : (center = false \/ (0 < window)%Z) \/ (center = true /\ window = 0%Z)) by (destruct center; [|auto]; destruct (Z.eq_dec window 0); [auto|left; right; lia]).
  destruct D as [D|[D1 D2]]; [|rewrite Z, Z' by assumption; exact I].
  exact (same_as_array P HP md d x HM Hd Nd None (row_entry P zero) (fun rows => if center then rolling_data_center K window mp rows
                else of_opt EZeroDiv (rolling_data K (Z.to_nat window) (match mp with None => window | Some k => k end) rows)) _ _ _ Pos (by_name_own _ _ _ _ _ _ _ (H D)) (H' D)).
Qed.
Theorem jackknife_same_as_array : forall {A V} (K : pusher A V) ok P, moment_array K ok P ->
  forall md axis dim d x, labelled_moments P md x -> chooses (List.length md) axis dim d x -> ~ In d md -> 0 < dim_size x d ->
  same_or_raise (x_jackknife_data K P (params_for md) None None axis dim false x)
    (rmap (LG (x_dims x)) (rmap to_grid (jackknife_data_nd K P None (AInt (axis_no x d)) (map (axis_no x) md) false (x_val x)))).
Proof.
  intros A V K ok P HMA md axis dim d x HM HC Nd Pos. pose proof (ma_packer _ _ _ HMA) as HP. pose proof (chooses_dim _ _ _ _ _ HC) as Hd.
  pose proof (array_positions P md d x HM Hd Nd) as HA. destruct (jackknife_named K ok P HMA None md axis dim d false x HM HC Nd) as [H _]. cbn [renamed] in H. specialize (H (or_introl eq_refl)). rewrite result_dims_id in H.
  exact (same_as_array P HP md d x HM Hd Nd 0%Qc (pk_unpack P) (fun rows => of_opt EZeroDiv (jackknife_data K rows)) _ _ _ Pos H (columns_grid _ _ _ _ _ _ _ _ (jackknife_array K ok P HMA _ _ false _ _ _ HA))).
Qed.
Theorem grouped_same_as_array : forall {A V} (K : pusher A V) ok P, moment_array K ok P ->
  forall by_ mx md axis dim d x, labelled_moments P md x -> chooses (List.length md) axis dim d x -> ~ In d md -> zmax by_ = Ok mx -> (0 <= mx)%Z ->
  same_or_raise (x_reduce_data_grouped K P (params_for md) by_ None axis dim false x)
    (rmap (LG (x_dims x)) (rmap to_grid (reduce_data_grouped_nd K P by_ (AInt (axis_no x d)) (map (axis_no x) md) false (x_val x)))).
Proof.
  intros A V K ok P HMA by_ mx md axis dim d x HM HC Nd Hz Hmx. pose proof (ma_packer _ _ _ HMA) as HP. pose proof (chooses_dim _ _ _ _ _ HC) as Hd.
  pose proof (array_positions P md d x HM Hd Nd) as HA. pose proof (grouped_named K ok P HMA by_ None md axis dim d false x HM HC Nd) as H. cbn [renamed] in H. cbv zeta in H. rewrite Hz in H. destruct H as (H1 & H2 & _).
  pose proof (grouped_array K ok P HMA by_ _ _ false _ _ _ HA) as G. rewrite Hz in G. destruct G as [G1 G2]. change (shape_of (x_val x) (position String.eqb d (x_dims x))) with (dim_size x d) in G1, G2.
  destruct (Nat.eq_dec (List.length by_) (dim_size x d)) as [E|E]; [|rewrite H2, G2 by (now left); exact I].
  specialize (H1 E ltac:(lia) (or_introl eq_refl)). rewrite result_dims_id in H1. specialize (G1 E ltac:(lia)).
  refine (same_as_array P HP md d x HM Hd Nd 0%Qc (pk_unpack P) (fun rows => reduce_data_grouped K by_ rows) _ _ _ _ H1 (columns_grid _ _ _ _ _ _ _ _ G1)). lia.
Qed.
Theorem indexed_same_as_array : forall {A V} (K : pusher A V) ok P, moment_array K ok P ->
  forall index start end_ scale md axis dim d x, labelled_moments P md x -> chooses (List.length md) axis dim d x -> ~ In d md -> start <> [] ->
  same_or_raise (x_reduce_data_indexed K P (params_for md) index start end_ scale None axis dim false x)
    (rmap (LG (x_dims x)) (rmap to_grid (reduce_data_indexed_nd K P index start end_ scale (AInt (axis_no x d)) (map (axis_no x) md) false (x_val x)))).
Proof.
  intros A V K ok P HMA index start end_ scale md axis dim d x HM HC Nd Hs. pose proof (ma_packer _ _ _ HMA) as HP. pose proof (chooses_dim _ _ _ _ _ HC) as Hd.
  pose proof (array_positions P md d x HM Hd Nd) as HA. pose proof (indexed_named K ok P HMA index start end_ scale None md axis dim d false x HM HC Nd) as (H1 & H2 & _). cbn [renamed] in H1.
  pose proof (indexed_array K ok P HMA index start end_ scale _ _ false _ _ _ HA) as [G1 G2]. change (shape_of (x_val x) (position String.eqb d (x_dims x))) with (dim_size x d) in G1, G2.
  assert (D : (validate_index (dim_size x d) index start end_ = Ok tt /\ (forall s, scale = Some s -> List.length s = List.length index)) \/ ~ (validate_index (dim_size x d) index start end_ = Ok tt /\ (forall s, scale = Some s -> List.length s = List.length index))).
  { destruct (validate_index (dim_size x d) index start end_) as [[]|]; [|right; intros [Q _]; discriminate]. destruct scale as [s|]; [|left; split; [reflexivity|discriminate]].
    destruct (Nat.eq_dec (List.length s) (List.length index)); [left; split; [reflexivity|intros s' [= <-]; assumption]|right; intros [_ Q]; specialize (Q s eq_refl); tauto]. }
  destruct D as [D|D]; [|rewrite (H2 D), (G2 D); exact I]. specialize (H1 D (or_introl eq_refl)). rewrite result_dims_id in H1.
  refine (same_as_array P HP md d x HM Hd Nd 0%Qc (pk_unpack P) (fun rows => reduce_data_indexed K rows index start end_ scale) _ _ _ _ H1 (columns_grid _ _ _ _ _ _ _ _ (G1 D))). destruct start; [tauto|cbn; lia].
Qed.
