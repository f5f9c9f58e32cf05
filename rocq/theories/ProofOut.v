(* Writing results through views of out=. *)
From Coq Require Import String Permutation.
From Verif Require Import Base BaseLemmas ModelPush ModelKernels ModelIndex ModelAxes ModelState ModelParams ModelWrap ModelNd ModelLabel ModelMoments ModelMomentsX ModelOut Spec SpecAxes SpecNd SpecLabel SpecOut.
From Verif Require Import ProofAxes ProofArrays ProofNd PropAxes PropParams PropLabelled PropNdUse ProofLabel.
Local Open Scope string_scope.
Local Open Scope nat_scope.

Lemma view_axes_ok moves n o : view_axes moves n = Ok o -> Permutation o (seq 0 n).
Proof.
  destruct moves as [[s d]|]; cbn [view_axes]; [|now intros [= <-]]. unfold moveaxis_order.
  destruct (normalize_axis_tuple (Some (map AInt s)) n None false) as [s'|] eqn:Es; [|discriminate].
  destruct (normalize_axis_tuple (Some (map AInt d)) n None false) as [d'|] eqn:Ed; [|discriminate]. cbn [rbind]. intros E.
  apply normalize_tuple_ok in Es, Ed. destruct Es as [Es Ns], Ed as [Ed Nd].
  assert (U : forall l r, Forall2 (names_axis n (mnum None)) (map AInt l) r -> Forall2 (is_axis n) l r).
  { induction l as [|x t IH]; intros r Hr; inversion Hr; subst; constructor; auto. }
  apply U in Es, Ed. destruct (moveaxis_core_moves n s' d') as (o' & E' & (P & _)); auto.
  - unfold moveaxis_core in E. destruct (Nat.eqb_spec (List.length s') (List.length d')); [assumption|discriminate].
  - exact (is_axis_range _ _ _ Es).
  - exact (is_axis_range _ _ _ Ed).
  - rewrite E in E'. now injection E' as ->.
Qed.
Lemma view_axes_err moves n e : view_axes moves n = Raise e -> e = EValue.
Proof.
  destruct moves as [[s d]|]; cbn [view_axes]; [|discriminate]. unfold moveaxis_order.
  destruct (normalize_axis_tuple (Some (map AInt s)) n None false) as [s'|e'] eqn:Es; cbn [rbind]; [|intros [= <-]; exact (normalize_tuple_err _ _ _ _ _ Es)].
  destruct (normalize_axis_tuple (Some (map AInt d)) n None false) as [d'|e'] eqn:Ed; cbn [rbind]; [|intros [= <-]; exact (normalize_tuple_err _ _ _ _ _ Ed)].
  unfold moveaxis_core. destruct (negb _); [congruence|discriminate].
Qed.

Section View.
  Context {T : Type} (dflt : T).

  (* y is g with the axes in the order Dx; the view of an array like y with axes vo is
     an array like g *)
  Lemma view_fills sz D Dx (g y : lgrid T) moves vo : NoDup Dx -> l_named sz D g -> l_named sz Dx y ->
    (forall env, inside_names sz D env -> l_at dflt y env = l_at dflt g env) ->
    view_axes moves (List.length Dx) = Ok vo -> map (fun a => nth a Dx "") vo = D ->
    forall out, (gshape out = gshape (lg_val y) -> with_out dflt (Ok moves) out (Ok g) = Ok (lg_val y)) /\
      (gshape out <> gshape (lg_val y) -> with_out dflt (Ok moves) out (Ok g) = Raise EValue).
  Proof.
    intros Nx (Dg & Gg & Sg) (Dy & Gy & Sy) At Ev Em out. pose proof (view_axes_ok _ _ _ Ev) as Pv. unfold with_out. cbn [rbind].
    assert (Bv : forall a, In a vo -> a < List.length Dx) by (intros a Ha; apply (Permutation_in _ Pv), in_seq in Ha; lia).
    assert (Es : map (fun a => nth a (map sz Dx) 0) vo = map sz D).
    { rewrite <- Em, map_map. apply map_ext_in. intros a Ha. now apply nth_map_dims, Bv. }
    split.
    - intros So. rewrite So, Sy, map_length, Ev. cbn [rbind]. unfold write_view. rewrite So, Sy, Sg, Es. destruct (list_eq_dec Nat.eq_dec (map sz D) (map sz D)) as [_|Q]; [|congruence]. f_equal.
      apply (grid_ext dflt); [apply gtabulate_ok|exact Gy|now rewrite Sy|]. intros i Hi. cbn [gtabulate gshape] in Hi.
      assert (Li : List.length i = List.length Dx) by (rewrite (valid_length _ _ Hi); apply map_length).
      rewrite gget_gtabulate by exact Hi. set (env := name_bind Dx i (fun _ => 0)).
      assert (Ei : map env Dx = i) by (now apply map_name_bind).
      assert (EI : map (fun a => nth a i 0) vo = map env D).
      { rewrite <- Em, map_map. apply map_ext_in. intros a Ha. symmetry. apply name_bind_in; auto. }
      rewrite EI. assert (He : inside_names sz D env).
      { intros n Hn. rewrite <- Em in Hn. apply in_map_iff in Hn. destruct Hn as (a & <- & Ha). unfold env. rewrite name_bind_in by auto. rewrite <- nth_map_dims by auto.
        apply (valid_nth _ _ Hi). rewrite map_length. auto. }
      pose proof (At env He) as X. unfold l_at in X. rewrite Dg, Dy, Ei in X. now symmetry.
    - intros So. destruct (view_axes moves (List.length (gshape out))) as [o|e] eqn:Eo; cbn [rbind]; [|now rewrite (view_axes_err _ _ _ Eo)].
      unfold write_view. destruct (list_eq_dec _ _ _) as [Q|_]; [|reflexivity]. exfalso. apply So. rewrite Sy. rewrite Sg in Q.
      pose proof (view_axes_ok _ _ _ Eo) as Po.
      assert (L : List.length (gshape out) = List.length Dx).
      { apply Permutation_length in Po, Pv. rewrite seq_length in Po, Pv. rewrite <- Po. apply (f_equal (@List.length nat)) in Q. rewrite !map_length in Q. rewrite Q, <- Em, map_length. exact Pv. }
      rewrite L, Ev in Eo. injection Eo as <-. rewrite <- Es in Q. pose proof (map_inj_in _ _ _ Q) as X. apply (nth_ext _ _ 0 0); [now rewrite map_length|].
      intros a Ha. apply X. apply (Permutation_in _ (Permutation_sym Pv)). apply in_seq. lia.
  Qed.
  Lemma plain_fills (y : lgrid T) : grid_ok (lg_val y) -> forall out,
    (gshape out = gshape (lg_val y) -> with_out dflt (Ok None) out (Ok y) = Ok (lg_val y)) /\ (gshape out <> gshape (lg_val y) -> with_out dflt (Ok None) out (Ok y) = Raise EValue).
  Proof.
    intros G out. unfold with_out, view_axes, write_view. cbn [rbind]. rewrite map_nth_seq by reflexivity. destruct (list_eq_dec _ _ _) as [E|E]; [|tauto]. split; [|tauto]. intros _. f_equal.
    apply (grid_ext dflt); [apply gtabulate_ok|exact G|exact E|]. intros i Hi. cbn [gtabulate gshape] in Hi. rewrite gget_gtabulate by exact Hi. now rewrite map_nth_seq by (symmetry; now apply valid_length).
  Qed.
  Lemma shaped_named D (g : lgrid T) : NoDup D -> lg_dims g = D -> grid_ok (lg_val g) -> List.length (gshape (lg_val g)) = List.length D -> exists sz, l_named sz D g.
  Proof.
    intros N E G L. exists (fun n => nth (position String.eqb n D) (gshape (lg_val g)) 0). split; [exact E|]. split; [exact G|].
    rewrite (map_named (fun n => nth (position String.eqb n D) (gshape (lg_val g)) 0) D). rewrite <- (map_nth_seq (gshape (lg_val g)) 0 (List.length D)) at 1 by now symmetry. apply map_ext_in. intros a Ha. apply in_seq in Ha. now rewrite pos_nth by (auto; lia).
  Qed.
End View.

(* ---- the dimensions of the result of apply_ufunc ------------------------------------------------- *)

Lemma unify_names excl l : forall s s' pre, foldR (unify_dim excl) l s = Ok s' -> map fst s = first_seen (except_name pre excl) ->
  map fst s' = first_seen (except_name (pre ++ map fst l) excl).
Proof.
  induction l as [|[n k] l IH]; intros s s' pre; cbn [foldR map fst]; [intros [= <-]; now rewrite app_nil_r|]. unfold unify_dim at 1. cbn [fst snd].
  replace (pre ++ n :: map fst l)%list with ((pre ++ [n]) ++ map fst l)%list by now rewrite <- app_assoc.
  assert (Ex : except_name (pre ++ [n]) excl = if smem n excl then except_name pre excl else (except_name pre excl ++ [n])%list).
  { unfold except. rewrite filter_app. cbn [filter]. destruct (in_dec string_dec n excl) as [H|H]; [apply smem_In in H|apply smem_false in H]; rewrite H; [apply app_nil_r|reflexivity]. }
  destruct (smem n excl) eqn:S; cbn [rbind]; [intros E M; apply (IH s); [exact E|]; now rewrite Ex|].
  intros E M. unfold lookup in E. destruct (find (fun p => String.eqb (fst p) n) s) as [p|] eqn:F.
  - destruct (Nat.eqb (snd p) k); [|discriminate]. cbn [rbind] in E. apply (IH s); [exact E|]. rewrite Ex, first_seen_snoc.
    assert (X : smem n (except_name pre excl) = true).
    { apply find_some in F. destruct F as [F1 F2]. apply String.eqb_eq in F2. apply smem_In, first_seen_In. rewrite <- M. apply in_map_iff. eauto. }
    now rewrite X.
  - cbn [rbind] in E. apply (IH (s ++ [(n, k)])%list); [exact E|]. rewrite Ex, first_seen_snoc, map_app, M. cbn [map fst].
    assert (X : smem n (except_name pre excl) = false).
    { apply smem_false. intros Q. rewrite <- first_seen_In, <- M in Q. apply in_map_iff in Q. destruct Q as (p & Q1 & Q2). apply (find_none _ _ F) in Q2. rewrite Q1, String.eqb_refl in Q2. discriminate. }
    now rewrite X.
Qed.
Lemma unified_names excl xs sz : Forall x_ok xs -> unified_dim_sizes excl xs = Ok sz -> map fst sz = first_seen (except_name (flat_map x_dims xs) excl).
Proof.
  intros H. unfold unified_dim_sizes.
  assert (G : forall xs s s' pre, Forall x_ok xs -> foldR (fun sz x => if sdup (x_dims x) then Raise EValue else foldR (unify_dim excl) (combine (x_dims x) (x_shape x)) sz) xs s = Ok s' ->
    map fst s = first_seen (except_name pre excl) -> map fst s' = first_seen (except_name (pre ++ flat_map x_dims xs) excl)).
  { clear. induction xs as [|x xs IH]; intros s s' pre H E M; cbn [foldR flat_map] in *; [injection E as <-; now rewrite app_nil_r|]. inversion H as [|? ? Hx Hxs]; subst. destruct (sdup (x_dims x)); [discriminate|].
    destruct (foldR (unify_dim excl) (combine (x_dims x) (x_shape x)) s) as [s1|] eqn:E1; [|discriminate]. cbn [rbind] in E. rewrite app_assoc. apply (IH s1); auto.
    rewrite (combine_named x Hx) in E1. apply (unify_names excl _ s s1 pre) in E1; [|exact M]. rewrite map_map in E1. cbn [fst] in E1. now rewrite map_id in E1. }
  intros E. now apply (G xs [] sz []).
Qed.
Lemma apply_ufunc_dims {T} (args : list (xop * list sname)) out_core excl (f : list tensor -> res (grid T)) g :
  Forall x_ok (labelled_of (map fst args)) -> apply_ufunc args out_core excl f = Ok g ->
  lg_dims g = (outer_dims excl (flat_map snd args ++ out_core) (labelled_of (map fst args)) ++ out_core)%list /\
  List.length (gshape (lg_val g)) = List.length (lg_dims g) /\ exists ts, f ts = Ok (lg_val g).
Proof.
  intros H. unfold apply_ufunc. destruct (unified_dim_sizes excl _) as [sz|] eqn:U; [|discriminate]. cbn [rbind]. apply unified_names in U; [|exact H].
  destruct (mapR _ args) as [ts|]; [|discriminate]. cbn [rbind]. destruct (f ts) as [r|] eqn:F; [|discriminate]. cbn [rbind].
  destruct (Nat.eqb_spec (List.length (gshape r)) (List.length (filter (fun d => negb (smem d (flat_map snd args ++ out_core))) (map fst sz) ++ out_core))) as [L|]; [|discriminate]. cbn [negb].
  destruct (existsb _ _); [discriminate|]. intros [= <-]. cbn [lg_dims lg_val]. rewrite filter_names, U. split; [reflexivity|]. split; [|eauto]. now rewrite L, filter_names, U.
Qed.
Lemma first_seen_app a b : NoDup a -> first_seen (a ++ b) = (a ++ first_seen (except_name b a))%list.
Proof.
  intros N. induction b as [|n b IH] using rev_ind; [rewrite app_nil_r; cbn; rewrite app_nil_r; now apply first_seen_fixed|]. rewrite app_assoc, first_seen_snoc, IH.
  unfold except. rewrite filter_app. cbn [filter]. destruct (in_dec string_dec n a) as [H|H].
  - rewrite app_nil_r. assert (X : smem n (a ++ b) = true) by (apply smem_In, in_or_app; now left). now rewrite X.
  - rewrite first_seen_snoc. fold (except_name b a). destruct (smem n (except_name b a)) eqn:S.
    + apply smem_In, except_name_In in S. assert (X : smem n (a ++ b) = true) by (apply smem_In, in_or_app; tauto). now rewrite X.
    + apply smem_false in S. assert (X : smem n (a ++ b) = false) by (apply smem_false; intros Q; apply in_app_or in Q; rewrite except_name_In in S; tauto). now rewrite X, app_assoc.
Qed.
Lemma except_ext l e e' : (forall n, In n l -> In n e <-> In n e') -> except_name l e = except_name l e'.
Proof. unfold except. intros H. apply filter_ext_in. intros n Hn. specialize (H n Hn). destruct (in_dec string_dec n e), (in_dec string_dec n e'); tauto. Qed.
Lemma except_twice l e e' : except_name (except_name l e) e' = except_name l (e ++ e').
Proof.
  unfold except. rewrite filter_twice. apply filter_ext. intros n. destruct (in_dec string_dec n e), (in_dec string_dec n e'), (in_dec string_dec n (e ++ e')) as [q|q]; rewrite in_app_iff in q; cbn [andb]; tauto.
Qed.
Lemma outer_first excl core x xs : NoDup (x_dims x) -> incl excl core -> (forall n, In n (flat_map x_dims xs) -> In n (x_dims x) \/ In n core) ->
  outer_dims excl core (x :: xs) = except_name (x_dims x) core.
Proof.
  intros N I H. unfold outer_dims. cbn [flat_map]. rewrite except_app, first_seen_app by (now apply NoDup_filter). rewrite except_app, except_twice.
  rewrite (except_ext (x_dims x) (excl ++ core) core) by (intros n _; rewrite in_app_iff; firstorder). rewrite <- (app_nil_r (except_name (x_dims x) core)) at 2. f_equal.
  apply filter_none. intros n Hn. rewrite first_seen_In, !except_name_In in Hn. destruct Hn as [[H1 H2] H3]. destruct (in_dec string_dec n core) as [|Q]; [reflexivity|].
  exfalso. destruct (H n H1); [|tauto]. apply H3. split; auto.
Qed.

(* ---- results are whole arrays -------------------------------------------------------------------- *)

Lemma rmap_inv {X Y} (f : X -> Y) r y : rmap f r = Ok y -> exists x, r = Ok x /\ y = f x.
Proof. destruct r; [|discriminate]. intros [= <-]. eauto. Qed.
Lemma gufunc_grid {T} (d : T) args oc cs f g : gufunc d args oc cs f = Ok g -> grid_ok g.
Proof.
  unfold gufunc. destruct (mapR core_axes args); [|discriminate]. cbn [rbind]. destruct (broadcast_shapes _); [|discriminate]. cbn [rbind]. destruct (normalize_axis_tuple _ _ _ _); [|discriminate]. cbn [rbind].
  destruct (mapR _ (all_idx _)); [|discriminate]. intros [= <-]. apply gtabulate_ok.
Qed.
Lemma gufunc_inout_grid {B T} (init : B) (get : B -> list nat -> T) args os oc f g : gufunc_inout init get args os oc f = Ok g -> grid_ok g.
Proof.
  unfold gufunc_inout. destruct (mapR core_axes args); [|discriminate]. cbn [rbind]. destruct (normalize_axis_tuple _ _ _ _); [|discriminate]. cbn [rbind]. destruct (broadcast_shapes _); [|discriminate]. cbn [rbind].
  destruct (foldR _ _ _); [|discriminate]. intros [= <-]. apply gtabulate_ok.
Qed.
Lemma to_tensor_grid (g : grid Qc) : to_grid (to_tensor g) = g.
Proof. now destruct g. Qed.
Lemma zero_missing_ok m z g : grid_ok g -> grid_ok (zero_missing m z g).
Proof. unfold zero_missing. destruct z; [intros _; apply gtabulate_ok|auto]. Qed.
(* the grid of a result: every path ends in a gufunc call *)
Ltac whole_step := match goal with
  | H : rbind ?r _ = Ok _ |- _ => let E := fresh "E" in destruct r eqn:E; [cbn [rbind] in H|discriminate H]
  | H : (let '(_, _) := ?p in _) = Ok _ |- _ => destruct p
  | H : (if ?b then _ else _) = Ok _ |- _ => let E := fresh "B" in destruct b eqn:E; try discriminate H
  | H : match ?l with [] => _ | _ :: _ => _ end = Ok _ |- _ => destruct l; try discriminate H
  | H : rmap _ _ = Ok _ |- _ => let E := fresh "E" in apply rmap_inv in H; destruct H as (? & H & E); subst; try rewrite to_tensor_grid
  | H : gufunc _ _ _ _ _ = Ok _ |- _ => apply gufunc_grid in H
  | H : gufunc_inout _ _ _ _ _ _ = Ok _ |- _ => apply gufunc_inout_grid in H
  end.
Ltac whole := intros; repeat (cbv zeta in *; whole_step); try apply zero_missing_ok; try assumption.

Section Whole.
  Context {A V : Type} (K : pusher A V) (P : packer A) (R : reader V).
  Lemma cumulative_whole inverse ax mom e t g : rmap to_grid (cumulative_nd K P inverse ax mom e t) = Ok g -> grid_ok g.
  Proof. unfold cumulative_nd. whole. Qed.
  Lemma resample_data_whole f a mom t g : rmap to_grid (resample_data_at K P f a mom t) = Ok g -> grid_ok g.
  Proof. unfold resample_data_at. whole. Qed.
  Lemma grouped_whole b ax mom e t g : rmap to_grid (reduce_data_grouped_nd K P b ax mom e t) = Ok g -> grid_ok g.
  Proof. unfold reduce_data_grouped_nd. whole. Qed.
  Lemma indexed_whole i s e' sc ax mom e t g : rmap to_grid (reduce_data_indexed_nd K P i s e' sc ax mom e t) = Ok g -> grid_ok g.
  Proof. unfold reduce_data_indexed_nd. whole. Qed.
  Lemma jackknife_whole r a mom t g : rmap to_grid (jackknife_data_at K P r a mom t) = Ok g -> grid_ok g.
  Proof. unfold jackknife_data_at. whole. Qed.
  Lemma rolling_whole w mp c z ax mom e t g : rolling_data_nd K P w mp c z ax mom e t = Ok g -> grid_ok g.
  Proof. unfold rolling_data_nd. whole. destruct c; [apply gtabulate_ok|assumption]. Qed.
  Lemma rolling_exp_whole al aa adj mp z a mom t g : rolling_exp_data_at K P al aa adj mp z a mom t = Ok g -> grid_ok g.
  Proof. unfold rolling_exp_data_at. whole. Qed.
  Lemma reduce_vals_whole ax x w y g : rmap to_grid (reduce_vals_nd K P R ax x w y) = Ok g -> grid_ok g.
  Proof. unfold reduce_vals_nd. whole. Qed.
  Lemma resample_vals_whole f ax e x w y g : rmap to_grid (resample_vals_nd K P R f ax e x w y) = Ok g -> grid_ok g.
  Proof. unfold resample_vals_nd. whole. Qed.
  Lemma jackknife_vals_whole r ax e x w y g : rmap to_grid (jackknife_vals_nd K P R r ax e x w y) = Ok g -> grid_ok g.
  Proof. unfold jackknife_vals_nd. whole. Qed.
  Lemma rolling_vals_whole w' mp c z ax e x w y g : rolling_vals_nd K P R w' mp c z ax e x w y = Ok g -> grid_ok g.
  Proof. unfold rolling_vals_nd. whole. destruct c; [apply gtabulate_ok|assumption]. Qed.
  Lemma rolling_exp_vals_whole al adj mp z ax e x w y g : rolling_exp_vals_nd K P R al adj mp z ax e x w y = Ok g -> grid_ok g.
  Proof. unfold rolling_exp_vals_nd. whole. Qed.
End Whole.
