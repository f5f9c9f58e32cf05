(* Reductions do not depend on the names of dimensions (C200). *)
From Coq Require Import String Permutation.
From Verif Require Import Base BaseLemmas Checks ModelPush ModelPushCov ModelKernels ModelIndex ModelAxes ModelSelect ModelParams ModelWrap ModelNd ModelLabel ModelSwap
  Spec SpecAxes SpecNd SpecLabel SpecLabelTwo ProofAxes ProofArrays ProofIndex ProofMulti ProofNd PropAxes PropParams PropWrap PropReshape PropLabelled PropNd PropNdUse ProofLabel ProofLabelMany PropLabel PropLabelTwo PropLabelReduce PropLabelJack PropShape PropShapeUse PropSwap.
Local Open Scope string_scope.
Local Open Scope nat_scope.

(* the second result is the first with dimension n called f n; the same error *)
Definition renamed_result (f : sname -> sname) (r r' : res (lgrid Qc)) : Prop :=
  match r, r' with Ok g, Ok h => renamed f (to_xarr g) (to_xarr h) | Raise e, Raise e' => e = e' | _, _ => False end.

Lemma NoDup_map_eq {X Y} (f : X -> Y) l a b : NoDup (map f l) -> In a l -> In b l -> f a = f b -> a = b.
Proof.
  induction l as [|c l IH]; [intros _ []|]. cbn [map]. intros N. inversion_clear N as [|? ? Nc N']. intros [->|Ia] [->|Ib] E; [reflexivity| | |now apply IH].
  - elim Nc. rewrite E. now apply in_map.
  - elim Nc. rewrite <- E. now apply in_map.
Qed.
Lemma reduced_In kd te dims ds md n : incl ds dims -> incl md dims -> (forall m, In m ds -> ~ In m md) -> In n (reduced_dims kd te dims ds md) <-> In n dims /\ (kd = true \/ ~ In n ds).
Proof.
  intros I1 I2 D. unfold reduced_dims. destruct kd, te; rewrite ?in_app_iff, ?except_name_In, ?in_app_iff.
  - destruct (in_dec string_dec n ds) as [A|A], (in_dec string_dec n md) as [B|B]; split; intros H; try tauto; (split; [|now left]; destruct H as [H|[H|H]]; [tauto|now apply I1|now apply I2]).
  - tauto.
  - split; [intros [[H1 H2]|H]; [split; [exact H1|right; tauto]|split; [now apply I2|right; intros Q; now apply (D n Q)]]|]. intros [H1 [H2|H2]]; [discriminate H2|]. destruct (in_dec string_dec n md); [now right|left; tauto].
  - split; [intros [H1 H2]; auto|intros [H1 [H2|H2]]; [discriminate H2|auto]].
Qed.
Lemma reduced_NoDup kd te dims ds md : NoDup dims -> NoDup ds -> NoDup md -> (forall m, In m ds -> ~ In m md) -> NoDup (reduced_dims kd te dims ds md).
Proof.
  intros N1 N2 N3 D. assert (Q : NoDup (ds ++ md)) by (apply NoDup_app_; [exact N2|exact N3|exact D]). unfold reduced_dims. destruct kd, te; [|exact N1| |now apply NoDup_filter].
  - apply NoDup_app_; [now apply NoDup_filter|exact Q|]. intros n Hn. now apply except_name_In in Hn.
  - apply NoDup_app_; [now apply NoDup_filter|exact N3|]. intros n Hn Hm. apply except_name_In in Hn. rewrite in_app_iff in Hn. tauto.
Qed.

Section Renamed.
  Context {A V : Type} (K : pusher A V) (ok : A -> Prop) (P : packer A).
  Hypothesis MA : moment_array K ok P.
  Context (md ds : list sname) (f : sname -> sname) (x y : xarr).
  Hypothesis HM : labelled_moments P md x.
  Hypothesis Hy : x_ok y.
  Hypothesis Hr : renamed f x y.
  Hypothesis Nf : NoDup (map f (x_dims x)).
  Hypothesis Fm : forall m, In m md -> f m = m.
  Hypothesis Id : incl ds (x_dims x).
  Hypothesis Nd : NoDup ds.
  Hypothesis Dm : forall n, In n ds -> ~ In n md.
  Let HP := ma_packer _ _ _ MA.

  Lemma f_inj a b : In a (x_dims x) -> In b (x_dims x) -> f a = f b -> a = b.
  Proof. now apply NoDup_map_eq. Qed.
  Lemma f_mom n : In n (x_dims x) -> In (f n) md <-> In n md.
  Proof. intros Hn. split; intros H; [|now rewrite Fm]. assert (E : n = f n) by (apply f_inj; [exact Hn|now apply HM|symmetry; now apply Fm]). now rewrite E. Qed.
  Lemma f_ds n : In n (x_dims x) -> In (f n) (map f ds) <-> In n ds.
  Proof. intros Hn. split; [|apply in_map]. intros H. apply in_map_iff in H. destruct H as (d & E & H). apply f_inj in E; [now subst|now apply Id|exact Hn]. Qed.
  Lemma f_ds_NoDup : NoDup (map f ds).
  Proof. apply NoDup_map_in; [exact Nd|]. intros a b Ha Hb. apply f_inj; now apply Id. Qed.
  Lemma f_ds_mom n : In n (map f ds) -> ~ In n md.
  Proof. intros H. apply in_map_iff in H. destruct H as (d & <- & H). intros Q. exact (Dm d H (proj1 (f_mom d (Id d H)) Q)). Qed.
  Lemma y_moments : labelled_moments P md y.
  Proof.
    destruct HM as (Hx & Nm & Im & Mm). destruct Hr as (R1 & R2 & _). split; [exact Hy|]. split; [exact Nm|]. split; [intros m Hm; apply R1; rewrite <- (Fm m Hm); apply in_map; now apply Im|].
    rewrite <- Mm. apply map_ext_in. intros m Hm. rewrite <- (Fm m Hm) at 1. apply R2. now apply Im.
  Qed.
  Lemma y_name n : In n (x_dims y) -> exists m, In m (x_dims x) /\ f m = n.
  Proof. intros H. apply Hr in H. apply in_map_iff in H. destruct H as (m & E & I). now exists m. Qed.
  Lemma bind_f i env n : List.length i = List.length ds -> In n ds -> name_bind (map f ds) i env (f n) = name_bind ds i (fun k => env (f k)) n.
  Proof.
    intros L I. destruct (In_nth ds n "" I) as (k & Hk & <-). rewrite (name_bind_in ds) by auto. assert (E : f (nth k ds "") = nth k (map f ds) "") by (symmetry; rewrite (nth_indep _ "" (f "")) by (now rewrite map_length); apply map_nth).
    rewrite E. apply name_bind_in; [apply f_ds_NoDup|now rewrite map_length|now rewrite map_length].
  Qed.
  (* the same samples *)
  Lemma renamed_rows env : inside_names (dim_size y) (except_name (x_dims y) (map f ds ++ md)) env -> rows_named P y (map f ds) md env = rows_named P x ds md (fun n => env (f n)).
  Proof.
    intros Ie. pose proof HM as (Hx & Nm & Im & Mm). pose proof Hr as (R1 & R2 & R3). unfold rows_named. rewrite map_map. rewrite (map_ext_in (fun d => dim_size y (f d)) (dim_size x)) by (intros d Hd; apply R2; now apply Id).
    apply map_ext_in. intros i Hi. apply all_idx_valid in Hi. assert (Li : List.length i = List.length ds) by (rewrite <- (map_length (dim_size x) ds); exact (valid_length _ _ Hi)).
    unfold moments_named. apply HP. intros m Vm. assert (Lm : List.length m = List.length md) by (rewrite <- (map_length (dim_size x) md), Mm; exact (valid_length _ _ Vm)).
    set (E := name_bind md m (name_bind (map f ds) i env)). set (E' := name_bind md m (name_bind ds i (fun n => env (f n)))).
    assert (EE : forall n, In n (x_dims x) -> E (f n) = E' n).
    { intros n Hn. unfold E, E'. destruct (in_dec string_dec n md) as [M|M]; [rewrite (Fm n M); now apply name_bind_any|]. rewrite (name_bind_out md m _ n M). rewrite name_bind_out by (intros Q; apply M; now apply f_mom).
      destruct (in_dec string_dec n ds) as [J|J]; [now apply bind_f|]. rewrite (name_bind_out ds) by exact J. rewrite name_bind_out; [reflexivity|]. intros Q. apply J. now apply f_ds. }
    rewrite R3; [now apply x_at_agree|]. intros k Hk. destruct (y_name k Hk) as (n & Hn & <-). rewrite (EE n Hn), (R2 n Hn). unfold E'. destruct (in_dec string_dec n md) as [M|M].
    - destruct (In_nth md n "" M) as (j & J1 & <-). rewrite name_bind_in by auto. rewrite <- Mm in Vm. pose proof (valid_nth _ _ Vm j ltac:(now rewrite map_length)) as Q. now rewrite nth_map_dims in Q.
    - rewrite name_bind_out by exact M. destruct (in_dec string_dec n ds) as [J|J].
      + destruct (In_nth ds n "" J) as (j & J1 & <-). rewrite name_bind_in by auto. pose proof (valid_nth _ _ Hi j ltac:(now rewrite map_length)) as Q. now rewrite nth_map_dims in Q.
      + rewrite name_bind_out by exact J. rewrite <- (R2 n Hn). apply Ie. apply except_name_In. split; [exact Hk|]. rewrite in_app_iff, (f_ds n Hn), (f_mom n Hn). tauto.
  Qed.

  Theorem reduce_renamed keepdims to_end : ds <> [] ->
    renamed_result f (x_reduce_data K P (params_for md) Missing (Val (DSeq ds)) keepdims to_end x) (x_reduce_data K P (params_for md) Missing (Val (DSeq (map f ds))) keepdims to_end y).
  Proof.
    intros Ne. pose proof HM as (Hx & Nm & Im & Mm). pose proof Hr as (R1 & R2 & R3). pose proof y_moments as HMy. pose proof HMy as (_ & _ & Imy & _).
    assert (Idy : incl (map f ds) (x_dims y)) by (intros n Hn; apply R1; apply in_map_iff in Hn; destruct Hn as (d & <- & Hd); apply in_map; now apply Id).
    assert (Cx : chooses_many md Missing (Val (DSeq ds)) ds x) by (split; [exact Id|]; split; [exact Nd|]; split; [exact Ne|]; split; [exact Dm|]; right; right; left; auto).
    assert (Cy : chooses_many md Missing (Val (DSeq (map f ds))) (map f ds) y).
    { split; [exact Idy|]. split; [exact f_ds_NoDup|]. split; [intros Q; apply Ne; now apply map_eq_nil in Q|]. split; [exact f_ds_mom|]. right; right; left; auto. }
    pose proof (reduce_named K ok P MA md _ _ _ keepdims to_end x HM Cx) as Rx. pose proof (reduce_named K ok P MA md _ _ _ keepdims to_end y HMy Cy) as Ry.
    set (rx := x_reduce_data _ _ _ _ _ _ _ x) in *. set (ry := x_reduce_data _ _ _ _ _ _ _ y) in *. clearbody rx ry. unfold reduced_by_name in Rx, Ry. cbv zeta in Rx, Ry.
    set (dx := reduced_dims keepdims to_end (x_dims x) ds md) in *. set (dy := reduced_dims keepdims to_end (x_dims y) (map f ds) md) in *.
    set (sx := fun n => if in_dec string_dec n ds then 1 else dim_size x n) in *. set (sy := fun n => if in_dec string_dec n (map f ds) then 1 else dim_size y n) in *.
    assert (Dx : forall n, In n dx <-> In n (x_dims x) /\ (keepdims = true \/ ~ In n ds)) by (intros n; apply reduced_In; auto).
    assert (Dy : forall n, In n dy <-> In n (x_dims y) /\ (keepdims = true \/ ~ In n (map f ds))) by (intros n; apply reduced_In; auto; exact f_ds_mom).
    assert (Nx : NoDup dx) by (apply reduced_NoDup; auto; apply Hx). assert (Ny : NoDup dy) by (apply reduced_NoDup; [apply Hy|exact f_ds_NoDup|exact Nm|exact f_ds_mom]).
    assert (Fd : forall n, In n (x_dims x) -> In (f n) dy <-> In n dx) by (intros n Hn; rewrite Dx, Dy, (f_ds n Hn), R1; pose proof (in_map f _ _ Hn); tauto).
    assert (Sf : forall n, In n (x_dims x) -> sy (f n) = sx n) by (intros n Hn; unfold sx, sy; destruct (in_dec string_dec n ds) as [J|J], (in_dec string_dec (f n) (map f ds)) as [J'|J']; try reflexivity; [elim J'; now apply in_map|elim J; now apply f_ds|now apply R2]).
    (* positions of one result give positions of the other *)
    assert (Rows : forall env, inside_names sy dy env -> rows_named P y (map f ds) md env = rows_named P x ds md (fun n => env (f n))).
    { intros env He. apply renamed_rows. intros n Hn. apply except_name_In in Hn. rewrite in_app_iff in Hn. destruct Hn as [H1 H2]. specialize (He n ltac:(apply Dy; tauto)). unfold sy in He. destruct (in_dec string_dec n (map f ds)); [tauto|exact He]. }
    assert (In1 : forall env, inside_names sy dy env -> inside_names sx dx (fun n => env (f n))).
    { intros env He n Hn. assert (Hn' : In n (x_dims x)) by now apply Dx. rewrite <- (Sf n Hn'). apply He. now apply Fd. }
    destruct rx as [g|ex], ry as [h|ey]; cbn [renamed_result].
    - destruct Rx as (A1 & A2 & A3 & A4), Ry as (B1 & B2 & B3 & B4).
      destruct (to_xarr_named sx dx g) as (G1 & G2 & G3); [split; [exact A1|]; split; [exact A2|exact A3]|exact Nx|]. destruct (to_xarr_named sy dy h) as (H1 & H2 & H3); [split; [exact B1|]; split; [exact B2|exact B3]|exact Ny|].
      split; [|split].
      + intros n. rewrite H2, G2. split; [intros Hn; destruct (y_name n) as (m & Hm & <-); [now apply Dy|]; apply in_map; now apply Fd|]. intros Hn. apply in_map_iff in Hn. destruct Hn as (m & <- & Hm). apply Fd; [now apply Dx|exact Hm].
      + rewrite G2. intros n Hn. assert (Hn' : In n (x_dims x)) by now apply Dx. rewrite G3 by exact Hn. rewrite H3 by (now apply Fd). now apply Sf.
      + intros env He. rewrite !x_at_to_xarr. assert (He' : inside_names sy dy env) by (intros n Hn; rewrite <- H3 by exact Hn; apply He; now rewrite H2).
        destruct (B4 env He') as (b & B5 & B6), (A4 _ (In1 env He')) as (a & A5 & A6). rewrite B6, A6. rewrite (Rows env He') in B5. rewrite B5 in A5. injection A5 as ->. f_equal. apply map_ext_in. intros m Hm. now rewrite (Fm m Hm).
    - destruct Ry as (_ & env & He & B). exfalso. destruct Rx as (_ & _ & _ & A4).
      pose (e := fun n => if in_dec string_dec n (map f ds ++ md) then 0 else env n).
      assert (He' : inside_names (dim_size y) (except_name (x_dims y) (map f ds ++ md)) e) by (intros n Hn; unfold e; pose proof Hn as Q; apply except_name_In in Q; destruct (in_dec string_dec n (map f ds ++ md)); [tauto|now apply He]).
      assert (Er : rows_named P y (map f ds) md env = rows_named P y (map f ds) md e) by (apply rows_agree; [exact HP|exact HMy|exact f_ds_NoDup|intros n Hn; unfold e; apply except_name_In in Hn; destruct (in_dec string_dec n (map f ds ++ md)); tauto]).
      rewrite Er, (renamed_rows e He') in B. destruct (A4 (fun n => e (f n))) as (a & A5 & _); [|congruence].
      intros n Hn. assert (Hn' : In n (x_dims x)) by now apply Dx. unfold e. destruct (in_dec string_dec (f n) (map f ds ++ md)) as [Q|Q].
      + unfold sx. destruct (in_dec string_dec n ds) as [J|J]; [lia|]. apply in_app_iff in Q. destruct Q as [Q|Q]; [elim J; exact (proj1 (f_ds n Hn') Q)|]. apply (moments_pos P x md); [exact HP|exact HM|now apply f_mom].
      + unfold sx. destruct (in_dec string_dec n ds) as [J|J]; [elim Q; apply in_or_app; left; now apply in_map|]. rewrite <- (R2 n Hn'). apply He. apply except_name_In. split; [apply R1; now apply in_map|exact Q].
    - destruct Rx as (_ & env & He & B). exfalso. destruct Ry as (_ & _ & _ & B4).
      (* an index for the new names: that of the old name *)
      pose (back := fun k => match find (fun n => String.eqb (f n) k) (x_dims x) with Some n => n | None => k end).
      assert (Bk : forall n, In n (x_dims x) -> back (f n) = n).
      { intros n Hn. unfold back. destruct (find _ (x_dims x)) as [m|] eqn:Ef; [apply find_some in Ef; destruct Ef as [I Q]; apply String.eqb_eq in Q; now apply f_inj|]. apply (find_none _ _ Ef) in Hn. now rewrite String.eqb_refl in Hn. }
      pose (e := fun k => if in_dec string_dec (back k) (ds ++ md) then 0 else env (back k)).
      assert (Er : rows_named P x ds md (fun n => e (f n)) = rows_named P x ds md env).
      { apply rows_agree; [exact HP|exact HM|exact Nd|]. intros n Hn. apply except_name_In in Hn. unfold e. rewrite Bk by apply Hn. destruct (in_dec string_dec n (ds ++ md)); tauto. }
      assert (He' : inside_names sy dy e).
      { intros k Hk. destruct (y_name k) as (n & Hn & <-); [now apply Dy|]. rewrite (Sf n Hn). unfold e, sx. rewrite (Bk n Hn). destruct (in_dec string_dec n (ds ++ md)) as [Q|Q], (in_dec string_dec n ds) as [J|J]; try lia.
        - apply in_app_iff in Q. destruct Q as [Q|Q]; [contradiction|]. now apply (moments_pos P x md).
        - elim Q. apply in_or_app. now left.
        - apply He. now apply except_name_In. }
      destruct (B4 e He') as (b & B5 & _). rewrite (Rows e He'), Er in B5. congruence.
    - destruct Rx as [-> _], Ry as [-> _]. reflexivity.
  Qed.
End Renamed.

(* swap_dims before a reduction: the reduction with the new names *)
Theorem swap_reduce_named : forall {A V} (K : pusher A V) ok P, moment_array K ok P ->
  forall c md l f ds keepdims to_end, xholds c md -> map (dim_size (cx_obj c)) md = pk_shape P -> NoDup (map fst l) -> gives l f -> (forall m, In m md -> ~ In m (map fst l)) -> swappable l f (cx_obj c) ->
  ds <> [] -> NoDup ds -> incl ds (x_dims (cx_obj c)) -> (forall n, In n ds -> ~ In n md) ->
  exists c', cx_swap_dims c l true = Ok c' /\
    renamed_result f (x_reduce_data K P (params_for md) Missing (Val (DSeq ds)) keepdims to_end (cx_obj c)) (x_reduce_data K P (params_for md) Missing (Val (DSeq (map f ds))) keepdims to_end (cx_obj c')).
Proof.
  intros A V K ok P MA c md l f ds keepdims to_end H Mm Nl G D Sw Ne Nd Id Dm. destruct (swap_values c md l f H Nl G D Sw) as (y & Ey & Hy & Ry & _). eexists. split; [exact Ey|]. cbn [cx_obj].
  pose proof H as (Ho & Nm & _ & Im & _). apply (reduce_renamed K ok P MA md ds f (cx_obj c) y); auto; [split; [exact Ho|]; split; [exact Nm|]; split; [exact Im|exact Mm]|apply Hy|apply Sw|intros m Hm; apply G; now apply D].
Qed.
