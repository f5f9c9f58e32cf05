(* Dimensions and shapes an object tells (C202). *)
From Coq Require Import String Permutation.
From Verif Require Import Base BaseLemmas Checks ModelKernels ModelIndex ModelAxes ModelParams ModelWrap ModelSwap ModelProps
  SpecAxes SpecNd SpecLabel ProofAxes ProofArrays PropAxes PropParams PropWrap PropReshape PropLabelled ProofIndex ProofLabel PropSwap PropSwapUse.
Local Open Scope string_scope.
Local Open Scope nat_scope.

Lemma not_named l md : filter (fun d => negb (smem d md)) l = except_name l md.
Proof.
  apply filter_ext. intros d. destruct (in_dec string_dec d md) as [I|I]; destruct (smem d md) eqn:E; try reflexivity.
  - apply smem_In in I. congruence.
  - now apply smem_In in E.
Qed.
Lemma named_split l md : NoDup l -> NoDup md -> incl md l -> Permutation (except_name l md ++ md) l.
Proof.
  intros N Nm I. apply NoDup_Permutation; [|exact N|].
  - apply NoDup_app_; [now apply NoDup_filter|exact Nm|]. intros n Hn. now apply except_name_In in Hn.
  - intros n. rewrite in_app_iff, except_name_In. split; [intros [[H _]|H]; auto|]. intros H. destruct (in_dec string_dec n md); tauto.
Qed.

(* C202 *)
Theorem dims_told : forall c md, xholds c md -> exists vd vs,
  cx_dims c = x_dims (cx_obj c) /\ mapR (cx_sizes c) (cx_dims c) = Ok (cx_shape c) /\
  cx_val_dims c = Ok vd /\ vd = except_name (cx_dims c) md /\ Permutation (vd ++ md) (cx_dims c) /\
  cx_val_shape c = Ok vs /\ mapR (cx_sizes c) vd = Ok vs /\
  (exists ms, cx_mom_shape c = Ok ms /\ mapR (cx_sizes c) md = Ok ms /\ Permutation (vs ++ ms) (cx_shape c)) /\
  cx_val_ndim c = Ok (Z.of_nat (List.length vd)) /\ cx_ndim c = List.length vd + List.length md /\
  forall d, (In d (cx_dims c) -> cx_sizes c d = Ok (dim_size (cx_obj c) d)) /\ (~ In d (cx_dims c) -> cx_sizes c d = Raise EKey).
Proof.
  intros c md H. pose proof H as (Ho & Nm & _ & Im & _ & Pc). pose proof Ho as (_ & Nd & Ld). unfold cx_dims in *. set (x := cx_obj c) in *.
  pose proof (named_split (x_dims x) md Nd Nm Im) as Pm. assert (Iv : incl (except_name (x_dims x) md) (x_dims x)) by (intros n Hn; now apply except_name_In in Hn).
  assert (Ln : List.length (x_shape x) = List.length (except_name (x_dims x) md) + List.length md) by (rewrite <- Ld, <- (Permutation_length Pm), app_length; reflexivity).
  exists (except_name (x_dims x) md), (map (dim_size x) (except_name (x_dims x) md)).
  split; [reflexivity|]. split; [transitivity (Ok (map (dim_size x) (x_dims x))); [apply sizes_list, incl_refl|unfold cx_shape; fold x; now rewrite <- (shape_named x Ho)]|].
  split; [unfold cx_val_dims; rewrite Pc; cbn [xp_dims]; unfold cx_dims; now rewrite not_named|]. split; [reflexivity|]. split; [exact Pm|].
  split; [unfold cx_val_shape, x_get_val_shape; rewrite Pc; cbn [xp_dims]; unfold cx_dims, cx_shape; rewrite not_named; now apply sizes_list|]. split; [now apply sizes_list|].
  split; [exists (map (dim_size x) md); split; [now apply mom_shape_of|]; split; [now apply sizes_list|]|].
  - rewrite <- map_app, (Permutation_map (dim_size x) Pm). unfold cx_shape. fold x. now rewrite <- (shape_named x Ho).
  - split; [unfold cx_val_ndim, cx_ndim, cx_shape; fold x; rewrite Pc; cbn [xp_ndim]; f_equal; lia|]. split; [exact Ln|].
    intros d. split; intros Hd; [now apply sizes_named|]. unfold cx_sizes, sizes, cx_dims. fold x. destruct (smem d (x_dims x)) eqn:E; [|reflexivity]. apply smem_In in E. contradiction.
Qed.

Lemma except_renamed f (l md : list sname) : (forall n, In n l -> In (f n) md <-> In n md) -> except_name (map f l) md = map f (except_name l md).
Proof.
  induction l as [|a l IH]; intros H; [reflexivity|]. unfold except in *. cbn [map filter]. rewrite IH by (intros n Hn; apply H; now right). specialize (H a (or_introl eq_refl)).
  destruct (in_dec string_dec (f a) md), (in_dec string_dec a md); cbn [map]; tauto || reflexivity.
Qed.
(* names of values after swap_dims of dimensions of values: the new names in the order of
   before; sizes in that order do not change *)
Theorem dims_told_swap : forall c md l f, xholds c md -> NoDup (map fst l) -> gives l f -> (forall m, In m md -> ~ In m (map fst l)) -> swappable l f (cx_obj c) ->
  exists c' vd, cx_swap_dims c l true = Ok c' /\ cx_val_dims c = Ok vd /\ cx_val_dims c' = Ok (map f vd) /\ cx_dims c' = (map f vd ++ md)%list /\ cx_val_shape c' = cx_val_shape c /\ cx_mom_shape c' = cx_mom_shape c /\ cx_val_ndim c' = cx_val_ndim c.
Proof.
  intros c md l f H Nl G D Sw. assert (Fm : forall m, In m md -> f m = m) by (intros m Hm; apply G; now apply D).
  pose proof H as (Ho & Nm & _ & Im & _ & Pc). pose proof Ho as (_ & Nd & _). destruct (proj1 (swap_named c md l f H Nl G)) as (y & Ey & Hy & (R1 & R2 & _) & Dy).
  { split; [exact Sw|]. intros m Hm. exists m. split; [now apply Im|]. split; [now apply Fm|reflexivity]. }
  set (x := cx_obj c) in *. set (vd := except_name (x_dims x) md) in *.
  assert (Fi : forall n, In n (x_dims x) -> In (f n) md <-> In n md).
  { intros n Hn. split; [|intros Q; now rewrite Fm]. intros Q. pose proof (Fm _ Q) as E. destruct Sw as [_ Nf]. destruct (string_dec (f n) n) as [E'|E']; [now rewrite <- E'|]. elim E'.
    assert (Inj : forall a b, In a (x_dims x) -> In b (x_dims x) -> f a = f b -> a = b) by (intros a b; now apply NoDup_map_eq). apply Inj; [now apply Im|exact Hn|exact E]. }
  assert (Ev : except_name (map f (x_dims x)) md = map f vd) by now apply except_renamed. fold x in Dy. rewrite Ev in Dy.
  destruct (dims_told c md H) as (v & vs & _ & _ & V1 & V2 & _ & V4 & V5 & (ms & M1 & M2 & _) & V7 & _). destruct (dims_told _ md Hy) as (w & ws & _ & _ & W1 & W2 & _ & W4 & W5 & (ns & N1 & N2 & _) & W7 & _).
  unfold cx_dims in V2, W2. cbn [cx_obj] in W2. fold x in V2. fold vd in V2. subst v.
  assert (Ew : w = map f vd).
  { rewrite W2, Dy, except_app, (except_all _ md md) by auto. rewrite app_nil_r. apply except_none. intros n Hn. apply in_map_iff in Hn. destruct Hn as (a & <- & Ha). apply except_name_In in Ha. rewrite Fi by apply Ha. apply Ha. }
  subst w. rewrite Ew in *. assert (Iv : incl vd (x_dims x)) by (intros n Hn; now apply except_name_In in Hn).
  eexists. exists vd. split; [exact Ey|]. split; [exact V1|]. split; [exact W1|]. split; [exact Dy|]. split; [|split].
  - rewrite V4, W4, <- W5, <- V5. change (mapR (sizes (x_dims y) (x_shape y)) (map f vd) = mapR (sizes (x_dims x) (x_shape x)) vd).
    rewrite !sizes_list; [|exact Iv|intros n Hn; apply R1; apply in_map_iff in Hn; destruct Hn as (a & <- & Ha); apply in_map; now apply Iv].
    f_equal. rewrite map_map. apply map_ext_in. intros n Hn. apply R2. now apply Iv.
  - rewrite (mom_shape_of _ _ Hy), (mom_shape_of _ _ H). f_equal. cbn [cx_obj]. fold x. apply map_ext_in. intros m Hm. rewrite <- (Fm m Hm) at 1. apply R2. now apply Im.
  - rewrite V7, W7. now rewrite map_length.
Qed.
