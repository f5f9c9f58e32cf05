(* Functions along one dimension do not depend on the names of dimensions (C201). *)
From Coq Require Import String Permutation.
From Verif Require Import Base BaseLemmas Checks ModelPush ModelPushCov ModelKernels ModelIndex ModelAxes ModelSelect ModelParams ModelWrap ModelNd ModelLabel ModelSwap
  Spec SpecAxes SpecNd SpecLabel SpecLabelTwo ProofAxes ProofArrays ProofIndex ProofMulti ProofNd PropAxes PropParams PropWrap PropReshape PropLabelled PropNd PropNdUse ProofLabel ProofLabelMany PropLabel PropLabelTwo PropLabelReduce PropLabelJack PropShape PropShapeUse PropSwap PropSwapUse.
Local Open Scope string_scope.
Local Open Scope nat_scope.

(* length of dimension n of a labelled result *)
Definition l_size {T} (g : lgrid T) (n : sname) : nat := nth (position String.eqb n (lg_dims g)) (gshape (lg_val g)) 0.
(* h is g with dimension n called f n; both results raise, or neither *)
Definition renamed_grids {T} (z : T) (f : sname -> sname) (r r' : res (lgrid T)) : Prop :=
  match r, r' with
  | Ok g, Ok h => (forall n, In n (lg_dims h) <-> In n (map f (lg_dims g))) /\ (forall n, In n (lg_dims g) -> l_size h (f n) = l_size g n) /\
      forall env, inside_names (l_size h) (lg_dims h) env -> l_at z h env = l_at z g (fun n => env (f n))
  | Raise _, Raise _ => True
  | _, _ => False
  end.

Lemma result_In te dims d md n : In d dims -> incl md dims -> In n (result_dims te dims d d md) <-> In n dims.
Proof.
  intros Hd Im. unfold result_dims. destruct te.
  - rewrite in_app_iff, except_name_In. cbn [In]. split; [intros [[H _]|[<-|H]]; auto|]. intros H. destruct (string_dec d n) as [E|E]; [right; now left|]. destruct (in_dec string_dec n md) as [M|M]; [right; now right|]. left. split; [exact H|]. tauto.
  - rewrite in_map_iff. split; [intros (m & <- & H); destruct (String.eqb m d); assumption|]. intros H. exists n. split; [|exact H]. destruct (String.eqb_spec n d); congruence.
Qed.
Lemma result_NoDup te dims d md : NoDup dims -> NoDup md -> ~ In d md -> NoDup (result_dims te dims d d md).
Proof.
  intros N Nm Nd. unfold result_dims. destruct te.
  - apply NoDup_app_; [now apply NoDup_filter|now constructor|]. intros n Hn. now apply except_name_In in Hn.
  - erewrite map_ext; [rewrite map_id; exact N|]. intros n. cbn beta. destruct (String.eqb_spec n d); congruence.
Qed.
Lemma l_size_named {T} sz dims (g : lgrid T) n : lg_dims g = dims -> gshape (lg_val g) = map sz dims -> In n dims -> l_size g n = sz n.
Proof. intros E1 E2 I. unfold l_size. rewrite E1, E2. destruct (pos_lt dims n I) as [P1 P2]. rewrite nth_map_dims by exact P1. now rewrite P2. Qed.

Section Rows.
  Context {A V : Type} (K : pusher A V) (ok : A -> Prop) (P : packer A).
  Hypothesis MA : moment_array K ok P.
  Context (md : list sname) (d : sname) (f : sname -> sname) (x y : xarr).
  Hypothesis HM : labelled_moments P md x.
  Hypothesis Hy : x_ok y.
  Hypothesis Hr : renamed f x y.
  Hypothesis Nf : NoDup (map f (x_dims x)).
  Hypothesis Fm : forall m, In m md -> f m = m.
  Hypothesis Hd : In d (x_dims x).
  Hypothesis Dm : ~ In d md.
  Let HP := ma_packer _ _ _ MA.

  (* anything that is made from the samples along d alone *)
  Lemma rows_renamed {B T} (z : T) (val : B -> list nat -> T) (F : list A -> res (list B)) te sx sy r r' :
    (forall n, In n (x_dims x) -> n <> d -> sx n = dim_size x n) -> (forall n, In n (x_dims y) -> n <> f d -> sy n = dim_size y n) -> sx d = sy (f d) -> 0 < sx d ->
    by_name z val (fun env => F (rows_named P x [d] md env)) (result_dims te (x_dims x) d d md) sx d md r ->
    by_name z val (fun env => F (rows_named P y [f d] md env)) (result_dims te (x_dims y) (f d) (f d) md) sy (f d) md r' ->
    renamed_grids z f r r'.
  Proof.
    intros Sx Sy Sd Pd Rx Ry. pose proof HM as (Hx & Nm & Im & Mm). pose proof Hr as (R1 & R2 & R3).
    assert (Id : incl [d] (x_dims x)) by (intros n [<-|[]]; exact Hd). assert (Nd : NoDup [d]) by (constructor; [intros []|constructor]). assert (Dm' : forall n, In n [d] -> ~ In n md) by (intros n [<-|[]]; exact Dm).
    pose proof (y_moments P md f x y HM Hy Hr Fm) as HMy. pose proof HMy as (_ & _ & Imy & _).
    assert (Hdy : In (f d) (x_dims y)) by (apply R1; now apply in_map).
    assert (FI : forall a b, In a (x_dims x) -> In b (x_dims x) -> f a = f b -> a = b) by (intros a b; now apply NoDup_map_eq).
    assert (Dmy : ~ In (f d) md) by (intros Q; apply Dm; exact (proj1 (f_mom P md f x HM Nf Fm d Hd) Q)).
    set (dx := result_dims te (x_dims x) d d md) in *. set (dy := result_dims te (x_dims y) (f d) (f d) md) in *.
    assert (Dx : forall n, In n dx <-> In n (x_dims x)) by (intros n; now apply result_In). assert (Dy : forall n, In n dy <-> In n (x_dims y)) by (intros n; now apply result_In).
    assert (Yn : forall n, In n (x_dims y) -> exists m, In m (x_dims x) /\ f m = n) by (intros n; exact (y_name f x y Hr n)).
    assert (Sf : forall n, In n (x_dims x) -> sy (f n) = sx n).
    { intros n Hn. destruct (string_dec n d) as [->|E]; [now symmetry|]. rewrite Sx by assumption. rewrite Sy; [now apply R2|apply R1; now apply in_map|]. intros Q. apply E. now apply FI. }
    assert (Rows : forall env, inside_names sy (except_name dy (f d :: md)) env -> rows_named P y [f d] md env = rows_named P x [d] md (fun n => env (f n))).
    { intros env He. apply (renamed_rows K ok P MA md [d] f x y HM Hr Nf Fm Id Nd env). intros n Hn. apply except_name_In in Hn. cbn [map app] in Hn. destruct Hn as [H1 H2]. rewrite <- Sy; [|exact H1|intros ->; apply H2; now left]. apply He. apply except_name_In. split; [now apply Dy|exact H2]. }
    assert (Part : forall env, inside_names sy dy env -> inside_names sy (except_name dy (f d :: md)) env) by (intros env He n Hn; apply He; now apply except_name_In in Hn).
    assert (In1 : forall env, inside_names sy dy env -> inside_names sx dx (fun n => env (f n))).
    { intros env He n Hn. apply Dx in Hn. rewrite <- (Sf n Hn). apply He. apply Dy, R1. now apply in_map. }
    assert (Mx : forall n, In n md -> 0 < sx n) by (intros n Hn; rewrite Sx; [now apply (moments_pos P x md)|now apply Im|intros ->; contradiction]).
    destruct r as [g|ex], r' as [h|ey]; cbn [renamed_grids by_name] in *.
    - destruct Rx as (A1 & A2 & A3 & A4), Ry as (B1 & B2 & B3 & B4). split; [|split].
      + intros n. rewrite A1, B1, Dy, R1, !in_map_iff. split; intros (m & E & I); exists m; (split; [exact E|now apply Dx]).
      + rewrite A1. intros n Hn. rewrite (l_size_named sx dx g n A1 A3 Hn). apply Dx in Hn. rewrite (l_size_named sy dy h (f n) B1 B3); [now apply Sf|]. apply Dy, R1. now apply in_map.
      + rewrite B1. intros env He. assert (He' : inside_names sy dy env) by (intros n Hn; rewrite <- (l_size_named sy dy h n B1 B3 Hn); now apply He).
        destruct (B4 env He') as (rb & b & B5 & B6 & B7), (A4 _ (In1 env He')) as (ra & a & A5 & A6 & A7). rewrite B7, A7. rewrite (Rows env (Part env He')) in B5. rewrite B5 in A5. injection A5 as <-. rewrite B6 in A6. injection A6 as <-. f_equal. apply map_ext_in. intros m Hm. now rewrite (Fm m Hm).
    - destruct Rx as (_ & _ & _ & A4), Ry as (env & He & E).
      pose (e := fun n => if in_dec string_dec n (f d :: md) then 0 else env n).
      assert (He' : inside_names sy (except_name dy (f d :: md)) e) by (intros n Hn; unfold e; pose proof Hn as Q; apply except_name_In in Q; destruct (in_dec string_dec n (f d :: md)); [tauto|now apply He]).
      assert (Er : rows_named P y [f d] md env = rows_named P y [f d] md e).
      { apply rows_agree; [exact HP|exact HMy|constructor; [intros []|constructor]|]. intros n Hn. unfold e. apply except_name_In in Hn. cbn [app] in Hn. destruct (in_dec string_dec n (f d :: md)); tauto. }
      rewrite Er, (Rows e He') in E. destruct (A4 (fun n => e (f n))) as (ra & a & A5 & _); [|congruence].
      intros n Hn. apply Dx in Hn. unfold e. destruct (in_dec string_dec (f n) (f d :: md)) as [[Q|Q]|Q].
      + apply FI in Q; [now subst n|exact Hd|exact Hn].
      + apply Mx. exact (proj1 (f_mom P md f x HM Nf Fm n Hn) Q).
      + rewrite <- (Sf n Hn). apply He. apply except_name_In. split; [apply Dy, R1; now apply in_map|exact Q].
    - destruct Ry as (_ & _ & _ & B4), Rx as (env & He & E).
      pose (back := fun k => match find (fun n => String.eqb (f n) k) (x_dims x) with Some n => n | None => k end).
      assert (Bk : forall n, In n (x_dims x) -> back (f n) = n).
      { intros n Hn. unfold back. destruct (find _ (x_dims x)) as [m|] eqn:Ef; [apply find_some in Ef; destruct Ef as [I Q]; apply String.eqb_eq in Q; now apply FI|]. apply (find_none _ _ Ef) in Hn. now rewrite String.eqb_refl in Hn. }
      pose (e := fun k => if in_dec string_dec (back k) (d :: md) then 0 else env (back k)).
      assert (Er : rows_named P x [d] md (fun n => e (f n)) = rows_named P x [d] md env).
      { apply rows_agree; [exact HP|exact HM|exact Nd|]. intros n Hn. apply except_name_In in Hn. cbn [app] in Hn. unfold e. rewrite Bk by apply Hn. destruct (in_dec string_dec n (d :: md)); tauto. }
      assert (He' : inside_names sy dy e).
      { intros k Hk. apply Dy in Hk. destruct (Yn k Hk) as (n & Hn & <-). rewrite (Sf n Hn). unfold e. rewrite (Bk n Hn). destruct (in_dec string_dec n (d :: md)) as [[Q|Q]|Q]; [now subst n|now apply Mx|]. apply He. apply except_name_In. split; [now apply Dx|exact Q]. }
      destruct (B4 e He') as (rb & b & B5 & _). rewrite (Rows e (Part e He')), Er in B5. congruence.
    - exact I.
  Qed.

  Hypothesis Pd : 0 < dim_size x d.
  Local Notation C u := (or_introl (conj eq_refl (conj eq_refl u))).
  Lemma names_y : labelled_moments P md y /\ In (f d) (x_dims y) /\ ~ In (f d) md /\ dim_size y (f d) = dim_size x d.
  Proof.
    split; [exact (y_moments P md f x y HM Hy Hr Fm)|]. split; [apply Hr; now apply in_map|]. split; [|now apply Hr]. intros Q. apply Dm. exact (proj1 (f_mom P md f x HM Nf Fm d Hd) Q).
  Qed.
  Theorem cumulative_renamed (inverse : bool) te :
    renamed_grids 0%Qc f (x_cumulative K P (params_for md) inverse Missing (Val d) te x) (x_cumulative K P (params_for md) inverse Missing (Val (f d)) te y).
  Proof.
    destruct names_y as (HMy & Hdy & Dmy & Ey). apply (rows_renamed 0%Qc (pk_unpack P) (fun rows => of_opt EZeroDiv ((if inverse then cumulative_inverse K else cumulative K) rows)) te (dim_size x) (dim_size y)); auto.
    - exact (cumulative_named K ok P MA inverse md Missing (Val d) d te x HM (C Hd) Dm).
    - exact (cumulative_named K ok P MA inverse md Missing (Val (f d)) (f d) te y HMy (C Hdy) Dmy).
  Qed.
  Theorem rolling_renamed window min_periods (center : bool) zero te : (0 <= window)%Z ->
    renamed_grids None f (x_rolling_data K P (params_for md) window min_periods center zero Missing (Val d) te x) (x_rolling_data K P (params_for md) window min_periods center zero Missing (Val (f d)) te y).
  Proof.
    intros Hw. destruct names_y as (HMy & Hdy & Dmy & Ey).
    destruct (rolling_named K ok P MA window min_periods center zero md Missing (Val d) d te x HM (C Hd) Dm Hw) as [X1 X2]. destruct (rolling_named K ok P MA window min_periods center zero md Missing (Val (f d)) (f d) te y HMy (C Hdy) Dmy Hw) as [Y1 Y2].
    assert (Q : (center = false \/ (0 < window)%Z) \/ center = true /\ window = 0%Z) by (destruct center; [|auto]; destruct (Z.eq_dec window 0); [auto|left; right; lia]). destruct Q as [Q|[Q1 Q2]]; [|rewrite (X2 Q1 Q2), (Y2 Q1 Q2); exact I].
    apply (rows_renamed None (row_entry P zero) (fun rows => if center then rolling_data_center K window min_periods rows else of_opt EZeroDiv (rolling_data K (Z.to_nat window) (match min_periods with None => window | Some k => k end) rows)) te (dim_size x) (dim_size y)); auto.
  Qed.
  Theorem grouped_renamed by_ te : (forall m, zmax by_ = Ok m -> (m <> -1)%Z) ->
    renamed_grids 0%Qc f (x_reduce_data_grouped K P (params_for md) by_ None Missing (Val d) te x) (x_reduce_data_grouped K P (params_for md) by_ None Missing (Val (f d)) te y).
  Proof.
    intros Hm. destruct names_y as (HMy & Hdy & Dmy & Ey).
    pose proof (grouped_named K ok P MA by_ None md Missing (Val d) d te x HM (C Hd) Dm) as X. pose proof (grouped_named K ok P MA by_ None md Missing (Val (f d)) (f d) te y HMy (C Hdy) Dmy) as Y. cbv zeta in X, Y.
    destruct (zmax by_) as [mx|e]; [|rewrite X, Y; exact I]. destruct X as (X1 & X2 & _), Y as (Y1 & Y2 & _). specialize (Hm mx eq_refl). rewrite Ey in Y1, Y2.
    destruct (Nat.eq_dec (List.length by_) (dim_size x d)) as [L|L]; [|rewrite (X2 (or_introl L)), (Y2 (or_introl L)); exact I]. destruct (Z.lt_ge_cases mx (-1)) as [G|G]; [rewrite (X2 (or_intror G)), (Y2 (or_intror G)); exact I|].
    cbn [PropLabel.renamed] in X1, Y1. refine (rows_renamed 0%Qc (pk_unpack P) (reduce_data_grouped K by_) te _ _ _ _ _ _ _ _ (X1 L G _) (Y1 L G _)).
    - intros n _ Nn. unfold result_size. destruct (String.eqb_spec n d); [contradiction|reflexivity].
    - intros n _ Nn. unfold result_size. destruct (String.eqb_spec n (f d)); [contradiction|reflexivity].
    - unfold result_size. now rewrite !String.eqb_refl.
    - unfold result_size. rewrite String.eqb_refl. lia.
    - now left.
    - now left.
  Qed.
End Rows.

(* C201: after swap_dims, along the new name of d *)
Theorem swap_rows_named : forall {A V} (K : pusher A V) ok P, moment_array K ok P ->
  forall c md l f d to_end, xholds c md -> map (dim_size (cx_obj c)) md = pk_shape P -> NoDup (map fst l) -> gives l f -> (forall m, In m md -> ~ In m (map fst l)) -> swappable l f (cx_obj c) ->
  In d (x_dims (cx_obj c)) -> ~ In d md -> 0 < dim_size (cx_obj c) d ->
  exists c', cx_swap_dims c l true = Ok c' /\
    (forall inverse, renamed_grids 0%Qc f (x_cumulative K P (params_for md) inverse Missing (Val d) to_end (cx_obj c)) (x_cumulative K P (params_for md) inverse Missing (Val (f d)) to_end (cx_obj c'))) /\
    (forall window min_periods center zero, (0 <= window)%Z ->
      renamed_grids None f (x_rolling_data K P (params_for md) window min_periods center zero Missing (Val d) to_end (cx_obj c)) (x_rolling_data K P (params_for md) window min_periods center zero Missing (Val (f d)) to_end (cx_obj c'))) /\
    (forall by_, (forall m, zmax by_ = Ok m -> (m <> -1)%Z) ->
      renamed_grids 0%Qc f (x_reduce_data_grouped K P (params_for md) by_ None Missing (Val d) to_end (cx_obj c)) (x_reduce_data_grouped K P (params_for md) by_ None Missing (Val (f d)) to_end (cx_obj c'))).
Proof.
  intros A V K ok P MA c md l f d te H Mm Nl G D Sw Hd Dm Pd. destruct (swap_values c md l f H Nl G D Sw) as (y & Ey & Hy & Ry & _). eexists. split; [exact Ey|]. cbn [cx_obj].
  pose proof H as (Ho & Nm & _ & Im & _). assert (HM : labelled_moments P md (cx_obj c)) by (split; [exact Ho|]; split; [exact Nm|]; split; [exact Im|exact Mm]).
  assert (Hy' : x_ok y) by apply Hy. assert (Nf : NoDup (map f (x_dims (cx_obj c)))) by apply Sw. assert (Fm : forall m, In m md -> f m = m) by (intros m Hm; apply G; now apply D).
  split; [|split]; intros; [eapply cumulative_renamed|eapply rolling_renamed|eapply grouped_renamed]; eauto.
Qed.
