(* Selecting first or last: functions along one dimension and selections along others. *)
From Coq Require Import String Permutation.
From Verif Require Import Base BaseLemmas Checks ModelPush ModelPushCov ModelKernels ModelIndex ModelAxes ModelSelect ModelParams ModelWrap ModelNd ModelLabel ModelDataset ModelShape
  Spec SpecAxes SpecNd SpecLabel SpecLabelTwo SpecDataset SpecShape ProofAxes ProofArrays ProofIndex ProofMulti ProofNd PropAxes PropParams PropWrap PropReshape PropLabelled PropNd PropNdUse PropMethodsUse ProofLabel ProofLabelMany PropLabel PropLabelTwo PropLabelReduce PropLabelExp PropLabelJack ProofDataset PropShape PropShapeUse PropShapeSelect.
Local Open Scope string_scope.
Local Open Scope nat_scope.

Definition untouched (ix : list (sname * ikey)) (ns : list sname) : Prop := forall n, In n (map fst ix) -> ~ In n ns.
Lemma untouched_full ix ns sz dims p n : untouched ix ns -> selects ix sz dims p -> In n ns -> In n dims -> p n = inr (seq 0 (sz n)).
Proof.
  intros U S Hn Hd. specialize (S n Hd). destruct (find _ ix) as [q|] eqn:E; [|exact S]. exfalso. apply find_some in E as [E1 E2]. apply String.eqb_eq in E2. apply (U n); [|exact Hn]. rewrite <- E2. now apply in_map.
Qed.
Lemma isel_start {A} (P : packer A) ix md x y : labelled_moments P md x -> x_isel ix x = Ok y -> untouched ix md ->
  exists p, selects ix (dim_size x) (x_dims x) p /\ x_ok y /\ picked x y p /\ (forall n, In n (x_dims x) -> in_range (dim_size x n) (p n)) /\ (forall n, In n md -> p n = inr (seq 0 (dim_size x n))).
Proof.
  intros HM E U. pose proof HM as (Hx & _ & Im & _). destruct (isel_selects ix x y Hx E) as [I (p & S)]. exists p. split; [exact S|]. destruct (proj1 (x_isel_named ix x Hx) I p S) as (y' & E' & Hy & Pk). rewrite E in E'. injection E' as <-.
  split; [exact Hy|]. split; [exact Pk|]. split; [intros n Hn; now apply (selects_range _ _ _ _ _ S)|]. intros n Hn. apply (untouched_full ix md (dim_size x) (x_dims x)); auto.
Qed.
Lemma chooses_dim_arg m d x : In d (x_dims x) -> chooses m Missing (Val d) d x.
Proof. intros H. left. auto. Qed.

Section Commute.
  Context {A V : Type} (K : pusher A V) (ok : A -> Prop) (P : packer A) (MA : moment_array K ok P).
  Variables (ix : list (sname * ikey)) (md : list sname) (d : sname) (x y : xarr).
  Hypothesis HM : labelled_moments P md x.
  Hypothesis Hd : In d (x_dims x).
  Hypothesis Nd : ~ In d md.
  Hypothesis E : x_isel ix x = Ok y.
  Hypothesis U : untouched ix (d :: md).
  (* the result r' for the selection is the selection of the result r *)
  Definition selected_result {T} (dflt : T) (rd : sname) (newlen : nat) (r r' : res (lgrid T)) : Prop :=
    forall g, r = Ok g -> exists p g', selects ix (dim_size x) (x_dims x) p /\ r' = Ok g' /\ l_picked dflt (whole rd newlen p) (result_size (dim_size x) rd newlen) g g'.
  Lemma commute {B T} (dflt : T) (val : B -> list nat -> T) (F : list A -> res (list B)) to_end rd newlen r r' :
    (rd = d \/ ~ In rd (x_dims x)) -> 0 < newlen ->
    by_name dflt val (fun env => F (rows_named P x [d] md env)) (result_dims to_end (x_dims x) d rd md) (result_size (dim_size x) rd newlen) rd md r ->
    (labelled_moments P md y -> In d (x_dims y) -> dim_size y d = dim_size x d -> (rd = d \/ ~ In rd (x_dims y)) ->
     by_name dflt val (fun env => F (rows_named P y [d] md env)) (result_dims to_end (x_dims y) d rd md) (result_size (dim_size y) rd newlen) rd md r') ->
    selected_result dflt rd newlen r r'.
  Proof.
    intros Hr Hk H H' g ->. destruct (isel_start P ix md x y HM E) as (p & S & Hy & Pk & Ra & Fm); [intros n Hn Q; apply (U n Hn); now right|].
    assert (Fd : p d = inr (seq 0 (dim_size x d))) by (apply (untouched_full ix (d :: md) (dim_size x) (x_dims x)); auto; now left).
    destruct (picked_size x y p Pk d _ Hd Fd) as [Hdy Sdy]. pose proof (ma_packer _ _ _ MA) as HP.
    assert (Hry : rd = d \/ ~ In rd (x_dims y)) by (destruct Hr as [Hr|Hr]; [now left|right]; intros Q; apply Hr; rewrite (proj1 Pk) in Q; now apply filter_In in Q).
    specialize (H' (picked_moments P md x y p HM Hy Pk Fm) Hdy Sdy Hry).
    destruct (select_any P HP md x y p HM Pk Ra Fm d Hd Nd Fd dflt val F to_end rd newlen g r' Hr Hk H H') as (g' & E1 & E2). exists p, g'. auto.
  Qed.
  Hypothesis Pos : 0 < dim_size x d.
  Lemma result_size_same sz newlen n : newlen = sz d -> result_size sz d newlen n = sz n.
  Proof. intros ->. unfold result_size. destruct (String.eqb_spec n d); congruence. Qed.
  Lemma by_name_size {B T} (dflt : T) (val : B -> list nat -> T) run dims sz rd newlen r : newlen = sz rd -> by_name dflt val run dims sz rd md r -> by_name dflt val run dims (result_size sz rd newlen) rd md r.
  Proof.
    intros -> H. assert (Q : forall n, sz n = result_size sz rd (sz rd) n) by (intros n; unfold result_size; destruct (String.eqb_spec n rd); congruence).
    destruct r as [g|e]; cbn [by_name] in *.
    - destruct H as (H1 & H2 & H3 & H4). split; [exact H1|]. split; [exact H2|]. split; [rewrite H3; apply map_ext; exact Q|]. intros env He. apply H4. intros n Hn. rewrite Q. now apply He.
    - destruct H as (env & He & H). exists env. split; [|exact H]. intros n Hn. rewrite <- Q. now apply He.
  Qed.
  Theorem isel_cumulative inverse to_end : selected_result 0%Qc d (dim_size x d)
    (x_cumulative K P (params_for md) inverse Missing (Val d) to_end x) (x_cumulative K P (params_for md) inverse Missing (Val d) to_end y).
  Proof.
    apply (commute 0%Qc (pk_unpack P) (fun rows => of_opt EZeroDiv ((if inverse then cumulative_inverse K else cumulative K) rows)) to_end); [now left|exact Pos| |].
    - apply by_name_size; [reflexivity|]. apply (cumulative_named K ok P MA); auto using chooses_dim_arg.
    - intros HMy Hdy Sdy _. apply by_name_size; [now symmetry|]. apply (cumulative_named K ok P MA); auto using chooses_dim_arg.
  Qed.
  Theorem isel_rolling window min_periods (center : bool) zero to_end : (0 < window)%Z -> selected_result None d (dim_size x d)
    (x_rolling_data K P (params_for md) window min_periods center zero Missing (Val d) to_end x) (x_rolling_data K P (params_for md) window min_periods center zero Missing (Val d) to_end y).
  Proof.
    intros W. apply (commute None (row_entry P zero) (fun rows => if center then rolling_data_center K window min_periods rows
                else of_opt EZeroDiv (rolling_data K (Z.to_nat window) (match min_periods with None => window | Some k => k end) rows)) to_end); [now left|exact Pos| |].
    - apply by_name_size; [reflexivity|]. apply (rolling_named K ok P MA); auto using chooses_dim_arg. lia.
    - intros HMy Hdy Sdy _. apply by_name_size; [now symmetry|]. apply (rolling_named K ok P MA); auto using chooses_dim_arg. lia.
  Qed.
  Theorem isel_resample freq rep nrep to_end : counts_named freq rep d nrep (dim_size x d) -> ~ In rep (x_dims x) -> 0 < nrep -> selected_result 0%Qc rep nrep
    (x_resample_data K P (params_for md) freq rep Missing (Val d) to_end x) (x_resample_data K P (params_for md) freq rep Missing (Val d) to_end y).
  Proof.
    intros HF Hr Hk. apply (commute 0%Qc (pk_unpack P) (fun rows => of_opt EZeroDiv (resample_data K (counts_table freq rep d nrep (dim_size x d)) rows)) to_end); [now right|exact Hk| |].
    - apply (resample_named K ok P MA); auto using chooses_dim_arg.
    - intros HMy Hdy Sdy Hry. apply (resample_named K ok P MA); auto using chooses_dim_arg. left. destruct Hry as [->|Q]; [contradiction|exact Q].
  Qed.
  Theorem isel_grouped by_ mx group_dim to_end : zmax by_ = Ok mx -> (0 <= mx)%Z -> List.length by_ = dim_size x d -> free_name x d group_dim -> selected_result 0%Qc (renamed d group_dim) (Z.to_nat (mx + 1))
    (x_reduce_data_grouped K P (params_for md) by_ group_dim Missing (Val d) to_end x) (x_reduce_data_grouped K P (params_for md) by_ group_dim Missing (Val d) to_end y).
  Proof.
    intros Hz Hm Hl Hf. apply (commute 0%Qc (pk_unpack P) (fun rows => reduce_data_grouped K by_ rows) to_end); [exact Hf|lia| |].
    - pose proof (grouped_named K ok P MA by_ group_dim md Missing (Val d) d to_end x HM (chooses_dim_arg _ _ _ Hd) Nd) as X. cbv zeta in X. rewrite Hz in X. apply X; [exact Hl|lia|exact Hf].
    - intros HMy Hdy Sdy Hry. pose proof (grouped_named K ok P MA by_ group_dim md Missing (Val d) d to_end y HMy (chooses_dim_arg _ _ _ Hdy) Nd) as X. cbv zeta in X. rewrite Hz in X. apply X; [congruence|lia|exact Hry].
  Qed.
  Theorem isel_indexed index start end_ scale group_dim to_end : validate_index (dim_size x d) index start end_ = Ok tt -> (forall s, scale = Some s -> List.length s = List.length index) -> 0 < List.length start -> free_name x d group_dim ->
    selected_result 0%Qc (renamed d group_dim) (List.length start)
    (x_reduce_data_indexed K P (params_for md) index start end_ scale group_dim Missing (Val d) to_end x) (x_reduce_data_indexed K P (params_for md) index start end_ scale group_dim Missing (Val d) to_end y).
  Proof.
    intros Hv Hs Hl Hf. apply (commute 0%Qc (pk_unpack P) (fun rows => reduce_data_indexed K rows index start end_ scale) to_end); [exact Hf|lia| |].
    - apply (indexed_named K ok P MA); auto using chooses_dim_arg.
    - intros HMy Hdy Sdy Hry. apply (indexed_named K ok P MA); auto using chooses_dim_arg. rewrite Sdy. auto.
  Qed.
  Theorem isel_jackknife rep_dim to_end : free_name x d rep_dim -> selected_result 0%Qc (renamed d rep_dim) (dim_size x d)
    (x_jackknife_data K P (params_for md) None rep_dim Missing (Val d) to_end x) (x_jackknife_data K P (params_for md) None rep_dim Missing (Val d) to_end y).
  Proof.
    intros Hf. apply (commute 0%Qc (pk_unpack P) (fun rows => of_opt EZeroDiv (jackknife_data K rows)) to_end); [exact Hf|exact Pos| |].
    - apply (jackknife_named K ok P MA); auto using chooses_dim_arg.
    - intros HMy Hdy Sdy Hry. rewrite <- Sdy. apply (jackknife_named K ok P MA); auto using chooses_dim_arg.
  Qed.
  (* decay factors along the dimension alone, given by name *)
  Theorem isel_rolling_exp z alpha_axis adjust min_periods zero to_end : x_ok z -> x_dims z = [d] -> dim_size z d = dim_size x d -> selected_result None d (dim_size x d)
    (x_rolling_exp_data K P (params_for md) (Labelled z) alpha_axis adjust min_periods zero Missing (Val d) to_end x)
    (x_rolling_exp_data K P (params_for md) (Labelled z) alpha_axis adjust min_periods zero Missing (Val d) to_end y).
  Proof.
    intros Hz Dz Sz. set (al := map (fun i => x_at z (name_bind [d] [i] (fun _ => 0))) (seq 0 (dim_size x d))).
    assert (Same : forall u env outer, dim_size u d = dim_size x d -> decays_named d outer u (Labelled z) 0 env = al).
    { intros u env outer Su. unfold decays_named, al. rewrite Su. apply map_ext. intros i. apply x_at_agree. rewrite Dz. intros n [<-|[]]. unfold name_bind. cbn. now rewrite String.eqb_refl. }
    assert (Given : forall u outer, dim_size u d = dim_size x d -> decays_given d outer u (Labelled z) alpha_axis 0).
    { intros u outer Su. split; [exact Hz|]. rewrite Dz. split; [now left|]. split; [intros n [<-|[]]; apply in_app_iff; right; now left|]. intros n [<-|[]]. congruence. }
    apply (commute None (row_entry P zero) (fun rows => of_opt EZeroDiv (rolling_exp_data K adjust (match min_periods with None => 1%Z | Some k => Z.max 1 k end) (combine al rows))) to_end); [now left|exact Pos| |].
    - apply by_name_size; [reflexivity|]. pose proof (proj1 (rolling_exp_named K ok P MA (Labelled z) alpha_axis 0 adjust min_periods zero md Missing (Val d) d to_end x HM (chooses_dim_arg _ _ _ Hd) Nd) (Given x _ eq_refl)) as X.
      eapply by_name_ext; [| |exact X]; [reflexivity|]. intros env. cbv beta. now rewrite (Same x) by reflexivity.
    - intros HMy Hdy Sdy _. apply by_name_size; [now symmetry|]. pose proof (proj1 (rolling_exp_named K ok P MA (Labelled z) alpha_axis 0 adjust min_periods zero md Missing (Val d) d to_end y HMy (chooses_dim_arg _ _ _ Hdy) Nd) (Given y _ Sdy)) as X.
      eapply by_name_ext; [| |exact X]; [reflexivity|]. intros env. cbv beta. now rewrite (Same y) by exact Sdy.
  Qed.
End Commute.

(* the reduction along several dimensions *)
Definition whole_many (ds : list sname) (p : sname -> nat + list nat) (n : sname) : nat + list nat := if in_dec string_dec n ds then inr [0] else p n.
Theorem isel_reduce : forall {A V} (K : pusher A V) ok P, moment_array K ok P ->
  forall ix md ds keepdims to_end x y g, labelled_moments P md x -> incl ds (x_dims x) -> NoDup ds -> ds <> [] -> (forall n, In n ds -> ~ In n md) ->
  x_isel ix x = Ok y -> untouched ix (ds ++ md) ->
  x_reduce_data K P (params_for md) Missing (Val (DSeq ds)) keepdims to_end x = Ok g ->
  exists p g', selects ix (dim_size x) (x_dims x) p /\ x_reduce_data K P (params_for md) Missing (Val (DSeq ds)) keepdims to_end y = Ok g' /\
    l_picked 0%Qc (whole_many ds p) (fun n => if in_dec string_dec n ds then 1 else dim_size x n) g g'.
Proof.
  intros A V K ok P MA ix md ds keepdims to_end x y g HM Id Nds Ne D E U Eg. pose proof (ma_packer _ _ _ MA) as HP.
  destruct (isel_start P ix md x y HM E) as (p & S & Hy & Pk & Ra & Fm); [intros n Hn Q; apply (U n Hn), in_app_iff; now right|].
  assert (Fd : forall n, In n ds -> p n = inr (seq 0 (dim_size x n))) by (intros n Hn; apply (untouched_full ix (ds ++ md) (dim_size x) (x_dims x)); auto; apply in_app_iff; now left).
  pose proof (picked_moments P md x y p HM Hy Pk Fm) as HMy. pose proof Pk as (D1 & D2 & _).
  assert (Idy : incl ds (x_dims y)) by (intros n Hn; apply (picked_size x y p Pk n (dim_size x n)); auto).
  assert (Cx : forall u, incl ds (x_dims u) -> chooses_many md Missing (Val (DSeq ds)) ds u) by (intros u Iu; split; [exact Iu|]; split; [exact Nds|]; split; [exact Ne|]; split; [exact D|]; right; right; left; auto).
  pose proof (reduce_named K ok P MA md _ _ _ keepdims to_end x HM (Cx x Id)) as Rx. pose proof (reduce_named K ok P MA md _ _ _ keepdims to_end y HMy (Cx y Idy)) as Ry.
  rewrite Eg in Rx. set (ry := x_reduce_data _ _ _ _ _ _ _ y) in *. clearbody ry. unfold reduced_by_name in Rx, Ry. cbv zeta in Rx, Ry.
  set (sz := fun n => if in_dec string_dec n ds then 1 else dim_size x n) in *. set (sz' := fun n => if in_dec string_dec n ds then 1 else dim_size y n) in *.
  set (dims := reduced_dims keepdims to_end (x_dims x) ds md) in *. set (p' := whole_many ds p).
  pose proof HM as (Hx & Nm & Im & Mm).
  assert (Pin : forall n, In n ds -> p' n = inr [0]) by (intros n Hn; unfold p', whole_many; now destruct (in_dec string_dec n ds)).
  assert (Pout : forall n, ~ In n ds -> p' n = p n) by (intros n Hn; unfold p', whole_many; now destruct (in_dec string_dec n ds)).
  assert (Kp : forall n, In n (x_dims x) -> is_list (p' n) = is_list (p n)) by (intros n Hn; destruct (in_dec string_dec n ds) as [Q|Q]; [now rewrite Pin, Fd|now rewrite Pout]).
  assert (Kx : forall l, incl l (ds ++ md) -> filter (fun n => is_list (p' n)) l = l).
  { intros l Il. apply filter_all. intros n Hn. apply Il, in_app_iff in Hn as [Hn|Hn]; [now rewrite Pin|]. rewrite Pout by (intros Q; now apply (D n Q)). now rewrite Fm. }
  assert (Kexc : forall l, filter (fun n => is_list (p' n)) (except_name (x_dims x) l) = except_name (x_dims y) l).
  { intros l. rewrite D1. unfold except. rewrite !filter_twice. apply filter_ext_in. intros n Hn. rewrite Bool.andb_comm. f_equal. now apply Kp. }
  assert (Dy : reduced_dims keepdims to_end (x_dims y) ds md = filter (fun n => is_list (p' n)) dims).
  { unfold dims, reduced_dims. destruct keepdims, to_end; rewrite ?filter_app, ?Kexc, ?(Kx ds), ?(Kx md) by (intros n Hn; apply in_app_iff; auto); try reflexivity. rewrite D1. symmetry. apply filter_ext_in. exact Kp. }
  rewrite Dy in Ry. set (dims' := filter (fun n => is_list (p' n)) dims) in *.
  assert (Idim : incl dims (x_dims x)).
  { intros n Hn. unfold dims, reduced_dims in Hn. destruct keepdims, to_end; rewrite ?in_app_iff, ?except_name_In in Hn; [|exact Hn| |tauto]; intuition auto. }
  assert (Mdim : incl md dims).
  { intros n Hn. unfold dims, reduced_dims. destruct keepdims, to_end; rewrite ?in_app_iff; auto. apply except_name_In. split; [now apply Im|]. intros Q. now apply (D n Q). }
  assert (Odim : forall n, In n (x_dims x) -> ~ In n (ds ++ md) -> In n dims).
  { intros n H1 H2. unfold dims, reduced_dims. destruct keepdims, to_end; rewrite ?in_app_iff, ?except_name_In; auto. split; [exact H1|]. intros Q. apply H2, in_app_iff. now left. }
  assert (Sl : forall n, In n dims' -> sz' n = List.length (list_of (p' n))).
  { intros n Hn. apply filter_In in Hn as [H1 H2]. unfold sz'. destruct (in_dec string_dec n ds) as [Q|Q]; [now rewrite Pin|]. rewrite Pout in H2 |- * by exact Q. destruct (p n) as [i|l] eqn:El; [discriminate H2|]. apply D2; auto. }
  assert (Out : forall env n, inside_names sz' (except_name dims' (ds ++ md)) env -> In n dims -> ~ In n (ds ++ md) -> moved p' env n < dim_size x n).
  { intros env n He H1 H2. assert (Q : ~ In n ds) by (intros Q; apply H2, in_app_iff; now left). unfold moved. rewrite Pout by exact Q. apply in_range_at; [apply Ra; now apply Idim|]. intros l El.
    assert (Hn : In n (except_name dims' (ds ++ md))) by (apply except_name_In; split; [apply filter_In; split; [exact H1|now rewrite Pout, El]|exact H2]). specialize (He n Hn). unfold sz' in He. destruct (in_dec string_dec n ds); [contradiction|]. rewrite (D2 n l (Idim n H1) El) in He. exact He. }
  destruct Rx as (G1 & G2 & G3 & G4). exists p. destruct ry as [g'|e].
  - exists g'. split; [exact S|]. split; [reflexivity|]. destruct Ry as (H1 & H2 & H3 & H4). split; [now rewrite G1|]. split; [exact H2|]. split; [rewrite H3, G1; apply map_ext_in; exact Sl|].
    intros env He. rewrite H1 in He. assert (He' : inside_names sz' dims' env) by (intros n Hn; rewrite Sl by exact Hn; now apply He).
    assert (Ho : inside_names sz' (except_name dims' (ds ++ md)) env) by (intros n Hn; apply He'; now apply except_name_In in Hn).
    assert (Same : forall n, In n md -> moved p' env n = env n).
    { intros n Hn. assert (Q : ~ In n ds) by (intros Q; now apply (D n Q)). apply (moved_full p' n (dim_size x n)); [rewrite Pout by exact Q; now apply Fm|].
      assert (Hn' : In n dims') by (apply filter_In; split; [now apply Mdim|]; rewrite Pout by exact Q; now rewrite Fm). specialize (He' n Hn'). rewrite Sl in He' by exact Hn'. rewrite Pout, Fm in He' by auto. cbn [list_of] in He'. now rewrite seq_length in He'. }
    assert (In_ : inside_names sz dims (moved p' env)).
    { intros n Hn. unfold sz. destruct (in_dec string_dec n ds) as [Q|Q].
      - unfold moved. rewrite Pin by exact Q. cbn [at_pick]. destruct (env n) as [|[|k]]; cbn; lia.
      - destruct (in_dec string_dec n md) as [M|M]; [|apply Out; auto; rewrite in_app_iff; tauto]. rewrite Same by exact M.
        assert (Hn' : In n dims') by (apply filter_In; split; [exact Hn|]; rewrite Pout by exact Q; now rewrite Fm). specialize (He' n Hn'). rewrite Sl in He' by exact Hn'. rewrite Pout, Fm in He' by auto. cbn [list_of] in He'. now rewrite seq_length in He'. }
    rewrite G1. fold p'. split; [|exact In_]. destruct (G4 _ In_) as (a & E1 & E2). destruct (H4 env He') as (b & F1 & F2). rewrite E2, F2.
    assert (Hr : rows_named P y ds md env = rows_named P x ds md (moved p' env)).
    { rewrite (picked_rows P HP md x y p HM Pk Fm ds env Nds Id D Fd).
      - apply rows_agree; auto. intros n Hn. apply except_name_In in Hn as [_ Hn]. unfold moved. rewrite Pout; [reflexivity|]. intros Q. apply Hn, in_app_iff. now left.
      - intros n Hn. apply except_name_In in Hn as [N1 N2]. rewrite D1 in N1. apply filter_In in N1 as [N1 N3]. assert (Q : ~ In n ds) by (intros Q; apply N2, in_app_iff; now left).
        assert (Hn' : In n dims') by (apply filter_In; split; [now apply Odim|]; now rewrite Pout). specialize (He' n Hn'). unfold sz' in He'. destruct (in_dec string_dec n ds); [contradiction|exact He']. }
    rewrite Hr, E1 in F1. injection F1 as <-. f_equal. apply map_ext_in. intros n Hn. symmetry. now apply Same.
  - exfalso. destruct Ry as (_ & env & He & B). set (e2 := fun n => if in_dec string_dec n (ds ++ md) then 0 else moved p env n).
    assert (I2 : inside_names sz dims e2).
    { intros n Hn. unfold e2, sz. destruct (in_dec string_dec n (ds ++ md)) as [Q|Q]; [destruct (in_dec string_dec n ds) as [J|J]; [lia|]; apply (moments_pos P x md); auto; apply in_app_iff in Q; tauto|].
      destruct (in_dec string_dec n ds) as [J|J]; [elim Q; apply in_app_iff; now left|]. apply in_range_at; [apply Ra; now apply Idim|]. intros l El.
      assert (Hn' : In n (except_name (x_dims y) (ds ++ md))) by (apply except_name_In; split; [rewrite D1; apply filter_In; split; [now apply Idim|now rewrite El]|exact Q]). specialize (He n Hn'). now rewrite (D2 n l (Idim n Hn) El) in He. }
    destruct (G4 e2 I2) as (a & E1 & _). rewrite (picked_rows P HP md x y p HM Pk Fm ds env Nds Id D Fd He) in B.
    rewrite (rows_agree P x ds md e2 (moved p env)) in E1; [congruence|exact HP|exact HM|exact Nds|]. intros n Hn. apply except_name_In in Hn as [_ Hn]. unfold e2. destruct (in_dec string_dec n (ds ++ md)); [contradiction|reflexivity].
Qed.
