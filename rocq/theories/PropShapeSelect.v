(* Selecting by position along some dimensions and working along another one. *)
From Coq Require Import String Permutation.
From Verif Require Import Base BaseLemmas Checks ModelPush ModelPushCov ModelKernels ModelIndex ModelAxes ModelSelect ModelParams ModelWrap ModelNd ModelLabel ModelDataset ModelShape
  Spec SpecAxes SpecNd SpecLabel SpecLabelTwo SpecDataset SpecShape ProofAxes ProofArrays ProofIndex ProofMulti ProofNd PropAxes PropParams PropWrap PropReshape PropLabelled PropNd PropNdUse PropMethodsUse ProofLabel ProofLabelMany PropLabel PropLabelTwo PropLabelReduce PropLabelExp PropLabelJack ProofDataset PropShape PropShapeUse.
Local Open Scope string_scope.
Local Open Scope nat_scope.

(* ---- isel ------------------------------------------------------------------------------- *)

Definition in_range (n : nat) (q : nat + list nat) : Prop := match q with inl i => i < n | inr l => Forall (fun i => i < n) l end.
Lemma in_range_at n q i : in_range n q -> (forall l, q = inr l -> i < List.length l) -> at_pick q i < n.
Proof. destruct q as [j|l]; cbn; [auto|]. intros F H. rewrite Forall_forall in F. apply F, nth_In. now apply H. Qed.
Lemma picked_of x p : x_ok x -> (forall n, In n (x_dims x) -> in_range (dim_size x n) (p n)) ->
  let r := map (fun d => of_pick (p d)) (x_dims x) in
  let y := XA (kept_dims r (x_dims x)) (tabulate (sel_shape r) (fun idx => tget (x_val x) (sel_source r idx))) in
  x_ok y /\ picked x y p.
Proof.
  intros H R r y. unfold y, r. rewrite kept_picks, shape_picks. clear y. pose proof H as (Ho & N & L). set (ds := filter (fun d => is_list (p d)) (x_dims x)). set (y := XA _ _).
  assert (Hy : x_ok y) by (split; [apply tabulate_ok|]; split; [now apply NoDup_filter|]; unfold y, x_shape; cbn [x_dims x_val tabulate tshape]; now rewrite map_length).
  assert (Sy : forall d, In d ds -> dim_size y d = List.length (list_of (p d))).
  { intros d Hd. unfold dim_size, x_shape, y. cbn [x_dims x_val tabulate tshape]. destruct (pos_lt ds d Hd) as [P1 P2].
    rewrite (nth_indep _ 0 (List.length (list_of (p "")))) by (now rewrite map_length). rewrite (map_nth (fun d => List.length (list_of (p d)))). now rewrite P2. }
  split; [exact Hy|]. split; [reflexivity|]. split.
  - intros d l Hd E. rewrite Sy; [now rewrite E|]. unfold ds. apply filter_In. split; [exact Hd|]. now rewrite E.
  - intros env I. pose proof (proj1 (x_inside_valid y env Hy) I) as V. unfold y, x_shape in V. cbn [x_dims x_val tabulate tshape] in V. split.
    + unfold x_at, y. cbn [x_dims x_val]. rewrite tget_tabulate by exact V. f_equal. apply source_picks.
    + intros d Hd. change (at_pick (p d) (env d) < dim_size x d). apply in_range_at; [now apply R|]. intros l E. assert (Q : In d ds) by (unfold ds; apply filter_In; split; [exact Hd|now rewrite E]).
      specialize (I d Q). rewrite Sy in I by exact Q. now rewrite E in I.
Qed.
Lemma takes_key n k q : takes n k q <-> isel_key k n = Ok (of_pick q).
Proof.
  split.
  - intros H. inversion H; subst; cbn [isel_key of_pick]; [apply index_int_ok in H0; now rewrite H0|now rewrite (index_ints _ _ _ H0)|now rewrite H0].
  - destruct k as [i|l|a b c]; cbn [isel_key].
    + destruct (index_int i n) as [j|] eqn:E; cbn [rmap rbind]; [|discriminate]. intros [= Q]. destruct q; cbn in Q; [|discriminate Q]. injection Q as <-. constructor. now apply index_int_ok.
    + destruct (mapR _ l) as [js|] eqn:E; cbn [rmap rbind]; [|discriminate]. intros [= Q]. destruct q; cbn in Q; [discriminate Q|]. injection Q as <-. constructor.
      revert js E. induction l as [|i l IH]; cbn [mapR]; intros js E; [injection E as <-; constructor|]. apply rbind_ok in E as (j & E1 & E). apply rbind_ok in E as (js' & E2 & E). injection E as <-. constructor; [now apply index_int_ok|now apply IH].
    + destruct (slice_list n a b c) as [js|] eqn:E; cbn [rmap rbind]; [|discriminate]. intros [= Q]. destruct q; cbn in Q; [discriminate Q|]. injection Q as <-. now constructor.
Qed.
Lemma takes_range n k q : takes n k q -> in_range n q.
Proof.
  intros H. inversion H; subst; cbn [in_range]; [apply H0| |now apply (slice_bounds _ _ _ _ _ H0)].
  induction H0 as [|i j l ks Q F IH]; constructor; [apply Q|]. apply IH. now constructor.
Qed.

Lemma isel_of_find ix n : isel_of ix n = match find (fun q => String.eqb (fst q) n) ix with Some q => snd q | None => ISlice None None None end.
Proof. reflexivity. Qed.
Lemma selects_key ix sz dims p : selects ix sz dims p <-> forall n, In n dims -> isel_key (isel_of ix n) (sz n) = Ok (of_pick (p n)).
Proof.
  unfold selects, isel_of. split; intros H n Hn; specialize (H n Hn); destruct (find _ ix) as [q|].
  - now apply takes_key.
  - rewrite H. cbn [isel_key of_pick]. now rewrite slice_full.
  - now apply takes_key.
  - cbn [isel_key] in H. rewrite slice_full in H. cbn [rmap rbind] in H. destruct (p n); cbn in H; congruence.
Qed.
Lemma selects_range ix sz dims p n : selects ix sz dims p -> In n dims -> in_range (sz n) (p n).
Proof. intros H I. apply (takes_range _ (isel_of ix n)). apply takes_key. now apply (proj1 (selects_key ix sz dims p) H). Qed.
Lemma isel_selects ix x y : x_ok x -> x_isel ix x = Ok y -> incl (map fst ix) (x_dims x) /\ exists p, selects ix (dim_size x) (x_dims x) p.
Proof.
  intros H. unfold x_isel. assert (F : forallb (fun p : sname * ikey => smem (fst p) (x_dims x)) ix = forallb (fun d => smem d (x_dims x)) (map fst ix)) by (induction ix as [|a ix IH]; [reflexivity|]; cbn [forallb map]; now rewrite IH).
  rewrite F. clear F. rewrite (combine_named x H). destruct (forallb _ (map fst ix)) eqn:F; cbn [negb]; [|discriminate]. apply forallb_incl in F. destruct (mapR _ _) as [r|e] eqn:E; cbn [rbind]; [|discriminate]. intros _. split; [exact F|].
  exists (fun n => match isel_key (isel_of ix n) (dim_size x n) with Ok s => to_pick s | Raise _ => inl 0 end). apply selects_key. intros n Hn.
  assert (Q : exists s, isel_key (isel_of ix n) (dim_size x n) = Ok s).
  { revert r E Hn. generalize (x_dims x). intros l. induction l as [|m l IH]; intros r E Hn; [destruct Hn|]. cbn [map mapR fst snd] in E. apply rbind_ok in E as (s & E1 & E). apply rbind_ok in E as (r' & E2 & E). destruct Hn as [->|Hn]; eauto. }
  destruct Q as (s & Q). rewrite Q. destruct s; [reflexivity|reflexivity|]. exfalso. destruct (isel_of ix n); cbn [isel_key] in Q; apply rbind_ok in Q as (? & _ & Q); discriminate Q.
Qed.
(* Each dimension is restricted as its indexer says, the others stay as they are; an unknown
   dimension or an indexer outside the dimension is refused. *)
Theorem x_isel_named : forall ix x, x_ok x ->
  (incl (map fst ix) (x_dims x) -> forall p, selects ix (dim_size x) (x_dims x) p -> exists y, x_isel ix x = Ok y /\ x_ok y /\ picked x y p) /\
  (~ (incl (map fst ix) (x_dims x) /\ exists p, selects ix (dim_size x) (x_dims x) p) -> exists e, x_isel ix x = Raise e).
Proof.
  intros ix x H. unfold x_isel. assert (F : forallb (fun p : sname * ikey => smem (fst p) (x_dims x)) ix = forallb (fun d => smem d (x_dims x)) (map fst ix)) by (induction ix as [|a ix IH]; [reflexivity|]; cbn [forallb map]; now rewrite IH).
  rewrite F. rewrite (combine_named x H). split.
  - intros I p S. rewrite (proj2 (forallb_incl _ _) I). cbn [negb].
    assert (E : mapR (fun q : sname * nat => isel_key (isel_of ix (fst q)) (snd q)) (map (fun n => (n, dim_size x n)) (x_dims x)) = Ok (map (fun d => of_pick (p d)) (x_dims x))).
    { pose proof (proj1 (selects_key _ _ _ _) S) as S'. revert S'. generalize (x_dims x). intros l. induction l as [|n l IH]; intros S'; [reflexivity|]. cbn [map mapR fst snd]. rewrite S' by now left. cbn [rbind]. rewrite IH; [reflexivity|]. intros m Hm. apply S'. now right. }
    rewrite E. cbn [rbind]. eexists. split; [reflexivity|]. apply picked_of; [exact H|]. intros n Hn. now apply (selects_range _ _ _ _ _ S).
  - intros X. destruct (if negb _ then _ else _) as [y|e] eqn:E in |- *; [|eauto]. exfalso. apply X. apply (isel_selects ix x y H). unfold x_isel. rewrite F. now rewrite (combine_named x H).
Qed.
(* An object keeps its moments if the selection leaves the moment dimensions their length:
   so it is accepted, whatever is selected there, and refused otherwise. *)
Theorem isel_object_named : forall c md ix, xholds c md ->
  let x := cx_obj c in
  (forall p, incl (map fst ix) (x_dims x) -> selects ix (dim_size x) (x_dims x) p ->
   ((forall n, In n md -> exists l, p n = inr l /\ List.length l = dim_size x n) ->
    exists y, cx_isel c ix = Ok (CX y (cx_params c)) /\ xholds (CX y (cx_params c)) md /\ picked x y p) /\
   (~ (forall n, In n md -> exists l, p n = inr l /\ List.length l = dim_size x n) -> cx_isel c ix = Raise EValue)) /\
  (~ (incl (map fst ix) (x_dims x) /\ exists p, selects ix (dim_size x) (x_dims x) p) -> exists e, cx_isel c ix = Raise e).
Proof.
  intros c md ix H x. pose proof H as (Ho & Nm & Lm & Im & Sm & Pm). fold x in Ho, Im. destruct (x_isel_named ix x Ho) as [X1 X2]. split.
  - intros p I S. destruct (X1 I p S) as (y & Ey & Hy & D1 & D2 & D3). unfold cx_isel, cx_pipe, iter_dims. fold x. rewrite Ey, Pm. cbn [rbind xp_dims]. rewrite <- Pm.
    destruct (x_new_like_exact c md y false H Hy) as [N1 N2]. split.
    + intros M. destruct N1 as [E1 E2].
      * split; [|split; [|discriminate]].
        -- intros n Hn. destruct (M n Hn) as (l & El & _). rewrite D1. apply filter_In. split; [now apply Im|now rewrite El].
        -- intros n Hn. destruct (M n Hn) as (l & El & Ll). rewrite (D2 n l); auto.
      * exists y. split; [exact E1|]. split; [exact E2|]. split; [exact D1|]. now split.
    + intros M. apply N2. intros (F1 & F2 & _). apply M. intros n Hn. specialize (F1 n Hn). rewrite D1 in F1. apply filter_In in F1 as [_ F1]. destruct (p n) as [i|l] eqn:E; [discriminate F1|].
      exists l. split; [reflexivity|]. rewrite <- (D2 n l); auto.
  - intros X. destruct (X2 X) as [e E]. exists e. unfold cx_isel, cx_pipe. fold x. now rewrite E.
Qed.

(* ---- selecting and working along a dimension -------------------------------------------- *)

Lemma moved_whole_in d n p env : env d < n -> moved (whole d n p) env d = env d.
Proof. intros H. unfold moved, whole. rewrite String.eqb_refl. cbn [at_pick]. now rewrite seq_nth. Qed.
Lemma moved_full p n k env : p n = inr (seq 0 k) -> env n < k -> moved p env n = env n.
Proof. intros E H. unfold moved. rewrite E. cbn [at_pick]. now rewrite seq_nth. Qed.
Lemma by_name_picked {B T} (dflt : T) (val : B -> list nat -> T) run run' dims sz sz' rd md p g r' :
  incl (rd :: md) dims ->
  (forall n, In n (rd :: md) -> p n = inr (seq 0 (sz n)) /\ 0 < sz n) -> (forall n, In n dims -> in_range (sz n) (p n)) ->
  (forall n l, In n dims -> p n = inr l -> sz' n = List.length l) ->
  (forall e e', (forall n, In n (except_name dims (rd :: md)) -> e n = e' n) -> run e = run e') ->
  (forall env, inside_names sz' (except_name (filter (fun n => is_list (p n)) dims) (rd :: md)) env -> run' env = run (moved p env)) ->
  holds_named dflt val run dims sz rd md g -> by_name dflt val run' (filter (fun n => is_list (p n)) dims) sz' rd md r' ->
  exists g', r' = Ok g' /\ l_picked dflt p sz g g'.
Proof.
  intros I Fu Ra Sz Ext Run (G1 & G2 & G3 & G4) Hr. set (dims' := filter (fun n => is_list (p n)) dims) in *.
  assert (Kd : forall n, In n (rd :: md) -> In n dims') by (intros n Hn; apply filter_In; split; [now apply I|]; now rewrite (proj1 (Fu n Hn))).
  assert (Szd : forall n, In n (rd :: md) -> sz' n = sz n) by (intros n Hn; rewrite (Sz n _ (I n Hn) (proj1 (Fu n Hn))); apply seq_length).
  assert (Out : forall env n, inside_names sz' (except_name dims' (rd :: md)) env -> In n dims -> ~ In n (rd :: md) -> moved p env n < sz n).
  { intros env n He Hn Hr'. apply in_range_at; [now apply Ra|]. intros l El. rewrite <- (Sz n l Hn El). apply He. apply except_name_In. split; [|exact Hr']. apply filter_In. split; [exact Hn|now rewrite El]. }
  destruct r' as [g'|e]; cbn [by_name] in Hr.
  - exists g'. split; [reflexivity|]. destruct Hr as (H1 & H2 & H3 & H4).
    assert (Szl : forall n, In n dims' -> sz' n = List.length (list_of (p n))).
    { intros n Hn. apply filter_In in Hn as [Hn El]. destruct (p n) as [i|l] eqn:E; [discriminate El|]. now apply Sz. }
    split; [now rewrite G1|]. split; [exact H2|]. split; [rewrite H3, G1; apply map_ext_in; exact Szl|]. intros env He. rewrite H1 in He.
    assert (He' : inside_names sz' dims' env) by (intros n Hn; rewrite Szl by exact Hn; now apply He).
    assert (Ho : inside_names sz' (except_name dims' (rd :: md)) env) by (intros n Hn; apply He'; now apply except_name_In in Hn).
    assert (Same : forall n, In n (rd :: md) -> moved p env n = env n) by (intros n Hn; apply (moved_full p n (sz n)); [now apply Fu|]; rewrite <- Szd by exact Hn; now apply He', Kd).
    assert (In_ : inside_names sz dims (moved p env)).
    { intros n Hn. destruct (in_dec string_dec n (rd :: md)) as [Q|Q]; [rewrite Same by exact Q; rewrite <- Szd by exact Q; now apply He', Kd|now apply Out]. }
    rewrite G1. split; [|exact In_]. destruct (G4 _ In_) as (rows & b & E1 & E2 & E3). destruct (H4 env He') as (rows' & b' & F1 & F2 & F3). rewrite E3, F3.
    rewrite (Run env Ho), E1 in F1. injection F1 as <-. rewrite Same in E2 by now left. rewrite E2 in F2. injection F2 as <-. f_equal. apply map_ext_in. intros n Hn. symmetry. apply Same. now right.
  - exfalso. destruct Hr as (env & He & E). rewrite (Run env He) in E. set (e2 := fun n => if in_dec string_dec n (rd :: md) then 0 else moved p env n).
    assert (I2 : inside_names sz dims e2). { intros n Hn. unfold e2. destruct (in_dec string_dec n (rd :: md)) as [Q|Q]; [now apply Fu|now apply Out]. }
    destruct (G4 e2 I2) as (rows & b & E1 & _). rewrite (Ext e2 (moved p env)) in E1; [congruence|]. intros n Hn. unfold e2. apply except_name_In in Hn. destruct (in_dec string_dec n (rd :: md)); tauto.
Qed.

Section Selecting.
  Context {A : Type} (P : packer A) (HP : packer_ok P).
  Variables (md : list sname) (x y : xarr) (p : sname -> nat + list nat).
  Hypothesis HM : labelled_moments P md x.
  Hypothesis Hy : x_ok y.
  Hypothesis Pk : picked x y p.
  Hypothesis Ra : forall n, In n (x_dims x) -> in_range (dim_size x n) (p n).
  Hypothesis Fm : forall n, In n md -> p n = inr (seq 0 (dim_size x n)).
  Let keep n := is_list (p n).
  Lemma picked_size n k : In n (x_dims x) -> p n = inr (seq 0 k) -> In n (x_dims y) /\ dim_size y n = k.
  Proof. intros Hn E. destruct Pk as (D1 & D2 & _). split; [rewrite D1; apply filter_In; split; [exact Hn|now rewrite E]|]. rewrite (D2 n _ Hn E). apply seq_length. Qed.
  Lemma picked_moments : labelled_moments P md y.
  Proof.
    pose proof HM as (_ & Nm & Im & Mm). split; [exact Hy|]. split; [exact Nm|]. split; [intros n Hn; apply (picked_size n (dim_size x n)); auto|]. rewrite <- Mm. apply map_ext_in. intros n Hn. apply (picked_size n (dim_size x n)); auto.
  Qed.
  Lemma picked_rows ds env : NoDup ds -> incl ds (x_dims x) -> (forall n, In n ds -> ~ In n md) -> (forall n, In n ds -> p n = inr (seq 0 (dim_size x n))) ->
    inside_names (dim_size y) (except_name (x_dims y) (ds ++ md)) env -> rows_named P y ds md env = rows_named P x ds md (moved p env).
  Proof.
    intros Nd Id D Fd He. pose proof HM as (_ & Nm & Im & Mm). pose proof Pk as (D1 & D2 & D3). unfold rows_named.
    assert (Sd : forall n, In n ds -> dim_size y n = dim_size x n) by (intros n Hn; apply (picked_size n (dim_size x n)); auto).
    assert (Sm : forall n, In n md -> dim_size y n = dim_size x n) by (intros n Hn; apply (picked_size n (dim_size x n)); auto).
    rewrite (map_ext_in _ _ ds Sd). apply map_ext_in. intros i Hi. apply all_idx_valid in Hi. assert (Li : List.length i = List.length ds) by (rewrite <- (map_length (dim_size x) ds); exact (valid_length _ _ Hi)).
    unfold moments_named. apply HP. intros m Vm. rewrite <- Mm in Vm. assert (Lm : List.length m = List.length md) by (rewrite <- (map_length (dim_size x) md); exact (valid_length _ _ Vm)).
    set (E := name_bind md m (name_bind ds i env)).
    assert (Bm : forall e n, In n md -> name_bind md m e n < dim_size x n).
    { intros e n Hn. destruct (In_nth md n "" Hn) as (j & J1 & <-). rewrite name_bind_in by auto. pose proof (valid_nth _ _ Vm j ltac:(now rewrite map_length)) as Q. now rewrite nth_map_dims in Q. }
    assert (Bd : forall e n, In n ds -> name_bind ds i e n < dim_size x n).
    { intros e n Hn. destruct (In_nth ds n "" Hn) as (j & J1 & <-). rewrite name_bind_in by auto. pose proof (valid_nth _ _ Hi j ltac:(now rewrite map_length)) as Q. now rewrite nth_map_dims in Q. }
    assert (Iy : x_inside y E).
    { intros n Hn. unfold E. destruct (in_dec string_dec n md) as [M|M]; [rewrite Sm by exact M; now apply Bm|]. rewrite (name_bind_out md) by exact M.
      destruct (in_dec string_dec n ds) as [J|J]; [rewrite Sd by exact J; now apply Bd|]. rewrite name_bind_out by exact J. apply He. apply except_name_In. split; [exact Hn|]. rewrite in_app_iff. tauto. }
    destruct (D3 E Iy) as [E1 _]. rewrite E1. apply x_at_agree. intros n Hn. change (moved p E n = name_bind md m (name_bind ds i (moved p env)) n).
    destruct (in_dec string_dec n md) as [M|M].
    - rewrite (moved_full p n (dim_size x n)); [|now apply Fm|unfold E; now apply Bm]. unfold E. now apply name_bind_any.
    - rewrite (name_bind_out md _ (name_bind ds i (moved p env))) by exact M. destruct (in_dec string_dec n ds) as [J|J].
      + assert (En : E n = name_bind ds i env n) by (unfold E; now rewrite name_bind_out). rewrite (moved_full p n (dim_size x n)); [|now apply Fd|rewrite En; now apply Bd]. rewrite En. now apply name_bind_any.
      + rewrite name_bind_out by exact J. unfold moved. f_equal. unfold E. rewrite (name_bind_out md) by exact M. now rewrite name_bind_out.
  Qed.
  Variable d : sname.
  Hypothesis Hd : In d (x_dims x).
  Hypothesis Nd : ~ In d md.
  Hypothesis Fd : p d = inr (seq 0 (dim_size x d)).
  Lemma whole_in n k q : whole n k q n = inr (seq 0 k).
  Proof. unfold whole. now rewrite String.eqb_refl. Qed.
  Lemma whole_out m n k q : m <> n -> whole n k q m = q m.
  Proof. intros H. unfold whole. now destruct (String.eqb_spec m n). Qed.
  Lemma filter_result to_end rd k : (rd = d \/ ~ In rd (x_dims x)) ->
    filter (fun n => is_list (whole rd k p n)) (result_dims to_end (x_dims x) d rd md) = result_dims to_end (x_dims y) d rd md.
  Proof.
    intros Hr. destruct Pk as (D1 & _). rewrite D1. pose proof HM as (_ & _ & Im & _). unfold result_dims. destruct to_end.
    - rewrite filter_app. cbn [filter]. rewrite whole_in. cbn [is_list]. f_equal; [|f_equal].
      + unfold except. rewrite !filter_twice. apply filter_ext_in. intros n Hn. rewrite Bool.andb_comm. destruct (in_dec string_dec n (d :: md)) as [Q|Q]; [now rewrite !Bool.andb_false_r|].
        rewrite whole_out; [reflexivity|]. intros ->. destruct Hr as [->|Hr]; [apply Q; now left|contradiction].
      + apply filter_all. intros n Hn. rewrite whole_out; [now rewrite Fm|]. intros ->. destruct Hr as [->|Hr]; [contradiction|]. apply Hr. now apply Im.
    - assert (G : forall l, incl l (x_dims x) -> filter (fun n => is_list (whole rd k p n)) (map (fun n => if String.eqb n d then rd else n) l) = map (fun n => if String.eqb n d then rd else n) (filter (fun n => is_list (p n)) l)); [|apply G, incl_refl].
      induction l as [|n l IH]; intros I; [reflexivity|]. cbn [map filter]. destruct (String.eqb_spec n d) as [->|Q].
      + rewrite whole_in, Fd. cbn [is_list map]. rewrite String.eqb_refl. f_equal. apply IH. intros a Ha. apply I. now right.
      + rewrite whole_out by (intros ->; destruct Hr as [->|Hr]; [congruence|]; apply Hr, I; now left). destruct (is_list (p n)); cbn [map]; [destruct (String.eqb_spec n d); [contradiction|]; f_equal|]; apply IH; intros a Ha; apply I; now right.
  Qed.
  Lemma result_names to_end rd n : (rd = d \/ ~ In rd (x_dims x)) -> In n (result_dims to_end (x_dims x) d rd md) <-> In n (except_name (x_dims x) (d :: md) ++ rd :: md).
  Proof. intros Hr. destruct to_end; [reflexivity|]. symmetry. now apply (result_dims_In P x md d HM Hd Nd). Qed.
  Lemma select_any {B T} (dflt : T) (val : B -> list nat -> T) (F : list A -> res (list B)) to_end rd newlen g r' :
    (rd = d \/ ~ In rd (x_dims x)) -> 0 < newlen ->
    by_name dflt val (fun env => F (rows_named P x [d] md env)) (result_dims to_end (x_dims x) d rd md) (result_size (dim_size x) rd newlen) rd md (Ok g) ->
    by_name dflt val (fun env => F (rows_named P y [d] md env)) (result_dims to_end (x_dims y) d rd md) (result_size (dim_size y) rd newlen) rd md r' ->
    exists g', r' = Ok g' /\ l_picked dflt (whole rd newlen p) (result_size (dim_size x) rd newlen) g g'.
  Proof.
    intros Hr Hk Hg H'. pose proof HM as (Hx & Nm & Im & Mm). pose proof Pk as (D1 & D2 & _). rewrite <- (filter_result to_end rd newlen Hr) in H'.
    assert (Mr : forall n, In n md -> n <> rd) by (intros n Hn ->; destruct Hr as [->|Hr]; [contradiction|]; apply Hr; now apply Im).
    assert (Or : forall n, In n (except_name (x_dims x) (d :: md)) -> In n (x_dims x) /\ n <> rd /\ ~ In n (d :: md)).
    { intros n Hn. apply except_name_In in Hn as [H1 H2]. split; [exact H1|]. split; [|exact H2]. intros ->. destruct Hr as [->|Hr]; [apply H2; now left|contradiction]. }
    assert (Rs : forall sz n, n <> rd -> result_size sz rd newlen n = sz n) by (intros sz n Hn; unfold result_size; now destruct (String.eqb_spec n rd)).
    assert (Rr : forall sz, result_size sz rd newlen rd = newlen) by (intros sz; unfold result_size; now rewrite String.eqb_refl).
    assert (Cs : forall n, In n (result_dims to_end (x_dims x) d rd md) -> n = rd \/ n <> rd /\ In n (x_dims x)).
    { intros n Hn. apply (result_names to_end rd n Hr) in Hn. apply in_app_iff in Hn as [Hn|[<-|Hn]]; [right; destruct (Or n Hn); tauto|now left|right; split; [now apply Mr|now apply Im]]. }
    refine (by_name_picked dflt val _ _ _ _ _ _ _ _ g r' _ _ _ _ _ _ Hg H').
    - intros n Hn. apply (result_names to_end rd n Hr). apply in_app_iff. now right.
    - intros n [<-|Hn]; [rewrite whole_in, Rr; split; [reflexivity|exact Hk]|]. rewrite whole_out, Rs by now apply Mr. split; [now apply Fm|]. now apply (moments_pos P x md).
    - intros n Hn. destruct (Cs n Hn) as [->|[H1 H2]]; [rewrite whole_in, Rr; cbn; apply Forall_forall; intros i Hi; now apply in_seq in Hi|]. rewrite whole_out, Rs by exact H1. now apply Ra.
    - intros n l Hn E. destruct (Cs n Hn) as [->|[H1 H2]]; [rewrite whole_in in E; injection E as <-; rewrite Rr; symmetry; apply seq_length|]. rewrite whole_out in E by exact H1. rewrite Rs by exact H1. now apply D2.
    - intros e e' He. f_equal. apply (rows_named_ext P HP x md d HM). intros n Hn. apply He. destruct (Or n Hn) as (H1 & H2 & H3). apply except_name_In. split; [apply (result_names to_end rd n Hr), in_app_iff; now left|]. intros [Q|Q]; [now apply H2|apply H3; now right].
    - intros env He. f_equal. rewrite (picked_rows [d] env); [|constructor; [intros []|constructor]|intros n [<-|[]]; exact Hd|intros n [<-|[]]; exact Nd|intros n [<-|[]]; exact Fd|].
      + apply (rows_named_ext P HP x md d HM). intros n Hn. unfold moved. destruct (Or n Hn) as (_ & H2 & _). now rewrite whole_out.
      + intros n Hn. apply except_name_In in Hn as [H1 H2]. rewrite D1 in H1. apply filter_In in H1 as [H1 H3]. assert (Hn : In n (except_name (x_dims x) (d :: md))) by now apply except_name_In. destruct (Or n Hn) as (_ & H4 & _). rewrite <- (Rs (dim_size y)) by exact H4. apply He.
        apply except_name_In. split; [|intros [Q|Q]; [now apply H4|apply H2; now right]]. apply filter_In. split; [apply (result_names to_end rd n Hr), in_app_iff; now left|]. now rewrite whole_out.
  Qed.
End Selecting.
