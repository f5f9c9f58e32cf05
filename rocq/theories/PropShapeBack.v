(* unstack, and what becomes of a stacked dimension. *)
From Coq Require Import String Permutation.
From Verif Require Import Base BaseLemmas Checks ModelPush ModelPushCov ModelKernels ModelIndex ModelAxes ModelSelect ModelParams ModelWrap ModelNd ModelLabel ModelDataset ModelShape
  Spec SpecAxes SpecNd SpecLabel SpecLabelTwo SpecDataset SpecShape ProofAxes ProofArrays ProofIndex ProofMulti ProofNd PropAxes PropParams PropWrap PropReshape PropLabelled PropMethodsUse ProofLabel PropShape PropShapeUse PropShapeSelect PropShapeCommute.
Local Open Scope string_scope.
Local Open Scope nat_scope.

Definition nats_dec (a b : list nat) : bool := if list_eq_dec Nat.eq_dec a b then true else false.
Lemma position_codes i codes : In i codes -> position nats_dec i codes < List.length codes /\ nth_error codes (position nats_dec i codes) = Some i.
Proof.
  induction codes as [|a l IH]; intros H; [destruct H|]. cbn [position List.length]. unfold nats_dec at 1 3. destruct (list_eq_dec Nat.eq_dec i a) as [->|Q]; [split; [lia|reflexivity]|].
  destruct H as [->|H]; [congruence|]. destruct (IH H). split; [lia|assumption].
Qed.
Theorem x_unstack_named : forall z ix x, x_ok x -> In z (x_dims x) -> full_index ix x z ->
  exists y, x_unstack z ix x = Ok y /\ x_ok y /\ unstacked z ix x y /\ x_dims y = (except_name (x_dims x) [z] ++ xi_names ix)%list.
Proof.
  intros z [ns ss codes] x H Hz (Nn & Ln & Pc & Lz & Fr). cbn [xi_names xi_sizes xi_codes] in *. pose proof H as (_ & N & _). unfold x_unstack. cbn [xi_names xi_sizes xi_codes].
  apply smem_In in Hz as Hz'. rewrite Hz'. cbn [negb]. set (other := filter (fun d => negb (String.eqb d z)) (x_dims x)).
  assert (Eo : except_name (x_dims x) [z] = other).
  { unfold other, except. apply filter_ext. intros n. destruct (in_dec string_dec n [z]) as [[B|[]]|Q], (String.eqb_spec n z) as [J|J]; try reflexivity; [now elim J|elim Q; now left]. }
  rewrite Eo. assert (Oi : forall n, In n other <-> In n (x_dims x) /\ n <> z) by (intros n; rewrite <- Eo, except_name_In; cbn [In]; intuition congruence).
  assert (Fo : existsb (fun n => smem n other) ns = false).
  { apply not_true_is_false. intros Q. apply existsb_exists in Q as (n & Q1 & Q2). apply smem_In, Oi in Q2 as [Q2 Q3]. now apply Q3, Fr. }
  rewrite Fo. assert (S1 : NoDup (other ++ [z])) by (apply NoDup_app_; [now apply NoDup_filter|constructor; [intros []|constructor]|intros n Hn [<-|[]]; apply Oi in Hn; tauto]).
  assert (S2 : incl (other ++ [z]) (x_dims x)) by (intros n Hn; apply in_app_iff in Hn as [Hn|[<-|[]]]; [now apply Oi in Hn|exact Hz]).
  assert (S3 : incl (x_dims x) (other ++ [z])) by (intros n Hn; apply in_app_iff; destruct (string_dec n z) as [->|Q]; [right; now left|left; now apply Oi]).
  destruct (x_transpose_ok _ x _ H (infix_exact _ _ S1 S2 S3)) as (u & Eu & Du). rewrite Eu. cbn [rbind]. destruct (x_transpose_same _ _ _ H Eu) as (Hu & (U1 & U2 & U3) & _).
  assert (Su : x_shape u = (map (dim_size x) other ++ [dim_size x z])%list).
  { rewrite (shape_named u Hu), Du. change [dim_size x z] with (map (dim_size x) [z]). rewrite <- map_app. apply map_ext_in. intros n Hn. symmetry. apply U2. now apply S2. }
  rewrite Su. replace (List.length other) with (List.length (map (dim_size x) other)) by apply map_length. rewrite firstn_app, Nat.sub_diag, firstn_all. cbn [firstn]. rewrite app_nil_r.
  rewrite app_nth2 by lia. rewrite Nat.sub_diag. cbn [nth]. rewrite Lz, Nat.eqb_refl. cbn [negb]. rewrite map_length.
  change (fun a b : list nat => if list_eq_dec Nat.eq_dec a b then true else false) with nats_dec.
  assert (Fa : forallb (fun i => position nats_dec i codes <? List.length codes) (all_idx ss) = true).
  { apply forallb_forall. intros i Hi. apply Nat.ltb_lt. apply position_codes. eapply Permutation_in; [apply Permutation_sym; exact Pc|exact Hi]. }
  rewrite Fa. cbn [negb]. eexists. split; [reflexivity|].
  set (sz := fun n => if in_dec string_dec n ns then nth (position String.eqb n ns) ss 0 else dim_size x n).
  assert (Dj : forall n, In n other -> ~ In n ns) by (intros n Hn Q; apply Oi in Hn as [H1 H2]; now apply H2, Fr).
  assert (Sh : (map (dim_size x) other ++ ss)%list = map sz (other ++ ns)).
  { rewrite map_app. f_equal.
    - apply map_ext_in. intros n Hn. unfold sz. destruct (in_dec string_dec n ns) as [Q|Q]; [elim (Dj n Hn Q)|reflexivity].
    - rewrite <- (named_index ns ss Nn (eq_sym Ln)) at 1. apply map_ext_in. intros n Hn. unfold sz. now destruct (in_dec string_dec n ns). }
  rewrite Sh. set (y := XA _ _). assert (Ny : NoDup (other ++ ns)) by (apply NoDup_app_; [now apply NoDup_filter|exact Nn|exact Dj]).
  assert (Sz : forall n, In n (other ++ ns) -> dim_size y n = sz n) by (intros n Hn; now apply dim_size_of).
  assert (Hy : x_ok y) by (split; [apply tabulate_ok|]; split; [exact Ny|]; unfold y, x_shape; cbn [x_dims x_val tabulate tshape]; now rewrite map_length).
  split; [exact Hy|]. split; [|reflexivity]. split; [|split].
  - cbn [xi_names xi_sizes]. transitivity (map sz ns); [apply map_ext_in; intros n Hn; apply Sz, in_app_iff; now right|]. rewrite <- (named_index ns ss Nn (eq_sym Ln)). apply map_ext_in. intros n Hn. unfold sz. now destruct (in_dec string_dec n ns).
  - intros n H1 H2. assert (Ho : In n other) by now apply Oi. rewrite Sz by (apply in_app_iff; now left). unfold sz. destruct (in_dec string_dec n ns) as [Q|Q]; [elim (Dj n Ho Q)|reflexivity].
  - intros env Iy. pose proof (proj1 (x_inside_valid y env Hy) Iy) as Vy. unfold y, x_shape in Vy. cbn [x_dims x_val tabulate tshape] in Vy. cbn [xi_names xi_codes].
    assert (Vn : valid ss (map env ns)).
    { rewrite <- (named_index ns ss Nn (eq_sym Ln)). apply (inside_names_valid (fun n => nth (position String.eqb n ns) ss 0)). intros n Hn.
      assert (Q : In n (other ++ ns)) by (apply in_app_iff; now right). pose proof (Iy n Q) as B. rewrite (Sz n Q) in B. unfold sz in B. now destruct (in_dec string_dec n ns). }
    assert (Ic : In (map env ns) codes) by (eapply Permutation_in; [apply Permutation_sym; exact Pc|now apply all_idx_valid]).
    destruct (position_codes _ _ Ic) as [Kl Kn]. exists (position nats_dec (map env ns) codes). split; [exact Kn|].
    unfold x_at at 1. unfold y. cbn [x_dims x_val]. rewrite tget_tabulate by exact Vy. rewrite map_app.
    replace (List.length other) with (List.length (map env other)) by apply map_length. rewrite firstn_app, Nat.sub_diag, firstn_all. cbn [firstn]. rewrite app_nil_r.
    rewrite skipn_app, Nat.sub_diag, skipn_all. cbn [skipn app].
    set (k := position nats_dec (map env ns) codes) in *. rewrite U3.
    + unfold x_at. rewrite Du, map_app. f_equal. cbn [map]. f_equal.
      * apply map_ext_in. intros n Hn. symmetry. apply name_bind_out. intros [<-|[]]. apply Oi in Hn. tauto.
      * unfold name_bind. cbn [combine find fst]. now rewrite String.eqb_refl.
    + intros n Hn. destruct (string_dec n z) as [->|Q].
      * unfold name_bind. cbn [combine find fst]. rewrite String.eqb_refl. cbn [snd]. lia.
      * rewrite name_bind_out by (intros [J|[]]; now elim Q). assert (Ho : In n other) by now apply Oi. assert (Hi : In n (other ++ ns)) by (apply in_app_iff; now left).
        pose proof (Iy n Hi) as B. rewrite (Sz n Hi) in B. unfold sz in B. destruct (in_dec string_dec n ns) as [J|J]; [elim (Dj n Ho J)|exact B].
Qed.
Lemma unstacked_same z ix x y y' : unstacked z ix x y -> x_same y y' -> (forall n, In n (xi_names ix) -> In n (x_dims y)) -> (forall n, In n (x_dims x) -> n <> z -> In n (x_dims y)) -> unstacked z ix x y'.
Proof.
  intros (U1 & U2 & U3) (S1 & S2 & S3) I1 I2. split; [|split].
  - rewrite <- U1. apply map_ext_in. intros n Hn. symmetry. apply S2. now apply I1.
  - intros n H1 H2. rewrite <- (U2 n H1 H2). symmetry. apply S2. now apply I2.
  - intros env He. assert (Hi : x_inside y env) by (intros n Hn; rewrite (S2 n Hn); apply He; now apply S1). rewrite <- (S3 env Hi). now apply U3.
Qed.
(* unstack: the entry at a place of the levels is the one at the position that has the
   place as its code; the moments stay last. *)
Theorem unstack_named : forall c md z ix, xholds c md -> In z (x_dims (cx_obj c)) -> ~ In z md -> full_index ix (cx_obj c) z ->
  exists y, cx_unstack c z ix = Ok (CX y (cx_params c)) /\ xholds (CX y (cx_params c)) md /\ unstacked z ix (cx_obj c) y /\
    x_dims y = (except_name (x_dims (cx_obj c)) (z :: md) ++ xi_names ix ++ md)%list.
Proof.
  intros c md z ix H Hz Zm Fi. pose proof H as (Ho & Nm & Lm & Im & Sm & P). set (x := cx_obj c) in *. destruct (x_unstack_named z ix x Ho Hz Fi) as (u & Eu & Hu & Uu & Du). pose proof Fi as (_ & _ & _ & _ & Fr).
  assert (Iz : forall n, In n (x_dims x) -> n <> z -> In n (x_dims u)) by (intros n H1 H2; rewrite Du; apply in_app_iff; left; apply except_name_In; split; [exact H1|]; intros [J|[]]; now elim H2).
  assert (Iu : incl md (x_dims u)) by (intros n Hn; apply Iz; [now apply Im|]; intros ->; now apply Zm).
  assert (Mu : forall n, In n md -> dim_size u n = dim_size (cx_obj c) n) by (intros n Hn; apply Uu; [now apply Im|]; intros ->; now apply Zm).
  destruct (x_pipe_reorders c md (x_unstack z ix) u false H Eu Hu Iu Mu eq_refl) as (_ & y & Ey & Hy & Ty & Dy). exists y. split; [exact Ey|]. split; [exact Hy|].
  split; [apply (unstacked_same z ix x u y); auto; intros n Hn; rewrite Du; apply in_app_iff; now right|].
  rewrite Dy, Du, filter_app. rewrite <- app_assoc. f_equal.
  - rewrite filter_names. unfold except. rewrite filter_twice. apply filter_ext. intros n. destruct (in_dec string_dec n [z]) as [A|A], (in_dec string_dec n md) as [B|B], (in_dec string_dec n (z :: md)) as [Q|Q]; try reflexivity; cbn [In] in *; tauto.
  - f_equal. apply filter_all. intros n Hn. apply negb_true_iff, smem_false. intros Q. assert (n = z) by (apply Fr; [exact Hn|now apply Im]). subst n. now apply Zm.
Qed.
Lemma stacked_codes z ds x y : stacked z ds x y -> stacked_by (all_idx (map (dim_size x) ds)) z ds x y.
Proof. intros (A & B & C & D). split; [exact A|]. split; [now rewrite all_idx_length|]. auto. Qed.
(* an array that holds x with ds along z in any order, unstacked with the codes of that
   order, is x again up to the order of its dimensions. *)
Theorem unstack_back : forall c md z ds codes x, xholds c md -> x_ok x -> ds <> [] -> NoDup ds -> incl ds (x_dims x) -> ~ In z (x_dims x) -> (forall n, In n ds -> ~ In n md) -> incl md (x_dims x) ->
  Permutation codes (all_idx (map (dim_size x) ds)) -> stacked_by codes z ds x (cx_obj c) ->
  exists y, cx_unstack c z (XI ds (map (dim_size x) ds) codes) = Ok (CX y (cx_params c)) /\ xholds (CX y (cx_params c)) md /\ x_same x y /\
    x_dims y = (except_name (x_dims (cx_obj c)) (z :: md) ++ ds ++ md)%list.
Proof.
  intros c md z ds codes x H Hx Ne Nd Id Zn Dm Im Pc (A & B & C & D). set (w := cx_obj c) in *.
  assert (Zm : ~ In z md) by (intros Q; apply Zn; now apply Im). assert (Zw : In z (x_dims w)) by (apply A; now left).
  assert (Fi : full_index (XI ds (map (dim_size x) ds) codes) w z).
  { split; [exact Nd|]. split; [cbn [xi_names xi_sizes]; now rewrite map_length|]. split; [exact Pc|]. split; [exact B|]. cbn [xi_names]. intros n H1 H2. apply A in H2 as [H2|[_ H2]]; [exact H2|now elim H2]. }
  destruct (unstack_named c md z _ H Zw Zm Fi) as (y & Ey & Hy & (U1 & U2 & U3) & Dy). exists y. split; [exact Ey|]. split; [exact Hy|]. cbn [xi_names xi_sizes xi_codes] in *. split; [|exact Dy].
  assert (Iy : forall n, In n (x_dims y) <-> In n (x_dims x)).
  { intros n. rewrite Dy, !in_app_iff, except_name_In. cbn [In]. split.
    - intros [[Q1 Q2]|[Q|Q]]; [|now apply Id|now apply Im]. apply A in Q1 as [Q1|[Q1 _]]; [|exact Q1]. elim Q2. left. now symmetry.
    - intros Q. destruct (in_dec string_dec n ds) as [J|J]; [tauto|]. destruct (in_dec string_dec n md) as [J'|J']; [tauto|]. left. split; [apply A; tauto|]. intros [->|Q']; tauto. }
  assert (Sz : forall n, In n (x_dims x) -> dim_size x n = dim_size y n).
  { intros n Hn. destruct (in_dec string_dec n ds) as [J|J].
    - symmetry. revert n J Hn. assert (Q : forall l, map (dim_size y) l = map (dim_size x) l -> forall n, In n l -> dim_size y n = dim_size x n); [|intros n J _; now apply (Q ds)].
      induction l as [|a l IH]; intros E n Hn; [destruct Hn|]. injection E as E1 E2. destruct Hn as [<-|Hn]; auto.
    - rewrite U2; [|apply A; tauto|intros ->; tauto]. symmetry. now apply C. }
  split; [intros n; now rewrite Iy|]. split; [exact Sz|]. intros env He.
  assert (Hi : x_inside y env) by (intros n Hn; rewrite <- Sz by (now apply Iy); apply He; now apply Iy).
  destruct (U3 env Hi) as (k & Kn & ->). assert (Hw : x_inside w (name_bind [z] [k] env)).
  { intros n Hn. destruct (string_dec n z) as [->|Q].
    - unfold name_bind. cbn [combine find fst]. rewrite String.eqb_refl. cbn [snd]. rewrite B. apply nth_error_Some. congruence.
    - rewrite name_bind_out by (intros [J|[]]; now elim Q). apply A in Hn as [Hn|[Hn Hd]]; [now elim Q|]. rewrite C by assumption. now apply He. }
  fold w. destruct (D _ Hw) as (i & In_ & ->). assert (Ez : name_bind [z] [k] env z = k) by (unfold name_bind; cbn [combine find fst]; now rewrite String.eqb_refl). rewrite Ez, Kn in In_. injection In_ as <-.
  apply x_at_agree. intros n Hn. destruct (in_dec string_dec n ds) as [J|J].
  - destruct (In_nth ds n "" J) as (q & Q1 & <-). rewrite name_bind_in; [|exact Nd|now rewrite map_length|exact Q1]. rewrite (nth_indep _ 0 (env "")) by (now rewrite map_length). now rewrite map_nth.
  - rewrite !name_bind_out; [reflexivity|intros [<-|[]]; now apply Zn|exact J].
Qed.
Lemma stack_index_of ds x : x_ok x -> incl ds (x_dims x) -> stack_index ds x = Ok (XI ds (map (dim_size x) ds) (all_idx (map (dim_size x) ds))).
Proof.
  intros H I. unfold stack_index. rewrite (combine_named x H). assert (E : mapR (fun d => of_opt EKey (lookup d (map (fun n => (n, dim_size x n)) (x_dims x)))) ds = Ok (map (dim_size x) ds)).
  { induction ds as [|d ds IH]; [reflexivity|]. cbn [mapR map]. rewrite lookup_tab. assert (Sd : smem d (x_dims x) = true) by (apply smem_In, I; now left). rewrite Sd. cbn [of_opt rbind]. rewrite IH; [reflexivity|]. intros n Hn. apply I. now right. }
  now rewrite E.
Qed.
(* unstack after stack is the same object, the stacked dimensions now before the moments *)
Theorem stack_unstack : forall c md z ds, xholds c md -> stackable z ds (cx_obj c) -> (forall n, In n ds -> ~ In n md) ->
  exists c' ix y, cx_stack c z ds = Ok c' /\ stack_index ds (cx_obj c) = Ok ix /\ cx_unstack c' z ix = Ok (CX y (cx_params c)) /\
    xholds (CX y (cx_params c)) md /\ x_same (cx_obj c) y /\ x_dims y = (except_name (x_dims (cx_obj c)) (ds ++ md) ++ ds ++ md)%list.
Proof.
  intros c md z ds H St Dm. pose proof H as (Ho & Nm & Lm & Im & Sm & P). pose proof St as (Ne & Nd & Id & Zn & _). destruct (proj1 (stack_named c md z ds H Ne) St Dm) as (w & Ew & Hw & Sw & Dw).
  exists (CX w (cx_params c)), (XI ds (map (dim_size (cx_obj c)) ds) (all_idx (map (dim_size (cx_obj c)) ds))).
  destruct (unstack_back _ md z ds _ (cx_obj c) Hw Ho Ne Nd Id Zn Dm Im (Permutation_refl _) (stacked_codes _ _ _ _ Sw)) as (y & Ey & Hy & Ty & Dy). cbn [cx_params cx_obj] in *.
  exists y. split; [exact Ew|]. split; [now apply stack_index_of|]. split; [exact Ey|]. split; [exact Hy|]. split; [exact Ty|]. rewrite Dy, Dw. f_equal.
  assert (Zm : ~ In z md) by (intros Q; apply Zn; now apply Im). unfold except. rewrite filter_app. cbn [filter]. destruct (in_dec string_dec z (z :: md)) as [_|Q]; [|elim Q; now left]. rewrite (filter_none _ md), app_nil_r.
  - rewrite filter_twice. apply filter_ext_in. intros n Hn. destruct (in_dec string_dec n (ds ++ md)) as [A|A]; cbn [negb andb]; [reflexivity|]. destruct (in_dec string_dec n (z :: md)) as [[->|B]|B]; [elim Zn; exact Hn|elim A; apply in_app_iff; now right|reflexivity].
  - intros n Hn. destruct (in_dec string_dec n (z :: md)) as [_|Q]; [reflexivity|elim Q; now right].
Qed.
(* the same when the stacked dimension was reordered in between *)
Theorem stack_reorder_unstack : forall c md z ds l ks, xholds c md -> stackable z ds (cx_obj c) -> (forall n, In n ds -> ~ In n md) ->
  let n := size (map (dim_size (cx_obj c)) ds) in Forall2 (is_axis n) l ks -> Permutation ks (seq 0 n) ->
  exists c' ix c'' y, cx_stack c z ds = Ok c' /\ stack_index ds (cx_obj c) = Ok ix /\ cx_isel c' [(z, IList l)] = Ok c'' /\
    cx_unstack c'' z (XI (xi_names ix) (xi_sizes ix) (map (fun k => nth k (xi_codes ix) []) ks)) = Ok (CX y (cx_params c)) /\ xholds (CX y (cx_params c)) md /\ x_same (cx_obj c) y.
Proof.
  intros c md z ds l ks H St Dm m Lk Pk. pose proof H as (Ho & Nm & Lm & Im & Sm & P). pose proof St as (Ne & Nd & Id & Zn & _). set (x := cx_obj c) in *.
  destruct (proj1 (stack_named c md z ds H Ne) St Dm) as (w & Ew & Hw & Sw & Dw). fold x in Sw, Dw.
  assert (Zm : ~ In z md) by (intros Q; apply Zn; now apply Im). pose proof Sw as (W1 & W2 & W3 & W4). fold m in W2.
  set (p := fun d => if String.eqb d z then inr ks else inr (seq 0 (dim_size w d)) : nat + list nat).
  assert (Pz : p z = inr ks) by (unfold p; now rewrite String.eqb_refl). assert (Pn : forall d, d <> z -> p d = inr (seq 0 (dim_size w d))) by (intros d Hd; unfold p; destruct (String.eqb_spec d z); [contradiction|reflexivity]).
  destruct (isel_object_named (CX w (cx_params c)) md [(z, IList l)] Hw) as [I1 _]. cbn [cx_obj cx_params] in I1. destruct (I1 p) as [I2 _].
  { intros d [<-|[]]. apply W1. now left. }
  { intros d Hd. cbn [find fst snd]. destruct (String.eqb_spec z d) as [<-|Q]; [rewrite Pz, W2; now constructor|apply Pn; congruence]. }
  destruct I2 as (v & Ev & Hv & (V1 & V2 & V3)). { intros d Hd. exists (seq 0 (dim_size w d)). split; [apply Pn; intros ->; now apply Zm|apply seq_length]. }
  assert (Dv : x_dims v = x_dims w) by (rewrite V1; apply filter_all; intros d _; unfold p; now destruct (String.eqb d z)).
  assert (Zw : In z (x_dims w)) by (apply W1; now left).
  set (codes := map (fun k => nth k (all_idx (map (dim_size x) ds)) []) ks).
  assert (Pc : Permutation codes (all_idx (map (dim_size x) ds))). { rewrite all_idx_seq. unfold codes. apply Permutation_map. exact Pk. }
  assert (Sb : stacked_by codes z ds x v).
  { split; [intros d; rewrite Dv; apply W1|]. split; [rewrite (V2 z ks Zw Pz); unfold codes; now rewrite map_length|]. split.
    - intros d H1 H2. assert (Hd : In d (x_dims w)) by (apply W1; tauto). assert (Q : d <> z) by (intros ->; tauto). rewrite (V2 d _ Hd (Pn d Q)), seq_length. now apply W3.
    - intros env He. destruct (V3 env He) as [Av Iv]. rewrite Av. destruct (W4 _ Iv) as (i & Hi & ->). rewrite Pz in Hi. exists i.
      assert (Lz : env z < List.length ks) by (rewrite <- (V2 z ks Zw Pz); apply He; now rewrite Dv). split.
      + unfold codes. rewrite nth_error_map, (nth_error_nth' ks 0 Lz). cbn [option_map]. f_equal. now apply nth_error_nth.
      + apply x_at_agree. intros d Hd. destruct (in_dec string_dec d ds) as [J|J].
        * apply name_bind_any; [exact Nd| |exact J]. apply nth_error_In, all_idx_valid, valid_length in Hi. now rewrite map_length in Hi.
        * rewrite !name_bind_out by exact J. assert (Q : d <> z) by (intros ->; tauto). rewrite (Pn d Q). assert (Hdw : In d (x_dims w)) by (apply W1; tauto).
          assert (L : env d < dim_size w d) by (rewrite <- (seq_length (dim_size w d) 0), <- (V2 d _ Hdw (Pn d Q)); apply He; now rewrite Dv). now rewrite seq_nth by exact L. }
  destruct (unstack_back _ md z ds codes x Hv Ho Ne Nd Id Zn Dm Im Pc Sb) as (y & Ey & Hy & Ty & _). cbn [cx_params cx_obj] in *.
  exists (CX w (cx_params c)), (XI ds (map (dim_size x) ds) (all_idx (map (dim_size x) ds))), (CX v (cx_params c)), y. split; [exact Ew|]. split; [now apply stack_index_of|]. split; [exact Ev|]. cbn [xi_names xi_sizes xi_codes]. auto.
Qed.
