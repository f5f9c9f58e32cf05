(* to_dataset and to_dataarray. *)
From Coq Require Import String Permutation.
From Verif Require Import Base BaseLemmas Checks ModelPush ModelPushCov ModelKernels ModelIndex ModelAxes ModelSelect ModelParams ModelWrap ModelNd ModelLabel ModelDataset ModelShape
  Spec SpecAxes SpecNd SpecLabel SpecLabelTwo SpecDataset SpecShape ProofAxes ProofArrays ProofIndex ProofMulti ProofNd PropAxes PropParams PropWrap PropReshape PropLabelled PropMethodsUse ProofLabel ProofDataset PropDataset PropShape PropShapeUse PropShapeSelect PropShapeCommute PropShapeBack.
Local Open Scope string_scope.
Local Open Scope nat_scope.

Lemma bind_one d i env : name_bind [d] [i] env d = i.
Proof. unfold name_bind. cbn [combine find fst]. now rewrite String.eqb_refl. Qed.
Lemma bind_other d i env n : n <> d -> name_bind [d] [i] env n = env n.
Proof. intros H. apply name_bind_out. intros [J|[]]. now elim H. Qed.
Lemma isel_one d i x : x_ok x -> In d (x_dims x) -> i < dim_size x d ->
  exists v, x_isel [(d, IAt (Z.of_nat i))] x = Ok v /\ x_ok v /\ (forall n, In n (x_dims v) <-> In n (x_dims x) /\ n <> d) /\ (forall n, In n (x_dims v) -> dim_size v n = dim_size x n) /\
    x_dims v = except_name (x_dims x) [d] /\ forall env, x_inside v env -> x_at v env = x_at x (name_bind [d] [i] env).
Proof.
  intros H Hd Hi. set (p := fun n => if String.eqb n d then inl i else inr (seq 0 (dim_size x n)) : nat + list nat).
  assert (Pd : p d = inl i) by (unfold p; now rewrite String.eqb_refl). assert (Pn : forall n, n <> d -> p n = inr (seq 0 (dim_size x n))) by (intros n Hn; unfold p; destruct (String.eqb_spec n d); [contradiction|reflexivity]).
  destruct (proj1 (x_isel_named [(d, IAt (Z.of_nat i))] x H)) with (p := p) as (v & Ev & Hv & (V1 & V2 & V3)).
  { intros n [<-|[]]. exact Hd. }
  { intros n Hn. cbn [find fst snd]. destruct (String.eqb_spec d n) as [<-|Q]; [rewrite Pd; cbn [snd]; apply takes_at; unfold is_axis; lia|apply Pn; congruence]. }
  assert (Dv : x_dims v = except_name (x_dims x) [d]).
  { rewrite V1. unfold except. apply filter_ext. intros n. destruct (in_dec string_dec n [d]) as [[<-|[]]|Q]; [now rewrite Pd|]. rewrite Pn; [reflexivity|]. intros ->. apply Q. now left. }
  assert (Iv : forall n, In n (x_dims v) <-> In n (x_dims x) /\ n <> d) by (intros n; rewrite Dv, except_name_In; cbn [In]; intuition congruence).
  exists v. split; [exact Ev|]. split; [exact Hv|]. split; [exact Iv|].
  assert (Sv : forall n, In n (x_dims v) -> dim_size v n = dim_size x n) by (intros n Hn; apply Iv in Hn as [H1 H2]; rewrite (V2 n _ H1 (Pn n H2)); apply seq_length).
  split; [exact Sv|]. split; [exact Dv|]. intros env He. destruct (V3 env He) as [-> _]. apply x_at_agree. intros n Hn. destruct (string_dec n d) as [->|Q]; [now rewrite Pd, bind_one|].
  rewrite (Pn n Q), (bind_other d i env n Q). assert (Hnv : In n (x_dims v)) by now apply Iv. specialize (He n Hnv). rewrite (Sv n Hnv) in He. now rewrite seq_nth.
Qed.
Lemma mapR_seq {B} (f : nat -> res B) (Q : nat -> B -> Prop) n : (forall i, i < n -> exists v, f i = Ok v /\ Q i v) ->
  exists l, mapR f (seq 0 n) = Ok l /\ List.length l = n /\ forall i, i < n -> exists v, nth_error l i = Some v /\ Q i v.
Proof.
  intros H. assert (G : forall k a, a + k <= n -> exists l, mapR f (seq a k) = Ok l /\ List.length l = k /\ forall i, i < k -> exists v, nth_error l i = Some v /\ Q (a + i) v).
  { induction k as [|k IH]; intros a Ha; [exists []; split; [reflexivity|]; split; [reflexivity|]; intros i Hi; inversion Hi|].
    destruct (H a) as (v & Ev & Qv); [lia|]. destruct (IH (Datatypes.S a)) as (l & El & Ll & Hl); [lia|]. exists (v :: l). cbn [seq mapR]. rewrite Ev. cbn [rbind]. rewrite El. split; [reflexivity|]. split; [cbn; now rewrite Ll|].
    intros [|i] Hi; [exists v; split; [reflexivity|]; now rewrite Nat.add_0_r|]. destruct (Hl i) as (w & W1 & W2); [lia|]. exists w. split; [exact W1|]. now replace (a + Datatypes.S i) with (Datatypes.S a + i) by lia. }
  destruct (G n 0) as (l & A & B0 & C); [lia|]. exists l. auto.
Qed.
Lemma nth_error_all {B} (l : list B) (f : nat -> sname) (g : B -> sname) n : List.length l = n -> (forall i, i < n -> exists v, nth_error l i = Some v /\ g v = f i) -> map g l = map f (seq 0 n).
Proof.
  intros L H. assert (Q : map Some (map g l) = map Some (map f (seq 0 n))).
  { apply nth_ext with (d := None) (d' := None); [now rewrite !map_length, seq_length|]. intros i Hi. rewrite !map_length in Hi. destruct (H i) as (v & E1 & E2); [lia|].
    rewrite !map_map. apply nth_error_nth. rewrite nth_error_map, E1. cbn [option_map]. rewrite E2. symmetry. rewrite (nth_indep _ None (Some (f 0))) by (rewrite map_length, seq_length; lia).
    f_equal. rewrite (map_nth (fun x => Some (f x))), seq_nth by lia. reflexivity. }
  generalize dependent (map f (seq 0 n)). generalize (map g l). clear. induction l as [|a l IH]; intros [|b m] E; try discriminate E; [reflexivity|]. injection E as -> E. f_equal. now apply IH.
Qed.
Lemma split_named d label x : x_ok x -> In d (x_dims x) ->
  exists s, x_split d label x = Ok s /\ split_at d label x s /\ forall i v, nth_error s i = Some v -> x_dims (snd v) = except_name (x_dims x) [d].
Proof.
  intros H Hd. unfold x_split. apply smem_In in Hd as Hs. rewrite Hs. cbn [negb]. rewrite (combine_named x H), lookup_tab, Hs. cbn [of_opt rbind].
  destruct (mapR_seq (fun i => rmap (pair (label i)) (x_isel [(d, IAt (Z.of_nat i))] x)) (fun i w => exists v, w = (label i, v) /\ x_ok v /\
    (forall n, In n (x_dims v) <-> In n (x_dims x) /\ n <> d) /\ (forall n, In n (x_dims v) -> dim_size v n = dim_size x n) /\ x_dims v = except_name (x_dims x) [d] /\
    forall env, x_inside v env -> x_at v env = x_at x (name_bind [d] [i] env)) (dim_size x d)) as (s & Es & Ls & Hn).
  { intros i Hi. destruct (isel_one d i x H Hd Hi) as (v & Ev & V). rewrite Ev. exists (label i, v). split; [reflexivity|]. exists v. split; [reflexivity|exact V]. }
  exists s. split; [exact Es|]. split.
  - split; [apply nth_error_all; [exact Ls|]; intros i Hi; destruct (Hn i Hi) as (w & E1 & v & -> & _); exists (label i, v); auto|].
    intros i Hi. destruct (Hn i Hi) as (w & E1 & v & -> & V1 & V2 & V3 & V4 & V5). exists v. auto.
  - intros i v Ev. assert (Hi : i < dim_size x d) by (rewrite <- Ls; apply nth_error_Some; congruence). destruct (Hn i Hi) as (w & E1 & v' & -> & _ & _ & _ & V4 & _). rewrite Ev in E1. injection E1 as ->. exact V4.
Qed.
Lemma split_ok d label x s : split_at d label x s -> NoDup (map label (seq 0 (dim_size x d))) -> set_ok s.
Proof.
  intros [S1 S2] N. assert (L : List.length s = dim_size x d) by (rewrite <- (map_length fst), S1, map_length; apply seq_length).
  assert (G : forall v, In v s -> x_ok (snd v) /\ forall n, In n (x_dims (snd v)) -> dim_size (snd v) n = dim_size x n).
  { intros v Hv. apply In_nth_error in Hv as [i Hi]. destruct (S2 i) as (w & E & V1 & _ & V3 & _); [rewrite <- L; apply nth_error_Some; congruence|]. rewrite Hi in E. injection E as ->. auto. }
  split; [rewrite S1; exact N|]. split; [intros v Hv; now apply G|]. intros v w Hv Hw n H1 H2. transitivity (dim_size x n); [now apply (G v Hv)|]. symmetry. now apply (G w Hw).
Qed.

(* ---- Dataset.transpose ------------------------------------------------------------------ *)

Lemma ds_sizes_tab s : set_ok s -> exists dims, ds_sizes s = Ok (map (fun n => (n, set_size s n)) dims) /\ NoDup dims /\ forall n, In n dims <-> exists v, In v s /\ In n (x_dims (snd v)).
Proof.
  intros H. destruct (ds_sizes_ok s H) as (sz & E & Hn & L). exists (map fst sz). split; [|split].
  - rewrite E. f_equal. rewrite map_map. rewrite <- (map_id sz) at 1. apply map_ext_in. intros [n k] Hk. cbn [fst]. f_equal.
    assert (Nd : NoDup (map fst sz)). { unfold ds_sizes, dims_sizes in E. rewrite foldR_concat in E. apply (unify_nodup _ _ _ _ E). constructor. }
    assert (Q : lookup n sz = Some k). { clear - Nd Hk. unfold lookup. induction sz as [|[m j] sz IH]; [destruct Hk|]. cbn [map fst] in Nd. inversion Nd as [|? ? Na Nb]; subst. cbn [find fst]. destruct Hk as [Hk|Hk]; [injection Hk as -> ->; now rewrite String.eqb_refl|].
      destruct (String.eqb_spec m n) as [->|Q]; [elim Na; apply in_map_iff; now exists (n, k)|]. now apply IH. }
    assert (In n (map fst sz)) as Hf by (apply in_map_iff; now exists (n, k)). apply Hn in Hf as (v & Iv & Hv). rewrite (L v n Iv Hv) in Q. injection Q as <-. symmetry. now apply set_size_of.
  - unfold ds_sizes, dims_sizes in E. rewrite foldR_concat in E. apply (unify_nodup _ _ _ _ E). constructor.
  - exact Hn.
Qed.
Lemma s_transpose_named last s : set_ok s -> NoDup last -> (forall v, In v s -> incl last (x_dims (snd v))) ->
  (s <> [] -> exists s', s_transpose last s = Ok s' /\ map fst s' = map fst s /\ set_ok s' /\
     forall i n v, nth_error s i = Some (n, v) -> exists v', nth_error s' i = Some (n, v') /\ x_same v v' /\ x_dims v' = (except_name (x_dims v) last ++ last)%list) /\
  (s = [] -> last <> [] -> s_transpose last s = Raise EValue).
Proof.
  intros H N I. split.
  - intros Ne. destruct (ds_sizes_tab s H) as (dims & E & Nd & Hd). unfold s_transpose, ds_dims. rewrite E. cbn [rmap rbind]. rewrite map_map. cbn [fst]. rewrite map_id.
    rewrite infix_front; [|exact N|]. 2: { destruct s as [|v s]; [now elim Ne|]. intros n Hn. apply Hd. exists v. split; [now left|]. apply (I v); [now left|exact Hn]. }
    cbn [rbind]. assert (G : forall v, In v s -> exists v', x_transpose (None :: map Some (filter (fun n => smem n (x_dims (snd v))) last)) (snd v) = Ok v' /\ x_ok v' /\ x_same (snd v) v' /\ x_dims v' = (except_name (x_dims (snd v)) last ++ last)%list).
    { intros v Hv. rewrite filter_all by (intros n Hn; now apply smem_In, (I v Hv)). destruct (x_transpose_ok _ (snd v) _ (proj1 (proj2 H) v Hv) (infix_front last _ N (I v Hv))) as (v' & Ev & Dv). destruct (x_transpose_same _ _ _ (proj1 (proj2 H) v Hv) Ev) as (Hv' & Sv & _). exists v'. auto. }
    assert (R : forall l, incl l s -> exists l', mapR (fun v => rmap (pair (fst v)) (x_transpose (None :: map Some (filter (fun n => smem n (x_dims (snd v))) last)) (snd v))) l = Ok l' /\ map fst l' = map fst l /\
      (forall w, In w l' -> exists v, In v l /\ x_ok (snd w) /\ x_same (snd v) (snd w)) /\
      forall i n v, nth_error l i = Some (n, v) -> exists v', nth_error l' i = Some (n, v') /\ x_same v v' /\ x_dims v' = (except_name (x_dims v) last ++ last)%list).
    { induction l as [|v l IH]; intros Hl; [exists []; split; [reflexivity|]; split; [reflexivity|]; split; [intros w []|]; intros [|i] n v Ev; discriminate Ev|].
      destruct (G v) as (v' & Ev & Ov & Sv & Dv); [apply Hl; now left|]. destruct IH as (l' & El & Fl & Wl & Nl); [intros w Hw; apply Hl; now right|].
      exists ((fst v, v') :: l'). cbn [mapR]. rewrite Ev. cbn [rmap rbind]. unfold rmap in El |- *. rewrite El. split; [reflexivity|]. split; [cbn [map fst]; now rewrite Fl|]. split.
      - intros w [<-|Hw]; [exists v; split; [now left|]; auto|]. destruct (Wl w Hw) as (u & U1 & U2). exists u. split; [now right|exact U2].
      - intros [|i] n u Eu; cbn [nth_error] in *; [injection Eu as ->; exists v'; auto|]. now apply Nl. }
    destruct (R s (incl_refl s)) as (s' & Es & Fs & Ws & Ns). exists s'. split; [exact Es|]. split; [exact Fs|]. split; [|exact Ns].
    split; [rewrite Fs; apply H|]. split; [intros w Hw; now destruct (Ws w Hw) as (_ & _ & ? & _)|]. intros v w Hv Hw n H1 H2. destruct (Ws v Hv) as (v0 & I0 & _ & (A1 & A2 & _)), (Ws w Hw) as (w0 & J0 & _ & (B1 & B2 & _)).
    rewrite <- A2 by (now apply A1). rewrite <- B2 by (now apply B1). apply H; auto; [now apply A1|now apply B1].
  - intros -> Nl. unfold s_transpose. cbn. destruct last as [|a last]; [now elim Nl|]. unfold infix_dims. cbn [given flat_map app filter List.length].
    change (flat_map (fun o : option sname => match o with Some d => [d] | None => [] end) (map Some (a :: last))) with (given (map Some (a :: last))). rewrite given_some, no_dots. cbn [List.length forallb]. cbn. now rewrite orb_true_r.
Qed.
(* to_dataset(dim): a variable for each position along the dimension, the moments last; an
   unknown dimension, a moment dimension or one of length zero is refused. *)
Theorem to_dataset_named : forall c md d label, xholds c md ->
  let x := cx_obj c in
  (In d (x_dims x) -> ~ In d md -> 0 < dim_size x d -> NoDup (map label (seq 0 (dim_size x d))) ->
   exists s, cx_to_dataset c d label = Ok s /\ set_ok s /\ split_at d label x s /\ forall v, In v s -> x_dims (snd v) = (except_name (x_dims x) (d :: md) ++ md)%list) /\
  (~ In d (x_dims x) -> cx_to_dataset c d label = Raise EType) /\
  (In d (x_dims x) -> ~ In d md -> dim_size x d = 0 -> cx_to_dataset c d label = Raise EValue).
Proof.
  intros c md d label H x. pose proof H as (Ho & Nm & Lm & Im & Sm & P). fold x in Ho, Im. unfold cx_to_dataset, iter_dims. rewrite P. cbn [xp_dims rbind]. fold x. split; [|split].
  - intros Hd Dm Pos Nl. destruct (split_named d label x Ho Hd) as (s & Es & Ss & Ds). rewrite Es. cbn [rbind]. pose proof (split_ok d label x s Ss Nl) as Hs. destruct Ss as [S1 S2].
    assert (Ls : List.length s = dim_size x d) by (rewrite <- (map_length fst), S1, map_length; apply seq_length).
    destruct (proj1 (s_transpose_named md s Hs Nm ltac:(intros v Hv; apply In_nth_error in Hv as [i Hi]; rewrite (Ds i v Hi); intros n Hn; apply except_name_In; split; [now apply Im|]; intros [<-|[]]; contradiction))) as (s' & E' & F' & O' & N'); [intros ->; cbn in Ls; lia|].
    exists s'. split; [exact E'|]. split; [exact O'|]. split.
    + split; [now rewrite F'|]. intros i Hi. destruct (S2 i Hi) as (v & V1 & V2 & V3 & V4 & V5). destruct (N' i _ v V1) as (v' & W1 & (A1 & A2 & A3) & W3). exists v'. split; [exact W1|]. split; [apply (proj1 (proj2 O') (label i, v')); eapply nth_error_In; exact W1|].
      split; [intros n; rewrite <- A1; apply V3|]. split; [intros n Hn; apply A1 in Hn; rewrite <- A2 by exact Hn; now apply V4|].
      intros env He. assert (Hv : x_inside v env) by (intros n Hn; rewrite A2 by exact Hn; apply He; now apply A1). rewrite <- A3 by exact Hv. now apply V5.
    + intros [n v'] Hv. apply In_nth_error in Hv as [i Hi]. assert (Li : i < dim_size x d). { rewrite <- Ls, <- (map_length fst s), <- F', map_length. apply nth_error_Some. congruence. }
      destruct (S2 i Li) as (v & V1 & _). destruct (N' i _ v V1) as (w & W1 & _ & W3). rewrite Hi in W1. injection W1 as -> ->. cbn [snd]. rewrite W3. pose proof (Ds i _ V1) as Dv. cbn [snd] in Dv. rewrite Dv. f_equal. unfold except. rewrite filter_twice. apply filter_ext. intros m.
      destruct (in_dec string_dec m [d]) as [A|A], (in_dec string_dec m md) as [B|B], (in_dec string_dec m (d :: md)) as [Q|Q]; try reflexivity; cbn [In] in *; tauto.
  - intros Hd. unfold x_split. apply smem_false in Hd. now rewrite Hd.
  - intros Hd Dm Z. destruct (split_named d label x Ho Hd) as (s & Es & [S1 S2] & _). rewrite Es. cbn [rbind]. rewrite Z in S1. cbn in S1. destruct s as [|v s]; [|discriminate S1].
    assert (Hs : set_ok ([] : xset)) by (split; [constructor|]; split; [intros v []|]; intros v w []). apply s_transpose_named; auto; [intros v []|]. destruct md; [cbn in Lm; lia|]. discriminate.
Qed.
Lemma infix_missing l all n : In n l -> ~ In n all -> infix_dims (None :: map Some l) all = Raise EValue.
Proof.
  intros H1 H2. destruct (infix_dims (None :: map Some l) all) as [r|e] eqn:E; [|now rewrite (infix_err _ _ _ E)]. exfalso. unfold infix_dims in E. cbn [given flat_map app filter] in E.
  change (flat_map (fun o : option sname => match o with Some d => [d] | None => [] end) (map Some l)) with (given (map Some l)) in E. rewrite given_some, no_dots in E. cbn [List.length] in E.
  destruct (forallb (fun d => smem d all) l) eqn:F; [apply forallb_incl in F; now apply H2, F|]. cbn [negb] in E. rewrite orb_true_r in E. discriminate E.
Qed.
Theorem to_dataset_moment : forall c md d label, xholds c md -> In d md -> NoDup (map label (seq 0 (dim_size (cx_obj c) d))) -> cx_to_dataset c d label = Raise EValue.
Proof.
  intros c md d label H Hd Nl. pose proof H as (Ho & Nm & Lm & Im & Sm & P). set (x := cx_obj c) in *. unfold cx_to_dataset, iter_dims. rewrite P. cbn [xp_dims rbind]. fold x.
  destruct (split_named d label x Ho (Im d Hd)) as (s & Es & Ss & Ds). rewrite Es. cbn [rbind]. pose proof (split_ok d label x s Ss Nl) as Hs. destruct (ds_dims_ok s Hs) as (dims & E & Hn). unfold s_transpose. rewrite E. cbn [rbind].
  rewrite (infix_missing md dims d Hd); [reflexivity|]. intros Q. apply Hn in Q as (v & Iv & Hv). apply In_nth_error in Iv as [i Hi]. rewrite (Ds i v Hi) in Hv. apply except_name_In in Hv as [_ Hv]. apply Hv. now left.
Qed.

(* ---- to_dataarray ----------------------------------------------------------------------- *)

Lemma nth_blocks {B} (dflt : B) (ls : list (list B)) k : (forall l, In l ls -> List.length l = k) -> forall i j, i < List.length ls -> j < k -> nth (i * k + j) (concat ls) dflt = nth j (nth i ls []) dflt.
Proof.
  induction ls as [|l ls IH]; intros H i j Hi Hj; [inversion Hi|]. cbn [concat]. assert (Ll : List.length l = k) by (apply H; now left). destruct i as [|i].
  - cbn [Nat.mul Nat.add nth]. now rewrite app_nth1 by lia.
  - rewrite app_nth2 by nia. replace (Datatypes.S i * k + j - List.length l) with (i * k + j) by nia. cbn [nth]. apply IH; [intros m Hm; apply H; now right|cbn in Hi; lia|exact Hj].
Qed.
Lemma to_array_named dim s : set_ok s -> s <> [] -> (forall v, In v s -> ~ In dim (x_dims (snd v))) -> exists y, s_to_array dim s = Ok y /\ x_ok y /\ joined dim s y.
Proof.
  intros H Ne Fr. destruct (ds_sizes_tab s H) as (dims & E & Nd & Hd). unfold s_to_array. rewrite E. cbn [rbind]. set (tab := map (fun n => (n, set_size s n)) dims).
  assert (T1 : map fst tab = dims) by (unfold tab; rewrite map_map; apply map_id). assert (T2 : map snd tab = map (set_size s) dims) by (unfold tab; rewrite map_map; reflexivity). rewrite T1, T2.
  assert (Df : ~ In dim dims) by (intros Q; apply Hd in Q as (v & Iv & Hv); now apply (Fr v Iv)). assert (Sf : smem dim dims = false) by now apply smem_false. rewrite Sf, orb_false_r.
  assert (Sm : match s with [] => true | _ :: _ => false end = false) by (destruct s; [now elim Ne|reflexivity]). rewrite Sm.
  set (szs := fun n => if String.eqb n dim then List.length s else set_size s n).
  assert (Sh : (List.length s :: map (set_size s) dims) = map szs (dim :: dims)).
  { cbn [map]. unfold szs at 1. rewrite String.eqb_refl. f_equal. apply map_ext_in. intros n Hn. unfold szs. destruct (String.eqb_spec n dim) as [->|]; [contradiction|reflexivity]. }
  rewrite Sh. eexists. split; [reflexivity|]. set (data := flat_map _ s). set (y := XA _ _).
  set (blk := fun v : sname * xarr => tdata (x_val (x_set_dims tab (snd v)))).
  assert (Ed : data = concat (map blk s)) by (unfold data; apply flat_map_concat_map).
  assert (Lb : forall v, List.length (blk v) = size (map (set_size s) dims)).
  { intros v. unfold blk, x_set_dims. cbn [x_val tabulate tdata]. now rewrite map_length, all_idx_length, T2. }
  assert (Ny : NoDup (dim :: dims)) by now constructor.
  assert (Hy : x_ok y).
  { split; [|split; [exact Ny|]].
    - unfold y, tensor_ok. cbn [x_val tdata tshape]. rewrite <- Sh. cbn [size]. rewrite Ed. revert Lb. clearbody blk. generalize (size (map (set_size s) dims)). clear. intros k Lb. induction s as [|v l IH]; [reflexivity|]. cbn [map concat List.length]. rewrite app_length, Lb, IH. reflexivity.
    - unfold y, x_shape. cbn [x_dims x_val tshape]. now rewrite map_length. }
  assert (Sz : forall n, In n (dim :: dims) -> dim_size y n = szs n) by (intros n Hn; now apply dim_size_of).
  assert (Sd : dim_size y dim = List.length s) by (rewrite Sz by (now left); unfold szs; now rewrite String.eqb_refl).
  assert (Sn : forall n, In n dims -> dim_size y n = set_size s n) by (intros n Hn; rewrite Sz by (now right); unfold szs; destruct (String.eqb_spec n dim) as [->|]; [contradiction|reflexivity]).
  split; [exact Hy|]. split; [|split; [exact Sd|split]].
  - intros n. cbn [y x_dims In]. rewrite Hd. intuition congruence.
  - intros v n Iv Hn. rewrite Sn by (apply Hd; eauto). now apply set_size_of.
  - intros env He. assert (Hk : env dim < List.length s) by (rewrite <- Sd; apply He; now left). destruct (nth_error s (env dim)) as [v|] eqn:Ev; [|apply nth_error_None in Ev; lia]. exists v. split; [reflexivity|].
    assert (Vd : valid (map (set_size s) dims) (map env dims)) by (apply inside_names_valid; intros n Hn; rewrite <- Sn by exact Hn; apply He; now right).
    unfold x_at at 1. cbn [y x_dims x_val map]. unfold tget. cbn [tshape tdata]. cbn [map] in Sh. rewrite <- Sh. cbn [ravel]. rewrite Ed.
    rewrite nth_blocks; [|intros l Hl; apply in_map_iff in Hl as (w & <- & _); apply Lb|now rewrite map_length|now apply ravel_lt].
    replace (nth (env dim) (map blk s) []) with (blk v). 2: { symmetry. apply nth_error_nth. now rewrite nth_error_map, Ev. }
    change (nth (ravel (map (set_size s) dims) (map env dims)) (blk v) 0%Qc) with (nth (ravel (map (set_size s) dims) (map env dims)) (tdata (x_val (x_set_dims tab (snd v)))) 0%Qc).
    transitivity (tget (x_val (x_set_dims tab (snd v))) (map env dims)); [unfold tget; replace (tshape (x_val (x_set_dims tab (snd v)))) with (map (set_size s) dims) by (cbn [x_set_dims x_val tabulate tshape]; now rewrite T2); reflexivity|].
    unfold x_set_dims. cbn [x_val]. rewrite T1, T2. rewrite tget_tabulate by exact Vd. unfold x_at. f_equal. apply map_ext_in. intros n Hn.
    assert (Hnd : In n dims) by (apply Hd; exists v; split; [eapply nth_error_In; exact Ev|exact Hn]). destruct (pos_lt dims n Hnd) as [P1 P2]. rewrite (nth_indep _ 0 (env "")) by (now rewrite map_length). now rewrite map_nth, P2.
Qed.

(* to_dataarray: the variables along a new dimension, each repeated along the dimensions it
   does not have, the moments last. *)
Theorem to_dataarray_named : forall md dim s, set_ok s -> s <> [] -> NoDup md -> ~ In dim md -> (forall v, In v s -> ~ In dim (x_dims (snd v))) ->
  (forall m, In m md -> exists v, In v s /\ In m (x_dims (snd v))) ->
  exists y, cs_to_dataarray (params_for md) dim s = Ok (CX y (params_for md)) /\ x_ok y /\ joined dim s y /\ exists pre, x_dims y = (pre ++ md)%list.
Proof.
  intros md dim s H Ne Nm Dm Fr Im. destruct (to_array_named dim s H Ne Fr) as (u & Eu & Hu & (J1 & J2 & J3 & J4)). unfold cs_to_dataarray. rewrite Eu. cbn [rbind iter_dims params_for xp_dims].
  assert (Iu : incl md (x_dims u)) by (intros m Hm; apply J1; right; now apply Im). destruct (x_transpose_ok _ u _ Hu (infix_front md _ Nm Iu)) as (y & Ey & Dy). rewrite Ey. cbn [rbind].
  destruct (x_transpose_same _ _ _ Hu Ey) as (Hy & (A1 & A2 & A3) & _). exists y. split; [reflexivity|]. split; [exact Hy|]. split; [|exists (except_name (x_dims u) md); exact Dy].
  split; [intros n; rewrite <- A1; apply J1|]. split; [rewrite <- A2; [exact J2|apply J1; now left]|]. split.
  - intros v n Iv Hn. rewrite <- A2 by (apply J1; eauto). now apply J3.
  - intros env He. assert (Hi : x_inside u env) by (intros n Hn; rewrite A2 by exact Hn; apply He; now apply A1). rewrite <- A3 by exact Hi. now apply J4.
Qed.
(* to_dataarray after to_dataset along the same dimension is the same object *)
Theorem to_dataset_back : forall c md d label s, xholds c md -> NoDup (map label (seq 0 (dim_size (cx_obj c) d))) -> cx_to_dataset c d label = Ok s ->
  exists y, cs_to_dataarray (cx_params c) d s = Ok (CX y (cx_params c)) /\ xholds (CX y (cx_params c)) md /\ x_same (cx_obj c) y.
Proof.
  intros c md d label s H Nl E. pose proof H as (Ho & Nm & Lm & Im & Sm & P). set (x := cx_obj c) in *. destruct (to_dataset_named c md d label H) as (T1 & T2 & T3). fold x in T1, T2, T3.
  destruct (in_dec string_dec d (x_dims x)) as [Hd|Hd]; [|rewrite (T2 Hd) in E; discriminate E]. destruct (in_dec string_dec d md) as [Hm|Hm]; [rewrite (to_dataset_moment c md d label H Hm Nl) in E; discriminate E|].
  destruct (Nat.eq_dec (dim_size x d) 0) as [Z|Z]; [rewrite (T3 Hd Hm Z) in E; discriminate E|]. destruct (T1 Hd Hm) as (s' & E' & Os & [S1 S2] & Ds); [lia|exact Nl|]. rewrite E in E'. injection E' as <-.
  assert (Ls : List.length s = dim_size x d) by (rewrite <- (map_length fst), S1, map_length; apply seq_length). assert (Ne : s <> []) by (intros ->; cbn in Ls; lia).
  assert (Fr : forall v, In v s -> ~ In d (x_dims (snd v))) by (intros v Hv; rewrite (Ds v Hv); intros Q; apply in_app_iff in Q as [Q|Q]; [apply except_name_In in Q as [_ Q]; apply Q; now left|contradiction]).
  assert (Hv0 : exists v, In v s) by (destruct s as [|v s0]; [now elim Ne|exists v; now left]). destruct Hv0 as [v0 Hv0].
  assert (Dn : forall v n, In v s -> (In n (x_dims (snd v)) <-> In n (x_dims x) /\ n <> d)).
  { intros v n Hv. apply In_nth_error in Hv as [i Hi]. destruct (S2 i) as (w & W1 & _ & W3 & _); [rewrite <- Ls; apply nth_error_Some; congruence|]. rewrite Hi in W1. injection W1 as ->. apply W3. }
  destruct (to_dataarray_named md d s Os Ne Nm Hm Fr) as (y & Ey & Hy & (J1 & J2 & J3 & J4) & _).
  { intros m Hmm. exists v0. split; [exact Hv0|]. apply Dn; [exact Hv0|]. split; [now apply Im|]. intros ->. contradiction. }
  exists y. change (XP (Some (Z.of_nat (List.length md))) (Some md)) with (params_for md) in P. rewrite P. split; [exact Ey|].
  assert (Iy : forall n, In n (x_dims x) <-> In n (x_dims y)).
  { intros n. rewrite J1. split; [intros Q; destruct (string_dec n d) as [->|N]; [now left|right; exists v0; split; [exact Hv0|now apply Dn]]|]. intros [->|(v & Hv & Q)]; [exact Hd|now apply (Dn v n Hv) in Q]. }
  assert (Sz : forall n, In n (x_dims x) -> dim_size x n = dim_size y n).
  { intros n Hn. destruct (string_dec n d) as [->|N]; [now rewrite J2|]. assert (Q : In n (x_dims (snd v0))) by now apply Dn. rewrite (J3 v0 n Hv0 Q). apply In_nth_error in Hv0 as [i Hi]. destruct (S2 i) as (w & W1 & _ & _ & W4 & _); [rewrite <- Ls; apply nth_error_Some; congruence|].
    rewrite Hi in W1. injection W1 as ->. symmetry. now apply W4. }
  assert (Ts : x_same x y).
  { split; [exact Iy|]. split; [exact Sz|]. intros env He. assert (Hi : x_inside y env) by (intros n Hn; rewrite <- Sz by (now apply Iy); apply He; now apply Iy). destruct (J4 env Hi) as (v & Ev & ->).
    destruct (S2 (env d)) as (w & W1 & _ & W3 & W4 & W5); [now apply He|]. rewrite Ev in W1. injection W1 as ->. cbn [snd]. rewrite W5; [|intros n Hn; rewrite W4 by exact Hn; apply He; now apply W3].
    apply x_at_agree. intros n Hn. destruct (string_dec n d) as [->|N]; [now rewrite bind_one|now rewrite bind_other]. }
  split; [|exact Ts]. split; [exact Hy|]. split; [exact Nm|]. split; [exact Lm|]. cbn [cx_obj cx_params]. split; [intros m Hmm; apply Iy; now apply Im|]. split; [|reflexivity].
  apply Forall_forall. intros m Hmm. rewrite <- Sz by (now apply Im). rewrite Forall_forall in Sm. now apply Sm.
Qed.
(* to_dataset(name): one variable that is the array, the moments last *)
Theorem to_dataset_one_named : forall c md name, xholds c md ->
  exists y, cx_to_dataset_one c name = Ok [(name, y)] /\ x_same (cx_obj c) y /\ x_dims y = (except_name (x_dims (cx_obj c)) md ++ md)%list.
Proof.
  intros c md name H. pose proof H as (Ho & Nm & Lm & Im & Sm & P). unfold cx_to_dataset_one, iter_dims. rewrite P. cbn [xp_dims rbind].
  assert (Os : set_ok [(name, cx_obj c)]) by (split; [constructor; [intros []|constructor]|]; split; [intros v [<-|[]]; exact Ho|]; intros v w [<-|[]] [<-|[]] n _ _; reflexivity).
  destruct (proj1 (s_transpose_named md _ Os Nm ltac:(intros v [<-|[]]; exact Im))) as (s' & E & F & O & N); [discriminate|]. destruct (N 0 name (cx_obj c) eq_refl) as (y & Ey & Ty & Dy). exists y. split; [|auto].
  rewrite E. destruct s' as [|w [|w' s']]; try discriminate F. cbn [nth_error] in Ey. now injection Ey as ->.
Qed.
