(* jackknife and exponential averages of labelled arrays: results by name. *)
From Coq Require Import String Permutation.
From Verif Require Import Base BaseLemmas ModelPush ModelKernels ModelIndex ModelAxes ModelParams ModelWrap ModelNd ModelLabel Spec SpecAxes SpecNd SpecLabel SpecLabelTwo
  Laws ProofSpec ProofAxes ProofArrays ProofIndex ProofMulti ProofNd PropAxes PropParams PropWrap PropLabelled PropNd ProofNdAt ProofLabel ProofLabelMany ProofLabelReduce PropLabel PropLabelReduce.
Local Open Scope string_scope.
Local Open Scope nat_scope.

Lemma reduce_packed_ok {A V} (K : pusher A V) ok P : moment_array K ok P ->
  forall rows r, (forall a, In a rows -> exists f, a = pk_pack P f) -> reduce_data K rows = Some r -> ok r.
Proof.
  intros HM rows r. destruct (kernel_laws K ok (ma_kernel _ _ _ HM)) as (I & L & E).
  assert (G : forall l o, Forall (l_wf L) l -> l_wf L o -> foldM (fun o d => p_push_data K d o) l o = Some r -> l_wf L r).
  { induction l as [|d l IH]; cbn; intros o F Ho; [now intros [= <-]|]. inversion F as [|? ? Hd Hl]; subst.
    destruct (Qc_eq_dec (p_wt K d) 0) as [Z|Z]; [rewrite (l_push_zero _ _ L) by exact Z; now apply IH|].
    destruct (Qc_eq_dec (p_wt K o + p_wt K d)%Qc 0) as [Z'|Z'].
    - rewrite (l_push_none _ _ L) by assumption. discriminate.
    - destruct (l_push_some _ _ L d o Hd Ho Z Z') as (q & Eq & Hq & _). rewrite Eq. cbn. now apply IH. }
  intros F H. apply E. eapply (G rows (p_zero K)); [| |exact H].
  - apply Forall_forall. intros a Ha. destruct (F a Ha) as [f ->]. apply E. apply (ma_pack_ok _ _ _ HM).
  - apply (l_wf_zero _ _ L).
Qed.
Lemma rows_named_packed {A} (P : packer A) x ds md env a : In a (rows_named P x ds md env) -> exists f, a = pk_pack P f.
Proof. unfold rows_named. intros H. apply in_map_iff in H. destruct H as (i & <- & _). unfold moments_named. eauto. Qed.

(* transposing back and renaming *)
Lemma finish_rename {A} (P : packer A) x md d (HM : labelled_moments P md x) (Hd : In d (x_dims x)) (Nd : ~ In d md)
    {B T} (dflt : T) (val : B -> list nat -> T) run newlen to_end new r :
  (forall env env', (forall n, In n (except_name (x_dims x) (d :: md)) -> env n = env' n) -> run env = run env') ->
  by_name dflt val run (except_name (x_dims x) (d :: md) ++ d :: md) (result_size (dim_size x) d newlen) d md r ->
  let rd := renamed d new in let res_ := rbind r (fun g => rbind (finish dflt to_end x g) (opt_rename d new)) in
  (free_name x d new -> by_name dflt val run (result_dims to_end (x_dims x) d rd md) (result_size (dim_size x) rd newlen) rd md res_) /\
  (~ free_name x d new -> exists e, res_ = Raise e).
Proof.
  intros Rx H rd res_. assert (As : res_ = rbind (rbind r (finish dflt to_end x)) (opt_rename d new)) by (unfold res_; now destruct r).
  rewrite As. clearbody res_. pose proof (finish_by_name P x md d HM Hd Nd dflt val run _ to_end r H) as G. split; intros Fn.
  - exact (rename_by_name P x md d HM Hd Nd dflt val run newlen to_end _ new Rx Fn G).
  - destruct new as [n|]; [|elim Fn; now left].
    assert (Q : n <> d /\ In n (x_dims x)). { unfold free_name in Fn. cbn [renamed] in Fn. split; [tauto|]. destruct (in_dec string_dec n (x_dims x)); tauto. }
    destruct (rename_collides P x md d HM Hd Nd dflt val run newlen to_end _ n G (proj1 Q) (proj2 Q)) as (e & Ee & _). eauto.
Qed.

Lemma aligned_entry_ext t C L e e' c : (forall k, In k L -> e k = e' k) -> NoDup C -> List.length c = List.length C ->
  List.length (except_nat (seq 0 (tndim t)) C) <= List.length L -> aligned_entry t C L e c = aligned_entry t C L e' c.
Proof.
  intros H N Lc Le. unfold aligned_entry, entry. f_equal. apply map_ext_in. intros p Hp. destruct (in_dec Nat.eq_dec p C) as [I|I]; [now rewrite !bind_in|]. rewrite !bind_out by exact I.
  destruct (Nat.eqb (shape_of t p) 1); [reflexivity|]. apply H. unfold aligned_with. apply nth_In.
  assert (Ip : In p (except_nat (seq 0 (tndim t)) C)) by (unfold except; apply filter_In; split; [exact Hp|]; destruct (in_dec Nat.eq_dec p C); tauto).
  destruct (index_of_lt _ _ Ip) as [Q _]. lia.
Qed.

(* the array handed to the function, and the moments it gives at a position *)
Lemma given_array {A} (P : packer A) (HP : packer_ok P) md outer sz red : moments_given P md outer sz red -> NoDup (outer ++ md) -> map sz md = pk_shape P ->
  exists t, match red with Labelled z => broadcast_compat outer md z | Plain t => Ok t end = Ok t /\
    let C := seq (tndim t - List.length md) (List.length md) in
    List.length md <= tndim t /\ (forall sh, (forall k, k < List.length outer -> sh k = sz (nth k outer "")) -> aligns t C (seq 0 (List.length outer)) sh) /\ map (shape_of t) C = pk_shape P /\
    forall e env, (forall k, k < List.length outer -> e k = env (nth k outer "")) -> inside_names sz outer env ->
      pk_pack P (aligned_entry t C (seq 0 (List.length outer)) e) = given_at P md outer red env.
Proof.
  intros H N Pm. destruct red as [z|t].
  - destruct H as (Hz & I2 & I1 & S). destruct (broadcast_placed z outer md Hz N I1 I2) as (t & E & Pz). exists t. split; [exact E|]. cbv zeta.
    pose proof (acc_ndim z outer md t Pz) as An. pose proof (acc_cores z outer md t I2 Pz) as Ac.
    replace (tndim t - List.length md) with (List.length (trim (x_dims z) outer)) by lia. split; [lia|]. split; [|split].
    + intros sh Sh. apply (acc_aligns z outer md t Pz). intros k Hk Hn. rewrite Sh by exact Hk. now apply S.
    + rewrite Ac, <- Pm. apply map_ext_in. intros n Hn. apply S, I2, Hn.
    + intros e env He Hi. cbn [given_at]. unfold moments_named. apply (proj1 HP). intros c Hc. apply (acc_entry z outer md t N I1 I2 Pz e env c He).
      * intros n Hn Hz'. rewrite S by exact Hz'. now apply Hi.
      * replace (map (dim_size z) md) with (pk_shape P); [exact Hc|]. rewrite <- Pm. apply map_ext_in. intros n Hn. symmetry. apply S, I2, Hn.
  - destruct H as (H1 & H2 & H3). exists t. split; [reflexivity|]. cbv zeta. split; [exact H1|]. pose proof H2 as (A1 & A2 & A3 & A4 & A5). split; [|split; [exact H3|]].
    + intros sh Sh. split; [exact A1|]. split; [exact A2|]. split; [exact A3|]. split; [exact A4|]. intros p Hp. destruct (A5 p Hp) as [Q|Q]; [left|now right]. rewrite Q. symmetry. apply Sh.
      unfold aligned_with in *. rewrite seq_length in A4 |- *. destruct (index_of_lt _ _ Hp) as [Q' _]. rewrite seq_nth by lia. lia.
    + intros e env He Hi. cbn [given_at]. apply (proj1 HP). intros c Hc. apply aligned_entry_ext; [|exact A2| |exact A4].
      * intros k Hk. apply in_seq in Hk. apply He. lia.
      * apply valid_length in Hc. rewrite <- H3, map_length in Hc. exact Hc.
Qed.

Theorem jackknife_given_named : forall {A V} (K : pusher A V) ok P, moment_array K ok P ->
  forall red rep_dim md axis dim d to_end x, labelled_moments P md x -> chooses (List.length md) axis dim d x -> ~ In d md ->
  let outer := except_name (x_dims x) (d :: md) in let rd := renamed d rep_dim in
  let r := x_jackknife_data K P (params_for md) (Some (red, None)) rep_dim axis dim to_end x in
  (moments_given P md outer (dim_size x) red ->
   (free_name x d rep_dim ->
    by_name 0%Qc (pk_unpack P) (fun env => of_opt EZeroDiv (jackknife_data_from K (given_at P md outer red env) (rows_named P x [d] md env)))
      (result_dims to_end (x_dims x) d rd md) (result_size (dim_size x) rd (dim_size x d)) rd md r) /\
   (~ free_name x d rep_dim -> exists e, r = Raise e)) /\
  (forall z, red = Labelled z -> x_ok z ->
   (In d (x_dims z) -> r = Raise EValue) /\
   (forall n, In n (x_dims x) -> In n (x_dims z) -> dim_size x n <> dim_size z n -> r = Raise EValue)).
Proof.
  intros A V K ok P HMA red rep_dim md axis dim d to_end x HM HC Nd outer rd r. pose proof (ma_packer _ _ _ HMA) as HP. unfold r, x_jackknife_data. clear r.
  replace (match red with Labelled _ => Ok red | Plain _ => Ok red end) with (Ok red) by now destruct red. cbn [rbind].
  begin_with (@start_named _ _ K ok P HMA x md axis dim d HM HC Nd). pose proof (chooses_dim _ _ _ _ _ HC) as Hd.
  unfold iter_dims. cbn [params_for xp_dims rbind]. pose proof (lm_NoDup P x md d HM Hd Nd) as NN. fold outer in NN.
  assert (Nom : NoDup (outer ++ md)).
  { apply NoDup_app_iff in NN. destruct NN as (N1 & N2 & N3). inversion N2; subst. apply NoDup_app_iff. split; [exact N1|]. split; [assumption|]. intros n Hn Q. apply (N3 n Hn). now right. }
  split.
  - intros HR. destruct (given_array P HP md outer (dim_size x) red HR Nom) as (tr & Er & R1 & R2 & R3 & R4); [apply HM|].
    apply (finish_rename P x md d HM Hd Nd).
    { intros env env' H. f_equal. f_equal; [|now apply (rows_named_ext P HP x md d HM)]. destruct red as [z|t]; cbn [given_at].
      - destruct HR as (Hz & I2 & I1 & S). unfold moments_named. apply (proj1 HP). intros m Hm. unfold x_at. f_equal. apply map_ext_in. intros n Hn.
        pose proof (valid_length _ _ Hm) as Lm. rewrite <- (lm_len P x md HM) in Lm. destruct (in_dec string_dec n md) as [Q|Q].
        + destruct (pos_lt md n Q) as [P1 P2]. rewrite <- P2. rewrite !name_bind_in; auto; apply HM.
        + rewrite !name_bind_out by exact Q. apply H. destruct (in_app_or _ _ _ (I1 n Hn)); tauto.
      - destruct HR as (H1 & (A1 & A2 & A3 & A4 & A5) & H3). apply (proj1 HP). intros c Hc. apply aligned_entry_ext; [|exact A2| |exact A4].
        + intros k Hk. apply in_seq in Hk. apply H. apply nth_In. exact (proj2 Hk).
        + apply valid_length in Hc. rewrite <- H3, map_length in Hc. exact Hc. }
    apply (operands P HP x md d HM Hd Nd [(red, md)] [] d (dim_size x d) (dim_size x)) with (ts := [tr])
      (run := fun t e => of_opt EZeroDiv (jackknife_data_from K (pk_pack P (aligned_entry tr (seq (tndim tr - List.length md) (List.length md)) (seq 0 (List.length outer)) e)) (rows_along P t [List.length outer] (seq (S (List.length outer)) (List.length md)) e))); auto.
    + intros z Hz. destruct red as [z'|t]; [|destruct Hz]. destruct Hz as [<-|[]]. destruct HR as (Hz & I2 & I1 & S). split; [exact Hz|]. intros n Hn. split; [|intros _; now apply S].
      left. destruct (in_app_or _ _ _ (I1 n Hn)) as [Q|Q]; [apply except_name_In in Q; tauto|now apply HM].
    + intros n Hn _. cbn in Hn. rewrite app_nil_r in Hn. now right.
    + cbn [mapR fst snd]. fold outer. rewrite Er. reflexivity.
    + intros t a' M HA Sd -> -> Ht Ho HRow. fold outer in HA, Sd, Ht, Ho, HRow |- *. split.
      * cbn [arg nth axis_value]. rewrite (jackknife_at_nd K P _ _ _ _ t HA tr).
        2: { pose proof (R2 _ Ho) as (_ & _ & _ & Le & _). pose proof (except_length (seq 0 (tndim tr)) (seq (tndim tr - List.length md) (List.length md)) (seq_NoDup _ _) (seq_NoDup _ _)) as Q. rewrite !seq_length in Q. rewrite seq_length in Le.
             assert (Iq : incl (seq (tndim tr - List.length md) (List.length md)) (seq 0 (tndim tr))) by (intros c Hc; apply in_seq; apply in_seq in Hc; lia). specialize (Q Iq). unfold axes_last. rewrite map_length, !seq_length. lia. }
        pose proof (jackknife_given_array K ok P HMA tr None (seq (tndim tr - List.length md) (List.length md)) _ _ false _ _ t HA) as J. cbv zeta in J. rewrite seq_length in J. rewrite Ht, except_seq in J. rewrite <- Sd. apply J.
        -- apply axes_last_positions; [exact R1|reflexivity].
        -- apply R2. exact Ho.
        -- exact R3.
      * intros e env He Hi. rewrite (HRow e env He Hi), (R4 e env He Hi). reflexivity.
  - intros z -> Hz. split.
    + intros Iz. rewrite (apply_ufunc_taken x z (d :: md) md (d :: md) _ d); [reflexivity|apply HM|exact Hz|constructor; [exact Nd|apply HM]| | |left; now left|exact Iz|exact Nd].
      * intros n [<-|Hn]; [exact Hd|now apply HM].
      * intros m _ Hm. apply in_app_or in Hm. destruct Hm as [Hm|Hm]; [now right|exact Hm].
    + intros n I1 I2 D. rewrite (apply_ufunc_conflict _ _ [] _ x z n); [reflexivity|cbn; auto|cbn; auto|apply HM|exact Hz|exact I1|exact I2|intros []|exact D].
Qed.

Lemma chooses_one x md axis dim d : chooses (List.length md) axis dim d x -> ~ In d md ->
  chooses_many md (match axis with Val a => Val [a] | Missing => Missing | PyNone => PyNone end)
    (match dim with Val d => Val (DStr d) | Missing => Missing | PyNone => PyNone end) [d] x.
Proof.
  intros H Nd. split; [intros n [<-|[]]; now apply (chooses_dim _ _ _ _ _ H)|]. split; [constructor; [intros []|constructor]|]. split; [discriminate|]. split; [intros n [<-|[]]; exact Nd|].
  destruct H as [(-> & -> & _)|(-> & ax & a & -> & H1 & H2)].
  - right; left. split; [reflexivity|]. eauto.
  - right; right; right; right. split; [reflexivity|]. exists [ax], [a]. split; [reflexivity|]. split; (constructor; [assumption|constructor]).
Qed.
(* a labelled result as an array *)
Lemma to_xarr_named sz dims g : l_named sz dims g -> NoDup dims -> x_ok (to_xarr g) /\ x_dims (to_xarr g) = dims /\ (forall n, In n dims -> dim_size (to_xarr g) n = sz n).
Proof.
  intros (D1 & D2 & D3) N. assert (Hx : x_ok (to_xarr g)).
  { split; [exact D2|]. cbn [to_xarr x_dims]. rewrite D1. split; [exact N|]. unfold x_shape. cbn [to_xarr x_val to_tensor tshape]. now rewrite D3, map_length. }
  split; [exact Hx|]. split; [exact D1|]. intros n Hn. destruct (pos_lt dims n Hn) as [P1 P2].
  assert (D1' : x_dims (to_xarr g) = dims) by exact D1.
  pose proof (dim_size_nth (to_xarr g) (position String.eqb n dims) Hx) as Q. rewrite D1', P2 in Q. rewrite <- Q by exact P1. unfold shape_of. cbn [to_xarr x_val to_tensor tshape]. rewrite D3, nth_map_dims by exact P1. now rewrite P2.
Qed.
Lemma x_at_to_xarr g env : x_at (to_xarr g) env = l_at 0%Qc g env.
Proof. reflexivity. Qed.

Theorem jackknife_named : forall {A V} (K : pusher A V) ok P, moment_array K ok P ->
  forall rep_dim md axis dim d to_end x, labelled_moments P md x -> chooses (List.length md) axis dim d x -> ~ In d md ->
  let rd := renamed d rep_dim in let r := x_jackknife_data K P (params_for md) None rep_dim axis dim to_end x in
  (free_name x d rep_dim ->
   by_name 0%Qc (pk_unpack P) (fun env => of_opt EZeroDiv (jackknife_data K (rows_named P x [d] md env)))
     (result_dims to_end (x_dims x) d rd md) (result_size (dim_size x) rd (dim_size x d)) rd md r) /\
  (~ free_name x d rep_dim -> exists e, r = Raise e).
Proof.
  intros A V K ok P HMA rep_dim md axis dim d to_end x HM HC Nd rd r. pose proof (ma_packer _ _ _ HMA) as HP. pose proof (chooses_dim _ _ _ _ _ HC) as Hd.
  pose proof (reduce_named K ok P HMA md _ _ [d] false true x HM (chooses_one x md axis dim d HC Nd)) as R.
  assert (Er : r = rbind (rmap (fun g => Labelled (to_xarr g))
     (x_reduce_data K P (params_for md) (match axis with Val a => Val [a] | Missing => Missing | PyNone => PyNone end)
        (match dim with Val d => Val (DStr d) | Missing => Missing | PyNone => PyNone end) false true x))
     (fun red => x_jackknife_data K P (params_for md) (Some (red, None)) rep_dim axis dim to_end x)).
  { unfold r, x_jackknife_data at 1. destruct (x_reduce_data _ _ _ _ _ _ _ _); reflexivity. }
  rewrite Er. clearbody r. clear Er. set (r0 := x_reduce_data _ _ _ _ _ _ _ _) in *. set (outer := except_name (x_dims x) (d :: md)).
  destruct r0 as [g|e]; cbn [rmap rbind].
  - destruct R as (D1 & D2 & D3 & D4). cbn [reduced_dims app] in D1, D3, D4. fold outer in D1, D3, D4. set (sz := fun n => if in_dec string_dec n [d] then 1 else dim_size x n) in *.
    pose proof (lm_NoDup P x md d HM Hd Nd) as NN. fold outer in NN.
    assert (Nom : NoDup (outer ++ md)).
    { apply NoDup_app_iff in NN. destruct NN as (N1 & N2 & N3). inversion N2; subst. apply NoDup_app_iff. split; [exact N1|]. split; [assumption|]. intros n Hn Q. apply (N3 n Hn). now right. }
    destruct (to_xarr_named sz (outer ++ md) g (conj D1 (conj D2 D3)) Nom) as (Z1 & Z2 & Z3).
    assert (Sz : forall n, In n (outer ++ md) -> sz n = dim_size x n).
    { intros n Hn. unfold sz. destruct (in_dec string_dec n [d]) as [[<-|[]]|]; [|reflexivity]. apply in_app_or in Hn. destruct Hn as [Hn|Hn]; [|tauto]. apply except_name_In in Hn. destruct Hn as [_ Hn]. elim Hn. now left. }
    assert (HG : moments_given P md outer (dim_size x) (Labelled (to_xarr g))).
    { split; [exact Z1|]. rewrite Z2. split; [intros n Hn; apply in_or_app; now right|]. split; [apply incl_refl|]. intros n Hn. rewrite Z3 by exact Hn. now apply Sz. }
    destruct (jackknife_given_named K ok P HMA (Labelled (to_xarr g)) rep_dim md axis dim d to_end x HM HC Nd) as [J _]. cbv zeta in J. destruct (J HG) as [J1 J2]. split; [|exact J2]. intros Fn.
    eapply by_name_ext; [reflexivity| |exact (J1 Fn)]. intros env Hi. cbv beta. unfold jackknife_data.
    assert (He : inside_names sz outer env).
    { intros n Hn. rewrite Sz by (apply in_or_app; now left). assert (Q : In n (except_name (result_dims to_end (x_dims x) d (renamed d rep_dim) md) (renamed d rep_dim :: md))).
      { apply except_name_In. pose proof Hn as Hn'. apply except_name_In in Hn'. destruct Hn' as [H1 H2]. split.
        - destruct to_end; [cbn [result_dims]; apply in_or_app; now left|]. apply (result_dims_In P x md d HM Hd Nd); [exact Fn|]. apply in_or_app. now left.
        - intros [<-|Q]; [|apply H2; now right]. destruct Fn as [Fn|Fn]; [rewrite Fn in H2; apply H2; now left|tauto]. }
      pose proof (Hi n Q) as L. unfold result_size in L. destruct (String.eqb_spec n rd) as [->|]; [|exact L]. apply except_name_In in Q. destruct Q as [_ Q]. elim Q. now left. }
    assert (EN : forall m, valid (pk_shape P) m -> exists v, reduce_data K (rows_named P x [d] md env) = Some v /\ x_at (to_xarr g) (name_bind md m env) = pk_unpack P v m).
    { intros m Hm. pose proof (valid_length _ _ Hm) as Lm. rewrite <- (lm_len P x md HM) in Lm. destruct (D4 (name_bind md m env)) as (v & V1 & V2).
      - intros n Hn. rewrite Sz by exact Hn. apply in_app_or in Hn. destruct (in_dec string_dec n md) as [Q|Q].
        + destruct (pos_lt md n Q) as [P1 P2]. rewrite <- P2, name_bind_in by (auto; apply HM). rewrite <- nth_map_dims by exact P1. rewrite (proj2 (proj2 (proj2 HM))). apply valid_nth; [exact Hm|]. rewrite <- (lm_len P x md HM). exact P1.
        + rewrite name_bind_out by exact Q. destruct Hn as [Hn|Hn]; [|tauto]. rewrite <- Sz by (apply in_or_app; now left). now apply He.
      - exists v. split.
        + rewrite <- V1. f_equal. apply (rows_named_ext P HP x md d HM). intros n Hn. symmetry. apply name_bind_out. intros Q. apply except_name_In in Hn. destruct Hn as [_ Hn]. apply Hn. now right.
        + rewrite x_at_to_xarr, V2. f_equal. apply map_name_bind; [apply HM|exact Lm]. }
    destruct (EN (repeat 0 (List.length (pk_shape P)))) as (v & Ev & _); [apply valid_zeros, HP|]. rewrite Ev. cbn [obind]. do 2 f_equal. cbn [given_at]. unfold moments_named.
    rewrite <- (ma_pack_unpack _ _ _ HMA v). 2: { apply (reduce_packed_ok K ok P HMA _ _ (rows_named_packed P x [d] md env) Ev). }
    apply (proj1 HP). intros m Hm. destruct (EN m Hm) as (v' & Ev' & ->). congruence.
  - destruct R as [-> (env & I & E)]. cbn [app] in I. fold outer in I. split; [|eauto]. intros Fn. cbn [by_name]. exists env. split.
    + intros n Hn. apply except_name_In in Hn. destruct Hn as [H1 H2]. unfold result_size. destruct (String.eqb_spec n rd) as [->|]; [elim H2; now left|]. apply I.
      assert (Q : In n (outer ++ rd :: md)). { destruct to_end; [exact H1|]. apply (result_dims_In P x md d HM Hd Nd); assumption. }
      apply in_app_or in Q. destruct Q as [Q|Q]; [exact Q|]. elim H2. exact Q.
    + unfold jackknife_data. rewrite E. reflexivity.
Qed.
