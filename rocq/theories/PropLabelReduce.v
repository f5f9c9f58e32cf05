(* Reduction of labelled arrays: results by name. *)
From Coq Require Import String Permutation.
From Verif Require Import Base BaseLemmas ModelPush ModelKernels ModelIndex ModelAxes ModelParams ModelWrap ModelNd ModelLabel Spec SpecAxes SpecNd SpecLabel SpecLabelTwo
  ProofAxes ProofArrays ProofIndex ProofMulti ProofNd PropAxes PropParams PropWrap PropLabelled PropNd ProofLabel ProofLabelMany ProofLabelReduce PropLabel.
Local Open Scope string_scope.
Local Open Scope nat_scope.

Lemma positions_of (dims ds : list sname) : incl ds dims -> Forall2 (fun a d => nth_error dims a = Some d) (map (fun n => position String.eqb n dims) ds) ds.
Proof.
  induction ds as [|d ds IH]; intros I; cbn [map]; constructor; [|apply IH; intros n Hn; apply I; now right]. destruct (pos_lt dims d) as [P1 P2]; [apply I; now left|]. rewrite <- P2 at 2. now apply nth_error_nth'.
Qed.
Lemma chooses_many_select x md axis dim ds : NoDup (x_dims x) -> chooses_many md axis dim ds x ->
  exists axes, select_axis_dim_mult (params_for md) (XArr (x_dims x)) axis dim Missing Missing false = Ok (axes, ds).
Proof.
  intros N (I & Nds & Ne & Dm & H).
  assert (C : counted (params_for md) = List.length md) by (unfold counted, params_for; cbn; apply Nat2Z.id).
  assert (Hm : forall d, In d ds -> ~ is_moment (params_for md) d) by (intros d Hd; exact (Dm d Hd)).
  destruct H as [(-> & -> & E)|[(-> & d & -> & E)|[(-> & E)|[(-> & -> & E)|(-> & l & axes & -> & E1 & E2)]]]].
  - exists (map (fun n => position String.eqb n (x_dims x)) ds). apply select_mult_exact; [exact N|]. split; [now apply positions_of|]. split; [now right|]. left. split; [reflexivity|]. split; [reflexivity|]. rewrite filter_names. exact E.
  - exists (map (fun n => position String.eqb n (x_dims x)) ds). apply select_mult_exact; [exact N|]. split; [now apply positions_of|]. split; [now right|]. right; left. split; [reflexivity|]. exists (DStr d). split; [reflexivity|]. left. now rewrite E.
  - exists (map (fun n => position String.eqb n (x_dims x)) ds). apply select_mult_exact; [exact N|]. split; [now apply positions_of|]. split; [now right|]. right; left. split; [reflexivity|]. destruct E as [->| ->]; eexists; split; try reflexivity; [now left|now right].
  - exists (seq 0 (List.length (x_dims x) - List.length md)). apply select_mult_exact; [exact N|]. rewrite C. split.
    + rewrite E. set (k := List.length (x_dims x) - List.length md). assert (Hk : k <= List.length (x_dims x)) by lia. clearbody k. clear - Hk.
      assert (G : forall j0 s l, j0 <= List.length l -> (forall j, j < List.length l -> nth_error (x_dims x) (s + j) = nth_error l j) -> Forall2 (fun a d => nth_error (x_dims x) a = Some d) (seq s j0) (firstn j0 l)).
      { induction j0 as [|j0 IH]; intros s l L H; [constructor|]. destruct l as [|d l]; [cbn in L; lia|]. cbn [seq firstn]. constructor; [pose proof (H 0 ltac:(cbn; lia)) as Q; rewrite Nat.add_0_r in Q; exact Q|].
        apply IH; [cbn in L; lia|]. intros j Hj. pose proof (H (S j) ltac:(cbn; lia)) as Q. cbn [nth_error] in Q. rewrite <- Q. f_equal. lia. }
      apply G; [exact Hk|]. reflexivity.
    + split; [now right|]. right; right; left. auto.
  - exists axes. apply select_mult_exact; [exact N|]. rewrite C. split; [exact E2|]. split; [now right|]. right; right; right. split; [reflexivity|]. exists l. split; [reflexivity|]. split; [|exact E1].
    clear - E2 Nds. induction E2 as [|a d axes ds H F IH]; [constructor|]. inversion Nds; subst. constructor; [|auto]. intros Q. destruct (In_nth_error _ _ Q) as [k Hk].
    assert (X : exists d', nth_error ds k = Some d' /\ nth_error (x_dims x) a = Some d').
    { clear - F Hk. revert k Hk. induction F as [|a' d' axes ds H' F IH]; intros [|k] Hk; try discriminate; cbn in *; [inversion Hk; subst; eauto|eauto]. }
    destruct X as (d' & X1 & X2). rewrite H in X2. inversion X2; subst. apply nth_error_In in X1. tauto.
Qed.

Theorem reduce_named : forall {A V} (K : pusher A V) ok P, moment_array K ok P ->
  forall md axis dim ds keepdims to_end x, labelled_moments P md x -> chooses_many md axis dim ds x ->
  reduced_by_name K P keepdims to_end ds md x (x_reduce_data K P (params_for md) axis dim keepdims to_end x).
Proof.
  intros A V K ok P HMA md axis dim ds keepdims to_end x HM HC. pose proof (ma_packer _ _ _ HMA) as HP. assert (Nx : NoDup (x_dims x)) by apply HM.
  destruct (chooses_many_select x md axis dim ds Nx HC) as (axes & E). destruct HC as (Ids & Nds & Ne & Dds & _).
  unfold x_reduce_data. rewrite E. clear E. cbn [rbind]. unfold core_dims, iter_dims. cbn [params_for xp_dims xp_ndim rbind of_opt].
  assert (AA : array_axes (params_for md) = Ok (axes_last (List.length md))).
  { unfold array_axes, x_to_array, get_axes. cbn [params_for xp_ndim rbind]. assert (L : List.length md = 1 \/ List.length md = 2) by (rewrite (lm_len P x md HM); now apply (ma_ndim K ok)). destruct L as [L|L]; rewrite L; reflexivity. }
  rewrite AA. cbn [rbind]. set (ocore := if keepdims then (ds ++ md)%list else md).
  set (outer := except_name (x_dims x) (ds ++ md)). set (ns := (outer ++ ds ++ md)%list).
  destruct (broadcast_perm x outer (ds ++ md)) as (t & Et & Hy & Sy); [apply HM|exact (rm_perm P x md ds HM Ids Nds Dds)|].
  set (y := XA (outer ++ ds ++ md) t) in *.
  set (a := List.length outer). set (R := seq a (List.length ds)). set (M := seq (a + List.length ds) (List.length md)).
  destruct (ry_axes x md ds y Hy eq_refl) as (A1 & A2 & A3). pose proof (ry_moments P x md ds HM Ids y Hy eq_refl Sy) as A4.
  pose proof (ry_ndim x md ds y Hy eq_refl) as A5.
  cbn [x_val y] in A1, A2, A4, A5. fold outer in A5. fold a in A5.

  pose (sz := fun n => if in_dec string_dec n ds then 1 else dim_size x n).
  assert (Lns : List.length ns = a + List.length ds + List.length md) by (exact (rm_len x md ds)).
  assert (Eo : forall k, k < a -> nth k ns "" = nth k outer "") by (exact (rm_outer x md ds)).
  assert (Ed : forall k, k < List.length ds -> nth (a + k) ns "" = nth k ds "") by (exact (rm_ds x md ds)).
  assert (Em : forall k, k < List.length md -> nth (a + List.length ds + k) ns "" = nth k md "") by (exact (rm_md x md ds)).
  assert (Nns : NoDup ns) by (exact (rm_NoDup P x md ds HM Nds Dds)).
  assert (Ins : forall n, In n ns <-> In n (x_dims x)) by (exact (rm_In P x md ds HM Ids)).
  assert (OD : outer_dims ds ((ds ++ md) ++ ocore) [x] = outer).
  { apply outer_dims_more; auto.
    - intros n Hn. rewrite !in_app_iff. auto.
    - intros n Hn. apply in_or_app. now left.
    - intros n Hn _. apply in_app_or in Hn. destruct Hn as [Hn|Hn]; [exact Hn|]. unfold ocore in Hn. destruct keepdims; [exact Hn|]. apply in_or_app. now right.
    - intros z n []. }
  set (f := fun ts => rmap to_grid (reduce_data_nd K P (axes_last (List.length md)) (Some (map (fun i => AInt (Z.of_nat i - Z.of_nat (List.length ds) - Z.of_nat (List.length md))) (seq 0 (List.length ds)))) keepdims false (arg 0 ts))).
  (* result of the array function, by name *)
  assert (Res : (exists g, f [t] = Ok g /\ l_named sz (outer ++ ocore) (LG (outer ++ ocore) g) /\
      forall env, inside_names sz (outer ++ ocore) env -> exists v, reduce_data K (rows_named P x ds md env) = Some v /\ gget 0%Qc g (map env (outer ++ ocore)) = pk_unpack P v (map env md)) \/
    (f [t] = Raise EZeroDiv /\ exists env, inside_names (dim_size x) outer env /\ reduce_data K (rows_named P x ds md env) = None)).
  { pose proof (reduce_array_entries K ok P HMA t (axes_last (List.length md)) (Some (map (fun i => AInt (Z.of_nat i - Z.of_nat (List.length ds) - Z.of_nat (List.length md))) (seq 0 (List.length ds)))) keepdims false M R) as RA.
    destruct RA as [(out & E1 & H1 & H2 & H3)|(E1 & e & I & H)].
    - apply Hy.
    - exact A1.
    - cbn [names_axes]. unfold M. rewrite seq_length. exact A2.
    - exact A3.
    - unfold R. destruct ds; [congruence|discriminate].
    - exact A4.
    - left. exists (to_grid out). split; [unfold f; cbn [arg nth]; rewrite E1; reflexivity|].
      rewrite A5 in H2, H3. set (ax := out_axes keepdims false (a + List.length ds + List.length md) R M) in *.
      assert (Eax : forall env : sname -> nat, map (fun k => env (nth k ns "")) ax = map env (outer ++ ocore)).
      { intros env. unfold ax, ocore. destruct keepdims; cbn [out_axes].
        - rewrite (map_named env (outer ++ ds ++ md)). fold ns. now rewrite Lns.
        - assert (Ex : except_nat (seq 0 (a + List.length ds + List.length md)) R = (seq 0 a ++ M)%list).
          { rewrite !seq_app. cbn [Nat.add]. fold R M. unfold except. rewrite !filter_app. rewrite (filter_all _ (seq 0 a)), (filter_none _ R), (filter_all _ M); [now rewrite app_nil_r| | |].
            - intros k Hk. destruct (in_dec Nat.eq_dec k R) as [Q|Q]; [|reflexivity]. unfold M, R in *. rewrite in_seq in *. lia.
            - intros k Hk. destruct (in_dec Nat.eq_dec k R); tauto.
            - intros k Hk. destruct (in_dec Nat.eq_dec k R) as [Q|Q]; [|reflexivity]. unfold R in *. rewrite in_seq in *. lia. }
          rewrite Ex, !map_app. f_equal.
          + rewrite (map_named env outer). apply map_ext_in. intros k Hk. apply in_seq in Hk. now rewrite Eo by lia.
          + unfold M. rewrite map_seq_shift, (map_named env md). apply map_ext_in. intros k Hk. apply in_seq in Hk. now rewrite Em by lia. }
      assert (Ssz : forall k, k < List.length ns -> (if in_dec Nat.eq_dec k R then 1 else shape_of t k) = sz (nth k ns "")).
      { intros k Hk. pose proof (ry_shape P x md ds HM Ids y Hy eq_refl Sy k Hk) as Q. cbn [x_val y] in Q. fold outer in Q. fold ns in Q. rewrite Q. unfold sz.
        destruct (in_dec Nat.eq_dec k R) as [Hr|Hr], (in_dec string_dec (nth k ns "") ds) as [Hn|Hn]; try reflexivity; exfalso.
        - apply Hn. unfold R in Hr. apply in_seq in Hr. replace k with (a + (k - a)) by lia. rewrite Ed by lia. apply nth_In. lia.
        - apply Hr. destruct (pos_lt ds _ Hn) as [P1 P2]. rewrite <- Ed in P2 by exact P1. rewrite NoDup_nth in Nns. apply Nns in P2; [|lia|exact Hk]. unfold R. apply in_seq. lia. }
      assert (Lax : forall k, In k ax -> k < List.length ns).
      { intros k Hk. rewrite Lns. unfold ax in Hk. cbn [out_axes] in Hk. destruct keepdims; [|unfold except in Hk; apply filter_In in Hk; destruct Hk as [Hk _]]; apply in_seq in Hk; lia. }
      assert (Sh : tshape out = map sz (outer ++ ocore)).
      { rewrite H2. rewrite <- (Eax sz). apply map_ext_in. intros k Hk. apply Ssz. auto. }
      split; [split; [reflexivity|]; split; [exact H1|exact Sh]|].
      intros env He. set (e := fun k => env (nth k ns "")).
      destruct (H3 e) as (v & V1 & V2).
      { intros k Hk. rewrite Ssz by auto. unfold e. apply He.
        pose proof (Eax (fun n => if string_dec n (nth k ns "") then 1 else 0)) as Q. apply (f_equal (fun l => list_max l)) in Q.
        destruct (in_dec string_dec (nth k ns "") (outer ++ ocore)) as [H|H]; [exact H|exfalso].
        assert (Q1 : list_max (map (fun n => if string_dec n (nth k ns "") then 1 else 0) (outer ++ ocore)) <= 0).
        { apply list_max_le. apply Forall_forall. intros v Hv. apply in_map_iff in Hv. destruct Hv as (n & <- & Hn). destruct (string_dec n (nth k ns "")); [congruence|lia]. }
        assert (Q2 : 1 <= list_max (map (fun k0 => if string_dec (nth k0 ns "") (nth k ns "") then 1 else 0) ax)).
        { pose proof (proj1 (list_max_le (map (fun k0 => if string_dec (nth k0 ns "") (nth k ns "") then 1 else 0) ax) _) (le_n _)) as F. rewrite Forall_forall in F. apply F. apply in_map_iff. exists k. split; [|exact Hk]. destruct (string_dec (nth k ns "") (nth k ns "")); congruence. }
        lia. }
      exists v. split.
      + rewrite <- V1. symmetry. f_equal. pose proof (ry_rows P HP x md ds HM Ids Nds Dds y Hy eq_refl Sy e env) as RR. cbn [x_val y] in RR. fold outer in RR. fold a in RR. apply RR.
        * intros k Hk. unfold e. now rewrite Eo.
        * intros n Hn. pose proof (He n (in_or_app _ _ _ (or_introl Hn))) as Q. unfold sz in Q. destruct (in_dec string_dec n ds) as [Hd|_]; [|exact Q]. apply except_name_In in Hn. destruct Hn as [_ Hn]. elim Hn. apply in_or_app. now left.
      + unfold to_grid. change (gget 0%Qc _ ?i) with (tget out i). rewrite <- (Eax env). fold e. rewrite V2. f_equal. unfold M. rewrite map_seq_shift, (map_named env md). apply map_ext_in. intros k Hk. apply in_seq in Hk. unfold e. now rewrite Em by lia.
    - right. split; [unfold f; cbn [arg nth]; rewrite E1; reflexivity|]. exists (fun n => e (position String.eqb n ns)).
      assert (Io : inside_names (dim_size x) outer (fun n => e (position String.eqb n ns))).
      { intros n Hn. assert (Hn' : In n ns) by (apply in_or_app; now left). destruct (pos_lt ns n Hn') as [P1 P2]. pose proof (ry_shape P x md ds HM Ids y Hy eq_refl Sy _ P1) as Q. cbn [x_val y] in Q. fold outer in Q. fold ns in Q. rewrite P2 in Q. rewrite <- Q. apply I.
        unfold except. apply filter_In. split; [apply in_seq; rewrite A5, <- Lns; lia|]. destruct (in_dec Nat.eq_dec _ R) as [Hr|_]; [|reflexivity]. exfalso. unfold R in Hr. apply in_seq in Hr. 
        set (k := position String.eqb n ns) in *. replace k with (a + (k - a)) in P2 by lia. rewrite Ed in P2 by lia. apply except_name_In in Hn. destruct Hn as [_ Hn]. apply Hn. apply in_or_app. left. rewrite <- P2. apply nth_In. lia. }
      split; [exact Io|]. rewrite <- H. symmetry. f_equal. pose proof (ry_rows P HP x md ds HM Ids Nds Dds y Hy eq_refl Sy e) as RR. cbn [x_val y] in RR. fold outer in RR. fold a in RR. apply RR; [|exact Io].
      intros k Hk. rewrite <- Eo by exact Hk. f_equal. symmetry. apply pos_nth; [exact Nns|lia]. }
  rewrite (apply_ufunc_eq [(Labelled x, (ds ++ md)%list)] ocore ds f (dim_size x) [t]).
  2: { intros z [<-|[]]. split; [apply HM|auto]. }
  2: { cbn [map flat_map fst snd labelled_of app]. rewrite app_nil_r, OD. cbn [mapR fst snd]. rewrite Et. reflexivity. }
  2: { cbn [map flat_map fst snd labelled_of app]. rewrite !app_nil_r, OD. intros g Eg. destruct Res as [(g' & E' & (_ & _ & Sg) & _)|(E' & _)]; [|congruence]. assert (g' = g) by congruence. subst g'. cbn [lg_val] in Sg. rewrite Sg, map_length. split; [reflexivity|].
       intros n k Hk Hn _. rewrite combine_map_r in Hk. apply in_map_iff in Hk. destruct Hk as (n' & Q & _). inversion Q; subst. unfold sz. destruct (in_dec string_dec n ds); [tauto|reflexivity]. }
  cbv zeta. cbn [flat_map fst snd labelled_of map]. rewrite app_nil_r. cbn [app]. rewrite OD.
  destruct Res as [(g & Eg & Lg & Hg)|(Eg & env & I & H)]; rewrite Eg; cbn [rmap rbind].
  2: { unfold reduced_by_name. split; [reflexivity|]. exists env. auto. }
  assert (Ncore : NoDup (outer ++ ocore)).
  { unfold ocore. destruct keepdims; [exact Nns|]. unfold ns in Nns. apply NoDup_app_iff in Nns. destruct Nns as (N1 & N2 & N3). apply NoDup_app_iff in N2. apply NoDup_app_iff. split; [exact N1|]. split; [apply N2|]. intros n Hn Q. apply (N3 n Hn). apply in_or_app. now right. }
  assert (Tr : forall r rdims, (exists g', r = Ok g' /\ l_named sz rdims g' /\ forall env, inside_names sz (outer ++ ocore) env -> l_at 0%Qc g' env = l_at 0%Qc (LG (outer ++ ocore) g) env) ->
     (forall n, In n (outer ++ ocore) -> In n rdims) -> rdims = reduced_dims keepdims to_end (x_dims x) ds md -> reduced_by_name K P keepdims to_end ds md x r).
  { intros r rdims (g' & -> & (D1 & D2 & D3) & L) J ->. unfold reduced_by_name. split; [exact D1|]. split; [exact D2|]. split; [exact D3|].
    intros env He. assert (He' : inside_names sz (outer ++ ocore) env) by (intros n Hn; apply He; auto). destruct (Hg env He') as (v & V1 & V2). exists v. split; [exact V1|]. rewrite (L env He'). exact V2. }
  destruct to_end.
  - destruct (l_transpose_ok 0%Qc (None :: map Some ocore) sz (outer ++ ocore) (outer ++ ocore) (LG (outer ++ ocore) g) Lg Ncore) as (g' & E1 & L1 & _ & A').
    { cbn [filter]. rewrite known_some, filter_all by (intros n Hn; apply smem_In, in_or_app; now right). rewrite infix_front; [|apply NoDup_app_iff in Ncore; tauto|intros n Hn; apply in_or_app; now right]. f_equal. f_equal.
      apply NoDup_app_iff in Ncore. destruct Ncore as (N1 & N2 & N3). unfold except. rewrite filter_app, (filter_all _ outer), (filter_none _ ocore); [apply app_nil_r| |].
      - intros n Hn. destruct (in_dec string_dec n ocore); tauto.
      - intros n Hn. destruct (in_dec string_dec n ocore) as [Q|Q]; [|reflexivity]. elim (N3 n Hn Q). }
    apply (Tr _ (outer ++ ocore)%list); [exists g'; auto|auto|]. unfold ocore, outer. destruct keepdims; reflexivity.
  - set (rdims := reduced_dims keepdims false (x_dims x) ds md).
    assert (Er : rdims = except_name (x_dims x) (if keepdims then [] else ds)).
    { unfold rdims. cbn [reduced_dims]. destruct keepdims; [|reflexivity]. unfold except. now rewrite filter_all by (intros n _; destruct (in_dec string_dec n []) as [[]|]; reflexivity). }
    assert (Ir : forall n, In n (outer ++ ocore) <-> In n rdims).
    { intros n. rewrite Er, except_name_In, <- Ins. unfold ocore, ns. destruct keepdims; [cbn; tauto|]. rewrite !in_app_iff. unfold outer. rewrite except_name_In, in_app_iff. split.
      - intros [[H1 H2]|H]; [tauto|]. split; [tauto|]. intros Q. apply (Dds n Q H).
      - intros [[H|[H|H]] Q]; tauto. }
    assert (Nr : NoDup rdims) by (rewrite Er; now apply NoDup_filter).
    destruct (transpose_like_ok 0%Qc (x_dims x) (fun n => n) (if keepdims then [] else ds) [] sz (outer ++ ocore) (LG (outer ++ ocore) g) Lg Ncore) as (g' & E1 & L1 & A').
    { rewrite map_id, app_nil_r, <- Er. rewrite filter_all; [exact Nr|]. intros n Hn. now apply smem_In, Ir. }
    cbv zeta in L1. rewrite map_id, app_nil_r, <- Er, filter_all in L1 by (intros n Hn; now apply smem_In, Ir).
    assert (Ez : except_name (outer ++ ocore) rdims = []).
    { unfold except. apply filter_none. intros n Hn. destruct (in_dec string_dec n rdims) as [|Q]; [reflexivity|]. elim Q. now apply Ir. }
    rewrite Ez in L1. cbn [app] in L1. apply (Tr _ rdims); [exists g'; auto|intros n; apply Ir|reflexivity].
Qed.
