(* Functions of several labelled arrays. *)
From Coq Require Import String Permutation.
From Verif Require Import Base BaseLemmas ModelPush ModelKernels ModelIndex ModelAxes ModelParams ModelWrap ModelNd ModelLabel Spec SpecAxes SpecNd SpecLabel
  ProofAxes ProofArrays ProofNd PropAxes PropParams PropWrap PropLabelled PropNd ProofLabel.
Local Open Scope string_scope.
Local Open Scope nat_scope.

Lemma filter_first_seen f l : filter f (first_seen l) = first_seen (filter f l).
Proof.
  induction l as [|n l IH] using rev_ind; [reflexivity|]. rewrite first_seen_snoc, filter_app. cbn [filter]. destruct (f n) eqn:E.
  - rewrite first_seen_snoc. destruct (smem n l) eqn:S1.
    + rewrite IH. assert (S2 : smem n (filter f l) = true) by (apply smem_In, filter_In; split; [now apply smem_In|exact E]). now rewrite S2.
    + assert (S2 : smem n (filter f l) = false) by (apply smem_false; intros H; apply filter_In in H; apply smem_false in S1; tauto). rewrite S2, filter_app, IH. cbn [filter]. now rewrite E.
  - rewrite app_nil_r. destruct (smem n l) eqn:S1; [exact IH|]. rewrite filter_app, IH. cbn [filter]. now rewrite E, app_nil_r.
Qed.
Lemma first_seen_known l r : NoDup l -> incl r l -> first_seen (l ++ r) = l.
Proof.
  intros N. induction r as [|n r IH] using rev_ind; intros I; [rewrite app_nil_r; now apply first_seen_fixed|].
  rewrite app_assoc, first_seen_snoc. assert (S : smem n (l ++ r) = true) by (apply smem_In, in_or_app; left; apply I, in_or_app; right; now left).
  rewrite S. apply IH. intros m Hm. apply I, in_or_app. now left.
Qed.
(* the broadcast dimensions, when the other arrays have no further ones *)
Lemma outer_dims_more excl core dims drop (x : xarr) (xs : list xarr) : NoDup dims -> x_dims x = dims -> incl excl core -> incl drop core ->
  (forall n, In n core -> In n dims -> In n drop) -> (forall z n, In z xs -> In n (x_dims z) -> In n dims \/ In n core) ->
  outer_dims excl core (x :: xs) = except_name dims drop.
Proof.
  intros N Ex I1 I2 I3 I4. unfold outer_dims. cbn [flat_map]. rewrite Ex. unfold except at 1. rewrite filter_first_seen. unfold except at 1. rewrite filter_twice.
  set (f := fun n => _ : bool). assert (Ef : forall n, f n = true <-> ~ In n core).
  { intros n. unfold f. destruct (in_dec string_dec n excl) as [H|H]; cbn [andb]; [split; [discriminate|]; intros Q; elim Q; auto|]. destruct (in_dec string_dec n core); split; auto; discriminate. }
  rewrite filter_app. replace (filter f dims) with (except_name dims drop).
  - apply first_seen_known; [now apply NoDup_filter|]. intros n Hn. apply filter_In in Hn. destruct Hn as [Hn F]. apply Ef in F. apply in_flat_map in Hn. destruct Hn as (z & Hz & Hn).
    apply except_name_In. destruct (I4 z n Hz Hn) as [H|H]; [|tauto]. split; [exact H|]. intros Q. apply F. auto.
  - unfold except. apply filter_ext_in. intros n Hn. destruct (in_dec string_dec n drop) as [H|H].
    + symmetry. apply Bool.not_true_iff_false. rewrite Ef. intros Q. apply Q. auto.
    + symmetry. apply Ef. intros Q. apply H. auto.
Qed.

Section Operands.
  Context {A : Type} (P : packer A) (HP : packer_ok P) {B T : Type}.
  Variables (x : xarr) (md : list sname) (d : sname).
  Hypothesis HM : labelled_moments P md x.
  Hypothesis Hd : In d (x_dims x).
  Hypothesis Nd : ~ In d md.
  Let dims := x_dims x.
  Let outer := except_name dims (d :: md).
  Variables (more : list (xop * list sname)) (excl : list sname) (rd : sname) (newlen : nat) (SZ : sname -> nat).
  Let core := (d :: md ++ flat_map snd more ++ rd :: md)%list.
  Hypothesis Hrd : rd = d \/ ~ In rd dims.
  Hypothesis Hex : excl = [] \/ excl = [d].
  Hypothesis Hsz : forall n, In n dims -> SZ n = dim_size x n.
  Hypothesis Hmore : forall z, In z (labelled_of (map fst more)) -> x_ok z /\ forall n, In n (x_dims z) -> (In n dims \/ In n core) /\ (~ In n excl -> dim_size z n = SZ n).
  Hypothesis Hcore : forall n, In n (flat_map snd more) -> In n dims -> In n (d :: md).
  Hypothesis Hnew : ~ In rd excl -> (rd = d \/ exists z, In z (labelled_of (map fst more)) /\ In rd (x_dims z)) -> newlen = SZ rd.

  Lemma outer_more : outer_dims excl ((d :: md) ++ flat_map snd more ++ rd :: md) (x :: labelled_of (map fst more)) = outer.
  Proof.
    apply outer_dims_more; auto; [apply HM| | | |].
    - destruct Hex as [->| ->]; [intros n []|]. intros n [<-|[]]. now left.
    - intros n Hn. apply in_or_app. now left.
    - intros n Hn Hx. apply in_app_or in Hn. destruct Hn as [Hn|Hn]; [exact Hn|]. apply in_app_or in Hn. destruct Hn as [Hn|[<-|Hn]]; [now apply Hcore| |now right]. destruct Hrd as [->|]; [now left|tauto].
    - intros z n Hz Hn. destruct (Hmore z Hz) as [_ H]. destruct (H n Hn) as [H' _]. exact H'.
  Qed.
  Lemma operands_agree : agree excl SZ (x :: labelled_of (map fst more)).
  Proof.
    intros z [<-|Hz]; [split; [apply HM|]; intros n Hn _; symmetry; now apply Hsz|]. destruct (Hmore z Hz) as [H1 H2]. split; [exact H1|]. intros n Hn. now apply H2.
  Qed.
  Lemma operands (dflt : T) (val : B -> list nat -> T) run run' (f : list tensor -> res (grid T)) ts :
    mapR (fun a => match fst a with Labelled z => broadcast_compat outer (snd a) z | Plain t => Ok t end) more = Ok ts ->
    (forall t a M, axis_of_moments P (axes_last (List.length md)) (AInt (- (Z.of_nat (List.length md) + 1))) a M t -> shape_of t a = dim_size x d ->
       a = List.length outer -> M = seq (S a) (List.length md) -> tndim t = a + S (List.length md) -> (forall k, k < a -> shape_of t k = dim_size x (nth k outer "")) ->
       (forall e env, (forall k, k < a -> e k = env (nth k outer "")) -> inside_names (dim_size x) outer env -> rows_along P t [a] M e = rows_named P x [d] md env) ->
       by_columns dflt val (run t) false newlen a M t (f (t :: ts)) /\
       (forall e env, (forall k, k < a -> e k = env (nth k outer "")) -> inside_names (dim_size x) outer env -> run t e = run' env)) ->
    by_name dflt val run' (outer ++ rd :: md) (result_size (dim_size x) rd newlen) rd md
      (apply_ufunc ((Labelled x, d :: md) :: more) (rd :: md) excl f).
  Proof.
    intros Ets Hf.
    destruct (lm_data P x md d HM Hd Nd) as (t & E & Hy & Sy). fold dims outer in E, Hy, Sy. set (y := XA (outer ++ d :: md) t) in *.
    assert (Pm : map (dim_size y) md = pk_shape P) by (exact (lm_moments P x md HM y Sy)).
    pose proof (y_axis_of_moments outer md d y Hy eq_refl P Pm) as HA. cbv zeta in HA. cbn [x_val] in HA.
    assert (Sd : shape_of t (List.length outer) = dim_size x d).
    { etransitivity; [exact (y_dim outer md d y Hy eq_refl)|]. symmetry. now apply Sy. }
    assert (So : forall n, In n outer -> dim_size x n = dim_size y n).
    { intros n Hn. apply Sy. apply except_name_In in Hn. tauto. }
    destruct (Hf t _ _ HA Sd eq_refl eq_refl) as [C R].
    { exact (y_ndim outer md d y Hy eq_refl). }
    { intros k Hk. etransitivity; [exact (y_outer outer md d y Hy eq_refl k Hk)|]. symmetry. apply So, nth_In, Hk. }
    { intros e env He Hi. apply (rows_match outer md d y Hy eq_refl P HP Pm x e env Sy He). intros n Hn. rewrite <- So by exact Hn. now apply Hi. }
    assert (N : NoDup (outer ++ rd :: md)).
    { pose proof (lm_NoDup P x md d HM Hd Nd) as N. fold dims outer in N. destruct Hrd as [->|Hr]; [exact N|]. apply NoDup_app_iff in N. destruct N as (N1 & N2 & N3). apply NoDup_app_iff. split; [exact N1|].
      inversion N2; subst. split; [constructor; [|assumption]; intros Q; apply Hr; now apply HM|]. intros n Hn [<-|Q]; [|apply (N3 n Hn); now right]. apply except_name_In in Hn. tauto. }
    pose proof (columns_named outer md d y Hy eq_refl dflt val _ run' rd newlen (f (t :: ts)) N C) as C'.
    assert (C2 : by_name dflt val run' (outer ++ rd :: md) (result_size (dim_size y) rd newlen) rd md (rmap (LG (outer ++ rd :: md)) (f (t :: ts)))).
    { apply C'. intros e env He Hi. apply R; [exact He|]. intros n Hn. rewrite So by exact Hn. now apply Hi. }
    clear C'.
    assert (Sz : forall n, In n (outer ++ rd :: md) -> result_size (dim_size y) rd newlen n = result_size (dim_size x) rd newlen n).
    { intros n Hn. unfold result_size. destruct (String.eqb_spec n rd); [reflexivity|]. symmetry. apply Sy. apply in_app_or in Hn. destruct Hn as [Hn|[Hn|Hn]]; [apply except_name_In in Hn; tauto|congruence|now apply HM]. }
    apply (by_name_ext dflt val _ run' _ _ (result_size (dim_size x) rd newlen)) in C2; [|exact Sz|reflexivity].
    rewrite (apply_ufunc_eq ((Labelled x, d :: md) :: more) (rd :: md) excl f SZ (t :: ts)); cbv zeta; cbn [flat_map fst snd map]; change (labelled_of (Labelled x :: map fst more)) with (x :: labelled_of (map fst more)); rewrite <- ?app_assoc, ?outer_more.
    - exact C2.
    - apply operands_agree.
    - cbn [mapR fst snd]. rewrite E. cbn [rbind]. now rewrite Ets.
    - intros g Eg. rewrite Eg in C2. cbn [rmap rbind by_name] in C2. destruct C2 as (_ & _ & Sg & _). cbn [lg_val] in Sg. rewrite Sg, map_length. split; [reflexivity|].
      intros n k Hk Hn Hin. rewrite combine_map_r in Hk. apply in_map_iff in Hk. destruct Hk as (n' & Q & Hn'). inversion Q; subst n' k. unfold result_size. destruct (String.eqb_spec n rd) as [->|Qn].
      + apply Hnew; [exact Hn|]. apply in_app_or in Hin. destruct Hin as [H|H]; [fold dims in H; tauto|]. right. apply in_flat_map in H. exact H.
      + symmetry. apply Hsz. apply in_app_or in Hn'. destruct Hn' as [H|[H|H]]; [apply except_name_In in H; tauto|congruence|now apply HM].
  Qed.
  Lemma operands_raise (f : list tensor -> res (grid T)) ts e :
    mapR (fun a => match fst a with Labelled z => broadcast_compat outer (snd a) z | Plain t => Ok t end) more = Ok ts ->
    (forall t a M, axis_of_moments P (axes_last (List.length md)) (AInt (- (Z.of_nat (List.length md) + 1))) a M t -> shape_of t a = dim_size x d ->
       a = List.length outer -> M = seq (S a) (List.length md) -> tndim t = a + S (List.length md) -> (forall k, k < a -> shape_of t k = dim_size x (nth k outer "")) -> f (t :: ts) = Raise e) ->
    apply_ufunc ((Labelled x, d :: md) :: more) (rd :: md) excl f = Raise e.
  Proof.
    intros Ets Hf.
    destruct (lm_data P x md d HM Hd Nd) as (t & E & Hy & Sy). fold dims outer in E, Hy, Sy. set (y := XA (outer ++ d :: md) t) in *.
    assert (Pm : map (dim_size y) md = pk_shape P) by (exact (lm_moments P x md HM y Sy)).
    pose proof (y_axis_of_moments outer md d y Hy eq_refl P Pm) as HA. cbv zeta in HA. cbn [x_val] in HA.
    assert (Sd : shape_of t (List.length outer) = dim_size x d).
    { etransitivity; [exact (y_dim outer md d y Hy eq_refl)|]. symmetry. now apply Sy. }
    assert (So : forall n, In n outer -> dim_size x n = dim_size y n).
    { intros n Hn. apply Sy. apply except_name_In in Hn. tauto. }
    assert (R : f (t :: ts) = Raise e).
    { apply (Hf t _ _ HA Sd eq_refl eq_refl); [exact (y_ndim outer md d y Hy eq_refl)|].
      intros k Hk. etransitivity; [exact (y_outer outer md d y Hy eq_refl k Hk)|]. symmetry. apply So, nth_In, Hk. }
    rewrite (apply_ufunc_eq ((Labelled x, d :: md) :: more) (rd :: md) excl f SZ (t :: ts)); cbv zeta; cbn [flat_map fst snd map]; change (labelled_of (Labelled x :: map fst more)) with (x :: labelled_of (map fst more)); rewrite <- ?app_assoc, ?outer_more.
    - rewrite R. reflexivity.
    - apply operands_agree.
    - cbn [mapR fst snd]. rewrite E. cbn [rbind]. now rewrite Ets.
    - rewrite R. discriminate.
  Qed.
End Operands.

(* ---- an array that goes along with the data ------------------------------------------------------------ *)

Lemma except_seq_last q c : except_nat (seq 0 (q + c)) (seq q c) = seq 0 q.
Proof.
  rewrite seq_app. unfold except. rewrite filter_app. rewrite (filter_all _ (seq 0 q)), (filter_none _ (seq (0 + q) c)); [apply app_nil_r| |].
  - intros k Hk. destruct (in_dec _ _ _); tauto.
  - intros k Hk. apply in_seq in Hk. destruct (in_dec Nat.eq_dec k (seq q c)) as [H|H]; [rewrite in_seq in H; lia|reflexivity].
Qed.
Lemma index_of_front q k : k < q -> index_of k (seq 0 q) = k.
Proof.
  intros H. assert (G : forall n s, s <= k < s + n -> index_of k (seq s n) = k - s).
  { induction n as [|n IH]; intros s Hk; [lia|]. unfold index_of in *. cbn [seq position]. destruct (Nat.eqb_spec k s); [lia|]. rewrite IH by lia. lia. }
  rewrite G; lia.
Qed.
Section Accompany.
  Variables (z : xarr) (outer cs : list sname) (tz : tensor).
  Hypothesis Hz : x_ok z.
  Hypothesis N : NoDup (outer ++ cs).
  Hypothesis I1 : incl (x_dims z) (outer ++ cs).
  Hypothesis I2 : incl cs (x_dims z).
  Let l := trim (x_dims z) outer.
  Let a := List.length outer.
  Let q := List.length l.
  Let C := seq q (List.length cs).
  Hypothesis Pz : placed z (l ++ cs) tz.

  Lemma acc_ndim : tndim tz = q + List.length cs.
  Proof. unfold tndim. destruct Pz as (_ & E & _). rewrite E, map_length, app_length. reflexivity. Qed.
  Lemma acc_le : q <= a.
  Proof. unfold q, a, l. destruct (trim_spec (x_dims z) outer) as (pre & E & _). rewrite E at 2. rewrite app_length. lia. Qed.
  Lemma acc_nth p : p < q -> nth (a - q + p) outer "" = nth p l "".
  Proof.
    intros H. unfold l, a in *. destruct (trim_spec (x_dims z) outer) as (pre & E & _). fold l in E.
    assert (La : List.length outer = List.length pre + q) by (unfold q; rewrite <- app_length; f_equal; exact E).
    rewrite La. replace (List.length pre + q - q + p) with (List.length pre + p) by lia. rewrite E at 1. rewrite app_nth2 by lia. f_equal. lia.
  Qed.
  Lemma acc_in p : p < q -> In (nth p l "") outer.
  Proof. intros H. rewrite <- acc_nth by exact H. apply nth_In. pose proof acc_le. fold a. lia. Qed.
  Lemma acc_with p : p < q -> aligned_with tz C (seq 0 a) p = a - q + p.
  Proof.
    intros H. unfold aligned_with. rewrite acc_ndim. unfold C. rewrite except_seq_last, !seq_length, index_of_front by exact H. pose proof acc_le. rewrite seq_nth by lia. reflexivity.
  Qed.
  Lemma acc_shape p : p < q + List.length cs -> shape_of tz p = sizes_of z (nth p (l ++ cs) "").
  Proof. intros H. unfold shape_of. destruct Pz as (_ & E & _). rewrite E. apply nth_map_dims. now rewrite app_length. Qed.
  Lemma acc_cores : map (shape_of tz) C = map (dim_size z) cs.
  Proof.
    unfold C. rewrite map_seq_shift, (map_named (dim_size z) cs). apply map_ext_in. intros k Hk. apply in_seq in Hk. rewrite acc_shape by lia.
    rewrite app_nth2 by (fold q; lia). fold q. replace (q + k - q) with k by lia. unfold sizes_of. assert (S : smem (nth k cs "") (x_dims z) = true) by (apply smem_In, I2, nth_In; lia). now rewrite S.
  Qed.
  Lemma acc_aligns (shape : nat -> nat) : (forall k, k < a -> In (nth k outer "") (x_dims z) -> dim_size z (nth k outer "") = shape k) -> aligns tz C (seq 0 a) shape.
  Proof.
    intros H. unfold aligns. cbv zeta. rewrite acc_ndim. unfold C at 3 4. rewrite except_seq_last, !seq_length. split; [apply Pz|]. split; [apply seq_NoDup|]. split; [intros c Hc; apply in_seq in Hc; lia|]. split; [apply acc_le|].
    intros p Hp. apply in_seq in Hp. rewrite acc_with by lia. rewrite acc_shape, app_nth1 by (fold q; lia). unfold sizes_of. rewrite <- acc_nth by lia.
    destruct (smem _ _) eqn:S; [|now right]. left. apply H; [pose proof acc_le; lia|now apply smem_In].
  Qed.
  Lemma acc_entry e env c : (forall k, k < a -> e k = env (nth k outer "")) -> (forall n, In n outer -> In n (x_dims z) -> env n < dim_size z n) ->
    valid (map (dim_size z) cs) c -> aligned_entry tz C (seq 0 a) e c = x_at z (name_bind cs c env).
  Proof.
    intros He Hi Hc. set (env' := name_bind cs c env). apply NoDup_app_iff in N. destruct N as (N1 & N2 & N3).
    assert (Lc : List.length c = List.length cs) by (apply valid_length in Hc; now rewrite map_length in Hc).
    assert (Eo : forall n, In n outer -> env' n = env n) by (intros n Hn; apply name_bind_out; auto).
    assert (Ec : forall k, k < List.length cs -> env' (nth k cs "") = nth k c 0) by (intros k Hk; apply name_bind_in; auto).
    assert (In' : x_inside z env').
    { intros n Hn. destruct (in_app_or _ _ _ (I1 n Hn)) as [Ho|Ho]; [rewrite Eo by exact Ho; now apply Hi|]. destruct (pos_lt cs n Ho) as [P1 P2]. rewrite <- P2, Ec by exact P1. rewrite <- nth_map_dims by exact P1. apply valid_nth; [exact Hc|]. now rewrite map_length. }
    destruct Pz as (_ & _ & G). rewrite <- (G env' In'). unfold aligned_entry, entry. f_equal. rewrite acc_ndim, seq_app, !map_app. f_equal.
    - rewrite (map_named (idx_of z env') l). fold q. apply map_ext_in. intros p Hp. apply in_seq in Hp. rewrite bind_out by (unfold C; rewrite in_seq; lia).
      rewrite acc_with by lia. rewrite acc_shape, app_nth1 by (fold q; lia). pose proof acc_le. rewrite He by lia. rewrite acc_nth by lia. unfold sizes_of, idx_of.
      destruct (smem _ _) eqn:S; [|reflexivity]. rewrite Eo by (apply acc_in; lia). destruct (Nat.eqb_spec (dim_size z (nth p l "")) 1) as [E1|_]; [|reflexivity].
      pose proof (Hi (nth p l "") (acc_in p ltac:(lia)) (proj1 (smem_In _ _) S)). lia.
    - cbn [Nat.add]. fold C. rewrite (map_named (idx_of z env') cs). unfold C. rewrite map_seq_shift. apply map_ext_in. intros k Hk. apply in_seq in Hk. rewrite bind_in; [|apply seq_NoDup|now rewrite seq_length|rewrite in_seq; lia].
      unfold idx_of. assert (S : smem (nth k cs "") (x_dims z) = true) by (apply smem_In, I2, nth_In; lia). rewrite S, Ec by lia.
      f_equal. clear - Hk. assert (X : forall n s k, k < n -> index_of (s + k) (seq s n) = k). { clear. induction n as [|n IH]; intros s k H; [lia|]. unfold index_of in *. cbn [seq position]. destruct k as [|k]; [rewrite Nat.add_0_r, Nat.eqb_refl; reflexivity|]. destruct (Nat.eqb_spec (s + S k) s); [lia|]. f_equal. replace (s + S k) with (S s + k) by lia. apply IH. lia. }
      apply X. lia.
  Qed.
End Accompany.

(* ---- sizes that do not agree ----------------------------------------------------------------------------- *)

Lemma unified_err excl xs e : unified_dim_sizes excl xs = Raise e -> e = EValue.
Proof.
  unfold unified_dim_sizes. generalize (@nil (sname * nat)). induction xs as [|z l IH]; intros s H; [discriminate|]. cbn [foldR] in H. destruct (sdup (x_dims z)); [cbn in H; congruence|].
  destruct (foldR (unify_dim excl) (combine (x_dims z) (x_shape z)) s) as [s'|] eqn:G; cbn [rbind] in H; [eauto|]. injection H as <-. now apply unify_err in G.
Qed.
Lemma unify_known excl l acc s : foldR (unify_dim excl) l acc = Ok s -> forall n k, ~ In n excl -> lookup n acc = Some k -> lookup n s = Some k /\ forall k', In (n, k') l -> k' = k.
Proof.
  revert acc s. induction l as [|p l IH]; intros acc s H n k He L; [injection H as <-; split; [exact L|intros k' []]|]. cbn [foldR] in H. unfold unify_dim at 1 in H.
  destruct (smem (fst p) excl) eqn:S.
  - cbn [rbind] in H. destruct (IH _ _ H n k He L) as [I1 I2]. split; [exact I1|]. intros k' [->|I]; [|auto]. cbn in S. apply smem_In in S. tauto.
  - destruct (lookup (fst p) acc) as [m|] eqn:Lp.
    + destruct (Nat.eqb_spec m (snd p)); [|discriminate]. cbn [rbind] in H. destruct (IH _ _ H n k He L) as [I1 I2]. split; [exact I1|]. intros k' [->|I]; [cbn in *; congruence|auto].
    + cbn [rbind] in H. assert (L' : lookup n (acc ++ [p]) = Some k).
      { unfold lookup in *. clear - L. induction acc as [|[n' v] acc IHa]; [discriminate|]. cbn [find app fst] in *. destruct (String.eqb n' n); [exact L|auto]. }
      destruct (IH _ _ H n k He L') as [I1 I2]. split; [exact I1|]. intros k' [->|I]; [cbn in Lp; congruence|auto].
Qed.
Lemma unify_adds excl l acc s : foldR (unify_dim excl) l acc = Ok s -> forall n k, ~ In n excl -> In (n, k) l -> lookup n s = Some k.
Proof.
  revert acc s. induction l as [|p l IH]; intros acc s H n k He I; [destruct I|]. cbn [foldR] in H. destruct (unify_dim excl acc p) as [acc'|] eqn:U; [|discriminate]. cbn [rbind] in H.
  destruct I as [->|I]; [|eauto]. eapply unify_known; [exact H|exact He|]. unfold unify_dim in U. cbn [fst snd] in U. destruct (smem n excl) eqn:S; [apply smem_In in S; tauto|].
  destruct (lookup n acc) as [m|] eqn:L; [destruct (Nat.eqb_spec m k); [|discriminate]; congruence|]. injection U as <-. unfold lookup in *. clear - L. induction acc as [|[n' v] acc IHa]; cbn [find app fst snd] in *; [now rewrite String.eqb_refl|].
  destruct (String.eqb n' n); [discriminate|auto].
Qed.
Lemma unified_conflict excl xs x z n : In x xs -> In z xs -> x_ok x -> x_ok z -> In n (x_dims x) -> In n (x_dims z) -> ~ In n excl -> dim_size x n <> dim_size z n ->
  unified_dim_sizes excl xs = Raise EValue.
Proof.
  intros Ix Iz Hx Hz Nx Nz He D. destruct (unified_dim_sizes excl xs) as [s|e] eqn:U; [|f_equal; now apply unified_err in U]. exfalso. apply D.
  assert (X : forall xs acc s, foldR (fun sz x => if sdup (x_dims x) then Raise EValue else foldR (unify_dim excl) (combine (x_dims x) (x_shape x)) sz) xs acc = Ok s ->
    (forall n k, ~ In n excl -> lookup n acc = Some k -> lookup n s = Some k) /\ forall x, In x xs -> x_ok x -> In n (x_dims x) -> lookup n s = Some (dim_size x n)).
  { clear - He. induction xs as [|y xs IH]; intros acc s H; [injection H as <-; split; [auto|intros x []]|]. cbn [foldR] in H. destruct (sdup (x_dims y)); [discriminate|].
    destruct (foldR (unify_dim excl) (combine (x_dims y) (x_shape y)) acc) as [acc'|] eqn:G; [|discriminate]. cbn [rbind] in H. destruct (IH _ _ H) as [J1 J2]. split.
    - intros m k Hm L. apply J1; [exact Hm|]. now apply (unify_known _ _ _ _ G m k).
    - intros x [->|I] Hx Hn; [|now apply J2]. apply J1; [exact He|]. apply (unify_adds _ _ _ _ G); [exact He|]. rewrite (combine_named x Hx). apply in_map_iff. now exists n. }
  destruct (X _ _ _ U) as [_ J]. pose proof (J x Ix Hx Nx) as E1. pose proof (J z Iz Hz Nz) as E2. congruence.
Qed.
Lemma apply_ufunc_conflict {T} (args : list (xop * list sname)) out_core excl (f : list tensor -> res (grid T)) x z n :
  In x (labelled_of (map fst args)) -> In z (labelled_of (map fst args)) -> x_ok x -> x_ok z -> In n (x_dims x) -> In n (x_dims z) -> ~ In n excl -> dim_size x n <> dim_size z n ->
  apply_ufunc args out_core excl f = Raise EValue.
Proof. intros. unfold apply_ufunc. rewrite (unified_conflict excl _ x z n) by assumption. reflexivity. Qed.
(* an array with a dimension that is a core dimension of another one only *)
Lemma broadcast_extra bdims core x n : In n (x_dims x) -> ~ In n bdims -> ~ In n core -> broadcast_compat bdims core x = Raise EValue.
Proof.
  intros I1 I2 I3. assert (Q : ~ In n (bdims ++ core)) by (rewrite in_app_iff; tauto). unfold broadcast_compat. destruct (list_eq_dec string_dec _ _) as [E|_]; [exfalso; apply Q; now rewrite E|].
  destruct (existsb _ _) eqn:X; [reflexivity|]. exfalso. rewrite <- Bool.not_true_iff_false in X. apply X. apply existsb_exists. exists n. split; [exact I1|]. apply Bool.negb_true_iff, smem_false. exact Q.
Qed.
(* an array whose core dimensions are its own *)
Lemma outer_broadcast excl core xs x c : x_ok x -> In x xs -> incl c core -> NoDup c -> incl c (x_dims x) ->
  (forall n, In n (x_dims x) -> In n core \/ In n excl -> In n c) -> exists t, broadcast_compat (outer_dims excl core xs) c x = Ok t.
Proof.
  intros Hx Ix I1 N I2 H. 
  assert (Nd : NoDup (filter (fun n => smem n (x_dims x)) (outer_dims excl core xs) ++ c)).
  { apply NoDup_app_iff. split; [apply NoDup_filter, NoDup_filter, first_seen_NoDup|]. split; [exact N|]. intros n Hn Hc. apply filter_In in Hn. destruct Hn as [Hn _]. apply except_name_In in Hn. destruct Hn as [_ Hn]. apply Hn. now apply I1. }
  destruct (broadcast_placed x (outer_dims excl core xs) c Hx) as (t & E & _).
  - apply NoDup_app_iff. split; [apply NoDup_filter, first_seen_NoDup|]. split; [exact N|]. intros n Hn Hc. apply except_name_In in Hn. destruct Hn as [_ Hn]. apply Hn. now apply I1.
  - intros n Hn. apply in_or_app. destruct (in_dec string_dec n c) as [Q|Q]; [now right|left]. unfold outer_dims. rewrite except_name_In, first_seen_In, except_name_In, in_flat_map. split; [split; [exists x; auto|]|]; intros Q'; apply Q, H; auto.
  - exact I2.
  - eauto.
Qed.
(* arrays agree about sizes, or two of them do not *)
Lemma agree_dec excl x z : x_ok x -> x_ok z -> (exists n, In n (x_dims x) /\ In n (x_dims z) /\ ~ In n excl /\ dim_size x n <> dim_size z n) \/
  agree excl (fun n => if in_dec string_dec n (x_dims x) then dim_size x n else dim_size z n) [x; z].
Proof.
  intros Hx Hz. destruct (existsb (fun n => smem n (x_dims z) && negb (smem n excl) && negb (Nat.eqb (dim_size x n) (dim_size z n)))%bool (x_dims x)) eqn:E.
  - left. apply existsb_exists in E. destruct E as (n & I & E). apply Bool.andb_true_iff in E. destruct E as [E E3]. apply Bool.andb_true_iff in E. destruct E as [E1 E2]. exists n. split; [exact I|]. split; [now apply smem_In|].
    split; [now apply smem_false, Bool.negb_true_iff|]. apply Bool.negb_true_iff, Nat.eqb_neq in E3. exact E3.
  - right. intros y [<-|[<-|[]]].
    + split; [exact Hx|]. intros n Hn _. destruct (in_dec string_dec n (x_dims x)); tauto.
    + split; [exact Hz|]. intros n Hn He. destruct (in_dec string_dec n (x_dims x)) as [I|I]; [|reflexivity]. destruct (Nat.eq_dec (dim_size x n) (dim_size z n)) as [Q|Q]; [congruence|]. exfalso. rewrite <- Bool.not_true_iff_false in E. apply E.
      apply existsb_exists. exists n. split; [exact I|]. rewrite !Bool.andb_true_iff. split; [split; [now apply smem_In|now apply Bool.negb_true_iff, smem_false]|]. now apply Bool.negb_true_iff, Nat.eqb_neq.
Qed.
(* a first array that fits, and a second one with a core dimension of the first *)
Lemma apply_ufunc_taken {T} x z c cz out_core (f : list tensor -> res (grid T)) n : x_ok x -> x_ok z -> NoDup c -> incl c (x_dims x) -> 
  (forall m, In m (x_dims x) -> In m (cz ++ out_core) -> In m c) -> In n c \/ In n cz \/ In n out_core -> In n (x_dims z) -> ~ In n cz ->
  apply_ufunc [(Labelled x, c); (Labelled z, cz)] out_core [] f = Raise EValue.
Proof.
  intros Hx Hz N I H Hn Iz Nz. unfold apply_ufunc. cbn [map fst labelled_of flat_map app snd]. destruct (agree_dec [] x z Hx Hz) as [(m & M1 & M2 & M3 & M4)|Ag].
  { rewrite (unified_conflict [] [x; z] x z m); cbn; auto. }
  rewrite (unified_ok _ _ _ Ag). cbn [rbind]. rewrite map_map. cbn [fst]. rewrite map_id, filter_names, app_nil_r.
  set (core := ((c ++ cz) ++ out_core)%list). change (except_name (first_seen (except_name (flat_map x_dims [x; z]) [])) core) with (outer_dims [] core [x; z]).
  destruct (outer_broadcast [] core [x; z] x c) as (t & E); auto.
  - now left.
  - intros m Hm. unfold core. rewrite !in_app_iff. auto.
  - intros m Hm [Q|[]]. unfold core in Q. rewrite <- app_assoc in Q. apply in_app_or in Q. destruct Q as [Q|Q]; [exact Q|]. now apply H.
  - cbn [mapR fst snd]. rewrite E. cbn [rbind]. rewrite (broadcast_extra _ cz z n Iz); [reflexivity| |exact Nz]. unfold outer_dims. rewrite except_name_In. intros [_ Q]. apply Q. unfold core. rewrite !in_app_iff. tauto.
Qed.
