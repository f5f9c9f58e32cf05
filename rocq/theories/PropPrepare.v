(* The arrays allocated for results have the shape of the result, whatever order= says, and the
   groups written into them do not depend on it (C193, C194). *)
From Coq Require Import Permutation.
From Verif Require Import Base BaseLemmas ModelPush ModelPushCov ModelKernels ModelIndex ModelAxes ModelState ModelParams ModelNd ModelPrepare Spec SpecAxes SpecNd
  ProofPush ProofPushCov Laws ProofKernels ProofSpec ProofIndex ProofLabels ProofAxes ProofArrays ProofMulti ProofNd Checks PropAxes PropNd PropParams PropWrap.

(* the shape s with size new along axis a *)
Definition with_size (s : list nat) (a new : nat) : list nat := map (fun b => if Nat.eqb b a then new else nth b s 0) (seq 0 (length s)).

Lemma nth_tab (f : nat -> nat) n i : i < n -> nth i (map f (seq 0 n)) 0 = f i.
Proof. intros H. rewrite (nth_indep _ 0 (f 0)) by (rewrite map_length, seq_length; exact H). rewrite map_nth, seq_nth by exact H. reflexivity. Qed.
Lemma seq_shift_n k n : map (fun p => k + p) (seq 0 n) = seq k n.
Proof. revert k. induction n as [|n IH]; intros k; [reflexivity|]. cbn [seq map]. rewrite Nat.add_0_r. f_equal. rewrite <- (IH (S k)), <- seq_shift, map_map. apply map_ext. intros p. lia. Qed.
Lemma with_size_split s a new : a < length s -> with_size s a new = firstn a s ++ new :: skipn (S a) s.
Proof.
  intros H. apply (nth_ext _ _ 0 0).
  - unfold with_size. rewrite map_length, seq_length, app_length. cbn [length]. rewrite firstn_length, skipn_length. lia.
  - unfold with_size. rewrite map_length, seq_length. intros i Hi. rewrite nth_tab by exact Hi. destruct (Nat.eqb_spec i a) as [->|Ne].
    + rewrite app_nth2; rewrite firstn_length; [|lia]. replace (a - Nat.min a (length s)) with 0 by lia. reflexivity.
    + destruct (Nat.lt_ge_cases i a).
      * rewrite app_nth1 by (rewrite firstn_length; lia). rewrite <- (firstn_skipn a s) at 1. now rewrite app_nth1 by (rewrite firstn_length; lia).
      * rewrite app_nth2; rewrite firstn_length; [|lia]. replace (i - Nat.min a (length s)) with (S (i - S a)) by lia. cbn [nth].
        rewrite <- (firstn_skipn (S a) s) at 1. rewrite app_nth2 by (rewrite firstn_length; lia). rewrite firstn_length. f_equal. lia.
Qed.
Lemma replaced_shape_ok s za a new : is_axis (length s) za a -> za <> (-1)%Z -> replaced_shape s za new = with_size s a new.
Proof.
  intros [H [-> | ->]] Ne; rewrite (with_size_split s a new H); unfold replaced_shape, slice_bound.
  - destruct (Z.ltb_spec (Z.of_nat a) 0); [lia|]. destruct (Z.ltb_spec (Z.of_nat a + 1) 0); [lia|]. do 2 f_equal; [lia|]. f_equal. f_equal. lia.
  - destruct (Z.ltb_spec (Z.of_nat a - Z.of_nat (length s)) 0); [|lia]. destruct (Z.ltb_spec (Z.of_nat a - Z.of_nat (length s) + 1) 0); [|lia]. do 2 f_equal; [lia|]. f_equal. f_equal. lia.
Qed.

(* the shape after moveaxis: S goes to D, the other axes stay in order *)
Lemma moved_shape_ok os (sh : nat -> nat) (S D : list nat) zs zd : let n := length os in Forall2 (is_axis n) zs S -> Forall2 (is_axis n) zd D -> NoDup S -> NoDup D ->
  Forall2 (fun s d => nth s os 0 = sh d) S D -> map (fun a => nth a os 0) (except_nat (seq 0 n) S) = map sh (except_nat (seq 0 n) D) ->
  moved_shape os zs zd = Ok (map sh (seq 0 n)).
Proof.
  intros n Fs Fd Ns Nd F1 F2. unfold moved_shape, moveaxis_order. fold n. rewrite (normalize_ints _ _ _ Fs Ns). cbn [rbind]. rewrite (normalize_ints _ _ _ Fd Nd). cbn [rbind].
  assert (Bs : forall zs l, Forall2 (is_axis n) zs l -> forall a, In a l -> a < n).
  { clear. intros zs l F. induction F as [|z a zs l A F IH]; intros b Hb; [destruct Hb|]. destruct Hb as [<-|Hb]; [apply A|now apply IH]. }
  assert (Ll : length S = length D) by (clear - F1; induction F1; cbn; congruence).
  destruct (moveaxis_core_moves n S D Ll Ns Nd (Bs _ _ Fs) (Bs _ _ Fd)) as (order & Eo & Mo). rewrite Eo. cbn [rbind]. f_equal.
  pose proof (moves_except _ _ _ _ Nd (Bs _ _ Fd) Mo) as Ex. destruct Mo as (Pm & F & E2). assert (Lo : length order = n) by (rewrite (Permutation_length Pm); apply seq_length).
  rewrite <- (map_nth_seq order 0 n) by now symmetry. rewrite map_map. apply map_ext_in. intros p Hp. destruct (in_dec Nat.eq_dec p D) as [I|I].
  - clear - F F1 I. revert F1. induction F as [|s d S D A F IH]; intros F1; [destruct I|]. inversion F1 as [|? ? ? ? B F1']; subst. destruct I as [->|I]; [now rewrite (nth_error_nth _ _ 0 A)|now apply IH].
  - rewrite <- E2, Ex, map_map in F2. apply (ext_in_map F2). apply except_In. split; [exact Hp|exact I].
Qed.

(* C193: the array for the groups *)
Theorem grouped_out_shape_ok : forall s mom M za a new order, Forall2 (is_axis (length s)) (za :: mom) (a :: M) -> NoDup (a :: M) -> za <> (-1)%Z ->
  grouped_out_shape s mom za new order = Ok (with_size s a new).
Proof.
  intros s mom M za a new order F N Ne. inversion F as [|? ? ? ? Fa FM]; subst. unfold grouped_out_shape. destruct order as [o|]; [now rewrite (replaced_shape_ok _ _ _ _ Fa Ne)|].
  destruct (list_eq_dec Z.eq_dec _ _) as [_|_]; [now rewrite (replaced_shape_ok _ _ _ _ Fa Ne)|].
  set (n := length s) in *. rewrite (normalize_ints _ _ _ F N). cbn [rbind]. unfold get_mom_shape, iter_axes. cbn [ap_axes rbind]. rewrite (py_get_axes s mom M FM). cbn [rbind].
  rewrite except_filter. set (sh := fun b => if Nat.eqb b a then new else nth b s 0).
  assert (Na : ~ In a M) by now inversion N. assert (Lm : length mom = length M) by (clear - FM; induction FM; cbn; congruence).
  assert (Bd : forall b, In b (a :: M) -> b < n).
  { clear - F. remember (za :: mom) as l. remember (a :: M) as r. clear Heql Heqr. induction F as [|z c l r A F IH]; intros b Hb; [destruct Hb|]. destruct Hb as [<-|Hb]; [apply A|now apply IH]. }
  assert (Ld : S (length M) <= n) by (change (S (length M)) with (length (a :: M)); rewrite <- (seq_length n 0); apply NoDup_incl_length; [exact N|intros b Hb; apply in_seq; specialize (Bd b Hb); lia]).
  assert (E1 : map (fun i => nth i s 0) (except_nat (seq 0 n) (a :: M)) = map sh (except_nat (seq 0 n) (a :: M))).
  { apply map_ext_in. intros b Hb. apply except_In in Hb. unfold sh. destruct (Nat.eqb_spec b a) as [->|]; [|reflexivity]. exfalso. apply (proj2 Hb). now left. }
  assert (E2 : new :: map (fun i => nth i s 0) M = map sh (a :: M)).
  { cbn [map]. unfold sh at 1. rewrite Nat.eqb_refl. f_equal. apply map_ext_in. intros b Hb. unfold sh. destruct (Nat.eqb_spec b a) as [->|]; [tauto|reflexivity]. }
  rewrite E1, E2.
  assert (Le : length (except_nat (seq 0 n) (a :: M)) = n - S (length M)).
  { pose proof (except_length (seq 0 n) (a :: M) (seq_NoDup _ _) N) as E. rewrite seq_length in E. assert (length (except_nat (seq 0 n) (a :: M)) + length (a :: M) = n) by (apply E; intros b Hb; apply in_seq; specialize (Bd b Hb); lia). cbn [length] in *. lia. }
  set (os := map sh (except_nat (seq 0 n) (a :: M)) ++ map sh (a :: M)). assert (Los : length os = n) by (unfold os; rewrite app_length, !map_length, Le; cbn [length]; lia).
  pose proof (moved_shape_ok os sh (seq (n - S (length M)) (S (length M))) (a :: M) ((Z.of_nat n - (Z.of_nat (length mom) + 1))%Z :: axes_last (length mom)) (map Z.of_nat (a :: M))) as X.
  cbv zeta in X. rewrite Los in X. unfold with_size. fold n. fold sh. apply X; clear X.
  - cbn [seq]. constructor; [split; [lia|left; lia]|]. rewrite Lm. replace (S (n - S (length M))) with (n - length M) by lia. apply axes_last_named. lia.
  - clear - Bd. induction (a :: M) as [|b l IH]; cbn [map]; constructor; [split; [apply Bd; now left|now left]|]. apply IH. intros c Hc. apply Bd. now right.
  - apply seq_NoDup.
  - exact N.
  - assert (G : forall l k pre, length pre = k -> Forall2 (fun s d => nth s (pre ++ map sh l) 0 = sh d) (seq k (length l)) l).
    { induction l as [|b l IH]; intros k pre Hk; cbn [seq length map]; constructor; [rewrite app_nth2 by lia; now replace (k - length pre) with 0 by lia|].
      replace (pre ++ sh b :: map sh l) with ((pre ++ [sh b]) ++ map sh l) by (now rewrite <- app_assoc). apply IH. rewrite app_length. cbn. lia. }
    unfold os. change (S (length M)) with (length (a :: M)). apply G. rewrite map_length. exact Le.
  - rewrite seq_split_last by exact Ld. unfold os. set (l1 := map sh (except_nat (seq 0 n) (a :: M))). assert (L1 : n - S (length M) = length l1) by (unfold l1; rewrite map_length; now symmetry). rewrite L1.
    transitivity (map (fun i => nth i l1 0) (seq 0 (length l1))); [|now apply map_nth_seq]. apply map_ext_in. intros i Hi. apply in_seq in Hi. apply app_nth1. lia.
Qed.

(* C193: the array for values *)
Theorem values_out_shape_ok : forall args ms axis_neg new order, values_out_shape args ms axis_neg new order = out_from_values args ms axis_neg new.
Proof.
  intros [|x rest] ms axis_neg new order; [reflexivity|]. unfold values_out_shape, out_from_values. destruct (broadcast_shapes _) as [v|e]; [|reflexivity]. cbn [rbind].
  destruct (np_normalize_axis_index axis_neg (Z.of_nat (length v))) as [a|e] eqn:Ea; [|reflexivity]. cbn [rbind]. apply np_normalize_ok in Ea. destruct Ea as [Ha _].
  destruct new as [k|]; [|reflexivity]. destruct (_ || _)%bool; [reflexivity|].
  set (n := length v + length ms). set (m := length ms). set (pre := firstn a v). set (post := skipn (S a) v).
  assert (Lp : length pre = a) by (unfold pre; rewrite firstn_length; lia). assert (Lq : length post = length v - S a) by (unfold post; now rewrite skipn_length).
  set (os := pre ++ post ++ [k] ++ ms). assert (Los : length os = n) by (unfold os, n; rewrite !app_length, Lp, Lq; cbn; lia).
  set (goal := pre ++ [k] ++ post ++ ms). assert (Lg : length goal = n) by (unfold goal, n; rewrite !app_length, Lp, Lq; cbn; lia).
  set (sh := fun p => nth p goal 0).
  pose proof (moved_shape_ok os sh [length v - 1] [a] [(- (Z.of_nat m + 1))%Z] [Z.of_nat a]) as X. cbv zeta in X. rewrite Los in X.
  replace (Ok goal) with (Ok (map sh (seq 0 n))) by (f_equal; unfold sh; apply map_nth_seq; now symmetry). apply X; clear X.
  - constructor; [|constructor]. unfold n, m. split; [lia|right; lia].
  - constructor; [|constructor]. unfold n. split; [lia|now left].
  - repeat constructor; intros [].
  - repeat constructor; intros [].
  - constructor; [|constructor]. unfold sh, goal, os. rewrite app_nth2 by lia. rewrite app_nth2 by lia. replace (length v - 1 - length pre - length post) with 0 by lia. cbn. rewrite app_nth2 by lia. now replace (a - length pre) with 0 by lia.
  - assert (Ex : forall l q, q < length l -> map (fun p => nth p l 0) (except_nat (seq 0 (length l)) [q]) = firstn q l ++ skipn (S q) l).
    { clear. intros l q Hq. assert (Sp : seq 0 (length l) = seq 0 q ++ q :: seq (S q) (length l - S q)).
      { pose proof (seq_app q (length l - q) 0) as Q. cbn [plus] in Q. replace (q + (length l - q)) with (length l) in Q by lia. rewrite Q. f_equal. replace (length l - q) with (S (length l - S q)) by lia. reflexivity. }
      rewrite Sp, except_app. replace (q :: seq (S q) (length l - S q)) with ([q] ++ seq (S q) (length l - S q)) by reflexivity. rewrite except_app.
      rewrite (except_none _ (seq 0 q)), (except_all _ [q]), (except_none _ (seq (S q) _)); [|intros y Hy [<-|[]]; apply in_seq in Hy; lia|auto|intros y Hy [<-|[]]; apply in_seq in Hy; lia].
      cbn [app]. rewrite map_app. f_equal.
      - apply (nth_ext _ _ 0 0); [rewrite map_length, seq_length, firstn_length; lia|]. rewrite map_length, seq_length. intros i Hi. rewrite (nth_tab (fun p => nth p l 0)) by exact Hi. rewrite <- (firstn_skipn q l) at 1. rewrite app_nth1 by (rewrite firstn_length; lia). reflexivity.
      - rewrite <- seq_shift_n. apply (nth_ext _ _ 0 0); [rewrite !map_length, seq_length, skipn_length; lia|]. rewrite !map_length, seq_length, map_map. intros i Hi. rewrite (nth_tab (fun p => nth (S q + p) l 0)) by exact Hi. now rewrite nth_skipn'. }
    rewrite <- Los at 1. rewrite Ex by (rewrite Los; unfold n; lia). unfold sh. rewrite <- Lg. rewrite Ex by (rewrite Lg; unfold n; lia).
    assert (C : forall (u w : list nat) c, firstn (length u) (u ++ c :: w) ++ skipn (S (length u)) (u ++ c :: w) = u ++ w).
    { clear. induction u as [|y u IH]; intros w c; cbn; [reflexivity|]. f_equal. apply IH. }
    unfold os, goal. replace (firstn a) with (@firstn nat (length pre)) by now rewrite Lp. replace (skipn (S a)) with (@skipn nat (S (length pre))) by now rewrite Lp. cbn [app]. rewrite (C pre (post ++ ms) k). rewrite app_assoc. replace (length v - 1) with (length (pre ++ post)) by (rewrite app_length, Lp, Lq; lia). rewrite C. now rewrite <- app_assoc.
Qed.

Lemma index_of_sizes (sh : nat -> nat) ax a new : NoDup ax -> In a ax -> with_size (map sh ax) (index_of a ax) new = map (fun b => if Nat.eqb b a then new else sh b) ax.
Proof.
  intros N I. unfold with_size. rewrite map_length. transitivity (map (fun b => if Nat.eqb b a then new else sh b) (map (fun p => nth p ax 0) (seq 0 (length ax)))); [|now rewrite map_nth_seq].
  rewrite map_map. apply map_ext_in. intros p Hp. apply in_seq in Hp. destruct (index_of_lt a ax I) as [L E]. destruct (Nat.eqb_spec p (index_of a ax)) as [->|Ne].
  - now rewrite E, Nat.eqb_refl.
  - destruct (Nat.eqb_spec (nth p ax 0) a) as [Q|_]; [exfalso; apply Ne; apply (proj1 (NoDup_nth ax 0) N); [lia|exact L|congruence]|].
    rewrite (nth_indep _ 0 (sh 0)) by (rewrite map_length; lia). apply map_nth.
Qed.

Lemma broadcast_same s : broadcast_shapes [s; s] = Ok s.
Proof.
  assert (G : forall l, bcast_rev l l = Ok l) by (induction l as [|x l IH]; cbn; [reflexivity|]; rewrite Nat.eqb_refl, IH; reflexivity).
  assert (G0 : forall l, bcast_rev l [] = Ok l) by (intros [|x l]; reflexivity).
  unfold broadcast_shapes. cbn [foldR]. unfold bcast. cbn [rev]. 
  repeat (rewrite ?G, ?G0, ?rev_involutive; cbn [rbind rev bcast_rev]). reflexivity.
Qed.
(* C194 *)
Theorem grouped_alloc : forall {A V} (K : pusher A V) ok P, moment_array K ok P ->
  forall by_ mom_axes axis to_end a M t, axis_of_moments P mom_axes axis a M t ->
  (forall order, match zmax by_ with
  | Ok mx =>
      (length by_ = shape_of t a -> (-1 <= mx)%Z ->
       by_columns_t (pk_unpack P) (fun env => reduce_data_grouped K by_ (rows_along P t [a] M env))
         to_end (Z.to_nat (mx + 1)) a M t (reduce_data_grouped_alloc K P order by_ axis mom_axes to_end t)) /\
      (length by_ <> shape_of t a \/ (mx < -1)%Z -> reduce_data_grouped_alloc K P order by_ axis mom_axes to_end t = Raise EValue)
  | Raise _ => reduce_data_grouped_alloc K P order by_ axis mom_axes to_end t = Raise EValue
  end) /\
  forall order order', reduce_data_grouped_alloc K P order by_ axis mom_axes to_end t = reduce_data_grouped_alloc K P order' by_ axis mom_axes to_end t.
Proof.
  intros A V K ok P HM by_ mom_axes axis to_end a M t HA. pose proof (ma_packer _ _ _ HM) as HP.
  destruct (prepare_data_view P mom_axes axis to_end a M t HA) as (za & mom' & t' & E & VW & F & Eza). cbv zeta in VW, F, Eza.
  set (ax := column_axes to_end (tndim t) a M) in *.
  assert (Nx : NoDup ax) by apply (col_ax_NoDup P mom_axes axis to_end a M t HA). assert (Ix : incl (a :: M) ax) by apply (col_incl P mom_axes axis to_end a M t HA).
  assert (Shape : forall new order, grouped_out_shape (tshape t') mom' za new order = Ok (map (fun b => if Nat.eqb b a then new else shape_of t b) ax)).
  { intros new order. destruct VW as (_ & Hs & _). assert (Ln : length (tshape t') = tndim t) by (rewrite Hs, map_length; apply (col_ax_length P mom_axes axis to_end a M t HA)).
    rewrite (grouped_out_shape_ok (tshape t') mom' (map (fun c => index_of c ax) M) za (index_of a ax) new order); [| |apply (ProofNd.positions_NoDup ax (a :: M)); [apply HA|exact Ix]|rewrite Eza; lia].
    - rewrite Hs. now rewrite (index_of_sizes (shape_of t) ax a new Nx (Ix a (or_introl eq_refl))).
    - rewrite Ln. exact F. }
  split.
  2: { intros order order'. unfold reduce_data_grouped_alloc. rewrite E. cbn [rbind]. destruct (negb _); [reflexivity|]. destruct (zmax by_) as [mx|e]; [|reflexivity]. cbn [rbind]. destruct (mx + 1 <? 0)%Z; [reflexivity|]. now rewrite !Shape. }
  intros order. unfold reduce_data_grouped_alloc. rewrite E. cbn [rbind].
  rewrite (col_dim P mom_axes axis to_end a M t t' za HA VW Eza).
  destruct (zmax by_) as [mx|e] eqn:Ez.
  2: { destruct by_; [|discriminate]. injection Ez as <-. cbn. destruct (shape_of t a); reflexivity. }
  cbn [rbind]. split.
  - intros HL Hmx. rewrite HL, Nat.eqb_refl. cbn [negb]. destruct (Z.ltb_spec (mx + 1) 0); [lia|]. rewrite Shape. cbn [rbind]. apply by_columns_to_t.
    apply (by_columns_ext _ _ (fun env => of_opt EZeroDiv (reduce_data_grouped_into K (combine by_ (rows_along P t [a] M env)) (repeat (p_zero K) (Z.to_nat (mx + 1)))))).
    { intros env _. unfold reduce_data_grouped. assert (Lr : length (rows_along P t [a] M env) = shape_of t a).
      { unfold rows_along. rewrite map_length, all_idx_length. cbn. lia. }
      rewrite Lr, HL, Nat.eqb_refl. cbn [negb]. destruct by_ as [|b l]; [discriminate|]. cbn in Ez. injection Ez as Ez. rewrite Ez.
      destruct (Z.ltb_spec (mx + 1) 0); [lia|reflexivity]. }
    pose proof (col_operand P mom_axes axis to_end a M t t' za mom' HA VW F) as CO.
    apply (columns_inout P mom_axes axis to_end a M t za mom' HA F 0%Qc (pk_unpack P) (row_elem K P) (row_elem_val K P) _ [named (t', za :: mom') ax (a :: M)]).
    + cbn [mapR]. pose proof (operand_core_axes _ _ _ _ _ _ _ CO) as OA. fold ax in OA. rewrite OA. reflexivity.
    + cbn [map]. pose proof (operand_loop_shape _ _ _ _ _ _ _ CO) as OL. fold ax in OL. rewrite OL. unfold ax. rewrite (col_except P mom_axes axis to_end a M t HA). apply broadcast_same.
    + intros env I. cbn [map acc nth]. pose proof (col_rows P HP mom_axes axis to_end a M t t' za mom' HA VW F Eza env I) as CR. rewrite (col_dim P mom_axes axis to_end a M t t' za HA VW Eza) in CR. fold ax in CR. now rewrite CR.
    + intros env rows I. destruct (reduce_data_grouped_into K _ _) as [r|] eqn:Er; cbn; [|discriminate]. intros [= <-]. rewrite (grouped_length _ _ _ _ Er). apply repeat_length.
  - intros [H|H].
    + destruct (Nat.eqb_spec (length by_) (shape_of t a)); [tauto|reflexivity].
    + destruct (Nat.eqb_spec (length by_) (shape_of t a)); [|reflexivity]. cbn [negb]. destruct (Z.ltb_spec (mx + 1) 0); [reflexivity|lia].
Qed.

(* C193: the array of resample_data, cumulative and so on, if order= asks for one *)
Theorem resample_out_shape_ok : forall s za a new order, is_axis (length s) za a -> za <> (-1)%Z ->
  resample_out_shape s za new order = match order with Some OrdC | Some OrdF => Some (with_size s a new) | _ => None end.
Proof. intros s za a new order H Ne. unfold resample_out_shape, to_order_cf. destruct order as [[| | |]|]; try reflexivity; now rewrite (replaced_shape_ok _ _ _ _ H Ne). Qed.
