(* Laws of reduction derived from the power-sum characterisation. *)
From Verif Require Import Base BaseLemmas Shift ModelPush ModelPushCov ModelKernels ProofPush ProofPushCov Laws
  ProofKernels Spec ModelAccum ProofSpec.
From Coq Require Import Permutation.
Local Open Scope Qc_scope.

Section Gen.
  Context {A V I : Type} {K : pusher A V} (L : laws K I).
  Notation wf := (l_wf L).
  Notation dom := (l_dom L).
  Notation wt := (p_wt K).
  Notation zero := (p_zero K).
  Notation phi := (@phi A V I K L).
  Notation sumphi := (@sumphi A V I K L).
  Notation scaled := (@scaled A V K).

  Lemma reduce_none data : Forall wf data -> ~ running_ok (map wt data) -> reduce_data K data = None.
  Proof.
    intros Hw H. apply (reduce_into_none L); auto.
    - apply l_wf_zero.
    - now rewrite (l_wt_zero _ _ L), <- running_ok_nv.
  Qed.
  Lemma reduce_some data : Forall wf data -> running_ok (map wt data) ->
    exists r, reduce_data K data = Some r /\ canonical L r /\ wt r = suml (fun d => wt d) data /\
      (forall i, dom i -> phi r i = sumphi data i).
  Proof. intros Hw H. apply (reduce_ok L); auto. now apply running_ok_nv. Qed.

  (* merging partial results of arbitrary weights *)
  Lemma mapM_reduce chunks : forall rs, Forall (Forall wf) chunks ->
    mapM (reduce_data K) chunks = Some rs ->
    Forall wf rs /\ forall i, dom i -> sumphi rs i = sumphi (concat chunks) i.
  Proof.
    induction chunks as [|c cs IH]; intros rs Hw E.
    - cbn in E. injection E as <-. split; [constructor|]. reflexivity.
    - inversion Hw as [|? ? Hc Hcs]; subst. cbn [mapM] in E.
      destruct (reduce_data K c) as [r|] eqn:Er; cbn [obind] in E; [|discriminate].
      destruct (mapM (reduce_data K) cs) as [rs'|] eqn:Em; cbn [obind] in E; [|discriminate].
      injection E as <-. destruct (IH rs' Hcs eq_refl) as [W S].
      assert (R : running_ok (map wt c)).
      { destruct (running_ok_dec (map wt c)); [assumption|]. now rewrite reduce_none in Er. }
      destruct (reduce_some c Hc R) as (r' & E' & C & _ & P). rewrite Er in E'. injection E' as <-.
      split; [constructor; [apply C|exact W]|]. intros i Hi.
      unfold ProofKernels.sumphi in *. cbn [concat]. rewrite suml_cons, suml_app, S, P by exact Hi. reflexivity.
  Qed.

  Lemma reduce_chunks chunks rs : Forall (Forall wf) chunks -> mapM (reduce_data K) chunks = Some rs ->
    running_ok (map wt rs) -> running_ok (map wt (concat chunks)) ->
    reduce_data K rs = reduce_data K (concat chunks).
  Proof.
    intros Hw E R1 R2. destruct (mapM_reduce chunks rs Hw E) as [W S].
    apply (reduce_same_sum L); auto; try now apply running_ok_nv.
    clear - Hw. induction Hw; cbn; [constructor|]. apply Forall_app. auto.
  Qed.

  (* scaling *)
  Lemma reduce_scaled s data : s <> 0 -> Forall wf data ->
    reduce_data K (map (scaled s) data) = option_map (scaled s) (reduce_data K data).
  Proof.
    intros Ns Hw.
    assert (Hw' : Forall wf (map (scaled s) data)).
    { apply Forall_map. revert Hw. apply Forall_impl. intros a. apply (scaled_wf L). }
    assert (Ew : map wt (map (scaled s) data) = map (fun w => w * s) (map wt data)).
    { rewrite !map_map. apply map_ext_in. intros a Ha. apply (scaled_wt L). rewrite Forall_forall in Hw. auto. }
    assert (NV : nv 0 (map wt data) <-> nv 0 (map wt (map (scaled s) data))).
    { rewrite Ew, (nv_scale s _ Ns). now rewrite Qcmult_0_l. }
    destruct (nv_dec (map wt data) 0) as [H|H].
    - destruct (reduce_ok L data Hw H) as (r & E & C & T & P). rewrite E. cbn [option_map].
      apply (reduce_unique L); auto.
      + tauto.
      + split; [apply (scaled_wf L), C|]. rewrite (scaled_wt L) by apply C. intros Z.
        destruct (Qcmult_integral _ _ Z) as [Z'|Z']; [|contradiction].
        rewrite (proj2 C Z'). unfold ProofKernels.scaled. rewrite (l_wt_zero _ _ L), Qcmult_0_l.
        apply (l_setwt_zero _ _ L).
      + intros i Hi. rewrite (scaled_phi L) by apply C. rewrite P by exact Hi.
        unfold ProofKernels.sumphi. rewrite suml_map, <- suml_scal. apply suml_ext. intros d Hd. cbv beta.
        symmetry. apply (scaled_phi L). rewrite Forall_forall in Hw. auto.
    - rewrite !reduce_none; auto; rewrite running_ok_nv; tauto.
  Qed.

  Lemma scaled_point s v w : scaled s (l_point L v w) = l_point L v (w * s).
  Proof. unfold ProofKernels.scaled. now rewrite (l_point_wt _ _ L), (l_point_setwt _ _ L). Qed.

  Lemma reduce_vals_scaled s xw : s <> 0 ->
    reduce_vals K (map (fun p => (fst p, snd p * s)) xw) = option_map (scaled s) (reduce_vals K xw).
  Proof.
    intros Ns. rewrite !(reduce_vals_points L), <- reduce_scaled by (auto; apply pts_wf).
    rewrite !map_map. f_equal. apply map_ext. intros [x w]. symmetry. apply scaled_point.
  Qed.

  (* replication *)
  Lemma push_scale_repeat_gen d o k : wf d -> 0 <= wt d -> wf o -> 0 <= wt o ->
    p_push_data_scale K d (qn k) o = reduce_data_into K (repeat d k) o.
  Proof.
    intros Wd Pd Wo Po. rewrite (pushs_scaled L) by exact Wd.
    destruct (Qc_eq_dec (wt d) 0) as [Z|N].
    { rewrite (l_push_zero _ _ L) by (rewrite (scaled_wt L) by exact Wd; rewrite Z; ring).
      unfold reduce_data_into. induction k as [|k IH]; [reflexivity|]. cbn [repeat foldM].
      rewrite (l_push_zero _ _ L d o Z). exact IH. }
    destruct k as [|k].
    { cbn. rewrite qn_0. now apply (scaled_0_push L). }
    assert (Pd' : 0 < wt d) by (destruct (Qc_le_lt_eq _ Pd); [contradiction|assumption]).
    destruct (reduce_into_ok L (repeat d (S k)) o) as (r & E & W & T & P & _).
    - now apply (Forall_repeat wf).
    - exact Wo.
    - apply nv_nonneg; [exact Po|]. apply Forall_map. now apply Forall_repeat.
    - destruct (push_ok L (scaled (qn (S k)) d) o) as (r' & E' & W' & T' & P' & _).
      + now apply (scaled_wf L).
      + exact Wo.
      + rewrite (scaled_wt L) by exact Wd. intros _. apply Qc_lt_neq, Qc_add_pos_r; [exact Po|].
        apply Qc_mul_pos; [exact Pd'|]. apply qn_pos. lia.
      + rewrite E, E'. f_equal. apply (phi_inj L); auto.
        * rewrite T', (scaled_wt L) by exact Wd. apply Qc_lt_neq, Qc_add_pos_r; [exact Po|].
          apply Qc_mul_pos; [exact Pd'|]. apply qn_pos. lia.
        * intros i Hi. rewrite P, P', (scaled_phi L), (sumphi_repeat L) by auto. ring.
  Qed.

  (* counts: each sample of weight k * w against k samples of weight w *)
  Lemma reduce_vals_counts (s : list (nat * (V * Qc))) : Forall (fun p => 0 <= snd (snd p)) s ->
    reduce_vals K (map (fun p => (fst (snd p), qn (fst p) * snd (snd p))) s)
    = reduce_vals K (concat (map (fun p => repeat (snd p) (fst p)) s)).
  Proof.
    intros H. rewrite !(reduce_vals_points L).
    assert (P1 : Forall (Pos L) (map (pt L) (map (fun p => (fst (snd p), qn (fst p) * snd (snd p))) s))).
    { apply pts_Pos. apply Forall_map. revert H. apply Forall_impl. intros [k [x w]]. cbn. intros Hw.
      apply Qc_mul_nonneg; [apply qn_nonneg|exact Hw]. }
    assert (P2 : Forall (Pos L) (map (pt L) (concat (map (fun p => repeat (snd p) (fst p)) s)))).
    { apply pts_Pos. clear P1. induction H as [|[k [x w]] t Hw Ht IH]; cbn; [constructor|].
      apply Forall_app. split; [|exact IH]. apply Forall_repeat. exact Hw. }
    apply (reduce_same_sum L); auto using (Pos_wf L), (Pos_nv L).
    intros i Hi. rewrite !pts_sumphi. clear. induction s as [|[k [x w]] t IH]; [reflexivity|].
    cbn [map concat fst snd]. rewrite suml_cons, suml_app, IH. cbn [fst snd]. f_equal.
    induction k as [|k IHk]; cbn [repeat].
    - rewrite suml_nil, qn_0. ring.
    - rewrite suml_cons, <- IHk, qn_S. cbn [fst snd]. ring.
  Qed.

  (* zero weights *)
  Lemma reduce_into_filter data : forall o,
    reduce_data_into K (filter (fun d => negb (qeqb (wt d) 0)) data) o = reduce_data_into K data o.
  Proof.
    unfold reduce_data_into. induction data as [|d t IH]; intros o; [reflexivity|]. cbn [filter foldM].
    destruct (qeqb_spec (wt d) 0) as [Z|N]; cbn [negb].
    - rewrite (l_push_zero _ _ L d o Z). apply IH.
    - cbn [foldM]. destruct (p_push_data K d o); cbn [obind]; auto.
  Qed.
  Lemma filter_map_comm {X Y} (f : X -> Y) (p : Y -> bool) l :
    filter p (map f l) = map f (filter (fun x => p (f x)) l).
  Proof. induction l as [|a l IH]; [reflexivity|]. cbn. destruct (p (f a)); cbn; now rewrite IH. Qed.
  Lemma reduce_vals_into_filter xw o :
    reduce_vals_into K (filter (fun s => negb (qeqb (snd s) 0)) xw) o = reduce_vals_into K xw o.
  Proof.
    rewrite !(reduce_vals_points_into L), <- (reduce_into_filter (map (pt L) xw)). f_equal.
    rewrite filter_map_comm. f_equal. apply filter_ext. intros s. now rewrite (pt_wt L).
  Qed.

  (* histories *)
  Definition op_rows (op : push_op (A := A) (V := V)) : list A :=
    match op with
    | PushVal x w => [pt L (x, w)]
    | PushVals xw => map (pt L) xw
    | PushData d => [d]
    | PushDataScale d s => [scaled s d]
    | PushDatas ds => ds
    end.
  Definition op_wf (op : push_op (A := A) (V := V)) : Prop :=
    match op with PushDataScale d _ => wf d | _ => True end.

  Lemma run_op_rows o op : op_wf op -> run_op K o op = reduce_data_into K (op_rows op) o.
  Proof.
    destruct op as [x w|xw|d|d s|ds]; cbn [run_op op_rows op_wf]; intros H; unfold reduce_data_into; cbn [foldM].
    - rewrite (l_val _ _ L). change (l_point L x w) with (pt L (x, w)). now destruct (p_push_data K _ o).
    - apply (reduce_vals_points_into L).
    - now destruct (p_push_data K d o).
    - rewrite (pushs_scaled L) by exact H. now destruct (p_push_data K _ o).
    - reflexivity.
  Qed.
  Lemma run_ops_rows ops : Forall op_wf ops -> forall o,
    run_ops K ops o = reduce_data_into K (concat (map op_rows ops)) o.
  Proof.
    induction 1 as [|op ops H Hs IH]; intros o; [reflexivity|]. unfold run_ops, reduce_data_into in *.
    cbn [foldM map concat]. rewrite foldM_app, run_op_rows by exact H. unfold reduce_data_into.
    destruct (foldM _ (op_rows op) o); cbn [obind]; auto.
  Qed.
End Gen.

(* ---- one variable: consequences of the closed formula ---------------------- *)

Definition affine1 (a b : Qc) (m : arr) : arr :=
  match m with
  | w :: mu :: cs => w :: (a * mu + b) :: map (fun p => a ^ fst p * snd p) (combine (seq 2 (length cs)) cs)
  | _ => m
  end.

Lemma W1_affine a b s : W1 (map (fun p => (a * fst p + b, snd p)) s) = W1 s.
Proof. unfold W1. now rewrite suml_map. Qed.
Lemma mean1_affine a b s : W1 s <> 0 -> mean1 (map (fun p => (a * fst p + b, snd p)) s) = a * mean1 s + b.
Proof.
  intros N. unfold mean1. rewrite W1_affine, suml_map. cbn [fst snd].
  rewrite (suml_ext _ (fun p => a * (snd p * fst p) + snd p * b)) by (intros; ring).
  rewrite suml_add, suml_scal, suml_scal_r. change (suml snd s) with (W1 s). now field.
Qed.
Lemma central1_affine a b s k : W1 s <> 0 ->
  central1 (map (fun p => (a * fst p + b, snd p)) s) k = a ^ k * central1 s k.
Proof.
  intros N. unfold central1. rewrite W1_affine, mean1_affine, suml_map by exact N. cbn [fst snd].
  rewrite (suml_ext _ (fun p => a ^ k * (snd p * (fst p - mean1 s) ^ k))).
  - rewrite suml_scal. unfold Qcdiv. ring.
  - intros p _. replace (a * fst p + b - (a * mean1 s + b)) with (a * (fst p - mean1 s)) by ring.
    rewrite qpow_mul. ring.
Qed.

Lemma combine_seq_map {B C} (f : nat -> B) (g : nat * B -> C) n : forall k,
  map g (combine (seq k n) (map f (seq k n))) = map (fun i => g (i, f i)) (seq k n).
Proof. induction n as [|n IH]; intros k; [reflexivity|]. cbn. now rewrite IH. Qed.

Lemma moments_of_affine n a b s : W1 s <> 0 ->
  moments_of n (map (fun p => (a * fst p + b, snd p)) s) = affine1 a b (moments_of n s).
Proof.
  intros N. unfold moments_of. cbn [affine1]. rewrite W1_affine, mean1_affine by exact N.
  f_equal. f_equal. rewrite map_length, seq_length, combine_seq_map.
  apply map_ext. intros k. now apply central1_affine.
Qed.

Lemma moments_of_prefix n m s : (1 <= n <= m)%nat -> moments_of n s = firstn (S n) (moments_of m s).
Proof.
  intros H. unfold moments_of. destruct n as [|n]; [lia|]. cbn [firstn]. f_equal. f_equal.
  replace (S n - 1)%nat with n by lia. replace (m - 1)%nat with (n + (m - 1 - n))%nat by lia.
  rewrite seq_app, map_app, firstn_app, map_length, seq_length, Nat.sub_diag. cbn [firstn].
  rewrite app_nil_r, firstn_all2; [reflexivity|]. rewrite map_length, seq_length. lia.
Qed.

(* the three outcomes of reduce_vals *)
Lemma reduce_vals1_cases nmax n s : (1 <= n <= nmax)%nat ->
  (~ running_ok (map snd s) /\ reduce_vals (pusher1 nmax n) s = None) \/
  (all_zero (map snd s) /\ reduce_vals (pusher1 nmax n) s = Some (zeros1 (S n))) \/
  (running_ok (map snd s) /\ W1 s <> 0 /\ reduce_vals (pusher1 nmax n) s = Some (moments_of n s)).
Proof.
  intros H. destruct (running_ok_dec (map snd s)) as [R|R].
  - destruct (Qc_eq_dec (W1 s) 0) as [Z|N].
    + right. left. assert (Z' : all_zero (map snd s)). { apply running_total0; [exact R|]. now rewrite W1_map. }
      split; [exact Z'|]. now apply (reduce_zero_gen (laws1 nmax n H)).
    + right. right. split; [exact R|]. split; [exact N|]. now apply reduce_vals1_ok.
  - left. split; [exact R|]. now apply (reduce_none_gen (laws1 nmax n H)).
Qed.
Lemma reduce_vals2_cases nmax n0 n1 s : (1 <= n0 <= nmax)%nat -> (1 <= n1 <= nmax)%nat ->
  (~ running_ok (map snd s) /\ reduce_vals (pusher2 nmax n0 n1) s = None) \/
  (all_zero (map snd s) /\ reduce_vals (pusher2 nmax n0 n1) s = Some (zeros2 (S n0) (S n1))) \/
  (running_ok (map snd s) /\ W2 s <> 0 /\ reduce_vals (pusher2 nmax n0 n1) s = Some (comoments_of n0 n1 s)).
Proof.
  intros H0 H1. destruct (running_ok_dec (map snd s)) as [R|R].
  - destruct (Qc_eq_dec (W2 s) 0) as [Z|N].
    + right. left. assert (Z' : all_zero (map snd s)). { apply running_total0; [exact R|]. now rewrite W2_map. }
      split; [exact Z'|]. now apply (reduce_zero_gen (laws2 nmax n0 n1 H0 H1)).
    + right. right. split; [exact R|]. split; [exact N|]. now apply reduce_vals2_ok.
  - left. split; [exact R|]. now apply (reduce_none_gen (laws2 nmax n0 n1 H0 H1)).
Qed.

Lemma all_zero_sum ws : all_zero ws -> suml (fun w => w) ws = 0.
Proof.
  intros H. rewrite (suml_ext _ (fun _ => 0)); [apply suml_0|]. unfold all_zero in H. rewrite Forall_forall in H. exact H.
Qed.

Lemma firstn_zeros n m : (n <= m)%nat -> firstn n (zeros1 m) = zeros1 n.
Proof.
  unfold zeros1. revert m. induction n as [|n IH]; intros [|m] H; cbn; try lia; [reflexivity|reflexivity|].
  now rewrite IH by lia.
Qed.

(* two kernels over different sample lists agree when the outcomes correspond *)
Lemma reduce_vals1_prefix nmax n m s : (1 <= n <= m)%nat -> (m <= nmax)%nat ->
  reduce_vals (pusher1 nmax n) s = option_map (firstn (S n)) (reduce_vals (pusher1 nmax m) s).
Proof.
  intros H Hm.
  destruct (reduce_vals1_cases nmax n s) as [[R E]|[[Z E]|(R & N & E)]]; [lia| | |]; rewrite E;
    destruct (reduce_vals1_cases nmax m s) as [[R' E']|[[Z' E']|(R' & N' & E')]]; try lia; rewrite E'; cbn [option_map];
    try reflexivity; try contradiction.
  - exfalso. apply R. now apply zero_running.
  - exfalso. apply R'. now apply zero_running.
  - now rewrite firstn_zeros by lia.
  - exfalso. apply N'. rewrite <- W1_map. now apply all_zero_sum.
  - exfalso. apply N. rewrite <- W1_map. now apply all_zero_sum.
  - f_equal. now apply moments_of_prefix.
Qed.

Definition block (n0 n1 : nat) (a : arr2) : arr2 := map (firstn (S n1)) (firstn (S n0) a).
Definition transpose (n0 n1 : nat) (a : arr2) : arr2 :=
  map (fun j => map (fun i => get2 a i j) (seq 0 (S n0))) (seq 0 (S n1)).

Lemma firstn_seq n m k : (n <= m)%nat -> firstn n (seq k m) = seq k n.
Proof. revert m k. induction n as [|n IH]; intros [|m] k H; cbn; try lia; [reflexivity|reflexivity|]. now rewrite IH by lia. Qed.

Lemma comoments_of_block n0 n1 m0 m1 s : (n0 <= m0)%nat -> (n1 <= m1)%nat ->
  comoments_of n0 n1 s = block n0 n1 (comoments_of m0 m1 s).
Proof.
  intros H0 H1. unfold block, comoments_of. rewrite firstn_map, firstn_seq, map_map by lia.
  apply map_ext. intros i. now rewrite firstn_map, firstn_seq by lia.
Qed.
Lemma zeros2_block n0 n1 m0 m1 : (n0 <= m0)%nat -> (n1 <= m1)%nat ->
  zeros2 (S n0) (S n1) = block n0 n1 (zeros2 (S m0) (S m1)).
Proof.
  intros H0 H1. unfold block, zeros2.
  assert (G : forall (x : arr) n m, (n <= m)%nat -> firstn n (repeat x m) = repeat x n).
  { intros x n. induction n as [|n IH]; intros [|m] H; cbn; try lia; [reflexivity|reflexivity|]. now rewrite IH by lia. }
  rewrite G by lia. clear G. assert (E : firstn (S n1) (zeros1 (S m1)) = zeros1 (S n1)) by (apply firstn_zeros; lia).
  generalize (S n0). intros k. induction k as [|k IH]; [reflexivity|]. cbn [repeat map]. now rewrite <- IH, E.
Qed.

Lemma reduce_vals2_block nmax n0 n1 m0 m1 s : (1 <= n0 <= m0)%nat -> (m0 <= nmax)%nat ->
  (1 <= n1 <= m1)%nat -> (m1 <= nmax)%nat ->
  reduce_vals (pusher2 nmax n0 n1) s = option_map (block n0 n1) (reduce_vals (pusher2 nmax m0 m1) s).
Proof.
  intros A0 A1 B0 B1.
  destruct (reduce_vals2_cases nmax n0 n1 s) as [[R E]|[[Z E]|(R & N & E)]]; [lia|lia| | |]; rewrite E;
    destruct (reduce_vals2_cases nmax m0 m1 s) as [[R' E']|[[Z' E']|(R' & N' & E')]]; try lia; rewrite E'; cbn [option_map];
    try reflexivity; try contradiction.
  - exfalso. apply R. now apply zero_running.
  - exfalso. apply R'. now apply zero_running.
  - f_equal. apply zeros2_block; lia.
  - exfalso. apply N'. rewrite <- W2_map. now apply all_zero_sum.
  - exfalso. apply N. rewrite <- W2_map. now apply all_zero_sum.
  - f_equal. apply comoments_of_block; lia.
Qed.

(* affine maps *)
Lemma reduce_vals1_affine nmax n a b s : (1 <= n <= nmax)%nat -> ~ all_zero (map snd s) ->
  reduce_vals (pusher1 nmax n) (map (fun p => (a * fst p + b, snd p)) s)
  = option_map (affine1 a b) (reduce_vals (pusher1 nmax n) s).
Proof.
  intros H NZ. set (s' := map (fun p => (a * fst p + b, snd p)) s).
  assert (Ew : map snd s' = map snd s). { unfold s'. rewrite map_map. reflexivity. }
  destruct (reduce_vals1_cases nmax n s H) as [[R E]|[[Z E]|(R & N & E)]]; [|contradiction|]; rewrite E; cbn [option_map].
  - apply (reduce_none_gen (laws1 nmax n H)). now rewrite Ew.
  - rewrite reduce_vals1_ok; auto.
    + f_equal. now apply moments_of_affine.
    + now rewrite Ew.
    + unfold s'. now rewrite W1_affine.
Qed.

(* marginals *)
Definition xs (s : list ((Qc * Qc) * Qc)) : list (Qc * Qc) := map (fun p => (fst (fst p), snd p)) s.
Definition ys (s : list ((Qc * Qc) * Qc)) : list (Qc * Qc) := map (fun p => (snd (fst p), snd p)) s.
Definition swap (s : list ((Qc * Qc) * Qc)) : list ((Qc * Qc) * Qc) :=
  map (fun p => ((snd (fst p), fst (fst p)), snd p)) s.
Definition col0 (a : arr2) : arr := map (fun r => nth 0 r 0) a.
Definition row0 (a : arr2) : arr := nth 0 a [].

Lemma W1_xs s : W1 (xs s) = W2 s.
Proof. unfold W1, xs. now rewrite suml_map. Qed.
Lemma W1_ys s : W1 (ys s) = W2 s.
Proof. unfold W1, ys. now rewrite suml_map. Qed.
Lemma mean1_xs s : mean1 (xs s) = meanx s.
Proof. unfold mean1, meanx. rewrite W1_xs. unfold xs. now rewrite suml_map. Qed.
Lemma mean1_ys s : mean1 (ys s) = meany s.
Proof. unfold mean1, meany. rewrite W1_ys. unfold ys. now rewrite suml_map. Qed.
Lemma central1_xs s k : central1 (xs s) k = central2 s k 0.
Proof.
  unfold central1, central2. rewrite W1_xs, mean1_xs. f_equal. unfold xs. rewrite suml_map.
  apply suml_ext. intros. cbn. ring.
Qed.
Lemma central1_ys s k : central1 (ys s) k = central2 s 0 k.
Proof.
  unfold central1, central2. rewrite W1_ys, mean1_ys. f_equal. unfold ys. rewrite suml_map.
  apply suml_ext. intros. cbn. ring.
Qed.
Lemma col0_comoments n0 n1 s : (1 <= n0)%nat -> col0 (comoments_of n0 n1 s) = moments_of n0 (xs s).
Proof.
  intros H. unfold col0, comoments_of, moments_of. rewrite map_map. destruct n0 as [|n]; [lia|].
  cbn [seq map nth comoment_entry]. rewrite W1_xs, mean1_xs. f_equal. f_equal.
  replace (S n - 1)%nat with n by lia. apply map_ext_in. intros k Hk. apply in_seq in Hk.
  rewrite central1_xs. destruct k as [|[|k]]; try lia. reflexivity.
Qed.
Lemma row0_comoments n0 n1 s : (1 <= n1)%nat -> row0 (comoments_of n0 n1 s) = moments_of n1 (ys s).
Proof.
  intros H. unfold row0, comoments_of, moments_of. cbn [seq map nth]. destruct n1 as [|n]; [lia|].
  cbn [seq map comoment_entry]. rewrite W1_ys, mean1_ys. f_equal. f_equal.
  replace (S n - 1)%nat with n by lia. apply map_ext_in. intros k Hk. apply in_seq in Hk.
  rewrite central1_ys. destruct k as [|[|k]]; try lia. reflexivity.
Qed.
Lemma xs_wts s : map snd (xs s) = map snd s.
Proof. unfold xs. rewrite map_map. reflexivity. Qed.
Lemma ys_wts s : map snd (ys s) = map snd s.
Proof. unfold ys. rewrite map_map. reflexivity. Qed.
Lemma swap_wts s : map snd (swap s) = map snd s.
Proof. unfold swap. rewrite map_map. reflexivity. Qed.

Lemma reduce_marginal_x nmax n0 n1 s : (1 <= n0 <= nmax)%nat -> (1 <= n1 <= nmax)%nat ->
  option_map col0 (reduce_vals (pusher2 nmax n0 n1) s) = reduce_vals (pusher1 nmax n0) (xs s).
Proof.
  intros H0 H1.
  destruct (reduce_vals2_cases nmax n0 n1 s H0 H1) as [[R E]|[[Z E]|(R & N & E)]]; rewrite E; cbn [option_map]; symmetry.
  - apply (reduce_none_gen (laws1 nmax n0 H0)). now rewrite xs_wts.
  - rewrite (reduce_zero_gen (laws1 nmax n0 H0)) by now rewrite xs_wts. f_equal.
    cbn [pusher1 p_zero]. unfold col0, zeros2. clear. generalize (S n0). intros k. induction k; cbn; [reflexivity|]. now f_equal.
  - rewrite reduce_vals1_ok; auto.
    + now rewrite col0_comoments by lia.
    + now rewrite xs_wts.
    + now rewrite W1_xs.
Qed.
Lemma reduce_marginal_y nmax n0 n1 s : (1 <= n0 <= nmax)%nat -> (1 <= n1 <= nmax)%nat ->
  option_map row0 (reduce_vals (pusher2 nmax n0 n1) s) = reduce_vals (pusher1 nmax n1) (ys s).
Proof.
  intros H0 H1.
  destruct (reduce_vals2_cases nmax n0 n1 s H0 H1) as [[R E]|[[Z E]|(R & N & E)]]; rewrite E; cbn [option_map]; symmetry.
  - apply (reduce_none_gen (laws1 nmax n1 H1)). now rewrite ys_wts.
  - rewrite (reduce_zero_gen (laws1 nmax n1 H1)) by now rewrite ys_wts. reflexivity.
  - rewrite reduce_vals1_ok; auto.
    + now rewrite row0_comoments by lia.
    + now rewrite ys_wts.
    + now rewrite W1_ys.
Qed.

Lemma W2_swap s : W2 (swap s) = W2 s.
Proof. unfold W2, swap. now rewrite suml_map. Qed.
Lemma comoment_entry_swap s i j : comoment_entry (swap s) j i = comoment_entry s i j.
Proof.
  assert (X : meanx (swap s) = meany s). { unfold meanx, meany. rewrite W2_swap. unfold swap. now rewrite suml_map. }
  assert (Y : meany (swap s) = meanx s). { unfold meanx, meany. rewrite W2_swap. unfold swap. now rewrite suml_map. }
  assert (C : forall a b, central2 (swap s) a b = central2 s b a).
  { intros a b. unfold central2. rewrite W2_swap, X, Y. f_equal. unfold swap. rewrite suml_map.
    apply suml_ext. intros. cbn [fst snd]. ring. }
  destruct i as [|[|i]], j as [|[|j]]; cbn [comoment_entry]; auto using W2_swap.
Qed.
Lemma comoments_of_swap n0 n1 s : comoments_of n1 n0 (swap s) = transpose n0 n1 (comoments_of n0 n1 s).
Proof.
  unfold transpose. unfold comoments_of at 1. apply map_ext_in. intros j Hj. apply map_ext_in. intros i Hi.
  apply in_seq in Hj. apply in_seq in Hi. rewrite comoments_of_get by lia. apply comoment_entry_swap.
Qed.
Lemma zeros_transpose n0 n1 : zeros2 (S n1) (S n0) = transpose n0 n1 (zeros2 (S n0) (S n1)).
Proof.
  unfold transpose.
  rewrite (map_ext_in _ (fun _ => zeros1 (S n0))).
  - unfold zeros2. generalize (seq_length (S n1) 0). generalize (seq 0 (S n1)). intros l <-.
    induction l; cbn; [reflexivity|]. now f_equal.
  - intros j Hj. rewrite (map_ext_in _ (fun _ => 0)).
    + unfold zeros1. generalize (seq_length (S n0) 0). generalize (seq 0 (S n0)). intros l <-.
      induction l; cbn; [reflexivity|]. now f_equal.
    + intros i Hi. apply get2_zeros.
Qed.
Lemma reduce_swap nmax n0 n1 s : (1 <= n0 <= nmax)%nat -> (1 <= n1 <= nmax)%nat ->
  reduce_vals (pusher2 nmax n1 n0) (swap s) = option_map (transpose n0 n1) (reduce_vals (pusher2 nmax n0 n1) s).
Proof.
  intros H0 H1.
  destruct (reduce_vals2_cases nmax n0 n1 s H0 H1) as [[R E]|[[Z E]|(R & N & E)]]; rewrite E; cbn [option_map].
  - apply (reduce_none_gen (laws2 nmax n1 n0 H1 H0)). now rewrite swap_wts.
  - rewrite (reduce_zero_gen (laws2 nmax n1 n0 H1 H0)) by now rewrite swap_wts. f_equal. apply zeros_transpose.
  - rewrite reduce_vals2_ok; auto.
    + f_equal. apply comoments_of_swap.
    + now rewrite swap_wts.
    + now rewrite W2_swap.
Qed.

(* ---- parallel axis formula for reduced rows ----------------------------------- *)

Lemma raw1_inv a k : shift (- getq a 1) (raw1 a) k = nrm a k.
Proof. unfold raw1. apply shift_inv. Qed.

Lemma reduce_data1_formula nmax n data r : (1 <= n <= nmax)%nat -> Forall (fun d => length d = S n) data ->
  reduce_data (pusher1 nmax n) data = Some r -> getq r 0 <> 0 ->
  let W := suml (fun d => getq d 0) data in
  let M := suml (fun d => getq d 0 * getq d 1) data / W in
  getq r 0 = W /\ getq r 1 = M /\
  forall k, (2 <= k <= n)%nat ->
    getq r k = suml (fun d => getq d 0 * sumn (fun b => qn (choose k b) * (getq d 1 - M) ^ b * nrm d (k - b)%nat) (S k)) data / W.
Proof.
  intros Hn Hw E N W M. set (L := laws1 nmax n Hn).
  assert (R : running_ok (map (fun d => getq d 0) data)).
  { destruct (running_ok_dec (map (fun d => getq d 0) data)); [assumption|].
    rewrite (reduce_none L) in E; auto; discriminate. }
  destruct (reduce_some L data Hw R) as (r' & E' & C & T & P). rewrite E in E'. injection E' as <-.
  change (p_wt (pusher1 nmax n) r) with (getq r 0) in T.
  change (suml (fun d => p_wt (pusher1 nmax n) d) data) with W in T.
  assert (P' : forall k, (k <= n)%nat -> W * raw1 r k = suml (fun d => getq d 0 * raw1 d k) data).
  { intros k Hk. specialize (P k Hk). change (getq r 0 * raw1 r k = suml (fun d => getq d 0 * raw1 d k) data) in P. rewrite T in P. exact P. }
  assert (NW : W <> 0) by (rewrite <- T; exact N).
  assert (RM : getq r 1 = M).
  { specialize (P' 1%nat ltac:(lia)). rewrite raw1_1 in P'. unfold M.
    rewrite (suml_ext _ (fun d => getq d 0 * raw1 d 1)) by (intros; now rewrite raw1_1).
    rewrite <- P'. now field. }
  split; [exact T|]. split; [exact RM|]. intros k Hk.
  replace (getq r k) with (nrm r k) by (destruct k as [|[|k]]; try lia; reflexivity).
  rewrite <- raw1_inv, RM.
  rewrite (shift_ext _ _ (fun j => suml (fun d => getq d 0 * raw1 d j) data * / W)).
  2:{ intros j Hj. rewrite <- P' by lia. now field. }
  rewrite (shift_scal_r _ _ (fun j => suml (fun d => getq d 0 * raw1 d j) data)). unfold Qcdiv. f_equal.
  rewrite (shift_suml _ (fun d j => getq d 0 * raw1 d j)). apply suml_ext. intros d Hd.
  rewrite shift_scal. f_equal. unfold raw1. rewrite shift_comp, shift_binom. apply sumn_ext. intros b Hb.
  replace (- M + getq d 1) with (getq d 1 - M) by ring. reflexivity.
Qed.

(* ---- inequalities ---------------------------------------------------------------- *)

Lemma Qc_lt_W1 s : all_nonneg (map snd s) -> W1 s <> 0 -> 0 < W1 s.
Proof.
  intros H N. destruct (Qc_le_lt_eq (W1 s)); [|contradiction|assumption].
  rewrite <- W1_map. apply suml_nonneg. unfold all_nonneg in H. rewrite Forall_forall in H. exact H.
Qed.

Lemma even_central_nonneg s j : all_nonneg (map snd s) -> W1 s <> 0 -> 0 <= central1 s (2 * j).
Proof.
  intros H N. unfold central1. apply Qc_div_nonneg; [|now apply Qc_lt_W1].
  apply suml_nonneg. intros p Hp. apply Qc_mul_nonneg.
  - unfold all_nonneg in H. rewrite Forall_map, Forall_forall in H. now apply H.
  - apply qpow_even_nonneg.
Qed.

(* Cauchy-Schwarz for weighted sums *)
Lemma cauchy_schwarz {B} (w f g : B -> Qc) l : (forall b, In b l -> 0 <= w b) ->
  let S u v := suml (fun b => w b * (u b * v b)) l in
  S f g * S f g <= S f f * S g g.
Proof.
  intros Hw S.
  assert (Q : forall t, 0 <= S f f + qn 2 * t * S f g + t * t * S g g).
  { intros t. replace (S f f + qn 2 * t * S f g + t * t * S g g)
      with (suml (fun b => w b * ((f b + t * g b) * (f b + t * g b))) l).
    - apply suml_nonneg. intros b Hb. apply Qc_mul_nonneg; [now apply Hw|]. apply Qc_sq_nonneg.
    - unfold S. rewrite <- !suml_scal, <- !suml_add. apply suml_ext. intros b _. change (qn 2) with (qn (1 + 1)). rewrite qn_add. change (qn 1) with 1. ring. }
  destruct (Qc_eq_dec (S g g) 0) as [Z|N].
  - assert (F : S f g = 0).
    { destruct (Qc_eq_dec (S f g) 0) as [|N']; [assumption|exfalso].
      specialize (Q (- (S f f + 1) / (qn 2 * S f g))). rewrite Z in Q.
      replace (S f f + qn 2 * (- (S f f + 1) / (qn 2 * S f g)) * S f g + _) with (-(1)) in Q.
      - apply (Qclt_not_le (-(1)) 0); [reflexivity|exact Q].
      - field. split; [exact N'|]. discriminate. }
    rewrite F, Z. replace (0 * 0) with 0 by ring. replace (S f f * 0) with 0 by ring. apply Qcle_refl.
  - assert (Pg : 0 < S g g).
    { destruct (Qc_le_lt_eq (S g g)); [|contradiction|assumption].
      apply suml_nonneg. intros b Hb. apply Qc_mul_nonneg; [now apply Hw|apply Qc_sq_nonneg]. }
    specialize (Q (- S f g / S g g)).
    assert (E : S f f + qn 2 * (- S f g / S g g) * S f g + (- S f g / S g g) * (- S f g / S g g) * S g g
                = (S f f * S g g - S f g * S f g) * / S g g).
    { change (qn 2) with (qn (1 + 1)). rewrite qn_add. change (qn 1) with 1. field. exact N. }
    rewrite E in Q. apply Qc_sub_nonneg_inv.
    replace (S f f * S g g - S f g * S f g) with ((S f f * S g g - S f g * S f g) * / S g g * S g g) by (field; exact N).
    apply Qc_mul_nonneg; [exact Q|]. now apply Qclt_le_weak.
Qed.

Lemma cov_cauchy_schwarz s : all_nonneg (map snd s) -> W2 s <> 0 ->
  central2 s 1 1 * central2 s 1 1 <= central2 s 2 0 * central2 s 0 2.
Proof.
  intros H N.
  assert (Pw : forall b, In b s -> 0 <= snd b).
  { unfold all_nonneg in H. rewrite Forall_map, Forall_forall in H. exact H. }
  pose proof (cauchy_schwarz (fun p => snd p) (fun p : (Qc * Qc) * Qc => fst (fst p) - meanx s)
                (fun p => snd (fst p) - meany s) s Pw) as C. cbv zeta in C.
  assert (WW : 0 < W2 s).
  { destruct (Qc_le_lt_eq (W2 s)); [|contradiction|assumption].
    rewrite <- W2_map. apply suml_nonneg. unfold all_nonneg in H. rewrite Forall_forall in H. exact H. }
  unfold central2.
  rewrite (suml_ext _ (fun p => snd p * ((fst (fst p) - meanx s) * (snd (fst p) - meany s)))) by (intros; cbn; ring).
  rewrite (suml_ext (fun p => snd p * ((fst (fst p) - meanx s) ^ 2 * _)) (fun p => snd p * ((fst (fst p) - meanx s) * (fst (fst p) - meanx s)))) by (intros; cbn; ring).
  rewrite (suml_ext (fun p => snd p * (_ ^ 0 * _)) (fun p => snd p * ((snd (fst p) - meany s) * (snd (fst p) - meany s)))) by (intros; cbn; ring).
  apply Qc_sub_nonneg in C. apply Qc_sub_nonneg_inv.
  match goal with |- 0 <= ?a / ?w * (?b / ?w) - ?c / ?w * (?c / ?w) =>
    replace (a / w * (b / w) - c / w * (c / w)) with ((a * b - c * c) * (/ w * / w)) by (unfold Qcdiv; ring) end.
  apply Qc_mul_nonneg; [exact C|]. apply Qc_mul_nonneg; apply Qclt_le_weak, Qc_inv_pos; exact WW.
Qed.

(* mean between bounds *)
Lemma mean_bounds s lo hi : all_nonneg (map snd s) -> W1 s <> 0 ->
  (forall p, In p s -> snd p <> 0 -> lo <= fst p /\ fst p <= hi) ->
  lo <= mean1 s /\ mean1 s <= hi.
Proof.
  intros H N B. pose proof (Qc_lt_W1 s H N) as P.
  assert (Pw : forall b, In b s -> 0 <= snd b).
  { unfold all_nonneg in H. rewrite Forall_map, Forall_forall in H. exact H. }
  split; apply Qc_sub_nonneg_inv; unfold mean1.
  - replace (_ - lo) with (suml (fun p => snd p * (fst p - lo)) s / W1 s).
    + apply Qc_div_nonneg; [|exact P]. apply suml_nonneg. intros p Hp.
      destruct (Qc_eq_dec (snd p) 0) as [Z|Nz]; [rewrite Z; replace (0 * _) with 0 by ring; apply Qcle_refl|].
      apply Qc_mul_nonneg; [now apply Pw|]. apply Qc_sub_nonneg. now apply B.
    + rewrite (suml_ext _ (fun p => snd p * fst p - snd p * lo)) by (intros; ring).
      rewrite suml_sub, suml_scal_r. change (suml snd s) with (W1 s). now field.
  - replace (hi - _) with (suml (fun p => snd p * (hi - fst p)) s / W1 s).
    + apply Qc_div_nonneg; [|exact P]. apply suml_nonneg. intros p Hp.
      destruct (Qc_eq_dec (snd p) 0) as [Z|Nz]; [rewrite Z; replace (0 * _) with 0 by ring; apply Qcle_refl|].
      apply Qc_mul_nonneg; [now apply Pw|]. apply Qc_sub_nonneg. now apply B.
    + rewrite (suml_ext _ (fun p => snd p * hi - snd p * fst p)) by (intros; ring).
      rewrite suml_sub, suml_scal_r. change (suml snd s) with (W1 s). now field.
Qed.

Lemma raw2_inv a i j : shift2 (- get2 a 1 0) (- get2 a 0 1) (raw2 a) i j = nrm2 a i j.
Proof. unfold raw2. apply shift2_inv. Qed.

Lemma reduce_data2_formula nmax n0 n1 data r : (1 <= n0 <= nmax)%nat -> (1 <= n1 <= nmax)%nat ->
  Forall (shape2 (S n0) (S n1)) data ->
  reduce_data (pusher2 nmax n0 n1) data = Some r -> get2 r 0 0 <> 0 ->
  let W := suml (fun d => get2 d 0 0) data in
  let MX := suml (fun d => get2 d 0 0 * get2 d 1 0) data / W in
  let MY := suml (fun d => get2 d 0 0 * get2 d 0 1) data / W in
  get2 r 0 0 = W /\ get2 r 1 0 = MX /\ get2 r 0 1 = MY /\
  forall i j, (i <= n0)%nat -> (j <= n1)%nat -> (2 <= i + j)%nat ->
    get2 r i j = suml (fun d => get2 d 0 0 *
      sumn (fun a => sumn (fun b => qn (choose i a) * qn (choose j b) *
        ((get2 d 1 0 - MX) ^ a * (get2 d 0 1 - MY) ^ b) * nrm2 d (i - a) (j - b)) (S j)) (S i)) data / W.
Proof.
  intros H0 H1 Hw E N W MX MY. set (L := laws2 nmax n0 n1 H0 H1).
  assert (R : running_ok (map (fun d => get2 d 0 0) data)).
  { destruct (running_ok_dec (map (fun d => get2 d 0 0) data)); [assumption|].
    rewrite (reduce_none L) in E; auto; discriminate. }
  destruct (reduce_some L data Hw R) as (r' & E' & C & T & P). rewrite E in E'. injection E' as <-.
  change (p_wt (pusher2 nmax n0 n1) r) with (get2 r 0 0) in T.
  change (suml (fun d => p_wt (pusher2 nmax n0 n1) d) data) with W in T.
  assert (P' : forall i j, (i <= n0)%nat -> (j <= n1)%nat -> W * raw2 r i j = suml (fun d => get2 d 0 0 * raw2 d i j) data).
  { intros i j Hi Hj. specialize (P (i, j) (conj Hi Hj)).
    change (get2 r 0 0 * raw2 r i j = suml (fun d => get2 d 0 0 * raw2 d i j) data) in P. rewrite T in P. exact P. }
  assert (NW : W <> 0) by (rewrite <- T; exact N).
  assert (RX : get2 r 1 0 = MX).
  { specialize (P' 1%nat 0%nat ltac:(lia) ltac:(lia)). rewrite raw2_10 in P'. unfold MX.
    rewrite (suml_ext _ (fun d => get2 d 0 0 * raw2 d 1 0)) by (intros; now rewrite raw2_10).
    rewrite <- P'. now field. }
  assert (RY : get2 r 0 1 = MY).
  { specialize (P' 0%nat 1%nat ltac:(lia) ltac:(lia)). rewrite raw2_01 in P'. unfold MY.
    rewrite (suml_ext _ (fun d => get2 d 0 0 * raw2 d 0 1)) by (intros; now rewrite raw2_01).
    rewrite <- P'. now field. }
  split; [exact T|]. split; [exact RX|]. split; [exact RY|]. intros i j Hi Hj Hij.
  replace (get2 r i j) with (nrm2 r i j) by (unfold nrm2; destruct (i + j)%nat as [|[|c]]; try lia; reflexivity).
  rewrite <- raw2_inv, RX, RY.
  rewrite (shift2_ext _ _ _ (fun x y => / W * suml (fun d => get2 d 0 0 * raw2 d x y) data)).
  2:{ intros x y Hx Hy. rewrite <- P' by lia. now field. }
  rewrite shift2_scal. unfold Qcdiv. rewrite Qcmult_comm. f_equal.
  rewrite (shift2_suml _ _ (fun d x y => get2 d 0 0 * raw2 d x y)). apply suml_ext. intros d Hd.
  rewrite shift2_scal. f_equal. unfold raw2. rewrite shift2_comp, shift2_binom.
  apply sumn_ext. intros a Ha. apply sumn_ext. intros b Hb.
  replace (- MX + get2 d 1 0) with (get2 d 1 0 - MX) by ring.
  replace (- MY + get2 d 0 1) with (get2 d 0 1 - MY) by ring. reflexivity.
Qed.
