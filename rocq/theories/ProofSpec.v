(* The specifications have the power sums computed by the kernels. *)
From Verif Require Import Base BaseLemmas Shift ModelPush ModelPushCov ModelKernels ProofPush ProofPushCov Laws
  ProofKernels Spec ModelAccum.
From Coq Require Import Permutation.
Local Open Scope Qc_scope.

Lemma running_ok_nv ws : running_ok ws <-> nv 0 ws.
Proof.
  assert (G : forall w0, (forall pre w post, ws = pre ++ w :: post -> w <> 0 -> w0 + suml (fun v => v) pre + w <> 0) <-> nv w0 ws).
  { induction ws as [|w t IH]; intros w0; cbn [nv].
    - split; [auto|]. intros _ [|? ?] w post E; discriminate.
    - rewrite <- IH. split.
      + intros H. split.
        * intros N. specialize (H [] w t eq_refl N). now rewrite suml_nil, Qcplus_0_r in H.
        * intros pre v post E N. specialize (H (w :: pre) v post). rewrite suml_cons in H.
          rewrite <- (Qcplus_assoc w0 w). apply H; [now rewrite E|exact N].
      + intros [H1 H2] [|v pre] w' post E N; cbn in E; injection E as -> E.
        * rewrite suml_nil, Qcplus_0_r. auto.
        * rewrite suml_cons, Qcplus_assoc. now apply (H2 pre w' post). }
  rewrite <- G. unfold running_ok. split; intros H pre w post E N; specialize (H pre w post E N).
  - now rewrite Qcplus_0_l.
  - now rewrite Qcplus_0_l in H.
Qed.

Lemma nv_dec ws : forall w0, nv w0 ws \/ ~ nv w0 ws.
Proof.
  induction ws as [|w t IH]; intros w0; cbn; [now left|].
  destruct (IH (w0 + w)) as [H|H]; [|right; tauto].
  destruct (Qc_eq_dec w 0); [left; tauto|]. destruct (Qc_eq_dec (w0 + w) 0); [right|left]; tauto.
Qed.
Lemma running_ok_dec ws : running_ok ws \/ ~ running_ok ws.
Proof. rewrite running_ok_nv. apply nv_dec. Qed.

Lemma running_total0 ws : running_ok ws -> suml (fun w => w) ws = 0 -> all_zero ws.
Proof. rewrite running_ok_nv. intros H E. apply (nv_total0 ws 0 H). rewrite E. ring. Qed.
Lemma nonneg_running ws : all_nonneg ws -> running_ok ws.
Proof. intros H. apply running_ok_nv, nv_nonneg; [apply Qcle_refl|exact H]. Qed.
Lemma zero_running ws : all_zero ws -> running_ok ws.
Proof.
  intros H. apply nonneg_running. revert H. apply Forall_impl. intros a ->. apply Qcle_refl.
Qed.
Lemma nv_scale s ws : s <> 0 -> forall w0, nv w0 ws <-> nv (w0 * s) (map (fun w => w * s) ws).
Proof.
  intros N. induction ws as [|w t IH]; intros w0; cbn; [tauto|].
  rewrite IH. replace ((w0 + w) * s) with (w0 * s + w * s) by ring.
  assert (E : forall a, a * s = 0 <-> a = 0).
  { intros a. split; [intros Ha; destruct (Qcmult_integral _ _ Ha); [assumption|contradiction]|intros ->; ring]. }
  assert (E1 := E w). assert (E2 := E (w0 + w)). rewrite Qcmult_plus_distr_l in E2. tauto.
Qed.

(* ---- one variable ---------------------------------------------------------- *)

Lemma W1_map s : suml (fun w => w) (map snd s) = W1 s.
Proof. now rewrite suml_map. Qed.

Lemma central1_0 s : W1 s <> 0 -> central1 s 0 = 1.
Proof.
  intros N. unfold central1. rewrite (suml_ext _ (fun p => snd p)) by (intros; cbn; ring).
  fold (W1 s). now field.
Qed.
Lemma central1_1 s : W1 s <> 0 -> central1 s 1 = 0.
Proof.
  intros N. unfold central1.
  rewrite (suml_ext _ (fun p => snd p * fst p - snd p * mean1 s)) by (intros; cbn; ring).
  rewrite suml_sub, suml_scal_r. change (suml snd s) with (W1 s). unfold mean1. now field.
Qed.

Lemma moments_of_wf n s : (1 <= n)%nat -> length (moments_of n s) = S n.
Proof. intros. unfold moments_of. cbn. rewrite map_length, seq_length. lia. Qed.
Lemma moments_of_get n s k : (2 <= k <= n)%nat -> getq (moments_of n s) k = central1 s k.
Proof.
  intros H. destruct k as [|[|k]]; try lia. unfold moments_of, getq. cbn [nth].
  rewrite nth_indep with (d' := central1 s 0) by (rewrite map_length, seq_length; lia).
  rewrite map_nth, seq_nth by lia. reflexivity.
Qed.

Lemma moments_of_nrm n s k : W1 s <> 0 -> (k <= n)%nat -> nrm (moments_of n s) k = central1 s k.
Proof.
  intros N H. destruct k as [|[|k]]; cbn [nrm].
  - now rewrite central1_0.
  - now rewrite central1_1.
  - apply moments_of_get. lia.
Qed.

Lemma shift_central1 s k : W1 s <> 0 ->
  shift (mean1 s) (central1 s) k = suml (fun p => snd p * fst p ^ k) s / W1 s.
Proof.
  intros N. unfold central1, Qcdiv.
  rewrite (shift_scal_r _ (/ W1 s) (fun k => suml (fun p => snd p * (fst p - mean1 s) ^ k) s)). f_equal.
  rewrite (shift_suml (mean1 s) (fun p k => snd p * (fst p - mean1 s) ^ k)).
  apply suml_ext. intros [x w] _. cbn [fst snd]. rewrite shift_scal, shift_pow. f_equal. f_equal. ring.
Qed.

Lemma moments_of_raw n s k : W1 s <> 0 -> (k <= n)%nat ->
  raw1 (moments_of n s) k = suml (fun p => snd p * fst p ^ k) s / W1 s.
Proof.
  intros N H. unfold raw1. change (getq (moments_of n s) 1) with (mean1 s).
  rewrite <- shift_central1 by exact N. apply shift_ext. intros i Hi. apply moments_of_nrm; [exact N|lia].
Qed.

Lemma reduce_vals1_ok nmax n s : (1 <= n <= nmax)%nat -> running_ok (map snd s) -> W1 s <> 0 ->
  reduce_vals (pusher1 nmax n) s = Some (moments_of n s).
Proof.
  intros Hn R N. rewrite (reduce_vals_points (laws1 nmax n Hn)).
  apply (reduce_unique (laws1 nmax n Hn)).
  - apply pts_wf.
  - rewrite pts_wts. now apply running_ok_nv.
  - split; [apply moments_of_wf; lia|]. intros E. contradiction.
  - intros k Hk. rewrite pts_sumphi. unfold phi.
    change (p_wt (pusher1 nmax n) (moments_of n s)) with (W1 s).
    change (l_raw (laws1 nmax n Hn)) with raw1. cbn in Hk. rewrite moments_of_raw by auto.
    change (l_pow (laws1 nmax n Hn)) with (fun x k => x ^ k). cbv beta. now field.
Qed.

Lemma reduce_none_gen {A V I} {K : pusher A V} (L : laws K I) xw :
  ~ running_ok (map snd xw) -> reduce_vals K xw = None.
Proof.
  intros H. rewrite (reduce_vals_points L). apply (reduce_into_none L).
  - apply pts_wf.
  - apply l_wf_zero.
  - rewrite pts_wts, (l_wt_zero _ _ L), <- running_ok_nv. exact H.
Qed.
Lemma reduce_zero_gen {A V I} {K : pusher A V} (L : laws K I) xw :
  all_zero (map snd xw) -> reduce_vals K xw = Some (p_zero K).
Proof.
  intros H. rewrite (reduce_vals_points L). apply (reduce_unique L).
  - apply pts_wf.
  - rewrite pts_wts. apply running_ok_nv. now apply zero_running.
  - apply canonical_zero.
  - intros i Hi. rewrite (phi_zero L), pts_sumphi. symmetry.
    rewrite (suml_ext _ (fun _ => 0)); [apply suml_0|]. intros [x w] Hin. unfold all_zero in H.
    rewrite Forall_map, Forall_forall in H. specialize (H _ Hin). cbn in *. rewrite H. ring.
Qed.

(* ---- two variables ----------------------------------------------------------- *)

Lemma W2_map s : suml (fun w => w) (map snd s) = W2 s.
Proof. now rewrite suml_map. Qed.

Lemma central2_00 s : W2 s <> 0 -> central2 s 0 0 = 1.
Proof.
  intros N. unfold central2. rewrite (suml_ext _ (fun p => snd p)) by (intros; cbn; ring).
  fold (W2 s). now field.
Qed.
Lemma central2_10 s : W2 s <> 0 -> central2 s 1 0 = 0.
Proof.
  intros N. unfold central2.
  rewrite (suml_ext _ (fun p => snd p * fst (fst p) - snd p * meanx s)) by (intros; cbn; ring).
  rewrite suml_sub, suml_scal_r. change (suml snd s) with (W2 s). unfold meanx. now field.
Qed.
Lemma central2_01 s : W2 s <> 0 -> central2 s 0 1 = 0.
Proof.
  intros N. unfold central2.
  rewrite (suml_ext _ (fun p => snd p * snd (fst p) - snd p * meany s)) by (intros; cbn; ring).
  rewrite suml_sub, suml_scal_r. change (suml snd s) with (W2 s). unfold meany. now field.
Qed.

Lemma comoments_of_wf n0 n1 s : shape2 (S n0) (S n1) (comoments_of n0 n1 s).
Proof.
  unfold comoments_of, shape2. split; [now rewrite map_length, seq_length|].
  intros i Hi. rewrite nth_indep with (d' := map (comoment_entry s 0) (seq 0 (S n1))).
  2:{ rewrite map_length, seq_length. exact Hi. }
  rewrite (map_nth (fun i => map (comoment_entry s i) (seq 0 (S n1)))). now rewrite map_length, seq_length.
Qed.
Lemma comoments_of_get n0 n1 s i j : (i <= n0)%nat -> (j <= n1)%nat ->
  get2 (comoments_of n0 n1 s) i j = comoment_entry s i j.
Proof.
  intros Hi Hj. unfold get2, comoments_of.
  rewrite nth_indep with (d' := map (comoment_entry s 0) (seq 0 (S n1))) by (rewrite map_length, seq_length; lia).
  rewrite (map_nth (fun i => map (comoment_entry s i) (seq 0 (S n1)))), seq_nth by lia. cbn [Nat.add].
  rewrite nth_indep with (d' := comoment_entry s i 0) by (rewrite map_length, seq_length; lia).
  rewrite (map_nth (comoment_entry s i)), seq_nth by lia. reflexivity.
Qed.

Lemma comoments_of_nrm n0 n1 s i j : W2 s <> 0 -> (i <= n0)%nat -> (j <= n1)%nat ->
  nrm2 (comoments_of n0 n1 s) i j = central2 s i j.
Proof.
  intros N Hi Hj. unfold nrm2. rewrite comoments_of_get by assumption.
  destruct i as [|[|i]], j as [|[|j]]; cbn [Nat.add comoment_entry]; try reflexivity.
  - now rewrite central2_00.
  - now rewrite central2_01.
  - now rewrite central2_10.
Qed.

Lemma shift_central2 s i j : W2 s <> 0 ->
  shift2 (meanx s) (meany s) (central2 s) i j
  = suml (fun p => snd p * (fst (fst p) ^ i * snd (fst p) ^ j)) s / W2 s.
Proof.
  intros N. unfold central2, Qcdiv.
  rewrite (shift2_ext _ _ _ (fun i j => / W2 s *
     suml (fun p => snd p * ((fst (fst p) - meanx s) ^ i * (snd (fst p) - meany s) ^ j)) s)).
  2:{ intros; ring. }
  rewrite shift2_scal, Qcmult_comm. f_equal.
  rewrite (shift2_suml (meanx s) (meany s) (fun p i j => snd p * ((fst (fst p) - meanx s) ^ i * (snd (fst p) - meany s) ^ j))).
  apply suml_ext. intros [[x y] w] _. cbn [fst snd]. rewrite shift2_scal, shift2_pow. f_equal. f_equal; f_equal; ring.
Qed.

Lemma comoments_of_raw n0 n1 s i j : (1 <= n0)%nat -> (1 <= n1)%nat -> W2 s <> 0 -> (i <= n0)%nat -> (j <= n1)%nat ->
  raw2 (comoments_of n0 n1 s) i j
  = suml (fun p => snd p * (fst (fst p) ^ i * snd (fst p) ^ j)) s / W2 s.
Proof.
  intros H0 H1 N Hi Hj. unfold raw2. rewrite !comoments_of_get by lia. cbn [comoment_entry].
  rewrite <- shift_central2 by exact N. apply shift2_ext. intros a b Ha Hb.
  apply comoments_of_nrm; [exact N|lia|lia].
Qed.

Lemma reduce_vals2_ok nmax n0 n1 s : (1 <= n0 <= nmax)%nat -> (1 <= n1 <= nmax)%nat ->
  running_ok (map snd s) -> W2 s <> 0 ->
  reduce_vals (pusher2 nmax n0 n1) s = Some (comoments_of n0 n1 s).
Proof.
  intros H0 H1 R N. set (L := laws2 nmax n0 n1 H0 H1). rewrite (reduce_vals_points L).
  apply (reduce_unique L).
  - apply pts_wf.
  - rewrite pts_wts. now apply running_ok_nv.
  - split; [apply comoments_of_wf|]. intros E. contradiction.
  - intros [i j] [Hi Hj]. rewrite pts_sumphi. unfold phi.
    change (p_wt (pusher2 nmax n0 n1) (comoments_of n0 n1 s)) with (W2 s).
    change (l_raw L (comoments_of n0 n1 s) (i, j)) with (raw2 (comoments_of n0 n1 s) i j).
    cbn in Hi, Hj. rewrite comoments_of_raw by (auto; lia).
    change (l_pow L) with (fun (x : Qc * Qc) (p : nat * nat) => fst x ^ fst p * snd x ^ snd p).
    cbn [fst snd]. now field.
Qed.

(* ---- families ------------------------------------------------------------------ *)

Lemma kernel_laws {A V} (K : pusher A V) ok : moment_kernel K ok ->
  exists (I : Type) (L : laws K I), forall a, l_wf L a <-> ok a.
Proof.
  destruct 1 as [nmax n H|nmax n0 n1 H0 H1].
  - exists nat, (laws1 nmax n H). intros a. reflexivity.
  - exists (nat * nat)%type, (laws2 nmax n0 n1 H0 H1). intros a. reflexivity.
Qed.

Lemma rows_ok_Pos {A V I} {K : pusher A V} (L : laws K I) ok data :
  (forall a, l_wf L a <-> ok a) -> rows_ok K ok data -> Forall (Pos L) data.
Proof. intros E. apply Forall_impl. intros d [H P]. split; [now apply E|exact P]. Qed.
Lemma ok_wf {A V I} {K : pusher A V} (L : laws K I) ok data :
  (forall a, l_wf L a <-> ok a) -> Forall ok data -> Forall (l_wf L) data.
Proof. intros E. apply Forall_impl. intros d H. now apply E. Qed.
