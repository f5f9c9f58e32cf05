(* Properties of cumulative reduction, resampling, jackknife, grouping and
   rolling (C20-C24, C28-C30, C34, C40-C42, C44, C68, C69). *)
From Verif Require Import Base BaseLemmas ModelPush ModelPushCov ModelKernels Spec
  ProofPush ProofPushCov Laws ProofKernels ProofRolling ProofSpec ProofReduce ProofExp Checks.
From Coq Require Import Permutation.
Local Open Scope Qc_scope.

Definition exrows : list arr := [lz [2; 5; 1]%Z; lz [0; 9; 9]%Z; lz [3; -1; 4]%Z; lz [1; 2; 0]%Z].
Lemma exrows_ok : rows_ok (pusher1 5 2) (fun a => length a = 3%nat) exrows.
Proof. repeat constructor; qle. Qed.
Lemma exkernel : moment_kernel (pusher1 5 2) (fun a => length a = 3%nat).
Proof. apply (mk_one 5 2). lia. Qed.

(* ---- C20 ------------------------------------------------------------------- *)

Theorem cumulative_rows_are_prefix_reductions : forall {A V} (K : pusher A V) ok, moment_kernel K ok ->
  forall data, rows_ok K ok data ->
  exists rows, cumulative K data = Some rows /\ length rows = length data /\
    forall j, (j < length data)%nat ->
      (total K (firstn (S j) data) <> 0 -> reduce_data K (firstn (S j) data) = Some (nth j rows (p_zero K))) /\
      (total K (firstn (S j) data) = 0 -> nth j rows (p_zero K) = nth j data (p_zero K)).
Proof.
  intros A V K ok HK data H. destruct (kernel_laws K ok HK) as (I & L & E).
  apply (cumulative_ok L). eapply rows_ok_Pos; eauto.
Qed.
(* with clean rows the agreement is unconditional *)
Theorem cumulative_clean_rows : forall {A V} (K : pusher A V) ok, moment_kernel K ok ->
  forall data, rows_ok K ok data -> Forall (clean K) data ->
  exists rows, cumulative K data = Some rows /\ length rows = length data /\
    forall j, (j < length data)%nat -> reduce_data K (firstn (S j) data) = Some (nth j rows (p_zero K)).
Proof.
  intros A V K ok HK data H C. destruct (kernel_laws K ok HK) as (I & L & E).
  assert (P : Forall (Pos L) data) by (eapply rows_ok_Pos; eauto).
  destruct (cumulative_ok L data P) as (rows & E1 & Ln & R). exists rows. split; [exact E1|]. split; [exact Ln|].
  intros j Hj. destruct (R j Hj) as [R1 R2].
  destruct (Qc_eq_dec (total K (firstn (S j) data)) 0) as [Z|N]; [|now apply R1].
  rewrite R2 by exact Z.
  assert (Pj : Forall (Pos L) (firstn (S j) data)).
  { rewrite <- (firstn_skipn (S j) data) in P. now apply Forall_app in P. }
  assert (AZ : Forall (fun d => p_wt K d = 0) (firstn (S j) data)) by exact (Pos_sumwt0 L _ Pj Z).
  assert (Zj : p_wt K (nth j data (p_zero K)) = 0).
  { rewrite (firstn_S_snoc data j (p_zero K)) in AZ by exact Hj. apply Forall_app in AZ. destruct AZ as [_ AZ].
    now inversion AZ. }
  rewrite Forall_forall in C. rewrite (C (nth j data (p_zero K)) (nth_In _ _ Hj) Zj).
  unfold reduce_data.
  rewrite <- (reduce_into_filter L).
  replace (filter _ (firstn (S j) data)) with (@nil A); [reflexivity|].
  clear -AZ. induction AZ as [|d t Zd _ IH]; [reflexivity|]. cbn [filter]. rewrite Zd. exact IH.
Qed.
(* otherwise a weightless first row keeps its moments, the reduction does not *)
Theorem cumulative_unclean_refuted : exists data rows, rows_ok (pusher1 5 2) (fun a => length a = 3%nat) data /\
  cumulative (pusher1 5 2) data = Some rows /\ length rows = length data /\
  reduce_data (pusher1 5 2) (firstn 1 data) <> Some (nth 0 rows []).
Proof.
  exists [lz [0; 7; 3]%Z], [lz [0; 7; 3]%Z]. split; [repeat constructor; qle|]. split; [reflexivity|].
  split; [reflexivity|]. apply oeqb1_neq. vm_compute. reflexivity.
Qed.
Example cumulative_ex : rows_ok (pusher1 5 2) (fun a => length a = 3%nat) exrows /\
  total (pusher1 5 2) (firstn 3 exrows) <> 0 /\
  oeqb (leqb eqb1) (option_map (firstn 3) (cumulative (pusher1 5 2) exrows))
    (Some [lz [2; 5; 1]%Z; lz [2; 5; 1]%Z; [qz 5; fr 7 5; fr 286 25]]) = true.
Proof.
  split; [apply exrows_ok|]. split; [apply qc_neq; vm_compute; reflexivity|]. vm_compute. reflexivity.
Qed.

(* ---- C21 ------------------------------------------------------------------- *)

(* no row is weightless once the rows before it have a nonzero total *)
Definition inverse_guard (ws : list Qc) : Prop :=
  forall pre w post, ws = pre ++ w :: post -> suml (fun v => v) pre = 0 \/ w <> 0.

Lemma inv_guard_spec ws : forall w0, inv_guard w0 ws <->
  (forall pre w post, ws = pre ++ w :: post -> w0 + suml (fun v => v) pre = 0 \/ w <> 0).
Proof.
  induction ws as [|w t IH]; intros w0; cbn [inv_guard].
  - split; [intros _ [|]; discriminate|auto].
  - rewrite IH. split.
    + intros [H1 H2] [|p pre] v post [= <- E].
      * rewrite suml_nil. replace (w0 + 0) with w0 by ring. exact H1.
      * specialize (H2 pre v post E). rewrite suml_cons. now rewrite Qcplus_assoc.
    + intros H. split.
      * specialize (H [] w t eq_refl). rewrite suml_nil in H. now replace (w0 + 0) with w0 in H by ring.
      * intros pre v post ->. specialize (H (w :: pre) v post eq_refl). rewrite suml_cons in H.
        now rewrite Qcplus_assoc in H.
Qed.
Lemma inverse_guard_match ws : inverse_guard ws <-> match ws with [] => True | w :: t => inv_guard w t end.
Proof.
  unfold inverse_guard. destruct ws as [|w t].
  - split; [auto|intros _ [|]; discriminate].
  - rewrite inv_guard_spec. split.
    + intros H pre v post ->. specialize (H (w :: pre) v post eq_refl). now rewrite suml_cons in H.
    + intros H [|p pre] v post [= <- E]; [left; apply suml_nil|]. rewrite suml_cons. now apply (H pre v post).
Qed.

(* arbitrary weights, exact condition *)
Theorem cumulative_inverse_restores : forall {A V} (K : pusher A V) ok, moment_kernel K ok ->
  forall data rows, Forall ok data -> cumulative K data = Some rows ->
  (inverse_guard (map (p_wt K) data) -> cumulative_inverse K rows = Some data) /\
  (~ inverse_guard (map (p_wt K) data) -> cumulative_inverse K rows = None).
Proof.
  intros A V K ok HK data rows H Er. destruct (kernel_laws K ok HK) as (I & L & E).
  rewrite inverse_guard_match. apply (cumulative_roundtrip L); [|exact Er]. eapply ok_wf; eauto.
Qed.
Theorem cumulative_inverse_positive_weights : forall {A V} (K : pusher A V) ok, moment_kernel K ok ->
  forall data, Forall (fun d => ok d /\ 0 < p_wt K d) data ->
  obind (cumulative K data) (cumulative_inverse K) = Some data.
Proof.
  intros A V K ok HK data H.
  assert (R : rows_ok K ok data).
  { revert H. apply Forall_impl. intros d [Hd P]. split; [exact Hd|]. now apply Qclt_le_weak. }
  destruct (cumulative_rows_are_prefix_reductions K ok HK data R) as (rows & E & _). rewrite E. cbn [obind].
  apply (cumulative_inverse_restores K ok HK data rows).
  - revert H. apply Forall_impl. now intros d [Hd _].
  - exact E.
  - intros pre w post Eq. right. intros Z. rewrite Z in Eq.
    assert (In 0 (map (p_wt K) data)) as Hin by (rewrite Eq; apply in_elt). apply in_map_iff in Hin.
    destruct Hin as (d & Ed & Hd). rewrite Forall_forall in H. destruct (H d Hd) as [_ P]. rewrite Ed in P.
    now apply Qclt_not_le in P; apply P, Qcle_refl.
Qed.
(* a weightless later row is enough to raise ZeroDivisionError *)
Theorem cumulative_inverse_zero_row_refuted : exists data, rows_ok (pusher1 5 2) (fun a => length a = 3%nat) data /\
  cumulative (pusher1 5 2) data <> None /\ obind (cumulative (pusher1 5 2) data) (cumulative_inverse (pusher1 5 2)) = None.
Proof.
  exists exrows. split; [apply exrows_ok|]. split; [vm_compute; discriminate|]. vm_compute. reflexivity.
Qed.
Example cumulative_inverse_ex : let d := [lz [2; 5; 1]%Z; lz [3; -1; 4]%Z; lz [1; 2; 0]%Z] in
  Forall (fun a => length a = 3%nat /\ 0 < p_wt (pusher1 5 2) a) d /\
  oeqb (leqb eqb1) (obind (cumulative (pusher1 5 2) d) (cumulative_inverse (pusher1 5 2))) (Some d) = true.
Proof. cbv zeta. split; [repeat constructor|vm_compute; reflexivity]. Qed.

(* ---- C22 ------------------------------------------------------------------- *)

(* the rows of data, row j with its weight multiplied by f_j *)
Definition selected {A V} (K : pusher A V) (fs : list Qc) (data : list A) : list A :=
  map (fun p => reweight K (fst p) (snd p)) (combine fs data).

Theorem resample_data_is_weighted_reduction : forall {A V} (K : pusher A V) ok, moment_kernel K ok ->
  forall freq data, rows_ok K ok data -> Forall all_nonneg freq ->
  exists rows, resample_data K freq data = Some rows /\ length rows = length freq /\
    forall r, (r < length freq)%nat ->
      (total K (selected K (nth r freq []) data) <> 0 ->
         reduce_data K (selected K (nth r freq []) data) = Some (nth r rows (p_zero K))) /\
      (all_zero (nth r freq []) -> nth r rows (p_zero K) = p_zero K).
Proof.
  intros A V K ok HK freq data H F. destruct (kernel_laws K ok HK) as (I & L & E).
  assert (P : Forall (Pos L) data) by (eapply rows_ok_Pos; eauto).
  assert (PR : forall row, In row freq -> Forall (fun s => 0 <= fst s /\ Pos L (snd s)) (combine row data)).
  { intros row Hr. rewrite Forall_forall in F, P. specialize (F row Hr). apply Forall_forall. intros [f d] Hin.
    split; cbn [fst snd].
    - unfold all_nonneg in F. rewrite Forall_forall in F. apply F. eapply in_combine_l; eauto.
    - apply P. eapply in_combine_r; eauto. }
  destruct (mapM_total (fun row => resample_row K (combine row data)) freq) as (rows & Er).
  { intros row Hr. destruct (resample_row_ok L _ (PR row Hr)) as (r & E1 & _). eauto. }
  exists rows. split; [exact Er|]. split; [exact (mapM_length _ _ _ Er)|].
  intros r Hr. assert (Hin : In (nth r freq []) freq) by now apply nth_In.
  pose proof (mapM_nth _ _ _ [] (p_zero K) Er r Hr) as En. cbn beta in En.
  destruct (resample_row_ok L _ (PR _ Hin)) as (x & E1 & _ & _ & E2). rewrite E1 in En. injection En as En.
  split.
  - intros N. rewrite <- En. apply E2. exact N.
  - intros Z. rewrite resample_row_all0 in E1.
    + congruence.
    + apply Forall_forall. intros [f d] Hd. cbn. unfold all_zero in Z. rewrite Forall_forall in Z. apply Z.
      eapply in_combine_l; eauto.
Qed.
(* integer frequencies: row j repeated f_j times *)
Theorem resample_data_is_reduction_of_repeats : forall {A V} (K : pusher A V) ok, moment_kernel K ok ->
  forall (counts : list (list nat)) data, rows_ok K ok data ->
  Forall (fun row => length row = length data) counts ->
  exists rows, resample_data K (map (map qn) counts) data = Some rows /\ length rows = length counts /\
    forall r, (r < length counts)%nat ->
      let picked := concat (map (fun p => repeat (snd p) (fst p)) (combine (nth r counts []) data)) in
      total K picked <> 0 -> reduce_data K picked = Some (nth r rows (p_zero K)).
Proof.
  intros A V K ok HK counts data H F. destruct (kernel_laws K ok HK) as (I & L & E).
  assert (P : Forall (Pos L) data) by (eapply rows_ok_Pos; eauto).
  destruct (resample_data_is_weighted_reduction K ok HK (map (map qn) counts) data H) as (rows & Er & Ln & _).
  { apply Forall_forall. intros row Hr. apply in_map_iff in Hr. destruct Hr as (c & <- & _).
    apply Forall_forall. intros q Hq. apply in_map_iff in Hq. destruct Hq as (k & <- & _). apply qn_nonneg. }
  rewrite map_length in Ln. exists rows. split; [exact Er|]. split; [exact Ln|]. cbv zeta. intros r Hr N.
  pose proof (mapM_nth _ _ _ [] (p_zero K) Er r ltac:(now rewrite map_length)) as En. cbn beta in En.
  rewrite <- (resample_row_counts L) with (kd := combine (nth r counts []) data).
  - rewrite <- En. f_equal. rewrite (nth_indep _ [] (map qn [])) by now rewrite map_length. rewrite map_nth.
    generalize (nth r counts []). clear. intros row. revert data.
    induction row as [|k row IH]; intros [|d data]; cbn; [reflexivity..|]. now rewrite IH.
  - apply Forall_forall. intros [k d] Hd. cbn. rewrite Forall_forall in P. apply P. eapply in_combine_r; eauto.
  - exact N.
Qed.
Example resample_ex : let K := pusher1 5 2 in
  Forall all_nonneg [lz [2; 0; 1; 0]%Z; lz [0; 0; 0; 0]%Z] /\ total K (selected K (lz [2; 0; 1; 0]%Z) exrows) <> 0 /\
  oeqb (leqb eqb1) (resample_data K [lz [2; 0; 1; 0]%Z; lz [0; 0; 0; 0]%Z] exrows)
    (Some [[qz 7; fr 17 7; fr 544 49]; zeros1 3]) = true.
Proof.
  cbv zeta. split; [repeat constructor; qle|]. split; [apply qc_neq; vm_compute; reflexivity|].
  vm_compute. reflexivity.
Qed.

(* ---- C23 ------------------------------------------------------------------- *)

Theorem resample_weightless_returns_first_row : forall {A V} (K : pusher A V) ok, moment_kernel K ok ->
  forall (fd : list (Qc * A)) pre f d t, fd = pre ++ (f, d) :: t ->
  Forall (fun s => ok (snd s)) fd -> Forall (fun s => fst s = 0) pre -> f <> 0 ->
  p_wt K d = 0 -> Forall (fun s => p_wt K (snd s) * fst s = 0) t ->
  resample_data K [map fst fd] (map snd fd) = Some [d].
Proof.
  intros A V K ok HK fd pre f d t Efd W Hp Hf Hd Ht. destruct (kernel_laws K ok HK) as (I & L & E).
  unfold resample_data. cbn [mapM].
  replace (combine (map fst fd) (map snd fd)) with fd.
  2:{ clear. induction fd as [|[a b] t IH]; cbn; [reflexivity|]. now rewrite <- IH. }
  assert (W' : Forall (fun s => l_wf L (snd s)) fd).
  { revert W. apply Forall_impl. intros s. apply E. }
  rewrite Efd in *. apply Forall_app in W'. destruct W' as [_ W']. inversion W' as [|? ? Wd Wt]; subst.
  rewrite (resample_row_degenerate L) by assumption. reflexivity.
Qed.
Theorem resample_weightless_refuted : exists freq data,
  rows_ok (pusher1 5 2) (fun a => length a = 3%nat) data /\ Forall all_nonneg freq /\
  exists rows, resample_data (pusher1 5 2) freq data = Some rows /\
    reduce_data (pusher1 5 2) (selected (pusher1 5 2) (nth 0 freq []) data) <> Some (nth 0 rows []).
Proof.
  exists [lz [0; 1; 0; 0]%Z], exrows. split; [apply exrows_ok|]. split; [repeat constructor; qle|].
  eexists. split; [vm_compute; reflexivity|]. apply oeqb1_neq. vm_compute. reflexivity.
Qed.

(* ---- C24 ------------------------------------------------------------------- *)

Theorem resample_vals_is_weighted_reduction : forall {A V} (K : pusher A V) ok, moment_kernel K ok ->
  forall freq (xw : list (V * Qc)),
  resample_vals K freq xw
  = mapM (fun row => reduce_vals K (map (fun p => (fst (snd p), snd (snd p) * fst p)) (combine row xw))) freq.
Proof.
  intros A V K ok HK freq xw. destruct (kernel_laws K ok HK) as (I & L & E).
  unfold resample_vals. apply mapM_ext. intros row _. rewrite (resample_vals_row_eq L).
  rewrite (reduce_vals_points L), map_map. reflexivity.
Qed.
Theorem resample_vals_is_reduction_of_repeats : forall {A V} (K : pusher A V) ok, moment_kernel K ok ->
  forall (counts : list (list nat)) (xw : list (V * Qc)), all_nonneg (map snd xw) ->
  resample_vals K (map (map qn) counts) xw
  = mapM (fun row => reduce_vals K (concat (map (fun p => repeat (snd p) (fst p)) (combine row xw)))) counts.
Proof.
  intros A V K ok HK counts xw H. rewrite (resample_vals_is_weighted_reduction K ok HK), mapM_map.
  destruct (kernel_laws K ok HK) as (I & L & E). apply mapM_ext. intros row _.
  rewrite <- (reduce_vals_counts L).
  - f_equal. revert xw H. induction row as [|k row IH]; intros [|[x w] xw] H; cbn [combine map]; try reflexivity.
    cbn [fst snd]. f_equal; [f_equal; apply Qcmult_comm|]. apply IH. now inversion H.
  - apply Forall_forall. intros [k [x w]] Hin. apply in_combine_r in Hin. cbn.
    unfold all_nonneg in H. rewrite Forall_forall in H. apply H. apply in_map_iff. exists (x, w). auto.
Qed.
Example resample_vals_ex :
  let xw := [(qz 1, qz 2); (qz 4, qz 1)] in all_nonneg (map snd xw) /\
  oeqb (leqb eqb1) (resample_vals (pusher1 5 2) (map (map qn) [[2; 1]; [0; 0]]%nat) xw)
    (Some [[qz 5; fr 8 5; fr 36 25]; zeros1 3]) = true.
Proof. cbv zeta. split; [qlist|]. vm_compute. reflexivity. Qed.

(* ---- C28, C29 --------------------------------------------------------------- *)

Definition without {B} (i : nat) (l : list B) : list B := firstn i l ++ skipn (S i) l.

Theorem jackknife_rows_leave_one_out : forall {A V} (K : pusher A V) ok, moment_kernel K ok ->
  forall data, rows_ok K ok data ->
  Forall (fun d => p_wt K d = 0 \/ total K data <> p_wt K d) data ->
  exists rows, jackknife_data K data = Some rows /\ length rows = length data /\
    forall i, (i < length data)%nat -> reduce_data K (without i data) = Some (nth i rows (p_zero K)).
Proof.
  intros A V K ok HK data H G. destruct (kernel_laws K ok HK) as (I & L & E).
  apply (jackknife_ok L); [|exact G]. eapply rows_ok_Pos; eauto.
Qed.
Theorem jackknife_all_weight_in_one_row : forall {A V} (K : pusher A V) ok, moment_kernel K ok ->
  forall data, rows_ok K ok data ->
  ~ Forall (fun d => p_wt K d = 0 \/ total K data <> p_wt K d) data -> jackknife_data K data = None.
Proof.
  intros A V K ok HK data H G. destruct (kernel_laws K ok HK) as (I & L & E).
  apply (jackknife_none L); [|exact G]. eapply rows_ok_Pos; eauto.
Qed.
Theorem jackknife_vals_leave_one_out : forall {A V} (K : pusher A V) ok, moment_kernel K ok ->
  forall xw : list (V * Qc), all_nonneg (map snd xw) ->
  Forall (fun s => snd s = 0 \/ suml (fun p => snd p) xw <> snd s) xw ->
  exists rows, jackknife_vals K xw = Some rows /\ length rows = length xw /\
    forall i, (i < length xw)%nat -> reduce_vals K (without i xw) = Some (nth i rows (p_zero K)).
Proof.
  intros A V K ok HK xw H G. destruct (kernel_laws K ok HK) as (I & L & E).
  assert (P : Forall (Pos L) (map (pt L) xw)) by (apply pts_Pos; unfold all_nonneg in H; now rewrite Forall_map in H).
  rewrite (jackknife_vals_points L).
  destruct (jackknife_ok L (map (pt L) xw) P) as (rows & E1 & E2 & E3).
  - unfold jack_guard. rewrite Forall_map. revert G. apply Forall_impl. intros s Hs. rewrite (pt_wt L).
    destruct Hs as [Z|N]; [now left|right]. unfold sumwt. rewrite suml_map.
    rewrite (suml_ext _ (fun p => snd p)) by (intros; apply (pt_wt L)). exact N.
  - rewrite map_length in *. exists rows. split; [exact E1|]. split; [exact E2|]. intros i Hi.
    rewrite (reduce_vals_points L). specialize (E3 i Hi). unfold drop_nth in E3. unfold without.
    rewrite map_app, <- firstn_map, <- skipn_map. exact E3.
Qed.
Theorem jackknife_vals_all_weight_in_one : forall {A V} (K : pusher A V) ok, moment_kernel K ok ->
  forall xw : list (V * Qc), all_nonneg (map snd xw) ->
  ~ Forall (fun s => snd s = 0 \/ suml (fun p => snd p) xw <> snd s) xw -> jackknife_vals K xw = None.
Proof.
  intros A V K ok HK xw H G. destruct (kernel_laws K ok HK) as (I & L & E).
  rewrite (jackknife_vals_points L). apply (jackknife_none L).
  - apply pts_Pos; unfold all_nonneg in H; now rewrite Forall_map in H.
  - intros F. apply G. unfold jack_guard in F. rewrite Forall_map in F. revert F. apply Forall_impl.
    intros s. rewrite (pt_wt L). unfold sumwt. rewrite suml_map.
    rewrite (suml_ext _ (fun p => snd p)) by (intros; apply (pt_wt L)). auto.
Qed.
Example jackknife_ex : let K := pusher1 5 2 in
  Forall (fun d => p_wt K d = 0 \/ total K exrows <> p_wt K d) exrows /\
  oeqb (leqb eqb1) (jackknife_data K exrows) (mapM (fun i => reduce_data K (without i exrows)) [0; 1; 2; 3]%nat) = true /\
  jackknife_data K exrows <> None /\ jackknife_data K [lz [2; 5; 1]%Z] = None.
Proof.
  cbv zeta. split.
  - repeat (apply Forall_cons; [right; apply qc_neq; vm_compute; reflexivity|]). constructor.
  - split; [vm_compute; reflexivity|]. split; [vm_compute; discriminate|]. vm_compute. reflexivity.
Qed.

(* ---- C30, C34 --------------------------------------------------------------- *)

(* largest element *)
Definition zmax_of (m : Z) (l : list Z) : Prop := In m l /\ Forall (fun z => (z <= m)%Z) l.
Definition members {B} (g : nat) (by_ : list Z) (data : list B) : list B :=
  map snd (filter (fun s => (fst s =? Z.of_nat g)%Z) (combine by_ data)).

Theorem grouped_rows_are_group_reductions : forall {A V} (K : pusher A V) ok, moment_kernel K ok ->
  forall by_ data m, length by_ = length data -> rows_ok K ok data -> zmax_of m by_ -> (-1 <= m)%Z ->
  exists r, reduce_data_grouped K by_ data = Ok r /\ Z.of_nat (length r) = (m + 1)%Z /\
    forall g, (g < length r)%nat -> reduce_data K (members g by_ data) = Some (nth g r (p_zero K)).
Proof.
  intros A V K ok HK by_ data m Hl H [Hm1 Hm2] Hm. destruct (kernel_laws K ok HK) as (I & L & E).
  destruct by_ as [|b t]; [destruct Hm1|].
  assert (Em : fold_left Z.max t b = m).
  { rewrite Forall_forall in Hm2. apply Z.le_antisymm.
    - destruct (fold_max_in t b) as [->|Hin]; apply Hm2; [now left|now right].
    - destruct (fold_max_ge t b) as [G1 G2]. destruct Hm1 as [<-|Hin]; [exact G1|]. rewrite Forall_forall in G2. now apply G2. }
  destruct (reduce_grouped_ok L (b :: t) data b t eq_refl Hl) as (r & E1 & E2 & E3).
  - eapply rows_ok_Pos; eauto.
  - rewrite Em. lia.
  - rewrite Em in E2. exists r. auto.
Qed.
Theorem groups_merge_to_total : forall {A V} (K : pusher A V) ok, moment_kernel K ok ->
  forall by_ data r, length by_ = length data -> rows_ok K ok data -> reduce_data_grouped K by_ data = Ok r ->
  reduce_data K r = reduce_data K (map snd (filter (fun s => (0 <=? fst s)%Z) (combine by_ data))).
Proof.
  intros A V K ok HK by_ data r Hl H Er. destruct (kernel_laws K ok HK) as (I & L & E).
  destruct by_ as [|b t].
  - unfold reduce_data_grouped in Er. rewrite Hl, Nat.eqb_refl in Er. discriminate.
  - apply (groups_total L) with (b := b) (t := t); auto. eapply rows_ok_Pos; eauto.
Qed.
Theorem grouped_length_mismatch : forall {A V} (K : pusher A V) by_ data, length by_ <> length data ->
  reduce_data_grouped K by_ data = Raise EValue.
Proof.
  intros A V K by_ data H. unfold reduce_data_grouped.
  destruct (Nat.eqb_spec (length by_) (length data)); [contradiction|reflexivity].
Qed.
Example grouped_ex : let K := pusher1 5 2 in
  length [2; 0; -1; 2]%Z = length exrows /\ zmax_of 2 [2; 0; -1; 2]%Z /\
  match reduce_data_grouped K [2; 0; -1; 2]%Z exrows with
  | Ok r => leqb eqb1 r [zeros1 3; zeros1 3; [qz 3; qz 4; fr 8 3]] | Raise _ => false end = true.
Proof.
  cbv zeta. split; [reflexivity|]. split; [split; [now left|]|vm_compute; reflexivity].
  repeat constructor; discriminate.
Qed.

(* ---- C40-C42 ----------------------------------------------------------------- *)

Lemma win_window_at {B} window j (data : list B) : win window (S j) data = window_at window j data.
Proof.
  unfold win, window_at. rewrite firstn_skipn_comm. f_equal. f_equal. lia.
Qed.

Theorem rolling_rows_are_window_reductions : forall {A V} (K : pusher A V) ok, moment_kernel K ok ->
  forall window min_periods data, rows_ok K ok data ->
  exists rows, rolling_data K window min_periods data = Some rows /\ length rows = length data /\
    forall j, (j < length data)%nat ->
      nth j rows None =
      if (Z.max min_periods 1 <=? Z.of_nat (nonzero_count (map (p_wt K) (window_at window j data))))%Z
      then reduce_data K (window_at window j data) else None.
Proof.
  intros A V K ok HK window mp data H. destruct (kernel_laws K ok HK) as (I & L & E).
  destruct (rolling_core_ok L window (Z.max mp 1) data) as (rows & E1 & E2 & E3); [eapply rows_ok_Pos; eauto|].
  exists rows. split; [exact E1|]. split; [exact E2|]. intros j Hj. rewrite (E3 j Hj). unfold roll_expect.
  rewrite win_window_at. reflexivity.
Qed.
Theorem rolling_vals_rows_are_window_moments : forall {A V} (K : pusher A V) ok, moment_kernel K ok ->
  forall dflt window min_periods (xw : list (V * Qc)), all_nonneg (map snd xw) ->
  exists rows, rolling_vals K dflt window min_periods xw = Some rows /\ length rows = length xw /\
    forall j, (j < length xw)%nat ->
      nth j rows None =
      if (Z.max min_periods 1 <=? Z.of_nat (nonzero_count (map snd (window_at window j xw))))%Z
      then reduce_vals K (window_at window j xw) else None.
Proof.
  intros A V K ok HK dflt window mp xw H. destruct (kernel_laws K ok HK) as (I & L & E).
  destruct (rolling_core_ok L window (Z.max mp 1) (map (pt L) xw)) as (rows & E1 & E2 & E3).
  { apply pts_Pos; unfold all_nonneg in H; now rewrite Forall_map in H. }
  rewrite map_length in *. exists rows. split; [unfold rolling_vals; now rewrite (rolling_vals_points L)|].
  split; [exact E2|]. intros j Hj. rewrite (E3 j Hj). unfold roll_expect. rewrite win_window_at.
  assert (EW : window_at window j (map (pt L) xw) = map (pt L) (window_at window j xw)).
  { unfold window_at. now rewrite <- skipn_map, <- firstn_map. }
  rewrite EW, (reduce_vals_points L), map_map.
  rewrite (map_ext _ snd) by (intros; apply (pt_wt L)). reflexivity.
Qed.
(* the reset when the leaving weight is not below the current total is wrong
   with negative weights *)
Theorem rolling_negative_weights_refuted : exists window data rows j,
  Forall (fun a => length a = 3%nat) data /\ (j < length data)%nat /\
  (forall j, (j < length data)%nat -> running_ok (map (p_wt (pusher1 5 2)) (window_at window j data)) /\
     running_ok (map (p_wt (pusher1 5 2)) (firstn (S j) data))) /\
  rolling_data (pusher1 5 2) window 1 data = Some rows /\
  nth j rows None <> reduce_data (pusher1 5 2) (window_at window j data).
Proof.
  exists 1%nat, [lz [-1; 5; 1]%Z; lz [-1; 2; 4]%Z],
    [Some (lz [-1; 5; 1]%Z); Some (zeros1 3)], 1%nat.
  split; [repeat constructor|]. split; [cbn; lia|]. split.
  - intros j Hj. split; apply running_ok_nv; destruct j as [|[|j]]; cbn in *; try lia;
      repeat split; intros _; apply qc_neq; reflexivity.
  - split; [apply oloeqb1_eq; vm_compute; reflexivity|]. apply oeqb1_neq. vm_compute. reflexivity.
Qed.
Example rolling_ex : let K := pusher1 5 2 in
  oeqb (leqb (oeqb eqb1)) (rolling_data K 2 2 exrows)
    (Some [None; None; None; Some [qz 4; fr (-1) 4; fr 75 16]]) = true /\
  oeqb (leqb (oeqb eqb1)) (rolling_data K 2 0 exrows)
    (Some [Some (lz [2; 5; 1]%Z); Some (lz [2; 5; 1]%Z); Some (lz [3; -1; 4]%Z); Some [qz 4; fr (-1) 4; fr 75 16]]) = true.
Proof. cbv zeta. split; vm_compute; reflexivity. Qed.

(* ---- C44 --------------------------------------------------------------------- *)

(* output row i: the first i+1 rows, row j with weight multiplied by its coefficient *)
Definition exp_rows {A V} (K : pusher A V) adjust (ad : list (Qc * A)) (i : nat) : list A :=
  let row l := nth l ad (0, p_zero K) in
  map (fun j => reweight K (exp_coef adjust (fun l => fst (row l)) (fun l => p_wt K (snd (row l))) i j) (snd (row j)))
      (seq 0 (S i)).

Lemma firstn_fun {B} (l : list B) d n : (n <= length l)%nat -> firstn n l = map (fun i => nth i l d) (seq 0 n).
Proof.
  intros H. rewrite (seq_fun (firstn n l) d), firstn_length_le by exact H. apply map_ext_in.
  intros i Hi. apply in_seq in Hi. clear H. revert i Hi l. induction n as [|n IH]; intros i Hi l; [lia|].
  destruct l as [|x l]; [now rewrite firstn_nil|]. cbn [firstn]. destruct i as [|i]; [reflexivity|]. cbn [nth].
  apply IH. lia.
Qed.
Lemma combine_maps {X Y Z} (f : X -> Y) (g : X -> Z) l : combine (map f l) (map g l) = map (fun x => (f x, g x)) l.
Proof. induction l as [|x l IH]; cbn; [reflexivity|]. now rewrite IH. Qed.

Lemma rows_scaled_exp {A V I} {K : pusher A V} (L : laws K I) adjust ad i : (i < length ad)%nat ->
  Forall (fun s => 0 <= fst s /\ fst s <= 1 /\ (adjust = false -> fst s <> 0)) ad ->
  @rows_scaled A V K adjust (firstn (S i) ad) = exp_rows K adjust ad i.
Proof.
  intros Hi G. unfold rows_scaled, exp_rows, scale_rows. cbv zeta.
  set (row := fun l => nth l ad (0, p_zero K)).
  rewrite (firstn_fun ad (0, p_zero K)) by lia. fold row. rewrite !map_map. unfold aw.
  set (al := fun l => fst (row l)). set (w := fun l => p_wt K (snd (row l))).
  assert (EC : exp_coefs adjust (map (fun x => (fst (row x), p_wt K (snd (row x)))) (seq 0 (S i))) = coefs adjust al w (S i)).
  { change (map _ (seq 0 (S i))) with (map (fun l => (al l, w l)) (seq 0 (S i))). destruct adjust.
    - apply exp_state_adjust.
    - unfold exp_coefs. rewrite exp_state_noadjust; [reflexivity|]. intros l Hl. apply exp_norm_pos.
      intros m Hm. rewrite Forall_forall in G. destruct (G (row m)) as (G1 & G2 & G3).
      { unfold row. apply nth_In. lia. }
      unfold al. auto. }
  rewrite EC. cbn [coefs]. rewrite combine_maps, map_map. reflexivity.
Qed.

Theorem rolling_exp_rows_are_decayed_reductions : forall {A V} (K : pusher A V) ok, moment_kernel K ok ->
  forall adjust min_periods (ad : list (Qc * A)), rows_ok K ok (map snd ad) ->
  Forall (fun s => 0 <= fst s /\ fst s <= 1 /\ (adjust = false -> fst s <> 0)) ad ->
  exists rows, rolling_exp_data K adjust min_periods ad = Some rows /\ length rows = length ad /\
    forall i, (i < length ad)%nat ->
      if (Z.max min_periods 1 <=? Z.of_nat (nonzero_count (map (fun s => p_wt K (snd s)) (firstn (S i) ad))))%Z
      then exists d, nth i rows None = Some d /\ p_wt K d = total K (exp_rows K adjust ad i) /\
           (total K (exp_rows K adjust ad i) <> 0 -> reduce_data K (exp_rows K adjust ad i) = Some d)
      else nth i rows None = None.
Proof.
  intros A V K ok HK adjust mp ad H G. destruct (kernel_laws K ok HK) as (I & L & E).
  destruct (rolling_exp_ok L adjust mp ad) as (rows & E1 & E2 & E3).
  { unfold rows_ok in H. rewrite Forall_map in H. rewrite Forall_forall in *. intros s Hs.
    split; [|apply G, Hs]. destruct (H s Hs) as [H1 H2]. split; [now apply E|exact H2]. }
  exists rows. split; [exact E1|]. split; [exact E2|]. intros i Hi. specialize (E3 i Hi).
  unfold exp_row_ok in E3. rewrite (rows_scaled_exp L adjust ad i Hi G) in E3.
  change (nonzero_count (map (fun s => p_wt K (snd s)) (firstn (S i) ad)))
    with (nzcount (map (fun s => p_wt K (snd s)) (firstn (S i) ad))).
  destruct (Z.max mp 1 <=? _)%Z; [|exact E3]. destruct E3 as (d & Ed & Wd & Pd & Rd).
  exists d. split; [exact Ed|]. split; [|exact Rd]. exact (wt_sum L d _ Pd).
Qed.
(* values: output row i is the reduction of the samples with decayed weights *)
Definition exp_samples {V} adjust (ax : list (Qc * (V * Qc))) (dflt : V) (i : nat) : list (V * Qc) :=
  let row l := nth l ax (0, (dflt, 0)) in
  map (fun j => (fst (snd (row j)),
         snd (snd (row j)) * exp_coef adjust (fun l => fst (row l)) (fun l => snd (snd (row l))) i j))
      (seq 0 (S i)).
Lemma exp_coef_ext adjust al al' w w' i j : (j <= i)%nat ->
  (forall l, (l <= i)%nat -> al l = al' l) -> (forall l, (l <= i)%nat -> w l = w' l) ->
  exp_coef adjust al w i j = exp_coef adjust al' w' i j.
Proof.
  intros Hj Ha Hw.
  assert (D : forall a b, (b <= i)%nat -> decay al a b = decay al' a b).
  { intros a b Hb. apply prodr_ext. intros l Hl. rewrite Ha by lia. reflexivity. }
  assert (LN : forall l, (l <= i)%nat -> last_nonzero w l = last_nonzero w' l).
  { induction l as [|l IH]; intros Hl; [reflexivity|]. cbn [last_nonzero]. rewrite Hw, IH by lia. reflexivity. }
  assert (EN : forall l, (l <= i)%nat -> exp_norm al w l = exp_norm al' w' l).
  { intros l Hl. unfold exp_norm. rewrite Hw, LN, Ha by exact Hl. destruct (last_nonzero w' l); [|reflexivity].
    now rewrite D by exact Hl. }
  unfold exp_coef. destruct adjust; [now apply D|]. rewrite Hw, Ha, EN by lia.
  destruct (qeqb (w' j) 0); [reflexivity|]. f_equal. apply prodr_ext. intros l Hl.
  rewrite Ha, EN by lia. reflexivity.
Qed.
Theorem rolling_exp_vals_rows_are_decayed_reductions : forall {A V} (K : pusher A V) ok, moment_kernel K ok ->
  forall adjust min_periods dflt (ax : list (Qc * (V * Qc))), all_nonneg (map (fun s => snd (snd s)) ax) ->
  Forall (fun s => 0 <= fst s /\ fst s <= 1 /\ (adjust = false -> fst s <> 0)) ax ->
  exists rows, rolling_exp_vals K adjust min_periods ax = Some rows /\ length rows = length ax /\
    forall i, (i < length ax)%nat ->
      let s := exp_samples adjust ax dflt i in
      if (Z.max min_periods 1 <=? Z.of_nat (nonzero_count (map (fun s => snd (snd s)) (firstn (S i) ax))))%Z
      then exists d, nth i rows None = Some d /\ p_wt K d = suml (fun p => snd p) s /\
           (suml (fun p => snd p) s <> 0 -> reduce_vals K s = Some d)
      else nth i rows None = None.
Proof.
  intros A V K ok HK adjust mp dflt ax H G. cbv zeta. destruct (kernel_laws K ok HK) as (I & L & E).
  rewrite (rolling_exp_vals_points L). set (ad := map (fun s => (fst s, pt L (snd s))) ax).
  destruct (rolling_exp_rows_are_decayed_reductions K ok HK adjust mp ad) as (rows & E1 & E2 & E3).
  - unfold ad. rewrite map_map. cbn [snd]. apply Forall_map. unfold all_nonneg in H. rewrite Forall_map in H.
    revert H. apply Forall_impl. intros s Hs. split; [apply E, pt_wf|]. now rewrite (pt_wt L).
  - unfold ad. apply Forall_map. exact G.
  - exists rows. split; [exact E1|]. unfold ad in E2. rewrite map_length in E2. split; [exact E2|].
    intros i Hi. specialize (E3 i). unfold ad in E3 at 1. rewrite map_length in E3. specialize (E3 Hi).
    assert (EN : map (fun s => p_wt K (snd s)) (firstn (S i) ad) = map (fun s => snd (snd s)) (firstn (S i) ax)).
    { unfold ad. rewrite firstn_map, map_map. apply map_ext. intros s. cbn [snd]. apply (pt_wt L). }
    rewrite EN in E3.
    assert (ER : exp_rows K adjust ad i = map (pt L) (exp_samples adjust ax dflt i)).
    { unfold exp_rows, exp_samples. rewrite map_map. apply map_ext_in. intros j Hj. apply in_seq in Hj.
      assert (NTH : forall l, (l <= i)%nat -> nth l ad (0, p_zero K)
         = (fst (nth l ax (0, (dflt, 0))), pt L (snd (nth l ax (0, (dflt, 0)))))).
      { intros l Hl. unfold ad.
        rewrite (nth_indep _ (0, p_zero K) ((fun s => (fst s, pt L (snd s))) (0, (dflt, 0)))) by (rewrite map_length; lia).
        apply (map_nth (fun s => (fst s, pt L (snd s)))). }
      rewrite NTH by lia. cbn [snd].
      rewrite (exp_coef_ext adjust _ (fun l => fst (nth l ax (0, (dflt, 0)))) _ (fun l => snd (snd (nth l ax (0, (dflt, 0))))) i j).
      - destruct (nth j ax (0, (dflt, 0))) as [a [x w]]. cbn [snd fst]. apply (scaled_point L).
      - lia.
      - intros l Hl. now rewrite NTH.
      - intros l Hl. rewrite NTH by exact Hl. apply (pt_wt L). }
    rewrite ER in E3. rewrite (reduce_vals_points L).
    assert (ET : total K (map (pt L) (exp_samples adjust ax dflt i)) = suml (fun p => snd p) (exp_samples adjust ax dflt i)).
    { unfold total. rewrite suml_map. apply suml_ext. intros; apply (pt_wt L). }
    rewrite ET in E3. exact E3.
Qed.
(* after a complete decay (alpha = 1 at a weightless row) the old moments stay,
   with weight zero *)
Theorem rolling_exp_complete_decay_refuted : exists (ad : list (Qc * arr)) rows d,
  rows_ok (pusher1 5 2) (fun a => length a = 3%nat) (map snd ad) /\
  Forall (fun s => 0 <= fst s /\ fst s <= 1) ad /\
  rolling_exp_data (pusher1 5 2) true 1 ad = Some rows /\ nth 1 rows None = Some d /\
  reduce_data (pusher1 5 2) (exp_rows (pusher1 5 2) true ad 1) <> Some d.
Proof.
  exists [(fr 1 2, lz [2; 5; 1]%Z); (1, lz [0; 0; 0]%Z)], [Some (lz [2; 5; 1]%Z); Some (lz [0; 5; 1]%Z)], (lz [0; 5; 1]%Z).
  split; [repeat constructor; qle|]. split; [repeat constructor; qle|].
  split; [apply oloeqb1_eq; vm_compute; reflexivity|]. split; [reflexivity|].
  apply oeqb1_neq. vm_compute. reflexivity.
Qed.
Example rolling_exp_ex : let K := pusher1 5 2 in
  let ad := [(fr 1 2, lz [2; 5; 1]%Z); (fr 1 3, lz [0; 9; 9]%Z); (fr 1 4, lz [3; -1; 4]%Z)] in
  Forall (fun s => 0 <= fst s /\ fst s <= 1 /\ (false = false -> fst s <> 0)) ad /\
  total K (exp_rows K false ad 2) <> 0 /\
  oeqb (leqb (oeqb eqb1)) (rolling_exp_data K false 1 ad)
    (Some [Some (lz [2; 5; 1]%Z); Some (upd (lz [2; 5; 1]%Z) 0 (fr 4 3)); reduce_data K (exp_rows K false ad 2)]) = true /\
  reduce_data K (exp_rows K false ad 2) <> None.
Proof.
  cbv zeta. split; [repeat constructor; try qle; intros _; apply qc_neq; vm_compute; reflexivity|].
  split; [apply qc_neq; vm_compute; reflexivity|]. split; [vm_compute; reflexivity|vm_compute; discriminate].
Qed.

(* ---- C68 --------------------------------------------------------------------- *)

Theorem ones_frequency_is_reduction : forall {A V} (K : pusher A V) ok, moment_kernel K ok ->
  forall data, rows_ok K ok data -> total K data <> 0 ->
  resample_data K [repeat 1 (length data)] data = option_map (fun r => [r]) (reduce_data K data).
Proof.
  intros A V K ok HK data H N. destruct (kernel_laws K ok HK) as (I & L & E).
  destruct (resample_data_is_weighted_reduction K ok HK [repeat 1 (length data)] data H) as (rows & E1 & E2 & E3).
  { constructor; [|constructor]. apply Forall_forall. intros q Hq. apply repeat_spec in Hq. subst. discriminate. }
  assert (S : selected K (repeat 1 (length data)) data = data).
  { unfold selected. assert (W : Forall ok data) by (revert H; apply Forall_impl; tauto). clear -W L E.
    induction W as [|d t Hd _ IH]; [reflexivity|]. cbn [length repeat combine map fst snd]. rewrite IH. f_equal.
    apply (scaled_1 L). now apply E. }
  destruct rows as [|r [|? ?]]; try discriminate. destruct (E3 0%nat ltac:(cbn; lia)) as [E4 _].
  cbn [nth] in E4. rewrite S in E4. rewrite E1, (E4 N). reflexivity.
Qed.
Theorem permuted_ones_is_reduction : forall {A V} (K : pusher A V) ok, moment_kernel K ok ->
  forall data data', rows_ok K ok data -> total K data <> 0 -> Permutation data data' ->
  resample_data K [repeat 1 (length data')] data' = option_map (fun r => [r]) (reduce_data K data).
Proof.
  intros A V K ok HK data data' H N Pm. destruct (kernel_laws K ok HK) as (I & L & E).
  rewrite (reduce_perm L data data' Pm) by (eapply rows_ok_Pos; eauto).
  apply (ones_frequency_is_reduction K ok HK).
  - unfold rows_ok. now rewrite <- Pm.
  - unfold total. now rewrite <- (suml_perm _ _ _ Pm).
Qed.
Example ones_ex : total (pusher1 5 2) exrows <> 0.
Proof. apply qc_neq. vm_compute. reflexivity. Qed.

(* ---- C69 --------------------------------------------------------------------- *)

Theorem bias_correction_rows : forall adjust (wa : list (Qc * Qc)),
  let w l := fst (nth l wa (0, 0)) in let al l := snd (nth l wa (0, 0)) in
  (forall l, (l < length wa)%nat -> adjust = false -> exp_norm al w l <> 0) ->
  exists rows, rolling_exp_var_bias_correction adjust wa = Some rows /\ length rows = length wa /\
    forall i, (i < length wa)%nat ->
      let v1 := suml (fun j => w j * exp_coef adjust al w i j) (seq 0 (S i)) in
      let v2 := suml (fun j => w j * (exp_coef adjust al w i j * exp_coef adjust al w i j)) (seq 0 (S i)) in
      (0 < v1 * v1 - v2 -> nth i rows None = Some (v1 * v1 / (v1 * v1 - v2))) /\
      (v1 * v1 - v2 <= 0 -> nth i rows None = None).
Proof.
  cbv zeta. intros adjust wa G. pose proof (vbias_ok adjust wa) as H. cbv zeta in H. rewrite (H G). clear H.
  eexists. split; [reflexivity|]. rewrite map_length, seq_length. split; [reflexivity|]. intros i Hi.
  rewrite (nth_indep _ None (vbias_expect adjust (fun l => snd (nth l wa (0, 0))) (fun l => fst (nth l wa (0, 0))) 0))
    by now rewrite map_length, seq_length.
  rewrite (map_nth (vbias_expect _ _ _)), seq_nth by exact Hi. cbn [plus].
  unfold vbias_expect. fold (V1 adjust (fun l => snd (nth l wa (0, 0))) (fun l => fst (nth l wa (0, 0))) i).
  fold (V2 adjust (fun l => snd (nth l wa (0, 0))) (fun l => fst (nth l wa (0, 0))) i).
  set (v1 := V1 _ _ _ i). set (v2 := V2 _ _ _ i).
  destruct (qltb_spec 0 (v1 * v1 - v2)) as [Hlt|Hle]; split; intros X; try reflexivity.
  - exfalso. now apply Qcle_not_lt in X.
  - exfalso. now apply Hle.
Qed.
Theorem bias_correction_zero_norm : forall (wa : list (Qc * Qc)),
  let w l := fst (nth l wa (0, 0)) in let al l := snd (nth l wa (0, 0)) in
  ~ (forall l, (l < length wa)%nat -> exp_norm al w l <> 0) ->
  rolling_exp_var_bias_correction false wa = None.
Proof. exact vbias_none. Qed.
Example bias_correction_ex :
  match rolling_exp_var_bias_correction true [(1, fr 1 2); (1, fr 1 2)] with
  | Some [None; Some q] => qeqb q (fr 9 4) | _ => false end = true.
Proof. vm_compute. reflexivity. Qed.
