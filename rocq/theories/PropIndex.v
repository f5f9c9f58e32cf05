(* Properties of index tables, indexed reduction, labels, blocks and centered
   rolling (C25-C28, C31-C33, C35-C39, C43). *)
From Coq Require Import String Permutation Sorted.
From Verif Require Import Base BaseLemmas ModelPush ModelPushCov ModelKernels ModelIndex Spec SpecIndex
  Laws ProofKernels ProofRolling ProofSpec ProofReduce ProofIndex ProofIndexed ProofLabels Checks PropKernels.
Close Scope string_scope.
Local Open Scope Qc_scope.

(* ---- C26, C27: index tables and frequency tables ------------------------------- *)

Theorem indices_to_freq_counts : forall ndat indices,
  Forall (Forall (in_range ndat)) indices -> concat indices <> [] ->
  exists freq, indices_to_freq ndat indices = Ok freq /\ List.length freq = List.length indices /\
    forall r, (r < List.length indices)%nat ->
      List.length (nth r freq []) = ndat /\
      (forall j, (j < ndat)%nat -> nth j (nth r freq []) 0%Z = Z.of_nat (occ (nth r indices []) (Z.of_nat j))) /\
      zsum (nth r freq []) = Z.of_nat (List.length (nth r indices [])).
Proof.
  intros ndat indices H Hne. exists (map (counts ndat) indices). split; [|split].
  - unfold indices_to_freq. destruct (zmax_ok _ Hne) as (m & -> & Hm & _). cbn [rbind].
    apply in_concat in Hm. destruct Hm as (row & Hr & Hm).
    destruct (Z.leb_spec (Z.of_nat ndat) m).
    + rewrite Forall_forall in H. specialize (H row Hr). rewrite Forall_forall in H. specialize (H m Hm).
      unfold in_range in H. lia.
    + apply mapR_ok. intros a Ha. apply count_row_ok. rewrite Forall_forall in H. now apply H.
  - apply map_length.
  - intros r Hr. assert (Hin : In (nth r indices []) indices) by now apply nth_In.
    rewrite (nth_indep _ [] (counts ndat [])) by now rewrite map_length. rewrite map_nth.
    split; [apply counts_length|]. split; [intros; now apply counts_nth|]. apply counts_total.
    rewrite Forall_forall in H. now apply H.
Qed.
Theorem indices_to_freq_rejects_too_large : forall ndat indices i,
  In i (concat indices) -> (Z.of_nat ndat <= i)%Z -> indices_to_freq ndat indices = Raise EValue.
Proof.
  intros ndat indices i Hi Hn. unfold indices_to_freq. assert (Hne : concat indices <> []) by (intros E; now rewrite E in Hi).
  destruct (zmax_ok _ Hne) as (m & -> & _ & F). cbn [rbind]. rewrite Forall_forall in F. specialize (F i Hi).
  destruct (Z.leb_spec (Z.of_nat ndat) m); [reflexivity|lia].
Qed.
Theorem freq_to_indices_lists : forall junk freq nsamp,
  freq <> [] -> Forall nonneg freq -> Forall (fun row => zsum row = nsamp) freq ->
  exists indices, freq_to_indices junk freq = Ok indices /\ List.length indices = List.length freq /\
    forall r, (r < List.length freq)%nat ->
      Z.of_nat (List.length (nth r indices [])) = nsamp /\ StronglySorted Z.le (nth r indices []) /\
      Forall (in_range (List.length (nth r freq []))) (nth r indices []) /\
      forall j, (j < List.length (nth r freq []))%nat -> Z.of_nat (occ (nth r indices []) (Z.of_nat j)) = nth j (nth r freq []) 0%Z.
Proof.
  intros junk freq nsamp Hne H S.
  assert (E : freq_to_indices junk freq = Ok (map (spread 0) freq)).
  { unfold freq_to_indices. destruct freq as [|f0 t]; [congruence|].
    assert (S0 : zsum f0 = nsamp) by now inversion S.
    rewrite (proj2 (forallb_forall _ _)).
    2:{ intros f Hf. apply Z.eqb_eq. rewrite Forall_forall in S. now rewrite (S f Hf). }
    assert (N0 : (0 <= nsamp)%Z). { rewrite <- S0. apply zsum_nonneg. now inversion H. }
    rewrite S0. destruct (Z.ltb_spec nsamp 0); [lia|]. f_equal. apply map_ext_in. intros f Hf. apply fill_row_ok.
    - rewrite Forall_forall in H. now apply H.
    - rewrite repeat_length. rewrite Forall_forall in S. rewrite (S f Hf). lia. }
  exists (map (spread 0) freq). split; [exact E|]. split; [apply map_length|]. intros r Hr.
  assert (Hin : In (nth r freq []) freq) by now apply nth_In.
  assert (Nr : nonneg (nth r freq [])) by (rewrite Forall_forall in H; now apply H).
  rewrite (nth_indep _ [] (spread 0 [])) by now rewrite map_length. rewrite map_nth.
  split; [rewrite spread_length by exact Nr; rewrite Forall_forall in S; now apply S|].
  split; [apply spread_sorted|]. split; [exact (spread_range 0 (nth r freq []))|].
  intros j Hj. exact (spread_occ _ Nr 0 j Hj).
Qed.
Theorem freq_to_indices_rejects_unequal_sums : forall junk freq a b,
  In a freq -> In b freq -> zsum a <> zsum b -> freq_to_indices junk freq = Raise EValue.
Proof.
  intros junk freq a b Ha Hb N. unfold freq_to_indices. destruct freq as [|f0 t]; [destruct Ha|].
  destruct (forallb (fun f => Z.eqb (zsum f) (zsum f0)) (f0 :: t)) eqn:E; [|reflexivity].
  rewrite forallb_forall in E. exfalso. apply N.
  rewrite (proj1 (Z.eqb_eq _ _) (E a Ha)), (proj1 (Z.eqb_eq _ _) (E b Hb)). reflexivity.
Qed.
Theorem freq_to_indices_to_freq : forall junk ndat freq nsamp,
  freq <> [] -> (0 < nsamp)%Z -> Forall (fun row => nonneg row /\ List.length row = ndat /\ zsum row = nsamp) freq ->
  rbind (freq_to_indices junk freq) (indices_to_freq ndat) = Ok freq.
Proof.
  intros junk ndat freq nsamp Hne Hn H.
  destruct (freq_to_indices_lists junk freq nsamp Hne) as (idx & -> & Ll & R).
  { revert H. apply Forall_impl. tauto. }
  { revert H. apply Forall_impl. tauto. }
  cbn [rbind]. rewrite Forall_forall in H.
  assert (RR : Forall (Forall (in_range ndat)) idx).
  { apply Forall_forall. intros row Hr. destruct (In_nth _ _ [] Hr) as (r & Hr1 & <-).
    destruct (R r ltac:(lia)) as (_ & _ & F & _). destruct (H (nth r freq [])) as (_ & <- & _); [apply nth_In; lia|exact F]. }
  destruct (indices_to_freq_counts ndat idx RR) as (f & E & Lf & F).
  { intros Ec. destruct idx as [|row t]; [destruct freq; [congruence|discriminate]|].
    destruct (R 0%nat) as (Hl & _); [destruct freq; [congruence|cbn; lia]|]. cbn [nth] in Hl.
    destruct row; [cbn in Hl; lia|discriminate]. }
  rewrite E. f_equal. apply (list_eq_nth _ _ []); [lia|]. intros r Hr.
  destruct (F r ltac:(lia)) as (F1 & F2 & _). destruct (R r ltac:(lia)) as (_ & _ & _ & R4).
  destruct (H (nth r freq [])) as (_ & H2 & _); [apply nth_In; lia|].
  apply (list_eq_nth _ _ 0%Z); [lia|]. intros j Hj. rewrite F2 by lia. apply R4. lia.
Qed.
Theorem indices_to_freq_to_indices : forall junk ndat indices nsamp,
  (0 < nsamp)%nat -> indices <> [] -> Forall (fun row => Forall (in_range ndat) row /\ List.length row = nsamp) indices ->
  exists sorted, rbind (indices_to_freq ndat indices) (freq_to_indices junk) = Ok sorted /\
    List.length sorted = List.length indices /\
    forall r, (r < List.length indices)%nat ->
      Permutation (nth r sorted []) (nth r indices []) /\ StronglySorted Z.le (nth r sorted []).
Proof.
  intros junk ndat indices nsamp Hn Hne H.
  assert (RR : Forall (Forall (in_range ndat)) indices) by (revert H; apply Forall_impl; tauto).
  destruct (indices_to_freq_counts ndat indices RR) as (f & E & Lf & F).
  { intros Ec. destruct indices as [|row t]; [congruence|]. inversion H as [|? ? [_ Hl] _]; subst.
    destruct row; [cbn in Hn; lia|discriminate]. }
  rewrite E. cbn [rbind]. rewrite Forall_forall in H.
  destruct (freq_to_indices_lists junk f (Z.of_nat nsamp)) as (idx & E2 & Ll & R).
  { destruct f; [destruct indices; [congruence|discriminate]|discriminate]. }
  { apply Forall_forall. intros row Hr. destruct (In_nth _ _ [] Hr) as (r & Hr1 & <-).
    destruct (F r ltac:(lia)) as (F1 & F2 & _). apply Forall_forall. intros z Hz.
    destruct (In_nth _ _ 0%Z Hz) as (j & Hj & <-). rewrite F2 by lia. lia. }
  { apply Forall_forall. intros row Hr. destruct (In_nth _ _ [] Hr) as (r & Hr1 & <-).
    destruct (F r ltac:(lia)) as (_ & _ & ->). destruct (H (nth r indices [])) as [_ ->]; [apply nth_In; lia|reflexivity]. }
  exists idx. split; [exact E2|]. split; [lia|]. intros r Hr. destruct (R r ltac:(lia)) as (_ & R2 & R3 & R4).
  split; [|exact R2]. destruct (F r Hr) as (F1 & F2 & _). rewrite F1 in *.
  apply (Permutation_count_occ Z.eq_dec). intros z.
  destruct (H (nth r indices [])) as [H1 _]; [apply nth_In; lia|]. unfold in_range in *.
  rewrite Forall_forall in H1, R3.
  destruct (Z_le_dec 0 z); [destruct (Z_lt_dec z (Z.of_nat ndat))|].
  - assert (Hz : (Z.to_nat z < ndat)%nat) by lia.
    specialize (F2 (Z.to_nat z) Hz). specialize (R4 (Z.to_nat z) Hz). rewrite F2 in R4. rewrite Z2Nat.id in R4 by lia. lia.
  - rewrite !(proj1 (count_occ_not_In Z.eq_dec _ z)); [reflexivity| |]; intros Hin; [apply H1 in Hin|apply R3 in Hin]; lia.
  - rewrite !(proj1 (count_occ_not_In Z.eq_dec _ z)); [reflexivity| |]; intros Hin; [apply H1 in Hin|apply R3 in Hin]; lia.
Qed.
Example indices_freq_ex :
  Forall (Forall (in_range 4)) [[3; 0; 3]; [1; 1; 2]]%Z /\
  indices_to_freq 4 [[3; 0; 3]; [1; 1; 2]]%Z = Ok [[1; 0; 0; 2]; [0; 2; 1; 0]]%Z /\
  freq_to_indices 77 [[1; 0; 0; 2]; [0; 2; 1; 0]]%Z = Ok [[0; 3; 3]; [1; 1; 2]]%Z /\
  freq_to_indices 77 [[1; 0; 0; 2]; [0; 2; 2; 0]]%Z = Raise EValue.
Proof. split; [repeat constructor; cbv; intuition congruence|]. repeat split; reflexivity. Qed.

(* a negative index passes the check and is counted from the end *)
Theorem indices_to_freq_negative_wraps : forall ndat indices,
  Forall (Forall (fun i => (- Z.of_nat ndat <= i < Z.of_nat ndat)%Z)) indices -> concat indices <> [] ->
  indices_to_freq ndat indices =
  indices_to_freq ndat (map (map (fun i => if (i <? 0)%Z then (i + Z.of_nat ndat)%Z else i)) indices).
Proof.
  intros ndat indices H Hne. unfold indices_to_freq.
  assert (Hne' : concat (map (map (wrap ndat)) indices) <> []).
  { rewrite <- concat_map. destruct (concat indices); [congruence|discriminate]. }
  change (fun i => if (i <? 0)%Z then (i + Z.of_nat ndat)%Z else i) with (wrap ndat).
  destruct (zmax_ok _ Hne) as (m & -> & Hm & _). destruct (zmax_ok _ Hne') as (m' & -> & Hm' & _). cbn [rbind].
  assert (B : (m < Z.of_nat ndat)%Z).
  { apply in_concat in Hm. destruct Hm as (row & Hr & Hm). rewrite Forall_forall in H. specialize (H row Hr).
    rewrite Forall_forall in H. specialize (H m Hm). lia. }
  assert (B' : (m' < Z.of_nat ndat)%Z).
  { apply in_concat in Hm'. destruct Hm' as (row & Hr & Hm'). apply in_map_iff in Hr. destruct Hr as (r0 & <- & Hr).
    apply in_map_iff in Hm'. destruct Hm' as (i & <- & Hi). rewrite Forall_forall in H. specialize (H r0 Hr).
    rewrite Forall_forall in H. specialize (H i Hi). apply wrap_range in H. lia. }
  destruct (Z.leb_spec (Z.of_nat ndat) m); [lia|]. destruct (Z.leb_spec (Z.of_nat ndat) m'); [lia|].
  rewrite (mapR_ok _ (fun row => counts ndat (map (wrap ndat) row))).
  2:{ intros a Ha. apply count_row_wrap. rewrite Forall_forall in H. now apply H. }
  rewrite (mapR_ok (count_row ndat) (counts ndat)).
  2:{ intros a Ha. apply in_map_iff in Ha. destruct Ha as (r0 & <- & Hr). apply count_row_ok. apply Forall_map.
      rewrite Forall_forall in H. specialize (H r0 Hr). revert H. apply Forall_impl. intros i. apply wrap_range. }
  now rewrite map_map.
Qed.
Theorem indices_to_freq_negative_refuted : exists ndat indices freq,
  ~ Forall (Forall (in_range ndat)) indices /\ indices_to_freq ndat indices = Ok freq.
Proof.
  exists 3%nat, [[0; -1]]%Z, [[1; 0; 1]]%Z. split; [|reflexivity].
  intros H. inversion H as [|? ? H1 _]; subst. inversion H1 as [|? ? _ H2]; subst. inversion H2 as [|? ? H3 _]; subst.
  unfold in_range in H3. lia.
Qed.
(* further below it is a write outside the array *)
Theorem indices_to_freq_out_of_bounds : forall ndat indices i,
  In i (concat indices) -> (i < - Z.of_nat ndat)%Z -> Forall (fun j => (j < Z.of_nat ndat)%Z) (concat indices) ->
  indices_to_freq ndat indices = Raise EMem.
Proof.
  intros ndat indices i Hi Hn F. unfold indices_to_freq. assert (Hne : concat indices <> []) by (intros E; now rewrite E in Hi).
  destruct (zmax_ok _ Hne) as (m & -> & Hm & _). cbn [rbind]. rewrite Forall_forall in F.
  destruct (Z.leb_spec (Z.of_nat ndat) m); [specialize (F m Hm); lia|].
  apply in_concat in Hi. destruct Hi as (row & Hr & Hi). apply mapR_err with (a := row); auto.
  - now apply count_row_out with (i := i).
  - intros b e _. apply count_row_err.
Qed.
Example indices_negative_ex :
  Forall (Forall (fun i => (- Z.of_nat 3 <= i < Z.of_nat 3)%Z)) [[0; -1; -3]]%Z /\
  indices_to_freq 3 [[0; -1; -3]]%Z = Ok [[2; 0; 1]]%Z /\ indices_to_freq 3 [[0; -4]]%Z = Raise EMem.
Proof. split; [repeat constructor; cbv; intuition congruence|]. split; reflexivity. Qed.

(* ---- C25 ------------------------------------------------------------------------ *)

Lemma seq_nth_map {T} (l : list T) d : l = map (fun j => nth j l d) (seq 0 (List.length l)).
Proof.
  apply (list_eq_nth _ _ d); [now rewrite map_length, seq_length|]. intros i Hi.
  rewrite (nth_indep (map _ _) d (nth 0 l d)) by now rewrite map_length, seq_length.
  rewrite (map_nth (fun j => nth j l d)), seq_nth by exact Hi. reflexivity.
Qed.
Lemma sum_by_counts {B} (g : B -> Qc) (data : list B) d row : Forall (in_range (List.length data)) row ->
  suml (fun p => fst p * g (snd p)) (combine (map qz (counts (List.length data) row)) data)
  = suml (fun i => g (nth (Z.to_nat i) data d)) row.
Proof.
  intros H. unfold counts. rewrite map_map.
  transitivity (sumn (fun j => qz (Z.of_nat (occ row (Z.of_nat j))) * g (nth j data d)) (List.length data)).
  { pose proof (seq_nth_map data d) as E. set (n := List.length data) in *. rewrite E at 1.
    rewrite combine_map2, suml_map, suml_seq. reflexivity. }
  induction H as [|i t Hi Ht IH].
  - rewrite (sumn_ext _ (fun _ => 0)), sumn_0; [reflexivity|]. intros. cbn [count_occ Z.of_nat]. rewrite qz_0. ring.
  - rewrite suml_cons, <- IH. unfold in_range in Hi.
    rewrite (sumn_ext _ (fun j => (if Nat.eqb j (Z.to_nat i) then g (nth j data d) else 0)
                                  + qz (Z.of_nat (occ t (Z.of_nat j))) * g (nth j data d))).
    + rewrite sumn_add. f_equal.
      rewrite (sumn_pick _ _ (Z.to_nat i)); [now rewrite Nat.eqb_refl|lia|].
      intros j Hj N. destruct (Nat.eqb_spec j (Z.to_nat i)); [lia|reflexivity].
    + intros j Hj. cbn [count_occ]. destruct (Z.eq_dec i (Z.of_nat j)) as [E|N].
      * destruct (Nat.eqb_spec j (Z.to_nat i)); [|lia]. rewrite Nat2Z.inj_succ. unfold Z.succ. rewrite qz_add, qz_1. ring.
      * destruct (Nat.eqb_spec j (Z.to_nat i)); [lia|]. ring.
Qed.

Theorem resampling_by_indices : forall {A V} (K : pusher A V) ok, moment_kernel K ok ->
  forall data indices, rows_ok K ok data ->
  Forall (Forall (in_range (List.length data))) indices -> concat indices <> [] ->
  exists freq rows, indices_to_freq (List.length data) indices = Ok freq /\
    resample_data K (map (map qz) freq) data = Some rows /\ List.length rows = List.length indices /\
    forall r, (r < List.length indices)%nat ->
      let drawn := map (fun i => nth (Z.to_nat i) data (p_zero K)) (nth r indices []) in
      total K drawn <> 0 -> reduce_data K drawn = Some (nth r rows (p_zero K)).
Proof.
  intros A V K ok HK data indices H R Hne. destruct (kernel_laws K ok HK) as (I & L & E).
  assert (P : Forall (Pos L) data) by (eapply rows_ok_Pos; eauto).
  destruct (indices_to_freq_counts _ _ R Hne) as (freq & Ef & Lf & F).
  assert (FN : Forall all_nonneg (map (map qz) freq)).
  { apply Forall_map, Forall_forall. intros row Hr. unfold all_nonneg. apply Forall_map, Forall_forall. intros z Hz.
    destruct (In_nth _ _ [] Hr) as (r & Hr1 & <-). destruct (F r ltac:(lia)) as (F1 & F2 & _).
    destruct (In_nth _ _ 0%Z Hz) as (j & Hj & <-). rewrite F2 by lia. rewrite <- qz_0. apply qz_le. lia. }
  destruct (resample_data_is_weighted_reduction K ok HK _ data H FN) as (rows & Er & Lr & RR).
  rewrite map_length in Lr. exists freq, rows. split; [exact Ef|]. split; [exact Er|]. split; [lia|].
  intros r Hr drawn N. destruct (RR r ltac:(rewrite map_length; lia)) as [RR1 _].
  rewrite (nth_indep (map (map qz) freq) [] (map qz [])), map_nth in RR1 by (rewrite map_length; lia).
  set (row := nth r indices []) in *.
  assert (Hrow : Forall (in_range (List.length data)) row) by (rewrite Forall_forall in R; apply R, nth_In, Hr).
  assert (EC : nth r freq [] = counts (List.length data) row).
  { destruct (F r Hr) as (F1 & F2 & _). apply (list_eq_nth _ _ 0%Z); [now rewrite counts_length|].
    intros j Hj. rewrite F2, counts_nth by lia. reflexivity. }
  rewrite EC in RR1. set (fs := map qz (counts (List.length data) row)) in *.
  assert (Hc : Forall (fun s => 0 <= fst s /\ Pos L (snd s)) (combine fs data)).
  { apply Forall_forall. intros [f d] Hin. cbn [fst snd]. split.
    - apply in_combine_l in Hin. rewrite Forall_forall in FN.
      assert (X : all_nonneg fs); [|unfold all_nonneg in X; rewrite Forall_forall in X; now apply X].
      apply FN. unfold fs. rewrite <- EC. apply in_map, nth_In. lia.
    - apply in_combine_r in Hin. rewrite Forall_forall in P. now apply P. }
  assert (Pd : Forall (Pos L) drawn).
  { unfold drawn. apply Forall_map. rewrite Forall_forall in *. intros i Hi. apply P, nth_In.
    specialize (Hrow i Hi). unfold in_range in Hrow. lia. }
  assert (SE : forall i, l_dom L i -> sumphi L (selected K fs data) i = sumphi L drawn i).
  { intros i Hi. unfold sumphi, selected, drawn. rewrite !suml_map.
    rewrite <- (sum_by_counts (fun d => phi L d i) data (p_zero K) row Hrow). fold fs. apply suml_ext. intros p Hp.
    change (reweight K (fst p) (snd p)) with (@scaled _ _ K (fst p) (snd p)). apply (scaled_phi L).
    rewrite Forall_forall in Hc. apply Hc, Hp. }
  assert (Ps : Forall (Pos L) (selected K fs data)) by exact (scale_rows_Pos L _ Hc).
  rewrite <- RR1.
  - apply (reduce_same_sum L); auto using (Pos_wf L), (Pos_nv L).
    intros i Hi. symmetry. now apply SE.
  - intros Z. apply N. change (total K drawn) with (@sumwt _ _ K drawn). rewrite <- (sumphi_i0 L).
    rewrite <- SE by apply l_i0_dom. rewrite (sumphi_i0 L). exact Z.
Qed.
Example resampling_by_indices_ex : let K := pusher1 5 2 in
  Forall (Forall (in_range (List.length exrows))) [[2; 0; 0]]%Z /\
  total K (map (fun i => nth (Z.to_nat i) exrows (p_zero K)) [2; 0; 0]%Z) <> 0.
Proof.
  cbv zeta. split; [repeat constructor; cbv; intuition congruence|]. apply qc_neq. vm_compute. reflexivity.
Qed.

(* ---- C28: the jackknife as resampling ------------------------------------------- *)

Lemma sum_without {B} (g : B -> Qc) data : forall r, (r < List.length data)%nat ->
  suml (fun p => fst p * g (snd p)) (combine (map qz (upd (repeat 1%Z (List.length data)) r 0%Z)) data)
  = suml g (without r data).
Proof.
  assert (ONE : forall data, suml (fun p => fst p * g (snd p)) (combine (map qz (repeat 1%Z (List.length data))) data) = suml g data).
  { intros l. induction l as [|d t IH]; [reflexivity|]. cbn [List.length repeat map combine]. rewrite !suml_cons, IH.
    cbn [fst snd]. rewrite qz_1. ring. }
  induction data as [|d t IH]; intros r Hr; [cbn in Hr; lia|]. cbn [List.length repeat].
  destruct r as [|r].
  - cbn [upd map combine]. rewrite suml_cons, ONE. cbn [fst snd]. rewrite qz_0. unfold without. cbn [firstn skipn app]. ring.
  - cbn [upd map combine]. rewrite suml_cons, IH by (cbn in Hr; lia). cbn [fst snd]. rewrite qz_1.
    unfold without. cbn [firstn app]. rewrite suml_cons. cbn [skipn]. ring.
Qed.
Theorem jackknife_freq_rows : forall {A V} (K : pusher A V) ok, moment_kernel K ok ->
  forall data, rows_ok K ok data ->
  exists rows, resample_data K (map (map qz) (jackknife_freq (List.length data))) data = Some rows /\
    List.length rows = List.length data /\
    forall i, (i < List.length data)%nat -> total K (without i data) <> 0 ->
      reduce_data K (without i data) = Some (nth i rows (p_zero K)).
Proof.
  intros A V K ok HK data H. destruct (kernel_laws K ok HK) as (I & L & E).
  assert (P : Forall (Pos L) data) by (eapply rows_ok_Pos; eauto).
  assert (FN : Forall all_nonneg (map (map qz) (jackknife_freq (List.length data)))).
  { apply Forall_map, Forall_forall. intros row Hr. unfold jackknife_freq in Hr. apply in_map_iff in Hr.
    destruct Hr as (i & <- & _). unfold all_nonneg. apply Forall_map, Forall_forall. intros z Hz.
    destruct (In_nth _ _ 0%Z Hz) as (j & Hj & <-). rewrite <- qz_0. apply qz_le. rewrite upd_nth.
    rewrite upd_length, repeat_length in Hj.
    destruct (Nat.eqb i j); [destruct (Nat.ltb _ _); [lia|]|]; rewrite nth_repeat_any by exact Hj; lia. }
  destruct (resample_data_is_weighted_reduction K ok HK _ data H FN) as (rows & Er & Lr & RR).
  assert (LJ : List.length (jackknife_freq (List.length data)) = List.length data).
  { unfold jackknife_freq. now rewrite map_length, seq_length. }
  rewrite map_length, LJ in Lr. exists rows. split; [exact Er|]. split; [exact Lr|]. intros r Hr N.
  destruct (RR r ltac:(rewrite map_length; lia)) as [RR1 _].
  rewrite (nth_indep (map (map qz) (jackknife_freq (List.length data))) [] (map qz [])), map_nth in RR1 by (rewrite map_length; lia).
  assert (EC : nth r (jackknife_freq (List.length data)) [] = upd (repeat 1%Z (List.length data)) r 0%Z).
  { unfold jackknife_freq. rewrite (nth_indep _ [] (upd (repeat 1%Z (List.length data)) 0%nat 0%Z)) by (rewrite map_length, seq_length; lia).
    rewrite (map_nth (fun i => upd (repeat 1%Z (List.length data)) i 0%Z)), seq_nth by exact Hr. reflexivity. }
  rewrite EC in RR1. set (fs := map qz (upd (repeat 1%Z (List.length data)) r 0%Z)) in *.
  assert (Hc : Forall (fun s => 0 <= fst s /\ Pos L (snd s)) (combine fs data)).
  { apply Forall_forall. intros [f d] Hin. cbn [fst snd]. split.
    - apply in_combine_l in Hin. rewrite Forall_forall in FN.
      assert (X : all_nonneg fs); [|unfold all_nonneg in X; rewrite Forall_forall in X; now apply X].
      apply FN. unfold fs. rewrite <- EC. apply in_map, nth_In. lia.
    - apply in_combine_r in Hin. rewrite Forall_forall in P. now apply P. }
  assert (Pd : Forall (Pos L) (without r data)) by now apply drop_nth_Forall.
  assert (SE : forall i, l_dom L i -> sumphi L (selected K fs data) i = sumphi L (without r data) i).
  { intros i Hi. unfold sumphi, selected. rewrite suml_map.
    rewrite <- (sum_without (fun d => phi L d i) data r Hr). fold fs. apply suml_ext. intros p Hp.
    change (reweight K (fst p) (snd p)) with (@scaled _ _ K (fst p) (snd p)). apply (scaled_phi L).
    rewrite Forall_forall in Hc. apply Hc, Hp. }
  assert (Ps : Forall (Pos L) (selected K fs data)) by exact (scale_rows_Pos L _ Hc).
  rewrite <- RR1.
  - apply (reduce_same_sum L); auto using (Pos_wf L), (Pos_nv L).
    intros i Hi. symmetry. now apply SE.
  - intros Z. apply N. change (total K (without r data)) with (@sumwt _ _ K (without r data)). rewrite <- (sumphi_i0 L).
    rewrite <- SE by apply l_i0_dom. rewrite (sumphi_i0 L). exact Z.
Qed.
Example jackknife_freq_ex : jackknife_freq 3 = [[0; 1; 1]; [1; 0; 1]; [1; 1; 0]]%Z /\
  total (pusher1 5 2) (without 2 exrows) <> 0.
Proof. split; [reflexivity|]. apply qc_neq. vm_compute. reflexivity. Qed.

(* ---- C39: index validation ---------------------------------------------------------- *)

Theorem validate_index_accepts : forall ndat index start end_,
  validate_index ndat index start end_ = Ok tt <->
  index_safe ndat index start end_ /\
  (index <> [] -> start <> [] /\ Forall (fun s => (s < Z.of_nat (List.length index))%Z) start).
Proof. exact validate_index_iff. Qed.
Theorem validate_index_rejects_with_value_error : forall ndat index start end_,
  validate_index ndat index start end_ = Ok tt \/ validate_index ndat index start end_ = Raise EValue.
Proof.
  intros. destruct (validate_index ndat index start end_) as [[]|e] eqn:E; [now left|right].
  rewrite <- E. apply validate_index_err. congruence.
Qed.
(* no read of the indexed kernel leaves its arrays, whatever the arguments *)
Theorem indexed_never_out_of_bounds : forall {A V} (K : pusher A V) data index start end_ scale,
  reduce_data_indexed K data index start end_ scale <> Raise EMem.
Proof.
  intros A V K data index start end_ scale. unfold reduce_data_indexed.
  destruct (validate_index_rejects_with_value_error (List.length data) index start end_) as [E| ->]; [|discriminate].
  rewrite E. cbn [rbind]. apply validate_index_iff in E. destruct E as [(F & Hl & B) _].
  assert (X : forall sc, List.length sc = List.length index ->
     mapR (fun se => indexed_group K data index sc (fst se) (snd se)) (combine start end_) <> Raise EMem).
  { intros sc Hsc. apply mapR_no. intros se Hse. rewrite Forall_forall in B. specialize (B se Hse).
    apply indexed_no_mem; auto; tauto. }
  destruct scale as [s|].
  - destruct (Nat.eqb_spec (List.length s) (List.length index)) as [Hs|Hs]; cbn [rbind]; [|discriminate]. now apply X.
  - cbn [rbind]. apply X. apply repeat_length.
Qed.
Theorem indexed_scale_length_mismatch : forall {A V} (K : pusher A V) data index start end_ scale,
  List.length scale <> List.length index ->
  reduce_data_indexed K data index start end_ (Some scale) = Raise EValue.
Proof.
  intros A V K data index start end_ scale H. unfold reduce_data_indexed.
  destruct (validate_index_rejects_with_value_error (List.length data) index start end_) as [-> | ->]; [|reflexivity].
  cbn [rbind]. destruct (Nat.eqb_spec (List.length scale) (List.length index)); [contradiction|reflexivity].
Qed.
Example validate_index_ex :
  validate_index 4 [3; 0; 1]%Z [0; 2]%Z [2; 3]%Z = Ok tt /\ validate_index 4 [3; 0; 4]%Z [0; 2]%Z [2; 3]%Z = Raise EValue /\
  validate_index 4 [3; 0; 1]%Z [0; 2]%Z [2; 1]%Z = Raise EValue.
Proof. repeat split; reflexivity. Qed.

(* ---- C31: indexed reduction ------------------------------------------------------------ *)

Theorem indexed_rows_are_slice_reductions : forall {A V} (K : pusher A V) ok, moment_kernel K ok ->
  forall data index start end_ scale, rows_ok K ok data ->
  validate_index (List.length data) index start end_ = Ok tt ->
  List.length scale = List.length index -> all_nonneg scale ->
  exists rows, reduce_data_indexed K data index start end_ (Some scale) = Ok rows /\
    List.length rows = List.length start /\
    forall g, (g < List.length start)%nat ->
      let s := Z.to_nat (nth g start 0%Z) in
      let e := Z.to_nat (nth g end_ 0%Z) in
      let chosen := selected K (slice s e scale) (map (fun i => nth (Z.to_nat i) data (p_zero K)) (slice s e index)) in
      (total K chosen <> 0 -> reduce_data K chosen = Some (nth g rows (p_zero K))) /\
      (s = e -> nth g rows (p_zero K) = p_zero K).
Proof.
  intros A V K ok HK data index start end_ scale H Ev Hl Hn. destruct (kernel_laws K ok HK) as (I & L & E).
  assert (P : Forall (Pos L) data) by (eapply rows_ok_Pos; eauto).
  pose proof Ev as Ev'. apply validate_index_iff in Ev'. destruct Ev' as [(F & Hse & B) _].
  assert (EI : reduce_data_indexed K data index start end_ (Some scale) =
    mapR (fun se => indexed_group K data index scale (fst se) (snd se)) (combine start end_)).
  { unfold reduce_data_indexed. rewrite Ev. cbn [rbind]. rewrite Hl, Nat.eqb_refl. reflexivity. }
  rewrite EI.
  set (sel := fun se : Z * Z => picked (K := K) data index scale (Z.to_nat (fst se)) (Z.to_nat (snd se))).
  assert (PS : forall se, In se (combine start end_) -> Forall (fun s => 0 <= fst s /\ Pos L (snd s)) (sel se)).
  { intros se Hin. apply Forall_forall. intros [f d] Hd. unfold sel, picked in Hd. cbn [fst snd]. split.
    - apply in_combine_l in Hd. unfold slice in Hd. apply in_firstn_skipn in Hd.
      unfold all_nonneg in Hn. rewrite Forall_forall in Hn. now apply Hn.
    - apply in_combine_r in Hd. apply in_map_iff in Hd. destruct Hd as (i & <- & Hi). unfold slice in Hi.
      apply in_firstn_skipn in Hi. rewrite Forall_forall in F, P. apply P, nth_In. specialize (F i Hi). lia. }
  assert (EQ : forall se, In se (combine start end_) -> indexed_group K data index scale (fst se) (snd se) = of_opt EZeroDiv (scaled_fold (K := K) (sel se))).
  { intros se Hin. rewrite Forall_forall in B. specialize (B se Hin). apply indexed_group_eq; auto; tauto. }
  destruct (mapR (fun se => indexed_group K data index scale (fst se) (snd se)) (combine start end_)) as [rows|e] eqn:Er.
  2:{ exfalso. rewrite (mapR_ext _ (fun se => of_opt EZeroDiv (scaled_fold (K := K) (sel se)))) in Er by exact EQ.
      rewrite mapR_mapM in Er. destruct (mapM_total (fun se => scaled_fold (K := K) (sel se)) (combine start end_)) as (y & Ey).
      - intros se Hin. destruct (scaled_fold_ok L (sel se) (PS se Hin)) as (r & Er' & _). eauto.
      - rewrite Ey in Er. discriminate. }
  exists rows. split; [reflexivity|].
  assert (LC : List.length (combine start end_) = List.length start) by (rewrite combine_length; lia).
  split; [rewrite (mapR_length _ _ _ Er); exact LC|].
  intros g Hg s e chosen.
  pose proof (mapR_nth _ _ _ (0%Z, 0%Z) (p_zero K) Er g ltac:(lia)) as En. cbn beta in En.
  assert (Hin : In (nth g (combine start end_) (0%Z, 0%Z)) (combine start end_)) by (apply nth_In; lia).
  rewrite EQ in En by exact Hin.
  destruct (scaled_fold_ok L _ (PS _ Hin)) as (r & Er' & _ & _ & U). rewrite Er' in En. cbn [of_opt] in En. injection En as En.
  rewrite combine_nth in * by exact Hse. unfold sel in *. cbn [fst snd] in *. fold s e in U, Er'.
  rewrite <- En. split; [exact U|]. intros Eq. unfold picked, slice in Er'. rewrite Eq, Nat.sub_diag in Er'. cbn [firstn map combine scaled_fold] in Er'.
  now injection Er'.
Qed.
(* scale=None is a scale of ones *)
Theorem indexed_default_scale : forall {A V} (K : pusher A V) data index start end_,
  reduce_data_indexed K data index start end_ None =
  reduce_data_indexed K data index start end_ (Some (repeat 1 (List.length index))).
Proof.
  intros. unfold reduce_data_indexed. rewrite repeat_length, Nat.eqb_refl. reflexivity.
Qed.
Example indexed_ex : let K := pusher1 5 2 in
  validate_index 4 [3; 0; 2; 0]%Z [0; 1; 1]%Z [1; 1; 4]%Z = Ok tt /\ all_nonneg (lz [1; 2; 1; 0]%Z) /\
  match reduce_data_indexed K exrows [3; 0; 2; 0]%Z [0; 1; 1]%Z [1; 1; 4]%Z (Some (lz [1; 2; 1; 0]%Z)) with
  | Ok r => leqb eqb1 r [lz [1; 2; 0]%Z; zeros1 3; [qz 7; fr 17 7; fr 544 49]] | Raise _ => false end = true.
Proof. cbv zeta. split; [reflexivity|]. split; [repeat constructor; qle|]. vm_compute. reflexivity. Qed.

(* ---- C33: labels ---------------------------------------------------------------------------- *)

Theorem factor_by_codes_and_groups : forall {T} (eqb leb : T -> T -> bool) (skip : T -> bool),
  (forall x y, eqb x y = true <-> x = y) ->
  forall sort by_ groups codes, factor_by eqb leb skip sort by_ = (groups, codes) ->
  NoDup groups /\ List.length codes = List.length by_ /\
  (forall i y, nth_error by_ i = Some (Some y) -> skip y = false ->
     exists k, nth_error codes i = Some (Z.of_nat k) /\ nth_error groups k = Some y) /\
  (forall i x, nth_error by_ i = Some x -> (x = None \/ exists y, x = Some y /\ skip y = true) ->
     nth_error codes i = Some (-1)%Z) /\
  (forall k, (k < List.length groups)%nat -> exists i, nth_error codes i = Some (Z.of_nat k)).
Proof.
  intros T eqb leb skip He sort by_ groups codes E. rewrite factor_by_eq in E. injection E as <- <-.
  split; [now apply groups_NoDup|]. split; [unfold norm; now rewrite !map_length|].
  split; [|split].
  - intros i y Hi Hs.
    assert (Hn : nth_error (norm skip by_) i = Some (Some y)).
    { unfold norm. rewrite (map_nth_error _ _ _ Hi). cbn. now rewrite Hs. }
    destruct (code_some eqb He (groups_of eqb leb skip sort by_) y) as (k & Ek & _ & Hk).
    { apply groups_in; [exact He|]. eapply nth_error_In; eauto. }
    exists k. split; [|exact Hk]. rewrite (map_nth_error _ _ _ Hn). now rewrite Ek.
  - intros i x Hi Hx.
    assert (Hn : nth_error (norm skip by_) i = Some None).
    { unfold norm. rewrite (map_nth_error _ _ _ Hi). destruct Hx as [->|(y & -> & Hs)]; [reflexivity|]. cbn. now rewrite Hs. }
    now rewrite (map_nth_error _ _ _ Hn).
  - intros k Hk. destruct (factor_by_codes eqb leb skip He sort by_) as [_ U].
    specialize (U k Hk). now apply In_nth_error.
Qed.
Theorem factor_by_sorted_groups : forall {T} (eqb leb : T -> T -> bool) (skip : T -> bool),
  (forall x y, leb x y = true \/ leb y x = true) ->
  (forall x y z, leb x y = true -> leb y z = true -> leb x z = true) ->
  forall by_, StronglySorted (fun a b => leb a b = true) (fst (factor_by eqb leb skip true by_)).
Proof. intros T eqb leb skip H1 H2 by_. now apply sort_sorted. Qed.
Theorem factor_by_first_appearance : forall {T} (eqb leb : T -> T -> bool) (skip : T -> bool),
  (forall x y, eqb x y = true <-> x = y) ->
  forall by_, StronglySorted (before by_) (fst (factor_by eqb leb skip false by_)).
Proof.
  intros T eqb leb skip He by_. rewrite factor_by_eq. cbn [fst groups_of].
  pose proof (uniques_order eqb He (norm skip by_)) as H.
  assert (NS : Forall (fun y => skip y = false) (uniques eqb (norm skip by_))).
  { apply Forall_forall. intros y Hy. apply uniques_in in Hy; [|exact He]. unfold norm in Hy. apply in_map_iff in Hy.
    destruct Hy as ([z|] & Hz & _); [|discriminate]. cbn in Hz. destruct (skip z) eqn:Es; [discriminate|]. now injection Hz as <-. }
  induction H as [|x t Ht IH Hx]; [constructor|]. inversion NS as [|? ? Nx Nt]; subst. constructor; [now apply IH|].
  rewrite Forall_forall in Hx, Nt. apply Forall_forall. intros y Hy. destruct (Hx y Hy) as (l1 & l2 & El & N).
  unfold norm in El. apply map_eq_app in El. destruct El as (b1 & b2 & -> & E1 & E2).
  destruct b2 as [|a b2]; [discriminate|]. cbn in E2. injection E2 as E2 _.
  destruct a as [z|]; [|discriminate]. cbn in E2. destruct (skip z) eqn:Es; [discriminate|]. injection E2 as ->.
  exists b1, b2. split; [reflexivity|]. intros Hin. apply N. rewrite <- E1. apply in_map_iff. exists (Some y).
  split; [|exact Hin]. cbn. now rewrite (Nt y Hy).
Qed.
Definition exlabels : list (option Z) := [Some 5; None; Some 2; Some (-1); Some 5; Some 2; Some 9]%Z.
Definition zneg (z : Z) : bool := (z <? 0)%Z.
Example factor_by_ex :
  factor_by Z.eqb Z.leb zneg false exlabels = ([5; 2; 9], [0; -1; 1; -1; 0; 1; 2])%Z /\
  factor_by Z.eqb Z.leb zneg true exlabels = ([2; 5; 9], [1; -1; 0; -1; 1; 0; 2])%Z /\
  (forall x y, Z.eqb x y = true <-> x = y) /\ (forall x y, Z.leb x y = true \/ Z.leb y x = true).
Proof.
  split; [reflexivity|]. split; [reflexivity|]. split; [apply Z.eqb_eq|]. intros. rewrite !Z.leb_le. lia.
Qed.

(* ---- C32: factor_by_to_index -------------------------------------------------------------------- *)

Section FactorToIndex.
  Context {T : Type} (eqb leb : T -> T -> bool) (skip : T -> bool).
  Hypothesis eqb_spec : forall x y, eqb x y = true <-> x = y.
  Context (argsort : list Z -> list nat) (Hs : sorts argsort).

  Lemma fbti_facts by_ groups index start end_ :
    factor_by_to_index eqb leb skip argsort by_ = ((groups, index), (start, end_)) ->
    let codes := snd (factor_by eqb leb skip true by_) in
    let k := List.length groups in
    groups = fst (factor_by eqb leb skip true by_) /\ good_codes k codes /\
    index = map (back codes) (perm argsort codes) /\
    start = map (fun g => Z.of_nat (startg argsort codes g)) (seq 0 k) /\
    end_ = map (fun g => Z.of_nat (startg argsort codes (S g))) (seq 0 k).
  Proof.
    intros E codes k.
    pose proof (factor_by_codes eqb leb skip eqb_spec true by_) as G.
    pose proof (factor_by_to_index_eq eqb leb skip argsort Hs by_) as F. cbv zeta in F.
    assert (EF : factor_by eqb leb skip true by_ = (groups_of eqb leb skip true by_, map (code_of eqb (groups_of eqb leb skip true by_)) (norm skip by_))) by reflexivity.
    assert (G' : good_codes (List.length (fst (factor_by eqb leb skip true by_))) (snd (factor_by eqb leb skip true by_))) by (rewrite EF; exact G).
    specialize (F G'). rewrite F in E. clear F EF G.
    remember (factor_by eqb leb skip true by_) as fb. destruct fb as [gr cs]. cbn [fst snd] in *.
    injection E as E1 E2 E3 E4. subst. auto.
  Qed.
  Lemma map_seq_nth (f : nat -> Z) k g : (g < k)%nat -> nth g (map f (seq 0 k)) 0%Z = f g.
  Proof.
    intros H. rewrite (nth_indep _ 0%Z (f 0%nat)) by now rewrite map_length, seq_length.
    now rewrite map_nth, seq_nth.
  Qed.
End FactorToIndex.

Theorem factor_by_to_index_partition : forall {T} (eqb leb : T -> T -> bool) (skip : T -> bool),
  (forall x y, eqb x y = true <-> x = y) -> forall argsort, sorts argsort ->
  forall by_ groups index start end_,
  factor_by_to_index eqb leb skip argsort by_ = ((groups, index), (start, end_)) ->
  let codes := snd (factor_by eqb leb skip true by_) in
  let k := List.length groups in
  groups = fst (factor_by eqb leb skip true by_) /\ List.length start = k /\ List.length end_ = k /\
  Permutation index (map Z.of_nat (filter (fun i => (0 <=? nth i codes (-1))%Z) (seq 0 (List.length by_)))) /\
  (forall g, (g < k)%nat ->
     let s := nth g start 0%Z in
     let e := nth g end_ 0%Z in
     (0 <= s < e)%Z /\ (e <= Z.of_nat (List.length index))%Z /\
     s = (match g with O => 0 | S h => nth h end_ 0 end)%Z /\
     (S g = k -> e = Z.of_nat (List.length index)) /\
     Permutation (slice (Z.to_nat s) (Z.to_nat e) index) (map Z.of_nat (at_code codes g)) /\
     (stable argsort -> slice (Z.to_nat s) (Z.to_nat e) index = map Z.of_nat (at_code codes g))).
Proof.
  intros T eqb leb skip He argsort Hs by_ groups index start end_ E codes k.
  destruct (fbti_facts eqb leb skip He argsort Hs _ _ _ _ _ E) as (E1 & G & E2 & E3 & E4).
  fold codes in E1, G, E2, E3, E4. fold k in G, E3, E4.
  split; [exact E1|]. split; [rewrite E3, map_length; apply seq_length|].
  split; [rewrite E4, map_length; apply seq_length|]. split.
  - rewrite E2. replace (List.length by_) with (List.length codes).
    2:{ unfold codes. rewrite factor_by_eq. cbn [snd]. unfold norm. now rewrite !map_length. }
    fold (kept codes). rewrite <- (kept_perm argsort Hs codes). rewrite map_map. 
    replace (map (back codes) (perm argsort codes)) with (map (fun x => Z.of_nat (nth x (kept codes) 0%nat)) (perm argsort codes)); [reflexivity|].
    apply map_ext_in. intros i Hi. symmetry. apply back_eq. now apply (perm_range argsort Hs).
  - intros g Hg s e.
    assert (Es : s = Z.of_nat (startg argsort codes g)) by (unfold s; rewrite E3; exact (map_seq_nth (fun g => Z.of_nat (startg argsort codes g)) k g Hg)).
    assert (Ee : e = Z.of_nat (startg argsort codes (S g))) by (unfold e; rewrite E4; exact (map_seq_nth (fun g => Z.of_nat (startg argsort codes (S g))) k g Hg)).
    assert (O : (0 < occ (sortedc argsort codes) (Z.of_nat g))%nat).
    { apply count_occ_In. apply (Permutation_in _ (Permutation_sym (sortedc_perm argsort Hs codes))).
      apply codes'_in. split; [apply G; lia|lia]. }
    assert (Mono : forall a b, (a <= b)%nat -> (startg argsort codes a <= startg argsort codes b)%nat).
    { intros a b Hab. induction Hab as [|b Hab IH]; [lia|]. rewrite startg_S. lia. }
    assert (LI : List.length index = startg argsort codes k).
    { rewrite E2, map_length. symmetry. now apply (startg_k argsort Hs k codes G). }
    split; [rewrite Es, Ee, startg_S; lia|].
    split; [rewrite Ee, LI; specialize (Mono (S g) k Hg); lia|].
    split. { rewrite Es. destruct g as [|h]; [now rewrite (startg_0 argsort Hs codes)|].
             rewrite E4. symmetry. apply (map_seq_nth (fun g => Z.of_nat (startg argsort codes (S g))) k h). lia. }
    split; [intros Hk; now rewrite Ee, LI, Hk|].
    rewrite Es, Ee, !Nat2Z.id, E2. fold (slot argsort codes g). split.
    + now apply slot_perm.
    + intros St. now apply slot_stable.
Qed.
(* with an unstable sort the positions of a group may come in another order *)
Theorem factor_by_to_index_order_refuted : exists argsort by_ groups index start end_,
  sorts argsort /\ factor_by_to_index Z.eqb Z.leb zneg argsort by_ = ((groups, index), (start, end_)) /\
  ~ StronglySorted Z.le (slice (Z.to_nat (nth 0 start 0%Z)) (Z.to_nat (nth 0 end_ 0%Z)) index).
Proof.
  exists argsort_reversing, [Some 4; Some 4]%Z, [4]%Z, [1; 0]%Z, [0]%Z, [2]%Z.
  split; [apply argsort_reversing_ok|]. split; [reflexivity|]. cbn. intros H. inversion H as [|? ? _ F]; subst.
  inversion F. lia.
Qed.
Example factor_by_to_index_ex : sorts argsort_stable /\ stable argsort_stable /\
  factor_by_to_index Z.eqb Z.leb zneg argsort_stable exlabels = (([2; 5; 9], [2; 5; 0; 4; 6]), ([0; 2; 4], [2; 4; 5]))%Z.
Proof. split; [apply argsort_stable_ok|]. split; [apply argsort_stable_ok|]. reflexivity. Qed.

(* ---- C31: indexed and grouped reduction agree ----------------------------------------------------- *)

Lemma members_at_code {B} (d : B) codes data g : List.length codes = List.length data ->
  members g codes data = map (fun i => nth i data d) (at_code codes g).
Proof.
  intros H. unfold members, at_code.
  rewrite (seq_nth_map codes (-1)%Z) at 1. rewrite (seq_nth_map data d) at 1. rewrite <- H, combine_map2.
  rewrite (filter_map (fun i => (nth i codes (-1)%Z, nth i data d))), map_map. cbn [fst snd]. reflexivity.
Qed.

Theorem indexed_equals_grouped : forall {A V} (K : pusher A V) ok, moment_kernel K ok ->
  forall {T} (eqb leb : T -> T -> bool) (skip : T -> bool), (forall x y, eqb x y = true <-> x = y) ->
  forall argsort, sorts argsort ->
  forall by_ data groups index start end_, rows_ok K ok data -> List.length by_ = List.length data -> by_ <> [] ->
  factor_by_to_index eqb leb skip argsort by_ = ((groups, index), (start, end_)) ->
  let codes := snd (factor_by eqb leb skip true by_) in
  exists ri rg, reduce_data_indexed K data index start end_ None = Ok ri /\
    reduce_data_grouped K codes data = Ok rg /\
    List.length ri = List.length groups /\ List.length rg = List.length groups /\
    forall g, (g < List.length groups)%nat ->
      total K (members g codes data) <> 0 -> nth g ri (p_zero K) = nth g rg (p_zero K).
Proof.
  intros A V K ok HK T eqb leb skip He argsort Hs by_ data groups index start end_ H Hl Hne Ef codes.
  destruct (kernel_laws K ok HK) as (I & L & E).
  assert (P : Forall (Pos L) data) by (eapply rows_ok_Pos; eauto).
  destruct (fbti_facts eqb leb skip He argsort Hs _ _ _ _ _ Ef) as (_ & G & _). fold codes in G.
  pose proof (factor_by_to_index_partition eqb leb skip He argsort Hs _ _ _ _ _ Ef) as Pt. cbv zeta in Pt. fold codes in Pt.
  destruct Pt as (_ & Ls & Le & PI & Sl).
  assert (Lc : List.length codes = List.length data).
  { unfold codes. rewrite factor_by_eq. cbn [snd]. unfold norm. rewrite !map_length. exact Hl. }
  destruct G as [G1 G2]. set (k := List.length groups) in *.
  (* grouped *)
  destruct (grouped_rows_are_group_reductions K ok HK codes data (Z.of_nat k - 1)%Z Lc H) as (rg & Eg & Lg & Rg).
  { split.
    - destruct (Nat.eq_dec k 0) as [K0|K0].
      + destruct codes as [|c t] eqn:Ec; [rewrite <- Hl in Lc; destruct by_; [congruence|discriminate]|].
        left. inversion G1; subst. rewrite K0 in *. lia.
      + replace (Z.of_nat k - 1)%Z with (Z.of_nat (k - 1)) by lia. apply G2. lia.
    - revert G1. apply Forall_impl. intros; lia. }
  { lia. }
  (* validation *)
  assert (Ev : validate_index (List.length data) index start end_ = Ok tt).
  { apply validate_index_iff. split.
    - split; [|split; [lia|]].
      + apply Forall_forall. intros i Hi. apply (Permutation_in _ PI), in_map_iff in Hi. destruct Hi as (j & <- & Hj).
        apply filter_In in Hj. destruct Hj as [Hj _]. apply in_seq in Hj. lia.
      + apply Forall_forall. intros se Hse. destruct (In_nth _ _ (0%Z, 0%Z) Hse) as (g & Hg & <-).
        rewrite combine_length in Hg. rewrite combine_nth by lia. cbn [fst snd].
        destruct (Sl g ltac:(lia)) as (S1 & S2 & _). lia.
    - intros Hi. split.
      + intros E0. subst start. cbn in Ls. apply Hi.
        destruct index as [|i t]; [reflexivity|exfalso]. assert (Hin : In i (i :: t)) by now left.
        apply (Permutation_in _ PI), in_map_iff in Hin. destruct Hin as (j & _ & Hj). apply filter_In in Hj.
        destruct Hj as [Hj H0]. apply in_seq in Hj. apply Z.leb_le in H0.
        rewrite Forall_forall in G1. specialize (G1 (nth j codes (-1)%Z) ltac:(apply nth_In; lia)). lia.
      + apply Forall_forall. intros s Hin. destruct (In_nth _ _ 0%Z Hin) as (g & Hg & <-).
        destruct (Sl g ltac:(lia)) as (S1 & S2 & _). lia. }
  rewrite indexed_default_scale.
  destruct (indexed_rows_are_slice_reductions K ok HK data index start end_ (repeat 1 (List.length index)) H Ev) as (ri & Ei & Li & Ri).
  { apply repeat_length. }
  { apply Forall_repeat. apply Qclt_le_weak, Qc_0_lt_1. }
  exists ri, rg. split; [exact Ei|]. split; [exact Eg|]. split; [lia|]. split; [lia|].
  intros g Hg N. specialize (Ri g ltac:(lia)). cbv zeta in Ri. destruct Ri as [Ri _].
  specialize (Rg g ltac:(lia)). destruct (Sl g Hg) as (S1 & S2 & _ & _ & S5 & _).
  set (s := Z.to_nat (nth g start 0%Z)) in *. set (e := Z.to_nat (nth g end_ 0%Z)) in *.
  assert (PE : Permutation (map (fun i => nth (Z.to_nat i) data (p_zero K)) (slice s e index)) (members g codes data)).
  { rewrite (members_at_code (p_zero K)) by exact Lc. rewrite S5, map_map.
    rewrite (map_ext (fun x => nth (Z.to_nat (Z.of_nat x)) data (p_zero K)) (fun x => nth x data (p_zero K))) by (intros; now rewrite Nat2Z.id).
    reflexivity. }
  assert (PM : Forall (Pos L) (members g codes data)).
  { unfold members. apply Forall_map, Forall_forall. intros [c d] Hin. apply filter_In in Hin. destruct Hin as [Hin _].
    apply in_combine_r in Hin. rewrite Forall_forall in P. now apply P. }
  assert (PS : Forall (Pos L) (map (fun i => nth (Z.to_nat i) data (p_zero K)) (slice s e index))) by now rewrite PE.
  assert (SEL : forall rows n, Forall (Pos L) rows -> List.length rows = n -> selected K (repeat 1 n) rows = rows).
  { intros rows n HF <-. induction HF as [|d t [Wd _] _ IH]; [reflexivity|].
    unfold selected. cbn [List.length repeat combine map fst snd]. f_equal; [exact (scaled_1 L d Wd)|exact IH]. }
  assert (SR : slice s e (repeat 1 (List.length index)) = repeat 1 (List.length (slice s e index))).
  { unfold slice. rewrite firstn_length, skipn_length.
    assert (X : forall m n, firstn n (repeat 1 m) = repeat 1 (Nat.min n m)).
    { clear. induction m as [|m IH]; intros [|n]; cbn; try reflexivity. now rewrite IH. }
    assert (Y : forall m n, skipn n (repeat 1 m) = repeat 1 (m - n)).
    { clear. induction m as [|m IH]; intros [|n]; cbn; try reflexivity. apply IH. }
    rewrite Y, X. reflexivity. }
  rewrite SR, SEL in Ri by (try exact PS; now rewrite map_length).
  assert (ET : reduce_data K (map (fun i => nth (Z.to_nat i) data (p_zero K)) (slice s e index)) = reduce_data K (members g codes data)).
  { apply (reduce_perm L); auto. }
  rewrite ET, Rg in Ri. assert (X : Some (nth g rg (p_zero K)) = Some (nth g ri (p_zero K))); [|now injection X].
  apply Ri. intros Z. apply N. rewrite <- Z. unfold total. now apply suml_perm, Permutation_sym.
Qed.
(* a group of weightless rows keeps the moments of its first row when indexed *)
Theorem indexed_equals_grouped_weightless_refuted : exists by_ data ri rg,
  rows_ok (pusher1 5 2) (fun a => List.length a = 3%nat) data /\ List.length by_ = List.length data /\
  (let '((_, index), (start, end_)) := factor_by_to_index Z.eqb Z.leb zneg argsort_stable by_ in
   reduce_data_indexed (pusher1 5 2) data index start end_ None) = Ok ri /\
  reduce_data_grouped (pusher1 5 2) (snd (factor_by Z.eqb Z.leb zneg true by_)) data = Ok rg /\ ri <> rg.
Proof.
  exists [Some 7]%Z, [lz [0; 9; 9]%Z]. eexists. eexists. split; [repeat constructor; qle|]. split; [reflexivity|].
  split; [vm_compute; reflexivity|]. split; [vm_compute; reflexivity|]. discriminate.
Qed.
Example indexed_equals_grouped_ex :
  let by_ := [Some 3; Some 8; None; Some 3]%Z in
  let codes := snd (factor_by Z.eqb Z.leb zneg true by_) in
  List.length by_ = List.length exrows /\ codes = [0; 1; -1; 0]%Z /\ total (pusher1 5 2) (members 0 codes exrows) <> 0.
Proof. cbv zeta. split; [reflexivity|]. split; [reflexivity|]. apply qc_neq. vm_compute. reflexivity. Qed.

(* ---- C35, C36: blocks ----------------------------------------------------------------------------- *)

Lemma valid_mode_spec mode :
  (String.eqb mode "drop_first" || String.eqb mode "drop_last" ||
   String.eqb mode "expand_first" || String.eqb mode "expand_last")%bool = true <-> block_mode mode.
Proof.
  unfold block_mode. rewrite !Bool.orb_true_iff, !String.eqb_eq. cbn [In]. intuition.
Qed.

Theorem block_by_codes : forall (ndat block : nat) mode, (0 < block <= ndat)%nat -> block_mode mode ->
  block_by (Z.of_nat ndat) (Z.of_nat block) mode = Ok (map (block_code ndat block mode) (seq 0 ndat)).
Proof.
  intros n b mode Hb Hm. unfold block_by.
  destruct (Z.eqb_spec (Z.of_nat b) (Z.of_nat n)) as [Eq|Nq].
  - apply Nat2Z.inj in Eq. subst b. rewrite Bool.orb_true_r.
    destruct (Z.ltb_spec (Z.of_nat n) 0) as [|_]; [lia|]. rewrite Nat2Z.id. f_equal.
    apply (list_eq_nth _ _ 0%Z); [now rewrite repeat_length, map_length, seq_length|]. intros p Hp.
    rewrite repeat_length in Hp. rewrite nth_repeat.
    rewrite (nth_indep _ 0%Z (block_code n n mode 0)) by now rewrite map_length, seq_length.
    rewrite (map_nth (block_code n n mode)), seq_nth by exact Hp. cbn [Nat.add].
    unfold block_code. rewrite Nat.mod_same, !Nat.sub_0_r by lia.
    destruct (Nat.ltb_spec p 0) as [|_]; [lia|]. destruct (Nat.ltb_spec p n) as [_|]; [|lia].
    rewrite (Nat.div_small p n) by lia. now destruct (String.eqb mode "drop_first"), (String.eqb mode "expand_first"), (String.eqb mode "drop_last").
  - assert (b <> n) by (intros ->; now apply Nq).
    destruct (Z.leb_spec (Z.of_nat b) 0) as [|_]; [lia|]. cbn [orb].
    destruct (Z.ltb_spec (Z.of_nat n) (Z.of_nat b)) as [|_]; [lia|].
    rewrite (proj2 (valid_mode_spec mode) Hm). cbn [negb]. rewrite <- Nat2Z.inj_div, !Nat2Z.id.
    rewrite blocks_eq by lia. rewrite map_length, seq_length.
    pose proof (Nat.div_mod n b ltac:(lia)) as DM. pose proof (Nat.mod_upper_bound n b ltac:(lia)) as MU.
    assert (Q : (0 < n / b)%nat) by (apply Nat.div_str_pos; lia).
    set (q := (n / b)%nat) in *. set (r := (n mod b)%nat) in *. rewrite (Nat.mul_comm b q) in DM.
    assert (QB : (0 < q * b)%nat) by nia.
    assert (FST : nth 0 (map (fun p => Z.of_nat (p / b)) (seq 0 (q * b))) 0%Z = 0%Z).
    { destruct (q * b)%nat; [lia|]. cbn. now rewrite Nat.div_0_l by lia. }
    assert (LST : last (map (fun p => Z.of_nat (p / b)) (seq 0 (q * b))) 0%Z = Z.of_nat (q - 1)).
    { replace (q * b)%nat with (S (q * b - 1))%nat by lia. rewrite seq_S, map_app. cbn [map]. rewrite last_last.
      f_equal. cbn [Nat.add]. symmetry. apply (Nat.div_unique _ b _ (b - 1)); [lia|nia]. }
    assert (GEN : forall l : list Z, List.length l = n -> (forall p, (p < n)%nat -> nth p l 0%Z = block_code n b mode p) ->
              @Ok (list Z) l = Ok (map (block_code n b mode) (seq 0 n))).
    { intros l Hl Hn. f_equal. apply (list_eq_nth _ _ 0%Z); [now rewrite map_length, seq_length|]. intros p Hp.
      rewrite Hl in Hp. rewrite Hn by exact Hp.
      rewrite (nth_indep _ 0%Z (block_code n b mode 0)) by now rewrite map_length, seq_length.
      rewrite (map_nth (block_code n b mode)), seq_nth by exact Hp. reflexivity. }
    assert (NB : forall p, (p < q * b)%nat -> nth p (map (fun p => Z.of_nat (p / b)) (seq 0 (q * b))) 0%Z = Z.of_nat (p / b)).
    { intros p Hp. rewrite (nth_indep _ 0%Z (Z.of_nat (0 / b))) by now rewrite map_length, seq_length.
      rewrite (map_nth (fun p => Z.of_nat (p / b))), seq_nth by exact Hp. reflexivity. }
    destruct (Nat.eqb_spec (q * b) n) as [Ex|Nx].
    + apply GEN; [now rewrite map_length, seq_length|]. intros p Hp. rewrite NB by lia.
      assert (R0 : r = 0%nat) by lia. unfold block_code. fold r. rewrite R0, !Nat.sub_0_r.
      destruct (Nat.ltb_spec p 0) as [|_]; [lia|]. destruct (Nat.ltb_spec p n) as [_|]; [|lia].
      now destruct (String.eqb mode "drop_first"), (String.eqb mode "expand_first"), (String.eqb mode "drop_last").
    + rewrite FST, LST.
      replace (n - q * b)%nat with r by lia.
      assert (PRE : forall fill p, (p < n)%nat -> nth p (repeat fill r ++ map (fun p => Z.of_nat (p / b)) (seq 0 (q * b))) 0%Z =
                if Nat.ltb p r then fill else Z.of_nat ((p - r) / b)).
      { intros fill p Hp. destruct (Nat.ltb_spec p r) as [Hr|Hr].
        - rewrite app_nth1 by now rewrite repeat_length. now apply nth_repeat_any.
        - rewrite app_nth2, repeat_length by now rewrite repeat_length. apply NB. lia. }
      assert (POST : forall fill p, (p < n)%nat -> nth p (map (fun p => Z.of_nat (p / b)) (seq 0 (q * b)) ++ repeat fill r) 0%Z =
                if Nat.ltb p (n - r) then Z.of_nat (p / b) else fill).
      { intros fill p Hp. destruct (Nat.ltb_spec p (n - r)) as [Hr|Hr].
        - rewrite app_nth1 by (rewrite map_length, seq_length; lia). apply NB. lia.
        - rewrite app_nth2, map_length, seq_length by (rewrite map_length, seq_length; lia). apply nth_repeat_any. lia. }
      unfold block_mode in Hm. cbn [In] in Hm. destruct Hm as [<-|[<-|[<-|[<-|[]]]]]; cbn [String.eqb Ascii.eqb Bool.eqb orb];
        (apply GEN; [rewrite app_length, repeat_length, map_length, seq_length; lia|]); intros p Hp;
        rewrite ?PRE, ?POST by exact Hp; reflexivity.
Qed.
Theorem block_by_single_block : forall ndat block mode, (0 <= ndat)%Z -> (block <= 0)%Z \/ block = ndat ->
  block_by ndat block mode = Ok (repeat 0%Z (Z.to_nat ndat)).
Proof.
  intros n b mode Hn Hb. unfold block_by. replace ((b <=? 0) || (b =? n))%Z%bool with true.
  - destruct (Z.ltb_spec n 0) as [|_]; [lia|reflexivity].
  - symmetry. rewrite Bool.orb_true_iff, Z.leb_le, Z.eqb_eq. exact Hb.
Qed.
Theorem block_by_too_large : forall ndat block mode, (0 < block)%Z -> (ndat < block)%Z ->
  block_by ndat block mode = Raise EValue.
Proof.
  intros n b mode H0 H. unfold block_by.
  destruct (Z.leb_spec b 0) as [|_]; [lia|]. destruct (Z.eqb_spec b n) as [|_]; [lia|]. cbn [orb].
  destruct (Z.ltb_spec n b) as [_|]; [reflexivity|lia].
Qed.
(* what the codes amount to: how often every block id occurs *)
Lemma count_blocks q b : (0 < b)%nat -> forall g, (g < q)%nat ->
  occ (map (fun p => Z.of_nat (p / b)) (seq 0 (q * b))) (Z.of_nat g) = b.
Proof.
  intros Hb. rewrite <- blocks_eq by exact Hb. induction q as [|q IH]; intros g Hg; [lia|].
  rewrite seq_S, flat_map_app, count_occ_app. cbn [flat_map Nat.add]. rewrite app_nil_r.
  destruct (Nat.eq_dec g q) as [->|Ng].
  - rewrite count_occ_repeat_eq by reflexivity.
    replace (occ _ _) with 0%nat; [reflexivity|]. symmetry. apply count_occ_not_In. intros Hin.
    apply in_flat_map in Hin. destruct Hin as (i & Hi & Hr). apply in_seq in Hi. apply repeat_spec in Hr. lia.
  - rewrite IH by lia. rewrite count_occ_repeat_neq by lia. lia.
Qed.
Theorem block_by_counts : forall (ndat block : nat) mode codes, (0 < block <= ndat)%nat -> block_mode mode ->
  block_by (Z.of_nat ndat) (Z.of_nat block) mode = Ok codes ->
  List.length codes = ndat /\
  Forall (fun c => c = (-1)%Z \/ (0 <= c < Z.of_nat (ndat / block))%Z) codes /\
  forall g, (g < ndat / block)%nat ->
    occ codes (Z.of_nat g) =
    (block + (if ((String.eqb mode "expand_first" && Nat.eqb g 0) || (String.eqb mode "expand_last" && Nat.eqb (S g) (ndat / block)))%bool
              then ndat mod block else 0))%nat.
Proof.
  intros n b mode codes Hb Hm E. rewrite block_by_codes in E by assumption. injection E as <-.
  pose proof (Nat.div_mod n b ltac:(lia)) as DM. pose proof (Nat.mod_upper_bound n b ltac:(lia)) as MU.
  assert (Q : (0 < n / b)%nat) by (apply Nat.div_str_pos; lia).
  assert (EX : map (block_code n b mode) (seq 0 n) =
     if (String.eqb mode "drop_first" || String.eqb mode "expand_first")%bool
     then repeat (if String.eqb mode "drop_first" then (-1)%Z else 0%Z) (n mod b) ++ map (fun p => Z.of_nat (p / b)) (seq 0 (n / b * b))
     else map (fun p => Z.of_nat (p / b)) (seq 0 (n / b * b)) ++ repeat (if String.eqb mode "drop_last" then (-1)%Z else Z.of_nat (n / b - 1)) (n mod b)).
  { set (q := (n / b)%nat) in *. set (r := (n mod b)%nat) in *. rewrite (Nat.mul_comm b q) in DM.
    assert (PREF : forall fill, map (fun p => if Nat.ltb p r then fill else Z.of_nat ((p - r) / b)) (seq 0 n) =
              repeat fill r ++ map (fun p => Z.of_nat (p / b)) (seq 0 (q * b))).
    { intros fill. replace n with (r + q * b)%nat by lia. rewrite seq_app, map_app. f_equal.
      - rewrite (map_ext_in _ (fun _ => fill)).
        + clear. induction r as [|m IH] using nat_ind; [reflexivity|]. rewrite seq_S, map_app, IH. cbn. rewrite <- repeat_cons. reflexivity.
        + intros p Hp. apply in_seq in Hp. destruct (Nat.ltb_spec p r); [reflexivity|lia].
      - cbn [Nat.add]. assert (SS : forall m s, seq (r + s) m = map (fun p => (r + p)%nat) (seq s m)).
        { clear. induction m as [|m IH]; intros s; [reflexivity|]. cbn. f_equal. rewrite <- IH. f_equal. lia. }
        replace (seq r (q * b)) with (seq (r + 0) (q * b)) by (f_equal; lia).
        rewrite SS, map_map. apply map_ext. intros p. destruct (Nat.ltb_spec (r + p) r); [lia|]. do 2 f_equal. lia. }
    assert (POST : forall fill, map (fun p => if Nat.ltb p (n - r) then Z.of_nat (p / b) else fill) (seq 0 n) =
              map (fun p => Z.of_nat (p / b)) (seq 0 (q * b)) ++ repeat fill r).
    { intros fill. replace (n - r)%nat with (q * b)%nat by lia. replace n with (q * b + r)%nat by lia. rewrite seq_app, map_app. f_equal.
      - apply map_ext_in. intros p Hp. apply in_seq in Hp. destruct (Nat.ltb_spec p (q * b)); [reflexivity|lia].
      - rewrite (map_ext_in _ (fun _ => fill)).
        + generalize (0 + q * b)%nat. clear. generalize r. intros m. induction m as [|m IH]; intros s; [reflexivity|]. cbn. now rewrite IH.
        + intros p Hp. apply in_seq in Hp. destruct (Nat.ltb_spec p (q * b)); [lia|reflexivity]. }
    unfold block_code. fold r q. unfold block_mode in Hm. cbn [In] in Hm.
    destruct Hm as [<-|[<-|[<-|[<-|[]]]]]; cbn [String.eqb Ascii.eqb Bool.eqb orb]; auto. }
  split; [now rewrite map_length, seq_length|]. rewrite EX. clear EX.
  set (q := (n / b)%nat) in *. set (r := (n mod b)%nat) in *.
  split.
  - assert (F1 : Forall (fun c => c = (-1)%Z \/ (0 <= c < Z.of_nat q)%Z) (map (fun p => Z.of_nat (p / b)) (seq 0 (q * b)))).
    { apply Forall_map, Forall_forall. intros p Hp. apply in_seq in Hp. right. split; [lia|]. apply inj_lt.
      apply Nat.div_lt_upper_bound; lia. }
    destruct (_ || _)%bool; apply Forall_app; split; try exact F1; apply Forall_forall; intros c Hc;
      apply repeat_spec in Hc; subst c; match goal with |- context [String.eqb mode ?x] => destruct (String.eqb mode x) end; ((left; reflexivity) || (right; lia)).
  - intros g Hg. unfold block_mode in Hm. cbn [In] in Hm.
    assert (C1 : forall fill, fill <> Z.of_nat g -> occ (repeat fill r) (Z.of_nat g) = 0%nat) by (intros; apply count_occ_repeat_neq; congruence).
    assert (C2 : forall fill, fill = Z.of_nat g -> occ (repeat fill r) (Z.of_nat g) = r) by (intros; apply count_occ_repeat_eq; congruence).
    destruct Hm as [<-|[<-|[<-|[<-|[]]]]]; cbn [String.eqb Ascii.eqb Bool.eqb orb andb];
      rewrite count_occ_app, count_blocks by lia.
    + rewrite C1 by lia. lia.
    + rewrite C1 by lia. lia.
    + destruct (Nat.eqb_spec g 0) as [->|Ng]; [rewrite C2 by reflexivity|rewrite C1 by lia]; cbn; lia.
    + destruct (Nat.eqb_spec (S g) q) as [Eg|Ng]; [rewrite C2 by lia|rewrite C1 by lia]; lia.
Qed.
Theorem block_by_mode_checked_only_inside : forall ndat block mode, (0 <= ndat)%Z -> ~ block_mode mode ->
  (block_by ndat block mode = Raise EValue <-> (0 < block /\ block <> ndat)%Z) /\
  ((block <= 0 \/ block = ndat)%Z -> exists codes, block_by ndat block mode = Ok codes).
Proof.
  intros n b mode Hn Hm. split.
  - split.
    + intros E. destruct (Z_le_gt_dec b 0) as [H0|H0]; [rewrite block_by_single_block in E by auto; discriminate|].
      split; [lia|]. intros ->. rewrite block_by_single_block in E by auto. discriminate.
    + intros [H0 H1]. unfold block_by. destruct (Z.leb_spec b 0) as [|_]; [lia|]. destruct (Z.eqb_spec b n) as [|_]; [lia|].
      cbn [orb]. destruct (Z.ltb_spec n b) as [_|_]; [reflexivity|].
      destruct (_ || _ || _ || _)%bool eqn:Em; [|reflexivity]. apply valid_mode_spec in Em. contradiction.
  - intros Hb. eexists. now apply block_by_single_block.
Qed.
Example block_by_ex :
  block_by 7 3 "drop_first" = Ok [-1; 0; 0; 0; 1; 1; 1]%Z /\ block_by 7 3 "expand_first" = Ok [0; 0; 0; 0; 1; 1; 1]%Z /\
  block_by 7 3 "drop_last" = Ok [0; 0; 0; 1; 1; 1; -1]%Z /\ block_by 7 3 "expand_last" = Ok [0; 0; 0; 1; 1; 1; 1]%Z /\
  ~ block_mode "drop" /\ block_by 7 7 "drop" = Ok (repeat 0%Z 7) /\ block_by 7 3 "drop" = Raise EValue.
Proof.
  repeat (split; [reflexivity|]). split; [|split; reflexivity]. unfold block_mode. cbn. intuition discriminate.
Qed.

(* ---- C37, C38: frequency tables as index lists ---------------------------------------------------------- *)

Theorem freq_to_index_reproduces_table : forall junk freq, Forall nonneg freq ->
  exists index start end_ scale,
    freq_to_index_start_end_scales junk freq = Ok ((index, start), (end_, scale)) /\
    List.length start = List.length freq /\ List.length end_ = List.length freq /\
    forall r, (r < List.length freq)%nat ->
      let row := nth r freq [] in
      let s := Z.to_nat (nth r start 0%Z) in
      let e := Z.to_nat (nth r end_ 0%Z) in
      let pos := filter (fun j => (0 <? nth j row 0)%Z) (seq 0 (List.length row)) in
      slice s e index = map Z.of_nat pos /\ slice s e scale = map (fun j => nth j row 0%Z) pos.
Proof.
  intros junk freq H. rewrite freq_to_index_eq. rewrite (npos_nonneg freq H), Nat.sub_diag. cbn [repeat]. rewrite !app_nil_r.
  set (ps := map (positives 0) freq).
  do 4 eexists. split; [reflexivity|]. rewrite !map_length, spans_length. unfold ps. rewrite map_length. fold ps.
  split; [reflexivity|]. split; [reflexivity|]. intros r Hr. cbv zeta.
  assert (Er : nth r ps [] = positives 0 (nth r freq [])).
  { unfold ps. change (@nil (Z * Z)) with (positives 0 []) at 1. apply map_nth. }
  assert (Lp : (r < List.length ps)%nat) by (unfold ps; now rewrite map_length).
  pose proof (slice_spans ps [] r Lp) as SP. cbv zeta in SP. cbn [app List.length] in SP. rewrite Er in SP.
  assert (N1 : nth r (map fst (spans 0 ps)) 0%Z = fst (nth r (spans 0 ps) (0%Z, 0%Z))) by (change 0%Z with (fst (0%Z, 0%Z)) at 1; apply map_nth).
  assert (N2 : nth r (map snd (spans 0 ps)) 0%Z = snd (nth r (spans 0 ps) (0%Z, 0%Z))) by (change 0%Z with (snd (0%Z, 0%Z)) at 1; apply map_nth).
  rewrite N1, N2, !slice_map, SP, positives_spec, !map_map. cbn [fst snd Nat.add]. split; reflexivity.
Qed.
Theorem resampling_by_index_equals_resampling : forall {A V} (K : pusher A V) junk freq data,
  Forall nonneg freq -> Forall (fun row => List.length row = List.length data) freq -> freq <> [] ->
  Forall zeros freq \/ ~ zeros (last freq []) ->
  resample_data_indexed K junk freq data = of_opt EZeroDiv (resample_data K (map (map qz) freq) data).
Proof. intros. now apply resample_indexed_eq. Qed.
Theorem zero_last_replicate_rejected : forall {A V} (K : pusher A V) junk freq data,
  Forall nonneg freq -> ~ Forall zeros freq -> zeros (last freq []) -> freq <> [] ->
  resample_data_indexed K junk freq data = Raise EValue.
Proof. intros. now apply resample_indexed_trailing_zero. Qed.
Theorem zero_last_replicate_refuted : exists freq data r,
  Forall nonneg freq /\ Forall (fun row => List.length row = List.length data) freq /\
  rows_ok (pusher1 5 2) (fun a => List.length a = 3%nat) data /\
  resample_data (pusher1 5 2) (map (map qz) freq) data = Some r /\
  forall junk, resample_data_indexed (pusher1 5 2) junk freq data = Raise EValue.
Proof.
  exists [[1; 0; 2; 1]; [0; 0; 0; 0]]%Z, exrows. eexists. split; [repeat constructor; cbv; congruence|].
  split; [repeat constructor|]. split; [exact exrows_ok|]. split; [vm_compute; reflexivity|].
  intros junk. apply zero_last_replicate_rejected.
  - repeat constructor; cbv; congruence.
  - intros F. inversion F as [|? ? F1 _]; subst. inversion F1; discriminate.
  - cbn. repeat constructor.
  - discriminate.
Qed.
(* a negative entry leaves array elements that were never written *)
Theorem negative_frequency_uninitialised_refuted : exists freq, forall junk,
  exists index, (freq_to_index_start_end_scales junk freq =
    Ok ((index, [0]), ([1], app [2] [junk])))%Z /\ index = [1; junk]%Z.
Proof. exists [[-1; 2]]%Z. intros junk. eexists. split; reflexivity. Qed.
Theorem negative_frequency_general : forall junk freq,
  let pos := map (fun row => filter (fun j => (0 <? nth j row 0)%Z) (seq 0 (List.length row))) freq in
  exists index start end_ scale,
    freq_to_index_start_end_scales junk freq = Ok ((index, start), (end_, scale)) /\
    index = map Z.of_nat (concat pos) ++
            repeat junk (List.length (filter (fun z => (z <? 0)%Z) (concat freq))).
Proof.
  intros junk freq pos. do 4 eexists. split; [apply freq_to_index_eq|]. f_equal.
  - unfold pos. clear pos. induction freq as [|row t IH]; [reflexivity|]. cbn [map concat]. rewrite !map_app, <- IH.
    rewrite positives_spec, map_map. reflexivity.
  - f_equal. unfold count_nonzero, npos. induction freq as [|row t IH]; [reflexivity|].
    cbn [map concat]. rewrite !filter_app, !app_length.
    assert (R : (List.length (filter (fun f => negb (Z.eqb f 0)) row) = List.length (positives 0 row) + List.length (filter (fun z => (z <? 0)%Z) row))%nat).
    { generalize 0%nat. induction row as [|f row IHr]; intros k; [reflexivity|]. cbn [filter positives].
      specialize (IHr (S k)). destruct (Z.eqb_spec f 0), (Z.ltb_spec 0 f), (Z.ltb_spec f 0); cbn [negb List.length]; lia. }
    pose proof (npos_le t) as HN. unfold npos, count_nonzero in HN. cbn [map concat] in IH. lia.
Qed.
Example freq_index_ex : let freq := [[0; 2; 1; 0]; [0; 0; 0; 0]; [3; 0; 0; 1]]%Z in
  Forall nonneg freq /\ ~ zeros (last freq []) /\
  freq_to_index_start_end_scales 99 freq = Ok (([1; 2; 0; 3], [0; 2; 2]), ([2; 2; 4], [2; 1; 3; 1]))%Z.
Proof.
  cbv zeta. split; [repeat constructor; cbv; congruence|]. split; [|reflexivity].
  intros H. inversion H. discriminate.
Qed.

(* ---- C43: centered windows ------------------------------------------------------------------------------- *)

Lemma center_pad (window : nat) : (0 < window)%nat ->
  (- center_shift (Z.of_nat window))%Z = Z.of_nat ((window - 1) / 2).
Proof.
  intros H. unfold center_shift. rewrite Nat2Z.inj_div, Nat2Z.inj_sub by lia.
  assert (E := Z.div_mod (- Z.of_nat window) 2 ltac:(lia)). assert (M := Z.mod_pos_bound (- Z.of_nat window) 2 ltac:(lia)).
  assert (E' := Z.div_mod (Z.of_nat window - Z.of_nat 1) 2 ltac:(lia)). assert (M' := Z.mod_pos_bound (Z.of_nat window - Z.of_nat 1) 2 ltac:(lia)).
  change (Z.of_nat 2) with 2%Z. lia.
Qed.
Lemma window_at_pad {B} (z : B) window i s pad (data : list B) : (i < List.length data)%nat -> (s < window)%nat ->
  exists m, window_at window (i + s) (data ++ repeat z pad) = window_at window (i + s) data ++ repeat z m.
Proof.
  intros Hi Hs. unfold window_at. rewrite firstn_app, skipn_app.
  exists (Nat.min (S (i + s) - List.length data) pad). f_equal.
  replace (S (i + s) - window - List.length (firstn (S (i + s)) data))%nat with 0%nat by (rewrite firstn_length; lia).
  cbn [skipn]. generalize (S (i + s) - List.length data)%nat. clear. induction pad as [|m IH]; intros [|n]; cbn; try reflexivity. now rewrite IH.
Qed.
Lemma nth_skipn_any {B} (d : B) n l i : nth i (skipn n l) d = nth (n + i) l d.
Proof. revert l. induction n as [|n IH]; intros [|x l]; cbn; try reflexivity; [now destruct i|apply IH]. Qed.
Lemma foldM_app' {B C} (f : B -> C -> option B) l1 l2 b : foldM f (l1 ++ l2) b = obind (foldM f l1 b) (foldM f l2).
Proof. revert b. induction l1 as [|x t IH]; intros b; [reflexivity|]. cbn. destruct (f b x); [apply IH|reflexivity]. Qed.
Lemma count_zero_app ws n : nonzero_count (ws ++ repeat 0 n) = nonzero_count ws.
Proof.
  unfold nonzero_count. rewrite filter_app, app_length.
  replace (filter _ (repeat 0 n)) with (@nil Qc); [cbn; lia|].
  induction n as [|n IH]; [reflexivity|]. cbn [repeat filter]. rewrite <- IH.
  replace (qeqb 0 0) with true by reflexivity. reflexivity.
Qed.

Theorem rolling_center_is_shifted_window : forall {A V} (K : pusher A V) ok, moment_kernel K ok ->
  forall (window : nat) min_periods data, (0 < window)%nat -> rows_ok K ok data ->
  exists rows, rolling_data_center K (Z.of_nat window) min_periods data = Ok rows /\
    List.length rows = List.length data /\
    forall i, (i < List.length data)%nat ->
      let win := window_at window (i + (window - 1) / 2) data in
      nth i rows None =
      if (Z.max (match min_periods with Some m => m | None => Z.of_nat window end) 1 <=? Z.of_nat (nonzero_count (map (p_wt K) win)))%Z
      then reduce_data K win else None.
Proof.
  intros A V K ok HK window mp data Hw H. unfold rolling_data_center. rewrite center_pad, !Nat2Z.id by exact Hw.
  set (pad := ((window - 1) / 2)%nat). destruct (Z.ltb_spec (Z.of_nat pad) 0) as [|_]; [lia|].
  assert (Hp : (pad < window)%nat) by (apply Nat.div_lt_upper_bound; lia).
  set (m := match mp with Some m => m | None => Z.of_nat window end).
  destruct (kernel_laws K ok HK) as (I & L & E).
  destruct (rolling_rows_are_window_reductions K ok HK window m (data ++ repeat (p_zero K) pad)) as (rows & E1 & E2 & E3).
  { unfold rows_ok. apply Forall_app. split; [exact H|]. apply Forall_forall. intros d Hd. apply repeat_spec in Hd. subst d.
    split; [apply E, (l_wf_zero _ _ L)|]. rewrite (l_wt_zero _ _ L). apply Qcle_refl. }
  replace (match mp with None => Z.of_nat window | Some m => m end) with m by reflexivity.
  rewrite E1. cbn [of_opt rbind]. eexists. split; [reflexivity|].
  rewrite app_length, repeat_length in E2, E3. split; [rewrite skipn_length; lia|].
  intros i Hi. cbv zeta. rewrite nth_skipn_any, E3 by lia. rewrite (Nat.add_comm pad i).
  destruct (window_at_pad (p_zero K) window i pad pad data Hi Hp) as (n & ->).
  rewrite map_app. replace (map (p_wt K) (repeat (p_zero K) n)) with (repeat 0 n).
  2:{ clear - L. induction n; [reflexivity|]. cbn. rewrite (l_wt_zero _ _ L). now f_equal. }
  rewrite count_zero_app. destruct (_ <=? _)%Z; [|reflexivity].
  unfold reduce_data, reduce_data_into. rewrite foldM_app'. destruct (foldM _ _ _) as [o|]; [|reflexivity]. cbn [obind].
  clear - L. induction n as [|n IH]; [reflexivity|]. cbn [repeat foldM]. rewrite (l_push_zero _ _ L) by apply (l_wt_zero _ _ L). exact IH.
Qed.
Theorem rolling_vals_center_is_shifted_window : forall {A V} (K : pusher A V) ok, moment_kernel K ok ->
  forall zero (window : nat) min_periods (xw : list (V * Qc)), (0 < window)%nat -> all_nonneg (map snd xw) ->
  exists rows, rolling_vals_center K zero (Z.of_nat window) min_periods xw = Ok rows /\
    List.length rows = List.length xw /\
    forall i, (i < List.length xw)%nat ->
      let win := window_at window (i + (window - 1) / 2) xw in
      nth i rows None =
      if (Z.max (match min_periods with Some m => m | None => Z.of_nat window end) 1 <=? Z.of_nat (nonzero_count (map snd win)))%Z
      then reduce_vals K win else None.
Proof.
  intros A V K ok HK zero window mp xw Hw H. unfold rolling_vals_center. rewrite center_pad, !Nat2Z.id by exact Hw.
  set (pad := ((window - 1) / 2)%nat). destruct (Z.ltb_spec (Z.of_nat pad) 0) as [|_]; [lia|].
  assert (Hp : (pad < window)%nat) by (apply Nat.div_lt_upper_bound; lia).
  set (m := match mp with Some m => m | None => Z.of_nat window end).
  destruct (kernel_laws K ok HK) as (I & L & E).
  destruct (rolling_vals_rows_are_window_moments K ok HK (zero, 0) window m (xw ++ repeat (zero, 0) pad)) as (rows & E1 & E2 & E3).
  { unfold all_nonneg in *. rewrite map_app. apply Forall_app. split; [exact H|]. apply Forall_map, Forall_forall.
    intros d Hd. apply repeat_spec in Hd. subst d. apply Qcle_refl. }
  replace (match mp with None => Z.of_nat window | Some m => m end) with m by reflexivity.
  rewrite E1. cbn [of_opt rbind]. eexists. split; [reflexivity|].
  rewrite app_length, repeat_length in E2, E3. split; [rewrite skipn_length; lia|].
  intros i Hi. cbv zeta. rewrite nth_skipn_any, E3 by lia. rewrite (Nat.add_comm pad i).
  destruct (window_at_pad (zero, 0) window i pad pad xw Hi Hp) as (n & ->).
  rewrite map_app. replace (map snd (repeat (zero, 0) n)) with (repeat 0 n).
  2:{ clear. induction n; [reflexivity|]. cbn. now f_equal. }
  rewrite count_zero_app. destruct (_ <=? _)%Z; [|reflexivity].
  unfold reduce_vals, reduce_vals_into. rewrite foldM_app'. destruct (foldM _ _ _) as [o|]; [|reflexivity]. cbn [obind].
  clear - L. induction n as [|n IH]; [reflexivity|]. cbn [repeat foldM fst snd]. rewrite (l_val _ _ L).
  rewrite (l_push_zero _ _ L) by apply (l_point_wt _ _ L). exact IH.
Qed.
Theorem rolling_center_needs_a_window : forall {A V} (K : pusher A V) zero window min_periods data xw, (window <= 0)%Z ->
  rolling_data_center K window min_periods data = Raise EValue /\
  rolling_vals_center K zero window min_periods xw = Raise EValue.
Proof.
  intros A V K zero window mp data xw H. unfold rolling_data_center, rolling_vals_center, center_shift.
  assert (0 <= - window / 2)%Z by (apply Z.div_pos; lia).
  destruct (Z.ltb_spec (- (- window / 2 + 1)) 0) as [_|]; [split; reflexivity|lia].
Qed.
Example rolling_center_ex : let K := pusher1 5 2 in
  rows_ok K (fun a => List.length a = 3%nat) exrows /\
  match rolling_data_center K 3 (Some 1%Z) exrows, rolling_data K 3 1 exrows with
  | Ok rows, Some trail => andb (leqb (oeqb eqb1) (firstn 3 rows) (skipn 1 trail)) (negb (leqb (oeqb eqb1) rows trail))
  | _, _ => false end = true.
Proof. cbv zeta. split; [exact exrows_ok|]. vm_compute. reflexivity. Qed.
