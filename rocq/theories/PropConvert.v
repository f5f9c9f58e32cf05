(* Properties of conversions, selection and assignment (C11, C15-C19, C55-C57). *)
From Coq Require Import String.
From Verif Require Import Base BaseLemmas Shift ModelPush ModelPushCov ModelKernels ModelAccum ProofPush ProofPushCov Laws
  ProofKernels Spec ProofSpec Checks PropReduce ModelConvert ProofConvert ModelSelect SpecSelect ProofSelect.
Local Open Scope Qc_scope.

(* ---- C11 (the rows built by the code) ----------------------------------------- *)

Theorem vals_to_data_rows_one : forall n x w, (1 <= n)%nat ->
  vals_to_data1 n x w = Ok [row_of_val n (x, w)].
Proof. intros [|n] x w H; [lia|]. unfold row_of_val. cbn [fst snd]. replace (S n - 1)%nat with n by lia. reflexivity. Qed.
Theorem vals_to_data_rows_two : forall n0 n1 x y w, (1 <= n0)%nat -> (1 <= n1)%nat ->
  vals_to_data2 n0 n1 x y w = Ok (mat_of_val n0 n1 ((x, y), w)).
Proof. intros [|n0] [|n1] x y w H0 H1; try lia. reflexivity. Qed.
Example vals_to_data_ex : vals_to_data1 3 (qz 7) (qz 2) = Ok [lz [2; 7; 0; 0]%Z].
Proof. reflexivity. Qed.

(* ---- C15 ------------------------------------------------------------------------ *)

Definition paired (s : list (Qc * Qc)) : list ((Qc * Qc) * Qc) := map (fun p => ((fst p, fst p), snd p)) s.

Theorem moments_to_comoments_is_x_with_itself : forall nmax n m0 m1 s,
  (n <= nmax)%nat -> (1 <= m0)%nat -> (1 <= m1)%nat -> (m0 + m1 <= n)%nat ->
  match reduce_vals (pusher1 nmax n) s with
  | Some a => exists r, moments_to_comoments [Z.of_nat m0; Z.of_nat m1] a = Ok r /\
                        reduce_vals (pusher2 nmax m0 m1) (paired s) = Some r
  | None => reduce_vals (pusher2 nmax m0 m1) (paired s) = None
  end.
Proof.
  intros nmax n m0 m1 s Hn H0 H1 Hs.
  assert (Hn' : (1 <= n <= nmax)%nat) by lia.
  assert (H0' : (1 <= m0 <= nmax)%nat) by lia. assert (H1' : (1 <= m1 <= nmax)%nat) by lia.
  assert (Ew : map snd (paired s) = map snd s) by (unfold paired; rewrite map_map; reflexivity).
  assert (EV : forall a, List.length a = S n -> moments_to_comoments [Z.of_nat m0; Z.of_nat m1] a = Ok (diag2 m0 m1 a)).
  { intros a La. apply mtc_ok. rewrite La. unfold validate_mom_moments_to_comoments.
    destruct (Z.ltb_spec (Z.of_nat m0) 0); [lia|]. destruct (Z.ltb_spec (Z.of_nat m1) 0); [lia|]. cbn [fst snd].
    destruct (Z.ltb_spec (Z.of_nat m0) 1); [lia|]. destruct (Z.ltb_spec (Z.of_nat m1) 1); [lia|].
    destruct (Z.ltb_spec (Z.of_nat (S n) - 1) (Z.of_nat m0 + Z.of_nat m1)); [lia|]. reflexivity. }
  destruct (running_ok_dec (map snd s)) as [R|R].
  - destruct (Qc_eq_dec (W1 s) 0) as [E|N].
    + assert (Z : all_zero (map snd s)) by (apply running_total0; [exact R|now rewrite W1_map]).
      rewrite (reduce_zero_gen (laws1 nmax n Hn')) by exact Z. eexists. split; [apply EV|].
      * cbn. now rewrite repeat_length.
      * rewrite (reduce_zero_gen (laws2 nmax m0 m1 H0' H1')) by now rewrite Ew. f_equal.
        apply (arr2_ext (S m0) (S m1)); [apply shape2_zeros|apply diag2_wf|].
        intros i j Hi Hj. rewrite diag2_get by lia.
        change (p_zero (pusher2 nmax m0 m1)) with (zeros2 (S m0) (S m1)). rewrite get2_zeros.
        change (p_zero (pusher1 nmax n)) with (zeros1 (S n)). now rewrite getq_zeros.
    + rewrite (reduce_vals1_ok nmax n s Hn' R N). eexists. split; [apply EV, moments_of_wf; lia|].
      assert (EW : W2 (paired s) = W1 s) by (unfold W2, paired; now rewrite suml_map).
      assert (EX : meanx (paired s) = mean1 s)
        by (unfold meanx; rewrite EW; unfold paired; rewrite suml_map; reflexivity).
      assert (EY : meany (paired s) = mean1 s)
        by (unfold meany; rewrite EW; unfold paired; rewrite suml_map; reflexivity).
      rewrite (reduce_vals2_ok nmax m0 m1) by (auto; rewrite ?Ew, ?EW; auto). f_equal.
      apply (arr2_ext (S m0) (S m1)); [apply comoments_of_wf|apply diag2_wf|].
      intros i j Hi Hj. rewrite diag2_get, comoments_of_get by lia.
      assert (G : (2 <= i + j)%nat -> central2 (paired s) i j = getq (moments_of n s) (i + j)).
      { intros H. rewrite moments_of_get by lia. unfold central2, central1. rewrite EW, EX, EY.
        f_equal. unfold paired. rewrite suml_map. apply suml_ext. intros p _. cbn [fst snd]. now rewrite qpow_add. }
      destruct i as [|[|i]], j as [|[|j]]; cbn [comoment_entry]; try (apply G; lia).
      * exact EW.
      * exact EY.
      * exact EX.
  - rewrite (reduce_none_gen (laws1 nmax n Hn')) by exact R.
    apply (reduce_none_gen (laws2 nmax m0 m1 H0' H1')). now rewrite Ew.
Qed.
(* the covariance entry is the variance *)
Theorem diagonal_covariance_is_variance : forall m0 m1 a r, (1 <= m0)%nat -> (1 <= m1)%nat ->
  (m0 + m1 < List.length a)%nat ->
  moments_to_comoments [Z.of_nat m0; Z.of_nat m1] a = Ok r -> get2 r 1 1 = getq a 2.
Proof.
  intros m0 m1 a r H0 H1 Hl E. unfold moments_to_comoments in E.
  destruct (validate_mom_moments_to_comoments _ _) as [[z0 z1]|] eqn:V; [|discriminate].
  apply validate_mtc_spec in V. cbn [rbind fst snd] in E. injection E as <-.
  rewrite get2_table by lia. reflexivity.
Qed.
Example moments_to_comoments_ex :
  moments_to_comoments [1; 2]%Z (lz [2; 5; 1; 7]%Z) = Ok [lz [2; 5; 1]%Z; lz [5; 1; 7]%Z].
Proof. reflexivity. Qed.

(* ---- C16, C17 -------------------------------------------------------------------- *)

Theorem central_raw_central : forall nmax a, (2 <= List.length a <= S nmax)%nat ->
  raw_to_central nmax (central_to_raw nmax a) = a.
Proof. intros nmax a H. apply (r2c_c2r nmax (List.length a - 1)); unfold wf1; lia. Qed.
Theorem raw_central_raw : forall nmax a, (2 <= List.length a <= S nmax)%nat ->
  central_to_raw nmax (raw_to_central nmax a) = a.
Proof. intros nmax a H. apply (c2r_r2c nmax (List.length a - 1)); unfold wf1; lia. Qed.
Example central_raw_ex : (2 <= List.length (lz [-2; 5; 1; 7]%Z) <= S 5)%nat /\
  central_to_raw 5 (lz [-2; 5; 1; 7]%Z) = lz [-2; 5; 26; 147]%Z /\
  raw_to_central 5 (lz [-2; 5; 26; 147]%Z) = lz [-2; 5; 1; 7]%Z.
Proof. split; [cbn; lia|]. split; apply eqb1_eq; vm_compute; reflexivity. Qed.

Theorem central_raw_central_pairs : forall nmax n0 n1 a, (1 <= n0 <= nmax)%nat -> (1 <= n1 <= nmax)%nat ->
  shape2 (S n0) (S n1) a -> raw_to_central2 nmax (central_to_raw2 nmax a) = a.
Proof. intros nmax n0 n1 a H0 H1 S. now apply (r2c2_c2r2 nmax n0 n1). Qed.
Theorem raw_central_raw_pairs : forall nmax n0 n1 a, (1 <= n0 <= nmax)%nat -> (1 <= n1 <= nmax)%nat ->
  shape2 (S n0) (S n1) a -> central_to_raw2 nmax (raw_to_central2 nmax a) = a.
Proof. intros nmax n0 n1 a H0 H1 S. now apply (c2r2_r2c2 nmax n0 n1). Qed.
Example central_raw_pairs_ex :
  central_to_raw2 5 [lz [3; 2; 4]%Z; lz [5; 7; -1]%Z] = [lz [3; 2; 8]%Z; lz [5; 17; 67]%Z].
Proof. apply eqb2_eq. vm_compute. reflexivity. Qed.

(* ---- C18 ---------------------------------------------------------------------------- *)

Definition power_mean (s : list (Qc * Qc)) (k : nat) : Qc := suml (fun p => snd p * fst p ^ k) s / W1 s.
Definition power_mean2 (s : list ((Qc * Qc) * Qc)) (i j : nat) : Qc :=
  suml (fun p => snd p * (fst (fst p) ^ i * snd (fst p) ^ j)) s / W2 s.

Theorem raw_moments_are_power_means : forall nmax n s, (1 <= n <= nmax)%nat ->
  running_ok (map snd s) -> ~ all_zero (map snd s) ->
  option_map (central_to_raw nmax) (reduce_vals (pusher1 nmax n) s)
  = Some (W1 s :: map (power_mean s) (seq 1 n)).
Proof.
  intros nmax n s Hn R Z.
  assert (N : W1 s <> 0) by (intros E; apply Z, running_total0; [exact R|now rewrite W1_map]).
  rewrite (reduce_vals1_ok nmax n s Hn R N). cbn [option_map]. f_equal.
  assert (Wf : wf1 n (moments_of n s)) by (apply moments_of_wf; lia).
  assert (Wr := c2r_length nmax n _ Wf (proj1 Hn)).
  apply arr_ext; [rewrite Wr; cbn; now rewrite map_length, seq_length|].
  rewrite Wr. intros [|k] Hk; [reflexivity|].
  rewrite (c2r_get nmax n) by (try assumption; lia). rewrite moments_of_raw by (auto; lia).
  unfold getq. cbn [nth]. rewrite nth_indep with (d' := power_mean s 0) by (rewrite map_length, seq_length; lia).
  rewrite map_nth, seq_nth by lia. reflexivity.
Qed.
Theorem raw_comoments_are_power_means : forall nmax n0 n1 s, (1 <= n0 <= nmax)%nat -> (1 <= n1 <= nmax)%nat ->
  running_ok (map snd s) -> ~ all_zero (map snd s) ->
  exists r, option_map (central_to_raw2 nmax) (reduce_vals (pusher2 nmax n0 n1) s) = Some r /\
    shape2 (S n0) (S n1) r /\ get2 r 0 0 = W2 s /\
    forall i j, (i <= n0)%nat -> (j <= n1)%nat -> (1 <= i + j)%nat -> get2 r i j = power_mean2 s i j.
Proof.
  intros nmax n0 n1 s H0 H1 R Z.
  assert (N : W2 s <> 0) by (intros E; apply Z, running_total0; [exact R|now rewrite W2_map]).
  rewrite (reduce_vals2_ok nmax n0 n1 s H0 H1 R N). cbn [option_map].
  assert (Wf := comoments_of_wf n0 n1 s).
  eexists. split; [reflexivity|]. split; [now apply c2r2_wf|]. split.
  - rewrite (c2r2_get nmax n0 n1) by (auto; lia). reflexivity.
  - intros i j Hi Hj Hs. rewrite (c2r2_get nmax n0 n1) by auto. rewrite cc2r_entry_raw by lia.
    apply comoments_of_raw; auto; lia.
Qed.
Example power_mean_ex : running_ok (map snd ex1) /\ ~ all_zero (map snd ex1) /\
  oeqb eqb1 (option_map (central_to_raw 5) (reduce_vals (pusher1 5 3) ex1))
            (Some (W1 ex1 :: map (power_mean ex1) (seq 1 3))) = true.
Proof.
  destruct reduce_vals_ex as (_ & R & Z & _). split; [exact R|]. split; [exact Z|]. vm_compute. reflexivity.
Qed.

(* ---- C19 ------------------------------------------------------------------------------ *)

(* the orders a request stands for *)
Definition resolved (mom : Z * Z) (M : Z) (out : Z * Z) : Prop :=
  (if (fst mom <? 0)%Z then out = (M - snd mom, snd mom)%Z
   else if (snd mom <? 0)%Z then out = (fst mom, M - fst mom)%Z
   else out = mom) /\ (1 <= fst out)%Z /\ (1 <= snd out)%Z /\ (fst out + snd out <= M)%Z.

Theorem comoment_orders_resolved : forall m0 m1 M out,
  validate_mom_moments_to_comoments [m0; m1] M = Ok out <-> resolved (m0, m1) M out.
Proof.
  intros m0 m1 M [o0 o1]. unfold validate_mom_moments_to_comoments, resolved. cbn [fst snd].
  destruct (Z.ltb_spec m0 0); [|destruct (Z.ltb_spec m1 0)]; cbn [fst snd];
  repeat match goal with |- context [(?x <? ?y)%Z] => destruct (Z.ltb_spec x y); cbn [orb] end;
  (split; [intros H'; inversion H'; subst; repeat split; lia|intros (E & Hr); inversion E; subst; first [reflexivity|exfalso; lia]]).
Qed.
Theorem comoment_orders_rejected : forall mom M,
  (forall out, validate_mom_moments_to_comoments mom M <> Ok out) ->
  validate_mom_moments_to_comoments mom M = Raise EValue.
Proof.
  intros [|m0 [|m1 [|? ?]]] M H; try reflexivity. unfold validate_mom_moments_to_comoments in *.
  destruct (_ || _ || _)%bool; [reflexivity|]. exfalso. eapply H. reflexivity.
Qed.
Theorem comoments_to_moments_inverts : forall junk mom a r,
  moments_to_comoments mom a = Ok r ->
  exists m0 m1, shape2 (S m0) (S m1) r /\ (1 <= m0)%nat /\ (1 <= m1)%nat /\ (m0 + m1 < List.length a)%nat /\
    validate_mom_moments_to_comoments mom (Z.of_nat (List.length a) - 1) = Ok (Z.of_nat m0, Z.of_nat m1) /\
    comoments_to_moments junk r = firstn (S (m0 + m1)) a.
Proof.
  intros junk mom a r E. unfold moments_to_comoments in E.
  destruct (validate_mom_moments_to_comoments _ _) as [[z0 z1]|] eqn:V; [|discriminate].
  assert (V' := validate_mtc_spec _ _ _ _ V). cbn [rbind fst snd] in E. injection E as <-.
  exists (Z.to_nat z0), (Z.to_nat z1). rewrite !Nat.add_1_r.
  split; [apply shape2_table|]. split; [lia|]. split; [lia|]. split; [lia|]. split; [rewrite !Z2Nat.id by lia; reflexivity|].
  apply (ctm_diag2 junk (Z.to_nat z0) (Z.to_nat z1) a). lia.
Qed.
(* every position of comoments_to_moments is written, by an entry of that total order *)
Theorem comoments_to_moments_entries : forall junk n0 n1 a, shape2 (S n0) (S n1) a ->
  List.length (comoments_to_moments junk a) = S (n0 + n1) /\
  forall k, (k <= n0 + n1)%nat -> exists i j, (i <= n0)%nat /\ (j <= n1)%nat /\ (i + j = k)%nat /\
    getq (comoments_to_moments junk a) k = get2 a i j.
Proof.
  intros junk n0 n1 a H. split; [now apply ctm_length|]. intros k Hk. now apply (ctm_get junk n0 n1).
Qed.
Example comoments_to_moments_ex :
  validate_mom_moments_to_comoments [-1; 2]%Z 3 = Ok (1, 2)%Z /\
  moments_to_comoments [-1; 2]%Z (lz [2; 5; 1; 7]%Z) = Ok [lz [2; 5; 1]%Z; lz [5; 1; 7]%Z] /\
  comoments_to_moments (qz 99) [lz [2; 5; 1]%Z; lz [5; 1; 7]%Z] = lz [2; 5; 1; 7]%Z /\
  moments_to_comoments [-1; 3]%Z (lz [2; 5; 1; 7]%Z) = Raise EValue.
Proof. repeat split. Qed.

(* ---- C55 --------------------------------------------------------------------------------- *)

Lemma mom_array_sizes nd r k a : mom_array nd r k a -> nrows a = r /\ ncols a = k.
Proof. intros ([L H] & Hr & Hk & _). split; [exact L|]. unfold ncols. apply H. lia. Qed.
Lemma assign_one_inv nd r k name sq v a a' : mom_array nd r k a -> assign_one name nd sq v a = Ok a' ->
  exists cs sh v', index_cells name nd sq a = Ok (cs, sh) /\ broadcast v (List.length cs) = Ok v' /\
    a' = write_cells a (combine cs v') /\ List.length v' = List.length cs /\ NoDup cs /\ Forall (cell_ok r k) cs.
Proof.
  intros M E. destruct (mom_array_sizes _ _ _ _ M) as [Er Ek]. unfold assign_one in E.
  destruct (index_cells name nd sq a) as [[cs sh]|] eqn:I; [|discriminate]. cbn [rbind fst] in E.
  destruct (broadcast v (List.length cs)) as [v'|] eqn:B; [|discriminate]. injection E as <-.
  exists cs, sh, v'. split; [reflexivity|]. split; [exact B|]. split; [reflexivity|].
  unfold index_cells in I. rewrite Er, Ek in I.
  destruct (moment_indexer name nd sq r k) as [[cs' sh']|] eqn:Ix; [|discriminate]. cbn [rbind fst] in I.
  destruct (in_bounds r k cs') eqn:Ib; [|discriminate]. injection I as -> ->.
  split; [|split; [now apply indexer_NoDup in Ix|now apply in_bounds_spec]].
  unfold broadcast in B. destruct v as [|x [|y v]].
  - destruct (Nat.eqb_spec (List.length ([] : list Qc)) (List.length cs)); [|discriminate]. injection B as <-. assumption.
  - injection B as <-. apply repeat_length.
  - destruct (Nat.eqb_spec (List.length (x :: y :: v)) (List.length cs)); [|discriminate]. injection B as <-. assumption.
Qed.
Lemma mom_array_write nd r k a cv : mom_array nd r k a -> mom_array nd r k (write_cells a cv).
Proof. intros (S & H). split; [now apply write_shape|exact H]. Qed.
Lemma index_cells_same nd r k name sq a b : mom_array nd r k a -> mom_array nd r k b ->
  index_cells name nd sq a = index_cells name nd sq b.
Proof.
  intros A B. destruct (mom_array_sizes _ _ _ _ A) as [E1 E2], (mom_array_sizes _ _ _ _ B) as [E3 E4].
  unfold index_cells. now rewrite E1, E2, E3, E4.
Qed.
Lemma assign_same nd r k name sq v a a' : mom_array nd r k a -> assign_one name nd sq v a = Ok a' -> mom_array nd r k a'.
Proof.
  intros M E. destruct (assign_one_inv _ _ _ _ _ _ _ _ M E) as (cs & sh & v' & _ & _ & -> & _).
  now apply mom_array_write.
Qed.
Lemma broadcast_exact v n : List.length v = n -> broadcast v n = Ok v.
Proof.
  intros <-. unfold broadcast. destruct v as [|x [|y v]]; [reflexivity|reflexivity|]. now rewrite Nat.eqb_refl.
Qed.

(* select after assign; s is the selection before *)
Theorem select_after_assign : forall nd r k name sq v a a' s, mom_array nd r k a ->
  select_moment name nd sq a = Ok s -> assign_one name nd sq v a = Ok a' ->
  select_moment name nd sq a' = Ok (match v with [x] => repeat x (List.length s) | _ => v end).
Proof.
  intros nd r k name sq v a a' s M Es E.
  assert (M' := assign_same _ _ _ _ _ _ _ _ M E).
  destruct (assign_one_inv _ _ _ _ _ _ _ _ M E) as (cs & sh & v' & I & B & -> & L & N & F).
  unfold select_moment in *. rewrite (index_cells_same nd r k _ _ _ a) by assumption.
  rewrite I in *. cbn [rbind fst] in *. injection Es as <-. f_equal.
  change (fun c : nat * nat => get2 (write_cells a (combine cs v')) (fst c) (snd c)) with (getc (write_cells a (combine cs v'))).
  rewrite (write_read r k) by (auto; apply M). rewrite map_length.
  unfold broadcast in B. destruct v as [|x [|y v]];
    [destruct (Nat.eqb _ _); [|discriminate]|idtac|destruct (Nat.eqb _ _); [|discriminate]]; now injection B as <-.
Qed.
(* a value of the size of the selection can be assigned *)
Theorem assign_succeeds : forall nd name sq v a s, select_moment name nd sq a = Ok s ->
  (List.length v = List.length s \/ List.length v = 1%nat) -> exists a', assign_one name nd sq v a = Ok a'.
Proof.
  intros nd name sq v a s Es L. unfold select_moment, assign_one in *.
  destruct (index_cells name nd sq a) as [[cs sh]|]; [|discriminate]. cbn [rbind fst] in *. injection Es as <-.
  rewrite map_length in L. destruct L as [L|L].
  - rewrite broadcast_exact by exact L. cbn. eauto.
  - destruct v as [|x [|y v]]; try discriminate. cbn. eauto.
Qed.
Theorem assign_what_was_selected : forall nd r k name sq a s, mom_array nd r k a ->
  select_moment name nd sq a = Ok s -> assign_one name nd sq s a = Ok a.
Proof.
  intros nd r k name sq a s M Es.
  destruct (assign_succeeds nd name sq s a s Es (or_introl eq_refl)) as [a' E]. rewrite E. f_equal.
  destruct (assign_one_inv _ _ _ _ _ _ _ _ M E) as (cs & sh & v' & I & B & -> & L & N & F).
  unfold select_moment in Es. rewrite I in Es. cbn [rbind fst] in Es. injection Es as <-.
  rewrite broadcast_exact in B by now rewrite map_length. injection B as <-.
  apply (write_id r k); [apply M|exact F].
Qed.
Theorem assign_twice_keeps_last : forall nd r k name sq v v' a a', mom_array nd r k a ->
  assign_one name nd sq v a = Ok a' -> assign_one name nd sq v' a' = assign_one name nd sq v' a.
Proof.
  intros nd r k name sq v v' a a' M E.
  assert (M' := assign_same _ _ _ _ _ _ _ _ M E).
  destruct (assign_one name nd sq v' a') as [b|e] eqn:E1.
  - destruct (assign_one_inv _ _ _ _ _ _ _ _ M E) as (cs & sh & v1 & I & B & -> & L & N & F).
    destruct (assign_one_inv _ _ _ _ _ _ _ _ M' E1) as (cs' & sh' & v1' & I' & B' & -> & L' & N' & F').
    rewrite (index_cells_same nd r k _ _ _ a) in I' by assumption. rewrite I in I'. injection I' as <- <-.
    unfold assign_one. rewrite I. cbn [rbind fst]. rewrite B'. cbn [rbind]. f_equal.
    apply (write_write r k); auto. apply M.
  - unfold assign_one in *. rewrite (index_cells_same nd r k _ _ _ a) in E1 by assumption.
    destruct (index_cells name nd sq a) as [[cs sh]|]; [|exact (eq_sym E1)]. cbn [rbind fst] in *.
    destruct (broadcast v' _); [discriminate|exact (eq_sym E1)].
Qed.
(* entries that do not belong to the name are untouched *)
Theorem assign_changes_only_named_entries : forall nd r k name sq v a a', mom_array nd r k a ->
  assign_one name nd sq v a = Ok a' ->
  exists P, In (name, P) (name_table nd) /\ mom_array nd r k a' /\
    forall i j, (i < r)%nat -> (j < k)%nat -> ~ P i j -> get2 a' i j = get2 a i j.
Proof.
  intros nd r k name sq v a a' M E.
  assert (M' := assign_same _ _ _ _ _ _ _ _ M E).
  destruct (mom_array_sizes _ _ _ _ M) as [Er Ek].
  destruct (assign_one_inv _ _ _ _ _ _ _ _ M E) as (cs & sh & v' & I & B & -> & L & N & F).
  unfold index_cells in I. rewrite Er, Ek in I. destruct M as (S & Hr & Hk & Hnd).
  assert (Sp := indexer_spec name nd sq r k Hr Hk Hnd).
  destruct (moment_indexer name nd sq r k) as [[cs' sh']|]; [|discriminate].
  cbn [rbind fst] in I. destruct (in_bounds r k cs'); [|discriminate]. injection I as -> ->.
  destruct Sp as (P & HP & Hc). exists P. split; [exact HP|]. split; [exact M'|].
  intros i j Hi Hj NP. apply write_other. rewrite combine_fst by exact L. now rewrite Hc.
Qed.
(* the selection consists of the entries of the name, each once *)
Theorem selection_is_named_entries : forall nd r k name sq a s, mom_array nd r k a ->
  select_moment name nd sq a = Ok s ->
  exists P cs, In (name, P) (name_table nd) /\ NoDup cs /\ s = map (fun c => get2 a (fst c) (snd c)) cs /\
    forall i j, In (i, j) cs <-> ((i < r)%nat /\ (j < k)%nat /\ P i j).
Proof.
  intros nd r k name sq a s M E.
  destruct (mom_array_sizes _ _ _ _ M) as [Er Ek]. destruct M as (S & Hr & Hk & Hnd).
  unfold select_moment, index_cells in E. rewrite Er, Ek in E.
  assert (Sp := indexer_spec name nd sq r k Hr Hk Hnd).
  destruct (moment_indexer name nd sq r k) as [[cs sh]|] eqn:Ix; [|discriminate].
  cbn [rbind fst] in E. destruct (in_bounds r k cs) eqn:Ib; [|discriminate]. injection E as <-.
  destruct Sp as (P & HP & Hc). exists P, cs. split; [exact HP|]. split; [now apply indexer_NoDup in Ix|].
  split; [reflexivity|]. apply in_bounds_spec in Ib. rewrite Forall_forall in Ib.
  intros i j. split.
  - intros H. destruct (Ib _ H) as [Hi Hj]. cbn in Hi, Hj. split; [exact Hi|]. split; [exact Hj|]. now apply Hc.
  - intros (Hi & Hj & HP'). now apply Hc.
Qed.
Theorem disjoint_assignments_commute : forall nd r k n1 n2 sq v1 v2 a P1 P2, mom_array nd r k a ->
  In (n1, P1) (name_table nd) -> In (n2, P2) (name_table nd) ->
  (forall i j, (i < r)%nat -> (j < k)%nat -> P1 i j -> ~ P2 i j) ->
  forall a1 a2, assign_one n1 nd sq v1 a = Ok a1 -> assign_one n2 nd sq v2 a = Ok a2 ->
  assign_one n2 nd sq v2 a1 = assign_one n1 nd sq v1 a2.
Proof.
  intros nd r k n1 n2 sq v1 v2 a P1 P2 M HP1 HP2 D a1 a2 E1 E2.
  assert (Huniq : forall n P Q, In (n, P) (name_table nd) -> In (n, Q) (name_table nd) -> P = Q).
  { unfold name_table. intros n P Q. destruct (Nat.eqb nd 1); cbn [In]; intros HP HQ;
      repeat (destruct HP as [HP|HP]; [injection HP as <- <-;
        repeat (destruct HQ as [HQ|HQ]; [first [discriminate HQ|injection HQ as <-; reflexivity]|]); destruct HQ|]); destruct HP. }
  assert (M1 := assign_same _ _ _ _ _ _ _ _ M E1). assert (M2 := assign_same _ _ _ _ _ _ _ _ M E2).
  destruct (mom_array_sizes _ _ _ _ M) as [Er Ek].
  destruct (assign_one_inv _ _ _ _ _ _ _ _ M E1) as (cs1 & sh1 & w1 & I1 & B1 & -> & L1 & N1 & F1).
  destruct (assign_one_inv _ _ _ _ _ _ _ _ M E2) as (cs2 & sh2 & w2 & I2 & B2 & -> & L2 & N2 & F2).
  unfold assign_one. rewrite (index_cells_same nd r k n2 sq _ a M1 M), (index_cells_same nd r k n1 sq _ a M2 M).
  rewrite I1, I2. cbn [rbind fst]. rewrite B1, B2. cbn [rbind]. f_equal.
  apply (write_commute r k); auto; [apply M|].
  intros [i j] H1 H2. unfold index_cells in I1, I2. rewrite Er, Ek in I1, I2.
  destruct M as (S & Hr & Hk & Hnd).
  assert (S1 := indexer_spec n1 nd sq r k Hr Hk Hnd). assert (S2 := indexer_spec n2 nd sq r k Hr Hk Hnd).
  destruct (moment_indexer n1 nd sq r k) as [[c1 t1]|]; [|discriminate].
  destruct (moment_indexer n2 nd sq r k) as [[c2 t2]|]; [|discriminate].
  cbn [rbind fst] in I1, I2. destruct (in_bounds r k c1); [|discriminate]. destruct (in_bounds r k c2); [|discriminate].
  injection I1 as -> ->. injection I2 as -> ->.
  destruct S1 as (Q1 & HQ1 & G1). destruct S2 as (Q2 & HQ2 & G2).
  rewrite (Huniq _ _ _ HQ1 HP1) in G1. rewrite (Huniq _ _ _ HQ2 HP2) in G2.
  rewrite Forall_forall in F1. destruct (F1 _ H1) as [Hi Hj]. cbn in Hi, Hj.
  apply (D i j Hi Hj); [now apply G1|now apply G2].
Qed.
Theorem unknown_name_raises : forall nd r k name sq v a, mom_array nd r k a ->
  (forall P, ~ In (name, P) (name_table nd)) ->
  select_moment name nd sq a = Raise EValue /\ assign_one name nd sq v a = Raise EValue.
Proof.
  intros nd r k name sq v a M H.
  destruct (mom_array_sizes _ _ _ _ M) as [Er Ek]. destruct M as (S & Hr & Hk & Hnd).
  unfold select_moment, assign_one, index_cells. rewrite Er, Ek.
  assert (Sp := indexer_spec name nd sq r k Hr Hk Hnd).
  destruct (moment_indexer name nd sq r k) as [[cs sh]|e]; [destruct Sp as (P & HP & _); exfalso; now apply (H P)|].
  destruct Sp as [-> _]. split; reflexivity.
Qed.
Open Scope string_scope.
(* known names fail only when an order is too low: the variances need order 2 *)
Theorem known_name_selects : forall nd r k name sq a P, mom_array nd r k a ->
  In (name, P) (name_table nd) -> (2 <= k)%nat -> (nd = 2%nat -> (2 <= r)%nat) ->
  (exists s, select_moment name nd sq a = Ok s) \/
  (select_moment name nd sq a = Raise EIndex /\
   In name (if Nat.eqb nd 1 then ["var"; "cov"; "xvar"] else ["var"; "xvar"; "yvar"]) /\
   (k = 2%nat \/ (nd = 2%nat /\ r = 2%nat))).
Proof.
  intros nd r k name sq a P M HP Hk2 Hr2.
  destruct (mom_array_sizes _ _ _ _ M) as [Er Ek]. destruct M as (S & Hr & Hk & Hnd).
  unfold select_moment, index_cells. rewrite Er, Ek.
  assert (Rw : forall i n, (i < r)%nat -> (n <= k)%nat -> in_bounds r k (map (fun j => (i, j)) (seq 0 n)) = true).
  { intros i n Hi Hn. apply in_bounds_spec, Forall_forall. intros [x y] H. apply in_row_cells in H. unfold cell_ok. cbn. lia. }
  assert (Cl : forall j n, (j < k)%nat -> (n <= r)%nat -> in_bounds r k (map (fun i => (i, j)) (seq 0 n)) = true).
  { intros j n Hi Hn. apply in_bounds_spec, Forall_forall. intros [x y] H. apply in_col_cells in H. unfold cell_ok. cbn. lia. }
  assert (Al : in_bounds r k (flat_map (fun i => map (fun j => (i, j)) (seq 0 k)) (seq 0 r)) = true).
  { apply in_bounds_spec, Forall_forall. intros [x y] H. apply in_all_cells in H. exact H. }
  unfold name_table in HP. destruct Hnd as [[-> ->]| ->]; cbn [Nat.eqb] in *; cbn [In] in HP.
  - repeat (destruct HP as [HP|HP]; [injection HP as <- <-|]); [..|destruct HP];
      cbv beta iota delta [moment_indexer]; cbn [Nat.eqb String.eqb Ascii.eqb Bool.eqb rbind fst];
      try (rewrite Al; left; eexists; reflexivity);
      (destruct k as [|[|[|k]]]; [lia|lia|..]); cbn;
      first [left; eexists; reflexivity|right; split; [reflexivity|]; split; [tauto|lia]].
  - specialize (Hr2 eq_refl).
    repeat (destruct HP as [HP|HP]; [injection HP as <- <-|]); [..|destruct HP];
      cbv beta iota delta [moment_indexer]; cbn [Nat.eqb String.eqb Ascii.eqb Bool.eqb rbind fst];
      first [rewrite Al|rewrite Rw by lia|rewrite Cl by lia|idtac];
      try (left; eexists; reflexivity);
      (destruct k as [|[|[|k]]]; [lia|lia|..]); (destruct r as [|[|[|r]]]; [lia|lia|..]); cbn;
      first [left; eexists; reflexivity|right; split; [reflexivity|]; split; [tauto|lia]].
Qed.
Example lens_ex : let a := [lz [3; 2; 4]%Z; lz [5; 7; -1]%Z] in
  mom_array 2 2 3 a /\
  select_moment "ave" 2 true a = Ok (lz [5; 2]%Z) /\
  assign_one "ave" 2 true (lz [8; 9]%Z) a = Ok [lz [3; 9; 4]%Z; lz [8; 7; -1]%Z] /\
  assign_one "xmom_1" 2 true (lz [0]%Z) a = Ok [lz [3; 2; 4]%Z; lz [0; 0; 0]%Z] /\
  select_moment "var" 2 true a = Raise EIndex /\ select_moment "zvar" 2 true a = Raise EValue /\
  assign_one "ave" 2 true (lz [1; 2; 3]%Z) a = Raise EValue.
Proof.
  cbv zeta. split; [|repeat split; reflexivity].
  unfold mom_array, shape2. split; [|split; [lia|split; [lia|now right]]].
  split; [reflexivity|]. intros [|[|i]] H; [reflexivity|reflexivity|lia].
Qed.

(* ---- C56 ----------------------------------------------------------------------------------- *)

Theorem last_name_wins : forall nd r k sq l name v a a' s, mom_array nd r k a ->
  select_moment name nd sq a = Ok s -> assign_moment (l ++ [(name, v)]) nd sq a = Ok a' ->
  select_moment name nd sq a' = Ok (match v with [x] => repeat x (List.length s) | _ => v end).
Proof.
  intros nd r k sq l name v. induction l as [|[n0 v0] l IH]; intros a a' s M Es E; cbn [assign_moment app] in E.
  - destruct (assign_one name nd sq v a) as [b|] eqn:E1; [|discriminate]. cbn in E. injection E as <-.
    eapply select_after_assign; eauto.
  - destruct (assign_one n0 nd sq v0 a) as [b|] eqn:E1; [|discriminate]. cbn [rbind] in E.
    assert (M' := assign_same _ _ _ _ _ _ _ _ M E1).
    assert (Es' : exists s', select_moment name nd sq b = Ok s' /\ List.length s' = List.length s).
    { unfold select_moment in *. rewrite (index_cells_same nd r k _ _ b a) by assumption.
      destruct (index_cells name nd sq a) as [[cs sh]|]; [|discriminate]. cbn [rbind fst] in *. injection Es as <-.
      eexists. split; [reflexivity|]. now rewrite !map_length. }
    destruct Es' as (s' & Es' & L). rewrite (IH b a' s' M' Es' E). now rewrite L.
Qed.
(* keyword order is observable *)
Theorem assignment_order_matters : exists a n1 v1 n2 v2,
  mom_array 1 1 3 a /\
  assign_moment [(n1, v1); (n2, v2)] 1 true a <> assign_moment [(n2, v2); (n1, v1)] 1 true a.
Proof.
  exists [lz [2; 5; 1]%Z], "all", (lz [0]%Z), "weight", (lz [1]%Z). split.
  - unfold mom_array, shape2. split; [|split; [lia|split; [lia|now left]]].
    split; [reflexivity|]. intros [|i] H; [reflexivity|lia].
  - cbv. intros H. discriminate H.
Qed.

(* ---- C57 ------------------------------------------------------------------------------------- *)

Theorem cmom_one : forall a, (2 <= List.length a)%nat -> cmom 1 [a] = Ok [1 :: 0 :: skipn 2 a].
Proof. intros [|w [|x t]] H; cbn in H; try lia. reflexivity. Qed.
Theorem cmom_two : forall n0 n1 a, (1 <= n0)%nat -> (1 <= n1)%nat -> shape2 (S n0) (S n1) a ->
  exists r, cmom 2 a = Ok r /\ shape2 (S n0) (S n1) r /\
    get2 r 0 0 = 1 /\ get2 r 1 0 = 0 /\ get2 r 0 1 = 0 /\
    forall i j, (2 <= i + j)%nat -> get2 r i j = get2 a i j.
Proof.
  intros n0 n1 a H0 H1 S.
  assert (Er : nrows a = Datatypes.S n0) by apply S.
  assert (Ek : ncols a = Datatypes.S n1) by (unfold ncols; apply S; lia).
  eexists. split.
  - unfold cmom. cbn [assign_moment]. unfold assign_one, index_cells. rewrite Er, Ek.
    destruct n0 as [|n0]; [lia|]. destruct n1 as [|n1]; [lia|]. cbn -[upd2 write_cells].
    assert (S' : shape2 (Datatypes.S (Datatypes.S n0)) (Datatypes.S (Datatypes.S n1)) (write_cells a [(0%nat, 0%nat, 1)]))
      by (apply write_shape; exact S).
    assert (Er' : nrows (write_cells a [(0%nat, 0%nat, 1)]) = Datatypes.S (Datatypes.S n0)) by apply S'.
    assert (Ek' : ncols (write_cells a [(0%nat, 0%nat, 1)]) = Datatypes.S (Datatypes.S n1)) by (unfold ncols; apply S'; lia).
    rewrite Er', Ek'. cbn -[upd2]. reflexivity.
  - cbn [write_cells fold_left fst snd].
    set (b := upd2 a 0 0 1). set (c := upd2 b 1 0 0).
    assert (Sb : shape2 (Datatypes.S n0) (Datatypes.S n1) b) by now apply shape2_upd2.
    assert (Sc : shape2 (Datatypes.S n0) (Datatypes.S n1) c) by now apply shape2_upd2.
    split; [now apply shape2_upd2|]. repeat split.
    + rewrite get2_upd2_other by congruence. unfold c. rewrite get2_upd2_other by congruence.
      apply (get2_upd2_same (Datatypes.S n0) (Datatypes.S n1)); auto; lia.
    + rewrite get2_upd2_other by congruence. apply (get2_upd2_same (Datatypes.S n0) (Datatypes.S n1)); auto; lia.
    + apply (get2_upd2_same (Datatypes.S n0) (Datatypes.S n1)); auto; lia.
    + intros i j Hij. unfold c, b. rewrite !get2_upd2_other; [reflexivity|..]; intros E; injection E as <- <-; lia.
Qed.
Theorem rmom_one : forall nmax n s, (1 <= n <= nmax)%nat -> W1 s <> 0 ->
  rmom1 nmax (moments_of n s) = Ok [1 :: map (power_mean s) (seq 1 n)].
Proof.
  intros nmax n s Hn N.
  assert (Wf : wf1 n (moments_of n s)) by (apply moments_of_wf; lia).
  assert (Wr := c2r_length nmax n _ Wf (proj1 Hn)).
  transitivity (Ok [upd (central_to_raw nmax (moments_of n s)) 0 1]); [reflexivity|]. do 2 f_equal.
  apply arr_ext; [rewrite upd_length, Wr; cbn; now rewrite map_length, seq_length|].
  rewrite upd_length, Wr. intros [|k] Hk; [reflexivity|].
  rewrite getq_upd_other by lia.
  rewrite (c2r_get nmax n) by (try assumption; lia). rewrite moments_of_raw by (auto; lia).
  unfold getq. cbn [nth]. rewrite nth_indep with (d' := power_mean s 0) by (rewrite map_length, seq_length; lia).
  rewrite map_nth, seq_nth by lia. reflexivity.
Qed.
Theorem rmom_two : forall nmax n0 n1 s, (1 <= n0 <= nmax)%nat -> (1 <= n1 <= nmax)%nat -> W2 s <> 0 ->
  exists r, rmom2 nmax (comoments_of n0 n1 s) = Ok r /\ shape2 (S n0) (S n1) r /\ get2 r 0 0 = 1 /\
    forall i j, (i <= n0)%nat -> (j <= n1)%nat -> (1 <= i + j)%nat -> get2 r i j = power_mean2 s i j.
Proof.
  intros nmax n0 n1 s H0 H1 N. assert (Wf := comoments_of_wf n0 n1 s).
  assert (Wr := c2r2_wf nmax n0 n1 _ Wf).
  assert (Er : nrows (central_to_raw2 nmax (comoments_of n0 n1 s)) = S n0) by apply Wr.
  assert (Ek : ncols (central_to_raw2 nmax (comoments_of n0 n1 s)) = S n1) by (unfold ncols; apply Wr; lia).
  exists (upd2 (central_to_raw2 nmax (comoments_of n0 n1 s)) 0 0 1). split.
  - unfold rmom2, to_raw2. cbn [assign_moment]. unfold assign_one, index_cells. rewrite Er, Ek. reflexivity.
  - split; [now apply shape2_upd2|]. split; [apply (get2_upd2_same (S n0) (S n1)); auto; lia|].
    intros i j Hi Hj Hs. rewrite get2_upd2_other by (intros E; injection E as <- <-; lia).
    rewrite (c2r2_get nmax n0 n1) by auto. rewrite cc2r_entry_raw by lia. apply comoments_of_raw; auto; lia.
Qed.
Theorem accessors_one : forall n s, (1 <= n)%nat ->
  acc_weight 1 [moments_of n s] = Ok [W1 s] /\ acc_mean 1 [moments_of n s] = Ok [mean1 s] /\
  acc_var 1 [moments_of n s] = (if Nat.leb 2 n then Ok [central1 s 2] else Raise EIndex) /\
  acc_cov 1 [moments_of n s] = acc_var 1 [moments_of n s].
Proof.
  intros [|[|n]] s H; [lia|repeat split|].
  split; [reflexivity|]. split; [reflexivity|]. split; reflexivity.
Qed.
Theorem accessors_two : forall n0 n1 s, (1 <= n0)%nat -> (1 <= n1)%nat ->
  let a := comoments_of n0 n1 s in
  acc_weight 2 a = Ok [W2 s] /\ acc_mean 2 a = Ok [meanx s; meany s] /\ acc_cov 2 a = Ok [central2 s 1 1] /\
  acc_var 2 a = (if (Nat.leb 2 n0 && Nat.leb 2 n1)%bool then Ok [central2 s 2 0; central2 s 0 2] else Raise EIndex).
Proof.
  intros [|[|n0]] [|[|n1]] s H0 H1; try lia; cbv zeta; repeat split.
Qed.
(* the variance of an accumulator of order 1 is an IndexError *)
Theorem variance_of_order_one_refuted : exists a, mom_array 1 1 2 a /\ acc_var 1 a = Raise EIndex.
Proof.
  exists [lz [2; 5]%Z]. split; [|reflexivity].
  unfold mom_array, shape2. split; [|split; [lia|split; [lia|now left]]].
  split; [reflexivity|]. intros [|i] H; [reflexivity|lia].
Qed.
Example cmom_ex : cmom 1 [lz [3; 5; 7; 2]%Z] = Ok [lz [1; 0; 7; 2]%Z] /\
  cmom 2 [lz [3; 2; 4]%Z; lz [5; 7; -1]%Z] = Ok [lz [1; 0; 4]%Z; lz [0; 7; -1]%Z] /\ W1 ex1 <> 0.
Proof.
  split; [reflexivity|]. split; [reflexivity|]. apply qc_neq. vm_compute. reflexivity.
Qed.
Close Scope string_scope.
