(* Consequences for objects of class CentralMomentsArray. *)
From Verif Require Import Base BaseLemmas ModelPush ModelKernels ModelIndex ModelAccum ModelAxes ModelState ModelParams ModelNd ModelWrap ModelMethods
  Spec SpecAxes SpecNd SpecMethods Laws ProofSpec ProofAxes ProofArrays ProofMulti ProofNd ProofNdVals PropReduce PropNd PropNdVals PropNdUse PropNdValsUse PropWrap ProofMethods PropMethods.
Import ListNotations.

(* ---- all samples ever pushed -------------------------------------------------------- *)

(* C112: an object that starts at zero and receives any calls of the push methods
   holds, at each position, the moments of all the samples that fell on it *)
Theorem object_holds_all_samples : forall {A V} (K : pusher A V) ok P R, values_array K ok P R ->
  forall stretch s calls las (xws : list nat -> list (list (V * Qc))),
  history_fits P R stretch s calls las ->
  (forall p, valid s p -> Forall2 (pushes K) (history_at s las p) (xws p) /\ all_nonneg (map snd (concat (xws p)))) ->
  exists c0 c, c_zeros (IIter (map (fun n => (Z.of_nat n - 1)%Z) (pk_shape P))) s = Ok c0 /\
    foldR (run_call K P R stretch) calls c0 = Ok c /\ holds c s (pk_shape P) /\
    forall p, valid s p -> reduce_vals K (concat (xws p)) = Some (mom_cell P (c_obj c) p).
Proof.
  intros A V K ok P R VA stretch s calls las xws HF HX. pose proof (va_array _ _ _ _ VA) as MA.
  assert (LP : length (pk_shape P) = 1 \/ length (pk_shape P) = 2) by (destruct VA; cbn; auto).
  assert (FP : Forall (fun n => 2 <= n) (pk_shape P)) by (destruct VA; cbn; repeat apply Forall_cons; try apply Forall_nil; lia).
  destruct (zeros_object (pk_shape P) s LP FP) as (c0 & E0 & H0 & Z0). exists c0.
  assert (ZC : forall p, valid s p -> mom_cell P (c_obj c0) p = p_zero K).
  { intros p Vp. unfold mom_cell. apply (zero_cell K ok P MA). intros m Vm. apply Z0. apply Forall2_app; assumption. }
  pose proof (push_history_by_positions K ok P R VA stretch s calls las HF c0 H0) as X.
  destruct (foldR _ calls c0) as [c|e].
  - exists c. split; [exact E0|]. split; [reflexivity|]. destruct X as [Hc X]. split; [exact Hc|]. intros p Vp.
    destruct (HX p Vp) as [Fp Np]. rewrite <- (any_push_history_is_one_reduction K ok (ma_kernel _ _ _ MA) _ _ Fp Np), <- (X p Vp), ZC by exact Vp. reflexivity.
  - exfalso. destruct X as [_ (p & Vp & X)]. destruct (HX p Vp) as [Fp Np].
    rewrite (ZC p Vp), (any_push_history_is_one_reduction K ok (ma_kernel _ _ _ MA) _ _ Fp Np) in X.
    destruct (reduce_total K ok P R VA _ Np) as (r & Er). congruence.
Qed.

(* ---- pushing values is reducing them ------------------------------------------------------ *)

Lemma axis_skip (s : list nat) r : r < length s ->
  length (less_axis r s) = length s - 1 /\
  forall q, q < length s - 1 -> nth q (less_axis r s) 0 = nth (if q <? length s - 1 - r then q else S q) s 0.
Proof.
  intros H. set (a := length s - 1 - r). assert (El : length s = a + r + 1) by (unfold a; lia).
  assert (E : less_axis r s = map (fun k => nth k s 0) (seq 0 a ++ seq (S a) r)).
  { rewrite <- less_axis_map. f_equal. symmetry. apply map_nth_seq. now rewrite El. }
  rewrite E. split; [rewrite map_length, app_length, !seq_length; lia|].
  intros q Hq. rewrite (nth_map_in _ _ _ _ 0) by (rewrite app_length, !seq_length; lia). f_equal.
  destruct (Nat.ltb_spec q a).
  - rewrite app_nth1 by (now rewrite seq_length). now rewrite seq_nth.
  - rewrite app_nth2 by (now rewrite seq_length). rewrite seq_length, seq_nth by lia. lia.
Qed.
Lemma from_end_nth s k : k < length s -> from_end s k = nth (length s - 1 - k) s 0.
Proof. intros H. unfold from_end. rewrite rev_nth by exact H. replace (length s - S k) with (length s - 1 - k) by lia. apply nth_indep. lia. Qed.
Lemma from_end_past s k : length s <= k -> from_end s k = 1.
Proof. intros H. unfold from_end. apply nth_overflow. now rewrite rev_length. Qed.
Lemma from_end_less s r k : r < length s -> from_end (less_axis r s) k = from_end s (if k <? r then k else S k).
Proof.
  intros H. destruct (axis_skip s r H) as [L N]. destruct (le_lt_dec (length s - 1) k) as [B|B].
  - rewrite !from_end_past; [reflexivity| |now rewrite L]. destruct (Nat.ltb_spec k r); lia.
  - rewrite from_end_nth by lia. rewrite L, N by lia. destruct (Nat.ltb_spec k r).
    + rewrite from_end_nth by lia. f_equal. destruct (Nat.ltb_spec (length s - 1 - 1 - k) (length s - 1 - r)); lia.
    + rewrite from_end_nth by lia. f_equal. destruct (Nat.ltb_spec (length s - 1 - 1 - k) (length s - 1 - r)); lia.
Qed.
Lemma values_loop {A} (P : packer A) axis r x w y s : values_ok P axis r x w y s -> r < length s /\
  broadcasts (map (value_loop r) (x :: w :: y) ++ [less_axis r s]) (less_axis r s).
Proof.
  intros (_ & (_ & (a & Na & Ea) & Ht) & B1 & _ & B3).
  assert (Bx : tndim x <= length s) by (apply B1; cbn; auto).
  assert (Rs : r < length s) by lia. split; [exact Rs|]. destruct (axis_skip s r Rs) as [Ls _].
  assert (W : forall t, In t (x :: w :: y) -> tndim t <= 1 \/ (2 <= tndim t <= length s /\ r < tndim t /\ In (tshape t) (map tshape (shaping x (w :: y))))).
  { intros t [<-|It].
    - destruct (le_lt_dec (tndim x) 1); [now left|right]. repeat split; try lia. cbn. auto.
    - destruct (le_lt_dec (tndim t) 1); [now left|right].
      assert (In (tshape t) (map tshape (shaping x (w :: y)))).
      { unfold shaping. cbn [map]. right. apply in_map. apply filter_In. split; [exact It|]. apply Nat.ltb_lt. lia. }
      split; [split; [lia|now apply B1]|]. split; [|assumption]. destruct (proj2 (Ht t It)) as [|[[]|(? & ? & _)]]; lia. }
  split; [|split].
  - intros l Hl. apply in_app_or in Hl. destruct Hl as [Hl|[<-|[]]]; [|lia]. apply in_map_iff in Hl. destruct Hl as (t & <- & It).
    unfold value_loop. destruct (W t It) as [Hn|(Hn & Hr & _)].
    + replace (tndim t <=? 1) with true by (symmetry; now apply Nat.leb_le). cbn. lia.
    + destruct (Nat.leb_spec (tndim t) 1); [lia|]. destruct (axis_skip (tshape t) r Hr) as [L _]. rewrite L, Ls. unfold tndim in Hn. lia.
  - right. exists (less_axis r s). split; [apply in_or_app; right; cbn; auto|reflexivity].
  - intros k Hk. split.
    + intros l Hl. apply in_app_or in Hl. destruct Hl as [Hl|[<-|[]]]; [|now left]. apply in_map_iff in Hl. destruct Hl as (t & <- & It).
      unfold value_loop. destruct (W t It) as [Hn|(Hn & Hr & Is)].
      * replace (tndim t <=? 1) with true by (symmetry; now apply Nat.leb_le). right. now destruct k.
      * destruct (Nat.leb_spec (tndim t) 1); [lia|]. rewrite !from_end_less by assumption.
        set (k' := if k <? r then k else S k). assert (k' < length s) by (unfold k'; rewrite Ls in Hk; destruct (Nat.ltb_spec k r); lia).
        apply (B3 k'); assumption.
    + right. exists (less_axis r s). split; [apply in_or_app; right; cbn; auto|reflexivity].
Qed.
Lemma nth_firstn_lt {T} (l : list T) n k d : k < n -> nth k (firstn n l) d = nth k l d.
Proof. revert l k. induction n as [|n IH]; intros l k H; [lia|]. destruct l as [|x l]; [reflexivity|]. destruct k as [|k]; [reflexivity|]. cbn. apply IH. lia. Qed.
Lemma sample_read t r i (s : list nat) (env : nat -> nat) : tndim t <= 1 \/ (2 <= tndim t <= length s /\ r < tndim t) -> r < length s ->
  sample_value t r i (map env (except_nat (seq 0 (length s)) [length s - 1 - r])) = read_value t r i (counted_from_end (length s) env).
Proof.
  intros W Rs. unfold sample_value, read_value. destruct W as [W|[W1 W2]]; [destruct (tndim t) as [|[|n]]; [reflexivity|reflexivity|lia]|].
  set (a := length s - 1 - r). assert (Es : length s = a + r + 1) by (unfold a; lia).
  assert (EL : except_nat (seq 0 (length s)) [a] = seq 0 a ++ seq (S a) r) by (rewrite Es; apply except_middle). rewrite EL.
  set (l := map env (seq 0 a ++ seq (S a) r)).
  assert (Ll : length l = length s - 1) by (unfold l; rewrite map_length, app_length, !seq_length; lia).
  assert (Nl : forall q, q < length s - 1 -> nth q l 0 = env (if q <? a then q else S q)).
  { intros q Hq. unfold l. rewrite (nth_map_in _ _ _ _ 0) by (rewrite app_length, !seq_length; lia). f_equal. destruct (Nat.ltb_spec q a).
    - rewrite app_nth1 by (now rewrite seq_length). now rewrite seq_nth.
    - rewrite app_nth2 by (now rewrite seq_length). rewrite seq_length, seq_nth by lia. lia. }
  destruct (axis_skip (tshape t) r W2) as [Lt Nt]. fold (tndim t) in Lt, Nt.
  assert (EV : value_loop r t = less_axis r (tshape t)) by (unfold value_loop; destruct (Nat.leb_spec (tndim t) 1); [lia|reflexivity]). rewrite EV.
  set (p := stretched (less_axis r (tshape t)) l).
  assert (Lp : length p = tndim t - 1) by (unfold p; rewrite stretched_length by lia; exact Lt).
  assert (Np : forall q, q < tndim t - 1 -> nth q p 0 = if nth q (less_axis r (tshape t)) 0 =? 1 then 0 else nth (length l - (tndim t - 1) + q) l 0).
  { intros q Hq. unfold p. rewrite stretched_nth by lia. rewrite Lt. reflexivity. }
  set (z := firstn (length p - r) p ++ i :: skipn (length p - r) p).
  set (z' := map (fun k => if k =? r then i else if dim_from_end t k =? 1 then 0 else counted_from_end (length s) env k) (rev (seq 0 (tndim t)))).
  assert (E : z = z').
  { assert (Lz : length z = tndim t) by (unfold z; rewrite app_length; cbn [length]; rewrite firstn_length, skipn_length; lia).
    apply (nth_ext _ _ 0 0); [unfold z'; rewrite Lz, map_length, rev_length, seq_length; reflexivity|]. rewrite Lz. intros j Hj.
    unfold z'. rewrite (nth_map_in _ _ _ _ 0) by (now rewrite rev_length, seq_length). rewrite rev_nth, seq_length, seq_nth by (rewrite ?seq_length; lia).
    cbn [Nat.add]. set (k := tndim t - S j).
    unfold z. destruct (lt_eq_lt_dec j (length p - r)) as [[C|C]|C].
    - rewrite app_nth1 by (rewrite firstn_length; lia). rewrite nth_firstn_lt by exact C. rewrite Np by lia.
      rewrite Nt by lia. destruct (Nat.ltb_spec j (tndim t - 1 - r)) as [D|D]; [|lia].
      destruct (Nat.eqb_spec k r) as [X|X]; [unfold k in X; lia|].
      unfold dim_from_end. rewrite from_end_nth by (unfold k, tndim in *; lia). fold (tndim t). replace (tndim t - 1 - k) with j by (unfold k; lia).
      destruct (nth j (tshape t) 0 =? 1); [reflexivity|]. rewrite Nl by lia. unfold counted_from_end.
      destruct (Nat.ltb_spec (length l - (tndim t - 1) + j) a) as [G|G]; [|unfold a in G; lia]. f_equal. unfold k. lia.
    - rewrite app_nth2 by (rewrite firstn_length; lia). rewrite firstn_length. replace (j - Nat.min (length p - r) (length p)) with 0 by lia. cbn [nth].
      destruct (Nat.eqb_spec k r) as [X|X]; [reflexivity|unfold k in X; lia].
    - rewrite app_nth2 by (rewrite firstn_length; lia). rewrite firstn_length. replace (j - Nat.min (length p - r) (length p)) with (S (j - 1 - (length p - r))) by lia. cbn [nth].
      rewrite nth_skipn'. replace (length p - r + (j - 1 - (length p - r))) with (j - 1) by lia. rewrite Np by lia.
      rewrite Nt by lia. destruct (Nat.ltb_spec (j - 1) (tndim t - 1 - r)) as [D|D]; [lia|]. replace (S (j - 1)) with j by lia.
      destruct (Nat.eqb_spec k r) as [X|X]; [unfold k in X; lia|].
      unfold dim_from_end. rewrite from_end_nth by (unfold k, tndim in *; lia). fold (tndim t). replace (tndim t - 1 - k) with j by (unfold k; lia).
      destruct (nth j (tshape t) 0 =? 1); [reflexivity|]. rewrite Nl by lia. unfold counted_from_end.
      destruct (Nat.ltb_spec (length l - (tndim t - 1) + (j - 1)) a) as [G|G]; [unfold a in G; lia|]. f_equal. unfold k. lia. }
  destruct (tndim t) as [|[|n]] eqn:En; [lia|lia|]. cbv zeta. fold p. fold z. rewrite E. reflexivity.
Qed.
Lemma samples_on_in {A V} (P : packer A) (R : reader V) axis r x w y s env : values_ok P axis r x w y s ->
  samples_on R x w y r (map env (except_nat (seq 0 (length s)) [length s - 1 - r])) = samples_in R x w y r s env.
Proof.
  intros (_ & (_ & (a & Na & Ea) & Ht) & B1 & _ & _). assert (Bx : tndim x <= length s) by (apply B1; cbn; auto). assert (Rs : r < length s) by lia.
  assert (W : forall t, In t (x :: w :: y) -> tndim t <= 1 \/ (2 <= tndim t <= length s /\ r < tndim t)).
  { intros t [<-|It]; [lia|]. destruct (le_lt_dec (tndim t) 1); [now left|right].
    assert (In (tshape t) (map tshape (shaping x (w :: y)))).
    { unfold shaping. cbn [map]. right. apply in_map. apply filter_In. split; [exact It|]. apply Nat.ltb_lt. lia. }
    split; [split; [lia|now apply B1]|]. destruct (proj2 (Ht t It)) as [|[[]|(? & ? & _)]]; lia. }
  unfold samples_on, samples_in, samples_at. apply map_ext. intros i. f_equal.
  - f_equal. apply map_ext_in. intros t It. apply sample_read; [|exact Rs]. apply W. destruct It as [<-|It]; cbn; auto.
  - apply sample_read; [|exact Rs]. apply W. cbn. auto.
Qed.

Lemma all_idx_nodup s : NoDup (all_idx s).
Proof. apply (NoDup_map_inv (ravel s)). rewrite ravel_all_idx. apply seq_NoDup. Qed.
Lemma filter_one {T} (d : forall x y : T, {x = y} + {x <> y}) p l : NoDup l -> In p l -> filter (fun x => if d x p then true else false) l = [p].
Proof.
  intros N. induction N as [|x l Hx N IH]; intros I; [destruct I|]. cbn [filter]. destruct (d x p) as [<-|D].
  - f_equal. clear IH I N. induction l as [|y l IH]; [reflexivity|]. cbn [filter]. destruct (d y x) as [->|]; [elim Hx; now left|]. apply IH. intros C. apply Hx. now right.
  - apply IH. now destruct I.
Qed.
Lemma landing_self s p : valid s p -> landing s s p = [p].
Proof.
  intros V. unfold landing. rewrite <- (filter_one (list_eq_dec Nat.eq_dec) p (all_idx s) (all_idx_nodup s)) by (now apply all_idx_valid).
  apply filter_ext_in. intros l Hl. apply all_idx_valid in Hl. now rewrite (stretched_self s l Hl).
Qed.
Lemma position_env (sh : nat -> nat) ax idx : NoDup ax -> valid (map sh ax) idx -> exists env, inside sh ax env /\ map env ax = idx.
Proof.
  intros N V. pose proof (valid_length _ _ V) as E. rewrite map_length in E. exists (bind ax idx (fun _ => 0)). rewrite map_bind by assumption. split; [|reflexivity].
  apply valid_env. now rewrite map_bind.
Qed.

(* C113: pushing values onto a zero object of their shape gives what reduce_vals gives *)
Theorem push_vals_onto_zeros_is_reduce_vals : forall {A V} (K : pusher A V) ok P R, values_array K ok P R ->
  forall stretch axis r x w y s, values_ok P axis r x w y s ->
  exists c0, c_zeros (IIter (map (fun n => (Z.of_nat n - 1)%Z) (pk_shape P))) (less_axis r s) = Ok c0 /\
  match reduce_vals_nd K P R axis x w y with
  | Ok out => exists c, c_push_vals K P R stretch c0 axis x w y = Ok c /\ holds c (less_axis r s) (pk_shape P) /\ c_obj c = out
  | Raise e => e = EZeroDiv /\ c_push_vals K P R stretch c0 axis x w y = Raise EZeroDiv
  end.
Proof.
  intros A V K ok P R VA stretch axis r x w y s HV. pose proof (va_array _ _ _ _ VA) as MA.
  assert (LP : length (pk_shape P) = 1 \/ length (pk_shape P) = 2) by (destruct VA; cbn; auto).
  assert (FP : Forall (fun n => 2 <= n) (pk_shape P)) by (destruct VA; cbn; repeat apply Forall_cons; try apply Forall_nil; lia).
  destruct (zeros_object (pk_shape P) (less_axis r s) LP FP) as (c0 & E0 & H0 & Z0). exists c0. split; [exact E0|].
  assert (ZC : forall p, valid (less_axis r s) p -> mom_cell P (c_obj c0) p = p_zero K).
  { intros p Vp. unfold mom_cell. apply (zero_cell K ok P MA). intros m Vm. apply Z0. apply Forall2_app; assumption. }
  destruct (values_loop P axis r x w y s HV) as [Rs HB].
  pose proof (push_call_by_positions K ok P R VA stretch c0 _ _ H0 (or_intror eq_refl) (CallVals axis x w y) _
    (at_vals P R _ _ axis r x w y (proj1 HV) (proj1 (proj2 HV)) HB)) as X. unfold runs_at in X. cbn [run_call] in X.
  pose proof (reduce_vals_array K ok P R VA axis r x w y s HV) as Y. cbv zeta in Y.
  set (L := except_nat (seq 0 (length s)) [length s - 1 - r]) in *. set (M := seq (length s) (length (pk_shape P))) in *.
  set (shape := shape_of (frame s (pk_shape P))) in *.
  assert (FS : map shape (seq 0 (length s)) = s /\ map shape M = pk_shape P).
  { split.
    - apply (nth_ext _ _ 0 0); [now rewrite map_length, seq_length|]. intros k Hk. rewrite map_length, seq_length in Hk.
      rewrite (nth_map_in _ _ _ _ 0) by (now rewrite seq_length). rewrite seq_nth by exact Hk. unfold shape, shape_of, frame. cbn [tabulate tshape]. now rewrite app_nth1.
    - apply (nth_ext _ _ 0 0); [unfold M; now rewrite map_length, seq_length|]. intros k Hk. unfold M in Hk. rewrite map_length, seq_length in Hk.
      unfold M. rewrite (nth_map_in _ _ _ _ 0) by (now rewrite seq_length). rewrite seq_nth by exact Hk. unfold shape, shape_of, frame. cbn [tabulate tshape].
      rewrite app_nth2 by lia. f_equal. lia. }
  destruct FS as [FS EM].
  assert (EL : map shape L = less_axis r s).
  { assert (E : less_axis r (map shape (seq 0 (length s))) = map shape L).
    { unfold L. replace (length s) with ((length s - 1 - r) + r + 1) at 1 2 by lia. now rewrite less_axis_map, except_middle. }
    rewrite FS in E. now symmetry. }
  assert (NL : NoDup (L ++ M)).
  { unfold L, M. apply NoDup_app_; [apply NoDup_filter, seq_NoDup|apply seq_NoDup|]. intros z Hz Hm. apply except_In in Hz. destruct Hz as [Hz _]. apply in_seq in Hz, Hm. lia. }
  assert (ON : forall p, valid (less_axis r s) p ->
     run_ops K (map (fun l => PushVals (samples_on R x w y r l)) (landing (less_axis r s) (less_axis r s) p)) (mom_cell P (c_obj c0) p) = reduce_vals K (samples_on R x w y r p)).
  { intros p Vp. rewrite (landing_self _ _ Vp), (ZC p Vp). cbn [map]. unfold run_ops. cbn [foldM run_op]. unfold reduce_vals. now destruct (reduce_vals_into K _ (p_zero K)). }
  assert (PE : forall p, valid (less_axis r s) p -> forall m, valid (pk_shape P) m -> exists env, inside shape (L ++ M) env /\ map env L = p /\ map env M = m).
  { intros p Vp m Vm. destruct (position_env shape (L ++ M) (p ++ m) NL) as (env & I & E).
    - rewrite map_app, EL, EM. apply Forall2_app; assumption.
    - exists env. split; [exact I|]. rewrite map_app in E. apply app_inj_len in E; [exact E|].
      rewrite map_length, <- (map_length shape L), EL. symmetry. now apply valid_length. }
  assert (M0 : valid (pk_shape P) (map (fun _ => 0) (pk_shape P))).
  { clear -FP. induction FP; cbn; constructor; auto. lia. }
  destruct (reduce_vals_nd K P R axis x w y) as [out|e].
  - destruct Y as (To & Ts & Y). rewrite map_app, EL, EM in Ts.
    destruct (c_push_vals K P R stretch c0 axis x w y) as [c|e].
    + destruct X as [Hc X]. exists c. split; [reflexivity|]. split; [exact Hc|].
      assert (Sc : tshape (c_obj c) = tshape out) by (rewrite Ts; exact (proj1 (proj2 Hc))).
      apply tensor_ext; [exact (proj1 Hc)|exact To|exact Sc|]. intros idx Vi. rewrite Sc, Ts in Vi.
      apply Forall2_app_inv_l in Vi. destruct Vi as (p & m & Vp & Vm & ->).
      destruct (PE p Vp m Vm) as (env & I & Ep & Em). destruct (Y env I) as (o & Eo & Et).
      rewrite map_app, Ep, Em in Et. rewrite Et. rewrite <- (samples_on_in P R axis r x w y s env HV) in Eo. fold L in Eo. rewrite Ep in Eo.
      specialize (X p Vp). rewrite (ON p Vp), Eo in X. injection X as ->. symmetry. unfold mom_cell. exact (ma_unpack_pack K ok P MA (fun m => tget (c_obj c) (p ++ m)) m Vm).
    + exfalso. destruct X as [_ (p & Vp & X)]. rewrite (ON p Vp) in X. destruct (PE p Vp _ M0) as (env & I & Ep & Em). destruct (Y env I) as (o & Eo & _).
      rewrite <- (samples_on_in P R axis r x w y s env HV) in Eo. fold L in Eo. rewrite Ep in Eo. congruence.
  - destruct Y as [-> (env & I & Y)]. split; [reflexivity|].
    assert (Vp : valid (less_axis r s) (map env L)) by (rewrite <- EL; now apply inside_valid).
    rewrite <- (samples_on_in P R axis r x w y s env HV) in Y. fold L in Y.
    destruct (c_push_vals K P R stretch c0 axis x w y) as [c|e].
    + exfalso. destruct X as [_ X]. specialize (X _ Vp). rewrite (ON _ Vp) in X. congruence.
    + destruct X as [-> _]. reflexivity.
Qed.
