(* Proofs about the indexed kernel and the conversion of frequency tables. *)
From Coq Require Import Permutation Sorted.
From Verif Require Import Base BaseLemmas ModelKernels ModelIndex SpecIndex Laws ProofKernels ProofRolling ProofIndex.

Lemma slice_seq {T} (l : list T) d a b : b <= length l -> slice a b l = map (fun i => nth i l d) (seq a (b - a)).
Proof.
  intros H. unfold slice. remember (b - a) as n eqn:E. assert (Hn : a + n <= length l \/ n = 0) by lia. clear E H.
  revert a Hn. induction n as [|n IH]; intros a Hn; [reflexivity|]. cbn [seq map].
  rewrite (skipn_cons l a d) by lia. cbn [firstn]. f_equal. apply IH. lia.
Qed.
Lemma slice_app {T} (p l q : list T) : slice (length p) (length p + length l) (p ++ l ++ q) = l.
Proof.
  unfold slice. rewrite skipn_app, skipn_all, Nat.sub_diag. cbn [skipn app].
  replace (length p + length l - length p) with (length l) by lia.
  rewrite firstn_app, Nat.sub_diag, firstn_all. cbn [firstn]. now rewrite app_nil_r.
Qed.
Lemma in_firstn_skipn {T} (x : T) n m l : In x (firstn n (skipn m l)) -> In x l.
Proof.
  intros H. rewrite <- (firstn_skipn m l). apply in_or_app. right.
  rewrite <- (firstn_skipn n (skipn m l)). apply in_or_app. now left.
Qed.
Lemma slice_map {S T} (f : S -> T) a b l : slice a b (map f l) = map f (slice a b l).
Proof. unfold slice. now rewrite skipn_map, firstn_map. Qed.
Lemma combine_map2 {X Y Z} (f : X -> Y) (g : X -> Z) l : combine (map f l) (map g l) = map (fun x => (f x, g x)) l.
Proof. induction l; cbn; congruence. Qed.

Section Indexed.
  Context {A V I : Type} {K : pusher A V} (L : laws K I).
  Local Open Scope Qc_scope.

  (* copy the first row with its weight multiplied, push the others scaled *)
  Definition scaled_fold (fd : list (Qc * A)) : option A :=
    match fd with
    | [] => Some (p_zero K)
    | (f, d) :: t => foldM (fun o (s : Qc * A) => p_push_data_scale K (snd s) (fst s) o) t (p_setwt K (p_wt K d * f) d)
    end.

  Definition picked (data : list A) (index : list Z) (scale : list Qc) (a b : nat) : list (Qc * A) :=
    combine (slice a b scale) (map (fun i => nth (Z.to_nat i) data (p_zero K)) (slice a b index)).

  Lemma foldR_opt {X Y} e (f : X -> Y -> res X) (g : X -> Y -> option X) l : (forall x y, In y l -> f x y = of_opt e (g x y)) ->
    forall x, foldR f l x = of_opt e (foldM g l x).
  Proof.
    intros H. induction l as [|y t IH]; intros x; [reflexivity|]. cbn [foldR foldM].
    rewrite H by now left. destruct (g x y); cbn; [|reflexivity]. apply IH. intros. apply H. now right.
  Qed.

  Lemma indexed_group_eq data index scale s e :
    Forall (fun i => (0 <= i < Z.of_nat (length data))%Z) index -> length scale = length index ->
    (0 <= s <= e)%Z -> (e <= Z.of_nat (length index))%Z ->
    indexed_group K data index scale s e = of_opt EZeroDiv (scaled_fold (picked data index scale (Z.to_nat s) (Z.to_nat e))).
  Proof.
    intros Hi Hl Hs He. unfold indexed_group, picked. rewrite Forall_forall in Hi.
    assert (R : forall i, (i < length index)%nat -> zread data (nth i index 0%Z) = Ok (nth (Z.to_nat (nth i index 0%Z)) data (p_zero K))).
    { intros i H. apply zread_in. apply Hi. now apply nth_In. }
    rewrite (slice_seq scale 0), (slice_seq index 0%Z) by lia. rewrite map_map, combine_map2.
    destruct (Z.ltb_spec s e).
    - replace (Z.to_nat e - Z.to_nat s)%nat with (S (Z.to_nat (e - (s + 1)))) by lia. cbn [seq map scaled_fold].
      rewrite (zread_in index s 0%Z) by lia. cbn [rbind]. rewrite (zread_in scale s 0) by lia. cbn [rbind].
      rewrite R by lia. cbn [rbind].
      rewrite (foldR_opt EZeroDiv _ (fun o i => p_push_data_scale K (nth (Z.to_nat (nth (S (Z.to_nat s) + i) index 0%Z)) data (p_zero K))
                                         (nth (S (Z.to_nat s) + i) scale 0) o)).
      + f_equal. rewrite <- seq_shift. cbn [seq map]. rewrite foldM_map. cbn [fst snd].
        rewrite <- (map_id (seq 0 (Z.to_nat (e - (s + 1))))) at 1.
        assert (G : forall n k a, foldM (fun o i => p_push_data_scale K (nth (Z.to_nat (nth (S (Z.to_nat s) + i) index 0%Z)) data (p_zero K))
                                         (nth (S (Z.to_nat s) + i) scale 0) o) (seq k n) a
                          = foldM (fun o i => p_push_data_scale K (nth (Z.to_nat (nth i index 0%Z)) data (p_zero K)) (nth i scale 0) o)
                              (seq (S (Z.to_nat s) + k) n) a).
        { induction n as [|n IH]; intros k a; [reflexivity|]. cbn [seq foldM].
          destruct (p_push_data_scale K _ _ a); [|reflexivity]. cbn [obind].
          rewrite IH. f_equal. f_equal. lia. }
        rewrite map_id, G, Nat.add_0_r, seq_shift. reflexivity.
      + intros o i Hin. apply in_seq in Hin.
        rewrite (zread_in index _ 0%Z) by lia. cbn [rbind]. rewrite (zread_in scale _ 0) by lia. cbn [rbind].
        replace (Z.to_nat (s + 1 + Z.of_nat i)) with (S (Z.to_nat s) + i)%nat by lia.
        rewrite R by lia. reflexivity.
    - replace (Z.to_nat e - Z.to_nat s)%nat with 0%nat by lia. reflexivity.
  Qed.

  Lemma picked_length data index scale a b : (b <= length index)%nat -> length scale = length index ->
    length (picked data index scale a b) = (b - a)%nat.
  Proof.
    intros Hb Hl. unfold picked, slice. rewrite combine_length, map_length, !firstn_length, !skipn_length. lia.
  Qed.

  (* a validated call raises no memory error *)
  Lemma indexed_no_mem data index scale se : List.length scale = List.length index ->
    Forall (fun i => (0 <= i < Z.of_nat (length data))%Z) index ->
    (0 <= fst se <= snd se)%Z -> (snd se <= Z.of_nat (length index))%Z ->
    indexed_group K data index scale (fst se) (snd se) <> Raise EMem.
  Proof.
    intros Hl Hi Hs He. rewrite indexed_group_eq by assumption. destruct (scaled_fold _); discriminate.
  Qed.

  (* skipping zero frequencies is keeping the nonzero ones *)
  Lemma resample_row_filter fd : resample_row K fd = scaled_fold (filter (fun s => negb (qeqb (fst s) 0)) fd).
  Proof.
    induction fd as [|[f d] t IH]; [reflexivity|]. cbn [resample_row filter fst].
    destruct (qeqb f 0); cbn [negb]; [exact IH|]. cbn [scaled_fold].
    generalize (p_setwt K (p_wt K d * f) d). clear IH. induction t as [|[g e] t IH]; intros o; [reflexivity|].
    cbn [foldM filter fst]. destruct (qeqb g 0); cbn [negb obind]; [apply IH|]. cbn [foldM fst snd].
    destruct (p_push_data_scale K e g o); cbn [obind]; [apply IH|reflexivity].
  Qed.

  Local Notation wf := (l_wf L).
  Local Notation Pos := (@Pos _ _ _ K L).

  Lemma scaled_fold_ok fd : Forall (fun s => 0 <= fst s /\ Pos (snd s)) fd ->
    exists r, scaled_fold fd = Some r /\ wf r /\
      (forall i, l_dom L i -> phi L r i = sumphi L (@scale_rows _ _ K fd) i) /\
      (@sumwt _ _ K (@scale_rows _ _ K fd) <> 0 -> reduce_data K (@scale_rows _ _ K fd) = Some r).
  Proof.
    intros H.
    assert (M : exists r, scaled_fold fd = Some r /\ wf r /\
      (forall i, l_dom L i -> phi L r i = sumphi L (@scale_rows _ _ K fd) i)).
    { destruct H as [|[f d] t [Hf [Wd Pd]] Ht].
      - exists (p_zero K). split; [reflexivity|]. split; [apply l_wf_zero|]. intros. now rewrite phi_zero.
      - cbn [fst snd] in *. cbn [scaled_fold].
        assert (Ep : forall o, foldM (fun o (s : Qc * A) => p_push_data_scale K (snd s) (fst s) o) t o
                  = reduce_data_into K (@scale_rows _ _ K t) o).
        { intros o. unfold reduce_data_into, scale_rows. rewrite foldM_map. apply foldM_ext.
          intros x s Hin. apply (pushs_scaled L). rewrite Forall_forall in Ht. now destruct (Ht s Hin) as [_ [? _]]. }
        rewrite Ep.
        destruct (reduce_into_ok L (@scale_rows _ _ K t) (@scaled _ _ K f d)) as (r & E & W & T & P & C).
        + apply (Pos_wf L). now apply (scale_rows_Pos L).
        + now apply (scaled_wf L).
        + apply nv_nonneg.
          { rewrite (scaled_wt L) by exact Wd. now apply Qc_mul_nonneg. }
          { apply Forall_map. pose proof (scale_rows_Pos L t Ht) as HP. revert HP. apply Forall_impl.
            now intros a [_ ?]. }
        + exists r. split; [exact E|]. split; [exact W|]. intros i Hi. rewrite P by exact Hi.
          unfold scale_rows, sumphi. cbn [map fst snd]. rewrite suml_cons. ring. }
    destruct M as (r & E & W & P). exists r. split; [exact E|]. split; [exact W|]. split; [exact P|].
    intros N. pose proof (scale_rows_Pos L fd H) as HP.
    apply (reduce_unique L); [| | |exact P].
    - apply (Pos_wf L). exact HP.
    - apply (Pos_nv L). exact HP.
    - apply (canonical_nz L); [exact W|]. rewrite <- (phi_i0 L), P by apply l_i0_dom. now rewrite (sumphi_i0 L).
  Qed.
End Indexed.

(* ---- conversion of frequency tables ---------------------------------------------- *)

(* the positive entries of a row with their positions *)
Fixpoint positives (k : nat) (row : list Z) : list (Z * Z) :=
  match row with
  | [] => []
  | f :: t => if (0 <? f)%Z then (Z.of_nat k, f) :: positives (S k) t else positives (S k) t
  end.
Fixpoint spans {T} (a : nat) (ll : list (list T)) : list (Z * Z) :=
  match ll with
  | [] => []
  | l :: t => (Z.of_nat a, Z.of_nat (a + length l)) :: spans (a + length l) t
  end.

Lemma zwrite_app {T} (p : list T) x q v : zwrite (p ++ x :: q) (Z.of_nat (length p)) v = Ok (p ++ v :: q).
Proof.
  rewrite zwrite_in by (rewrite app_length; cbn; lia). f_equal. rewrite Nat2Z.id.
  induction p as [|a p IH]; [reflexivity|]. cbn. now rewrite IH.
Qed.

Lemma fti_row_fold row : forall k count di ji ds js, length di = length ds -> length ji = length js ->
  length (positives k row) <= length ji ->
  foldR (fun (s : nat * Z * (Z * list Z * list Z)) f =>
           let '(k, count, (idx, index, scale)) := s in
           if (0 <? f)%Z
           then rbind (zwrite index idx (Z.of_nat k)) (fun index =>
                rbind (zwrite scale idx f) (fun scale =>
                Ok (S k, (count + 1)%Z, ((idx + 1)%Z, index, scale))))
           else Ok (S k, count, (idx, index, scale)))
    row (k, count, (Z.of_nat (length di), di ++ ji, ds ++ js)) =
  let p := positives k row in
  Ok (k + length row, (count + Z.of_nat (length p))%Z,
      (Z.of_nat (length di + length p), di ++ map fst p ++ skipn (length p) ji, ds ++ map snd p ++ skipn (length p) js)).
Proof.
  induction row as [|f t IH]; intros k count di ji ds js H1 H2 H3.
  - cbn. rewrite !Nat.add_0_r, Z.add_0_r. reflexivity.
  - cbn [foldR positives]. cbn [positives] in H3. destruct (Z.ltb_spec 0 f).
    + cbn [length] in H3. destruct ji as [|x ji]; [cbn in H3; lia|]. destruct js as [|y js]; [discriminate|].
      rewrite zwrite_app. cbn [rbind].
      rewrite H1, zwrite_app, <- H1. cbn [rbind].
      assert (Ed : Z.of_nat (length di + 1) = Z.of_nat (length (di ++ [Z.of_nat k]))) by now rewrite app_length.
      replace (Z.of_nat (length di) + 1)%Z with (Z.of_nat (length (di ++ [Z.of_nat k]))) by (rewrite app_length; cbn; lia).
      replace (di ++ Z.of_nat k :: ji) with ((di ++ [Z.of_nat k]) ++ ji) by now rewrite <- app_assoc.
      replace (ds ++ f :: js) with ((ds ++ [f]) ++ js) by now rewrite <- app_assoc.
      rewrite IH.
      * cbv zeta. cbn [length map skipn fst snd]. rewrite !app_length. cbn [length].
        rewrite <- !app_assoc. cbn [app]. f_equal. f_equal; [f_equal; lia|]. f_equal. f_equal. lia.
      * rewrite !app_length. cbn. lia.
      * now injection H2.
      * cbn in H3. lia.
    + cbn [rbind]. rewrite IH by assumption. cbn [length]. cbv zeta. f_equal. f_equal. f_equal. lia.
Qed.

Definition npos (freq : list (list Z)) : nat := length (concat (map (positives 0) freq)).
Lemma npos_cons row t : npos (row :: t) = length (positives 0 row) + npos t.
Proof. unfold npos. cbn. now rewrite app_length. Qed.

Lemma skipn_skipn' {T} (a b : nat) (l : list T) : skipn a (skipn b l) = skipn (b + a) l.
Proof. revert l. induction b; intros [|x l]; cbn; auto. now rewrite skipn_nil. Qed.

Lemma fti_groups_eq freq : forall di ji ds js st en, length di = length ds -> length ji = length js ->
  npos freq <= length ji ->
  let ps := map (positives 0) freq in
  fti_groups (Z.of_nat (length di), di ++ ji, ds ++ js) freq st en =
  Ok ((di ++ map fst (concat ps) ++ skipn (npos freq) ji, st ++ map fst (spans (length di) ps)),
      (en ++ map snd (spans (length di) ps), ds ++ map snd (concat ps) ++ skipn (npos freq) js)).
Proof.
  induction freq as [|row t IH]; intros di ji ds js st en H1 H2 H3 ps.
  - cbn. now rewrite !app_nil_r.
  - rewrite npos_cons in H3. cbn [fti_groups]. unfold fti_row. rewrite fti_row_fold by (auto; lia). cbv zeta. cbn [rbind].
    set (p := positives 0 row) in *.
    replace (Z.of_nat (length di + length p)) with (Z.of_nat (length (di ++ map fst p))) by (rewrite app_length, map_length; lia).
    rewrite (app_assoc di), (app_assoc ds).
    rewrite IH.
    + rewrite npos_cons. fold p. subst ps. cbn [map concat spans]. fold p. rewrite !skipn_skipn', !map_app, <- !app_assoc. cbn [app].
      rewrite app_length, map_length. cbn [fst snd map]. rewrite Z.add_0_l, Nat2Z.inj_add. reflexivity.
    + rewrite !app_length, !map_length. lia.
    + rewrite !skipn_length. lia.
    + rewrite skipn_length. lia.
Qed.

Lemma filter_length_le {T} (p q : T -> bool) l : (forall x, p x = true -> q x = true) ->
  length (filter p l) <= length (filter q l).
Proof.
  intros H. induction l as [|a t IH]; [reflexivity|]. cbn.
  destruct (p a) eqn:E; [rewrite (H _ E); cbn; lia|]. destruct (q a); cbn; lia.
Qed.
Lemma positives_length k row : length (positives k row) = length (filter (fun f => (0 <? f)%Z) row).
Proof. revert k. induction row as [|f t IH]; intros k; [reflexivity|]. cbn. destruct (0 <? f)%Z; cbn; now rewrite IH. Qed.
Lemma npos_filter freq : npos freq = length (filter (fun f => (0 <? f)%Z) (concat freq)).
Proof.
  induction freq as [|row t IH]; [reflexivity|].
  rewrite npos_cons, IH, positives_length. cbn [concat]. now rewrite filter_app, app_length.
Qed.
Lemma npos_le freq : npos freq <= count_nonzero freq.
Proof.
  rewrite npos_filter. apply filter_length_le. intros x H. apply Z.ltb_lt in H.
  apply negb_true_iff, Z.eqb_neq. lia.
Qed.
Lemma npos_nonneg freq : Forall (Forall (fun z => (0 <= z)%Z)) freq -> npos freq = count_nonzero freq.
Proof.
  intros H. rewrite npos_filter. unfold count_nonzero. f_equal. apply filter_ext_in. intros z Hz.
  apply in_concat in Hz. destruct Hz as (row & Hr & Hz). rewrite Forall_forall in H. specialize (H _ Hr).
  rewrite Forall_forall in H. specialize (H _ Hz). cbn in H.
  destruct (Z.ltb_spec 0 z), (Z.eqb_spec z 0); cbn; auto; lia.
Qed.

(* the conversion never leaves its arrays; entries left uninitialised are as
   many as the negative frequencies *)
Lemma freq_to_index_eq junk freq :
  let ps := map (positives 0) freq in
  freq_to_index_start_end_scales junk freq =
  Ok ((map fst (concat ps) ++ repeat junk (count_nonzero freq - npos freq), map fst (spans 0 ps)),
      (map snd (spans 0 ps), map snd (concat ps) ++ repeat junk (count_nonzero freq - npos freq))).
Proof.
  cbv zeta. unfold freq_to_index_start_end_scales.
  pose proof (fti_groups_eq freq [] (repeat junk (count_nonzero freq)) [] (repeat junk (count_nonzero freq)) [] []
                eq_refl eq_refl) as H. cbn [app length] in H. cbn [Z.of_nat] in H.
  rewrite H by (rewrite repeat_length; apply npos_le). clear H.
  assert (ES : skipn (npos freq) (repeat junk (count_nonzero freq)) = repeat junk (count_nonzero freq - npos freq)).
  { pose proof (npos_le freq) as Hn. revert Hn. generalize (npos freq), (count_nonzero freq). clear.
    intros n m. revert m. induction n as [|n IH]; intros m H; [now rewrite Nat.sub_0_r|].
    destruct m as [|m]; [lia|]. cbn. apply IH. lia. }
  rewrite ES. reflexivity.
Qed.

Lemma spans_length {T} (ll : list (list T)) a : length (spans a ll) = length ll.
Proof. revert a. induction ll; intros a0; cbn; auto. Qed.
Lemma combine_fst_snd {X Y} (l : list (X * Y)) : combine (map fst l) (map snd l) = l.
Proof. induction l as [|[] t IH]; cbn; congruence. Qed.
Lemma spans_bounds {T} (ll : list (list T)) : forall a, Forall (fun se => (Z.of_nat a <= fst se <= snd se /\
  snd se <= Z.of_nat (a + length (concat ll)))%Z) (spans a ll).
Proof.
  induction ll as [|l t IH]; intros a; cbn; [constructor|]. rewrite app_length. constructor.
  - cbn. lia.
  - specialize (IH (a + length l)). revert IH. apply Forall_impl. cbn. intros; lia.
Qed.
Lemma spans_start_lt {T} (ll : list (list T)) : forall a, ll <> [] -> last ll [] <> [] ->
  Forall (fun s => (s < Z.of_nat (a + length (concat ll)))%Z) (map fst (spans a ll)).
Proof.
  induction ll as [|l t IH]; intros a H HL; [congruence|]. cbn [spans map concat fst]. rewrite app_length.
  destruct t as [|l' t].
  - cbn in HL. destruct l; [congruence|]. constructor; [cbn; lia|constructor].
  - specialize (IH (a + length l) ltac:(discriminate) HL).
    constructor.
    + inversion IH. cbn in *. lia.
    + revert IH. apply Forall_impl. cbn. intros; lia.
Qed.
Lemma spans_last_start {T} (ll : list (list T)) : forall a, ll <> [] -> last ll [] = [] ->
  In (Z.of_nat (a + length (concat ll))) (map fst (spans a ll)).
Proof.
  induction ll as [|l t IH]; intros a H HL; [congruence|]. cbn [spans map concat fst]. rewrite app_length.
  destruct t as [|l' t].
  - cbn in HL. subst. left. cbn. f_equal. lia.
  - right. rewrite Nat.add_assoc. apply IH; [discriminate|exact HL].
Qed.

Lemma positives_range k row : Forall (fun p => (Z.of_nat k <= fst p < Z.of_nat (k + length row))%Z) (positives k row).
Proof.
  revert k. induction row as [|f t IH]; intros k; cbn; [constructor|].
  assert (T : Forall (fun p => (Z.of_nat k <= fst p < Z.of_nat (k + S (length t)))%Z) (positives (S k) t)).
  { specialize (IH (S k)). revert IH. apply Forall_impl. intros; lia. }
  destruct (0 <? f)%Z; [constructor; [cbn; lia|exact T]|exact T].
Qed.
Lemma positives_nil k row : Forall (fun z => (0 <= z)%Z) row -> positives k row = [] <-> Forall (fun z => z = 0%Z) row.
Proof.
  intros H. revert k. induction H as [|f t Hf Ht IH]; intros k; cbn; [split; constructor|].
  destruct (Z.ltb_spec 0 f).
  - split; [discriminate|]. intros F. inversion F. lia.
  - rewrite IH. split; intros F; [constructor; [lia|exact F]|now inversion F].
Qed.

Section FreqIndex.
  Context {A V I : Type} {K : pusher A V} (L : laws K I).
  Local Open Scope Qc_scope.

  Lemma qz_zero_iff f : (0 <= f)%Z -> negb (qeqb (qz f) 0) = (0 <? f)%Z.
  Proof.
    intros H. destruct (qeqb_spec (qz f) 0) as [E|N]; destruct (Z.ltb_spec 0 f); auto.
    - rewrite <- qz_0 in E. apply qz_inj in E. lia.
    - exfalso. apply N. replace f with 0%Z by lia. apply qz_0.
  Qed.

  Lemma positives_combine row : Forall (fun z => (0 <= z)%Z) row -> forall k (pre data : list A), length pre = k ->
    length row = length data ->
    combine (map qz (map snd (positives k row)))
            (map (fun i => nth (Z.to_nat i) (pre ++ data) (p_zero K)) (map fst (positives k row)))
    = filter (fun s => negb (qeqb (fst s) 0)) (combine (map qz row) data).
  Proof.
    induction 1 as [|f t Hf Ht IH]; intros k pre data Hk Hl; [reflexivity|].
    destruct data as [|d data]; [discriminate|]. cbn [positives map combine filter fst].
    rewrite (qz_zero_iff f Hf).
    assert (N : (pre ++ [d]) ++ data = pre ++ d :: data) by now rewrite <- app_assoc.
    destruct (0 <? f)%Z; cbn [map combine fst snd]; rewrite <- N.
    - f_equal.
      + f_equal. rewrite Nat2Z.id, N, app_nth2, Hk, Nat.sub_diag by lia. reflexivity.
      + apply IH; [rewrite app_length; cbn; lia|cbn in Hl; lia].
    - apply IH; [rewrite app_length; cbn; lia|cbn in Hl; lia].
  Qed.

  Lemma resample_indexed_map data freq : Forall (Forall (fun z => (0 <= z)%Z)) freq ->
    Forall (fun row => length row = length data) freq ->
    forall pre, let ps := map (positives 0) freq in
    let index := map fst (pre ++ concat ps) in
    let scale := map qz (map snd (pre ++ concat ps)) in
    Forall (fun i => (0 <= i < Z.of_nat (length data))%Z) index ->
    mapR (fun se => indexed_group K data index scale (fst se) (snd se)) (spans (length pre) ps)
    = mapR (fun row => of_opt EZeroDiv (resample_row K (combine (map qz row) data))) freq.
  Proof.
    intros H Hl pre ps index scale Hi. subst ps.
    assert (Hsc : length scale = length index) by (subst scale index; now rewrite !map_length).
    assert (G : forall t pre', pre ++ concat (map (positives 0) freq) = pre' ++ concat (map (positives 0) t) ->
       Forall (Forall (fun z => (0 <= z)%Z)) t -> Forall (fun row => length row = length data) t ->
       mapR (fun se => indexed_group K data index scale (fst se) (snd se)) (spans (length pre') (map (positives 0) t))
       = mapR (fun row => of_opt EZeroDiv (resample_row K (combine (map qz row) data))) t).
    { induction t as [|row t IH]; intros pre' E Hn Hlt; [reflexivity|].
      inversion Hn as [|? ? Hn1 Hn2]; subst. inversion Hlt as [|? ? Hl1 Hl2]; subst.
      cbn [map spans mapR fst snd]. cbn [map concat] in E.
      set (p := positives 0 row) in *.
      assert (EL : length index = length (pre' ++ p ++ concat (map (positives 0) t))).
      { subst index. rewrite map_length, E. reflexivity. }
      rewrite indexed_group_eq; auto; try lia.
      2:{ rewrite EL, !app_length. lia. }
      assert (EP : picked (K := K) data index scale (Z.to_nat (Z.of_nat (length pre'))) (Z.to_nat (Z.of_nat (length pre' + length p)))
             = filter (fun s => negb (qeqb (fst s) 0)) (combine (map qz row) data)).
      { rewrite !Nat2Z.id. unfold picked. subst index scale. rewrite map_map, !slice_map, E, slice_app.
        rewrite <- (map_map snd qz). exact (positives_combine row Hn1 0 [] data eq_refl Hl1). }
      rewrite EP, <- resample_row_filter.
      destruct (resample_row K (combine (map qz row) data)) as [o|]; [|reflexivity]. cbn [of_opt rbind].
      replace (length pre' + length p)%nat with (length (pre' ++ p)) by now rewrite app_length.
      rewrite (IH (pre' ++ p)); auto. rewrite E, <- app_assoc. reflexivity. }
    apply G; auto.
  Qed.

  Lemma resample_indexed_eq junk freq data : Forall (Forall (fun z => (0 <= z)%Z)) freq ->
    Forall (fun row => length row = length data) freq -> freq <> [] ->
    Forall (Forall (fun z => z = 0%Z)) freq \/ ~ Forall (fun z => z = 0%Z) (last freq []) ->
    resample_data_indexed K junk freq data = of_opt EZeroDiv (resample_data K (map (map qz) freq) data).
  Proof.
    intros H Hl Hne Hz. unfold resample_data_indexed. rewrite freq_to_index_eq. cbn [rbind].
    rewrite (npos_nonneg freq H), Nat.sub_diag. cbn [repeat]. rewrite !app_nil_r. unfold reduce_data_indexed.
    set (ps := map (positives 0) freq).
    assert (R : Forall (fun i => (0 <= i < Z.of_nat (length data))%Z) (map fst (concat ps))).
    { apply Forall_map, Forall_forall. intros p Hp. apply in_concat in Hp. destruct Hp as (q & Hq & Hp).
      subst ps. apply in_map_iff in Hq. destruct Hq as (row & <- & Hr).
      pose proof (positives_range 0 row) as PR. rewrite Forall_forall in PR, Hl. specialize (PR p Hp).
      rewrite (Hl row Hr) in PR. cbn in PR. lia. }
    rewrite (proj2 (validate_index_iff (length data) (map fst (concat ps)) (map fst (spans 0 ps)) (map snd (spans 0 ps)))).
    2:{ split.
        - split; [exact R|]. split; [now rewrite !map_length|]. rewrite combine_fst_snd, map_length.
          pose proof (spans_bounds ps 0) as B. revert B. apply Forall_impl. cbn. intros; lia.
        - intros Hi. rewrite map_length. split.
          + subst ps. destruct freq; [congruence|discriminate].
          + destruct Hz as [Hz|Hz].
            * exfalso. apply Hi. assert (EC : concat ps = []); [|now rewrite EC].
              subst ps. clear - Hz. induction Hz as [|row t Hr _ IH]; [reflexivity|]. cbn.
              rewrite IH, app_nil_r. apply positives_nil; [|exact Hr]. revert Hr. apply Forall_impl. intros; lia.
            * apply (spans_start_lt ps 0); [subst ps; destruct freq; [congruence|discriminate]|].
              intros EL. apply Hz. subst ps.
              assert (EL' : last (map (positives 0) freq) [] = positives 0 (last freq [])).
              { clear. induction freq as [|a [|b t] IH]; [reflexivity..|]. exact IH. }
              rewrite EL' in EL. apply positives_nil in EL; [exact EL|].
              rewrite Forall_forall in H. apply H. destruct (exists_last Hne) as (x & y & ->).
              rewrite last_last. apply in_or_app. right. now left. }
    cbn [rbind]. rewrite !map_length, Nat.eqb_refl. cbn [rbind].
    rewrite combine_fst_snd. unfold resample_data. rewrite <- mapR_mapM.
    pose proof (resample_indexed_map data freq H Hl [] R) as M. cbn [app length] in M.
    fold ps in M. rewrite M. clear. induction freq as [|row t IH]; [reflexivity|]. cbn [mapR map]. now rewrite IH.
  Qed.

  Lemma resample_indexed_trailing_zero junk freq data : Forall (Forall (fun z => (0 <= z)%Z)) freq ->
    freq <> [] -> ~ Forall (Forall (fun z => z = 0%Z)) freq -> Forall (fun z => z = 0%Z) (last freq []) ->
    resample_data_indexed K junk freq data = Raise EValue.
  Proof.
    intros H Hne Hnz Hz. unfold resample_data_indexed. rewrite freq_to_index_eq. cbn [rbind].
    rewrite (npos_nonneg freq H), Nat.sub_diag. cbn [repeat]. rewrite !app_nil_r. unfold reduce_data_indexed.
    set (ps := map (positives 0) freq).
    rewrite validate_index_err; [reflexivity|]. intros E. apply validate_index_iff in E. destruct E as [_ E].
    assert (Hc : map fst (concat ps) <> []).
    { intros Ec. apply Hnz. apply Forall_forall. intros row Hr.
      assert (Hrow : Forall (fun z => (0 <= z)%Z) row) by (rewrite Forall_forall in H; now apply H).
      apply (positives_nil 0 row Hrow). apply map_eq_nil in Ec. subst ps.
      destruct (positives 0 row) as [|q l] eqn:Eq; [reflexivity|exfalso].
      assert (Hin : In q (concat (map (positives 0) freq))).
      { apply in_concat. exists (positives 0 row). split; [apply in_map_iff; eauto|rewrite Eq; now left]. }
      rewrite Ec in Hin. destruct Hin. }
    destruct (E Hc) as [_ F]. rewrite Forall_forall in F.
    pose proof (spans_last_start ps 0) as S. cbn [Nat.add] in S. rewrite map_length in F.
    assert (X : (Z.of_nat (length (concat ps)) < Z.of_nat (length (concat ps)))%Z); [|lia].
    apply F, S.
    - subst ps. destruct freq; [congruence|discriminate].
    - assert (EL' : last (map (positives 0) freq) [] = positives 0 (last freq [])).
      { clear. induction freq as [|a [|b t] IH]; [reflexivity..|]. exact IH. }
      subst ps. rewrite EL'. apply positives_nil; [|exact Hz]. revert Hz. apply Forall_impl. intros; lia.
  Qed.
End FreqIndex.

Lemma slice_spans {T} (ll : list (list T)) : forall pre r, r < length ll ->
  let se := nth r (spans (length pre) ll) (0%Z, 0%Z) in
  slice (Z.to_nat (fst se)) (Z.to_nat (snd se)) (pre ++ concat ll) = nth r ll [].
Proof.
  induction ll as [|l t IH]; intros pre r Hr; [cbn in Hr; lia|]. cbn [spans]. destruct r as [|r].
  - cbn [nth fst snd concat]. cbv zeta. rewrite !Nat2Z.id. apply slice_app.
  - cbn [nth concat]. specialize (IH (pre ++ l) r). rewrite app_length, <- app_assoc in IH. apply IH. cbn in Hr. lia.
Qed.
Lemma positives_spec row : forall k,
  positives k row = map (fun j => (Z.of_nat (k + j), nth j row 0%Z)) (filter (fun j => (0 <? nth j row 0)%Z) (seq 0 (length row))).
Proof.
  induction row as [|f t IH]; intros k; [reflexivity|]. cbn [length seq filter nth positives].
  assert (E : positives (S k) t = map (fun j => (Z.of_nat (k + j), nth j (f :: t) 0%Z)) (filter (fun j => (0 <? nth j (f :: t) 0)%Z) (seq 1 (length t)))).
  { rewrite IH, <- seq_shift.
    generalize (seq 0 (length t)). intros l. induction l as [|j l IHl]; [reflexivity|]. cbn [map filter nth].
    destruct (0 <? nth j t 0)%Z; [|exact IHl]. cbn [map nth]. f_equal; [f_equal; lia|exact IHl]. }
  destruct (0 <? f)%Z; cbn [map nth]; rewrite E; [|reflexivity]. do 2 f_equal. lia.
Qed.
