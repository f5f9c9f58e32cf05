(* Proofs about index tables, validation and the indexed kernel. *)
From Coq Require Import String Permutation Sorted.
From Verif Require Import Base BaseLemmas ModelKernels ModelIndex SpecIndex Laws ProofKernels ProofRolling.
Close Scope string_scope.

(* ---- generic list facts ------------------------------------------------------ *)

Lemma list_eq_nth {T} (a b : list T) d : List.length a = List.length b ->
  (forall i, i < List.length a -> nth i a d = nth i b d) -> a = b.
Proof. intros. now apply (nth_ext a b d d). Qed.

Lemma mapR_ok {A B} (f : A -> res B) (g : A -> B) l :
  (forall a, In a l -> f a = Ok (g a)) -> mapR f l = Ok (map g l).
Proof.
  induction l as [|a t IH]; intros H; [reflexivity|]. cbn [mapR map]. rewrite H by now left.
  cbn [rbind]. rewrite IH by (intros; apply H; now right). reflexivity.
Qed.
Lemma mapR_ext {A B} (f g : A -> res B) l : (forall a, In a l -> f a = g a) -> mapR f l = mapR g l.
Proof.
  induction l as [|a t IH]; intros H; [reflexivity|]. cbn [mapR]. rewrite H by now left.
  rewrite IH by (intros; apply H; now right). reflexivity.
Qed.
Lemma mapR_mapM {A B} e (f : A -> option B) l :
  mapR (fun a => of_opt e (f a)) l = of_opt e (mapM f l).
Proof.
  induction l as [|a t IH]; [reflexivity|]. cbn [mapR mapM]. rewrite IH.
  destruct (f a); [|reflexivity]. cbn. destruct (mapM f t); reflexivity.
Qed.
Lemma mapR_no {A B} e (f : A -> res B) l : (forall a, In a l -> f a <> Raise e) -> mapR f l <> Raise e.
Proof.
  induction l as [|a t IH]; intros H; [discriminate|]. cbn [mapR].
  pose proof (H a (or_introl eq_refl)) as Ha. destruct (f a) as [b|e']; cbn [rbind]; [|congruence].
  assert (Ht : mapR f t <> Raise e) by (apply IH; intros; apply H; now right).
  destruct (mapR f t); cbn; congruence.
Qed.
Lemma mapR_err {A B} e (f : A -> res B) l a : In a l -> f a = Raise e ->
  (forall b e', In b l -> f b = Raise e' -> e' = e) -> mapR f l = Raise e.
Proof.
  intros Hin Ha U. induction l as [|b t IH]; [destruct Hin|]. cbn [mapR].
  destruct (f b) as [x|e'] eqn:Eb.
  - destruct Hin as [->|Hin]; [congruence|]. cbn [rbind]. rewrite IH; auto. intros c e' Hc. apply U. now right.
  - cbn. f_equal. apply (U b); auto. now left.
Qed.
Lemma mapR_nth {A B} (f : A -> res B) l rows da db : mapR f l = Ok rows ->
  forall i, i < List.length l -> f (nth i l da) = Ok (nth i rows db).
Proof.
  revert rows. induction l as [|a t IH]; intros rows E i Hi; [cbn in Hi; lia|]. cbn [mapR] in E.
  destruct (f a) as [b|] eqn:Ea; [|discriminate]. cbn [rbind] in E.
  destruct (mapR f t) as [r|] eqn:Et; [|discriminate]. injection E as <-.
  destruct i as [|i]; [exact Ea|]. cbn [nth]. apply IH; [reflexivity|]. cbn in Hi. lia.
Qed.
Lemma mapR_length {A B} (f : A -> res B) l rows : mapR f l = Ok rows -> List.length rows = List.length l.
Proof.
  revert rows. induction l as [|a t IH]; intros rows E; cbn [mapR] in E; [now injection E as <-|].
  destruct (f a) as [b|]; [|discriminate]. cbn [rbind] in E.
  destruct (mapR f t) as [r|] eqn:Et; [|discriminate]. injection E as <-. cbn. now rewrite (IH r).
Qed.

(* ---- element access ------------------------------------------------------------ *)

Lemma wrap_range n i : (- Z.of_nat n <= i < Z.of_nat n)%Z -> (0 <= wrap n i < Z.of_nat n)%Z.
Proof. unfold wrap. destruct (Z.ltb_spec i 0); lia. Qed.
Lemma wrap_nonneg n i : (0 <= i)%Z -> wrap n i = i.
Proof. unfold wrap. destruct (Z.ltb_spec i 0); lia. Qed.

Lemma zread_ok {T} (l : list T) i d : (- Z.of_nat (List.length l) <= i < Z.of_nat (List.length l))%Z ->
  zread l i = Ok (nth (Z.to_nat (wrap (List.length l) i)) l d).
Proof.
  intros H. unfold zread. pose proof (wrap_range _ _ H) as Hw.
  destruct (Z.ltb_spec (wrap (List.length l) i) 0); [lia|].
  rewrite (nth_error_nth' l d) by lia. reflexivity.
Qed.
Lemma zread_in {T} (l : list T) i d : (0 <= i < Z.of_nat (List.length l))%Z -> zread l i = Ok (nth (Z.to_nat i) l d).
Proof. intros H. rewrite (zread_ok l i d) by lia. now rewrite wrap_nonneg by lia. Qed.
Lemma zread_out {T} (l : list T) i : ~ (- Z.of_nat (List.length l) <= i < Z.of_nat (List.length l))%Z ->
  zread l i = Raise EMem.
Proof.
  intros H. unfold zread, wrap. destruct (Z.ltb_spec i 0).
  - destruct (Z.ltb_spec (i + Z.of_nat (List.length l)) 0); [reflexivity|lia].
  - destruct (Z.ltb_spec i 0); [lia|]. rewrite (proj2 (nth_error_None l (Z.to_nat i))) by lia. reflexivity.
Qed.
Lemma zwrite_ok {T} (l : list T) i v : (- Z.of_nat (List.length l) <= i < Z.of_nat (List.length l))%Z ->
  zwrite l i v = Ok (upd l (Z.to_nat (wrap (List.length l) i)) v).
Proof.
  intros H. unfold zwrite. pose proof (wrap_range _ _ H) as Hw.
  destruct (Z.ltb_spec (wrap (List.length l) i) 0); [lia|].
  destruct (Z.leb_spec (Z.of_nat (List.length l)) (wrap (List.length l) i)); [lia|]. reflexivity.
Qed.
Lemma zwrite_in {T} (l : list T) i v : (0 <= i < Z.of_nat (List.length l))%Z -> zwrite l i v = Ok (upd l (Z.to_nat i) v).
Proof. intros H. rewrite zwrite_ok by lia. now rewrite wrap_nonneg by lia. Qed.

(* ---- maxima ---------------------------------------------------------------------- *)

Lemma zmax_ok l : l <> [] -> exists m, zmax l = Ok m /\ In m l /\ Forall (fun z => (z <= m)%Z) l.
Proof.
  destruct l as [|a t]; [congruence|]. intros _. exists (fold_left Z.max t a). split; [reflexivity|].
  destruct (fold_max_ge t a) as [H1 H2]. split.
  - destruct (fold_max_in t a) as [->|]; [now left|now right].
  - constructor; assumption.
Qed.
Lemma fold_min_le t : forall b, (fold_left Z.min t b <= b)%Z /\ Forall (fun z => (fold_left Z.min t b <= z)%Z) t.
Proof.
  induction t as [|a t IH]; intros b; cbn; [split; [lia|constructor]|].
  destruct (IH (Z.min b a)) as [H1 H2]. split; [lia|]. constructor; [lia|exact H2].
Qed.
Lemma fold_min_in t : forall b, fold_left Z.min t b = b \/ In (fold_left Z.min t b) t.
Proof.
  induction t as [|a t IH]; intros b; cbn; [now left|].
  destruct (IH (Z.min b a)) as [E|E]; [|right; now right].
  rewrite E. destruct (Z.min_spec b a) as [[_ ->]|[_ ->]]; [now left|right; now left].
Qed.
Lemma zmin_ok l : l <> [] -> exists m, zmin l = Ok m /\ In m l /\ Forall (fun z => (m <= z)%Z) l.
Proof.
  destruct l as [|a t]; [congruence|]. intros _. exists (fold_left Z.min t a). split; [reflexivity|].
  destruct (fold_min_le t a) as [H1 H2]. split.
  - destruct (fold_min_in t a) as [->|]; [now left|now right].
  - constructor; assumption.
Qed.

(* ---- counting ---------------------------------------------------------------------- *)

Lemma nth_repeat_any {T} (x : T) n i d : i < n -> nth i (repeat x n) d = x.
Proof. revert i. induction n; intros [|i] H; cbn; try lia; auto. apply IHn. lia. Qed.

Lemma count_fold n idx : forall f, List.length f = n ->
  Forall (fun i => (- Z.of_nat n <= i < Z.of_nat n)%Z) idx ->
  exists g, foldR (fun f i => rbind (zread f i) (fun v => zwrite f i (v + 1)%Z)) idx f = Ok g /\
    List.length g = n /\
    forall j, j < n -> nth j g 0%Z = (nth j f 0 + Z.of_nat (occ (map (wrap n) idx) (Z.of_nat j)))%Z.
Proof.
  induction idx as [|i t IH]; intros f Hf H; cbn [foldR].
  - exists f. split; [reflexivity|]. split; [exact Hf|]. intros. cbn. lia.
  - inversion H as [|? ? Hi Ht]; subst. rewrite (zread_ok f i 0%Z) by exact Hi. cbn [rbind].
    rewrite zwrite_ok by exact Hi. cbn [rbind].
    destruct (IH (upd f (Z.to_nat (wrap (List.length f) i))
                (nth (Z.to_nat (wrap (List.length f) i)) f 0 + 1)%Z)) as (g & E & Lg & N).
    + apply upd_length.
    + exact Ht.
    + exists g. split; [exact E|]. split; [exact Lg|]. intros j Hj. rewrite N by exact Hj.
      pose proof (wrap_range _ _ Hi) as Hw. cbn [map count_occ]. rewrite upd_nth.
      destruct (Nat.eqb_spec (Z.to_nat (wrap (List.length f) i)) j) as [E1|N1].
      * destruct (Z.eq_dec (wrap (List.length f) i) (Z.of_nat j)); [|lia].
        rewrite E1, (proj2 (Nat.ltb_lt j (List.length f)) Hj). lia.
      * destruct (Z.eq_dec (wrap (List.length f) i) (Z.of_nat j)); [lia|]. reflexivity.
Qed.
Definition counts (n : nat) (row : list Z) : list Z := map (fun j => Z.of_nat (occ row (Z.of_nat j))) (seq 0 n).
Lemma counts_length n row : List.length (counts n row) = n.
Proof. unfold counts. now rewrite map_length, seq_length. Qed.
Lemma counts_nth n row j : j < n -> nth j (counts n row) 0%Z = Z.of_nat (occ row (Z.of_nat j)).
Proof.
  intros H. unfold counts.
  rewrite (nth_indep _ 0%Z (Z.of_nat (occ row (Z.of_nat 0)))) by now rewrite map_length, seq_length.
  rewrite (map_nth (fun j => Z.of_nat (occ row (Z.of_nat j)))). now rewrite seq_nth.
Qed.
Lemma count_row_wrap n idx : Forall (fun i => (- Z.of_nat n <= i < Z.of_nat n)%Z) idx ->
  count_row n idx = Ok (counts n (map (wrap n) idx)).
Proof.
  intros H. destruct (count_fold n idx (repeat 0%Z n) (repeat_length _ _) H) as (g & E & Lg & N).
  unfold count_row. rewrite E. f_equal. apply (list_eq_nth _ _ 0%Z); [now rewrite counts_length|].
  intros j Hj. rewrite N by lia. rewrite counts_nth, nth_repeat_any by lia. lia.
Qed.
Lemma map_wrap_id n idx : Forall (fun i => (0 <= i < Z.of_nat n)%Z) idx -> map (wrap n) idx = idx.
Proof. induction 1 as [|i t H _ IH]; cbn; [reflexivity|]. now rewrite IH, wrap_nonneg by lia. Qed.
Lemma count_row_ok n idx : Forall (fun i => (0 <= i < Z.of_nat n)%Z) idx -> count_row n idx = Ok (counts n idx).
Proof.
  intros H. rewrite count_row_wrap.
  - now rewrite map_wrap_id.
  - revert H. apply Forall_impl. intros; lia.
Qed.
Lemma count_row_out n idx i : In i idx -> (i < - Z.of_nat n)%Z -> count_row n idx = Raise EMem.
Proof.
  intros Hin Hi. unfold count_row. assert (Hl : List.length (repeat 0%Z n) = n) by apply repeat_length.
  revert Hl. generalize (repeat 0%Z n) as f. induction idx as [|a t IH]; intros f Hf; [destruct Hin|].
  cbn [foldR].
  destruct (Z_le_dec (- Z.of_nat n) a); [destruct (Z_lt_dec a (Z.of_nat n))|].
  - rewrite (zread_ok f a 0%Z) by lia. cbn [rbind]. rewrite zwrite_ok by lia. cbn [rbind].
    apply IH; [|now rewrite upd_length]. destruct Hin as [->|]; [lia|assumption].
  - rewrite zread_out by lia. reflexivity.
  - rewrite zread_out by lia. reflexivity.
Qed.

Lemma count_row_err n idx e : count_row n idx = Raise e -> e = EMem.
Proof.
  unfold count_row. generalize (repeat 0%Z n). induction idx as [|i t IH]; intros f E; cbn [foldR] in E; [discriminate|].
  destruct (zread f i) as [v|e'] eqn:Er; cbn [rbind] in E.
  - destruct (zwrite f i (v + 1)%Z) as [f'|e'] eqn:Ew; cbn [rbind] in E; [now apply IH in E|].
    injection E as <-. unfold zwrite in Ew. destruct (_ || _)%bool; congruence.
  - injection E as <-. unfold zread in Er. destruct (_ <? _)%Z; [congruence|]. destruct (nth_error _ _); congruence.
Qed.

Lemma zsum_app a b : zsum (a ++ b) = (zsum a + zsum b)%Z.
Proof. unfold zsum. induction a; cbn; lia. Qed.
Lemma zsum_nonneg l : Forall (fun z => (0 <= z)%Z) l -> (0 <= zsum l)%Z.
Proof. unfold zsum. induction 1; cbn; lia. Qed.
Lemma counts_snoc n row : counts (S n) row = counts n row ++ [Z.of_nat (occ row (Z.of_nat n))].
Proof. unfold counts. rewrite seq_S, map_app. reflexivity. Qed.
Lemma counts_sum n row : Forall (fun i => (0 <= i)%Z) row ->
  zsum (counts n row) = Z.of_nat (List.length (filter (fun i => (i <? Z.of_nat n)%Z) row)).
Proof.
  intros H. induction n as [|n IH].
  - cbn. replace (filter _ row) with (@nil Z); [reflexivity|].
    symmetry. induction H as [|i t Hi _ IH]; cbn; [reflexivity|]. destruct (Z.ltb_spec i 0); [lia|exact IH].
  - rewrite counts_snoc, zsum_app, IH. cbn [zsum fold_right]. rewrite Z.add_0_r, <- Nat2Z.inj_add. f_equal.
    clear IH. induction H as [|i t Hi _ IH]; [reflexivity|]. cbn [filter count_occ].
    destruct (Z.eq_dec i (Z.of_nat n)) as [E|N];
      destruct (Z.ltb_spec i (Z.of_nat n)); destruct (Z.ltb_spec i (Z.of_nat (S n))); cbn [List.length]; lia.
Qed.
Lemma filter_all {T} (p : T -> bool) l : Forall (fun x => p x = true) l -> filter p l = l.
Proof. induction 1 as [|a t H _ IH]; cbn; [reflexivity|]. now rewrite H, IH. Qed.
Lemma counts_total n row : Forall (fun i => (0 <= i < Z.of_nat n)%Z) row -> zsum (counts n row) = Z.of_nat (List.length row).
Proof.
  intros H. rewrite counts_sum by (revert H; apply Forall_impl; intros; lia). f_equal. f_equal. apply filter_all.
  revert H. apply Forall_impl. intros i Hi. apply Z.ltb_lt. lia.
Qed.

(* ---- rows listed from their counts ----------------------------------------------- *)

(* position k repeated f_k times, starting at position d *)
Fixpoint spread (d : nat) (freq : list Z) : list Z :=
  match freq with [] => [] | f :: t => repeat (Z.of_nat d) (Z.to_nat f) ++ spread (S d) t end.

Lemma spread_length d f : Forall (fun z => (0 <= z)%Z) f -> Z.of_nat (List.length (spread d f)) = zsum f.
Proof.
  intros H. revert d. induction H as [|z t Hz _ IH]; intros d; cbn; [reflexivity|].
  rewrite app_length, repeat_length, Nat2Z.inj_add, IH. unfold zsum. lia.
Qed.
Lemma fill_fold freq : forall d out done junk, Forall (fun z => (0 <= z)%Z) freq ->
  out = done ++ junk -> Z.of_nat (List.length junk) = zsum freq ->
  snd (fold_left (fun (st : (nat * Z) * list Z) f =>
         let '((d, count), out) := st in
         ((S d, (count + f)%Z), slice_fill out count (count + f)%Z (Z.of_nat d)))
       freq ((d, Z.of_nat (List.length done)), out)) = done ++ spread d freq.
Proof.
  induction freq as [|f t IH]; intros d out done junk H E Hj; cbn [fold_left snd spread].
  - cbn in Hj. destruct junk; [|cbn in Hj; lia]. now rewrite E, app_nil_r.
  - inversion H as [|? ? Hf Ht]; subst.
    pose proof (zsum_nonneg t Ht) as Hs. cbn [zsum fold_right] in Hj. fold (zsum t) in Hj.
    assert (ES : slice_fill (done ++ junk) (Z.of_nat (List.length done)) (Z.of_nat (List.length done) + f)%Z (Z.of_nat d)
                 = (done ++ repeat (Z.of_nat d) (Z.to_nat f)) ++ skipn (Z.to_nat f) junk).
    { unfold slice_fill, slice_bound. rewrite app_length.
      destruct (Z.ltb_spec (Z.of_nat (List.length done)) 0); [lia|].
      destruct (Z.ltb_spec (Z.of_nat (List.length done) + f) 0); [lia|].
      rewrite !Z.min_l by lia. rewrite Nat2Z.id.
      replace (Z.to_nat (Z.of_nat (List.length done) + f)) with (List.length done + Z.to_nat f) by lia.
      replace (List.length done + Z.to_nat f - List.length done) with (Z.to_nat f) by lia.
      rewrite Nat.max_r by lia. rewrite firstn_app, firstn_all, Nat.sub_diag. cbn [firstn]. rewrite app_nil_r.
      rewrite skipn_app, skipn_all2 by lia. cbn [app].
      replace (List.length done + Z.to_nat f - List.length done) with (Z.to_nat f) by lia.
      now rewrite <- app_assoc. }
    rewrite ES.
    replace (Z.of_nat (List.length done) + f)%Z
      with (Z.of_nat (List.length (done ++ repeat (Z.of_nat d) (Z.to_nat f)))) by (rewrite app_length, repeat_length; lia).
    rewrite (IH (S d) _ (done ++ repeat (Z.of_nat d) (Z.to_nat f)) (skipn (Z.to_nat f) junk)); auto.
    + now rewrite <- app_assoc.
    + rewrite skipn_length. lia.
Qed.
Lemma fill_row_ok junk f : Forall (fun z => (0 <= z)%Z) f -> Z.of_nat (List.length junk) = zsum f ->
  fill_row junk f = spread 0 f.
Proof. intros H Hj. unfold fill_row. exact (fill_fold f 0 junk [] junk H eq_refl Hj). Qed.

Lemma count_occ_repeat_Z (x y : Z) n : occ (repeat x n) y = if Z.eq_dec x y then n else 0.
Proof. induction n as [|n IH]; cbn; [now destruct (Z.eq_dec x y)|]. rewrite IH. destruct (Z.eq_dec x y); lia. Qed.
Lemma spread_occ_low d f z : (z < Z.of_nat d)%Z -> occ (spread d f) z = 0.
Proof.
  revert d. induction f as [|a t IH]; intros d H; cbn; [reflexivity|].
  rewrite count_occ_app, count_occ_repeat_Z, IH by lia. destruct (Z.eq_dec (Z.of_nat d) z); lia.
Qed.
Lemma spread_occ f : Forall (fun z => (0 <= z)%Z) f -> forall d k, k < List.length f ->
  Z.of_nat (occ (spread d f) (Z.of_nat (d + k))) = nth k f 0%Z.
Proof.
  induction 1 as [|a t Ha _ IH]; intros d k Hk; [cbn in Hk; lia|]. cbn [spread].
  rewrite count_occ_app, count_occ_repeat_Z. destruct k as [|k].
  - rewrite Nat.add_0_r. destruct (Z.eq_dec (Z.of_nat d) (Z.of_nat d)); [|lia].
    rewrite spread_occ_low by lia. cbn. lia.
  - destruct (Z.eq_dec (Z.of_nat d) (Z.of_nat (d + S k))); [lia|].
    replace (d + S k) with (S d + k) by lia. cbn [nth]. apply IH. cbn in Hk. lia.
Qed.
Lemma spread_range d f : Forall (fun z => (Z.of_nat d <= z < Z.of_nat (d + List.length f))%Z) (spread d f).
Proof.
  revert d. induction f as [|a t IH]; intros d; cbn; [constructor|]. apply Forall_app. split.
  - apply Forall_forall. intros z Hz. apply repeat_spec in Hz. lia.
  - specialize (IH (S d)). revert IH. apply Forall_impl. intros; lia.
Qed.
Lemma spread_sorted d f : StronglySorted Z.le (spread d f).
Proof.
  revert d. induction f as [|a t IH]; intros d; cbn; [constructor|].
  induction (Z.to_nat a) as [|n IHn]; cbn; [apply IH|]. constructor; [exact IHn|].
  apply Forall_app. split.
  - apply Forall_forall. intros z Hz. apply repeat_spec in Hz. lia.
  - pose proof (spread_range (S d) t) as R. revert R. apply Forall_impl. intros; lia.
Qed.
Lemma counts_spread f : Forall (fun z => (0 <= z)%Z) f -> counts (List.length f) (spread 0 f) = f.
Proof.
  intros H. apply (list_eq_nth _ _ 0%Z); [apply counts_length|]. rewrite counts_length. intros j Hj.
  rewrite counts_nth by exact Hj. now apply (spread_occ f H 0 j).
Qed.
Lemma spread_counts_perm n row : Forall (fun i => (0 <= i < Z.of_nat n)%Z) row ->
  Permutation (spread 0 (counts n row)) row.
Proof.
  intros H.
  assert (NN : Forall (fun z => (0 <= z)%Z) (counts n row)).
  { apply Forall_forall. intros z Hz. unfold counts in Hz. apply in_map_iff in Hz. destruct Hz as (? & <- & _). lia. }
  apply (Permutation_count_occ Z.eq_dec). intros z.
  pose proof (spread_range 0 (counts n row)) as R. rewrite counts_length in R. cbn in R.
  destruct (Z_le_dec 0 z); [destruct (Z_lt_dec z (Z.of_nat n))|].
  - pose proof (spread_occ _ NN 0 (Z.to_nat z) ltac:(rewrite counts_length; lia)) as Eo.
    rewrite counts_nth in Eo by lia. cbn [Nat.add] in Eo. rewrite Z2Nat.id in Eo by lia. lia.
  - rewrite !(proj1 (count_occ_not_In Z.eq_dec _ z)); [reflexivity| |];
      intros Hin; [rewrite Forall_forall in H; apply H in Hin|rewrite Forall_forall in R; apply R in Hin]; lia.
  - rewrite !(proj1 (count_occ_not_In Z.eq_dec _ z)); [reflexivity| |];
      intros Hin; [rewrite Forall_forall in H; apply H in Hin|rewrite Forall_forall in R; apply R in Hin]; lia.
Qed.

(* ---- index validation ---------------------------------------------------------------- *)

Lemma validate_range_ok x u : validate_range x u = Ok tt <-> x <> [] /\ Forall (fun z => (0 <= z < u)%Z) x.
Proof.
  unfold validate_range. destruct x as [|a t].
  - split; [discriminate|now intros []].
  - destruct (zmin_ok (a :: t)) as (mn & -> & I1 & F1); [discriminate|].
    destruct (zmax_ok (a :: t)) as (mx & -> & I2 & F2); [discriminate|]. cbn [rbind].
    rewrite Forall_forall in F1, F2.
    destruct (Z.ltb_spec mn 0); [split; [discriminate|]|destruct (Z.leb_spec u mx); [split; [discriminate|]|]].
    + intros [_ F]. rewrite Forall_forall in F. apply F in I1. lia.
    + intros [_ F]. rewrite Forall_forall in F. apply F in I2. lia.
    + split; [|reflexivity]. intros _. split; [discriminate|]. apply Forall_forall. intros z Hz.
      specialize (F1 z Hz). specialize (F2 z Hz). lia.
Qed.
Lemma validate_range_err x u : validate_range x u <> Ok tt -> validate_range x u = Raise EValue.
Proof.
  unfold validate_range. destruct x as [|a t]; [reflexivity|]. cbn [zmin zmax rbind].
  destruct (_ <? _)%Z; [reflexivity|]. destruct (_ <=? _)%Z; [reflexivity|congruence].
Qed.
Lemma existsb_false {T} (p : T -> bool) l : existsb p l = false <-> Forall (fun x => p x = false) l.
Proof.
  induction l as [|a t IH]; cbn; [split; auto|]. rewrite orb_false_iff, IH. split.
  - intros [? ?]. now constructor.
  - intros H. inversion H. auto.
Qed.
Lemma validate_index_err n ix st en : validate_index n ix st en <> Ok tt -> validate_index n ix st en = Raise EValue.
Proof.
  unfold validate_index. intros H.
  assert (T : forall (r : res unit), (r = Ok tt \/ r = Raise EValue) -> forall f : unit -> res unit,
            (f tt <> Ok tt -> f tt = Raise EValue) -> rbind r f <> Ok tt -> rbind r f = Raise EValue).
  { intros r [->| ->] f Hf Hr; cbn in *; auto. }
  assert (R : forall x u, validate_range x u = Ok tt \/ validate_range x u = Raise EValue).
  { intros x u. destruct (validate_range x u) as [[]|e] eqn:E; [now left|right].
    rewrite <- E. apply validate_range_err. congruence. }
  apply T; [| |exact H].
  - destruct (Nat.eqb _ _).
    + destruct (_ || _)%bool; auto.
    + destruct (R ix (Z.of_nat n)) as [->| ->]; [|now right]. cbn [rbind].
      destruct (R st (Z.of_nat (List.length ix))) as [->| ->]; [|now right]. cbn [rbind]. apply R.
  - destruct (negb (Nat.eqb (List.length st) (List.length en))); [reflexivity|].
    destruct (existsb _ (combine st en)); [reflexivity|congruence].
Qed.

Lemma Forall_combine_l {X Y} (P : X -> Prop) (a : list X) (b : list Y) : List.length a = List.length b ->
  Forall (fun p => P (fst p)) (combine a b) <-> Forall P a.
Proof.
  revert b. induction a as [|x a IH]; intros [|y b] H; try discriminate; cbn; [split; constructor|].
  split; intros F; inversion F; subst; constructor; auto; apply (IH b); auto.
Qed.
Lemma Forall_combine_r {X Y} (P : Y -> Prop) (a : list X) (b : list Y) : List.length a = List.length b ->
  Forall (fun p => P (snd p)) (combine a b) <-> Forall P b.
Proof.
  revert b. induction a as [|x a IH]; intros [|y b] H; try discriminate; cbn; [split; constructor|].
  split; intros F; inversion F; subst; constructor; auto; apply (IH b); auto.
Qed.

Lemma validate_index_iff n ix st en : validate_index n ix st en = Ok tt <->
  index_safe n ix st en /\
  (ix <> [] -> st <> [] /\ Forall (fun s => (s < Z.of_nat (List.length ix))%Z) st).
Proof.
  unfold validate_index, index_safe. destruct ix as [|i0 ix].
  - cbn [List.length Nat.eqb].
    assert (Z0 : forall l, existsb (fun z => negb (Z.eqb z 0)) l = false <-> Forall (fun z => z = 0%Z) l).
    { intros l. rewrite existsb_false. split; apply Forall_impl; intros z Hz.
      - apply negb_false_iff, Z.eqb_eq in Hz. exact Hz.
      - subst. reflexivity. }
    destruct (existsb (fun z => negb (Z.eqb z 0)) st || existsb (fun z => negb (Z.eqb z 0)) en)%bool eqn:E; cbn [rbind].
    + split; [discriminate|]. intros [(_ & Hl & F) _].
      assert (F' : Forall (fun z => z = 0%Z) st /\ Forall (fun z => z = 0%Z) en).
      { split.
        - apply (Forall_combine_l _ st en Hl). revert F. apply Forall_impl. cbn. intros; lia.
        - apply (Forall_combine_r _ st en Hl). revert F. apply Forall_impl. cbn. intros; lia. }
      destruct F' as [F1 F2]. apply Z0 in F1. apply Z0 in F2. rewrite F1, F2 in E. discriminate.
    + apply orb_false_iff in E. destruct E as [F1 F2]. apply Z0 in F1. apply Z0 in F2.
      destruct (Nat.eqb_spec (List.length st) (List.length en)) as [Hl|Hl]; cbn [negb].
      * rewrite (proj2 (existsb_false _ _)).
        { split; [|reflexivity]. intros _. split; [|congruence]. split; [constructor|]. split; [exact Hl|].
          rewrite <- (Forall_combine_l _ st en Hl) in F1. rewrite <- (Forall_combine_r _ st en Hl) in F2.
          rewrite Forall_forall in *. intros p Hp. specialize (F1 p Hp). specialize (F2 p Hp). cbn in *. lia. }
        { rewrite <- (Forall_combine_l _ st en Hl) in F1. rewrite <- (Forall_combine_r _ st en Hl) in F2.
          rewrite Forall_forall in *. intros p Hp. specialize (F1 p Hp). specialize (F2 p Hp). cbn in *.
          apply Z.ltb_ge. lia. }
      * split; [discriminate|]. intros [(_ & ? & _) _]. contradiction.
  - cbn [List.length Nat.eqb]. set (nx := S (List.length ix)).
    destruct (validate_range (i0 :: ix) (Z.of_nat n)) as [[]|e] eqn:E1; cbn [rbind].
    2:{ split; [discriminate|]. intros [(F & _) _].
        assert (X : validate_range (i0 :: ix) (Z.of_nat n) = Ok tt) by (apply validate_range_ok; split; [discriminate|exact F]).
        congruence. }
    apply validate_range_ok in E1. destruct E1 as [_ E1].
    destruct (validate_range st (Z.of_nat nx)) as [[]|e] eqn:E2; cbn [rbind].
    2:{ split; [discriminate|]. intros [(_ & Hl & F) G]. destruct (G ltac:(discriminate)) as [Hs G'].
        assert (X : validate_range st (Z.of_nat nx) = Ok tt).
        { apply validate_range_ok; split; [exact Hs|].
          rewrite <- (Forall_combine_l _ st en Hl) in G'. rewrite <- (Forall_combine_l _ st en Hl).
          rewrite Forall_forall in *. intros p Hp. specialize (F p Hp). specialize (G' p Hp). cbn in *. lia. }
        congruence. }
    apply validate_range_ok in E2. destruct E2 as [Hs E2].
    destruct (validate_range en (Z.of_nat nx + 1)) as [[]|e] eqn:E3; cbn [rbind].
    2:{ split; [discriminate|]. intros [(_ & Hl & F) _].
        assert (X : validate_range en (Z.of_nat nx + 1) = Ok tt).
        { apply validate_range_ok; split; [destruct en; [destruct st; [congruence|discriminate]|discriminate]|].
          rewrite <- (Forall_combine_r _ st en Hl). revert F. apply Forall_impl. cbn. intros; lia. }
        congruence. }
    apply validate_range_ok in E3. destruct E3 as [He E3].
    destruct (Nat.eqb_spec (List.length st) (List.length en)) as [Hl|Hl]; cbn [negb].
    + destruct (existsb (fun p => (snd p <? fst p)%Z) (combine st en)) eqn:E4.
      * split; [discriminate|]. intros [(_ & _ & F) _]. apply existsb_exists in E4. destruct E4 as (p & Hp & E4).
        rewrite Forall_forall in F. specialize (F p Hp). apply Z.ltb_lt in E4. lia.
      * split; [|reflexivity]. intros _. apply existsb_false in E4. split.
        { split; [exact E1|]. split; [exact Hl|].
          rewrite <- (Forall_combine_l _ st en Hl) in E2. rewrite <- (Forall_combine_r _ st en Hl) in E3.
          rewrite Forall_forall in *. intros p Hp. specialize (E2 p Hp). specialize (E3 p Hp). specialize (E4 p Hp).
          cbn in *. apply Z.ltb_ge in E4. lia. }
        { intros _. split; [exact Hs|]. revert E2. apply Forall_impl. intros; lia. }
    + split; [discriminate|]. intros [(_ & ? & _) _]. contradiction.
Qed.
