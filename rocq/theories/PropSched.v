(* Every schedule of a parallel kernel gives the sequential result (C52). *)
From Verif Require Import Base BaseLemmas ModelPush ModelKernels ModelIndex ModelSched ProofPush ProofRolling ProofIndex Checks.

(* ---- programs that keep to their elements ---------------------------------------- *)

(* p loads only from R and W and stores only to W *)
Fixpoint within {L V} (R W : L -> Prop) (p : prog L V) : Prop :=
  match p with
  | Done => True
  | Load l k => (R l \/ W l) /\ forall v, within R W (k v)
  | Store l v k => W l /\ within R W k
  end.
(* no call stores to an element that another call loads or stores *)
Definition separate {L} (n : nat) (R W : nat -> L -> Prop) : Prop :=
  forall i j l, i < n -> j < n -> i <> j -> W i l -> ~ W j l /\ ~ R j l.

Section Any.
  Context {L V : Type} (dec : forall a b : L, {a = b} + {a <> b}).
  Local Notation alone := (alone dec).
  Local Notation mset := (mset dec).

  Lemma mset_same m l (v : V) : mset m l v l = v.
  Proof. unfold mset. destruct (dec l l); congruence. Qed.
  Lemma mset_other m l (v : V) x : x <> l -> mset m l v x = m x.
  Proof. unfold mset. destruct (dec x l); congruence. Qed.

  Lemma alone_ext (p : prog L V) : forall m m', (forall l, m l = m' l) -> forall l, alone p m l = alone p m' l.
  Proof.
    induction p as [|l k IH|l v k IH]; intros m m' E; cbn [ModelSched.alone]; auto.
    - rewrite (E l). apply IH. exact E.
    - apply IH. intros x. unfold mset. destruct (dec x l); auto.
  Qed.
  (* a call sees only its elements *)
  Lemma alone_frame (R W : L -> Prop) (p : prog L V) : forall m m', within R W p ->
    (forall l, R l \/ W l -> m l = m' l) -> forall l, R l \/ W l -> alone p m l = alone p m' l.
  Proof.
    induction p as [|l k IH|l v k IH]; intros m m' Wp E; cbn [ModelSched.alone within] in *; auto.
    - destruct Wp as [Hl Wk]. rewrite (E l Hl). apply IH; auto.
    - destruct Wp as [Hl Wk]. apply IH; auto. intros x Hx. unfold mset. destruct (dec x l); auto.
  Qed.
  (* and changes only those it stores to *)
  Lemma alone_outside (R W : L -> Prop) (p : prog L V) : forall m l, within R W p -> ~ W l -> alone p m l = m l.
  Proof.
    induction p as [|a k IH|a v k IH]; intros m l Wp N; cbn [ModelSched.alone within] in *; auto.
    - destruct Wp as [_ Wk]. apply IH; auto.
    - destruct Wp as [Ha Wk]. rewrite IH by auto. apply mset_other. congruence.
  Qed.
  Lemma step_alone (p : prog L V) m q m' : step1 dec p m = Some (q, m') -> alone q m' = alone p m.
  Proof. destruct p; simpl; intros H; inversion H; subst; reflexivity. Qed.
  Lemma step_within R W (p : prog L V) m q m' : step1 dec p m = Some (q, m') -> within R W p -> within R W q.
  Proof. destruct p; simpl; intros H Hw; inversion H; subst; destruct Hw; auto. Qed.
  Lemma step_memory R W (p : prog L V) m q m' l : step1 dec p m = Some (q, m') -> within R W p -> ~ W l -> m' l = m l.
  Proof.
    destruct p; simpl; intros H Hw N; inversion H; subst; auto. destruct Hw. apply mset_other. congruence.
  Qed.

  Lemma nth_error_upd {T} (l : list T) i v j : nth_error (upd l i v) j =
    if Nat.eq_dec i j then (match nth_error l j with Some _ => Some v | None => None end) else nth_error l j.
  Proof.
    revert i j. induction l as [|a l IH]; intros i j.
    - destruct (Nat.eq_dec i j), i, j; reflexivity.
    - destruct i as [|i], j as [|j]; simpl; auto.
      rewrite IH. destruct (Nat.eq_dec i j), (Nat.eq_dec (S i) (S j)); try lia; reflexivity.
  Qed.

  (* The result of any schedule, element by element: what the call owning the
     element computes when it runs alone on the initial memory. *)
  Theorem schedule_result : forall (ps : list (prog L V)) (R W : nat -> L -> Prop) m ps' m',
    separate (length ps) R W ->
    (forall i p, nth_error ps i = Some p -> within (R i) (W i) p) ->
    reach dec (ps, m) (ps', m') -> finished ps' ->
    (forall i p l, nth_error ps i = Some p -> W i l -> m' l = alone p m l) /\
    (forall l, (forall i, i < length ps -> ~ W i l) -> m' l = m l).
  Proof.
    intros ps R W m ps' m' Sep Wi Re Fin.
    assert (G : forall s s', reach dec s s' -> forall qs m1, s = (qs, m1) -> length qs = length ps ->
      (forall i q, nth_error qs i = Some q -> within (R i) (W i) q) ->
      (forall i p q l, nth_error ps i = Some p -> nth_error qs i = Some q -> W i l -> alone q m1 l = alone p m l) ->
      (forall l, (forall i, i < length ps -> ~ W i l) -> m1 l = m l) ->
      finished (fst s') ->
      (forall i p l, nth_error ps i = Some p -> W i l -> snd s' l = alone p m l) /\
      (forall l, (forall i, i < length ps -> ~ W i l) -> snd s' l = m l)).
    { intros s s' H. induction H as [s|s1 s2 s3 St Rc IH]; intros qs m1 -> Len Wq Own Out Fi; simpl in *.
      - split; [|exact Out]. intros i p l Hp Hl.
        destruct (nth_error qs i) as [q|] eqn:E.
        + rewrite <- (Own i p q l Hp E Hl). unfold finished in Fi. rewrite Forall_forall in Fi.
          rewrite (Fi q (nth_error_In _ _ E)). reflexivity.
        + apply nth_error_None in E. assert (i < length ps) by (apply nth_error_Some; congruence). lia.
      - inversion St as [i qs0 m0 p q m2 Hn Hs]; subst.
        assert (Hi : i < length ps) by (rewrite <- Len; apply nth_error_Some; congruence).
        pose proof (Wq i p Hn) as Wp.
        apply (IH (upd qs i q) m2); auto.
        + rewrite upd_length. exact Len.
        + intros j r Hr. rewrite nth_error_upd in Hr. destruct (Nat.eq_dec i j) as [<-|N].
          * rewrite Hn in Hr. inversion Hr; subst. apply (step_within _ _ _ _ _ _ Hs Wp).
          * apply Wq; exact Hr.
        + intros j p0 r l Hp0 Hr Hl. rewrite nth_error_upd in Hr. destruct (Nat.eq_dec i j) as [<-|N].
          * rewrite Hn in Hr. inversion Hr; subst. rewrite (step_alone _ _ _ _ Hs). apply (Own i p0 p l Hp0 Hn Hl).
          * rewrite <- (Own j p0 r l Hp0 Hr Hl).
            assert (Hj : j < length ps) by (apply nth_error_Some; congruence).
            apply (alone_frame (R j) (W j)); [apply Wq; exact Hr| |right; exact Hl].
            intros x Hx. apply (step_memory _ _ _ _ _ _ _ Hs Wp). intros Hw.
            destruct (Sep i j x Hi Hj N Hw) as [S1 S2]. destruct Hx; auto.
        + intros l Hl. rewrite (step_memory _ _ _ _ _ _ _ Hs Wp (Hl i Hi)). apply Out. exact Hl. }
    apply (G (ps, m) (ps', m') Re ps m eq_refl eq_refl Wi); auto.
    intros i p q l Hp Hq _. rewrite Hp in Hq. inversion Hq; subst. reflexivity.
  Qed.

  (* running the calls in order is one of the schedules *)
  Lemma reach_trans (s1 s2 s3 : list (prog L V) * memory) : reach dec s1 s2 -> reach dec s2 s3 -> reach dec s1 s3.
  Proof. intros H. induction H as [|a b c St Rc IH]; auto. intros H3. eapply reach_step; eauto. Qed.
  Lemma reach_alone pre (p : prog L V) post m :
    reach dec (pre ++ p :: post, m) (pre ++ Done :: post, alone p m).
  Proof.
    revert m. induction p as [|l k IH|l v k IH]; intros m; cbn [ModelSched.alone].
    - constructor.
    - eapply reach_step; [|apply (IH (m l) m)].
      replace (pre ++ k (m l) :: post) with (upd (pre ++ Load l k :: post) (length pre) (k (m l))).
      + eapply pool_at; [rewrite nth_error_app2, Nat.sub_diag by lia; reflexivity|reflexivity].
      + clear. induction pre; simpl; congruence.
    - eapply reach_step; [|apply (IH (mset m l v))].
      replace (pre ++ k :: post) with (upd (pre ++ Store l v k :: post) (length pre) k).
      + eapply pool_at; [rewrite nth_error_app2, Nat.sub_diag by lia; reflexivity|reflexivity].
      + clear. induction pre; simpl; congruence.
  Qed.
  Lemma in_order_reach (ps : list (prog L V)) m : reach dec (ps, m) (repeat Done (length ps), in_order dec ps m).
  Proof.
    assert (G : forall (qs : list (prog L V)) k m, reach dec (repeat Done k ++ qs, m) (repeat Done (k + length qs), in_order dec qs m)).
    { induction qs as [|q qs IH]; intros k m0.
      - simpl. rewrite app_nil_r, Nat.add_0_r. constructor.
      - eapply reach_trans; [apply (reach_alone (repeat Done k) q qs)|].
        replace (repeat Done k ++ Done :: qs) with (repeat (@Done L V) (S k) ++ qs).
        + cbn [length in_order fold_left]. rewrite Nat.add_succ_r, <- Nat.add_succ_l. apply IH.
        + change (repeat (@Done L V) (S k)) with (Done :: repeat (@Done L V) k). rewrite repeat_cons, <- app_assoc. reflexivity. }
    apply (G ps 0 m).
  Qed.

  (* C52: every schedule ends with the memory of the sequential run *)
  Theorem schedule_independent : forall (ps : list (prog L V)) (R W : nat -> L -> Prop) m ps' m',
    separate (length ps) R W ->
    (forall i p, nth_error ps i = Some p -> within (R i) (W i) p) ->
    reach dec (ps, m) (ps', m') -> finished ps' ->
    (forall i l, W i l \/ ~ W i l) ->
    forall l, m' l = in_order dec ps m l.
  Proof.
    intros ps R W m ps' m' Sep Wi Re Fin Dec l.
    destruct (schedule_result ps R W m ps' m' Sep Wi Re Fin) as [A B].
    destruct (schedule_result ps R W m _ _ Sep Wi (in_order_reach ps m)) as [A' B'].
    { apply Forall_forall. intros p Hp. apply repeat_spec in Hp. exact Hp. }
    assert (D : (exists i, i < length ps /\ W i l) \/ (forall i, i < length ps -> ~ W i l)).
    { clear -Dec. induction (length ps) as [|n IH].
      - right. intros; lia.
      - destruct IH as [(i & Hi & Hw)|N]; [left; exists i; split; [lia|exact Hw]|].
        destruct (Dec n l) as [Hw|Hw]; [left; exists n; split; [lia|exact Hw]|].
        right. intros i Hi. destruct (Nat.eq_dec i n) as [->|]; [exact Hw|]. apply N. lia. }
    destruct D as [(i & Hi & Hw)|N].
    - destruct (nth_error ps i) as [p|] eqn:E; [|apply nth_error_None in E; lia].
      rewrite (A i p l E Hw), (A' i p l E Hw). reflexivity.
    - rewrite B, B'; auto.
  Qed.

  (* no schedule runs forever or gets stuck *)
  Inductive sub : prog L V -> prog L V -> Prop :=
  | sub_load l k v : sub (k v) (Load l k)
  | sub_store l v k : sub k (Store l v k).
  Inductive lsub : list (prog L V) -> list (prog L V) -> Prop :=
  | lsub_at i p q ps : nth_error ps i = Some p -> sub q p -> lsub (upd ps i q) ps.
  Lemma sub_wf p : Acc sub p.
  Proof. induction p as [|l k IH|l v k IH]; constructor; intros q Hq; inversion Hq; subst; auto. Qed.
  Lemma lsub_wf ps : Acc lsub ps.
  Proof.
    induction ps as [|p ps IH].
    - constructor. intros qs H. inversion H as [i p q ? Hn Hs]; subst. destruct i; discriminate.
    - pose proof (sub_wf p) as Hp. revert ps IH. induction Hp as [p _ IHp]. intros ps Hps.
      induction Hps as [ps Hps IHps]. constructor. intros qs H. inversion H as [i p0 q ? Hn Hs]; subst.
      destruct i as [|i]; simpl in *.
      + inversion Hn; subst. apply IHp; auto. constructor. exact Hps.
      + apply IHps. eapply lsub_at; eauto.
  Qed.
  Theorem schedules_end : forall (ps : list (prog L V)) m, Acc (fun s' s => pool_step dec s s') (ps, m).
  Proof.
    intros ps. induction (lsub_wf ps) as [ps _ IH]. intros m. constructor. intros s' St.
    inversion St as [i qs0 m0 p q m2 Hn Hs]; subst. apply IH. eapply lsub_at; eauto.
    destruct p; simpl in Hs; inversion Hs; constructor.
  Qed.
  Theorem schedules_progress : forall (ps : list (prog L V)) m,
    finished ps \/ exists s', pool_step dec (ps, m) s'.
  Proof.
    intros ps m. induction ps as [|p ps IH].
    - left. constructor.
    - destruct p as [|l k|l v k].
      + destruct IH as [F|[s' St]]; [left; constructor; auto|right].
        inversion St as [i qs0 m0 p q m2 Hn Hs]; subst. eexists. apply (pool_at dec (S i) _ m p q m2); eauto.
      + right. eexists. eapply (pool_at dec 0); reflexivity.
      + right. eexists. eapply (pool_at dec 0); reflexivity.
  Qed.
End Any.

(* ---- the kernels ------------------------------------------------------------------ *)

(* k elements of the memory from a position on *)
Definition row {V} (m : elem -> V) (f : nat -> elem) (k : nat) : list V := map (fun i => m (f i)) (seq 0 k).
(* the elements of the output at position pos *)
Definition out_at (pos : nat) (l : elem) : Prop := exists k, l = Out_ pos k.
Definition an_input (pos : nat) (l : elem) : Prop := exists b p k, l = In_ b p k.

Lemma outs_separate n : separate n an_input out_at.
Proof.
  intros i j l _ _ N [k ->]. split; intros H'.
  - destruct H' as [k' E]. inversion E. contradiction.
  - destruct H' as (b & p & k' & E). discriminate.
Qed.
Lemma out_at_dec i l : out_at i l \/ ~ out_at i l.
Proof.
  destruct l as [b p k|p k]; [right; intros [? E]; discriminate|].
  destruct (Nat.eq_dec p i) as [->|N]; [left; eexists; reflexivity|right; intros [? E]; inversion E; contradiction].
Qed.
Lemma loads_within {V} (R W : elem -> Prop) ls (k : list V -> prog elem V) :
  (forall l, In l ls -> R l \/ W l) -> (forall vs, within R W (k vs)) -> within R W (loads ls k).
Proof.
  revert k. induction ls as [|l t IH]; intros k H Hk; simpl; auto. split; [apply H; left; reflexivity|].
  intros v. apply IH; auto. intros x Hx. apply H. right; exact Hx.
Qed.
Lemma stores_within {V} (R W : elem -> Prop) lvs (k : prog elem V) :
  (forall l v, In (l, v) lvs -> W l) -> within R W k -> within R W (stores lvs k).
Proof.
  induction lvs as [|[l v] t IH]; intros H Hk; simpl; auto. split; [eapply H; left; reflexivity|].
  apply IH; auto. intros x w Hx. apply (H x w). right; exact Hx.
Qed.
Lemma loads_alone {V} ls (k : list V -> prog elem V) m : alone elem_dec (loads ls k) m = alone elem_dec (k (map m ls)) m.
Proof. revert k. induction ls as [|l t IH]; intros k; simpl; auto. rewrite IH. reflexivity. Qed.
Definition mstores {V} (m : elem -> V) (lvs : list (elem * V)) : elem -> V :=
  fold_left (fun m lv => mset elem_dec m (fst lv) (snd lv)) lvs m.
Lemma stores_alone {V} lvs (k : prog elem V) m : alone elem_dec (stores lvs k) m = alone elem_dec k (mstores m lvs).
Proof. revert m. induction lvs as [|[l v] t IH]; intros m; simpl; auto. Qed.
Lemma mstores_other {V} lvs (m : elem -> V) l : (forall v, ~ In (l, v) lvs) -> mstores m lvs l = m l.
Proof.
  revert m. induction lvs as [|[x v] t IH]; intros m N; simpl; auto.
  unfold mstores in *. simpl. rewrite IH by (intros w Hw; apply (N w); right; exact Hw).
  apply mset_other. intros ->. apply (N v). left. reflexivity.
Qed.
Lemma mstores_row {V} pos (vs : list V) : forall a m,
  map (fun k => mstores m (combine (map (Out_ pos) (seq a (length vs))) vs) (Out_ pos k)) (seq a (length vs)) = vs.
Proof.
  induction vs as [|v t IH]; intros a m; simpl; auto. f_equal.
  - unfold mstores. simpl. fold (mstores (mset elem_dec m (Out_ pos a) v) (combine (map (Out_ pos) (seq (S a) (length t))) t)).
    rewrite mstores_other; [apply mset_same|]. intros w Hw. apply in_combine_l, in_map_iff in Hw.
    destruct Hw as (k & E & Hk). inversion E; subst. apply in_seq in Hk. lia.
  - unfold mstores. simpl. apply (IH (S a) (mset elem_dec m (Out_ pos a) v)).
Qed.

Lemma row_length {V} (m : elem -> V) f k : length (row m f k) = k.
Proof. unfold row. now rewrite map_length, seq_length. Qed.
Lemma row_nth {V} (m : elem -> V) f k i d : i < k -> nth i (row m f k) d = m (f i).
Proof.
  intros Hi. unfold row. rewrite (nth_indep _ d (m (f 0))) by (rewrite map_length, seq_length; exact Hi).
  rewrite (map_nth (fun i => m (f i))), seq_nth by exact Hi. reflexivity.
Qed.
Lemma row_ext {V} (m m' : elem -> V) f k : (forall i, i < k -> m (f i) = m' (f i)) -> row m f k = row m' f k.
Proof. intros H. apply map_ext_in. intros i Hi. apply in_seq in Hi. apply H. lia. Qed.
Lemma map_row {V} (m : elem -> V) f k : map m (map f (seq 0 k)) = row m f k.
Proof. unfold row. now rewrite map_map. Qed.
Lemma mstores_out {V} (m : elem -> V) pos vs k : length vs = k ->
  row (mstores m (combine (map (Out_ pos) (seq 0 k)) vs)) (Out_ pos) k = vs.
Proof. intros <-. apply (mstores_row pos vs 0 m). Qed.
Lemma mstores_in {V} (m : elem -> V) pos ks vs b p k : mstores m (combine (map (Out_ pos) ks) vs) (In_ b p k) = m (In_ b p k).
Proof.
  apply mstores_other. intros v Hv. apply in_combine_l, in_map_iff in Hv. destruct Hv as (? & E & _). discriminate.
Qed.

(* row d of the input at outer position src *)
Definition data_row (m : elem -> Qc) (n src d : nat) : list Qc := row m (fun k => In_ 0 src (d * S n + k)) (S n).

Lemma push_data_keeps_length nmax d o r : push_data nmax d o = Some r -> length r = length o.
Proof.
  unfold push_data. destruct (qeqb (getq d 0) 0); [intros E; inversion E; reflexivity|].
  destruct (qeqb _ 0); [discriminate|]. destruct (Nat.eqb _ 1); intros E; inversion E; subst; clear E.
  - now rewrite !upd_length.
  - rewrite upd_length, desc_loop_length, !upd_length. reflexivity.
Qed.
Lemma push_rows_alone nmax n src pos : forall todo d m,
  match foldM (fun o r => push_data nmax r o) (map (data_row m n src) (seq d todo)) (row m (Out_ pos) (S n)) with
  | Some r => row (alone elem_dec (push_rows_task nmax n src pos d todo) m) (Out_ pos) (S n) = r
  | None => True
  end.
Proof.
  induction todo as [|todo IH]; intros d m; [reflexivity|].
  cbn [push_rows_task]. rewrite !loads_alone.
  replace (map m (map (fun k => In_ 0 src (d * S n + k)) (seq 0 (S n)))) with (data_row m n src d)
    by (symmetry; apply map_row).
  rewrite map_row. cbn [seq map foldM].
  destruct (push_data nmax (data_row m n src d) (row m (Out_ pos) (S n))) as [o|] eqn:E; cbn [obind]; [|exact I].
  rewrite stores_alone.
  pose proof (push_data_keeps_length _ _ _ _ E) as Len. rewrite row_length in Len.
  specialize (IH (S d) (mstores m (combine (map (Out_ pos) (seq 0 (S n))) o))).
  rewrite (mstores_out m pos o (S n) Len) in IH.
  replace (map (data_row (mstores m (combine (map (Out_ pos) (seq 0 (S n))) o)) n src) (seq (S d) todo))
    with (map (data_row m n src) (seq (S d) todo)) in IH; [exact IH|].
  apply map_ext. intros x. apply row_ext. intros i _. symmetry. apply mstores_in.
Qed.
Lemma push_rows_within nmax n src pos : forall todo d, within (an_input pos) (out_at pos) (push_rows_task nmax n src pos d todo).
Proof.
  induction todo as [|todo IH]; intros d; cbn [push_rows_task]; [exact I|].
  apply loads_within.
  { intros l Hl. apply in_map_iff in Hl. destruct Hl as (k & <- & _). left. do 3 eexists. reflexivity. }
  intros vs. apply loads_within.
  { intros l Hl. apply in_map_iff in Hl. destruct Hl as (k & <- & _). right. eexists. reflexivity. }
  intros ws. destruct (push_data nmax vs ws); [|exact I]. apply stores_within; [|apply IH].
  intros l v Hl. apply in_combine_l, in_map_iff in Hl. destruct Hl as (k & <- & _). eexists. reflexivity.
Qed.

Lemma tasks_within {V} (t : nat -> prog elem V) n :
  (forall pos, within (an_input pos) (out_at pos) (t pos)) ->
  forall i p, nth_error (map t (seq 0 n)) i = Some p -> within (an_input i) (out_at i) p.
Proof.
  intros H i p E. rewrite nth_error_map in E. destruct (nth_error (seq 0 n) i) as [k|] eqn:Ek; [|discriminate].
  inversion E; subst. assert (Hi : i < n) by (rewrite <- (seq_length n 0); apply nth_error_Some; congruence).
  apply (nth_error_nth _ _ 0) in Ek. rewrite seq_nth in Ek by exact Hi. subst. apply H.
Qed.
Lemma nth_task {V} (t : nat -> prog elem V) n pos : pos < n -> nth_error (map t (seq 0 n)) pos = Some (t pos).
Proof.
  intros Hp. rewrite nth_error_map, (nth_error_nth' _ 0) by (rewrite seq_length; exact Hp).
  rewrite seq_nth by exact Hp. reflexivity.
Qed.
(* each output row is that of the call alone, and nothing else changes *)
Lemma tasks_rows {V} (t : nat -> prog elem V) n m ps' m' :
  (forall pos, within (an_input pos) (out_at pos) (t pos)) ->
  reach elem_dec (map t (seq 0 n), m) (ps', m') -> finished ps' ->
  (forall pos k, pos < n -> row m' (Out_ pos) k = row (alone elem_dec (t pos) m) (Out_ pos) k) /\
  (forall b p k, m' (In_ b p k) = m (In_ b p k)) /\
  (forall p k, n <= p -> m' (Out_ p k) = m (Out_ p k)) /\
  (forall l, m' l = in_order elem_dec (map t (seq 0 n)) m l).
Proof.
  intros Hw Re Fin.
  assert (Hs : separate (length (map t (seq 0 n))) an_input out_at) by apply outs_separate.
  destruct (schedule_result elem_dec _ _ _ m ps' m' Hs (tasks_within t n Hw) Re Fin) as [A B].
  split; [|split; [|split]].
  - intros pos k Hp. apply row_ext. intros i _. apply (A pos _ (Out_ pos i) (nth_task t n pos Hp)). eexists. reflexivity.
  - intros b p k. apply B. intros i _ [? E]. discriminate.
  - intros p k Hp. apply B. intros i Hi [? E]. inversion E; subst. rewrite map_length, seq_length in Hi. lia.
  - apply (schedule_independent elem_dec _ _ _ m ps' m' Hs (tasks_within t n Hw) Re Fin out_at_dec).
Qed.

(* C52: reduction of the rows at every outer position; src says which rows a
   position reads (the input may be broadcast) *)
Theorem parallel_reduce_data : forall nmax n nrow src npos m ps' m',
  reach elem_dec (map (fun pos => reduce_data_task nmax n nrow (src pos) pos) (seq 0 npos), m) (ps', m') -> finished ps' ->
  (forall pos r, pos < npos ->
     reduce_data (pusher1 nmax n) (map (data_row m n (src pos)) (seq 0 nrow)) = Some r ->
     row m' (Out_ pos) (S n) = r) /\
  (forall b p k, m' (In_ b p k) = m (In_ b p k)) /\
  (forall l, m' l = in_order elem_dec (map (fun pos => reduce_data_task nmax n nrow (src pos) pos) (seq 0 npos)) m l).
Proof.
  intros nmax n nrow src npos m ps' m' Re Fin.
  destruct (tasks_rows (fun pos => reduce_data_task nmax n nrow (src pos) pos) npos m ps' m') as (A & B & _ & D); auto.
  { intros pos. apply stores_within; [|apply push_rows_within].
    intros l v Hl. apply in_combine_l, in_map_iff in Hl. destruct Hl as (k & <- & _). eexists. reflexivity. }
  split; [|split; auto]. intros pos r Hp E. rewrite (A pos (S n) Hp). unfold reduce_data_task. rewrite stores_alone.
  set (m0 := mstores _ _).
  assert (E0 : row m0 (Out_ pos) (S n) = zeros1 (S n)) by (apply mstores_out; apply repeat_length).
  pose proof (push_rows_alone nmax n (src pos) pos nrow 0 m0) as H. rewrite E0 in H.
  replace (map (data_row m0 n (src pos)) (seq 0 nrow)) with (map (data_row m n (src pos)) (seq 0 nrow)) in H.
  - unfold reduce_data, reduce_data_into in E. cbn [p_push_data p_zero pusher1] in E. rewrite E in H. exact H.
  - apply map_ext. intros x. apply row_ext. intros i _. symmetry. apply mstores_in.
Qed.
(* pushing into existing values, every position its own *)
Theorem parallel_push_datas : forall nmax n nrow src npos m ps' m',
  reach elem_dec (map (fun pos => reduce_data_into_task nmax n nrow (src pos) pos) (seq 0 npos), m) (ps', m') -> finished ps' ->
  (forall pos r, pos < npos ->
     reduce_data_into (pusher1 nmax n) (map (data_row m n (src pos)) (seq 0 nrow)) (row m (Out_ pos) (S n)) = Some r ->
     row m' (Out_ pos) (S n) = r) /\
  (forall b p k, m' (In_ b p k) = m (In_ b p k)).
Proof.
  intros nmax n nrow src npos m ps' m' Re Fin.
  destruct (tasks_rows (fun pos => reduce_data_into_task nmax n nrow (src pos) pos) npos m ps' m') as (A & B & _); auto.
  { intros pos. apply push_rows_within. }
  split; auto. intros pos r Hp E. rewrite (A pos (S n) Hp). unfold reduce_data_into_task.
  pose proof (push_rows_alone nmax n (src pos) pos nrow 0 m) as H.
  unfold reduce_data_into in E. cbn [p_push_data pusher1] in E. rewrite E in H. exact H.
Qed.

(* ---- resampling indices ------------------------------------------------------------ *)

Lemma fill_stores (m : elem -> Z) pos nsamp a b d : a <= nsamp -> b <= nsamp ->
  row (mstores m (map (fun k => (Out_ pos k, d)) (seq a (b - a)))) (Out_ pos) nsamp
  = firstn a (row m (Out_ pos) nsamp) ++ repeat d (b - a) ++ skipn (Nat.max a b) (row m (Out_ pos) nsamp).
Proof.
  intros Ha Hb. apply (list_eq_nth _ _ d).
  - rewrite !app_length, firstn_length, repeat_length, skipn_length, !row_length. lia.
  - rewrite row_length. intros j Hj. rewrite row_nth by exact Hj.
    assert (St : forall ks m, mstores m (map (fun k => (Out_ pos k, d)) ks) (Out_ pos j)
                 = if in_dec Nat.eq_dec j ks then d else m (Out_ pos j)).
    { induction ks as [|k ks IH]; intros m0; [reflexivity|]. unfold mstores. cbn [map fold_left fst snd].
      fold (mstores (mset elem_dec m0 (Out_ pos k) d) (map (fun k => (Out_ pos k, d)) ks)). rewrite IH.
      destruct (in_dec Nat.eq_dec j ks) as [Hi|Hi], (in_dec Nat.eq_dec j (k :: ks)) as [Hj'|Hj'];
        try reflexivity; try (exfalso; apply Hj'; right; exact Hi).
      - destruct Hj' as [->|]; [apply mset_same|contradiction].
      - apply mset_other. intros E. inversion E; subst. apply Hj'. left. reflexivity. }
    rewrite St. destruct (in_dec Nat.eq_dec j (seq a (b - a))) as [Hi|Hi].
    + apply in_seq in Hi. rewrite app_nth2; rewrite firstn_length, row_length; [|lia].
      rewrite app_nth1 by (rewrite repeat_length; lia). symmetry. apply nth_repeat.
    + assert (N : j < a \/ (a <= j /\ b <= j)).
      { destruct (Nat.lt_ge_cases j a); [left; lia|right]. split; [lia|].
        destruct (Nat.le_gt_cases b j); [lia|]. exfalso. apply Hi. apply in_seq. lia. }
      destruct N as [N|N].
      * rewrite app_nth1 by (rewrite firstn_length, row_length; lia).
        rewrite <- (row_nth m (Out_ pos) nsamp j d Hj).
        rewrite <- (firstn_skipn a (row m (Out_ pos) nsamp)) at 1.
        rewrite app_nth1 by (rewrite firstn_length, row_length; lia). reflexivity.
      * rewrite app_nth2; rewrite firstn_length, row_length; [|lia].
        rewrite app_nth2; rewrite repeat_length; [|lia].
        rewrite nth_skipn', row_nth by lia. f_equal. f_equal. lia.
Qed.
Lemma slice_bound_le n v : slice_bound n v <= n.
Proof. unfold slice_bound. destruct (v <? 0)%Z eqn:E; lia. Qed.
Lemma freq_alone pos nsamp : forall todo d count m,
  row (alone elem_dec (freq_task pos nsamp d todo count) m) (Out_ pos) nsamp
  = snd (fold_left (fun (st : (nat * Z) * list Z) f =>
         let '((d, count), out) := st in
         ((S d, (count + f)%Z), slice_fill out count (count + f)%Z (Z.of_nat d)))
       (map (fun k => m (In_ 0 pos k)) (seq d todo)) ((d, count), row m (Out_ pos) nsamp)).
Proof.
  induction todo as [|todo IH]; intros d count m; [reflexivity|].
  cbn [freq_task seq map fold_left alone]. rewrite stores_alone, IH. clear IH.
  set (m1 := mstores _ _).
  replace (map (fun k => m1 (In_ 0 pos k)) (seq (S d) todo)) with (map (fun k => m (In_ 0 pos k)) (seq (S d) todo)).
  - f_equal. f_equal. f_equal. unfold m1. rewrite fill_stores by apply slice_bound_le.
    unfold slice_fill. rewrite row_length. reflexivity.
  - apply map_ext. intros k. symmetry. apply mstores_other. intros v Hv. apply in_map_iff in Hv.
    destruct Hv as (? & E & _). discriminate.
Qed.
Lemma freq_within pos nsamp : forall todo d count, within (an_input pos) (out_at pos) (freq_task pos nsamp d todo count).
Proof.
  induction todo as [|todo IH]; intros d count; cbn [freq_task]; [exact I|].
  split; [left; do 3 eexists; reflexivity|]. intros f. apply stores_within; [|apply IH].
  intros l v Hl. apply in_map_iff in Hl. destruct Hl as (k & E & _). inversion E; subst. eexists. reflexivity.
Qed.
(* C52: frequency table to indices, a row per replicate *)
Theorem parallel_freq_to_indices : forall ndat nsamp nrep m ps' m',
  reach elem_dec (map (fun pos => freq_task pos nsamp 0 ndat 0) (seq 0 nrep), m) (ps', m') -> finished ps' ->
  (forall pos, pos < nrep ->
     row m' (Out_ pos) nsamp = fill_row (row m (Out_ pos) nsamp) (row m (In_ 0 pos) ndat)) /\
  (forall b p k, m' (In_ b p k) = m (In_ b p k)).
Proof.
  intros ndat nsamp nrep m ps' m' Re Fin.
  destruct (tasks_rows (fun pos => freq_task pos nsamp 0 ndat 0) nrep m ps' m') as (A & B & _); auto.
  { intros pos. apply freq_within. }
  split; auto. intros pos Hp. rewrite (A pos nsamp Hp). apply freq_alone.
Qed.

Lemma mset_row (m : elem -> Z) pos k ndat v : k < ndat ->
  row (mset elem_dec m (Out_ pos k) v) (Out_ pos) ndat = upd (row m (Out_ pos) ndat) k v.
Proof.
  intros Hk. apply (list_eq_nth _ _ 0%Z); [now rewrite upd_length, !row_length|]. rewrite row_length. intros j Hj.
  rewrite row_nth by exact Hj. destruct (Nat.eq_dec j k) as [->|N].
  - rewrite mset_same. symmetry. apply nth_error_nth. rewrite nth_error_upd.
    destruct (Nat.eq_dec k k); [|contradiction].
    destruct (nth_error (row m (Out_ pos) ndat) k) eqn:E; [reflexivity|]. apply nth_error_None in E. rewrite row_length in E. lia.
  - rewrite mset_other by (intros E; inversion E; contradiction).
    rewrite <- (row_nth m (Out_ pos) ndat j 0%Z Hj). symmetry.
    destruct (nth_error (upd (row m (Out_ pos) ndat) k v) j) eqn:E.
    + apply (nth_error_nth _ _ 0%Z) in E as E'. rewrite E'. rewrite nth_error_upd in E.
      destruct (Nat.eq_dec k j); [congruence|]. symmetry. apply nth_error_nth. exact E.
    + apply nth_error_None in E. rewrite upd_length, row_length in E. lia.
Qed.
Lemma count_alone pos ndat : forall todo d m r,
  foldR (fun f i => rbind (zread f i) (fun v => zwrite f i (v + 1)%Z))
        (map (fun k => m (In_ 0 pos k)) (seq d todo)) (row m (Out_ pos) ndat) = Ok r ->
  row (alone elem_dec (count_task pos ndat d todo) m) (Out_ pos) ndat = r.
Proof.
  induction todo as [|todo IH]; intros d m r; cbn [count_task seq map foldR alone]; [intros E; inversion E; reflexivity|].
  set (i := m (In_ 0 pos d)). unfold zread, zwrite. rewrite !row_length. intros E.
  destruct ((wrap ndat i <? 0)%Z || (Z.of_nat ndat <=? wrap ndat i)%Z)%bool eqn:Eb.
  - exfalso. apply orb_prop in Eb. destruct (wrap ndat i <? 0)%Z; [discriminate|].
    destruct Eb as [Eb|Eb]; [discriminate|]. apply Z.leb_le in Eb.
    destruct (nth_error (row m (Out_ pos) ndat) (Z.to_nat (wrap ndat i))) eqn:En; simpl in E; discriminate.
  - apply orb_false_iff in Eb. destruct Eb as [E1 E2]. rewrite E1 in E. apply Z.ltb_ge in E1. apply Z.leb_gt in E2.
    set (j := Z.to_nat (wrap ndat i)) in *. assert (Hj : j < ndat) by lia.
    destruct (nth_error (row m (Out_ pos) ndat) j) as [x|] eqn:En; [|discriminate].
    simpl in E. cbn [alone]. apply IH.
    assert (Ex : x = m (Out_ pos j)).
    { rewrite <- (row_nth m (Out_ pos) ndat j 0%Z Hj). symmetry. apply nth_error_nth. exact En. }
    subst x. rewrite mset_row by exact Hj.
    replace (map (fun k => mset elem_dec m (Out_ pos j) (m (Out_ pos j) + 1)%Z (In_ 0 pos k)) (seq (S d) todo))
      with (map (fun k => m (In_ 0 pos k)) (seq (S d) todo)); [exact E|].
    apply map_ext. intros k. symmetry. apply mset_other. discriminate.
Qed.
Lemma count_within pos ndat : forall todo d, within (an_input pos) (out_at pos) (count_task pos ndat d todo).
Proof.
  induction todo as [|todo IH]; intros d; cbn [count_task]; [exact I|].
  split; [left; do 3 eexists; reflexivity|]. intros i. destruct (_ || _)%bool; [exact I|].
  split; [right; eexists; reflexivity|]. intros v. split; [eexists; reflexivity|apply IH].
Qed.
(* C52: indices to frequency table; the table starts as zeros *)
Theorem parallel_indices_to_freq : forall ndat nsamp nrep m ps' m',
  reach elem_dec (map (fun pos => count_task pos ndat 0 nsamp) (seq 0 nrep), m) (ps', m') -> finished ps' ->
  (forall pos k, pos < nrep -> m (Out_ pos k) = 0%Z) ->
  forall pos r, pos < nrep -> count_row ndat (row m (In_ 0 pos) nsamp) = Ok r -> row m' (Out_ pos) ndat = r.
Proof.
  intros ndat nsamp nrep m ps' m' Re Fin Z0 pos r Hp E.
  destruct (tasks_rows (fun pos => count_task pos ndat 0 nsamp) nrep m ps' m') as (A & _); auto.
  { intros q. apply count_within. }
  rewrite (A pos ndat Hp). apply count_alone. unfold count_row in E.
  replace (row m (Out_ pos) ndat) with (repeat 0%Z ndat); [exact E|].
  unfold row. rewrite <- (seq_length ndat 0) at 1. generalize (seq 0 ndat).
  induction l as [|a l IH]; simpl; [reflexivity|]. rewrite (Z0 pos a Hp). f_equal. exact IH.
Qed.

(* ---- given schedules ---------------------------------------------------------------- *)

(* run the schedule: which call does a step *)
Fixpoint play {V} (s : list nat) (ps : list (prog elem V)) (m : elem -> V) : list (prog elem V) * (elem -> V) :=
  match s with
  | [] => (ps, m)
  | i :: t => match nth_error ps i with
              | None => play t ps m
              | Some p => match step1 elem_dec p m with
                          | None => play t ps m
                          | Some (q, m') => play t (upd ps i q) m'
                          end
              end
  end.
Lemma play_reach {V} s : forall (ps : list (prog elem V)) m, reach elem_dec (ps, m) (play s ps m).
Proof.
  induction s as [|i t IH]; intros ps m; simpl; [constructor|].
  destruct (nth_error ps i) as [p|] eqn:E; [|apply IH].
  destruct (step1 elem_dec p m) as [[q m']|] eqn:Es; [|apply IH].
  eapply reach_step; [eapply pool_at; eauto|apply IH].
Qed.

(* two positions with two rows each, calls interleaved step by step *)
Definition sched_mem : elem -> Qc := fun l =>
  match l with In_ _ p k => qz (Z.of_nat (1 + p * k * k + k)) | Out_ _ _ => qz 7 end.
Definition sched_tasks := map (fun pos => reduce_data_task 5 2 2 pos pos) (seq 0 2).
Definition sched_end := play (flat_map (fun _ => [0; 1]) (seq 0 30)) sched_tasks sched_mem.
Example parallel_reduce_ex :
  reach elem_dec (sched_tasks, sched_mem) (fst sched_end, snd sched_end) /\ finished (fst sched_end) /\
  (exists r, reduce_data (pusher1 5 2) (map (data_row sched_mem 2 1) (seq 0 2)) = Some r /\
             row (snd sched_end) (Out_ 1) 3 = r /\ getq r 0 = qz 14) /\
  row (snd sched_end) (Out_ 0) 3 <> row (snd sched_end) (Out_ 1) 3.
Proof.
  assert (R : reach elem_dec (sched_tasks, sched_mem) (fst sched_end, snd sched_end)).
  { rewrite <- surjective_pairing. apply play_reach. }
  assert (F : finished (fst sched_end)) by (vm_compute; repeat constructor).
  split; [exact R|split; [exact F|split]].
  - destruct (reduce_data (pusher1 5 2) (map (data_row sched_mem 2 1) (seq 0 2))) as [r|] eqn:E.
    + exists r. split; [reflexivity|]. split.
      * apply (proj1 (parallel_reduce_data 5 2 2 (fun p => p) 2 _ _ _ R F) 1 r); [lia|exact E].
      * apply qeqb_eq. replace r with (match reduce_data (pusher1 5 2) (map (data_row sched_mem 2 1) (seq 0 2)) with Some r => r | None => [] end) by (rewrite E; reflexivity).
        vm_compute. reflexivity.
    + exfalso. assert (H : match reduce_data (pusher1 5 2) (map (data_row sched_mem 2 1) (seq 0 2)) with Some _ => true | None => false end = true) by (vm_compute; reflexivity).
      rewrite E in H. discriminate.
  - apply eqb1_neq. vm_compute. reflexivity.
Qed.
Definition sched_ints : elem -> Z := fun l =>
  match l with In_ _ 0 k => nth k [2; 0; 1]%Z 0%Z | In_ _ _ k => nth k [0; 3; 0]%Z 0%Z | Out_ _ _ => 0%Z end.
Example parallel_indices_ex :
  let f := play (flat_map (fun _ => [1; 0]) (seq 0 30)) (map (fun pos => freq_task pos 3 0 3 0) (seq 0 2)) sched_ints in
  finished (fst f) /\ row (snd f) (Out_ 0) 3 = [0; 0; 2]%Z /\ row (snd f) (Out_ 1) 3 = [1; 1; 1]%Z /\
  let c := play (flat_map (fun _ => [1; 0]) (seq 0 30)) (map (fun pos => count_task pos 4 0 3) (seq 0 2)) sched_ints in
  finished (fst c) /\ row (snd c) (Out_ 0) 4 = [1; 1; 1; 0]%Z /\ row (snd c) (Out_ 1) 4 = [2; 0; 0; 1]%Z.
Proof. vm_compute. repeat split; repeat constructor. Qed.

(* Pushing several sets of moments into one object at once (the array of the
   object is broadcast: push_data of an array with further leading axes) is not
   independent of the schedule: a push can be lost. *)
Definition broadcast_push (nmax n npos : nat) : list (prog elem Qc) :=
  map (fun pos => push_rows_task nmax n pos 0 0 1) (seq 0 npos).
Theorem broadcast_push_refuted : exists m ps1 m1 ps2 m2,
  reach elem_dec (broadcast_push 5 1 2, m) (ps1, m1) /\ finished ps1 /\
  reach elem_dec (broadcast_push 5 1 2, m) (ps2, m2) /\ finished ps2 /\
  m1 (Out_ 0 0) = qz 3 /\ m2 (Out_ 0 0) = qz 2.
Proof.
  pose (m := fun l => match l with In_ _ _ k => qz (1 + Z.of_nat k) | Out_ _ _ => qz 1 end).
  pose (a := play ([0;0;0;0;0;0;0] ++ [1;1;1;1;1;1;1]) (broadcast_push 5 1 2) m).
  pose (b := play ([0;0;0;0] ++ [1;1;1;1;1;1;1] ++ [0;0;0;0]) (broadcast_push 5 1 2) m).
  exists m, (fst a), (snd a), (fst b), (snd b).
  rewrite <- !surjective_pairing.
  split; [apply play_reach|]. split; [vm_compute; repeat constructor|].
  split; [apply play_reach|]. split; [vm_compute; repeat constructor|].
  split; apply qeqb_eq; vm_compute; reflexivity.
Qed.
