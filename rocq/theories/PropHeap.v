(* Operators, in-place operators and shared memory (C55, C57, C58). *)
From Verif Require Import Base BaseLemmas ModelPush ModelPushCov ModelKernels Spec Laws ProofSpec ModelHeap ProofHeap Checks.
Local Open Scope Qc_scope.

(* ---- specification ---------------------------------------------------------------- *)

(* one or two variables *)
Inductive heap_kernel : forall {A V : Type}, pusher A V -> hkernel A -> Prop :=
  | heap_kernel1 nmax n : (1 <= n)%nat -> heap_kernel (pusher1 nmax n) (hkernel1 nmax n)
  | heap_kernel2 nmax n0 n1 : (1 <= n0)%nat -> (1 <= n1)%nat -> heap_kernel (pusher2 nmax n0 n1) (hkernel2 nmax n0 n1).
(* y pushed into x on values, with optional scale of the weight of y *)
Definition combine_values {A V} (K : pusher A V) (scale : option Qc) (y x : A) : option A :=
  match scale with None => p_push_data K y x | Some s => p_push_data_scale K y s x end.

(* operations documented to change an object in place, and the object *)
Definition in_place (op : hop) : option nat :=
  match op with
  | HIadd i _ _ => Some i
  | HAssign i _ false => Some i
  | HImul i _ => Some i
  | _ => None
  end.
(* operations whose result is a view *)
Definition view_of (op : hop) : option nat :=
  match op with
  | HLike i false => Some i
  | HView i _ => Some i
  | HAssign i _ false => Some i
  | _ => None
  end.
Definition disjoint (x y : list nat) : Prop := forall a, In a x -> ~ In a y.
(* every address exists *)
Definition hwf (s : hst) : Prop := forall k a, obj s k = Some a -> in_memory (smem s) (concat a).

(* ---- kernels ------------------------------------------------------------------------ *)

Lemma kernel_refines {A V} (K : pusher A V) (H : hkernel A) : heap_kernel K H ->
  push_refines (hk_push H) (hk_of H) (combine_values K) (hk_width H).
Proof.
  intros HK. destruct HK.
  - apply (hpush1_refines nmax n H).
  - apply (hpush2_refines nmax n0 n1 H H0).
Qed.
(* only the row out is written *)
Definition writes_only (o : hrow) (m m' : mem) : Prop :=
  length m' = length m /\ forall a, ~ In a o -> getq m' a = getq m a.
Lemma writes_refl o m : writes_only o m m.
Proof. split; auto. Qed.
Lemma writes_trans o m1 m2 m3 : writes_only o m1 m2 -> writes_only o m2 m3 -> writes_only o m1 m3.
Proof. intros [L1 G1] [L2 G2]. split; [congruence|]. intros a Ha. rewrite G2, G1; auto. Qed.
Lemma writes_hset o m i v : writes_only o m (hset m o i v).
Proof. split; [apply hset_length|]. intros. now apply hset_outside. Qed.
Lemma writes_mono o o' m m' : (forall a, In a o -> In a o') -> writes_only o m m' -> writes_only o' m m'.
Proof. intros I [L G]. split; [exact L|]. intros a Ha. apply G. auto. Qed.
Lemma writes_fold {T} o (f : mem -> T -> mem) l m : (forall m t, writes_only o m (f m t)) -> writes_only o m (fold_left f l m).
Proof.
  intros Hf. revert m. induction l as [|t l IH]; intros m; [apply writes_refl|]. cbn [fold_left].
  eapply writes_trans; [apply Hf|apply IH].
Qed.
Lemma kernel_writes {A V} (K : pusher A V) (H : hkernel A) scale d o m : heap_kernel K H ->
  writes_only o m (fst (hk_push H scale d o m)).
Proof.
  intros HK. destruct HK; cbn [hk_push hkernel1 hkernel2].
  - unfold hpush1. destruct (qeqb _ 0); [apply writes_refl|]. cbv zeta.
    destruct (qeqb _ 0); [apply writes_hset|]. destruct (Nat.eqb _ 1); cbn [fst].
    + eapply writes_trans; apply writes_hset.
    + eapply writes_trans; [|apply writes_hset].
      eapply writes_trans; [eapply writes_trans; apply writes_hset|]. apply writes_fold. intros. apply writes_hset.
  - unfold hpush2. destruct (qeqb _ 0); [apply writes_refl|]. cbv zeta.
    destruct (qeqb _ 0); [apply writes_hset|]. cbn [fst].
    eapply writes_trans; [eapply writes_trans; [eapply writes_trans; apply writes_hset|apply writes_hset]|].
    apply writes_fold. intros. apply writes_fold. intros. apply writes_hset.
Qed.

Section Objects.
  Context {A V : Type} (K : pusher A V) (H : hkernel A).
  Hypothesis (HK : heap_kernel K H).

  Lemma push_rows_writes scale ps : forall m, writes_only (concat (map snd ps)) m (fst (push_rows H scale ps m)).
  Proof.
    induction ps as [|[d o] t IH]; intros m; cbn [push_rows map concat snd]; [apply writes_refl|].
    pose proof (kernel_writes K H scale d o m HK) as W. destruct (hk_push H scale d o m) as [m1 ok]. cbn [fst] in W.
    assert (W' : writes_only (o ++ concat (map snd t)) m m1) by (eapply writes_mono; [|exact W]; intros; apply in_or_app; auto).
    destruct ok; [|exact W']. eapply writes_trans; [exact W'|].
    eapply writes_mono; [|apply IH]. intros; apply in_or_app; auto.
  Qed.
  Lemma row_pairs_out ds os ps : row_pairs ds os = Some ps -> forall a, In a (concat (map snd ps)) -> In a (concat os).
  Proof.
    unfold row_pairs. destruct (Nat.eqb_spec (length ds) (length os)) as [E|E].
    - intros X. inversion X; subst. clear X. revert os E. induction ds as [|d ds IH]; intros [|o os] E a; simpl; auto; try discriminate.
      rewrite !in_app_iff. intros [|]; auto. 
    - assert (P : forall (d : hrow) (l : harr) a, In a (concat (map snd (map (fun o => (d, o)) l))) -> In a (concat l)).
      { intros d l a. rewrite map_map. cbn [snd]. now rewrite map_id. }
      assert (Q : forall (o : hrow) (l : harr) a, In a (concat (map snd (map (fun d : hrow => (d, o)) l))) -> In a (concat [o])).
      { intros o l a. rewrite map_map. cbn [snd]. simpl. rewrite app_nil_r.
        induction l as [|x l IH]; simpl; [contradiction|]. rewrite in_app_iff. intros [|]; auto. }
      destruct ds as [|d [|d' ds]], os as [|o [|o' os]]; intros X; inversion X; subst; clear X; intros a Ha;
        try contradiction; [exact (P d (o :: o' :: os) a Ha)|exact (Q o (d :: d' :: ds) a Ha)].
  Qed.
  Lemma push_array_writes scale ds os m : writes_only (concat os) m (fst (push_array H scale ds os m)).
  Proof.
    unfold push_array. destruct (row_pairs ds os) as [ps|] eqn:E; [|apply writes_refl].
    eapply writes_mono; [apply (row_pairs_out _ _ _ E)|apply push_rows_writes].
  Qed.
  Lemma write_rows_writes es a : forall k m, writes_only (concat a) m (write_rows es k a m).
  Proof.
    induction a as [|r t IH]; intros k m; cbn [write_rows concat]; [apply writes_refl|].
    apply writes_trans with (write_row (es k) r m).
    - apply writes_mono with (o := r); [intros; apply in_or_app; auto|]. unfold write_row. apply writes_fold. intros. apply writes_hset.
    - eapply writes_mono; [|apply IH]. intros; apply in_or_app; auto.
  Qed.

  (* ---- allocation ---- *)
  Lemma hval_seq l v r : hval (l ++ v ++ r) (seq (length l) (length v)) = v.
  Proof.
    apply arr_ext; [now rewrite hval_length, seq_length|]. rewrite hval_length, seq_length. intros i Hi.
    rewrite <- hget_val. unfold hget. rewrite (nth_error_nth' _ 0%nat) by now rewrite seq_length.
    rewrite seq_nth by exact Hi. unfold getq. rewrite app_nth2, app_nth1 by lia. f_equal. lia.
  Qed.
  Lemma alloc_spec vals : forall m m' a, alloc vals m = (m', a) ->
    m' = m ++ concat vals /\ values m' a = vals /\ concat a = seq (length m) (length (concat vals)) /\
    map (@length nat) a = map (@length Qc) vals.
  Proof.
    induction vals as [|v t IH]; intros m m' a E; cbn [alloc] in E.
    - inversion E; subst. simpl. rewrite app_nil_r. auto.
    - destruct (alloc t (m ++ v)) as [m1 a1] eqn:E1. inversion E; subst. clear E.
      destruct (IH _ _ _ E1) as (Em & Ev & Ea & El). cbn [concat values map]. split; [|split; [|split]].
      + rewrite Em. now rewrite app_assoc.
      + f_equal; [|exact Ev]. rewrite Em, <- app_assoc. apply hval_seq.
      + rewrite Ea, !app_length. rewrite seq_app. reflexivity.
      + rewrite seq_length. now rewrite El.
  Qed.

  Definition fresh (lo hi : nat) (a : harr) : Prop := forall x, In x (concat a) -> (lo <= x < hi)%nat.
  Definition grows (m m' : mem) : Prop :=
    (length m <= length m')%nat /\ forall x, (x < length m)%nat -> getq m' x = getq m x.
  Lemma grows_refl m : grows m m.
  Proof. split; auto. Qed.
  Lemma alloc_grows vals m m' a : alloc vals m = (m', a) -> grows m m' /\ fresh (length m) (length m') a.
  Proof.
    intros E. destruct (alloc_spec _ _ _ _ E) as (Em & _ & Ea & _). split.
    - split; rewrite Em; [rewrite app_length; lia|]. intros x Hx. unfold getq. now rewrite app_nth1.
    - intros x. rewrite Ea, in_seq, Em, app_length. lia.
  Qed.
  Lemma grows_writes m m1 m2 a : grows m m1 -> fresh (length m) (length m1) a -> writes_only (concat a) m1 m2 ->
    grows m m2 /\ fresh (length m) (length m2) a.
  Proof.
    intros [L G] F [L2 G2]. split; [|now rewrite L2]. split; [now rewrite L2|]. intros x Hx. rewrite G2, G; auto.
    intros X. apply F in X. lia.
  Qed.

  (* what one operation may do to memory and to the objects *)
  Definition step_ok (op : hop) (s s' : hst) : Prop :=
    (sobjs s' = sobjs s \/
     exists a, sobjs s' = sobjs s ++ [a] /\
       match view_of op with
       | Some i => exists b, obj s i = Some b /\ forall x, In x (concat a) -> In x (concat b)
       | None => fresh (length (smem s)) (length (smem s')) a
       end) /\
    (length (smem s) <= length (smem s'))%nat /\
    match in_place op with
    | None => forall x, (x < length (smem s))%nat -> getq (smem s') x = getq (smem s) x
    | Some i => length (smem s') = length (smem s) /\
        forall x, match obj s i with Some b => ~ In x (concat b) | None => True end -> getq (smem s') x = getq (smem s) x
    end.
  Lemma pick_rows_in rows a x : In x (concat (pick_rows rows a)) -> In x (concat a).
  Proof.
    unfold pick_rows. induction rows as [|k t IH]; cbn [flat_map]; [contradiction|].
    rewrite concat_app, in_app_iff. intros [X|X]; [|auto].
    destruct (nth_error a k) as [r|] eqn:E; [|contradiction]. simpl in X. rewrite app_nil_r in X.
    apply in_concat. exists r. split; [apply (nth_error_In _ _ E)|exact X].
  Qed.
  Lemma step_noop op s : step_ok op s s.
  Proof. split; [now left|]. split; [lia|]. destruct (in_place op); auto. Qed.
  Lemma step_alloc op s m2 a : in_place op = None -> view_of op = None ->
    grows (smem s) m2 /\ fresh (length (smem s)) (length m2) a -> step_ok op s (add_obj m2 s a).
  Proof.
    intros P N [[L G] F]. unfold step_ok. rewrite P, N. split; [right; exists a; auto|]. split; auto.
  Qed.
  Lemma hstep_ok op st : step_ok op st (fst (hstep H st op)).
  Proof.
    destruct op; cbn [hstep].
    all: repeat match goal with |- context [match obj ?x ?i with Some _ => _ | None => _ end] =>
           destruct (obj x i) eqn:?; [|apply step_noop] end.
    - destruct (alloc vals (smem st)) as [m' a] eqn:E. apply step_alloc; auto. now apply alloc_grows in E.
    - destruct copy.
      + destruct (copy_array h (smem st)) as [m' a] eqn:E. apply step_alloc; auto. now apply alloc_grows in E.
      + split; [right; exists h; cbn; eauto|]. split; cbn; auto.
    - split; [right; eexists; split; [reflexivity|]|split; cbn; auto]. exists h. split; [assumption|]. apply pick_rows_in.
    - destruct (copy_array _ (smem st)) as [m' a] eqn:E. apply step_alloc; auto. now apply alloc_grows in E.
    - destruct (copy_array h (smem st)) as [m1 a'] eqn:E. apply alloc_grows in E. destruct E as [E1 E2].
      pose proof (push_array_writes scale h0 a' m1) as W.
      destruct (push_array H scale h0 a' m1) as [m2 ok]. cbn [fst] in W. pose proof (grows_writes _ _ _ _ E1 E2 W) as G.
      destruct ok; [apply step_alloc; auto|]. destruct G as [[L G] _]. split; [now left|]. split; auto.
    - pose proof (push_array_writes scale h0 h (smem st)) as [W1 W2].
      destruct (push_array H scale h0 h (smem st)) as [m2 ok]. cbn [fst] in *.
      split; [now left|]. split; [cbn; lia|]. cbn [in_place]. rewrite Heqo. auto.
    - destruct copy.
      + destruct (copy_array h (smem st)) as [m1 a'] eqn:E. apply alloc_grows in E. destruct E as [E1 E2].
        apply step_alloc; auto. apply (grows_writes _ _ _ _ E1 E2). apply write_rows_writes.
      + pose proof (write_rows_writes es h 0 (smem st)) as [W1 W2].
        split; [right; exists h; cbn; eauto|]. split; [cbn; lia|]. cbn [in_place]. rewrite Heqo. auto.
    - destruct (copy_array h (smem st)) as [m1 a'] eqn:E. apply alloc_grows in E. destruct E as [E1 E2].
      apply step_alloc; auto. apply (grows_writes _ _ _ _ E1 E2). apply write_rows_writes.
    - match goal with |- context [write_rows ?e 0 h (smem st)] => pose proof (write_rows_writes e h 0 (smem st)) as [W1 W2] end.
      split; [now left|]. split; [cbn [fst smem]; lia|]. cbn [in_place]. rewrite Heqo. auto.
    - destruct (alloc _ (smem st)) as [m' a] eqn:E. apply step_alloc; auto. now apply alloc_grows in E.
    - destruct (copy_array h (smem st)) as [m1 a'] eqn:E. apply alloc_grows in E. destruct E as [E1 E2].
      apply step_alloc; auto. apply (grows_writes _ _ _ _ E1 E2). apply write_rows_writes.
    - destruct (alloc _ (smem st)) as [m1 a'] eqn:E. apply alloc_grows in E. destruct E as [E1 E2].
      apply step_alloc; auto. destruct weight; [|auto]. apply (grows_writes _ _ _ _ E1 E2). apply write_rows_writes.
  Qed.
  Lemma step_objs op s s' k : step_ok op s s' -> (k < length (sobjs s))%nat -> obj s' k = obj s k.
  Proof.
    intros [[E|(a & E & _)] _] Hk; unfold obj; rewrite E; [reflexivity|]. now apply nth_error_app1.
  Qed.
  Lemma step_wf op s s' : step_ok op s s' -> hwf s -> hwf s'.
  Proof.
    intros S W k a Ha. pose proof S as [[E|(b & E & B)] [L M]].
    - unfold obj in Ha. rewrite E in Ha. eapply Forall_impl; [|apply (W k a Ha)]. cbn. intros; lia.
    - unfold obj in Ha. rewrite E in Ha. destruct (Nat.lt_ge_cases k (length (sobjs s))) as [Hk|Hk].
      + rewrite nth_error_app1 in Ha by exact Hk. eapply Forall_impl; [|apply (W k a Ha)]. cbn. intros; lia.
      + rewrite nth_error_app2 in Ha by exact Hk. destruct (k - length (sobjs s))%nat as [|[|]]; try discriminate.
        inversion Ha; subst b. apply Forall_forall. intros x Hx.
        destruct (view_of op) as [i|].
        * destruct B as (c & Hc & I). pose proof (W i c Hc) as F. unfold in_memory in F. rewrite Forall_forall in F. specialize (F x (I x Hx)). lia.
        * apply B in Hx. lia.
  Qed.
  Lemma run_wf ops : forall s, hwf s -> hwf (hrun H ops s).
  Proof. induction ops as [|op t IH]; intros s W; [exact W|]. cbn [hrun]. apply IH. eapply step_wf; [apply hstep_ok|exact W]. Qed.
  Lemma heap0_wf : hwf heap0.
  Proof. intros [|k] a E; discriminate. Qed.
End Objects.

(* ---- histories -------------------------------------------------------------------- *)

Section Histories.
  Context {A V : Type} (K : pusher A V) (H : hkernel A).
  Hypothesis (HK : heap_kernel K H).

  Lemma values_same m m' (a : harr) : (forall x, In x (concat a) -> getq m' x = getq m x) -> values m' a = values m a.
  Proof.
    intros E. unfold values. apply map_ext_in. intros r Hr. unfold hval. apply map_ext_in. intros x Hx. apply E.
    apply in_concat. eauto.
  Qed.
  Lemma obj_lt s k a : obj s k = Some a -> (k < length (sobjs s))%nat.
  Proof. intros E. apply nth_error_Some. unfold obj in E. congruence. Qed.
  Lemma wf_lt s k a x : hwf s -> obj s k = Some a -> In x (concat a) -> (x < length (smem s))%nat.
  Proof. intros W E X. pose proof (W k a E) as F. unfold in_memory in F. rewrite Forall_forall in F. auto. Qed.

  Lemma pure_keeps op s k a : hwf s -> in_place op = None -> obj s k = Some a ->
    obj (fst (hstep H s op)) k = Some a /\ values (smem (fst (hstep H s op))) a = values (smem s) a.
  Proof.
    intros W P E. pose proof (hstep_ok K H HK op s) as S. split.
    - rewrite (step_objs _ _ _ k S (obj_lt _ _ _ E)). exact E.
    - apply values_same. intros x Hx. destruct S as (_ & _ & G). rewrite P in G. apply G. eapply wf_lt; eauto.
  Qed.
  Lemma in_place_keeps op s i k a : in_place op = Some i -> obj s k = Some a ->
    (forall b, obj s i = Some b -> disjoint (concat a) (concat b)) ->
    obj (fst (hstep H s op)) k = Some a /\ values (smem (fst (hstep H s op))) a = values (smem s) a.
  Proof.
    intros P E D. pose proof (hstep_ok K H HK op s) as S. split.
    - rewrite (step_objs _ _ _ k S (obj_lt _ _ _ E)). exact E.
    - apply values_same. intros x Hx. destruct S as (_ & _ & G). rewrite P in G. destruct G as [_ G]. apply G.
      destruct (obj s i) as [b|]; [|exact I]. apply (D b eq_refl x Hx).
  Qed.

  (* the array of an object never changes its addresses *)
  Lemma arrays_fixed ops : forall s k a, obj s k = Some a -> obj (hrun H ops s) k = Some a.
  Proof.
    induction ops as [|op t IH]; intros s k a E; [exact E|]. cbn [hrun]. apply IH.
    rewrite (step_objs _ _ _ k (hstep_ok K H HK op s) (obj_lt _ _ _ E)). exact E.
  Qed.
End Histories.

(* The owner of an object: itself when it was made with memory of its own, the
   owner of x when it was made as a view of x. *)
Definition next_owners (s s' : hst) (ow : list nat) (op : hop) : list nat :=
  if Nat.eqb (length (sobjs s')) (length (sobjs s)) then ow
  else ow ++ [match view_of op with Some i => nth i ow 0%nat | None => length ow end].
Fixpoint owners_from {A} (H : hkernel A) (ops : list hop) (s : hst) (ow : list nat) : list nat :=
  match ops with
  | [] => ow
  | op :: t => let s' := fst (hstep H s op) in owners_from H t s' (next_owners s s' ow op)
  end.
Definition owners {A} (H : hkernel A) (ops : list hop) : list nat := owners_from H ops heap0 [].
Definition owner {A} (H : hkernel A) (ops : list hop) (k : nat) : nat := nth k (owners H ops) 0%nat.
(* state after a program *)
Definition after {A} (H : hkernel A) (ops : list hop) : hst := hrun H ops heap0.
(* no operation of ops changes in place an object with the owner o *)
Fixpoint spares {A} (H : hkernel A) (o : nat) (ops : list hop) (s : hst) (ow : list nat) : Prop :=
  match ops with
  | [] => True
  | op :: t => match in_place op with Some i => nth i ow 0%nat <> o | None => True end /\
               let s' := fst (hstep H s op) in spares H o t s' (next_owners s s' ow op)
  end.

Section Owners.
  Context {A V : Type} (K : pusher A V) (H : hkernel A).
  Hypothesis (HK : heap_kernel K H).

  Definition owned (s : hst) (ow : list nat) : Prop :=
    hwf s /\ length ow = length (sobjs s) /\ Forall (fun o => (o < length ow)%nat) ow /\
    forall i j a b, obj s i = Some a -> obj s j = Some b -> nth i ow 0%nat <> nth j ow 0%nat -> disjoint (concat a) (concat b).
  Lemma disjoint_sym x y : disjoint x y -> disjoint y x.
  Proof. intros D a Ha Hb. apply (D a Hb Ha). Qed.
  Lemma owned_step op s ow : owned s ow -> owned (fst (hstep H s op)) (next_owners s (fst (hstep H s op)) ow op).
  Proof.
    intros (W & L & F & D). pose proof (hstep_ok K H HK op s) as S. set (s' := fst (hstep H s op)) in *.
    split; [eapply step_wf; eauto|]. unfold next_owners.
    destruct S as [[E|(a & E & B)] [Lm _]].
    - assert (EL : length (sobjs s') = length (sobjs s)) by now rewrite E. rewrite EL, Nat.eqb_refl. split; [exact L|]. split; [exact F|].
      intros i j x y Hi Hj. apply D; unfold obj in *; now rewrite <- E.
    - assert (EL : length (sobjs s') = S (length (sobjs s))) by (rewrite E, app_length; cbn; lia). rewrite EL.
      destruct (Nat.eqb_spec (S (length (sobjs s))) (length (sobjs s))) as [X|_]; [lia|].
      set (o := match view_of op with Some i => nth i ow 0%nat | None => length ow end).
      assert (Ho : (o < length (ow ++ [o]))%nat).
      { rewrite app_length. cbn. unfold o. destruct (view_of op) as [i|]; [|lia]. destruct B as (b & Hb & _).
        rewrite Forall_forall in F. pose proof (obj_lt _ _ _ Hb). specialize (F (nth i ow 0%nat)). assert (In (nth i ow 0%nat) ow) by (apply nth_In; lia).
        specialize (F H1). lia. }
      split; [rewrite app_length; cbn; lia|]. split.
      + apply Forall_app. split; [|repeat constructor; exact Ho].
        eapply Forall_impl; [|exact F]. cbn. intros. rewrite app_length. cbn. lia.
      + assert (Key : forall k b, obj s k = Some b -> nth k ow 0%nat <> o -> disjoint (concat a) (concat b)).
        { intros k b Hk N x Xa Xb. unfold o in N. destruct (view_of op) as [i|].
          - destruct B as (c & Hc & I). apply (D i k c b Hc Hk) with (a := x); auto.
          - apply B in Xa. pose proof (wf_lt _ _ _ _ W Hk Xb). lia. }
        intros i j x y Hi Hj N. unfold obj in Hi, Hj. rewrite E in Hi, Hj.
        assert (C : forall k z, nth_error (sobjs s ++ [a]) k = Some z ->
                      (obj s k = Some z /\ nth k (ow ++ [o]) 0%nat = nth k ow 0%nat) \/ (z = a /\ nth k (ow ++ [o]) 0%nat = o)).
        { intros k z Hz. destruct (Nat.lt_ge_cases k (length (sobjs s))) as [Hk|Hk].
          - rewrite nth_error_app1 in Hz by exact Hk. left. split; [exact Hz|]. apply app_nth1. lia.
          - rewrite nth_error_app2 in Hz by exact Hk. destruct (k - length (sobjs s))%nat as [|[|]] eqn:Q; try discriminate.
            right. split; [now inversion Hz|]. rewrite app_nth2 by lia. replace (k - length ow)%nat with 0%nat by lia. reflexivity. }
        destruct (C _ _ Hi) as [[Hi' Oi]|[-> Oi]], (C _ _ Hj) as [[Hj' Oj]|[-> Oj]]; rewrite Oi, Oj in N.
        * eapply D; eauto.
        * apply disjoint_sym. eapply Key; eauto.
        * eapply Key; eauto.
        * congruence.
  Qed.
  Lemma owned_from ops : forall s ow, owned s ow -> owned (hrun H ops s) (owners_from H ops s ow).
  Proof. induction ops as [|op t IH]; intros s ow O; [exact O|]. cbn [hrun owners_from]. apply IH. now apply owned_step. Qed.
  Lemma owned_after ops : owned (after H ops) (owners H ops).
  Proof.
    apply owned_from. split; [apply heap0_wf|]. split; [reflexivity|]. split; [constructor|]. intros [|i] j a b E; discriminate.
  Qed.
  Lemma next_owners_old s s' ow op k : (k < length ow)%nat -> nth k (next_owners s s' ow op) 0%nat = nth k ow 0%nat.
  Proof. intros Hk. unfold next_owners. destruct (Nat.eqb _ _); [reflexivity|]. now apply app_nth1. Qed.
  Lemma spared ops : forall s ow k a, owned s ow -> obj s k = Some a -> spares H (nth k ow 0%nat) ops s ow ->
    values (smem (hrun H ops s)) a = values (smem s) a.
  Proof.
    induction ops as [|op t IH]; intros s ow k a O E S; [reflexivity|]. cbn [spares] in S. destruct S as [S1 S2].
    pose proof (owned_step op s ow O) as O'. destruct O as (W & L & F & D). cbn [hrun].
    assert (St : obj (fst (hstep H s op)) k = Some a /\ values (smem (fst (hstep H s op))) a = values (smem s) a).
    { destruct (in_place op) as [i|] eqn:P.
      - apply (in_place_keeps K H HK op s i); auto. intros b Hb. eapply D; eauto.
      - apply (pure_keeps K H HK op s); auto. }
    destruct St as [St1 St2]. rewrite <- St2. eapply IH; [exact O'|exact St1|].
    rewrite next_owners_old; [exact S2|]. rewrite L. eapply obj_lt; eauto.
  Qed.
End Owners.

(* ---- values ------------------------------------------------------------------------- *)

(* pairs (data row, out row): every data row meets no other out row, and its own
   out row only as the same moment *)
Definition rows_apart (ds os : harr) : Prop :=
  forall i j d o, nth_error ds i = Some d -> nth_error os j = Some o ->
  (i = j -> aligned d o) /\ (i <> j -> disjoint d o).
Definition rows_of {A} (H : hkernel A) (a : harr) : Prop := Forall (fun r => length r = hk_width H) a.
(* value of an array as moments, one per outer position *)
Definition moments {A} (H : hkernel A) (m : mem) (a : harr) : list A := map (fun r => hk_of H (hval m r)) a.
(* y pushed into x position by position *)
Definition combine_all {A V} (K : pusher A V) (scale : option Qc) (ys xs : list A) : option (list A) :=
  mapM (fun p => combine_values K scale (fst p) (snd p)) (combine ys xs).

Lemma NoDup_app_l {T} (x y : list T) : NoDup (x ++ y) -> NoDup x /\ NoDup y /\ forall a, In a x -> ~ In a y.
Proof.
  induction x as [|b x IH]; cbn; [intros N; repeat split; auto; constructor|]. intros N. inversion N; subst.
  destruct (IH H2) as (N1 & N2 & D). rewrite in_app_iff in H1. repeat split; auto.
  - constructor; auto.
  - intros a [->|Ha]; auto.
Qed.
Lemma firstn_nth_error {T} k : forall (l : list T) j x, nth_error (firstn k l) j = Some x -> nth_error l j = Some x.
Proof. induction k as [|k IH]; intros [|y l] [|j] x; cbn; try discriminate; auto. Qed.
Lemma hval_same m m' r : (forall x, In x r -> getq m' x = getq m x) -> hval m' r = hval m r.
Proof. intros E. apply map_ext_in. exact E. Qed.

Section Values.
  Context {A V : Type} (K : pusher A V) (H : hkernel A).
  Hypothesis (HK : heap_kernel K H).

  (* rows in pairs: success, or the first failing position k *)
  Lemma push_rows_value scale : forall ds os m, length ds = length os -> rows_of H ds -> rows_of H os -> NoDup (concat os) -> in_memory m (concat os) ->
    rows_apart ds os ->
    let '(m', ok) := push_rows H scale (combine ds os) m in
    match combine_all K scale (moments H m ds) (moments H m os) with
    | Some rs => ok = true /\ moments H m' os = rs
    | None => ok = false /\ exists k d o, nth_error ds k = Some d /\ nth_error os k = Some o /\
        combine_values K scale (hk_of H (hval m d)) (hk_of H (hval m o)) = None /\
        hval m' o = upd (hval m o) 0 0 /\
        combine_all K scale (moments H m (firstn k ds)) (moments H m (firstn k os)) = Some (moments H m' (firstn k os)) /\
        forall j o', (k < j)%nat -> nth_error os j = Some o' -> hval m' o' = hval m o'
    end.
  Proof.
    induction ds as [|d ds IH]; intros [|o os] m Hl Hd Ho N M R; try discriminate; cbn [combine push_rows moments map combine_all mapM fst snd].
    - auto.
    - inversion Hd as [|? ? Ld Hd']; subst. inversion Ho as [|? ? Lo Ho']; subst. cbn [concat] in N, M.
      destruct (NoDup_app_l _ _ N) as (No & Nos & Dis). unfold in_memory in M. apply Forall_app in M. destruct M as [Mo Mos].
      pose proof (R 0%nat 0%nat d o eq_refl eq_refl) as [Al _]. specialize (Al eq_refl).
      pose proof (kernel_refines K H HK scale d o m Ld Lo No Mo Al) as P.
      pose proof (push_rows_writes K H HK scale (combine ds os)) as Wr.
      destruct (hk_push H scale d o m) as [m1 ok] eqn:E1. destruct P as (L1 & G1 & P).
      unfold combine_all. cbn [map combine mapM fst snd].
      assert (Same : forall r, (forall x, In x r -> ~ In x o) -> hval m1 r = hval m r) by (intros r Hr; apply hval_same; auto).
      assert (Ros : forall j o', nth_error os j = Some o' -> hval m1 o' = hval m o').
      { intros j o' Hj. apply Same. intros x Hx Hxo. apply (Dis x Hxo). apply in_concat. exists o'. split; [apply (nth_error_In _ _ Hj)|exact Hx]. }
      assert (Rds : forall j d', nth_error ds j = Some d' -> hval m1 d' = hval m d').
      { intros j d' Hj. apply Same. destruct (R (S j) 0%nat d' o Hj eq_refl) as [_ X]. apply X. lia. }
      assert (Eq : forall (l l' : harr), (forall j r, nth_error l j = Some r -> hval m1 r = hval m r) -> moments H m1 l = moments H m l).
      { intros l l' X. unfold moments. apply map_ext_in. intros r Hr. apply In_nth_error in Hr. destruct Hr as [j Hj]. now rewrite (X j r Hj). }
      destruct (combine_values K scale (hk_of H (hval m d)) (hk_of H (hval m o))) as [r|] eqn:C; cbn [obind].
      + destruct P as [-> P].
        assert (M1 : in_memory m1 (concat os)) by (unfold in_memory; rewrite L1; exact Mos).
        assert (R1 : rows_apart ds os).
        { intros i j x y Hi Hj. destruct (R (S i) (S j) x y Hi Hj) as [X Y]. split; intros; [apply X|apply Y]; congruence. }
        specialize (IH os m1 ltac:(now inversion Hl) Hd' Ho' Nos M1 R1). specialize (Wr m1).
        destruct (push_rows H scale (combine ds os) m1) as [m' ok'] eqn:E2. cbn [fst] in Wr.
        rewrite (Eq ds ds Rds), (Eq os os Ros) in IH. unfold combine_all in IH. unfold moments in IH |- *.
        assert (Keep : hval m' o = hval m1 o).
        { apply hval_same. intros x Hx. destruct Wr as [_ Wr]. apply Wr. intros Hc. apply (Dis x Hx).
          apply in_concat in Hc. destruct Hc as (q & Hq & Hxq). apply in_map_iff in Hq. destruct Hq as ([u v] & Ev & Hq). cbn in Ev. subst v.
          apply in_concat. exists q. split; [apply (in_combine_r _ _ _ _ Hq)|exact Hxq]. }
        destruct (mapM _ (combine (map (fun r => hk_of H (hval m r)) ds) (map (fun r => hk_of H (hval m r)) os))) as [rs|]; cbn [obind].
        * destruct IH as [-> IH]. split; [reflexivity|]. rewrite Keep, P. now rewrite IH.
        * destruct IH as (-> & k & d' & o' & K1 & K2 & K3 & K4 & K5 & K6). split; [reflexivity|].
          exists (S k), d', o'. cbn [nth_error firstn]. rewrite (Rds _ _ K1), (Ros _ _ K2) in K3.
          split; [exact K1|]. split; [exact K2|]. split; [exact K3|]. split; [now rewrite <- (Ros _ _ K2)|]. split.
          -- cbn [map combine mapM fst snd]. rewrite C. cbn [obind].
             assert (F1 : moments H m1 (firstn k ds) = moments H m (firstn k ds)).
             { apply (Eq _ ds). intros j q Hj. apply (Rds j). apply (firstn_nth_error _ _ _ _ Hj). }
             assert (F2 : moments H m1 (firstn k os) = moments H m (firstn k os)).
             { apply (Eq _ os). intros j q Hj. apply (Ros j). apply (firstn_nth_error _ _ _ _ Hj). }
             unfold moments in F1, F2. rewrite <- F1, <- F2. rewrite K5. cbn [obind]. now rewrite Keep, P.
          -- intros [|j] q Hj Hq; [lia|]. cbn [nth_error] in Hq. rewrite <- (Ros _ _ Hq). apply (K6 j); [lia|exact Hq].
      + destruct P as [-> P]. split; [reflexivity|]. exists 0%nat, d, o. repeat split; auto.
        intros [|j] q Hj Hq; [lia|]. apply (Ros j q Hq).
  Qed.
End Values.

Lemma hrun_app {A} (H : hkernel A) x : forall y s, hrun H (x ++ y) s = hrun H y (hrun H x s).
Proof. induction x as [|op x IH]; intros y s; [reflexivity|]. cbn [app hrun]. apply IH. Qed.
Lemma after_app {A} (H : hkernel A) x y : after H (x ++ y) = hrun H y (after H x).
Proof. apply hrun_app. Qed.
Lemma after_wf {A V} (K : pusher A V) (H : hkernel A) : heap_kernel K H -> forall ops, hwf (after H ops).
Proof. intros HK ops. apply (run_wf K H HK), heap0_wf. Qed.

(* ---- C58: what an operation may change ------------------------------------------------ *)

(* Operations that are not in place leave every object that exists as it is, and
   its array, also when they raise and whatever memory the objects share. *)
Theorem operators_leave_all_objects : forall {A V} (K : pusher A V) (H : hkernel A), heap_kernel K H ->
  forall ops op k a, in_place op = None -> obj (after H ops) k = Some a ->
  let s := after H ops in let s' := fst (hstep H s op) in
  obj s' k = Some a /\ values (smem s') a = values (smem s) a.
Proof. intros A V K H HK ops op k a P E. apply (pure_keeps K H HK); auto. apply (after_wf K H HK). Qed.

(* In-place operations change only the array of their target: numbers elsewhere in
   memory, hence objects that share no memory with the target, stay; every object
   keeps its array. *)
Theorem in_place_changes_only_the_target : forall {A V} (K : pusher A V) (H : hkernel A), heap_kernel K H ->
  forall ops op i, in_place op = Some i ->
  let s := after H ops in let s' := fst (hstep H s op) in
  length (smem s') = length (smem s) /\
  (forall x, (forall b, obj s i = Some b -> ~ In x (concat b)) -> getq (smem s') x = getq (smem s) x) /\
  (forall k a, obj s k = Some a -> obj s' k = Some a /\
     ((forall b, obj s i = Some b -> disjoint (concat a) (concat b)) -> values (smem s') a = values (smem s) a)).
Proof.
  intros A V K H HK ops op i P s s'. pose proof (hstep_ok K H HK op s) as S. pose proof S as (_ & _ & G). rewrite P in G. destruct G as [L G].
  split; [exact L|]. split.
  - intros x X. apply G. destruct (obj s i) as [b|]; [now apply X|exact I].
  - intros k a E. split; [fold s'; rewrite <- E; apply (step_objs _ _ _ k S (obj_lt _ _ _ E))|]. intros D. apply (in_place_keeps K H HK op s i k a P E D).
Qed.

(* Objects with different owners share no memory, whatever was done before. *)
Theorem owners_share_nothing : forall {A V} (K : pusher A V) (H : hkernel A), heap_kernel K H ->
  forall ops i j a b, obj (after H ops) i = Some a -> obj (after H ops) j = Some b ->
  owner H ops i <> owner H ops j -> disjoint (concat a) (concat b).
Proof. intros A V K H HK ops i j a b Hi Hj N. destruct (owned_after K H HK ops) as (_ & _ & _ & D). apply (D i j); auto. Qed.

(* An object keeps its value as long as no object of the same owner is the target
   of an in-place operation. *)
Theorem untouched_objects_keep_their_value : forall {A V} (K : pusher A V) (H : hkernel A), heap_kernel K H ->
  forall ops ops' k a, obj (after H ops) k = Some a ->
  spares H (owner H ops k) ops' (after H ops) (owners H ops) ->
  obj (after H (ops ++ ops')) k = Some a /\ values (smem (after H (ops ++ ops'))) a = values (smem (after H ops)) a.
Proof.
  intros A V K H HK ops ops' k a E S. rewrite after_app. split; [now apply (arrays_fixed K H HK)|].
  apply (spared K H HK ops' _ (owners H ops) k); auto. apply (owned_after K H HK).
Qed.

(* ---- C58: views and copies ------------------------------------------------------------- *)

(* new_like(copy=False), assign_moment(copy=False): the new object has the array of
   the old one, now and for ever *)
Theorem alias_observes_every_change : forall {A V} (K : pusher A V) (H : hkernel A), heap_kernel K H ->
  forall ops i a op ops', obj (after H ops) i = Some a -> (op = HLike i false \/ exists es, op = HAssign i es false) ->
  let s := after H (ops ++ op :: ops') in
  obj s i = Some a /\ obj s (length (sobjs (after H ops))) = Some a.
Proof.
  intros A V K H HK ops i a op ops' E O s. unfold s. rewrite after_app. cbn [hrun].
  split; apply (arrays_fixed K H HK).
  - rewrite (step_objs _ _ _ i (hstep_ok K H HK op (after H ops)) (obj_lt _ _ _ E)). exact E.
  - destruct O as [->|[es ->]]; cbn [hstep]; rewrite E; unfold obj; cbn [fst add_obj sobjs];
      rewrite nth_error_app2, Nat.sub_diag by lia; reflexivity.
Qed.
(* a slice shows the rows of the object it was made from *)
Theorem view_shows_rows : forall {A V} (K : pusher A V) (H : hkernel A), heap_kernel K H ->
  forall ops i a rows ops', obj (after H ops) i = Some a -> Forall (fun k => (k < length a)%nat) rows ->
  let s := after H (ops ++ HView i rows :: ops') in
  exists v, obj s (length (sobjs (after H ops))) = Some v /\
    forall m, values m v = map (fun k => nth k (values m a) []) rows.
Proof.
  intros A V K H HK ops i a rows ops' E F s. exists (pick_rows rows a). split.
  - unfold s. rewrite after_app. cbn [hrun]. apply (arrays_fixed K H HK). cbn [hstep]. rewrite E.
    unfold obj; cbn [fst add_obj sobjs]. rewrite nth_error_app2, Nat.sub_diag by lia; reflexivity.
  - intros m. clear E s. unfold values, pick_rows. induction F as [|k rows Hk F IH]; [reflexivity|]. cbn [flat_map map].
    rewrite map_app, IH. destruct (nth_error a k) as [r|] eqn:Er; [|apply nth_error_None in Er; lia]. cbn [map app]. f_equal.
    symmetry. apply nth_error_nth. rewrite nth_error_map, Er. reflexivity.
Qed.

Lemma copy_array_ok a m m' a' : copy_array a m = (m', a') ->
  m' = m ++ concat (values m a) /\ values m' a' = values m a /\ NoDup (concat a') /\ in_memory m' (concat a') /\
  (forall x, In x (concat a') -> (length m <= x)%nat) /\ map (@length nat) a' = map (@length nat) a.
Proof.
  intros E. destruct (alloc_spec _ _ _ _ E) as (Em & Ev & Ea & El). split; [exact Em|]. split; [exact Ev|].
  rewrite Ea. split; [apply seq_NoDup|]. split; [|split].
  - apply Forall_forall. intros x Hx. apply in_seq in Hx. rewrite Em, app_length. lia.
  - intros x Hx. apply in_seq in Hx. lia.
  - rewrite El. unfold values. rewrite map_map. apply map_ext. intros. apply hval_length.
Qed.

(* copy(): equal values, and no later in-place operation on the copy (or on views of
   it) is seen by the original, nor the other way round *)
Theorem copy_is_independent : forall {A V} (K : pusher A V) (H : hkernel A), heap_kernel K H ->
  forall ops i a, obj (after H ops) i = Some a ->
  let ops1 := ops ++ [HLike i true] in let n := length (sobjs (after H ops)) in
  owner H ops1 n = n /\ owner H ops1 i <> n /\
  exists c, obj (after H ops1) n = Some c /\ values (smem (after H ops1)) c = values (smem (after H ops1)) a /\
    disjoint (concat a) (concat c) /\
    forall ops', (spares H n ops' (after H ops1) (owners H ops1) -> values (smem (after H (ops1 ++ ops'))) c = values (smem (after H ops1)) c) /\
                 (spares H (owner H ops1 i) ops' (after H ops1) (owners H ops1) -> values (smem (after H (ops1 ++ ops'))) a = values (smem (after H ops1)) a).
Proof.
  intros A V K H HK ops i a E ops1 n.
  assert (OF : forall x y s ow, owners_from H (x ++ y) s ow = owners_from H y (hrun H x s) (owners_from H x s ow)).
  { induction x as [|op x IH]; intros y s ow; [reflexivity|]. cbn [app owners_from hrun]. apply IH. }
  destruct (copy_array a (smem (after H ops))) as [m' c] eqn:C.
  assert (S1 : after H ops1 = HSt m' (sobjs (after H ops) ++ [c])).
  { unfold ops1. rewrite after_app. cbn [hrun hstep]. rewrite E, C. reflexivity. }
  destruct (owned_after K H HK ops) as (W & L & F & D).
  assert (Ow : owners H ops1 = owners H ops ++ [length (owners H ops)]).
  { unfold owners, ops1. rewrite OF. cbn [owners_from]. fold (after H ops). fold (owners H ops).
    replace (fst (hstep H (after H ops) (HLike i true))) with (after H ops1) by (unfold ops1; rewrite after_app; reflexivity).
    unfold next_owners. rewrite S1. cbn [sobjs view_of]. rewrite app_length. cbn [length].
    destruct (Nat.eqb_spec (length (sobjs (after H ops)) + 1) (length (sobjs (after H ops)))) as [X|_]; [lia|reflexivity]. }
  destruct (copy_array_ok _ _ _ _ C) as (Em & Ev & _ & _ & Ef & _).
  pose proof (obj_lt _ _ _ E) as Hi.
  assert (On : owner H ops1 n = n) by (unfold owner; rewrite Ow, app_nth2 by (unfold n; lia); rewrite L; unfold n; rewrite Nat.sub_diag; reflexivity).
  assert (Oi : owner H ops1 i <> n).
  { unfold owner. rewrite Ow, app_nth1 by lia. rewrite Forall_forall in F. specialize (F (nth i (owners H ops) 0%nat)).
    assert (In (nth i (owners H ops) 0%nat) (owners H ops)) by (apply nth_In; lia). specialize (F H0). unfold n. lia. }
  split; [exact On|]. split; [exact Oi|]. exists c.
  assert (Oc : obj (after H ops1) n = Some c) by (rewrite S1; unfold obj, n; cbn [sobjs]; rewrite nth_error_app2, Nat.sub_diag by lia; reflexivity).
  assert (Oa : obj (after H ops1) i = Some a) by (rewrite S1; unfold obj in *; cbn [sobjs]; rewrite nth_error_app1 by lia; exact E).
  split; [exact Oc|]. split; [|split].
  - rewrite S1. cbn [smem]. rewrite Ev. symmetry. apply values_same. intros x Hx. rewrite Em. unfold getq. apply app_nth1. eapply wf_lt; eauto.
  - intros x Xa Xc. apply Ef in Xc. pose proof (wf_lt _ _ _ _ W E Xa). lia.
  - intros ops'. split; intros Sp.
    + rewrite <- On in Sp. apply (untouched_objects_keep_their_value K H HK ops1 ops' n c Oc Sp).
    + apply (untouched_objects_keep_their_value K H HK ops1 ops' i a Oa Sp).
Qed.

(* ---- C58: values of sums ---------------------------------------------------------------- *)

Lemma moments_of_values {A} (H : hkernel A) m m' a a' : values m' a' = values m a -> moments H m' a' = moments H m a.
Proof.
  intros E. unfold moments, values in *. rewrite <- (map_map (hval m') (hk_of H)), <- (map_map (hval m) (hk_of H)). now rewrite E.
Qed.
Lemma rows_of_lengths {A} (H : hkernel A) a a' : map (@length nat) a' = map (@length nat) a -> rows_of H a -> rows_of H a'.
Proof.
  unfold rows_of. intros E F. apply Forall_map with (P := fun l => l = hk_width H). rewrite E. now apply Forall_map.
Qed.
Lemma fresh_apart (ds os : harr) n : (forall x, In x (concat ds) -> (x < n)%nat) -> (forall x, In x (concat os) -> (n <= x)%nat) -> rows_apart ds os.
Proof.
  intros Hd Ho i j d o Ei Ej.
  assert (X : disjoint d o).
  { intros x Xd Xo. assert (x < n)%nat by (apply Hd, in_concat; exists d; split; [apply (nth_error_In _ _ Ei)|exact Xd]).
    assert (n <= x)%nat by (apply Ho, in_concat; exists o; split; [apply (nth_error_In _ _ Ej)|exact Xo]). lia. }
  split; [|auto]. intros _ p q x Hp Hq. exfalso. apply (X x); eapply nth_error_In; eauto.
Qed.

(* x + y, x - y: a new object whose value is the functional combination, position by
   position; whatever memory x and y share.  When the combination does not exist
   the operation raises and makes no object. *)
Theorem sum_of_objects : forall {A V} (K : pusher A V) (H : hkernel A), heap_kernel K H ->
  forall ops i j a b scale, let s := after H ops in
  obj s i = Some a -> obj s j = Some b -> rows_of H a -> rows_of H b -> length b = length a ->
  let '(s', ok) := hstep H s (HAdd i j scale) in
  match combine_all K scale (moments H (smem s) b) (moments H (smem s) a) with
  | Some rs => ok = true /\ exists c, obj s' (length (sobjs s)) = Some c /\ moments H (smem s') c = rs
  | None => ok = false /\ sobjs s' = sobjs s
  end.
Proof.
  intros A V K H HK ops i j a b scale s Ea Eb Ra Rb L. pose proof (after_wf K H HK ops) as W. fold s in W.
  cbn [hstep]. rewrite Ea, Eb. destruct (copy_array a (smem s)) as [m1 a'] eqn:C.
  destruct (copy_array_ok _ _ _ _ C) as (Em & Ev & N & M & Fr & Ln).
  assert (La : length a' = length a) by (pose proof (f_equal (@length nat) Ln) as X; rewrite !map_length in X; exact X).
  unfold push_array, row_pairs. rewrite (proj2 (Nat.eqb_eq (length b) (length a'))) by lia.
  assert (Ap : rows_apart b a').
  { apply (fresh_apart _ _ (length (smem s))); [|exact Fr]. intros x Hx. eapply wf_lt; eauto. }
  pose proof (push_rows_value K H HK scale b a' m1 ltac:(lia) Rb (rows_of_lengths H a a' Ln Ra) N M Ap) as P.
  destruct (push_rows H scale (combine b a') m1) as [m2 ok].
  rewrite (moments_of_values H (smem s) m1 a a' Ev) in P.
  rewrite (moments_of_values H (smem s) m1 b b) in P.
  2: { apply values_same. intros x Hx. rewrite Em. unfold getq. apply app_nth1. eapply wf_lt; eauto. }
  destruct (combine_all K scale (moments H (smem s) b) (moments H (smem s) a)) as [rs|].
  - destruct P as [-> P]. split; [reflexivity|]. exists a'. split; [|exact P].
    unfold obj; cbn [add_obj sobjs]; rewrite nth_error_app2, Nat.sub_diag by lia; reflexivity.
  - destruct P as [-> _]. auto.
Qed.

(* x += y, x -= y, x.push_data(y.obj): the same value in the array of x, provided the
   rows are apart.  When it raises at position k, the rows before k are combined,
   row k has its weight set to zero and the rows after k are untouched. *)
Theorem push_in_place : forall {A V} (K : pusher A V) (H : hkernel A), heap_kernel K H ->
  forall ops i j a b scale, let s := after H ops in
  obj s i = Some a -> obj s j = Some b -> rows_of H a -> rows_of H b -> length b = length a ->
  NoDup (concat a) -> rows_apart b a ->
  let '(s', ok) := hstep H s (HIadd i j scale) in
  match combine_all K scale (moments H (smem s) b) (moments H (smem s) a) with
  | Some rs => ok = true /\ moments H (smem s') a = rs
  | None => ok = false /\ exists k d o, nth_error b k = Some d /\ nth_error a k = Some o /\
      combine_values K scale (hk_of H (hval (smem s) d)) (hk_of H (hval (smem s) o)) = None /\
      hval (smem s') o = upd (hval (smem s) o) 0 0 /\
      combine_all K scale (moments H (smem s) (firstn k b)) (moments H (smem s) (firstn k a)) = Some (moments H (smem s') (firstn k a)) /\
      forall p o', (k < p)%nat -> nth_error a p = Some o' -> hval (smem s') o' = hval (smem s) o'
  end.
Proof.
  intros A V K H HK ops i j a b scale s Ea Eb Ra Rb L N Ap. pose proof (after_wf K H HK ops) as W. fold s in W.
  cbn [hstep]. rewrite Ea, Eb. unfold push_array, row_pairs. rewrite (proj2 (Nat.eqb_eq (length b) (length a)) L).
  pose proof (push_rows_value K H HK scale b a (smem s) L Rb Ra N (W i a Ea) Ap) as P.
  destruct (push_rows H scale (combine b a) (smem s)) as [m2 ok]. exact P.
Qed.

Lemma self_apart (a : harr) : NoDup (concat a) -> rows_apart a a.
Proof.
  intros N. assert (Row : forall k r, nth_error a k = Some r -> NoDup r).
  { clear -N. induction a as [|q a IH]; intros [|k] r E; try discriminate; destruct (NoDup_app_l _ _ N) as (N1 & N2 & _).
    - now inversion E; subst. - eapply IH; eauto. }
  assert (Dis : forall i j d o, nth_error a i = Some d -> nth_error a j = Some o -> i <> j -> disjoint d o).
  { clear Row. induction a as [|q a IH]; intros [|i] [|j] d o Ei Ej D; try discriminate; try congruence; destruct (NoDup_app_l _ _ N) as (N1 & N2 & Dq).
    - inversion Ei; subst. intros x Xd Xo. apply (Dq x Xd). apply in_concat. exists o. split; [apply (nth_error_In a j Ej)|exact Xo].
    - inversion Ej; subst. intros x Xd Xo. apply (Dq x Xo). apply in_concat. exists d. split; [apply (nth_error_In a i Ei)|exact Xd].
    - eapply (IH N2 i j); eauto. }
  intros i j d o Ei Ej. split; [|eapply Dis; eauto]. intros ->. rewrite Ei in Ej. inversion Ej; subst.
  intros p q x Hp Hq. apply (proj1 (NoDup_nth_error o) (Row _ _ Ei)); [|congruence]. apply nth_error_Some. congruence.
Qed.
(* x += x doubles every weight and keeps nothing half-updated: it is the functional
   push of x into x although data and out are the same memory *)
Theorem push_object_into_itself : forall {A V} (K : pusher A V) (H : hkernel A), heap_kernel K H ->
  forall ops i a scale rs, let s := after H ops in
  obj s i = Some a -> rows_of H a -> NoDup (concat a) ->
  combine_all K scale (moments H (smem s) a) (moments H (smem s) a) = Some rs ->
  let '(s', ok) := hstep H s (HIadd i i scale) in ok = true /\ moments H (smem s') a = rs.
Proof.
  intros A V K H HK ops i a scale rs s Ea Ra N E.
  pose proof (push_in_place K H HK ops i i a a scale Ea Ea Ra Ra eq_refl N (self_apart a N)) as P. cbv zeta in P. fold s in P. rewrite E in P. exact P.
Qed.

(* ---- C55, C57, C58: assignment, multiplication ------------------------------------------- *)

Definition assign_entries (es : list (nat * Qc)) (v : list Qc) : list Qc :=
  fold_left (fun v e => upd v (fst e) (snd e)) es v.
Lemma upd_past {T} (l : list T) i v : (length l <= i)%nat -> upd l i v = l.
Proof. revert i. induction l as [|x l IH]; intros [|i] Hi; cbn in *; auto; [lia|]. rewrite IH by lia. reflexivity. Qed.
Lemma write_row_value es r : forall m, NoDup r -> in_memory m r -> hval (write_row es r m) r = assign_entries es (hval m r).
Proof.
  unfold write_row, assign_entries. induction es as [|e es IH]; intros m N M; [reflexivity|]. cbn [fold_left].
  rewrite IH; auto.
  - f_equal. destruct (Nat.lt_ge_cases (fst e) (length r)) as [Hi|Hi]; [now apply hset_val|].
    rewrite upd_past by (rewrite hval_length; exact Hi). unfold hset. now rewrite (proj2 (nth_error_None _ _) Hi).
  - unfold in_memory. now rewrite hset_length.
Qed.
Lemma write_rows_value es a : forall k m, NoDup (concat a) -> in_memory m (concat a) ->
  forall j r, nth_error a j = Some r -> hval (write_rows es k a m) r = assign_entries (es (k + j)%nat) (hval m r).
Proof.
  induction a as [|q a IH]; intros k m N M j r E; [destruct j; discriminate|]. cbn [write_rows concat] in *.
  destruct (NoDup_app_l _ _ N) as (N1 & N2 & Dq). unfold in_memory in M. apply Forall_app in M. destruct M as [Mq Ma].
  assert (W : writes_only q m (write_row (es k) q m)) by (apply writes_fold; intros; apply writes_hset). destruct W as [WL WG].
  destruct j as [|j]; cbn [nth_error] in E.
  - inversion E; subst. rewrite Nat.add_0_r.
    transitivity (hval (write_row (es k) r m) r); [|now apply write_row_value].
    apply hval_same. intros x Hx. destruct (write_rows_writes es a (S k) (write_row (es k) r m)) as [_ G]. apply G. auto.
  - rewrite (IH (S k) _ N2) with (j := j); auto.
    + rewrite Nat.add_succ_comm. f_equal. apply hval_same. intros x Hx. apply WG. intros Hq. apply (Dq x Hq). apply in_concat. exists r.
      split; [apply (nth_error_In _ _ E)|exact Hx].
    + unfold in_memory. rewrite WL. exact Ma.
Qed.

Definition assign_rows (es : nat -> list (nat * Qc)) (vs : list (list Qc)) : list (list Qc) :=
  map (fun p => assign_entries (es (fst p)) (snd p)) (combine (seq 0 (length vs)) vs).
Lemma write_rows_values es a m : NoDup (concat a) -> in_memory m (concat a) ->
  values (write_rows es 0 a m) a = assign_rows es (values m a).
Proof.
  intros N M. unfold values, assign_rows.
  assert (G : forall k l, (forall j r, nth_error l j = Some r -> hval (write_rows es 0 a m) r = assign_entries (es (k + j)%nat) (hval m r)) ->
     map (hval (write_rows es 0 a m)) l = map (fun p => assign_entries (es (fst p)) (snd p)) (combine (seq k (length (map (hval m) l))) (map (hval m) l))).
  { intros k l. revert k. induction l as [|r l IH]; intros k X; [reflexivity|]. cbn [map length seq combine fst snd]. f_equal.
    - rewrite <- (Nat.add_0_r k) at 1. apply (X 0%nat). reflexivity.
    - apply IH. intros j q Hq. rewrite Nat.add_succ_comm. apply (X (S j)). exact Hq. }
  apply G. intros j r E. apply (write_rows_value es a 0 m N M j r E).
Qed.

(* assign_moment(copy=True): a new object with the entries assigned (and the input
   as it was, operators_leave_all_objects); copy=False: the same values in the array
   of the object itself *)
Theorem assign_moment_copy : forall {A V} (K : pusher A V) (H : hkernel A), heap_kernel K H ->
  forall ops i a es, let s := after H ops in obj s i = Some a ->
  let '(s', ok) := hstep H s (HAssign i es true) in
  ok = true /\ values (smem s') a = values (smem s) a /\
  exists c, obj s' (length (sobjs s)) = Some c /\ disjoint (concat a) (concat c) /\
            values (smem s') c = assign_rows es (values (smem s) a).
Proof.
  intros A V K H HK ops i a es s E. pose proof (operators_leave_all_objects K H HK ops (HAssign i es true) i a eq_refl E) as [_ Keep].
  cbv zeta in Keep. fold s in Keep. pose proof (after_wf K H HK ops) as W. fold s in W.
  cbn [hstep] in *. rewrite E in *. destruct (copy_array a (smem s)) as [m1 c] eqn:C.
  destruct (copy_array_ok _ _ _ _ C) as (Em & Ev & N & M & Fr & _). cbn [fst add_obj smem] in *.
  split; [reflexivity|]. split; [exact Keep|]. exists c. split; [|split].
  - unfold obj; cbn [add_obj sobjs]; rewrite nth_error_app2, Nat.sub_diag by lia; reflexivity.
  - intros x Xa Xc. apply Fr in Xc. pose proof (wf_lt _ _ _ _ W E Xa). lia.
  - rewrite <- Ev. now apply write_rows_values.
Qed.
Theorem assign_moment_in_place : forall {A V} (K : pusher A V) (H : hkernel A), heap_kernel K H ->
  forall ops i a es, let s := after H ops in obj s i = Some a -> NoDup (concat a) ->
  let '(s', ok) := hstep H s (HAssign i es false) in
  ok = true /\ obj s' (length (sobjs s)) = Some a /\ values (smem s') a = assign_rows es (values (smem s) a).
Proof.
  intros A V K H HK ops i a es s E N. pose proof (after_wf K H HK ops) as W. fold s in W.
  cbn [hstep] in *. rewrite E. split; [reflexivity|]. split; [unfold obj; cbn [add_obj sobjs]; rewrite nth_error_app2, Nat.sub_diag by lia; reflexivity|].
  cbn [add_obj smem]. apply write_rows_values; auto. apply (W i a E).
Qed.

(* x * s and x *= s: the weight of every row times s, nothing else *)
Definition scale_weights (x : Qc) (vs : list (list Qc)) : list (list Qc) :=
  map (fun v => match v with [] => [] | w :: t => w * x :: t end) vs.
Lemma assign_scale m a x : assign_rows (fun k => [(0%nat, weights m a k * x)]) (values m a) = scale_weights x (values m a).
Proof.
  unfold assign_rows, scale_weights, values.
  assert (G : forall pre l, map (fun p => assign_entries [(0%nat, weights m (pre ++ l) (fst p) * x)] (snd p))
                             (combine (seq (length pre) (length (map (hval m) l))) (map (hval m) l))
                        = map (fun v => match v with [] => [] | w :: t => w * x :: t end) (map (hval m) l)).
  { intros pre l. revert pre. induction l as [|r l IH]; intros pre; [reflexivity|]. cbn [map length seq combine fst snd]. f_equal.
    - unfold weights. rewrite app_nth2, Nat.sub_diag by lia. cbn [nth]. unfold assign_entries. cbn [fold_left fst snd].
      destruct r as [|y r]; [reflexivity|]. reflexivity.
    - specialize (IH (pre ++ [r])). rewrite app_length in IH. cbn [length] in IH. rewrite Nat.add_1_r in IH.
      rewrite <- app_assoc in IH. exact IH. }
  apply (G []).
Qed.
Theorem multiplied_object : forall {A V} (K : pusher A V) (H : hkernel A), heap_kernel K H ->
  forall ops i a x, let s := after H ops in obj s i = Some a ->
  let '(s', ok) := hstep H s (HMul i x) in
  ok = true /\ exists c, obj s' (length (sobjs s)) = Some c /\ values (smem s') c = scale_weights x (values (smem s) a).
Proof.
  intros A V K H HK ops i a x s E. cbn [hstep]. rewrite E. destruct (copy_array a (smem s)) as [m1 c] eqn:C.
  destruct (copy_array_ok _ _ _ _ C) as (Em & Ev & N & M & Fr & _). split; [reflexivity|]. exists c.
  split; [unfold obj; cbn [add_obj sobjs]; rewrite nth_error_app2, Nat.sub_diag by lia; reflexivity|].
  cbn [add_obj smem]. rewrite write_rows_values by auto. rewrite Ev. apply assign_scale.
Qed.
Theorem multiplied_in_place : forall {A V} (K : pusher A V) (H : hkernel A), heap_kernel K H ->
  forall ops i a x, let s := after H ops in obj s i = Some a -> NoDup (concat a) ->
  let '(s', ok) := hstep H s (HImul i x) in
  ok = true /\ sobjs s' = sobjs s /\ values (smem s') a = scale_weights x (values (smem s) a).
Proof.
  intros A V K H HK ops i a x s E N. pose proof (after_wf K H HK ops) as W. fold s in W. cbn [hstep]. rewrite E.
  split; [reflexivity|]. split; [reflexivity|]. cbn [smem]. rewrite write_rows_values; auto; [|apply (W i a E)]. apply assign_scale.
Qed.

(* cmom(): a new object, weight 1, the first moments 0, every other entry as it was *)
Definition central_row (ave : list nat) (v : list Qc) : list Qc :=
  map (fun j => if Nat.eqb j 0 then 1 else if existsb (Nat.eqb j) ave then 0 else nth j v 0) (seq 0 (length v)).
Lemma assign_entries_length es : forall v, length (assign_entries es v) = length v.
Proof. unfold assign_entries. induction es as [|e es IH]; intros v; [reflexivity|]. cbn [fold_left]. now rewrite IH, upd_length. Qed.
Lemma assign_zeros ave : forall v j, (j < length v)%nat ->
  nth j (assign_entries (map (fun e => (e, 0)) ave) v) 0 = if existsb (Nat.eqb j) ave then 0 else nth j v 0.
Proof.
  induction ave as [|e ave IH]; intros v j Hj; [reflexivity|]. cbn [map existsb]. unfold assign_entries in *. cbn [fold_left fst snd].
  rewrite IH by now rewrite upd_length. destruct (existsb (Nat.eqb j) ave); [now rewrite orb_true_r|]. rewrite orb_false_r, upd_nth.
  destruct (Nat.eqb_spec j e) as [->|N].
  - rewrite Nat.eqb_refl. destruct (Nat.ltb_spec e (length v)); [reflexivity|lia].
  - destruct (Nat.eqb_spec e j); [congruence|reflexivity].
Qed.
Lemma assign_central ave v : ~ In 0%nat ave -> assign_entries ((0%nat, 1) :: map (fun e => (e, 0)) ave) v = central_row ave v.
Proof.
  intros N. apply (nth_ext _ _ 0 0).
  - unfold central_row. now rewrite assign_entries_length, map_length, seq_length.
  - intros j Hj. rewrite assign_entries_length in Hj. unfold assign_entries. cbn [fold_left fst snd]. fold (assign_entries (map (fun e => (e, 0)) ave) (upd v 0 1)).
    rewrite assign_zeros by now rewrite upd_length. unfold central_row.
    set (g := fun j => if Nat.eqb j 0 then 1 else if existsb (Nat.eqb j) ave then 0 else nth j v 0).
    transitivity (g j).
    2:{ rewrite (nth_indep _ 0 (g 0%nat)) by (rewrite map_length, seq_length; exact Hj). now rewrite map_nth, seq_nth by exact Hj. }
    unfold g. clear g. destruct (Nat.eqb_spec j 0) as [->|J].
    + destruct (existsb (Nat.eqb 0) ave) eqn:X.
      * apply existsb_exists in X. destruct X as (x & Hx & E). apply Nat.eqb_eq in E. now subst.
      * rewrite upd_nth. cbn [Nat.eqb]. destruct (Nat.ltb_spec 0 (length v)); [reflexivity|lia].
    + destruct (existsb (Nat.eqb j) ave); [reflexivity|]. rewrite upd_nth. destruct (Nat.eqb_spec 0 j); [congruence|reflexivity].
Qed.
Lemma assign_rows_same es f vs : (forall v, In v vs -> assign_entries es v = f v) -> assign_rows (fun _ => es) vs = map f vs.
Proof.
  intros H. unfold assign_rows. generalize 0%nat. induction vs as [|v vs IH]; intros k; [reflexivity|]. cbn [length seq combine map fst snd].
  rewrite (H v) by now left. f_equal. apply IH. intros u Hu. apply H. now right.
Qed.
Theorem cmom_object : forall {A V} (K : pusher A V) (H : hkernel A), heap_kernel K H ->
  forall ops i a ave, let s := after H ops in obj s i = Some a -> ~ In 0%nat ave ->
  let '(s', ok) := hstep H s (HCmom i ave) in
  ok = true /\ values (smem s') a = values (smem s) a /\
  exists c, obj s' (length (sobjs s)) = Some c /\ disjoint (concat a) (concat c) /\
            values (smem s') c = map (central_row ave) (values (smem s) a).
Proof.
  intros A V K H HK ops i a ave s E N0. pose proof (operators_leave_all_objects K H HK ops (HCmom i ave) i a eq_refl E) as [_ Keep].
  cbv zeta in Keep. fold s in Keep. pose proof (after_wf K H HK ops) as W. fold s in W.
  cbn [hstep] in *. rewrite E in *. destruct (copy_array a (smem s)) as [m1 c] eqn:C.
  destruct (copy_array_ok _ _ _ _ C) as (Em & Ev & N & M & Fr & _). cbn [fst add_obj smem] in *.
  split; [reflexivity|]. split; [exact Keep|]. exists c. split; [|split].
  - unfold obj; cbn [add_obj sobjs]; rewrite nth_error_app2, Nat.sub_diag by lia; reflexivity.
  - intros x Xa Xc. apply Fr in Xc. pose proof (wf_lt _ _ _ _ W E Xa). lia.
  - rewrite <- Ev, write_rows_values by assumption. apply assign_rows_same. intros v _. now apply assign_central.
Qed.
(* to_raw(weight) / rmom(): a new object holding the converted rows, the weight replaced
   if one is given *)
Definition with_weight (w : option Qc) (v : list Qc) : list Qc :=
  match w, v with Some x, _ :: t => x :: t | _, _ => v end.
Theorem raw_object : forall {A V} (K : pusher A V) (H : hkernel A), heap_kernel K H ->
  forall ops i a f w, let s := after H ops in obj s i = Some a ->
  let '(s', ok) := hstep H s (HRaw i f w) in
  ok = true /\ values (smem s') a = values (smem s) a /\
  exists c, obj s' (length (sobjs s)) = Some c /\ disjoint (concat a) (concat c) /\
            values (smem s') c = map (with_weight w) (f (values (smem s) a)).
Proof.
  intros A V K H HK ops i a f w s E. pose proof (operators_leave_all_objects K H HK ops (HRaw i f w) i a eq_refl E) as [_ Keep].
  cbv zeta in Keep. fold s in Keep. pose proof (after_wf K H HK ops) as W. fold s in W.
  cbn [hstep] in *. rewrite E in *. destruct (alloc (f (values (smem s) a)) (smem s)) as [m1 c] eqn:C.
  destruct (alloc_spec _ _ _ _ C) as (Em & Ev & Ea & El). cbn [fst add_obj smem] in *.
  split; [reflexivity|]. split; [exact Keep|]. exists c. split; [|split].
  - unfold obj; cbn [add_obj sobjs]; rewrite nth_error_app2, Nat.sub_diag by lia; reflexivity.
  - intros x Xa Xc. rewrite Ea in Xc. apply in_seq in Xc. pose proof (wf_lt _ _ _ _ W E Xa). lia.
  - destruct w as [x|].
    + rewrite write_rows_values.
      * rewrite Ev. apply assign_rows_same. intros [|y t] _; reflexivity.
      * rewrite Ea. apply seq_NoDup.
      * unfold in_memory. rewrite Ea. apply Forall_forall. intros y Hy. apply in_seq in Hy. rewrite Em, app_length. lia.
    + rewrite Ev. symmetry. erewrite map_ext; [apply map_id|]. intros [|? ?]; reflexivity.
Qed.

(* ---- an object with itself ---------------------------------------------------------------- *)

(* v pushed into itself with factor f: the weight times 1 + f, all else as it was;
   it raises when a nonzero weight would become zero *)
Lemma combined_with_itself : forall {A V} (K : pusher A V) ok, moment_kernel K ok -> forall v scale, ok v ->
  let f := match scale with None => 1 | Some s => s end in
  let w := p_wt K v in
  (w * f = 0 \/ w + w * f <> 0 -> combine_values K scale v v = Some (p_setwt K (w + w * f) v)) /\
  (w * f <> 0 -> w + w * f = 0 -> combine_values K scale v v = None).
Proof.
  intros A V K ok HK v scale Hv f w. destruct (kernel_laws K ok HK) as (I & L & E). apply E in Hv.
  assert (R : combine_values K scale v v = p_push_data K (p_setwt K (w * f) v) v).
  { destruct scale as [s|]; cbn [combine_values]; unfold f.
    - now apply (l_scale K I L).
    - rewrite Qcmult_1_r. unfold w. now rewrite (l_setwt_id K I L). }
  rewrite R. assert (Wd : p_wt K (p_setwt K (w * f) v) = w * f) by now apply (l_wt_setwt K I L).
  assert (Wfd : l_wf L (p_setwt K (w * f) v)) by now apply (l_wf_setwt K I L).
  split.
  - intros Hc. destruct (Qc_eq_dec (w * f) 0) as [Z|NZ].
    + rewrite (l_push_zero K I L) by congruence. rewrite Z, Qcplus_0_r. unfold w. now rewrite (l_setwt_id K I L).
    + destruct Hc as [?|Hc]; [contradiction|].
      destruct (l_push_some K I L (p_setwt K (w * f) v) v Wfd Hv) as (r & Er & Wr & Hr & Raw); try (rewrite Wd; assumption).
      rewrite Er. f_equal. rewrite Wd in Hr. fold w in Hr. apply (l_inj K I L); auto.
      * now apply (l_wf_setwt K I L).
      * congruence.
      * rewrite (l_wt_setwt K I L) by exact Hv. exact Hr.
      * intros i Hi. rewrite (l_raw_setwt K I L). specialize (Raw i Hi). rewrite Hr, Wd, (l_raw_setwt K I L) in Raw. fold w in Raw.
        assert (X : (w + w * f) * (l_raw L r i - l_raw L v i) = 0) by
          (replace ((w + w * f) * (l_raw L r i - l_raw L v i)) with ((w + w * f) * l_raw L r i - (w * l_raw L v i + w * f * l_raw L v i)) by ring;
           rewrite Raw; ring).
        apply Qcmult_integral in X. destruct X as [X|X]; [contradiction|].
        replace (l_raw L r i) with (l_raw L r i - l_raw L v i + l_raw L v i) by ring. rewrite X. ring.
  - intros NZ Z. apply (l_push_none K I L); auto; rewrite Wd; auto.
Qed.

Inductive object_kernel : forall {A V : Type}, pusher A V -> hkernel A -> (A -> Prop) -> Prop :=
  | object_kernel1 nmax n : (1 <= n <= nmax)%nat ->
      object_kernel (pusher1 nmax n) (hkernel1 nmax n) (fun a => length a = S n)
  | object_kernel2 nmax n0 n1 : (1 <= n0 <= nmax)%nat -> (1 <= n1 <= nmax)%nat ->
      object_kernel (pusher2 nmax n0 n1) (hkernel2 nmax n0 n1) (shape2 (S n0) (S n1)).
Lemma object_heap {A V} (K : pusher A V) H ok : object_kernel K H ok -> heap_kernel K H.
Proof. intros []; constructor; lia. Qed.
Lemma object_moment {A V} (K : pusher A V) H ok : object_kernel K H ok -> moment_kernel K ok.
Proof. intros []; constructor; lia. Qed.
Lemma object_shape {A V} (K : pusher A V) H ok : object_kernel K H ok -> forall l, length l = hk_width H -> ok (hk_of H l).
Proof. intros [] l Hl; cbn [hk_width hk_of hkernel1 hkernel2] in *; [exact Hl|apply chunk_shape]. Qed.

(* x += x: every weight doubled, the other moments as they were.  x -= x raises
   when a weight is not zero. *)
Theorem add_object_to_itself : forall {A V} (K : pusher A V) (H : hkernel A) ok, object_kernel K H ok ->
  forall ops i a, let s := after H ops in obj s i = Some a -> rows_of H a -> NoDup (concat a) ->
  let '(s', ok') := hstep H s (HIadd i i None) in
  ok' = true /\ moments H (smem s') a = map (fun v => p_setwt K (p_wt K v + p_wt K v) v) (moments H (smem s) a).
Proof.
  intros A V K H ok HO ops i a s E R N.
  apply (push_object_into_itself K H (object_heap _ _ _ HO) ops i a None _ E R N). unfold combine_all, moments.
  fold s. clear E N. induction R as [|r a Hr R IH]; [reflexivity|]. cbn [map combine mapM fst snd]. rewrite IH. clear IH.
  destruct (combined_with_itself K ok (object_moment _ _ _ HO) (hk_of H (hval (smem s) r)) None) as [Y _].
  { apply (object_shape _ _ _ HO). now rewrite hval_length. }
  rewrite Qcmult_1_r in Y. rewrite Y; [reflexivity|].
  destruct (Qc_eq_dec (p_wt K (hk_of H (hval (smem s) r))) 0) as [Z|NZ]; [left; exact Z|right].
  intros X. apply NZ. set (w := p_wt K (hk_of H (hval (smem s) r))) in *.
  assert (T : (1 + 1) * w = 0) by (rewrite <- X; ring). apply Qcmult_integral in T. destruct T as [T|T]; [discriminate T|exact T].
Qed.
Theorem subtract_object_from_itself : forall {A V} (K : pusher A V) (H : hkernel A) ok, object_kernel K H ok ->
  forall ops i a v, let s := after H ops in obj s i = Some a -> rows_of H a -> NoDup (concat a) ->
  In v (moments H (smem s) a) -> p_wt K v <> 0 ->
  snd (hstep H s (HIadd i i (Some (- (1))))) = false /\ snd (hstep H s (HAdd i i (Some (- (1))))) = false.
Proof.
  intros A V K H ok HO ops i a v s E R N Hv NZ.
  assert (C : combine_all K (Some (- (1))) (moments H (smem s) a) (moments H (smem s) a) = None).
  { unfold combine_all. clear N E. unfold moments in *. induction R as [|r a Hr R IH]; [contradiction|]. cbn [map combine mapM fst snd].
    assert (X : combine_values K (Some (- (1))) (hk_of H (hval (smem s) r)) (hk_of H (hval (smem s) r)) = None
                \/ p_wt K (hk_of H (hval (smem s) r)) = 0).
    { destruct (Qc_eq_dec (p_wt K (hk_of H (hval (smem s) r))) 0) as [Z|NZ']; [now right|left].
      apply (combined_with_itself K ok (object_moment _ _ _ HO)); [apply (object_shape _ _ _ HO); now rewrite hval_length| |ring].
      intros X. apply NZ'. rewrite <- (Qcopp_involutive (p_wt K (hk_of H (hval (smem s) r)))).
      replace (- p_wt K (hk_of H (hval (smem s) r))) with (p_wt K (hk_of H (hval (smem s) r)) * - (1)) by ring. rewrite X. ring. }
    destruct X as [X|X]; [now rewrite X|]. destruct Hv as [Hv|Hv]; [congruence|]. rewrite (IH Hv).
    destruct (combine_values _ _ _ _); reflexivity. }
  pose proof (push_in_place K H (object_heap _ _ _ HO) ops i i a a (Some (- (1))) E E R R eq_refl N (self_apart a N)) as P. cbv zeta in P.
  pose proof (sum_of_objects K H (object_heap _ _ _ HO) ops i i a a (Some (- (1))) E E R R eq_refl) as Q. cbv zeta in Q. fold s in P, Q.
  rewrite C in P, Q. split.
  - destruct (hstep H s (HIadd i i (Some (- (1))))). apply P.
  - destruct (hstep H s (HAdd i i (Some (- (1))))). apply Q.
Qed.

(* ---- concrete programs ---------------------------------------------------------------- *)

Definition veqb := leqb eqb1.
Lemma veqb_eq a b : veqb a b = true -> a = b.
Proof. apply (leqb_eq _ eqb1_eq). Qed.
Definition value_of (s : hst) (k : nat) : list (list Qc) := match obj s k with Some a => values (smem s) a | None => [] end.
(* x of order 2 with two rows; an alias; a copy; a view of row 1; x + x; a new object *)
Definition prog : list hop :=
  [HNew [lz [2; 3; 5]; lz [1; -1; 2]]%Z; HLike 0 false; HLike 0 true; HView 0 [1%nat]; HAdd 0 1 None; HNew [lz [1; 4; 0]]%Z].
Definition H2 := hkernel1 5 2.
Example prog_kernel : object_kernel (pusher1 5 2) H2 (fun a => length a = 3%nat).
Proof. apply (object_kernel1 5 2). lia. Qed.
Example prog_kernel2 : object_kernel (pusher2 5 1 2) (hkernel2 5 1 2) (shape2 2 3).
Proof. apply (object_kernel2 5 1 2); lia. Qed.
Example prog_objects : length (sobjs (after H2 prog)) = 6%nat /\ owners H2 prog = [0; 0; 2; 0; 4; 5]%nat /\
  value_of (after H2 prog) 4 = [lz [4; 3; 5]; lz [2; -1; 2]]%Z /\
  (* the new object added to the view: seen by x and its alias, not by copy and sum *)
  (let s := fst (hstep H2 (after H2 prog) (HIadd 3 5 None)) in
   value_of s 0 = [lz [2; 3; 5]; [qz 2; fr 3 2; fr 29 4]]%Z /\ value_of s 1 = value_of s 0 /\
   value_of s 3 = [[qz 2; fr 3 2; fr 29 4]] /\ value_of s 2 = [lz [2; 3; 5]; lz [1; -1; 2]]%Z /\
   value_of s 4 = value_of (after H2 prog) 4).
Proof. repeat split; apply veqb_eq; vm_compute; reflexivity. Qed.
(* hypotheses of the theorems above on this program *)
Example prog_spares : spares H2 (owner H2 prog 2) [HIadd 3 5 None; HImul 1 (qz 2); HMul 2 (qz 3)] (after H2 prog) (owners H2 prog).
Proof. vm_compute. repeat split; discriminate. Qed.
Example prog_rows : exists a b, obj (after H2 prog) 0 = Some a /\ obj (after H2 prog) 2 = Some b /\ rows_of H2 a /\ rows_of H2 b /\
  length b = length a /\ NoDup (concat a) /\ rows_apart b a /\ rows_apart a a /\ owner H2 prog 0 <> owner H2 prog 2.
Proof.
  exists [[0; 1; 2]; [3; 4; 5]]%nat, [[6; 7; 8]; [9; 10; 11]]%nat. assert (N : NoDup (concat [[0; 1; 2]; [3; 4; 5]]%nat)) by (cbn; repeat constructor; cbn; lia).
  repeat split; auto; try (repeat constructor; fail); try (vm_compute; discriminate).
  - intros ->. destruct j as [|[|[|]]]; try discriminate; inversion H; inversion H0; subst; intros i q x Hi Hq;
      destruct i as [|[|[|i]]]; try (destruct i; discriminate); destruct q as [|[|[|q]]]; try (destruct q; discriminate); inversion Hi; inversion Hq; lia.
  - intros _. destruct i as [|[|[|]]]; try discriminate; destruct j as [|[|[|]]]; try discriminate; inversion H; inversion H0; subst;
      intros x Hx Hy; cbn in Hx, Hy; lia.
  - apply (self_apart _ N); auto.
  - apply (self_apart _ N); auto.
Qed.
(* x += x *)
Example prog_double : let '(s', ok) := hstep H2 (after H2 prog) (HIadd 0 0 None) in
  ok = true /\ value_of s' 0 = [lz [4; 3; 5]; lz [2; -1; 2]]%Z.
Proof. vm_compute. split; [reflexivity|]. apply veqb_eq. vm_compute. reflexivity. Qed.
(* two variables, order (1, 2): x += x *)
Example prog_double2 :
  let '(s', ok) := hstep (hkernel2 5 1 2) (after (hkernel2 5 1 2) [HNew [lz [2; 3; 5; 1; 7; 8]]%Z]) (HIadd 0 0 None) in
  ok = true /\ value_of s' 0 = [lz [4; 3; 5; 1; 7; 8]]%Z.
Proof. vm_compute. split; [reflexivity|]. apply veqb_eq. vm_compute. reflexivity. Qed.
Example prog_assign : let '(s', ok) := hstep H2 (after H2 prog) (HAssign 0 (fun _ => [(0%nat, qz 9); (1%nat, qz 0)]) true) in
  ok = true /\ value_of s' 6 = [lz [9; 0; 5]; lz [9; 0; 2]]%Z /\ value_of s' 0 = [lz [2; 3; 5]; lz [1; -1; 2]]%Z.
Proof. vm_compute. split; [reflexivity|]. split; apply veqb_eq; vm_compute; reflexivity. Qed.
Example prog_mul : let '(s', ok) := hstep H2 (after H2 prog) (HMul 0 (qz 3)) in
  ok = true /\ value_of s' 6 = [lz [6; 3; 5]; lz [3; -1; 2]]%Z.
Proof. vm_compute. split; [reflexivity|]. apply veqb_eq; vm_compute; reflexivity. Qed.

Example prog_cmom : let '(s', ok) := hstep H2 (after H2 prog) (HCmom 0 [1%nat]) in
  ok = true /\ value_of s' 6 = [lz [1; 0; 5]; lz [1; 0; 2]]%Z /\ ~ In 0%nat [1%nat].
Proof. vm_compute. split; [reflexivity|]. split; [apply veqb_eq; vm_compute; reflexivity|]. intros [X|[]]; discriminate. Qed.
Example prog_raw : let '(s', ok) := hstep H2 (after H2 prog) (HRaw 0 (map (fun v => v)) (Some 1)) in
  ok = true /\ value_of s' 6 = [lz [1; 3; 5]; lz [1; -1; 2]]%Z.
Proof. vm_compute. split; [reflexivity|]. apply veqb_eq; vm_compute; reflexivity. Qed.

(* Views that overlap shifted: x[1:] += x[:-1] does not add the old rows.  The
   hypothesis rows_apart of push_in_place cannot be dropped. *)
Definition overlap : list hop := [HNew [lz [1; 0]; lz [1; 2]; lz [1; 4]]%Z; HView 0 [1; 2]%nat; HView 0 [0; 1]%nat].
Theorem overlapping_views_refuted : exists a b,
  let s := after (hkernel1 5 1) overlap in let s' := fst (hstep (hkernel1 5 1) s (HIadd 1 2 None)) in
  obj s 1 = Some a /\ obj s 2 = Some b /\ rows_of (hkernel1 5 1) a /\ rows_of (hkernel1 5 1) b /\ length b = length a /\ NoDup (concat a) /\
  snd (hstep (hkernel1 5 1) s (HIadd 1 2 None)) = true /\
  combine_all (pusher1 5 1) None (moments (hkernel1 5 1) (smem s) b) (moments (hkernel1 5 1) (smem s) a) = Some [lz [2; 1]; lz [2; 3]]%Z /\
  moments (hkernel1 5 1) (smem s') a = [lz [2; 1]; lz [3; 2]]%Z.
Proof.
  exists [[2; 3]; [4; 5]]%nat, [[0; 1]; [2; 3]]%nat. cbv zeta. split; [vm_compute; reflexivity|]. split; [vm_compute; reflexivity|].
  split; [repeat constructor|]. split; [repeat constructor|]. split; [reflexivity|]. split; [cbn; repeat constructor; cbn; lia|].
  split; [vm_compute; reflexivity|]. split; [apply oleqb1_eq; vm_compute; reflexivity|apply veqb_eq; vm_compute; reflexivity].
Qed.
(* A push that raises has changed the target: its weight is zero afterwards.  So
   "an operation that raises leaves its objects unchanged" is false. *)
Theorem failed_push_changes_the_target_refuted : exists (ops : list hop) (op : hop),
  let s := after H2 ops in let '(s', ok) := hstep H2 s op in
  ok = false /\ value_of s 0 = [lz [2; 3; 5]]%Z /\ value_of s' 0 = [lz [0; 3; 5]]%Z.
Proof.
  exists [HNew [lz [2; 3; 5]]%Z], (HIadd 0 0 (Some (- (1)))). vm_compute. split; [reflexivity|]. split; apply veqb_eq; vm_compute; reflexivity.
Qed.
(* A reduction over no axis gives an object sharing the array of its argument, so a
   push into the result changes the argument. *)
Theorem reduce_without_axes_aliases_refuted : exists ops : list hop,
  let s := after H2 (ops ++ [HLike 0 false; HIadd 1 1 None]) in
  value_of (after H2 ops) 0 = [lz [2; 3; 5]]%Z /\ value_of s 0 = [lz [4; 3; 5]]%Z.
Proof. exists [HNew [lz [2; 3; 5]]%Z]. vm_compute. split; apply veqb_eq; vm_compute; reflexivity. Qed.
