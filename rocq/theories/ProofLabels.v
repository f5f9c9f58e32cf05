(* Proofs about labels, groups and blocks. *)
From Coq Require Import String Permutation Sorted.
From Verif Require Import Base BaseLemmas ModelKernels ModelIndex SpecIndex Laws ProofKernels ProofRolling ProofIndex ProofIndexed.
Close Scope string_scope.

Section Labels.
  Context {T : Type} (eqb leb : T -> T -> bool) (skip : T -> bool).
  Hypothesis eqb_spec : forall x y, eqb x y = true <-> x = y.
  Hypothesis leb_total : forall x y, leb x y = true \/ leb y x = true.
  Hypothesis leb_trans : forall x y z, leb x y = true -> leb y z = true -> leb x z = true.

  Lemma mem_spec x l : mem eqb x l = true <-> In x l.
  Proof.
    unfold mem. rewrite existsb_exists. split.
    - intros (y & Hy & E). apply eqb_spec in E. now subst.
    - intros H. exists x. split; [exact H|]. now apply eqb_spec.
  Qed.
  Lemma insert_perm x l : Permutation (insert_by leb x l) (x :: l).
  Proof.
    induction l as [|y t IH]; [reflexivity|]. cbn. destruct (leb x y); [reflexivity|].
    rewrite IH. apply perm_swap.
  Qed.
  Lemma sort_perm l : Permutation (sort_by leb l) l.
  Proof. induction l as [|y t IH]; [reflexivity|]. cbn. rewrite insert_perm. now constructor. Qed.
  Lemma insert_sorted x l : StronglySorted (fun a b => leb a b = true) l ->
    StronglySorted (fun a b => leb a b = true) (insert_by leb x l).
  Proof.
    induction 1 as [|y t Ht IH Hy]; [repeat constructor|]. cbn. destruct (leb x y) eqn:E.
    - constructor; [now constructor|]. constructor; [exact E|]. revert Hy. apply Forall_impl. intros z. now apply leb_trans.
    - constructor; [exact IH|]. assert (E' : leb y x = true) by (destruct (leb_total x y); congruence).
      apply Forall_forall. intros z Hz. apply (Permutation_in _ (insert_perm x t)) in Hz. destruct Hz as [<-|Hz]; [exact E'|].
      rewrite Forall_forall in Hy. now apply Hy.
  Qed.
  Lemma sort_sorted l : StronglySorted (fun a b => leb a b = true) (sort_by leb l).
  Proof. induction l as [|y t IH]; [constructor|]. now apply insert_sorted. Qed.

  Lemma uniques_snoc l x : uniques eqb (l ++ [x]) =
    match x with
    | Some y => if mem eqb y (uniques eqb l) then uniques eqb l else uniques eqb l ++ [y]
    | None => uniques eqb l
    end.
  Proof. unfold uniques. now rewrite fold_left_app. Qed.
  Lemma uniques_in l y : In y (uniques eqb l) <-> In (Some y) l.
  Proof.
    induction l as [|x l IH] using rev_ind; [reflexivity|]. rewrite uniques_snoc, in_app_iff. cbn [In].
    destruct x as [z|].
    - destruct (mem eqb z (uniques eqb l)) eqn:E.
      + rewrite IH. split; [auto|]. intros [H|[[= ->]|[]]]; [exact H|]. apply IH. now apply mem_spec.
      + rewrite in_app_iff, IH. cbn. split; (intros [H|[H|[]]]; [auto|right; left; congruence]).
    - rewrite IH. split; [auto|]. intros [H|[H|[]]]; [exact H|discriminate].
  Qed.
  Lemma NoDup_snoc {X} (l : list X) x : NoDup l -> ~ In x l -> NoDup (l ++ [x]).
  Proof.
    intros H N. induction H as [|y t Hy Ht IH]; cbn; [repeat constructor; auto|]. constructor.
    - rewrite in_app_iff. intros [?|[->|[]]]; [auto|]. apply N. now left.
    - apply IH. intros ?. apply N. now right.
  Qed.
  Lemma uniques_NoDup l : NoDup (uniques eqb l).
  Proof.
    induction l as [|x l IH] using rev_ind; [constructor|]. rewrite uniques_snoc. destruct x as [z|]; [|exact IH].
    destruct (mem eqb z (uniques eqb l)) eqn:E; [exact IH|]. apply NoDup_snoc; [exact IH|].
    intros H. apply mem_spec in H. congruence.
  Qed.
  Lemma StronglySorted_snoc {X} (R : X -> X -> Prop) l x : StronglySorted R l -> Forall (fun y => R y x) l ->
    StronglySorted R (l ++ [x]).
  Proof.
    induction 1 as [|y t Ht IH Hy]; cbn; intros F; [repeat constructor|]. inversion F; subst. constructor; auto.
    apply Forall_app. split; [exact Hy|]. repeat constructor. assumption.
  Qed.
  Lemma StronglySorted_impl {X} (R S : X -> X -> Prop) l : (forall a b, R a b -> S a b) ->
    StronglySorted R l -> StronglySorted S l.
  Proof. intros H. induction 1; constructor; auto. eapply Forall_impl; [|eassumption]. auto. Qed.
  Lemma uniques_order l : StronglySorted (before l) (uniques eqb l).
  Proof.
    induction l as [|x l IH] using rev_ind; [constructor|].
    assert (IH' : StronglySorted (before (l ++ [x])) (uniques eqb l)).
    { revert IH. apply StronglySorted_impl. intros a b (l1 & l2 & -> & N). exists l1, (l2 ++ [x]).
      split; [now rewrite <- app_assoc|exact N]. }
    rewrite uniques_snoc. destruct x as [z|]; [|exact IH'].
    destruct (mem eqb z (uniques eqb l)) eqn:E; [exact IH'|]. apply StronglySorted_snoc; [exact IH'|].
    apply Forall_forall. intros y Hy. apply uniques_in in Hy. apply in_split in Hy. destruct Hy as (l1 & l2 & El).
    exists l1, (l2 ++ [Some z]). split; [rewrite El, <- app_assoc; reflexivity|].
    intros Hin. assert (X : In z (uniques eqb l)); [|apply mem_spec in X; congruence].
    apply uniques_in. rewrite El. apply in_or_app. now left.
  Qed.

  Lemma position_in y l : In y l -> position eqb y l < List.length l /\ nth_error l (position eqb y l) = Some y.
  Proof.
    induction l as [|a t IH]; [intros []|]. intros H. cbn. destruct (eqb y a) eqn:E.
    - apply eqb_spec in E. subst. split; [lia|reflexivity].
    - destruct H as [->|H]; [rewrite (proj2 (eqb_spec y y) eq_refl) in E; discriminate|].
      destruct (IH H). split; [lia|assumption].
  Qed.
  Lemma position_nth l : NoDup l -> forall k y, nth_error l k = Some y -> position eqb y l = k.
  Proof.
    intros N k y H. assert (Hin : In y l) by (eapply nth_error_In; eauto).
    destruct (position_in y l Hin) as [H1 H2]. rewrite NoDup_nth_error in N. apply N; [exact H1|congruence].
  Qed.

  Definition norm (by_ : list (option T)) := map (normalize_label skip) by_.
  Definition groups_of (sort : bool) (by_ : list (option T)) :=
    if sort then sort_by leb (uniques eqb (norm by_)) else uniques eqb (norm by_).

  Lemma factor_by_eq sort by_ : factor_by eqb leb skip sort by_ =
    (groups_of sort by_, map (code_of eqb (groups_of sort by_)) (norm by_)).
  Proof. reflexivity. Qed.
  Lemma groups_perm sort by_ : Permutation (groups_of sort by_) (uniques eqb (norm by_)).
  Proof. unfold groups_of. destruct sort; [apply sort_perm|reflexivity]. Qed.
  Lemma groups_NoDup sort by_ : NoDup (groups_of sort by_).
  Proof. eapply Permutation_NoDup; [symmetry; apply groups_perm|apply uniques_NoDup]. Qed.
  Lemma groups_in sort by_ y : In y (groups_of sort by_) <-> In (Some y) (norm by_).
  Proof.
    rewrite <- uniques_in. split; apply Permutation_in; [|symmetry]; apply groups_perm.
  Qed.
  Lemma code_some groups y : In y groups -> exists k, code_of eqb groups (Some y) = Z.of_nat k /\ k < List.length groups /\
    nth_error groups k = Some y.
  Proof. intros H. destruct (position_in y groups H). exists (position eqb y groups). auto. Qed.

  (* codes are -1 or the number of a group, and every group is used *)
  Definition good_codes (k : nat) (codes : list Z) : Prop :=
    Forall (fun c => (-1 <= c < Z.of_nat k)%Z) codes /\ forall g, g < k -> In (Z.of_nat g) codes.
  Lemma factor_by_codes sort by_ : good_codes (List.length (groups_of sort by_)) (map (code_of eqb (groups_of sort by_)) (norm by_)).
  Proof.
    split.
    - apply Forall_map, Forall_forall. intros [y|] H; [|cbn; lia].
      destruct (code_some (groups_of sort by_) y) as (k & -> & Hk & _); [now apply groups_in|lia].
    - intros g Hg. destruct (nth_error (groups_of sort by_) g) as [y|] eqn:E.
      + apply in_map_iff. exists (Some y). split.
        * cbn. f_equal. now apply position_nth; [apply groups_NoDup|].
        * apply (groups_in sort). eapply nth_error_In; eauto.
      + apply nth_error_None in E. lia.
  Qed.
End Labels.

(* ---- runs of a sorted list ------------------------------------------------------------ *)

Definition nlt (g : Z) (s : list Z) : nat := List.length (filter (fun z => (z <? g)%Z) s).

Lemma nlt_cons g x s : nlt g (x :: s) = (if (x <? g)%Z then 1 else 0) + nlt g s.
Proof. unfold nlt. cbn. destruct (x <? g)%Z; reflexivity. Qed.

Lemma runs_eq s : StronglySorted Z.le s -> forall pos a m,
  Forall (fun z => (Z.of_nat a <= z < Z.of_nat (a + m))%Z) s -> (forall g, a <= g < a + m -> In (Z.of_nat g) s) ->
  runs pos s = map (fun g => (Z.of_nat g, (pos + Z.of_nat (nlt (Z.of_nat g) s))%Z, Z.of_nat (occ s (Z.of_nat g)))) (seq a m).
Proof.
  induction 1 as [|x t Ht IH Hx]; intros pos a m F U.
  - destruct m as [|m]; [reflexivity|]. exfalso. destruct (U a); lia.
  - destruct m as [|m]; [inversion F; lia|].
    assert (Ex : x = Z.of_nat a).
    { inversion F as [|? ? Fx Ft]; subst. destruct (U a ltac:(lia)) as [E|E]; [exact E|].
      rewrite Forall_forall in Hx. specialize (Hx _ E). lia. }
    inversion F as [|? ? _ Ft]; subst. cbn [runs].
    assert (Nxt : forall g, a < g -> (pos + 1 + Z.of_nat (nlt (Z.of_nat g) t) = pos + Z.of_nat (nlt (Z.of_nat g) (Z.of_nat a :: t)))%Z).
    { intros g Hg. rewrite nlt_cons. destruct (Z.ltb_spec (Z.of_nat a) (Z.of_nat g)); lia. }
    assert (Occ : forall g, a < g -> occ (Z.of_nat a :: t) (Z.of_nat g) = occ t (Z.of_nat g)).
    { intros g Hg. cbn. destruct (Z.eq_dec (Z.of_nat a) (Z.of_nat g)); [lia|reflexivity]. }
    assert (Low : nlt (Z.of_nat a) t = 0).
    { unfold nlt. replace (filter _ t) with (@nil Z); [reflexivity|]. symmetry.
      clear - Ft. induction Ft as [|z l Hz _ IH]; [reflexivity|]. cbn.
      destruct (Z.ltb_spec z (Z.of_nat a)); [lia|exact IH]. }
    assert (H0 : nlt (Z.of_nat a) (Z.of_nat a :: t) = 0).
    { rewrite nlt_cons, Low. destruct (Z.ltb_spec (Z.of_nat a) (Z.of_nat a)); lia. }
    assert (H1 : occ (Z.of_nat a :: t) (Z.of_nat a) = S (occ t (Z.of_nat a))).
    { cbn. destruct (Z.eq_dec (Z.of_nat a) (Z.of_nat a)); [reflexivity|congruence]. }
    cbn [seq map]. rewrite H0, H1. cbn [Z.of_nat]. rewrite Z.add_0_r.
    assert (Tail : map (fun g => (Z.of_nat g, (pos + 1 + Z.of_nat (nlt (Z.of_nat g) t))%Z, Z.of_nat (occ t (Z.of_nat g)))) (seq (S a) m)
           = map (fun g => (Z.of_nat g, (pos + Z.of_nat (nlt (Z.of_nat g) (Z.of_nat a :: t)))%Z, Z.of_nat (occ (Z.of_nat a :: t) (Z.of_nat g)))) (seq (S a) m)).
    { apply map_ext_in. intros g Hg. apply in_seq in Hg. rewrite Nxt, Occ by lia. reflexivity. }
    destruct (in_dec Z.eq_dec (Z.of_nat a) t) as [Hin|Hn].
    + rewrite (IH (pos + 1)%Z a (S m)); [|exact Ft|].
      * cbn [seq map]. rewrite Z.eqb_refl, Tail. f_equal. f_equal. lia.
      * intros g Hg. destruct (Nat.eq_dec g a) as [->|]; [exact Hin|]. destruct (U g Hg); [lia|assumption].
    + rewrite (IH (pos + 1)%Z (S a) m).
      * rewrite (proj1 (count_occ_not_In Z.eq_dec t (Z.of_nat a)) Hn). destruct m as [|m]; [reflexivity|].
        cbn [seq map]. cbn [seq map] in Tail. destruct (Z.eqb_spec (Z.of_nat a) (Z.of_nat (S a))); [lia|].
        rewrite <- Tail. reflexivity.
      * apply Forall_forall. intros z Hz. rewrite Forall_forall in Ft. specialize (Ft z Hz).
        assert (z <> Z.of_nat a) by congruence. lia.
      * intros g Hg. destruct (U g ltac:(lia)); [lia|assumption].
Qed.

(* a list sorted by key splits into smaller, equal and larger keys *)
Lemma sorted_split {X} (key : X -> Z) g l : StronglySorted Z.le (map key l) ->
  l = filter (fun x => (key x <? g)%Z) l ++ filter (fun x => (key x =? g)%Z) l ++ filter (fun x => (g <? key x)%Z) l.
Proof.
  induction l as [|x t IH]; intros H; [reflexivity|]. cbn [map] in H. inversion H as [|? ? Ht Hx]; subst.
  specialize (IH Ht). rewrite Forall_map, Forall_forall in Hx. cbn [filter].
  destruct (Z.ltb_spec (key x) g); [|destruct (Z.eqb_spec (key x) g) as [E|N]].
  - destruct (Z.eqb_spec (key x) g); [lia|]. destruct (Z.ltb_spec g (key x)); [lia|]. cbn. now rewrite <- IH.
  - destruct (Z.ltb_spec g (key x)); [lia|].
    assert (E1 : filter (fun x => (key x <? g)%Z) t = []).
    { clear - Hx E. induction t as [|y t IH]; [reflexivity|]. cbn. pose proof (Hx y (or_introl eq_refl)).
      destruct (Z.ltb_spec (key y) g); [lia|]. apply IH. intros; apply Hx; now right. }
    rewrite E1 in IH |- *. cbn [app] in *. now rewrite <- IH.
  - destruct (Z.ltb_spec g (key x)); [|lia].
    assert (E1 : filter (fun x => (key x <? g)%Z) t = []).
    { clear - Hx N H1. induction t as [|y t IH]; [reflexivity|]. cbn. pose proof (Hx y (or_introl eq_refl)).
      destruct (Z.ltb_spec (key y) g); [lia|]. apply IH. intros; apply Hx; now right. }
    assert (E2 : filter (fun x => (key x =? g)%Z) t = []).
    { clear - Hx N H1. induction t as [|y t IH]; [reflexivity|]. cbn. pose proof (Hx y (or_introl eq_refl)).
      destruct (Z.eqb_spec (key y) g); [lia|]. apply IH. intros; apply Hx; now right. }
    rewrite E1, E2 in IH |- *. cbn [app] in *. now rewrite <- IH.
Qed.
Lemma filter_map {X Y} (h : X -> Y) (p : Y -> bool) l : filter p (map h l) = map h (filter (fun x => p (h x)) l).
Proof. induction l as [|a t IH]; [reflexivity|]. cbn. destruct (p (h a)); cbn; now rewrite IH. Qed.
Lemma occ_filter s g : occ s g = List.length (filter (fun z => (z =? g)%Z) s).
Proof. induction s as [|a t IH]; [reflexivity|]. cbn. destruct (Z.eq_dec a g), (Z.eqb_spec a g); try congruence; cbn; congruence. Qed.

Lemma sorted_slice {X} (key : X -> Z) g l : StronglySorted Z.le (map key l) ->
  slice (nlt g (map key l)) (nlt g (map key l) + occ (map key l) g) l = filter (fun x => (key x =? g)%Z) l.
Proof.
  intros H. pose proof (sorted_split key g l H) as E.
  assert (L1 : nlt g (map key l) = List.length (filter (fun x => (key x <? g)%Z) l)).
  { unfold nlt. now rewrite (filter_map key (fun z => (z <? g)%Z)), map_length. }
  assert (L2 : occ (map key l) g = List.length (filter (fun x => (key x =? g)%Z) l)).
  { rewrite occ_filter, (filter_map key (fun z => (z =? g)%Z)), map_length. reflexivity. }
  rewrite L1, L2. etransitivity; [|apply slice_app]. rewrite <- E. reflexivity.
Qed.
Lemma nlt_step g s : nlt (g + 1) s = nlt g s + occ s g.
Proof.
  induction s as [|a t IH]; [reflexivity|]. rewrite !nlt_cons, IH. cbn [count_occ].
  destruct (Z.eq_dec a g), (Z.ltb_spec a (g + 1)), (Z.ltb_spec a g); lia.
Qed.

(* ---- factor_by_to_index ------------------------------------------------------------------ *)

Lemma sorted_lt_perm l1 : forall l2, StronglySorted lt l1 -> StronglySorted lt l2 -> Permutation l1 l2 -> l1 = l2.
Proof.
  induction l1 as [|a t IH]; intros l2 H1 H2 P; [now apply Permutation_nil in P|].
  destruct l2 as [|b u]; [symmetry in P; now apply Permutation_nil in P|].
  inversion H1 as [|? ? H1t H1a]; subst. inversion H2 as [|? ? H2t H2b]; subst.
  rewrite Forall_forall in H1a, H2b.
  assert (a = b); [|subst; f_equal; apply IH; auto; now apply Permutation_cons_inv in P].
  assert (Ha : In a (b :: u)) by (eapply Permutation_in; [exact P|now left]).
  assert (Hb : In b (a :: t)) by (eapply Permutation_in; [symmetry; exact P|now left]).
  destruct Ha as [->|Ha]; [reflexivity|]. destruct Hb as [->|Hb]; [reflexivity|].
  specialize (H1a _ Hb). specialize (H2b _ Ha). lia.
Qed.
Lemma seq_sorted a n : StronglySorted lt (seq a n).
Proof.
  revert a. induction n as [|n IH]; intros a; [constructor|]. cbn. constructor; [apply IH|].
  apply Forall_forall. intros i Hi. apply in_seq in Hi. lia.
Qed.
Lemma filter_sorted {X} (R : X -> X -> Prop) p l : StronglySorted R l -> StronglySorted R (filter p l).
Proof.
  induction 1 as [|a t Ht IH Ha]; [constructor|]. cbn. destruct (p a); [|exact IH]. constructor; [exact IH|].
  apply Forall_forall. intros x Hx. apply filter_In in Hx. rewrite Forall_forall in Ha. now apply Ha.
Qed.
Lemma Permutation_filter {X} (p : X -> bool) l1 l2 : Permutation l1 l2 -> Permutation (filter p l1) (filter p l2).
Proof.
  induction 1 as [|x a b _ IH|x y a|a b c _ IH1 _ IH2]; cbn; [constructor| | |].
  - destruct (p x); [now constructor|exact IH].
  - destruct (p x), (p y); try reflexivity. apply perm_swap.
  - now rewrite IH1.
Qed.

Section ToIndex.
  Context (argsort : list Z -> list nat) (Hs : sorts argsort).
  Variables (k : nat) (codes : list Z).
  Hypothesis HG : good_codes k codes.

  Definition kept := filter (fun i => (0 <=? nth i codes (-1))%Z) (seq 0 (List.length codes)).
  Definition keepb := map (fun c => (0 <=? c)%Z) codes.
  Definition codes' := if forallb (fun b => b) keepb then codes else filter (fun c => (0 <=? c)%Z) codes.
  Definition back (i : nat) : Z := if forallb (fun b => b) keepb then Z.of_nat i else nth i (where_ keepb) 0%Z.

  Lemma keepb_nth i : nth i keepb false = (0 <=? nth i codes (-1))%Z.
  Proof. unfold keepb. change false with ((fun c => (0 <=? c)%Z) (-1)%Z). apply map_nth. Qed.
  Lemma where_kept : where_ keepb = map Z.of_nat kept.
  Proof.
    unfold where_, kept, keepb. rewrite map_length. f_equal. apply filter_ext. intros i. apply keepb_nth.
  Qed.
  Lemma filter_codes c : filter (fun c => (0 <=? c)%Z) c =
    map (fun i => nth i c (-1)%Z) (filter (fun i => (0 <=? nth i c (-1))%Z) (seq 0 (List.length c))).
  Proof.
    rewrite <- (filter_map (fun i => nth i c (-1)%Z) (fun c => (0 <=? c)%Z)). f_equal.
    apply (list_eq_nth _ _ (-1)%Z); [now rewrite map_length, seq_length|]. intros i Hi.
    rewrite (nth_indep (map _ _) (-1)%Z (nth 0 c (-1)%Z)) by now rewrite map_length, seq_length.
    rewrite (map_nth (fun i => nth i c (-1)%Z)), seq_nth by exact Hi. reflexivity.
  Qed.
  Lemma all_kept : forallb (fun b => b) keepb = true -> kept = seq 0 (List.length codes).
  Proof.
    intros H. rewrite forallb_forall in H. unfold kept. apply filter_all, Forall_forall. intros i Hi.
    apply in_seq in Hi. rewrite <- keepb_nth. apply H. apply nth_In. unfold keepb. rewrite map_length. lia.
  Qed.
  Lemma codes'_eq : codes' = map (fun i => nth i codes (-1)%Z) kept.
  Proof.
    unfold codes'. destruct (forallb (fun b => b) keepb) eqn:E; [|apply filter_codes].
    rewrite (all_kept E). apply (list_eq_nth _ _ (-1)%Z); [now rewrite map_length, seq_length|]. intros i Hi.
    rewrite (nth_indep (map _ _) (-1)%Z (nth 0 codes (-1)%Z)) by now rewrite map_length, seq_length.
    rewrite (map_nth (fun i => nth i codes (-1)%Z)), seq_nth by exact Hi. reflexivity.
  Qed.
  Lemma codes'_length : List.length codes' = List.length kept.
  Proof. now rewrite codes'_eq, map_length. Qed.
  Lemma codes'_nth i : i < List.length kept -> nth i codes' 0%Z = nth (nth i kept 0) codes (-1)%Z.
  Proof.
    intros H. rewrite codes'_eq. rewrite (nth_indep _ 0%Z (nth 0 codes (-1)%Z)) by now rewrite map_length.
    apply (map_nth (fun i => nth i codes (-1)%Z)).
  Qed.
  Lemma back_eq i : i < List.length kept -> back i = Z.of_nat (nth i kept 0).
  Proof.
    intros H. unfold back. destruct (forallb (fun b => b) keepb) eqn:E.
    - f_equal. rewrite (all_kept E) in *. rewrite seq_length in H. now rewrite seq_nth.
    - rewrite where_kept. rewrite (nth_indep _ 0%Z (Z.of_nat 0)) by now rewrite map_length. apply map_nth.
  Qed.

  Definition perm := argsort codes'.
  Definition sortedc := map (fun i => nth i codes' 0%Z) perm.
  Lemma perm_range i : In i perm -> i < List.length kept.
  Proof.
    intros H. destruct (Hs codes') as [P _]. apply (Permutation_in _ P) in H. apply in_seq in H. rewrite codes'_length in H. lia.
  Qed.
  Lemma sortedc_perm : Permutation sortedc codes'.
  Proof.
    destruct (Hs codes') as [P _]. unfold sortedc, perm. rewrite P.
    replace (map (fun i => nth i codes' 0%Z) (seq 0 (List.length codes'))) with codes'; [reflexivity|].
    apply (list_eq_nth _ _ 0%Z); [now rewrite map_length, seq_length|]. intros i Hi.
    rewrite (nth_indep (map _ _) 0%Z (nth 0 codes' 0%Z)) by now rewrite map_length, seq_length.
    rewrite (map_nth (fun i => nth i codes' 0%Z)), seq_nth by exact Hi. reflexivity.
  Qed.
  Lemma codes'_in z : In z codes' <-> In z codes /\ (0 <= z)%Z.
  Proof.
    unfold codes'. destruct (forallb (fun b => b) keepb) eqn:E.
    - split; [|tauto]. intros H. split; [exact H|]. rewrite forallb_forall in E.
      specialize (E (0 <=? z)%Z). apply Z.leb_le, E. unfold keepb. apply in_map_iff. eauto.
    - rewrite filter_In. now rewrite Z.leb_le.
  Qed.
  Lemma runs_sortedc : runs 0 sortedc = map (fun g => (Z.of_nat g, Z.of_nat (nlt (Z.of_nat g) sortedc), Z.of_nat (occ sortedc (Z.of_nat g)))) (seq 0 k).
  Proof.
    destruct HG as [G1 G2]. destruct (Hs codes') as [_ S].
    rewrite (runs_eq sortedc S 0%Z 0 k).
    - reflexivity.
    - apply Forall_forall. intros z Hz. apply (Permutation_in _ sortedc_perm), codes'_in in Hz.
      rewrite Forall_forall in G1. destruct Hz as [Hz H0]. specialize (G1 z Hz). cbn. lia.
    - intros g Hg. apply (Permutation_in _ (Permutation_sym sortedc_perm)), codes'_in. split; [apply G2; lia|lia].
  Qed.
  Definition startg (g : nat) := nlt (Z.of_nat g) sortedc.
  Lemma startg_0 : startg 0 = 0.
  Proof.
    unfold startg, nlt. replace (filter _ sortedc) with (@nil Z); [reflexivity|]. symmetry.
    assert (F : Forall (fun z => (0 <= z)%Z) sortedc).
    { apply Forall_forall. intros z Hz. now apply (Permutation_in _ sortedc_perm), codes'_in in Hz. }
    induction F as [|z t Hz _ IH]; [reflexivity|]. cbn. destruct (Z.ltb_spec z 0); [lia|exact IH].
  Qed.
  Lemma startg_S g : startg (S g) = startg g + occ sortedc (Z.of_nat g).
  Proof. unfold startg. rewrite <- nlt_step. f_equal. lia. Qed.
  Lemma startg_k : startg k = List.length perm.
  Proof.
    unfold startg, nlt. rewrite filter_all; [unfold sortedc; apply map_length|].
    apply Forall_forall. intros z Hz. apply (Permutation_in _ sortedc_perm), codes'_in in Hz. destruct HG as [G1 _].
    rewrite Forall_forall in G1. apply Z.ltb_lt. destruct Hz as [Hz _]. specialize (G1 z Hz). lia.
  Qed.
  Definition slot (g : nat) : list Z := slice (startg g) (startg (S g)) (map back perm).

  Lemma slot_eq g : slot g = map Z.of_nat (filter (fun j => (nth j codes (-1) =? Z.of_nat g)%Z) (map (fun i => nth i kept 0) perm)).
  Proof.
    unfold slot. rewrite startg_S, slice_map. unfold startg, sortedc.
    rewrite (sorted_slice (fun i => nth i codes' 0%Z)) by apply Hs.
    rewrite (filter_map (fun i => nth i kept 0)), map_map.
    rewrite (filter_ext_in (fun i => (nth i codes' 0 =? Z.of_nat g)%Z) (fun i => (nth (nth i kept 0%nat) codes (-1) =? Z.of_nat g)%Z)).
    - apply map_ext_in. intros i Hi. apply filter_In in Hi. apply back_eq, perm_range, Hi.
    - intros i Hi. now rewrite codes'_nth by now apply perm_range.
  Qed.
  Lemma kept_perm : Permutation (map (fun i => nth i kept 0) perm) kept.
  Proof.
    destruct (Hs codes') as [P _]. unfold perm. rewrite P, codes'_length.
    replace (map (fun i => nth i kept 0) (seq 0 (List.length kept))) with kept; [reflexivity|].
    apply (list_eq_nth _ _ 0); [now rewrite map_length, seq_length|]. intros i Hi.
    rewrite (nth_indep (map _ _) 0 (nth 0 kept 0)) by now rewrite map_length, seq_length.
    rewrite (map_nth (fun i => nth i kept 0)), seq_nth by exact Hi. reflexivity.
  Qed.
  Lemma kept_filter g : filter (fun j => (nth j codes (-1) =? Z.of_nat g)%Z) kept = at_code codes g.
  Proof.
    unfold kept, at_code. generalize (seq 0 (List.length codes)). intros l. induction l as [|i t IH]; [reflexivity|]. cbn.
    destruct (Z.leb_spec 0 (nth i codes (-1)%Z)); cbn.
    - destruct (_ =? _)%Z; now rewrite IH.
    - destruct (Z.eqb_spec (nth i codes (-1)%Z) (Z.of_nat g)); [lia|exact IH].
  Qed.
  Lemma slot_perm g : Permutation (slot g) (map Z.of_nat (at_code codes g)).
  Proof. rewrite slot_eq. apply Permutation_map. rewrite <- kept_filter. apply Permutation_filter, kept_perm. Qed.
  Lemma kept_sorted : StronglySorted lt kept.
  Proof. apply filter_sorted, seq_sorted. Qed.
  Lemma nth_lt_mono l : StronglySorted lt l -> forall i j, i < j -> j < List.length l -> nth i l 0 < nth j l 0.
  Proof.
    induction 1 as [|a t Ht IH Ha]; intros i j Hij Hj; [cbn in Hj; lia|]. rewrite Forall_forall in Ha.
    destruct j as [|j]; [lia|]. cbn in Hj. destruct i as [|i]; cbn; [apply Ha, nth_In; lia|]. apply IH; lia.
  Qed.
  Lemma slot_stable g : stable argsort -> slot g = map Z.of_nat (at_code codes g).
  Proof.
    intros St. rewrite slot_eq. f_equal. apply sorted_lt_perm.
    - rewrite (filter_map (fun i => nth i kept 0)).
      rewrite (filter_ext_in _ (fun i => (nth i codes' 0 =? Z.of_nat g)%Z)).
      2:{ intros i Hi. now rewrite codes'_nth by now apply perm_range. }
      pose proof (St codes' (Z.of_nat g)) as S. fold perm in S.
      assert (R : Forall (fun i => i < List.length kept) (filter (fun i => (nth i codes' 0 =? Z.of_nat g)%Z) perm)).
      { apply Forall_forall. intros i Hi. apply filter_In in Hi. apply perm_range, Hi. }
      induction S as [|a t Ht IH Ha]; [constructor|]. inversion R; subst. cbn. constructor; [now apply IH|].
      apply Forall_map, Forall_forall. intros j Hj. rewrite Forall_forall in Ha. apply nth_lt_mono; [apply kept_sorted| |].
      + now apply Ha.
      + assert (RR : Forall (fun i => i < List.length kept) t) by assumption. rewrite Forall_forall in RR. now apply RR.
    - unfold at_code. apply filter_sorted, seq_sorted.
    - rewrite <- kept_filter. apply Permutation_filter, kept_perm.
  Qed.
End ToIndex.

Section FactorIndex.
  Context {T : Type} (eqb leb : T -> T -> bool) (skip : T -> bool).
  Hypothesis eqb_spec : forall x y, eqb x y = true <-> x = y.
  Context (argsort : list Z -> list nat) (Hs : sorts argsort).

  Lemma factor_by_to_index_eq by_ :
    let groups := fst (factor_by eqb leb skip true by_) in
    let codes := snd (factor_by eqb leb skip true by_) in
    let k := List.length groups in
    good_codes k codes ->
    factor_by_to_index eqb leb skip argsort by_ =
    ((groups, map (back codes) (perm argsort codes)),
     (map (fun g => Z.of_nat (startg argsort codes g)) (seq 0 k), map (fun g => Z.of_nat (startg argsort codes (S g))) (seq 0 k))).
  Proof.
    cbv zeta. intros HG. unfold factor_by_to_index.
    destruct (factor_by eqb leb skip true by_) as [groups codes] eqn:E. cbn [fst snd] in *.
    fold (keepb codes).
    assert (Ec : match (if forallb (fun b => b) (keepb codes) then None else Some (where_ (keepb codes))) with
                 | None => codes | Some _ => filter (fun c => (0 <=? c)%Z) codes end = codes' codes).
    { unfold codes'. destruct (forallb (fun b => b) (keepb codes)); reflexivity. }
    rewrite Ec. fold (perm argsort codes). fold (sortedc argsort codes).
    rewrite (runs_sortedc argsort Hs (List.length groups) codes HG), !map_map. cbn [fst snd].
    f_equal; [f_equal|f_equal].
    - unfold back. destruct (forallb (fun b => b) (keepb codes)); reflexivity.
    - apply map_ext. intros g. rewrite startg_S. unfold startg. lia.
  Qed.
End FactorIndex.

(* ---- blocks ------------------------------------------------------------------------------- *)

Lemma blocks_eq b q : 0 < b -> flat_map (fun i => repeat (Z.of_nat i) b) (seq 0 q)
  = map (fun p => Z.of_nat (p / b)) (seq 0 (q * b)).
Proof.
  intros Hb. induction q as [|q IH]; [reflexivity|].
  rewrite seq_S, flat_map_app, IH. cbn [Nat.add flat_map]. rewrite app_nil_r.
  replace (S q * b) with (q * b + b) by lia. rewrite seq_app, map_app. f_equal. cbn [Nat.add].
  assert (G : forall r, r <= b -> map (fun p => Z.of_nat (p / b)) (seq (q * b + (b - r)) r) = repeat (Z.of_nat q) r).
  { induction r as [|r IHr]; intros Hr; [reflexivity|]. cbn [seq map repeat]. f_equal.
    - f_equal. rewrite Nat.add_comm, Nat.div_add, Nat.div_small by lia. reflexivity.
    - rewrite <- IHr by lia. f_equal. f_equal. lia. }
  rewrite <- (G b) by lia. now rewrite Nat.sub_diag, Nat.add_0_r.
Qed.

(* ---- concrete argsorts ------------------------------------------------------------------------ *)

Definition key_le (c : list Z) (i j : nat) : bool := (nth i c 0 <=? nth j c 0)%Z.
Definition argsort_of (order : nat -> list nat) (c : list Z) : list nat := sort_by (key_le c) (order (List.length c)).

Lemma argsort_of_sorts order : (forall n, Permutation (order n) (seq 0 n)) -> sorts (argsort_of order).
Proof.
  intros H c. unfold argsort_of. split.
  - rewrite sort_perm. apply H.
  - assert (S : StronglySorted (fun a b => key_le c a b = true) (sort_by (key_le c) (order (List.length c)))).
    { apply sort_sorted.
      - intros x y. unfold key_le. rewrite !Z.leb_le. lia.
      - intros x y z. unfold key_le. rewrite !Z.leb_le. lia. }
    induction S as [|a t Ht IH Ha]; [constructor|]. cbn. constructor; [exact IH|].
    apply Forall_map. revert Ha. apply Forall_impl. intros b. unfold key_le. now rewrite Z.leb_le.
Qed.
Lemma insert_filter c g x l :
  filter (fun i => (nth i c 0 =? g)%Z) (insert_by (key_le c) x l) = filter (fun i => (nth i c 0 =? g)%Z) (x :: l).
Proof.
  induction l as [|y t IH]; [reflexivity|]. cbn [insert_by]. unfold key_le. destruct (Z.leb_spec (nth x c 0%Z) (nth y c 0%Z)); [reflexivity|].
  cbn [filter]. fold (key_le c). rewrite IH. cbn [filter].
  destruct (Z.eqb_spec (nth x c 0%Z) g), (Z.eqb_spec (nth y c 0%Z) g); try reflexivity. lia.
Qed.
Lemma sort_filter c g l : filter (fun i => (nth i c 0 =? g)%Z) (sort_by (key_le c) l) = filter (fun i => (nth i c 0 =? g)%Z) l.
Proof.
  induction l as [|x t IH]; [reflexivity|]. cbn [sort_by fold_right]. fold (sort_by (key_le c) t).
  rewrite insert_filter. cbn [filter]. now rewrite IH.
Qed.
Definition argsort_stable := argsort_of (seq 0).
Definition argsort_reversing := argsort_of (fun n => rev (seq 0 n)).
Lemma argsort_stable_ok : sorts argsort_stable /\ stable argsort_stable.
Proof.
  split; [apply argsort_of_sorts; reflexivity|]. intros c g. unfold argsort_stable, argsort_of. rewrite sort_filter.
  apply filter_sorted, seq_sorted.
Qed.
Lemma argsort_reversing_ok : sorts argsort_reversing.
Proof. apply argsort_of_sorts. intros n. symmetry. apply Permutation_rev. Qed.
