(* Sums and multiples of objects that hold a Dataset (C195). *)
From Coq Require Import String Permutation.
From Verif Require Import Base BaseLemmas ModelPush ModelKernels ModelIndex ModelAccum ModelAxes ModelState ModelParams ModelNd ModelWrap ModelLabel ModelMoments ModelMethods ModelMethodsX ModelMomentsX ModelDataset ModelMethodsS ModelMomentsS
  Spec SpecAxes SpecNd PropLabelled SpecLabel SpecMethods SpecMethodsX SpecMoments SpecMomentsX Laws ProofKernels ProofSpec
  ProofAxes ProofArrays ProofMulti ProofNd ProofNdVals PropReduce PropNd PropNdVals PropNdUse PropWrap ProofMethods PropMethods PropMethodsArith PropParams ProofLabel ProofLabelMany PropLabelJack ProofMethodsX PropMethodsX PropMethodsXMore ProofMomentsX PropMomentsX PropStatsX PropStatsS SpecDataset SpecMethodsS ProofDataset PropDataset PropMethodsS PropMethodsSMore PropArithX.
Local Open Scope string_scope.
Local Open Scope nat_scope.

(* the same variables with the same values at named positions; both raise, or neither *)
Definition same_sets (c c' : csdata) : Prop := Forall2 (fun v w => fst v = fst w /\ x_same (snd v) (snd w)) (cs_obj c) (cs_obj c').
Definition sets_agree (r r' : res csdata) : Prop :=
  match r, r' with Ok c, Ok c' => same_sets c c' | Raise _, Raise _ => True | _, _ => False end.

(* ---- Datasets with the same names, dimensions and sizes -------------------------------------------- *)

Definition like (v w : sname * xarr) : Prop :=
  fst w = fst v /\ x_ok (snd w) /\ (forall n, In n (x_dims (snd w)) <-> In n (x_dims (snd v))) /\ forall n, In n (x_dims (snd v)) -> dim_size (snd w) n = dim_size (snd v) n.
Definition similar (c c' : csdata) : Prop := cs_params c' = cs_params c /\ Forall2 like (cs_obj c) (cs_obj c').

Lemma in_right {X Y} (Q : X -> Y -> Prop) s t w : Forall2 Q s t -> In w t -> exists v, In v s /\ Q v w.
Proof. intros F. induction F as [|v u s t H F IH]; [intros []|]. intros [<-|I]; [exists v; split; [now left|exact H]|]. destruct (IH I) as (x & ? & ?). exists x. split; [now right|assumption]. Qed.
Lemma in_left {X Y} (Q : X -> Y -> Prop) s t v : Forall2 Q s t -> In v s -> exists w, In w t /\ Q v w.
Proof. intros F. induction F as [|u w s t H F IH]; [intros []|]. intros [<-|I]; [exists w; split; [now left|exact H]|]. destruct (IH I) as (x & ? & ?). exists x. split; [now right|assumption]. Qed.
Lemma both_in {X Y} (Q1 Q2 Q : X -> Y -> Prop) s t : Forall2 Q1 s t -> Forall2 Q2 s t -> (forall v w, In w t -> Q1 v w -> Q2 v w -> Q v w) -> Forall2 Q s t.
Proof.
  intros F. induction F as [|v w s t H F IH]; intros F2 G; inversion F2 as [|? ? ? ? H2 F2']; subst; constructor; [apply G; [now left|exact H|exact H2]|apply IH; [exact F2'|intros x y Iy; apply G; now right]].
Qed.
Lemma like_refl v : x_ok (snd v) -> like v v.
Proof. intros H. split; [reflexivity|]. split; [exact H|]. split; [tauto|reflexivity]. Qed.
Lemma like_names md v w : like v w -> has_names md (snd w) = has_names md (snd v).
Proof.
  intros (_ & _ & D & _). apply Bool.eq_true_iff_eq. rewrite !has_names_In. split; intros H n Hn; apply D; now apply H.
Qed.
Lemma like_sizes v w v' w' : like v w -> like v' w' -> sizes_agree (snd v) (snd v') -> sizes_agree (snd w) (snd w').
Proof. intros (_ & _ & D & S) (_ & _ & D' & S') H n Hn Hn'. apply D in Hn. apply D' in Hn'. rewrite S, S' by assumption. now apply H. Qed.
Lemma like_fst s t : Forall2 like s t -> map fst t = map fst s.
Proof. intros F. induction F as [|v w s t H F IH]; [reflexivity|]. cbn [map]. rewrite IH. f_equal. apply H. Qed.
Lemma similar_ok s t : set_ok s -> Forall2 like s t -> set_ok t.
Proof.
  intros (N & _ & S) F. split; [rewrite (like_fst s t F); exact N|]. split.
  - intros w Iw. destruct (in_right _ _ _ w F Iw) as (v & _ & L). apply L.
  - intros w w' Iw Iw'. destruct (in_right _ _ _ w F Iw) as (v & Iv & L), (in_right _ _ _ w' F Iw') as (v' & Iv' & L'). apply (like_sizes v w v' w' L L'). now apply S.
Qed.
Lemma similar_holds c c' md : sholds c md -> similar c c' -> sholds c' md.
Proof.
  intros (Hs & Hm & Ep & (v0 & I0 & M0) & Two) (E & F). split; [now apply (similar_ok (cs_obj c))|]. split; [exact Hm|]. split; [congruence|]. split.
  - destruct (in_left _ _ _ v0 F I0) as (w & Iw & L). exists w. split; [exact Iw|]. now rewrite (like_names md v0 w L).
  - intros w n Iw M Hn. destruct (in_right _ _ _ w F Iw) as (v & Iv & L). rewrite (like_names md v w L) in M. pose proof L as (_ & _ & _ & S). rewrite S by (now apply (proj1 (has_names_In md (snd v)) M)). now apply (Two v n).
Qed.
Lemma similar_get (Q : sname * xarr -> sname * xarr -> Prop) s t n : (forall v w, Q v w -> fst w = fst v) -> Forall2 Q s t ->
  match get_var n s, get_var n t with Some x, Some y => Q (n, x) (n, y) | None, None => True | _, _ => False end.
Proof.
  intros HQ F. unfold get_var. induction F as [|[m x] [m' y] s t H F IH]; [exact I|]. pose proof (HQ _ _ H) as E. cbn [fst] in E. subst m'. cbn [find fst]. destruct (String.eqb_spec m n) as [->|_]; [exact H|exact IH].
Qed.
Lemma similar_part c c' md n : similar c c' -> part_has md n (DSet (cs_obj c')) = part_has md n (DSet (cs_obj c)).
Proof.
  intros (_ & F). pose proof (similar_get like _ _ n (fun v w H => proj1 H) F) as G. unfold part_has. cbn [its_part]. destruct (get_var n (cs_obj c)), (get_var n (cs_obj c')); try destruct G; try reflexivity.
  apply (like_names md (n, x) (n, x0)). split; [assumption|assumption].
Qed.
Lemma similar_pair c o c' o' md : set_pair c o md -> similar c c' -> similar o o' -> set_pair c' o' md.
Proof.
  intros (Hc & Ho & (_ & Nf & Sf) & v & Iv & M & Mo) Sc So. pose proof Sc as (_ & Fc). pose proof So as (_ & Fo). split; [now apply (similar_holds c)|]. split; [now apply (similar_holds o)|]. split.
  - split; [apply (similar_ok (cs_obj o)); [apply Ho|exact Fo]|]. split; [intros n; rewrite (like_fst _ _ Fc), (like_fst _ _ Fo); apply Nf|].
    intros w w' Iw Iw'. destruct (in_right _ _ _ w Fc Iw) as (u & Iu & L), (in_right _ _ _ w' Fo Iw') as (u' & Iu' & L'). apply (like_sizes u w u' w' L L'). now apply Sf.
  - destruct (in_left _ _ _ v Fc Iv) as (w & Iw & L). exists w. split; [exact Iw|]. split; [now rewrite (like_names md v w L)|]. rewrite (proj1 L), (similar_part o o' md _ So). exact Mo.
Qed.
Lemma similar_refl c md : sholds c md -> similar c c.
Proof. intros H. split; [reflexivity|]. assert (G : forall v, In v (cs_obj c) -> x_ok (snd v)) by apply H. revert G. induction (cs_obj c) as [|v s IH]; intros G; constructor; [apply like_refl, G; now left|apply IH; intros w Iw; apply G; now right]. Qed.

(* ---- results variable by variable ---------------------------------------------------------------- *)

Lemma each_agree f g c r r' : each_object f c r -> each_object g c r' -> (forall v, In v (cs_obj c) -> agree_named (f v) (g v)) -> sets_agree r r'.
Proof.
  intros Hr Hr' Ag. destruct r as [a|e], r' as [b|e']; cbn [sets_agree each_object] in *.
  - destruct Hr as [_ Fa], Hr' as [_ Fb]. unfold same_sets. revert Ag Fa Fb. generalize (cs_obj a), (cs_obj b). induction (cs_obj c) as [|v s IH]; intros la lb Ag Fa Fb; inversion Fa as [|? w ? la' (A1 & A2) Fa']; inversion Fb as [|? u ? lb' (B1 & B2) Fb']; subst; constructor.
    + split; [congruence|]. specialize (Ag v (or_introl eq_refl)). rewrite A2, B2 in Ag. exact Ag.
    + apply IH; [intros x Ix; apply Ag; now right|assumption|assumption].
  - destruct Hr' as (v & Iv & E). destruct Hr as [_ Fa]. destruct (in_left _ _ _ v Fa Iv) as (w & _ & _ & E2). specialize (Ag v Iv). now rewrite E, E2 in Ag.
  - destruct Hr as (v & Iv & E). destruct Hr' as [_ Fb]. destruct (in_left _ _ _ v Fb Iv) as (w & _ & _ & E2). specialize (Ag v Iv). now rewrite E, E2 in Ag.
  - exact I.
Qed.
(* a result over another Dataset with the same names *)
Lemma each_from (Q : sname * xarr -> sname * xarr -> Prop) f g c c' r : cs_params c' = cs_params c -> Forall2 Q (cs_obj c) (cs_obj c') -> (forall v w, In v (cs_obj c) -> Q v w -> fst w = fst v /\ g v = f w) -> each_object f c' r -> each_object g c r.
Proof.
  intros Ep F E Hr. destruct r as [a|e]; cbn [each_object] in *.
  - destruct Hr as [Pa Fa]. split; [congruence|]. rewrite Ep in Fa. revert E F Fa. generalize (cs_obj a), (cs_obj c'). induction (cs_obj c) as [|v s IH]; intros la s' E F Fa; inversion F as [|? w ? s'' Hq F']; subst; inversion Fa as [|? u ? la' (A1 & A2) Fa']; subst; constructor.
    + destruct (E v w (or_introl eq_refl) Hq) as [E1 E2]. split; congruence.
    + apply (IH _ s''); [intros x y Ix; apply E; now right|assumption|assumption].
  - destruct Hr as (w & Iw & Ew). destruct (in_right _ _ _ w F Iw) as (v & Iv & Hq). exists v. split; [exact Iv|]. destruct (E v w Iv Hq) as [_ E2]. congruence.
Qed.

Section Sets.
  Context {A V : Type} (K : pusher A V) (ok : A -> Prop) (P : packer A) (R : reader V).
  Hypothesis VA : values_array K ok P R.
  Let MA : moment_array K ok P := va_array K ok P R VA.
  Context (stretch : bool) (md : list sname).
  Local Notation PM := (params_for md).

  Definition multiple_of (k : Qc) (v w : sname * xarr) : Prop :=
    like v w /\ if has_names md (snd v) then cx_mul (CX (snd v) PM) k = Ok (CX (snd w) PM) else snd w = snd v.
  Lemma multiple_each c k : sholds c md -> exists c', cs_mul c k = Ok c' /\ similar c c' /\ Forall2 (multiple_of k) (cs_obj c) (cs_obj c').
  Proof.
    intros H. pose proof H as (Hs & Hm & Ep & _ & Two).
    assert (Hv : forall v, In v (cs_obj c) -> has_names md (snd v) = true -> xholds (CX (snd v) PM) md).
    { intros v Iv M. pose proof (by_itself_holds c md v H Iv M) as Q. unfold by_itself in Q. now rewrite Ep in Q. }
    destruct (mul_set (cs_obj c) md Hs Hm) with (k := k) as (t & Et & Ot & Ft); [intros v Iv M; apply (object_positive _ _ (Hv v Iv M))|].
    assert (Ec : CS (cs_obj c) PM = c) by (destruct c as [ob pa]; cbn [cs_obj cs_params] in *; now rewrite Ep). rewrite Ec in Et.
    assert (F : Forall2 (multiple_of k) (cs_obj c) t).
    { assert (G : forall v w, In v (cs_obj c) -> In w t -> fst w = fst v /\ (if has_names md (snd v) then is_multiple md k (snd v) (snd w) else snd w = snd v) -> multiple_of k v w).
      { intros v w Iv Iw (E1 & E2). unfold multiple_of. destruct (has_names md (snd v)) eqn:M; [|split; [|exact E2]; split; [exact E1|]; rewrite E2; split; [now apply Hs|]; split; [tauto|reflexivity]].
        pose proof E2 as (Y0 & Y1 & Y2 & Y3). pose proof (object_moments _ _ (Hv v Iv M)) as HM. pose proof HM as (Hx & _ & _ & N3). cbn [cx_obj] in *. split.
        - split; [exact E1|]. split; [exact Y0|]. split; [|exact Y2]. intros n. rewrite Y1, in_app_iff. split; [intros [Q|Q]; [now apply except_name_In in Q|now apply N3]|]. intros Q. destruct (in_dec string_dec n md) as [I|I]; [now right|left; now apply except_name_In].
        - destruct (mul_named (snd v) md k HM (object_positive _ _ (Hv v Iv M))) as (y & Ey & (Z0 & Z1 & Z2 & Z3)). rewrite Ey. do 2 f_equal.
          assert (D : forall n, In n (x_dims y) -> In n (x_dims (snd v))) by (intros n Q; rewrite Z1 in Q; apply in_app_or in Q; destruct Q as [Q|Q]; [now apply except_name_In in Q|now apply N3]).
          apply x_ext; [exact Z0|exact Y0|congruence|intros n Q; rewrite (Z2 n (D n Q)); symmetry; apply (Y2 n (D n Q))|]. intros env He.
          assert (Hi : x_inside (snd v) env). { intros n Hn. rewrite <- Z2 by exact Hn. apply He. rewrite Z1. apply in_or_app. destruct (in_dec string_dec n md) as [I|I]; [now right|left; now apply except_name_In]. }
          now rewrite (Z3 env Hi), (Y3 env Hi). }
      clear - G Ft. assert (Gi : forall s u, incl s (cs_obj c) -> incl u t -> Forall2 (fun v w => fst w = fst v /\ (if has_names md (snd v) then is_multiple md k (snd v) (snd w) else snd w = snd v)) s u -> Forall2 (multiple_of k) s u).
      { intros s u Is Iu F. induction F as [|v w s u H F IH]; constructor; [apply G; [apply Is; now left|apply Iu; now left|exact H]|apply IH; [intros x Ix; apply Is; now right|intros x Ix; apply Iu; now right]]. }
      apply Gi; [apply incl_refl|apply incl_refl|exact Ft]. }
    exists (CS t PM). split; [exact Et|]. cbn [cs_obj cs_params]. split; [|exact F]. split; [now symmetry|]. clear - F. induction F as [|v w s t H F IH]; constructor; [apply H|exact IH].
  Qed.

  (* the other operand, variable by variable, after multiplication *)
  Lemma other_multiple o o' k n : sholds o md -> similar o o' -> Forall2 (multiple_of k) (cs_obj o) (cs_obj o') -> In n (map fst (cs_obj o)) -> part_has md n (DSet (cs_obj o)) = true ->
    cx_mul (other_part o n) k = Ok (other_part o' n).
  Proof.
    intros Ho (Ep & _) F I M. pose proof Ho as (_ & _ & Eo & _). unfold part_has in M. cbn [its_part] in M. unfold other_part, by_itself.
    pose proof (similar_get (multiple_of k) _ _ n (fun v w H => proj1 (proj1 H)) F) as G. destruct (get_var_name n (cs_obj o) I) as (x & Ex & _). rewrite Ex in G, M |- *. destruct (get_var n (cs_obj o')) as [y|]; [|destruct G].
    destruct G as [_ G]. cbn [snd] in G. rewrite M in G. rewrite Ep, Eo. exact G.
  Qed.

  Lemma pair_name c o v : set_pair c o md -> In v (cs_obj c) -> In (fst v) (map fst (cs_obj o)).
  Proof. intros (_ & _ & (_ & N & _) & _) Iv. apply N. now apply in_map. Qed.

  Definition all_addable (c o : csdata) : Prop := forall v, In v (cs_obj c) -> has_names md (snd v) = true -> part_has md (fst v) (DSet (cs_obj o)) = true ->
    addable P (by_itself (cs_params c) (snd v)) md (other_part o (fst v)) md.

  (* c - o is c + o * (-1) *)
  Theorem subtract_set_is_add_of_negative c o : set_pair c o md -> all_addable c o ->
    exists o', cs_mul o (-(1))%Qc = Ok o' /\ sets_agree (cs_sub K P stretch c o) (cs_add K P stretch c o').
  Proof.
    intros H HA. pose proof H as (Hc & Ho & _). destruct (multiple_each o (-(1))%Qc Ho) as (o' & Eo & So & Fo). exists o'. split; [exact Eo|].
    pose proof (similar_pair c o c o' md H (similar_refl c md Hc) So) as H'.
    apply (each_agree _ _ c _ _ (subtract_set K P stretch R c o md H) (add_set K P stretch R c o' md H')). intros v Iv. rewrite (similar_part o o' md _ So).
    destruct (has_names md (snd v) && part_has md (fst v) (DSet (cs_obj o)))%bool eqn:M; [|cbn; apply x_same_refl].
    apply andb_prop in M. destruct M as [M Mo]. pose proof (subtract_named_is_add_of_negative K ok P R VA stretch _ _ md (HA v Iv M Mo)) as X.
    rewrite (other_multiple o o' _ (fst v) Ho So Fo (pair_name c o v H Iv) Mo) in X. exact X.
  Qed.

  (* the sum is a Dataset of the same form *)
  Lemma sum_similar c o r : set_pair c o md -> all_addable c o -> cs_add K P stretch c o = Ok r -> similar c r.
  Proof.
    intros H HA E. pose proof H as (Hc & _). pose proof (add_set K P stretch R c o md H) as X. rewrite E in X. destruct X as [Ep F]. split; [exact Ep|].
    assert (G : forall v w, In v (cs_obj c) -> fst w = fst v /\ (if (has_names md (snd v) && part_has md (fst v) (DSet (cs_obj o)))%bool then cx_add K P stretch (by_itself (cs_params c) (snd v)) (other_part o (fst v)) else Ok (by_itself (cs_params c) (snd v))) = Ok (CX (snd w) (cs_params c)) -> like v w).
    { intros v w Iv (E1 & E2). destruct (has_names md (snd v) && part_has md (fst v) (DSet (cs_obj o)))%bool eqn:M.
      - apply andb_prop in M. destruct M as [M Mo]. pose proof (HA v Iv M Mo) as Ad. pose proof (add_named K ok P R VA stretch _ md _ md Ad) as Y. rewrite E2 in Y.
        destruct Ad as (B1 & _ & B3 & _). destruct (combined_alike P _ _ md _ B1 B3 Y) as [(_ & Z1 & _ & Z2 & Z3) _]. cbn [cx_obj by_itself] in *.
        split; [exact E1|]. split; [apply (object_moments _ _ Z1)|]. split; [intros n; symmetry; apply Z2|]. intros n Hn. symmetry. now apply Z3.
      - injection E2 as E2. split; [exact E1|]. rewrite <- E2. split; [now apply Hc|]. split; [tauto|reflexivity]. }
    revert G F. generalize (cs_obj r), (cs_params c). induction (cs_obj c) as [|v s IH]; intros t pa G F; inversion F as [|? w ? t' Q F']; subst; constructor; [apply G; [now left|exact Q]|apply (IH t' pa); [intros x y Ix; apply G; now right|exact F']].
  Qed.

  (* c * k + o * k is (c + o) * k *)
  Theorem multiply_set_distributes c o k : set_pair c o md -> all_addable c o -> k <> 0%Qc ->
    exists c' o', cs_mul c k = Ok c' /\ cs_mul o k = Ok o' /\ sets_agree (cs_add K P stretch c' o') (rbind (cs_add K P stretch c o) (fun r => cs_mul r k)).
  Proof.
    intros H HA Nk. pose proof H as (Hc & Ho & _). pose proof Hc as (_ & _ & Epc & _). destruct (multiple_each c k Hc) as (c' & Ec & Sc & Fc), (multiple_each o k Ho) as (o' & Eo & So & Fo). exists c', o'. split; [exact Ec|]. split; [exact Eo|].
    pose proof (similar_pair c o c' o' md H Sc So) as H'.
    pose (both := fun v : sname * xarr => (has_names md (snd v) && part_has md (fst v) (DSet (cs_obj o)))%bool).
    pose (alone := fun v : sname * xarr => if has_names md (snd v) then cx_mul (CX (snd v) PM) k else Ok (CX (snd v) PM)).
    pose (g := fun v => if both v then rbind (cx_mul (CX (snd v) PM) k) (fun a => rbind (cx_mul (other_part o (fst v)) k) (fun b => cx_add K P stretch a b)) else alone v).
    pose (h := fun v => if both v then rbind (cx_add K P stretch (CX (snd v) PM) (other_part o (fst v))) (fun r => cx_mul r k) else alone v).
    apply (each_agree g h c).
    - apply (each_from (multiple_of k) _ g c c' _ (proj1 Sc) Fc) with (2 := add_set K P stretch R c' o' md H'). intros v w Iv (L & M). split; [apply L|]. cbn beta. unfold g, both, alone.
      rewrite (like_names md v w L), (proj1 L), (similar_part o o' md _ So), (proj1 Sc), Epc. unfold by_itself. destruct (has_names md (snd v)) eqn:Mv; cbn [andb]; [|now rewrite M]. rewrite M. cbn [rbind].
      destruct (part_has md (fst v) (DSet (cs_obj o))) eqn:Mo; [|reflexivity]. rewrite (other_multiple o o' k _ Ho So Fo (pair_name c o v H Iv) Mo). reflexivity.
    - pose proof (add_set K P stretch R c o md H) as X. destruct (cs_add K P stretch c o) as [r|e] eqn:Er; cbn [rbind].
      + pose proof (sum_similar c o r H HA Er) as Sr. destruct (multiple_each r k (similar_holds c r md Hc Sr)) as (r2 & E2 & S2 & F2). rewrite E2. destruct X as [_ F]. split; [rewrite (proj1 S2); apply Sr|].
        destruct Sr as [_ L]. rewrite Epc in F |- *. clear - F F2 L. revert L F F2. unfold h, alone. fold both. generalize (cs_obj r), (cs_obj r2). induction (cs_obj c) as [|v s IH]; intros t u L F F2; inversion F as [|? w ? t' (Q1 & Q2) F']; subst; inversion F2 as [|? z ? u' (M1 & M2) F2']; inversion L as [|? ? ? ? Lw L']; subst; constructor.
        * split; [rewrite (proj1 M1); exact Q1|]. cbn beta. rewrite (like_names md v w Lw) in M2. unfold both. unfold by_itself in Q2. destruct (has_names md (snd v)) eqn:Mv; cbn [andb] in *.
          -- destruct (part_has md (fst v) (DSet (cs_obj o))); [rewrite Q2; exact M2|]. injection Q2 as Q2. rewrite Q2. exact M2.
          -- injection Q2 as Q2. now rewrite M2, Q2.
        * now apply (IH t' u').
      + destruct X as (v & Iv & E). exists v. split; [exact Iv|]. unfold h, both. rewrite Epc in E. unfold by_itself in E. destruct (has_names md (snd v) && part_has md (fst v) (DSet (cs_obj o)))%bool; [now rewrite E|discriminate E].
    - intros v Iv. unfold g, h, both. destruct (has_names md (snd v) && part_has md (fst v) (DSet (cs_obj o)))%bool eqn:M.
      + apply andb_prop in M. destruct M as [M Mo]. pose proof (HA v Iv M Mo) as Ad. rewrite Epc in Ad. exact (multiply_named_distributes K ok P R VA stretch _ _ md k Ad Nk).
      + unfold alone. destruct (has_names md (snd v)); [|apply x_same_refl]. destruct (cx_mul (CX (snd v) PM) k); [apply x_same_refl|reflexivity].
  Qed.

  Lemma get_own c v : sholds c md -> In v (cs_obj c) -> other_part c (fst v) = by_itself (cs_params c) (snd v).
  Proof. intros H Iv. unfold other_part. now rewrite (get_var_In v (cs_obj c) (proj1 (proj1 H)) Iv). Qed.
  Lemma own_part c v : sholds c md -> In v (cs_obj c) -> part_has md (fst v) (DSet (cs_obj c)) = has_names md (snd v).
  Proof. intros H Iv. unfold part_has. cbn [its_part]. now rewrite (get_var_In v (cs_obj c) (proj1 (proj1 H)) Iv). Qed.
  (* no variable fails: a sum *)
  Lemma sum_exists c o : set_pair c o md -> (forall v, In v (cs_obj c) -> has_names md (snd v) = true -> exists r, cx_add K P stretch (other_part c (fst v)) (other_part o (fst v)) = Ok r) ->
    exists r, cs_add K P stretch c o = Ok r.
  Proof.
    intros H E. pose proof (add_set K P stretch R c o md H) as X. destruct (cs_add K P stretch c o) as [r|e]; [now exists r|]. exfalso. destruct X as (v & Iv & Ev).
    destruct (has_names md (snd v)) eqn:M; cbn [andb] in Ev; [|discriminate Ev]. destruct (E v Iv M) as (r & Er). rewrite (get_own c v (proj1 H) Iv) in Er. destruct (part_has md (fst v) (DSet (cs_obj o))); [rewrite Er in Ev|]; discriminate Ev.
  Qed.
  (* a variable of a sum *)
  Lemma sum_part c o r v : set_pair c o md -> cs_add K P stretch c o = Ok r -> In v (cs_obj c) -> has_names md (snd v) = true -> part_has md (fst v) (DSet (cs_obj o)) = true ->
    cx_add K P stretch (other_part c (fst v)) (other_part o (fst v)) = Ok (other_part r (fst v)).
  Proof.
    intros H E Iv M Mo. pose proof (add_set K P stretch R c o md H) as X. rewrite E in X. destruct X as [Ep F].
    pose proof (similar_get _ _ _ (fst v) (fun v w H => proj1 H) F) as G. pose proof (get_var_In v (cs_obj c) (proj1 (proj1 (proj1 H))) Iv) as Gv. rewrite Gv in G. cbn [fst snd] in G. rewrite M, Mo in G. cbn [andb] in G.
    rewrite (get_own c v (proj1 H) Iv). unfold other_part at 2. destruct (get_var (fst v) (cs_obj r)) as [y|]; [|destruct G]. unfold by_itself at 2. rewrite Ep. apply G.
  Qed.

  (* (a + b) + c is a + (b + c) when every weight is positive or none *)
  Theorem add_set_associative a b c : set_pair a b md -> set_pair b c md -> set_pair a c md ->
    (forall v, In v (cs_obj a) -> part_has md (fst v) (DSet (cs_obj b)) = has_names md (snd v) /\ part_has md (fst v) (DSet (cs_obj c)) = has_names md (snd v)) ->
    (forall v, In v (cs_obj a) -> has_names md (snd v) = true ->
       let x := other_part a (fst v) in let y := other_part b (fst v) in let z := other_part c (fst v) in alike P x y md /\ alike P y z md /\
       forall env, inside_names (dim_size (snd v)) (except_name (x_dims (snd v)) md) env -> forall o, In o [x; y; z] -> clean K (moments_named P (cx_obj o) md env) /\ (0 <= p_wt K (moments_named P (cx_obj o) md env))%Qc) ->
    exists ab bc r r', cs_add K P stretch a b = Ok ab /\ cs_add K P stretch b c = Ok bc /\ cs_add K P stretch ab c = Ok r /\ cs_add K P stretch a bc = Ok r' /\ same_sets r r'.
  Proof.
    intros Hab Hbc Hac Part Each. pose proof Hab as (Ha & Hb & (_ & Nab & _) & _).
    assert (One : forall v, In v (cs_obj a) -> has_names md (snd v) = true -> exists ab bc r r', cx_add K P stretch (other_part a (fst v)) (other_part b (fst v)) = Ok ab /\ cx_add K P stretch (other_part b (fst v)) (other_part c (fst v)) = Ok bc /\
      cx_add K P stretch ab (other_part c (fst v)) = Ok r /\ cx_add K P stretch (other_part a (fst v)) bc = Ok r' /\ x_same (cx_obj r) (cx_obj r')).
    { intros v Iv M. destruct (Each v Iv M) as (A1 & A2 & G). apply (add_named_associative K ok P R VA stretch _ _ _ md A1 A2). rewrite (get_own a v Ha Iv) in *. cbn [by_itself cx_obj]. intros env He.
      destruct (G env He _ (or_introl eq_refl)) as [? ?], (G env He _ (or_intror (or_introl eq_refl))) as [? ?], (G env He _ (or_intror (or_intror (or_introl eq_refl)))) as [? ?]. auto 10. }
    assert (From : forall w, In w (cs_obj b) -> has_names md (snd w) = true -> exists v, In v (cs_obj a) /\ fst v = fst w /\ has_names md (snd v) = true).
    { intros w Iw M. assert (I : In (fst w) (map fst (cs_obj a))) by (apply Nab; now apply in_map). apply in_map_iff in I. destruct I as (v & Ef & Iv). exists v. split; [exact Iv|]. split; [exact Ef|]. rewrite <- (proj1 (Part v Iv)), Ef, (own_part b w Hb Iw). exact M. }
    assert (Aab : all_addable a b). { intros v Iv M _. rewrite <- (get_own a v Ha Iv). apply alike_addable. apply (Each v Iv M). }
    assert (Abc : all_addable b c). { intros w Iw M _. rewrite <- (get_own b w Hb Iw). destruct (From w Iw M) as (v & Iv & Ef & Mv). rewrite <- Ef. apply alike_addable. apply (Each v Iv Mv). }
    destruct (sum_exists a b Hab) as (ab & Eab). { intros v Iv M. destruct (One v Iv M) as (x & _ & _ & _ & E & _). now exists x. }
    destruct (sum_exists b c Hbc) as (bc & Ebc). { intros w Iw M. destruct (From w Iw M) as (v & Iv & Ef & Mv). rewrite <- Ef. destruct (One v Iv Mv) as (_ & x & _ & _ & _ & E & _). now exists x. }
    pose proof (sum_similar a b ab Hab Aab Eab) as Sab. pose proof (sum_similar b c bc Hbc Abc Ebc) as Sbc.
    pose proof (similar_pair a c ab c md Hac Sab (similar_refl c md (proj1 (proj2 Hac)))) as H1. pose proof (similar_pair a b a bc md Hab (similar_refl a md Ha) Sbc) as H2.
    pose proof (similar_holds a ab md Ha Sab) as Hab'.
    assert (Pab : forall v, In v (cs_obj a) -> has_names md (snd v) = true -> cx_add K P stretch (other_part a (fst v)) (other_part b (fst v)) = Ok (other_part ab (fst v))).
    { intros v Iv M. apply (sum_part a b ab v Hab Eab Iv M). now rewrite (proj1 (Part v Iv)). }
    assert (Pbc : forall v, In v (cs_obj a) -> has_names md (snd v) = true -> cx_add K P stretch (other_part b (fst v)) (other_part c (fst v)) = Ok (other_part bc (fst v))).
    { intros v Iv M. destruct (get_var_name (fst v) (cs_obj b) (pair_name a b v Hab Iv)) as (x & _ & Ix). apply (sum_part b c bc (fst v, x) Hbc Ebc Ix); cbn [fst snd]; [|now rewrite (proj2 (Part v Iv))].
      pose proof (own_part b (fst v, x) Hb Ix) as X. cbn [fst snd] in X. now rewrite <- X, (proj1 (Part v Iv)). }
    pose (g := fun v : sname * xarr => if has_names md (snd v) then cx_add K P stretch (other_part ab (fst v)) (other_part c (fst v)) else Ok (by_itself (cs_params a) (snd v))).
    pose (h := fun v : sname * xarr => if has_names md (snd v) then cx_add K P stretch (other_part a (fst v)) (other_part bc (fst v)) else Ok (by_itself (cs_params a) (snd v))).
    assert (Z : sets_agree (cs_add K P stretch ab c) (cs_add K P stretch a bc)).
    { apply (each_agree g h a).
      - pose proof (add_set K P stretch R a b md Hab) as X. rewrite Eab in X. destruct X as [Ep F].
        assert (Q : Forall2 (fun v w => In w (cs_obj ab) /\ like v w /\ (has_names md (snd v) = false -> snd w = snd v)) (cs_obj a) (cs_obj ab)).
        { apply (both_in _ _ _ _ _ (proj2 Sab) F). intros v w Iw Lw (_ & E). split; [exact Iw|]. split; [exact Lw|]. intros M. rewrite M in E. cbn [andb] in E. injection E as E. now symmetry. }
        apply (each_from _ _ g a ab _ (proj1 Sab) Q) with (2 := add_set K P stretch R ab c md H1). intros v w Iv (Iw & L & N). split; [apply L|]. cbn beta. unfold g. rewrite (like_names md v w L), (proj1 L), (proj2 (Part v Iv)). destruct (has_names md (snd v)) eqn:M; cbn [andb].
        + now rewrite <- (get_own ab w Hab' Iw), (proj1 L).
        + rewrite (N eq_refl). unfold by_itself. now rewrite (proj1 Sab).
      - eapply each_object_ext; [|apply (add_set K P stretch R a bc md H2)]. intros v Iv. cbn beta. unfold h. rewrite (similar_part b bc md _ Sbc), (proj1 (Part v Iv)), (get_own a v Ha Iv). now destruct (has_names md (snd v)).
      - intros v Iv. unfold g, h. destruct (has_names md (snd v)) eqn:M; [|apply x_same_refl]. destruct (One v Iv M) as (x & y & r & r' & E1 & E2 & E3 & E4 & S). rewrite (Pab v Iv M) in E1. rewrite (Pbc v Iv M) in E2. injection E1 as <-. injection E2 as <-. rewrite E3, E4. exact S. }
    assert (Ok1 : exists r, cs_add K P stretch ab c = Ok r).
    { apply (sum_exists ab c H1). intros w Iw M. destruct (in_right _ _ _ w (proj2 Sab) Iw) as (v & Iv & L). rewrite (like_names md v w L) in M. rewrite (proj1 L). destruct (One v Iv M) as (x & _ & r & _ & E1 & _ & E3 & _). rewrite (Pab v Iv M) in E1. injection E1 as <-. now exists r. }
    destruct Ok1 as (r & Er). rewrite Er in Z. destruct (cs_add K P stretch a bc) as [r'|e] eqn:Er'; [|destruct Z]. exists ab, bc, r, r'. auto.
  Qed.
End Sets.
