(* Statistics read from objects of class CentralMomentsArray, and the functions that
   make such objects (C127 and following). *)
From Coq Require Import String.
From Verif Require Import Base BaseLemmas Shift ModelPush ModelPushCov ModelConvert ProofPush ProofPushCov ProofConvert ModelKernels ModelIndex ModelAxes ModelState ModelParams
  ModelNd ModelWrap ModelMoments ModelConstruct
  Spec SpecAxes SpecNd SpecMethods SpecMoments ProofAxes ProofArrays ProofMulti ProofNd PropReduce PropAxes PropNd PropNdVals PropNdValsUse PropWrap ProofMoments
  PropConvert PropMoments PropSelect PropAssign Checks.
Local Notation length := List.length (only parsing).
Local Open Scope nat_scope.

(* ---- objects as arrays with moment axes -------------------------------------------------- *)

Lemma holds_axes c vs ms : holds c vs ms ->
  moment_axes (axes_last (length ms)) (seq (length vs) (length ms)) (seq 0 (length vs)) (c_obj c) /\
  map (shape_of (c_obj c)) (seq (length vs) (length ms)) = ms /\ map (shape_of (c_obj c)) (seq 0 (length vs)) = vs /\
  iter_axes (c_params c) = Ok (axes_last (length ms)).
Proof.
  intros (T & S' & L & G & Pm). unfold c_shape in S'.
  assert (N : tndim (c_obj c) = length vs + length ms) by (unfold tndim; rewrite S'; apply app_length).
  split; [|split; [|split]].
  - split; [exact T|]. split; [|split].
    + rewrite N. replace (length vs) with (length vs + length ms - length ms) at 2 by lia. apply axes_last_named. lia.
    + apply seq_NoDup.
    + rewrite N. symmetry. pose proof (seq_split_last (length vs + length ms) (length ms)) as X. rewrite Nat.add_sub in X. apply X. lia.
  - unfold shape_of. rewrite S'. apply nth_ext with (d := 0) (d' := 0); rewrite map_length, seq_length; [reflexivity|].
    intros i Hi. rewrite (nth_map_in _ _ _ _ 0) by (now rewrite seq_length). rewrite seq_nth by exact Hi. now apply nth_lead.
  - unfold shape_of. rewrite S'. apply nth_ext with (d := 0) (d' := 0); rewrite map_length, seq_length; [reflexivity|].
    intros i Hi. rewrite (nth_map_in _ _ _ _ 0) by (now rewrite seq_length). rewrite seq_nth by exact Hi. now apply app_nth1.
  - rewrite Pm. reflexivity.
Qed.
Lemma entry_last vs ms t p m : tshape t = vs ++ ms -> length p = length vs -> length m = length ms ->
  moment_entry t (seq (length vs) (length ms)) (seq 0 (length vs)) p m = tget t (p ++ m).
Proof.
  intros S' Lp Lm. unfold moment_entry, entry. f_equal.
  assert (N : tndim t = length vs + length ms) by (unfold tndim; rewrite S'; apply app_length). rewrite N, seq_app, map_app. f_equal.
  - transitivity (map (bind (seq 0 (length vs)) p (fun _ => 0)) (seq 0 (length vs))).
    + apply map_ext_in. intros a Ha. apply bind_out. intros X. apply in_seq in Ha, X. lia.
    + apply map_bind; [apply seq_NoDup|now rewrite seq_length].
  - apply map_bind; [apply seq_NoDup|now rewrite seq_length].
Qed.
Lemma holds_entry c vs ms p m : holds c vs ms -> valid vs p -> valid ms m ->
  moment_entry (c_obj c) (seq (length vs) (length ms)) (seq 0 (length vs)) p m = mom_entry c p m.
Proof.
  intros H Vp Vm. apply entry_last; [apply H|exact (valid_length _ _ Vp)|exact (valid_length _ _ Vm)].
Qed.
Lemma holds_positive c vs ms : holds c vs ms -> all_positive ms.
Proof. intros (_ & _ & _ & G & _). unfold all_positive. eapply Forall_impl; [|exact G]. cbn. lia. Qed.

Lemma raw_of_ext nmax s f g m : (length s = 1 \/ length s = 2) -> Forall (fun n => 2 <= n <= S nmax) s ->
  (forall m, valid s m -> f m = g m) -> valid s m -> raw_of f m = raw_of g m.
Proof.
  intros L F E Vm. pose proof (converted_ext nmax "raw" s f g m L F E Vm) as X. rewrite !converted_spec in X. unfold central_or_raw in X.
  now destruct (string_dec "raw" "central") as [Y|_] in X.
Qed.
Lemma central_of_ext nmax s f g m : (length s = 1 \/ length s = 2) -> Forall (fun n => 2 <= n <= S nmax) s ->
  (forall m, valid s m -> f m = g m) -> valid s m -> central_of f m = central_of g m.
Proof.
  intros L F E Vm. pose proof (converted_ext nmax "central" s f g m L F E Vm) as X. rewrite !converted_spec in X. exact X.
Qed.

Lemma weight_name ms : length ms = 1 \/ length ms = 2 -> Forall (fun n => 2 <= n) ms ->
  exists at0, In ("weight"%string, ([], at0)) (moment_names true ms) /\ all_exist ms [] at0 /\
    forall m, valid ms m -> (forallb (Nat.eqb 0) m = true <-> m = at0 []).
Proof.
  intros Lm G. destruct ms as [|n [|n1 [|? ?]]]; cbn [length] in Lm; try lia; inversion G as [|? ? G0 G']; subst.
  - exists (fun _ => [0]). cbn [moment_names In]. split; [auto|]. split; [intros q Vq; repeat constructor; lia|].
    intros m Vm. inversion Vm as [|? k ? m' Hk Vm']; subst. inversion Vm'; subst. cbn [forallb]. rewrite andb_true_r, Nat.eqb_eq. split; [intros <-; reflexivity|intros E; now injection E as ->].
  - inversion G' as [|? ? G1 _]; subst. exists (fun _ => [0; 0]). cbn [moment_names In]. split; [auto|].
    split; [intros q Vq; constructor; [lia|]; constructor; [lia|constructor]|].
    intros m Vm. inversion Vm as [|? k ? m' Hk Vm']; subst. inversion Vm' as [|? l ? m'' Hl Vm'']; subst. inversion Vm''; subst. cbn [forallb].
    rewrite andb_true_r, andb_true_iff, !Nat.eqb_eq. split; [intros [<- <-]; reflexivity|intros E; now injection E as -> ->].
Qed.

Section Object.
  Context (c : cmarray) (vs ms : list nat).
  Hypothesis H : holds c vs ms.

  Lemma object_axes_len : length (seq (length vs) (length ms)) = 1 \/ length (seq (length vs) (length ms)) = 2.
  Proof. rewrite seq_length. apply H. Qed.

  (* C127: select_moment of the object gives the named moments at every position *)
  Theorem object_select name squeeze qs at_ : In (name, (qs, at_)) (moment_names squeeze ms) -> all_exist ms qs at_ ->
    exists out, c_select_moment c name squeeze = Ok out /\ tensor_ok out /\ tshape out = vs ++ qs /\
      forall p q, valid vs p -> valid qs q -> tget out (p ++ q) = mom_entry c p (at_ q).
  Proof.
    intros HN AE. destruct (holds_axes _ _ _ H) as (MA & SM & SL & IA).
    destruct (select_moment_entries _ _ _ _ MA object_axes_len name squeeze qs at_) as (out & E & T & S' & G);
      [now rewrite SM|rewrite SM; exact (holds_positive _ _ _ H)|now rewrite SM|]. rewrite SL in S', G.
    exists out. unfold c_select_moment. rewrite IA. cbn [rbind]. split; [exact E|]. split; [exact T|]. split; [exact S'|].
    intros p q Vp Vq. rewrite G by assumption. apply holds_entry; [exact H|exact Vp|now apply AE].
  Qed.
  Theorem object_select_missing name squeeze qs at_ : In (name, (qs, at_)) (moment_names squeeze ms) -> ~ all_exist ms qs at_ ->
    c_select_moment c name squeeze = Raise EIndex.
  Proof.
    intros HN AE. destruct (holds_axes _ _ _ H) as (MA & SM & SL & IA). unfold c_select_moment. rewrite IA. cbn [rbind].
    apply (select_moment_missing _ _ _ _ MA object_axes_len name squeeze qs at_); now rewrite SM.
  Qed.
  Theorem object_select_unknown name squeeze : ~ In name (map fst (moment_names squeeze ms)) -> c_select_moment c name squeeze = Raise EValue.
  Proof.
    intros HN. destruct (holds_axes _ _ _ H) as (MA & SM & SL & IA). unfold c_select_moment. rewrite IA. cbn [rbind].
    apply (select_moment_unknown _ _ _ _ MA object_axes_len name squeeze); now rewrite SM.
  Qed.

  Lemma like_holds out : tensor_ok out -> tshape out = c_shape c -> holds (CM out (c_params c)) vs ms.
  Proof. intros T S'. pose proof H as (_ & S2 & A & B & D). split; [exact T|]. split; [unfold c_shape in *; cbn [c_obj]; congruence|]. auto. Qed.

  (* assign_moment of the object: a new object with the named moments replaced *)
  Theorem object_assign name squeeze qs at_ v : In (name, (qs, at_)) (moment_names squeeze ms) -> all_exist ms qs at_ -> fits_over (vs ++ qs) v ->
    exists c', c_assign_moment c [(name, v)] squeeze = Ok c' /\ holds c' vs ms /\
      (forall p q, valid vs p -> valid qs q -> mom_entry c' p (at_ q) = value_over v (p ++ q)) /\
      (forall p m, valid vs p -> valid ms m -> (forall q, valid qs q -> at_ q <> m) -> mom_entry c' p m = mom_entry c p m).
  Proof.
    intros HN AE F. destruct (holds_axes _ _ _ H) as (MA & SM & SL & IA).
    destruct (assign_moment_entries _ _ _ _ MA object_axes_len name squeeze qs at_ v) as (out & E & MO & S' & G1 & G2);
      [now rewrite SM|rewrite SM; exact (holds_positive _ _ _ H)|now rewrite SM|now rewrite SL|]. rewrite SL in G1, G2. rewrite SM in G2.
    exists (CM out (c_params c)). unfold c_assign_moment. rewrite IA. cbn [rbind]. rewrite E. cbn [rbind]. split; [reflexivity|].
    assert (HC : holds (CM out (c_params c)) vs ms) by (apply like_holds; [apply MO|exact S']). split; [exact HC|]. split.
    - intros p q Vp Vq. rewrite <- (holds_entry _ _ _ _ _ HC Vp (AE q Vq)). now apply G1.
    - intros p m Vp Vm Nm. rewrite <- (holds_entry _ _ _ _ _ HC Vp Vm), <- (holds_entry _ _ _ _ _ H Vp Vm). now apply G2.
  Qed.
  Theorem object_assign_refused name squeeze v :
    (forall qs at_, In (name, (qs, at_)) (moment_names squeeze ms) -> all_exist ms qs at_ -> ~ fits_over (vs ++ qs) v ->
      c_assign_moment c [(name, v)] squeeze = Raise EValue) /\
    (forall qs at_, In (name, (qs, at_)) (moment_names squeeze ms) -> ~ all_exist ms qs at_ -> c_assign_moment c [(name, v)] squeeze = Raise EIndex) /\
    (~ In name (map fst (moment_names squeeze ms)) -> c_assign_moment c [(name, v)] squeeze = Raise EValue).
  Proof.
    destruct (holds_axes _ _ _ H) as (MA & SM & SL & IA). unfold c_assign_moment. rewrite IA. cbn [rbind].
    destruct (assign_moment_refused _ _ _ _ MA object_axes_len name squeeze v) as (R1 & R2 & R3). rewrite SM in R1, R2, R3. rewrite SL in R1.
    split; [|split].
    - intros qs at_ HN AE F. now rewrite (R1 qs at_ HN (holds_positive _ _ _ H) AE F).
    - intros qs at_ HN AE. now rewrite (R2 qs at_ HN AE).
    - intros HN. now rewrite (R3 HN).
  Qed.
  Lemma assign_object_nd names squeeze : rmap c_obj (c_assign_moment c names squeeze) = assign_moment_nd names (axes_last (length ms)) squeeze (c_obj c).
  Proof.
    destruct (holds_axes _ _ _ H) as (MA & SM & SL & IA). unfold c_assign_moment. rewrite IA. cbn [rbind].
    destruct (assign_moment_nd _ _ _ _); reflexivity.
  Qed.

  Lemma object_like_entry t p m : tshape t = c_shape c -> valid vs p -> valid ms m ->
    moment_entry t (seq (length vs) (length ms)) (seq 0 (length vs)) p m = tget t (p ++ m).
  Proof. intros S' Vp Vm. apply entry_last; [rewrite S'; apply H|exact (valid_length _ _ Vp)|exact (valid_length _ _ Vm)]. Qed.
  Lemma number_fits s q : fits_over s (number q).
  Proof. split; [constructor|]. intros k _. right. unfold from_end, number. cbn [tshape rev]. now destruct k. Qed.
  Lemma number_over q l : value_over (number q) l = q.
  Proof. unfold value_over, value_on. cbn [number tndim tshape tdata length Nat.sub skipn stretched combine map]. reflexivity. Qed.

  (* C127: cmom() has the weight 1, the averages 0, and the other moments of the object *)
  Theorem object_cmom : exists out, c_cmom c = Ok out /\ tensor_ok out /\ tshape out = vs ++ ms /\
    forall p m, valid vs p -> valid ms m -> tget out (p ++ m) = central_normal (mom_entry c p) m.
  Proof.
    destruct (holds_axes _ _ _ H) as (MA & SM & SL & IA). unfold c_cmom. rewrite IA. cbn [rbind].
    pose proof H as (T & S' & Lm & G & Pm). unfold c_shape in S'.
    assert (W : exists at0 qs1 at1, In ("weight"%string, ([], at0)) (moment_names true ms) /\ In ("ave"%string, (qs1, at1)) (moment_names true ms) /\
      all_exist ms [] at0 /\ all_exist ms qs1 at1 /\
      forall m, valid ms m -> (fold_right Nat.add 0 m = 0 -> m = at0 []) /\ (fold_right Nat.add 0 m = 1 -> exists q, valid qs1 q /\ m = at1 q) /\
        (2 <= fold_right Nat.add 0 m -> at0 [] <> m /\ forall q, valid qs1 q -> at1 q <> m) /\ (forall q, valid qs1 q -> at1 q <> at0 [])).
    { destruct ms as [|n [|n1 [|? ?]]]; cbn [length] in Lm; try lia; inversion G as [|? ? G0 G']; subst.
      - exists (fun _ => [0]), [], (fun _ => [1]). cbn [moment_names In]. split; [auto|]. split; [auto|]. split; [|split].
        + intros q Vq. repeat constructor; lia.
        + intros q Vq. repeat constructor; lia.
        + intros m Vm. inversion Vm as [|? k ? m' Hk Vm']; subst. inversion Vm'; subst. cbn [fold_right]. repeat split.
          * intros E. f_equal. lia.
          * intros E. exists []. split; [constructor|]. f_equal. lia.
          * intros E. injection E as <-. lia.
          * intros q Vq E. injection E as <-. lia.
          * intros q Vq E. discriminate.
      - inversion G' as [|? ? G1 _]; subst.
        exists (fun _ => [0; 0]), [2], (fun q => nth (hd 0 q) [[1; 0]; [0; 1]] []). cbn [moment_names In]. split; [auto|]. split; [auto|].
        assert (Q : forall q, valid [2] q -> q = [0] \/ q = [1]).
        { intros q Vq. inversion Vq as [|? k ? q' Hk Vq']; subst. inversion Vq'; subst. destruct k as [|[|k]]; [auto|auto|lia]. }
        split; [|split].
        + intros q Vq. constructor; [lia|]. constructor; [lia|constructor].
        + intros q Vq. destruct (Q q Vq) as [->| ->]; cbn [hd nth]; (constructor; [lia|]; constructor; [lia|constructor]).
        + intros m Vm. inversion Vm as [|? k ? m' Hk Vm']; subst. inversion Vm' as [|? l ? m'' Hl Vm'']; subst. inversion Vm''; subst. cbn [fold_right]. repeat split.
          * intros E. f_equal; [lia|]. f_equal. lia.
          * intros E. destruct k as [|k].
            -- exists [1]. split; [constructor; [lia|constructor]|]. cbn [hd nth]. do 2 f_equal. lia.
            -- exists [0]. split; [constructor; [lia|constructor]|]. cbn [hd nth]. f_equal; [lia|]. f_equal. lia.
          * intros E. injection E as <- <-. lia.
          * intros q Vq. destruct (Q q Vq) as [->| ->]; cbn [hd nth]; intros E; injection E as <- <-; lia.
          * intros q Vq. destruct (Q q Vq) as [->| ->]; cbn [hd nth]; discriminate. }
    destruct W as (at0 & qs1 & at1 & I0 & I1 & E0 & E1 & W).
    change [("weight"%string, number 1); ("ave"%string, number 0)] with ([("weight"%string, number 1)] ++ [("ave"%string, number 0)]).
    rewrite (assign_moment_sequence _ _ _ _ MA).
    destruct (assign_moment_entries _ _ _ _ MA object_axes_len "weight" true [] at0 (number 1)) as (u & Eu & MU & Su & G1 & G2);
      [now rewrite SM|rewrite SM; exact (holds_positive _ _ _ H)|now rewrite SM|apply number_fits|]. rewrite Eu. cbn [rbind]. rewrite SL in G1, G2. rewrite SM in G2.
    assert (SH : forall a, shape_of u a = shape_of (c_obj c) a) by (intros a; unfold shape_of; now rewrite Su).
    destruct (assign_moment_entries _ _ _ _ MU object_axes_len "ave" true qs1 at1 (number 0)) as (v & Ev & MV & Sv & G3 & G4);
      [rewrite (map_ext _ _ SH); now rewrite SM|rewrite (map_ext _ _ SH), SM; exact (holds_positive _ _ _ H)|rewrite (map_ext _ _ SH); now rewrite SM|apply number_fits|].
    rewrite !(map_ext _ _ SH), SL in G3. rewrite !(map_ext _ _ SH), SL, SM in G4.
    exists v. split; [exact Ev|]. split; [apply MV|]. split; [congruence|]. intros p m Vp Vm.
    assert (Sv' : tshape v = c_shape c) by (unfold c_shape; congruence). rewrite <- (object_like_entry v p m Sv' Vp Vm).
    destruct (W m Vm) as (W0 & W1 & W2 & W3). unfold central_normal. destruct (fold_right Nat.add 0 m) as [|[|k]] eqn:Es.
    - specialize (W0 eq_refl). subst m. rewrite G4 by assumption. rewrite (G1 p []) by (exact Vp || constructor). apply number_over.
    - destruct (W1 eq_refl) as (q & Vq & ->). rewrite G3 by assumption. apply number_over.
    - destruct W2 as [X Y]; [lia|]. rewrite G4 by assumption. rewrite G2; [now apply holds_entry|exact Vp|exact Vm|]. intros q Vq. inversion Vq; subst. exact X.
  Qed.

  Section Raw.
    Context (nmax : nat).
    Hypothesis Fit : Forall (fun n => n <= S nmax) ms.
    Lemma object_convertible : convertible nmax (c_obj c) (seq (length vs) (length ms)).
    Proof.
      destruct (holds_axes _ _ _ H) as (MA & SM & SL & IA). split; [exact object_axes_len|].
      apply (Forall_map (shape_of (c_obj c)) (fun n => 2 <= n <= S nmax)). rewrite SM. pose proof H as (_ & _ & _ & G & _).
      apply Forall_forall. intros n Hn. rewrite Forall_forall in G, Fit. auto.
    Qed.
    Lemma object_sizes : Forall (fun n => 2 <= n <= S nmax) ms.
    Proof. pose proof H as (_ & _ & _ & G & _). apply Forall_forall. intros n Hn. rewrite Forall_forall in G, Fit. auto. Qed.
    (* C127: to_raw() has the raw moments of the object *)
    Theorem object_to_raw : exists out, c_to_raw nmax c None = Ok out /\ tensor_ok out /\ tshape out = vs ++ ms /\
      forall p m, valid vs p -> valid ms m -> tget out (p ++ m) = raw_of (mom_entry c p) m.
    Proof.
      destruct (holds_axes _ _ _ H) as (MA & SM & SL & IA). unfold c_to_raw. rewrite IA. cbn [rbind].
      destruct (moments_type_entries nmax _ _ _ _ MA "raw" false object_convertible) as (out & E & MO & S' & G). rewrite E. cbn [rbind].
      exists out. split; [reflexivity|]. split; [apply MO|]. split; [rewrite S'; apply H|]. intros p m Vp Vm. rewrite SL, SM in G.
      rewrite <- (object_like_entry out p m S' Vp Vm). rewrite G by assumption. unfold central_or_raw. destruct (string_dec "raw" "central") as [X|_]; [discriminate|].
      change (raw_of (moment_entry (c_obj c) (seq (length vs) (length ms)) (seq 0 (length vs)) p) m = raw_of (mom_entry c p) m).
      apply (raw_of_ext nmax ms); [apply H|exact object_sizes| |exact Vm]. intros m' Vm'. now apply holds_entry.
    Qed.
    (* with weight=: the weight is replaced *)
    Theorem object_to_raw_weight w : fits_over vs w -> exists out, c_to_raw nmax c (Some w) = Ok out /\ tensor_ok out /\ tshape out = vs ++ ms /\
      forall p m, valid vs p -> valid ms m ->
        tget out (p ++ m) = if forallb (Nat.eqb 0) m then value_over w p else raw_of (mom_entry c p) m.
    Proof.
      intros F. destruct (holds_axes _ _ _ H) as (MA & SM & SL & IA). destruct object_to_raw as (u & Eu & Tu & Su & Gu).
      unfold c_to_raw in Eu |- *. rewrite IA in Eu |- *. cbn [rbind] in Eu |- *. destruct (moments_type_nd _ _ _ _ _ _) as [u'|]; [|discriminate]. cbn [rbind] in Eu |- *.
      apply ok_inj in Eu. subst u'. assert (Su' : tshape u = c_shape c) by (rewrite Su; symmetry; apply H).
      pose proof (like_holds u Tu Su') as HU. destruct (holds_axes _ _ _ HU) as (MU & SMu & SLu & _). cbn [c_obj] in MU, SMu, SLu.
      pose proof H as (_ & _ & Lm & G & _). destruct (weight_name ms Lm G) as (at0 & I0 & E0 & W).
      destruct (assign_moment_entries _ _ _ _ MU object_axes_len "weight" true [] at0 w) as (v & Ev & MV & Sv & G1 & G2);
        [now rewrite SMu|rewrite SMu; exact (holds_positive _ _ _ H)|now rewrite SMu|now rewrite SLu, app_nil_r|]. rewrite SLu in G1, G2. rewrite SMu in G2.
      exists v. split; [exact Ev|]. split; [apply MV|]. split; [congruence|]. intros p m Vp Vm.
      assert (Sv' : tshape v = c_shape c) by congruence. rewrite <- (object_like_entry v p m Sv' Vp Vm). specialize (W m Vm). destruct (forallb (Nat.eqb 0) m) eqn:Em.
      - rewrite (proj1 W eq_refl). rewrite (G1 p []) by (exact Vp || constructor). now rewrite app_nil_r.
      - rewrite G2; [|exact Vp|exact Vm|]. { rewrite (object_like_entry u p m Su' Vp Vm). now apply Gu. }
        intros q Vq. inversion Vq; subst. intros X. symmetry in X. apply W in X. congruence.
    Qed.
    (* rmom() has the weight 1 *)
    Theorem object_rmom : exists out, c_rmom nmax c = Ok out /\ tensor_ok out /\ tshape out = vs ++ ms /\
      forall p m, valid vs p -> valid ms m -> tget out (p ++ m) = raw_normal (raw_of (mom_entry c p)) m.
    Proof.
      destruct (object_to_raw_weight (number 1) (number_fits _ _)) as (out & E & T & S' & G). exists out. split; [exact E|]. split; [exact T|]. split; [exact S'|].
      intros p m Vp Vm. rewrite G by assumption. unfold raw_normal. destruct (forallb _ m); [apply number_over|reflexivity].
    Qed.
  End Raw.
End Object.
