(* Functions that make objects of class CentralMomentsArray: wrap, wrap_raw,
   and round trips with raw moments (C128). *)
From Coq Require Import String.
From Verif Require Import Base BaseLemmas Shift ModelPush ModelPushCov ModelConvert ProofPush ProofPushCov ProofConvert ModelKernels ModelIndex ModelAxes ModelState ModelParams
  ModelNd ModelWrap ModelMethods ModelMoments ModelConstruct
  Spec SpecAxes SpecNd SpecMethods SpecMoments ProofAxes ProofArrays ProofMulti ProofNd PropReduce PropAxes PropNd PropNdVals PropNdValsUse PropWrap ProofMoments
  PropConvert PropMoments PropSelect PropAssign PropConstruct Checks.
Local Notation length := List.length (only parsing).
Local Open Scope nat_scope.

Lemma factory_params p d : array_factory false (as_arg p) None None d = Ok p.
Proof. destruct p as [n a]. reflexivity. Qed.
Lemma factory_last k d : k = 1 \/ k = 2 ->
  array_factory false MPNone (Some (Z.of_nat k)) None d = Ok (AP (Some (Z.of_nat k)) (Some (axes_last k))).
Proof. intros [-> | ->]; reflexivity. Qed.

(* C128: wrap is the constructor; with fastpath=True the array and its axes are taken
   as they are *)
Theorem wrap_is_constructor m ndim axes t : c_wrap m ndim axes false t = c_init m ndim axes t.
Proof.
  unfold c_wrap, c_init at 2. destruct (array_factory false m ndim axes (Some 1%Z)) as [p|e]; [|reflexivity]. cbn [rbind].
  unfold c_init. rewrite factory_params. reflexivity.
Qed.
Theorem wrap_params p fastpath t : c_wrap (as_arg p) None None fastpath t = if fastpath then Ok (CM t p) else c_init (as_arg p) None None t.
Proof. unfold c_wrap. rewrite factory_params. cbn [rbind]. now destruct fastpath. Qed.

(* objects with the same entries *)
Lemma holds_ext c c' vs ms : holds c vs ms -> holds c' vs ms ->
  (forall p m, valid vs p -> valid ms m -> mom_entry c p m = mom_entry c' p m) -> c = c'.
Proof.
  intros (T & S1 & _ & _ & P1) (T' & S2 & _ & _ & P2) E. destruct c as [t p], c' as [t' p']. unfold c_shape, mom_entry in *. cbn [c_obj c_params] in *. f_equal; [|congruence].
  apply tensor_ext; [assumption|assumption|congruence|]. intros idx V1. rewrite S1 in V1. destruct (valid_split _ _ _ V1) as (a & b & -> & Va & Vb). now apply E.
Qed.
(* an object whose array has the moment axes last is the one the constructor makes *)
Lemma init_last t vs ms : tensor_ok t -> tshape t = vs ++ ms -> length ms = 1 \/ length ms = 2 -> Forall (fun n => 2 <= n) ms ->
  forall m ndim axes, array_factory false m ndim axes (Some 1%Z) = Ok (AP (Some (Z.of_nat (length ms))) (Some (axes_last (length ms)))) ->
  c_init m ndim axes t = Ok (CM t (AP (Some (Z.of_nat (length ms))) (Some (axes_last (length ms))))) /\
  holds (CM t (AP (Some (Z.of_nat (length ms))) (Some (axes_last (length ms))))) vs ms.
Proof.
  intros T S' Lm G m ndim axes F. set (p := AP _ _). assert (H : holds (CM t p) vs ms) by (split; [exact T|]; split; [exact S'|]; auto).
  split; [|exact H]. pose proof (last_axes_get vs ms Lm) as Gl. rewrite <- S' in Gl.
  destruct (checked_iff t (Some (Z.of_nat (length ms))) _ _ Gl Lm) as [C _]. destruct (C G) as [C1 C2].
  unfold c_init. rewrite F. cbn [rbind]. rewrite C1. cbn [rbind]. unfold axes_to_end. cbn [ap_ndim ap_axes]. rewrite axes_last_of_nat by exact Lm. cbn [rbind ap_axes].
  replace (axes_eqb _ _) with true by (symmetry; now apply axes_eqb_eq). cbn [rbind fst snd]. exact C2.
Qed.

(* ---- wrap_raw ---------------------------------------------------------------------------- *)

(* C128: wrap_raw turns raw moments into central ones; the axes of the array stay *)
Theorem wrap_raw_entries nmax m ndim axes order raw l M L : array_factory false m ndim axes (Some 1%Z) = Ok (AP (Some (Z.of_nat (length l))) (Some l)) ->
  moment_axes l M L raw -> convertible nmax raw M ->
  exists c, c_wrap_raw nmax m ndim axes order raw = Ok c /\ c_params c = AP (Some (Z.of_nat (length l))) (Some l) /\
    moment_axes l M L (c_obj c) /\ tshape (c_obj c) = tshape raw /\
    forall p k, valid (map (shape_of raw) L) p -> valid (map (shape_of raw) M) k ->
      moment_entry (c_obj c) M L p k = central_of (moment_entry raw M L p) k.
Proof.
  intros F H C. destruct (moments_type_entries nmax l M L raw H "central" order C) as (u & Eu & Hu & Su & Gu).
  exists (CM u (AP (Some (Z.of_nat (length l))) (Some l))). unfold c_wrap_raw. rewrite F. cbn [rbind iter_axes ap_axes]. rewrite Eu. cbn [rbind].
  rewrite wrap_params. auto.
Qed.
(* raw moments with the moment axes last *)
Theorem wrap_raw_last nmax order raw vs ms : tensor_ok raw -> tshape raw = vs ++ ms -> length ms = 1 \/ length ms = 2 ->
  Forall (fun n => 2 <= n <= S nmax) ms ->
  exists c, c_wrap_raw nmax MPNone (Some (Z.of_nat (length ms))) None order raw = Ok c /\ holds c vs ms /\
    forall p m, valid vs p -> valid ms m -> mom_entry c p m = central_of (fun m => tget raw (p ++ m)) m.
Proof.
  intros T S' Lm G. assert (G2 : Forall (fun n => 2 <= n) ms) by (eapply Forall_impl; [|exact G]; cbn; lia).
  assert (Ll : length (axes_last (length ms)) = length ms) by (clear -Lm; destruct Lm as [-> | ->]; reflexivity).
  set (q := AP (Some (Z.of_nat (length ms))) (Some (axes_last (length ms)))).
  assert (H0 : holds (CM raw q) vs ms) by (split; [exact T|]; split; [exact S'|]; auto).
  destruct (holds_axes _ _ _ H0) as (MA & SM & SL & _). cbn [c_obj] in MA, SM, SL.
  assert (F : array_factory false MPNone (Some (Z.of_nat (length ms))) None (Some 1%Z) = Ok (AP (Some (Z.of_nat (length (axes_last (length ms))))) (Some (axes_last (length ms)))))
    by (rewrite Ll; now apply factory_last).
  assert (C : convertible nmax raw (seq (length vs) (length ms))).
  { split; [rewrite seq_length; exact Lm|]. apply (Forall_map (shape_of raw) (fun n => 2 <= n <= S nmax)). now rewrite SM. }
  destruct (wrap_raw_entries nmax MPNone _ None order raw _ _ _ F MA C) as (c & E & Pc & MC & Sc & Gc).
  exists c. split; [exact E|]. rewrite Ll in Pc. assert (Hc : holds c vs ms) by (split; [apply MC|]; split; [unfold c_shape; congruence|]; auto).
  split; [exact Hc|]. intros p m Vp Vm. rewrite SL, SM in Gc. rewrite <- (holds_entry _ _ _ _ _ Hc Vp Vm), Gc by assumption.
    apply (central_of_ext nmax ms); [exact Lm|exact G| |exact Vm]. intros m' Vm'. now apply (holds_entry _ _ _ _ _ H0 Vp Vm').
Qed.
(* C128: wrap_raw(c.to_raw()) is c; wrap_raw(raw).to_raw() is raw *)
Theorem wrap_raw_of_to_raw nmax order c vs ms : holds c vs ms -> Forall (fun n => n <= S nmax) ms ->
  rbind (c_to_raw nmax c None) (c_wrap_raw nmax MPNone (Some (Z.of_nat (length ms))) None order) = Ok c.
Proof.
  intros H Fit. destruct (holds_axes _ _ _ H) as (MA & SM & SL & IA). pose proof H as (T & S' & Lm & G & Pc).
  pose proof (moments_type_round_trip nmax _ _ _ _ "raw" "central" false order MA (object_convertible c vs ms H nmax Fit)) as R.
  unfold c_to_raw, c_wrap_raw. rewrite IA. cbn [rbind]. rewrite (factory_last _ _ Lm). cbn [rbind iter_axes ap_axes].
  destruct (moments_type_nd nmax "raw" _ _ _ _) as [u|e]; cbn [rbind] in R |- *; [|discriminate R; split; [discriminate|intros X; now elim X]].
  rewrite R by (split; [discriminate|intros X; now elim X]). cbn [rbind]. rewrite wrap_params, <- Pc. now destruct c.
Qed.
Theorem to_raw_of_wrap_raw nmax order raw vs ms : tensor_ok raw -> tshape raw = vs ++ ms -> length ms = 1 \/ length ms = 2 ->
  Forall (fun n => 2 <= n <= S nmax) ms ->
  rbind (c_wrap_raw nmax MPNone (Some (Z.of_nat (length ms))) None order raw) (fun c => c_to_raw nmax c None) = Ok raw.
Proof.
  intros T S' Lm G. assert (G2 : Forall (fun n => 2 <= n) ms) by (eapply Forall_impl; [|exact G]; cbn; lia).
  set (q := AP (Some (Z.of_nat (length ms))) (Some (axes_last (length ms)))).
  assert (H0 : holds (CM raw q) vs ms) by (split; [exact T|]; split; [exact S'|]; auto).
  destruct (holds_axes _ _ _ H0) as (MA & SM & SL & _). cbn [c_obj] in MA, SM, SL.
  pose proof (moments_type_round_trip nmax _ _ _ _ "central" "raw" order false MA) as R.
  assert (C : convertible nmax raw (seq (length vs) (length ms))).
  { split; [rewrite seq_length; exact Lm|]. apply (Forall_map (shape_of raw) (fun n => 2 <= n <= S nmax)). now rewrite SM. }
  specialize (R C). unfold c_wrap_raw. rewrite (factory_last _ _ Lm). cbn [rbind iter_axes ap_axes].
  destruct (moments_type_nd nmax "central" _ _ _ _) as [u|e]; cbn [rbind] in R |- *; [|discriminate R; split; [intros _; discriminate|reflexivity]].
  rewrite wrap_params. cbn [rbind]. unfold c_to_raw. cbn [c_params iter_axes ap_axes rbind c_obj].
  rewrite R by (split; [intros _; discriminate|reflexivity]). reflexivity.
Qed.

(* the weight does not enter the other moments *)
Lemma moved_moment_ext d g g' m : (forall k, g k = g' k) -> moved_moment d g m = moved_moment d g' m.
Proof.
  intros E. destruct m as [|i [|j [|? ?]]], d as [|x [|y [|? ?]]]; try reflexivity; cbn [moved_moment].
  - apply sumn_ext. intros k _. now rewrite E.
  - apply sumn_ext. intros k _. apply sumn_ext. intros l _. now rewrite E.
Qed.
Definition with_weight (w : Qc) (f : list nat -> Qc) (m : list nat) : Qc := if forallb (Nat.eqb 0) m then w else f m.
Lemma central_of_weight f w m : length m = 1 \/ length m = 2 -> central_of (with_weight w f) m = with_weight w (central_of f) m.
Proof.
  intros Lm. assert (E : forall k, raw_normal (with_weight w f) k = raw_normal f k) by (intros k; unfold raw_normal, with_weight; now destruct (forallb _ k)).
  unfold central_of, with_weight at 3. destruct m as [|i [|j [|? ?]]]; cbn [length] in Lm; try lia.
  - destruct i as [|[|i]]; try reflexivity. apply (moved_moment_ext _ _ _ _ E).
  - destruct i as [|[|i]], j as [|[|j]]; try reflexivity; apply (moved_moment_ext _ _ _ _ E).
Qed.
(* C128: with a weight in to_raw, wrap_raw makes the object with that weight *)
Theorem wrap_raw_of_to_raw_weight nmax order c vs ms w : holds c vs ms -> Forall (fun n => n <= S nmax) ms -> fits_over vs w ->
  exists c', rbind (c_to_raw nmax c (Some w)) (c_wrap_raw nmax MPNone (Some (Z.of_nat (length ms))) None order) = Ok c' /\
    c_assign_moment c [("weight"%string, w)] true = Ok c' /\ holds c' vs ms.
Proof.
  intros H Fit F. pose proof H as (T & S' & Lm & G & Pc). pose proof (object_sizes c vs ms H nmax Fit) as Sz.
  destruct (object_to_raw_weight c vs ms H nmax Fit w F) as (raw & Er & Tr & Sr & Gr). rewrite Er. cbn [rbind].
  destruct (wrap_raw_last nmax order raw vs ms Tr Sr Lm Sz) as (c' & E' & H' & G'). exists c'. split; [exact E'|].
  assert (W : exists at0, In ("weight"%string, ([], at0)) (moment_names true ms) /\ all_exist ms [] at0 /\
    forall m, valid ms m -> (forallb (Nat.eqb 0) m = true <-> m = at0 [])) by exact (weight_name ms Lm G).
  destruct W as (at0 & I0 & E0 & W).
  destruct (object_assign c vs ms H "weight" true [] at0 w I0 E0) as (c2 & E2 & H2 & A1 & A2); [now rewrite app_nil_r|].
  rewrite E2. split; [|exact H']. f_equal. apply (holds_ext c2 c' vs ms H2 H'). intros p m Vp Vm. rewrite G' by assumption.
  assert (Lk : length m = 1 \/ length m = 2) by (rewrite (valid_length _ _ Vm); exact Lm).
  rewrite (central_of_ext nmax ms _ (with_weight (value_over w p) (raw_of (mom_entry c p))) m Lm Sz) by (exact Vm || (intros m' Vm'; now apply Gr)).
  rewrite central_of_weight by exact Lk. unfold with_weight. destruct (forallb (Nat.eqb 0) m) eqn:Em.
  - rewrite (proj1 (W m Vm) Em). rewrite (A1 p []) by (exact Vp || constructor). now rewrite app_nil_r.
  - rewrite A2; [|exact Vp|exact Vm|intros q Vq; inversion Vq; subst; intros X; symmetry in X; apply (W m Vm) in X; congruence].
    pose proof (converted_back nmax "raw" "central" ms (mom_entry c p) m Lm Sz) as B.
    assert (X : converted "central" (converted "raw" (mom_entry c p)) m = central_of (raw_of (mom_entry c p)) m).
    { rewrite (converted_ext nmax "central" ms _ (raw_of (mom_entry c p)) m Lm Sz) by (exact Vm || (intros k Vk; rewrite converted_spec; reflexivity)). now rewrite converted_spec. }
    rewrite <- X. symmetry. apply B; [split; [discriminate|intros Y; now elim Y]|exact Vm].
Qed.
