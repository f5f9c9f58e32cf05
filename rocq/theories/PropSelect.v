(* Moments by name of arrays with several axes: select_moment, assign_moment. *)
From Coq Require Import Permutation String.
From Verif Require Import Base BaseLemmas ModelKernels ModelIndex ModelAxes ModelNd ModelWrap ModelMoments
  Spec SpecAxes SpecNd SpecMoments ProofAxes ProofArrays ProofMulti PropAxes ProofNd PropWrap SpecMethods ProofMethods ProofMoments PropMoments.
Local Notation length := List.length (only parsing).
Local Open Scope string_scope.
Local Open Scope list_scope.

(* ---- names ------------------------------------------------------------------------- *)

Definition all_positive (s : list nat) : Prop := Forall (fun n => 0 < n) s.
Definition picks (ps : list pick) (s sh : list nat) (at_ : list nat -> list nat) : Prop :=
  (ps = [] /\ sh = s /\ forall q, at_ q = q) \/
  (length ps = length s /\ ps <> [] /\ pick_shape ps s = sh /\ (forall q, valid sh q -> pick_index ps q = at_ q) /\
   (forallb (fun p => pick_ok (fst p) (snd p)) (combine ps s) = true -> all_exist s sh at_) /\
   (all_positive s -> all_exist s sh at_ -> forallb (fun p => pick_ok (fst p) (snd p)) (combine ps s) = true)).

Ltac read_index := repeat match goal with H : valid _ _ |- _ => inversion H; clear H; subst | H : Forall2 _ _ _ |- _ => inversion H; clear H; subst end.
Ltac split_index := read_index; repeat match goal with H : ?y < 2 |- _ => is_var y; destruct y as [|[|y]]; [| |lia] | H : ?y < 1 |- _ => is_var y; destruct y as [|y]; [|lia] end.
Ltac make_index := repeat first [apply Forall2_nil | apply Forall2_cons]; try lia; try assumption.
Ltac one_name := eexists; split; [vm_compute; reflexivity|]; right; split; [reflexivity|]; split; [discriminate|]; split; [reflexivity|]; split;
  [intros q V; split_index; reflexivity|cbn [combine forallb fst snd pick_ok]; rewrite ?andb_true_r, ?andb_true_iff, ?Nat.ltb_lt].
Lemma name_table squeeze s name sh at_ : length s = 1 \/ length s = 2 -> In (name, (sh, at_)) (moment_names squeeze s) ->
  exists ps, name_indexer name (length s) squeeze = Ok ps /\ picks ps s sh at_.
Proof.
  intros Ls H. destruct s as [|n0 [|n1 [|? ?]]]; cbn in Ls; try lia; clear Ls; cbn [length].
  - cbn [moment_names] in H. destruct squeeze;
      repeat (destruct H as [H|H]; [injection H as <- <- <-|]); try destruct H;
      try (eexists; split; [reflexivity|]; left; split; [reflexivity|]; split; reflexivity);
      one_name; (split; [intros E q V; make_index|intros _ E]);
      first [specialize (E [] (Forall2_nil _)); now inversion E|specialize (E [0] ltac:(make_index)); now inversion E].
  - cbn [moment_names] in H. destruct squeeze; repeat (destruct H as [H|H]; [injection H as <- <- <-|]); try destruct H;
      try (eexists; split; [reflexivity|]; left; split; [reflexivity|]; split; reflexivity);
      one_name; (split; [intros E q V; split_index; cbn [hd nth]; make_index|intros Z E]);
      (assert (Z0 : 0 < n0) by (now inversion Z)); (assert (Z1 : 0 < n1) by (inversion Z as [|? ? ? Z']; now inversion Z'));
      first [pose proof (E [] (Forall2_nil _)) as E1; read_index; (tauto || lia)
            |pose proof (E [0] ltac:(make_index)) as E1; pose proof (E [1] ltac:(make_index)) as E2; cbn [hd nth] in E1, E2; read_index; (tauto || lia)
            |pose proof (E [0] ltac:(make_index)) as E1; cbn [hd nth] in E1; read_index; (tauto || lia)].
Qed.
Lemma names_distinct squeeze s name sh at_ sh' at_' : In (name, (sh, at_)) (moment_names squeeze s) -> In (name, (sh', at_')) (moment_names squeeze s) -> sh = sh' /\ at_ = at_'.
Proof.
  assert (G : NoDup (map fst (moment_names squeeze s))).
  { destruct s as [|n0 [|n1 [|? ?]]]; cbn [moment_names map fst]; repeat (apply NoDup_cons; [intros Q; repeat (destruct Q as [Q|Q]; [discriminate|]); destruct Q|]); apply NoDup_nil. }
  revert G. generalize (moment_names squeeze s). induction l as [|[k v] l IH]; intros G H H'; [destruct H|]. inversion G as [|? ? N G']; subst.
  destruct H as [H|H], H' as [H'|H'].
  - split; congruence.
  - exfalso. injection H as -> ->. apply N. exact (in_map fst _ _ H').
  - exfalso. injection H' as -> ->. apply N. exact (in_map fst _ _ H).
  - now apply IH.
Qed.
(* every other name is refused *)
Lemma name_unknown squeeze s name : length s = 1 \/ length s = 2 -> ~ In name (map fst (moment_names squeeze s)) ->
  name_indexer name (length s) squeeze = Raise EValue.
Proof.
  intros Ls H. assert (N : forall c, In c (map fst (moment_names squeeze s)) -> String.eqb name c = false).
  { intros c Hc. apply String.eqb_neq. intros ->. tauto. }
  assert (N' : forall c, In c (map fst (moment_names squeeze s)) -> String.eqb c name = false) by (intros c Hc; rewrite String.eqb_sym; now apply N).
  clear H. destruct s as [|n0 [|n1 [|? ?]]]; cbn in Ls; try lia; clear Ls; cbn [length]; unfold name_indexer; cbn [Nat.eqb find fst].
  - rewrite !N by (cbn; tauto). rewrite !N' by (cbn; tauto). reflexivity.
  - rewrite !N by (cbn; tauto). rewrite !N' by (cbn; tauto). reflexivity.
Qed.
(* different places of a selection are different moments *)
Lemma names_injective squeeze s name sh at_ q q' : In (name, (sh, at_)) (moment_names squeeze s) -> valid sh q -> valid sh q' -> at_ q = at_ q' -> q = q'.
Proof.
  intros H V V'. destruct s as [|n0 [|n1 [|? ?]]]; cbn [moment_names] in H; [destruct H| | |destruct H].
  - destruct squeeze; repeat (destruct H as [H|H]; [injection H as <- <- <-|]); try destruct H; split_index; cbn [hd nth]; intros Q; congruence.
  - destruct squeeze; repeat (destruct H as [H|H]; [injection H as <- <- <-|]); try destruct H; split_index; cbn [hd nth]; intros Q; congruence.
Qed.

(* ---- indexing expressions ------------------------------------------------------------ *)

Lemma skipn_lead {X} (p m : list X) k : length p = k -> skipn k (p ++ m) = m.
Proof. intros <-. rewrite skipn_app, skipn_all, Nat.sub_diag. reflexivity. Qed.
(* the indices of the array that a selection reads, with leading axes ls *)
Lemma picks_checked ps ls s sh at_ u : tshape u = ls ++ s -> picks ps s sh at_ -> all_exist s sh at_ -> (ps <> [] -> all_positive s) ->
  exists k, pick_checked ps u = Ok (k, ls ++ sh) /\ forall p q, length p = length ls -> valid sh q -> pick_source ps k (p ++ q) = p ++ at_ q.
Proof.
  intros Su [(-> & -> & Ea)|(Lp & Ne & Es & Ei & _ & Ex)] AE Ps.
  - exists (tndim u). unfold pick_checked. cbn [length]. replace (Nat.ltb (tndim u) 0) with false by (symmetry; apply Nat.ltb_ge; lia).
    rewrite Nat.sub_0_r. cbn [combine forallb negb]. unfold tndim. rewrite firstn_all, app_nil_r, Su. split; [reflexivity|].
    intros p q Lp V. unfold pick_source. cbn [pick_index]. rewrite app_nil_r, Ea. rewrite firstn_all2; [reflexivity|]. rewrite !app_length, (valid_length _ _ V). lia.
  - exists (length ls). unfold pick_checked. assert (N : tndim u = length ls + length s) by (unfold tndim; now rewrite Su, app_length).
    rewrite N, Lp. replace (Nat.ltb (length ls + length s) (length s)) with false by (symmetry; apply Nat.ltb_ge; lia).
    replace (length ls + length s - length s) with (length ls) by lia. rewrite Su, skipn_lead, firstn_lead by reflexivity.
    rewrite Ex by auto. cbn [negb]. destruct ps as [|x ps]; [tauto|]. rewrite Es. split; [reflexivity|].
    intros p q Lq V. unfold pick_source. rewrite firstn_lead, skipn_lead by exact Lq. now rewrite Ei.
Qed.
Lemma picks_missing ps ls s sh at_ u : tshape u = ls ++ s -> picks ps s sh at_ -> ~ all_exist s sh at_ -> pick_checked ps u = Raise EIndex.
Proof.
  intros Su [(-> & -> & Ea)|(Lp & Ne & Es & Ei & Ex & _)] NE.
  - exfalso. apply NE. intros q V. now rewrite Ea.
  - unfold pick_checked. assert (N : tndim u = length ls + length s) by (unfold tndim; now rewrite Su, app_length).
    rewrite N, Lp. replace (Nat.ltb (length ls + length s) (length s)) with false by (symmetry; apply Nat.ltb_ge; lia).
    replace (length ls + length s - length s) with (length ls) by lia. rewrite Su, skipn_lead by reflexivity.
    destruct (forallb _ _) eqn:E; [exfalso; apply NE, Ex; reflexivity|reflexivity].
Qed.

Section Select.
  Context (mom_axes : list Z) (M L : list nat) (t : tensor).
  Hypothesis H : moment_axes mom_axes M L t.
  Hypothesis HM : length M = 1 \/ length M = 2.
  Let sh := shape_of t.
  Let ms := map sh M.

  Lemma ms_len : length ms = 1 \/ length ms = 2.
  Proof. unfold ms. now rewrite map_length. Qed.
  Lemma ms_axes : length mom_axes = length ms.
  Proof. unfold ms. rewrite map_length. apply (ax_lenM _ _ _ _ H). Qed.

  (* C122: the named moments at every position of the other axes *)
  Theorem select_moment_entries name squeeze qs at_ : In (name, (qs, at_)) (moment_names squeeze ms) -> all_positive ms -> all_exist ms qs at_ ->
    exists out, select_moment_nd name mom_axes squeeze t = Ok out /\ tensor_ok out /\ tshape out = map sh L ++ qs /\
      forall p q, valid (map sh L) p -> valid qs q -> tget out (p ++ q) = moment_entry t M L p (at_ q).
  Proof.
    intros HN AP AE. destruct (moved_entries mom_axes M L t H) as (u & Eu & Tu & Su & Gu). unfold select_moment_nd. rewrite Eu. cbn [rbind].
    assert (Nu : tndim u = length L + length M) by (unfold tndim; rewrite Su, app_length, !map_length; reflexivity).
    rewrite (ax_lenM _ _ _ _ H). replace (Nat.ltb (tndim u) (length M)) with false by (symmetry; apply Nat.ltb_ge; lia).
    destruct (name_table squeeze ms name qs at_ ms_len HN) as (ps & Eps & PS). unfold ms in Eps. rewrite map_length in Eps. rewrite Eps. cbn [rbind].
    fold sh in Su. fold ms in Su. destruct (picks_checked ps (map sh L) ms qs at_ u Su PS AE (fun _ => AP)) as (k & Ek & Src).
    unfold pick_get. rewrite Ek. cbn [rbind]. eexists. split; [reflexivity|]. split; [apply tabulate_ok|]. split; [reflexivity|].
    intros p q Vp Vq. rewrite tget_tabulate by (now apply Forall2_app). rewrite Src by (exact (valid_length _ _ Vp) || exact Vq).
    apply Gu; [exact Vp|]. now apply AE.
  Qed.
  (* a moment the array does not hold *)
  Theorem select_moment_missing name squeeze qs at_ : In (name, (qs, at_)) (moment_names squeeze ms) -> ~ all_exist ms qs at_ ->
    select_moment_nd name mom_axes squeeze t = Raise EIndex.
  Proof.
    intros HN NE. destruct (moved_entries mom_axes M L t H) as (u & Eu & Tu & Su & Gu). unfold select_moment_nd. rewrite Eu. cbn [rbind].
    assert (Nu : tndim u = length L + length M) by (unfold tndim; rewrite Su, app_length, !map_length; reflexivity).
    rewrite (ax_lenM _ _ _ _ H). replace (Nat.ltb (tndim u) (length M)) with false by (symmetry; apply Nat.ltb_ge; lia).
    destruct (name_table squeeze ms name qs at_ ms_len HN) as (ps & Eps & PS). unfold ms in Eps. rewrite map_length in Eps. rewrite Eps. cbn [rbind].
    unfold pick_get. rewrite (picks_missing ps (map sh L) ms qs at_ u Su PS NE). reflexivity.
  Qed.
  Theorem select_moment_unknown name squeeze : ~ In name (map fst (moment_names squeeze ms)) ->
    select_moment_nd name mom_axes squeeze t = Raise EValue.
  Proof.
    intros NI. destruct (moved_entries mom_axes M L t H) as (u & Eu & Tu & Su & Gu). unfold select_moment_nd. rewrite Eu. cbn [rbind].
    destruct (Nat.ltb _ _); [reflexivity|]. rewrite ms_axes, (name_unknown squeeze ms name ms_len NI). reflexivity.
  Qed.
End Select.

(* axes that the array does not have, or given twice *)
Lemma no_axes_refused mom_axes t : (forall M, ~ (Forall2 (is_axis (tndim t)) mom_axes M /\ NoDup M)) ->
  normalize_axis_tuple (Some (map AInt mom_axes)) (tndim t) None false = Raise EValue.
Proof.
  intros NA. destruct (normalize_axis_tuple _ _ _ _) as [l|e] eqn:E; [|f_equal; exact (normalize_tuple_err _ _ _ _ _ E)].
  apply normalize_tuple_ok in E. destruct E as (F & N). exfalso. apply (NA l). split; [|exact N]. clear -F.
  revert F. generalize (tndim t) as n. intros n. revert l. induction mom_axes as [|z zs IH]; intros l F; inversion F as [|? a ? l' Ha F']; subst; constructor; [exact Ha|now apply IH].
Qed.
Theorem bad_moment_axes_refused mom_axes t : (forall M, ~ (Forall2 (is_axis (tndim t)) mom_axes M /\ NoDup M)) ->
  (forall name squeeze, select_moment_nd name mom_axes squeeze t = Raise EValue) /\
  (forall nmax to to_end order, moments_type_nd nmax to mom_axes to_end order t = Raise EValue) /\
  (mom_moved mom_axes = true -> forall names squeeze, assign_moment_nd names mom_axes squeeze t = Raise EValue) /\
  (forall junk, comoments_to_moments_nd junk mom_axes t = Raise EValue) /\
  (forall z mom, mom_axes = [z] -> moments_to_comoments_nd mom z t = Raise EValue).
Proof.
  intros NA. pose proof (no_axes_refused mom_axes t NA) as E.
  assert (MV : forall d, np_moveaxis mom_axes d t = Raise EValue) by (intros d; unfold np_moveaxis, moveaxis_order; rewrite E; reflexivity).
  split; [|split; [|split; [|split]]].
  - intros name squeeze. unfold select_moment_nd. destruct (mom_moved mom_axes) eqn:MM; [now rewrite MV|]. cbn [rbind].
    destruct (Nat.ltb_spec (tndim t) (length mom_axes)) as [|Le]; [reflexivity|]. exfalso.
    unfold mom_moved in MM. destruct (list_eq_dec _ mom_axes _) as [EM|]; [|discriminate].
    apply (NA (seq (tndim t - length mom_axes) (length mom_axes))). split; [|apply seq_NoDup]. rewrite EM at 1. now apply axes_last_positions.
  - intros nmax to to_end order. unfold moments_type_nd, core_axes. cbn [fst snd]. rewrite E. reflexivity.
  - intros MM names squeeze. unfold assign_moment_nd. rewrite MM, MV. reflexivity.
  - intros junk. unfold comoments_to_moments_nd. now rewrite MV.
  - intros z mom ->. unfold moments_to_comoments_nd. now rewrite MV.
Qed.
