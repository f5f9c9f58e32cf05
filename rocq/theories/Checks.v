(* Boolean comparison of arrays, to evaluate concrete cases. *)
From Verif Require Import Base BaseLemmas.
Local Open Scope Qc_scope.

Definition lz (l : list Z) : arr := map qz l.
(* p/q *)
Definition fr (p q : Z) : Qc := qz p / qz q.

Fixpoint eqb1 (a b : arr) : bool :=
  match a, b with
  | [], [] => true
  | x :: a, y :: b => qeqb x y && eqb1 a b
  | _, _ => false
  end.
Fixpoint eqb2 (a b : arr2) : bool :=
  match a, b with
  | [], [] => true
  | x :: a, y :: b => eqb1 x y && eqb2 a b
  | _, _ => false
  end.
Definition oeqb {A} (e : A -> A -> bool) (a b : option A) : bool :=
  match a, b with
  | Some x, Some y => e x y
  | None, None => true
  | _, _ => false
  end.
Fixpoint leqb {A} (e : A -> A -> bool) (a b : list A) : bool :=
  match a, b with
  | [], [] => true
  | x :: a, y :: b => e x y && leqb e a b
  | _, _ => false
  end.

Lemma eqb1_eq a : forall b, eqb1 a b = true <-> a = b.
Proof.
  induction a as [|x a IH]; intros [|y b]; cbn; try (split; [discriminate|discriminate]); [tauto|].
  rewrite Bool.andb_true_iff, IH. destruct (qeqb_spec x y) as [->|N].
  - split; [intros [_ ->]; reflexivity|intros [= ->]; auto].
  - split; [intros [? _]; discriminate|intros [= ? ?]; contradiction].
Qed.
Lemma eqb2_eq a : forall b, eqb2 a b = true <-> a = b.
Proof.
  induction a as [|x a IH]; intros [|y b]; cbn; try (split; [discriminate|discriminate]); [tauto|].
  rewrite Bool.andb_true_iff, IH, eqb1_eq. split; [intros [-> ->]; reflexivity|intros [= -> ->]; auto].
Qed.
Lemma oeqb_eq {A} (e : A -> A -> bool) : (forall a b, e a b = true <-> a = b) ->
  forall a b, oeqb e a b = true <-> a = b.
Proof.
  intros H [a|] [b|]; cbn; try (split; [discriminate|discriminate]); [|tauto].
  rewrite H. split; [now intros ->|now intros [= ->]].
Qed.
Lemma leqb_eq {A} (e : A -> A -> bool) : (forall a b, e a b = true <-> a = b) ->
  forall a b, leqb e a b = true <-> a = b.
Proof.
  intros H. induction a as [|x a IH]; intros [|y b]; cbn; try (split; [discriminate|discriminate]); [tauto|].
  rewrite Bool.andb_true_iff, IH, H. split; [intros [-> ->]; reflexivity|intros [= -> ->]; auto].
Qed.
Lemma eqb1_neq a b : eqb1 a b = false -> a <> b.
Proof. intros H E. apply eqb1_eq in E. congruence. Qed.
Lemma oeqb1_eq (a b : option arr) : oeqb eqb1 a b = true -> a = b.
Proof. apply (oeqb_eq _ eqb1_eq). Qed.
Lemma oeqb1_neq (a b : option arr) : oeqb eqb1 a b = false -> a <> b.
Proof. intros H E. apply (oeqb_eq _ eqb1_eq) in E. congruence. Qed.
Lemma oeqb2_eq (a b : option arr2) : oeqb eqb2 a b = true -> a = b.
Proof. apply (oeqb_eq _ eqb2_eq). Qed.
Lemma oleqb1_eq (a b : option (list arr)) : oeqb (leqb eqb1) a b = true -> a = b.
Proof. apply (oeqb_eq _ (leqb_eq _ eqb1_eq)). Qed.
Lemma oleqb1_neq (a b : option (list arr)) : oeqb (leqb eqb1) a b = false -> a <> b.
Proof. intros H E. apply (oeqb_eq _ (leqb_eq _ eqb1_eq)) in E. congruence. Qed.
Lemma oloeqb1_eq (a b : option (list (option arr))) : oeqb (leqb (oeqb eqb1)) a b = true -> a = b.
Proof. apply (oeqb_eq _ (leqb_eq _ (oeqb_eq _ eqb1_eq))). Qed.
Lemma oloeqb1_neq (a b : option (list (option arr))) : oeqb (leqb (oeqb eqb1)) a b = false -> a <> b.
Proof. intros H E. apply (oeqb_eq _ (leqb_eq _ (oeqb_eq _ eqb1_eq))) in E. congruence. Qed.

(* concrete (in)equalities and orders of rationals *)
Lemma qc_neq a b : qeqb a b = false -> a <> b.
Proof. destruct (qeqb_spec a b); congruence. Qed.
Lemma qc_eq a b : qeqb a b = true -> a = b.
Proof. destruct (qeqb_spec a b); congruence. Qed.
Ltac qle := vm_compute; intros; discriminate.
Ltac qlist := repeat (constructor; try qle).
