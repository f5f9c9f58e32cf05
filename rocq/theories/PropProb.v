(* The inverse normal distribution of core/prob.py (C96, C97): the published rational
   approximation, strictly increasing over the whole of [0, 1]; acceleration at most 1/6;
   the end points of a bca interval come out in the order of the levels. *)
From Coq Require Import String Ascii Permutation.
From Verif Require Import Base BaseLemmas ModelIndex ModelConf ProofLabels Checks PropConf.
Close Scope string_scope.
Local Open Scope Qc_scope.

(* ---- specification ------------------------------------------------------------------ *)

(* coefficients as published by P. Acklam, highest power first *)
Definition published_a : list Qc := map Q2Qc
  [-39.69683028665376; 220.9460984245205; -275.9285104469687; 138.3577518672690; -30.66479806614716; 2.506628277459239]%Q.
Definition published_b : list Qc := map Q2Qc
  [-54.47609879822406; 161.5858368580409; -155.6989798598866; 66.80131188771972; -13.28068155288572; 1]%Q.
Definition published_c : list Qc := map Q2Qc
  [-0.007784894002430293; -0.3223964580411365; -2.400758277161838; -2.549732539343734; 4.374664141464968; 2.938163982698783]%Q.
Definition published_d : list Qc := map Q2Qc
  [0.007784695709041462; 0.3224671290700398; 2.445134137142996; 3.754408661907416; 1]%Q.
Definition p_low : Qc := Q2Qc 0.02425%Q.
Fixpoint power_sum (cs : list Qc) (x : Qc) : Qc :=
  match cs with [] => 0 | c :: t => c * x ^ List.length t + power_sum t x end.

(* order of floating point values without nan *)
Definition nlt (x y : num) : Prop :=
  match x, y with
  | Fin a, Fin b => a < b
  | NInf, Fin _ | NInf, PInf | Fin _, PInf => True
  | _, _ => False
  end.

(* ---- the published formula ------------------------------------------------------------ *)

Ltac qcomp := apply qeqb_eq; vm_compute; reflexivity.
Lemma qleb_le a b : qleb a b = true -> a <= b. Proof. now destruct (qleb_spec a b). Qed.
Lemma qltb_lt a b : qltb a b = true -> a < b. Proof. now destruct (qltb_spec a b). Qed.
Ltac qle := apply qleb_le; vm_compute; reflexivity.
Ltac qlt := apply qltb_lt; vm_compute; reflexivity.

Definition poly4 (q0 q1 q2 q3 q4 s : Qc) : Qc := q0 + s * (q1 + s * (q2 + s * (q3 + s * q4))).
Definition poly5 (q0 q1 q2 q3 q4 q5 s : Qc) : Qc := q0 + s * (q1 + s * (q2 + s * (q3 + s * (q4 + s * q5)))).

Lemma horner5 a b c d e f s : ((((a * s + b) * s + c) * s + d) * s + e) * s + f = poly5 f e d c b a s.
Proof. unfold poly5. ring. Qed.
Lemma horner4 a b c d e s : (((a * s + b) * s + c) * s + d) * s + e = poly4 e d c b a s.
Proof. unfold poly4. ring. Qed.
Lemma power5 a b c d e f s : power_sum [a; b; c; d; e; f] s = poly5 f e d c b a s.
Proof. unfold poly5. cbn [power_sum List.length Qcpower]. ring. Qed.
Lemma power4 a b c d e s : power_sum [a; b; c; d; e] s = poly4 e d c b a s.
Proof. unfold poly4. cbn [power_sum List.length Qcpower]. ring. Qed.

Definition n0 := Q2Qc 2.506628277459239%Q.
Definition n1 := Q2Qc (-30.66479806614716)%Q.
Definition n2 := Q2Qc 138.3577518672690%Q.
Definition n3 := Q2Qc (-275.9285104469687)%Q.
Definition n4 := Q2Qc 220.9460984245205%Q.
Definition n5 := Q2Qc (-39.69683028665376)%Q.
Definition d0 := Q2Qc 1%Q.
Definition d1 := Q2Qc (-13.28068155288572)%Q.
Definition d2 := Q2Qc 66.80131188771972%Q.
Definition d3 := Q2Qc (-155.6989798598866)%Q.
Definition d4 := Q2Qc 161.5858368580409%Q.
Definition d5 := Q2Qc (-54.47609879822406)%Q.
Definition t0 := Q2Qc 2.938163982698783%Q.
Definition t1 := Q2Qc 4.374664141464968%Q.
Definition t2 := Q2Qc (-2.549732539343734)%Q.
Definition t3 := Q2Qc (-2.400758277161838)%Q.
Definition t4 := Q2Qc (-0.3223964580411365)%Q.
Definition t5 := Q2Qc (-0.007784894002430293)%Q.
Definition u0 := Q2Qc 1%Q.
Definition u1 := Q2Qc 3.754408661907416%Q.
Definition u2 := Q2Qc 2.445134137142996%Q.
Definition u3 := Q2Qc 0.3224671290700398%Q.
Definition u4 := Q2Qc 0.007784695709041462%Q.

Lemma central_poly o : central o = o * poly5 n0 n1 n2 n3 n4 n5 (o * o) / poly5 d0 d1 d2 d3 d4 d5 (o * o).
Proof.
  unfold central. cbv zeta. generalize (o * o). intros s. unfold Qcminus.
  assert (E5 : dec (-3969683028665376) 14 = n5) by qcomp. assert (E4 : dec 2209460984245205 13 = n4) by qcomp.
  assert (E3 : - dec 2759285104469687 13 = n3) by qcomp. assert (E2 : dec 1383577518672690 13 = n2) by qcomp.
  assert (E1 : - dec 3066479806614716 14 = n1) by qcomp. assert (E0 : dec 2506628277459239 15 = n0) by qcomp.
  assert (F5 : dec (-5447609879822406) 14 = d5) by qcomp. assert (F4 : dec 1615858368580409 13 = d4) by qcomp.
  assert (F3 : - dec 1556989798598866 13 = d3) by qcomp. assert (F2 : dec 6680131188771972 14 = d2) by qcomp.
  assert (F1 : - dec 1328068155288572 14 = d1) by qcomp. assert (F0 : 1 = d0) by qcomp.
  rewrite E5, E4, E3, E2, E1, E0, F5, F4, F3, F2, F1. rewrite F0 at 1. rewrite !horner5.
  now rewrite (Qcmult_comm _ o).
Qed.
Lemma tail_poly o : tail o = poly5 t0 t1 t2 t3 t4 t5 o / poly4 u0 u1 u2 u3 u4 o.
Proof.
  unfold tail, Qcminus.
  assert (E5 : dec (-7784894002430293) 18 = t5) by qcomp. assert (E4 : - dec 3223964580411365 16 = t4) by qcomp.
  assert (E3 : - dec 2400758277161838 15 = t3) by qcomp. assert (E2 : - dec 2549732539343734 15 = t2) by qcomp.
  assert (E1 : dec 4374664141464968 15 = t1) by qcomp. assert (E0 : dec 2938163982698783 15 = t0) by qcomp.
  assert (F4 : dec 7784695709041462 18 = u4) by qcomp. assert (F3 : dec 3224671290700398 16 = u3) by qcomp.
  assert (F2 : dec 2445134137142996 15 = u2) by qcomp. assert (F1 : dec 3754408661907416 15 = u1) by qcomp.
  assert (F0 : 1 = u0) by qcomp.
  rewrite E5, E4, E3, E2, E1, E0, F4, F3, F2, F1. rewrite F0 at 1. now rewrite horner5, horner4.
Qed.
Local Opaque central tail.

(* the middle, and the two tails *)
Theorem ndtri_published : forall root junk p,
  (p_low <= p -> p <= 1 - p_low ->
   ndtri root junk p = Fin (let o := p - half in o * power_sum published_a (o * o) / power_sum published_b (o * o))) /\
  (0 < p -> p < p_low -> ndtri root junk p = Fin (power_sum published_c (root p) / power_sum published_d (root p))).
Proof.
  intros root junk p.
  assert (EL : dec 2425 5 = p_low) by qcomp. assert (EH : dec 97575 5 = 1 - p_low) by qcomp.
  assert (L0 : 0 < p_low) by reflexivity. assert (LH : p_low < 1 - p_low) by reflexivity. assert (H1 : 1 - p_low < 1) by reflexivity.
  unfold ndtri. rewrite EL, EH, dec_half. clear EL EH. split.
  - intros A B. cbv zeta. unfold qleb.
    destruct (qltb_spec p p_low) as [X|_]; [exfalso; exact (Qclt_not_le _ _ X A)|].
    destruct (qltb_spec (1 - p_low) p) as [X|_]; [exfalso; exact (Qclt_not_le _ _ X B)|]. cbn [negb andb].
    destruct (qeqb_spec p 0) as [->|_]; [exfalso; exact (Qclt_not_le _ _ L0 A)|].
    destruct (qeqb_spec p 1) as [->|_]; [exfalso; exact (Qclt_not_le _ _ H1 B)|].
    f_equal. rewrite central_poly. unfold published_a, published_b. cbn [map]. now rewrite !power5.
  - intros A B. unfold qleb. assert (P1 : p < 1 - p_low) by (eapply Qclt_trans; eauto).
    destruct (qltb_spec p p_low) as [_|X]; [|contradiction]. destruct (qltb_spec 0 p) as [_|X]; [|contradiction].
    destruct (qltb_spec (1 - p_low) p) as [X|_]; [exfalso; exact (Qclt_not_le _ _ X (Qclt_le_weak _ _ P1))|]. cbn [negb andb].
    destruct (qeqb_spec p 0) as [->|_]; [discriminate A|].
    destruct (qeqb_spec p 1) as [->|_]; [exfalso; exact (Qclt_not_le _ _ H1 (Qclt_le_weak _ _ P1))|].
    f_equal. rewrite tail_poly. unfold published_c, published_d. cbn [map]. now rewrite power5, power4.
Qed.

(* ---- positive polynomials ------------------------------------------------------------------ *)

Lemma mul_cancel_pos a b : 0 < a -> 0 < a * b -> 0 < b.
Proof.
  intros A H. assert (E : b = / a * (a * b)) by (field; now apply Qc_lt_neq). rewrite E. apply Qc_mul_pos; auto. now apply Qc_inv_pos.
Qed.
Lemma bern_sum4 b0 b1 b2 b3 b4 s a : 0 < b0 -> 0 < b1 -> 0 < b2 -> 0 < b3 -> 0 < b4 -> 0 <= s -> 0 <= a -> 0 < s + a ->
  0 < b0 * (a * a * a * a) + b1 * (s * (a * a * a)) + b2 * (s * s * (a * a)) + b3 * (s * s * s * a) + b4 * (s * s * s * s).
Proof.
  intros H0 H1 H2 H3 H4 S A SA. destruct (Qc_le_lt_eq _ S) as [Z|P].
  - subst s. replace (0 + a) with a in SA by ring.
    replace (b0 * (a * a * a * a) + _ + _ + _ + _) with (b0 * (a * a * a * a)) by ring. auto using Qc_mul_pos.
  - apply Qc_add_pos_r; auto 8 using Qc_mul_pos.
    repeat apply Qc_add_nonneg; auto 8 using Qc_mul_nonneg, Qclt_le_weak.
Qed.
Lemma bern_sum5 b0 b1 b2 b3 b4 b5 s a : 0 < b0 -> 0 < b1 -> 0 < b2 -> 0 < b3 -> 0 < b4 -> 0 < b5 -> 0 <= s -> 0 <= a -> 0 < s + a ->
  0 < b0 * (a * a * a * a * a) + b1 * (s * (a * a * a * a)) + b2 * (s * s * (a * a * a)) + b3 * (s * s * s * (a * a)) + b4 * (s * s * s * s * a) + b5 * (s * s * s * s * s).
Proof.
  intros H0 H1 H2 H3 H4 H5 S A SA. destruct (Qc_le_lt_eq _ S) as [Z|P].
  - subst s. replace (0 + a) with a in SA by ring.
    replace (b0 * (a * a * a * a * a) + _ + _ + _ + _ + _) with (b0 * (a * a * a * a * a)) by ring. auto 7 using Qc_mul_pos.
  - apply Qc_add_pos_r; auto 8 using Qc_mul_pos.
    repeat apply Qc_add_nonneg; auto 8 using Qc_mul_nonneg, Qclt_le_weak.
Qed.
(* Bernstein coefficients: a polynomial of degree 4 (5) is positive on [0, c] *)
Lemma bernstein4 c q0 q1 q2 q3 q4 s : 0 < c -> 0 <= s -> s <= c ->
  let p0 := q0 in let p1 := q1 * c in let p2 := q2 * c ^ 2 in let p3 := q3 * c ^ 3 in let p4 := q4 * c ^ 4 in
  0 < p0 -> 0 < qn 4 * p0 + p1 -> 0 < qn 6 * p0 + qn 3 * p1 + p2 -> 0 < qn 4 * p0 + qn 3 * p1 + qn 2 * p2 + p3 ->
  0 < p0 + p1 + p2 + p3 + p4 -> 0 < poly4 q0 q1 q2 q3 q4 s.
Proof.
  intros C S0 S1 p0 p1 p2 p3 p4 H0 H1 H2 H3 H4.
  assert (A0 : 0 <= c - s) by now apply Qc_sub_nonneg.
  apply (mul_cancel_pos (c * c * c * c)); [now repeat apply Qc_mul_pos|].
  assert (E : c * c * c * c * poly4 q0 q1 q2 q3 q4 s =
    p0 * ((c - s) * (c - s) * (c - s) * (c - s)) + (qn 4 * p0 + p1) * (s * ((c - s) * (c - s) * (c - s))) +
    (qn 6 * p0 + qn 3 * p1 + p2) * (s * s * ((c - s) * (c - s))) + (qn 4 * p0 + qn 3 * p1 + qn 2 * p2 + p3) * (s * s * s * (c - s)) +
    (p0 + p1 + p2 + p3 + p4) * (s * s * s * s)).
  { unfold p0, p1, p2, p3, p4, poly4. cbn [Qcpower]. replace (qn 6) with (1+1+1+1+1+1) by qcomp. replace (qn 4) with (1+1+1+1) by qcomp.
    replace (qn 3) with (1+1+1) by qcomp. replace (qn 2) with (1+1) by qcomp. ring. }
  rewrite E. clear E. apply bern_sum4; auto. now replace (s + (c - s)) with c by ring.
Qed.
Lemma bernstein5 c q0 q1 q2 q3 q4 q5 s : 0 < c -> 0 <= s -> s <= c ->
  let p0 := q0 in let p1 := q1 * c in let p2 := q2 * c ^ 2 in let p3 := q3 * c ^ 3 in let p4 := q4 * c ^ 4 in let p5 := q5 * c ^ 5 in
  0 < p0 -> 0 < qn 5 * p0 + p1 -> 0 < qn 10 * p0 + qn 4 * p1 + p2 -> 0 < qn 10 * p0 + qn 6 * p1 + qn 3 * p2 + p3 ->
  0 < qn 5 * p0 + qn 4 * p1 + qn 3 * p2 + qn 2 * p3 + p4 -> 0 < p0 + p1 + p2 + p3 + p4 + p5 -> 0 < poly5 q0 q1 q2 q3 q4 q5 s.
Proof.
  intros C S0 S1 p0 p1 p2 p3 p4 p5 H0 H1 H2 H3 H4 H5.
  assert (A0 : 0 <= c - s) by now apply Qc_sub_nonneg.
  apply (mul_cancel_pos (c * c * c * c * c)); [now repeat apply Qc_mul_pos|].
  assert (E : c * c * c * c * c * poly5 q0 q1 q2 q3 q4 q5 s =
    p0 * ((c - s) * (c - s) * (c - s) * (c - s) * (c - s)) + (qn 5 * p0 + p1) * (s * ((c - s) * (c - s) * (c - s) * (c - s))) +
    (qn 10 * p0 + qn 4 * p1 + p2) * (s * s * ((c - s) * (c - s) * (c - s))) + (qn 10 * p0 + qn 6 * p1 + qn 3 * p2 + p3) * (s * s * s * ((c - s) * (c - s))) +
    (qn 5 * p0 + qn 4 * p1 + qn 3 * p2 + qn 2 * p3 + p4) * (s * s * s * s * (c - s)) +
    (p0 + p1 + p2 + p3 + p4 + p5) * (s * s * s * s * s)).
  { unfold p0, p1, p2, p3, p4, p5, poly5. cbn [Qcpower]. replace (qn 10) with (1+1+1+1+1+1+1+1+1+1) by qcomp. replace (qn 6) with (1+1+1+1+1+1) by qcomp.
    replace (qn 5) with (1+1+1+1+1) by qcomp. replace (qn 4) with (1+1+1+1) by qcomp.
    replace (qn 3) with (1+1+1) by qcomp. replace (qn 2) with (1+1) by qcomp. ring. }
  rewrite E. clear E. apply bern_sum5; auto. now replace (s + (c - s)) with c by ring.
Qed.

(* f / g increasing, through the quotient of f(t) g(s) - f(s) g(t) by t - s *)
Section Bezout.
  Variables a0 a1 a2 a3 a4 a5 b0 b1 b2 b3 b4 b5 : Qc.
  Let m a b a' b' := b * a' - a * b'.
  Definition q04 := m a0 b0 a5 b5. Definition q14 := m a1 b1 a5 b5. Definition q24 := m a2 b2 a5 b5.
  Definition q34 := m a3 b3 a5 b5. Definition q44 := m a4 b4 a5 b5.
  Definition q03 := m a0 b0 a4 b4. Definition q13 := m a1 b1 a4 b4 + q04. Definition q23 := m a2 b2 a4 b4 + q14.
  Definition q33 := m a3 b3 a4 b4 + q24. Definition q43 := q34.
  Definition q02 := m a0 b0 a3 b3. Definition q12 := m a1 b1 a3 b3 + q03. Definition q22 := m a2 b2 a3 b3 + q13.
  Definition q32 := q23. Definition q42 := q24.
  Definition q01 := m a0 b0 a2 b2. Definition q11 := m a1 b1 a2 b2 + q02. Definition q21 := q12.
  Definition q31 := q13. Definition q41 := q14.
  Definition q00 := m a0 b0 a1 b1. Definition q10 := q01. Definition q20 := q02. Definition q30 := q03. Definition q40 := q04.
  Definition bez (s t : Qc) : Qc :=
    poly4 (poly4 q00 q01 q02 q03 q04 t) (poly4 q10 q11 q12 q13 q14 t) (poly4 q20 q21 q22 q23 q24 t)
          (poly4 q30 q31 q32 q33 q34 t) (poly4 q40 q41 q42 q43 q44 t) s.
  Lemma bez_eq s t : poly5 a0 a1 a2 a3 a4 a5 t * poly5 b0 b1 b2 b3 b4 b5 s - poly5 a0 a1 a2 a3 a4 a5 s * poly5 b0 b1 b2 b3 b4 b5 t
    = (t - s) * bez s t.
  Proof.
    unfold bez, poly5, poly4, q40, q30, q20, q10, q41, q31, q21, q42, q32, q43, q11, q22, q33, q12, q23, q13, q00, q01, q02, q03, q04, q14, q24, q34, q44, m. ring.
  Qed.
End Bezout.

Definition bern (c q0 q1 q2 q3 q4 : Qc) : list Qc :=
  [q0; qn 4 * q0 + q1 * c; qn 6 * q0 + qn 3 * (q1 * c) + q2 * c ^ 2;
   qn 4 * q0 + qn 3 * (q1 * c) + qn 2 * (q2 * c ^ 2) + q3 * c ^ 3;
   q0 + q1 * c + q2 * c ^ 2 + q3 * c ^ 3 + q4 * c ^ 4].
Lemma bern_pos c q0 q1 q2 q3 q4 s : 0 < c -> 0 <= s -> s <= c ->
  Forall (fun b => 0 < b) (bern c q0 q1 q2 q3 q4) -> 0 < poly4 q0 q1 q2 q3 q4 s.
Proof.
  intros C S0 S1 F. unfold bern in F. inversion_clear F as [|? ? H0 F1]. inversion_clear F1 as [|? ? H1 F2]. inversion_clear F2 as [|? ? H2 F3].
  inversion_clear F3 as [|? ? H3 F4]. inversion_clear F4 as [|? ? H4 _]. now apply (bernstein4 c).
Qed.
(* both variables *)
Lemma bern2_pos c s t
  q00 q01 q02 q03 q04 q10 q11 q12 q13 q14 q20 q21 q22 q23 q24 q30 q31 q32 q33 q34 q40 q41 q42 q43 q44 :
  0 < c -> 0 <= s -> s <= c -> 0 <= t -> t <= c ->
  (forall k, (k < 5)%nat -> Forall (fun b => 0 < b)
     (bern c (nth k (bern c q00 q10 q20 q30 q40) 0) (nth k (bern c q01 q11 q21 q31 q41) 0) (nth k (bern c q02 q12 q22 q32 q42) 0)
             (nth k (bern c q03 q13 q23 q33 q43) 0) (nth k (bern c q04 q14 q24 q34 q44) 0))) ->
  0 < poly4 (poly4 q00 q01 q02 q03 q04 t) (poly4 q10 q11 q12 q13 q14 t) (poly4 q20 q21 q22 q23 q24 t)
            (poly4 q30 q31 q32 q33 q34 t) (poly4 q40 q41 q42 q43 q44 t) s.
Proof.
  intros C S0 S1 T0 T1 F. apply (bern_pos c); auto. unfold bern at 1.
  assert (G : forall k, (k < 5)%nat -> 0 < poly4 (nth k (bern c q00 q10 q20 q30 q40) 0) (nth k (bern c q01 q11 q21 q31 q41) 0) (nth k (bern c q02 q12 q22 q32 q42) 0)
             (nth k (bern c q03 q13 q23 q33 q43) 0) (nth k (bern c q04 q14 q24 q34 q44) 0) t).
  { intros k Hk. apply (bern_pos c); auto. }
  clear F. repeat constructor.
  - refine (G 0%nat _). lia.
  - specialize (G 1%nat ltac:(lia)). unfold bern, nth in G. generalize dependent (qn 4). intros w4 G. match goal with |- 0 < ?x => match type of G with 0 < ?y => replace x with y; [exact G|] end end. unfold poly4. ring.
  - specialize (G 2%nat ltac:(lia)). unfold bern, nth in G. generalize dependent (qn 6). intros w6. generalize (qn 3). intros w3 G. match goal with |- 0 < ?x => match type of G with 0 < ?y => replace x with y; [exact G|] end end. unfold poly4. cbn [Qcpower]. ring.
  - specialize (G 3%nat ltac:(lia)). unfold bern, nth in G. generalize dependent (qn 4). intros w6. generalize (qn 3). intros w3. generalize (qn 2). intros w2 G. match goal with |- 0 < ?x => match type of G with 0 < ?y => replace x with y; [exact G|] end end. unfold poly4. cbn [Qcpower]. ring.
  - specialize (G 4%nat ltac:(lia)). unfold bern, nth in G. match goal with |- 0 < ?x => match type of G with 0 < ?y => replace x with y; [exact G|] end end. unfold poly4. cbn [Qcpower]. ring.
Qed.
Lemma poly4_pos q0 q1 q2 q3 q4 s : 0 < q0 -> 0 <= q1 -> 0 <= q2 -> 0 <= q3 -> 0 <= q4 -> 0 <= s -> 0 < poly4 q0 q1 q2 q3 q4 s.
Proof.
  intros. unfold poly4. apply Qc_add_pos_l; auto. repeat first [apply Qc_mul_nonneg | apply Qc_add_nonneg]; auto.
Qed.

Definition edge : Qc := half - p_low.
Lemma edge_pos : 0 < edge. Proof. reflexivity. Qed.
Lemma edge2_pos : 0 < edge * edge. Proof. reflexivity. Qed.
Lemma num_pos s : 0 <= s -> s <= edge * edge -> 0 < poly5 n0 n1 n2 n3 n4 n5 s.
Proof. intros S0 S1. apply (bernstein5 (edge * edge)); auto; try exact edge2_pos; vm_compute; reflexivity. Qed.
Lemma den_pos s : 0 <= s -> s <= edge * edge -> 0 < poly5 d0 d1 d2 d3 d4 d5 s.
Proof. intros S0 S1. apply (bernstein5 (edge * edge)); auto; try exact edge2_pos; vm_compute; reflexivity. Qed.
Lemma bez_central_pos s t : 0 <= s -> s <= edge * edge -> 0 <= t -> t <= edge * edge -> 0 < bez n0 n1 n2 n3 n4 n5 d0 d1 d2 d3 d4 d5 s t.
Proof.
  intros S0 S1 T0 T1. unfold bez. apply (bern2_pos (edge * edge)); auto; try exact edge2_pos.
  intros k Hk. apply Forall_forall. 
  assert (B : forall l, forallb (fun b => qltb 0 b) l = true -> forall x, In x l -> 0 < x).
  { intros l E x Hx. rewrite forallb_forall in E. specialize (E x Hx). now destruct (qltb_spec 0 x). }
  apply B. clear -Hk. do 5 (destruct k as [|k]; [vm_compute; reflexivity|]). lia.
Qed.
(* a quotient increases where the cross difference is positive *)
Lemma div_lt a b c d : 0 < b -> 0 < d -> 0 < c * b - a * d -> a / b < c / d.
Proof.
  intros B D H. apply Qc_sub_pos_inv. assert (E : c / d - a / b = (c * b - a * d) * (/ b * / d)) by (field; split; now apply Qc_lt_neq).
  rewrite E. apply Qc_mul_pos; auto. apply Qc_mul_pos; now apply Qc_inv_pos.
Qed.
Lemma sq_mono a b : 0 <= a -> a <= b -> a * a <= b * b.
Proof.
  intros A H. apply Qc_sub_nonneg_inv. replace (b * b - a * a) with ((b - a) * (a + b)) by ring.
  apply Qc_mul_nonneg; [now apply Qc_sub_nonneg|]. apply Qc_add_nonneg; auto. eapply Qcle_trans; eauto.
Qed.
Lemma central_increasing_pos o o' : 0 <= o -> o < o' -> o' <= edge -> central o < central o'.
Proof.
  intros H0 H1 H2. rewrite !central_poly. assert (P' : 0 < o') by (eapply Qcle_lt_trans; eauto).
  assert (S0 : 0 <= o * o) by apply Qc_sq_nonneg. assert (S0' : 0 <= o' * o') by apply Qc_sq_nonneg.
  assert (S1 : o * o <= edge * edge) by (apply sq_mono; auto; apply Qclt_le_weak; eapply Qclt_le_trans; eauto).
  assert (S1' : o' * o' <= edge * edge) by (apply sq_mono; auto; now apply Qclt_le_weak).
  pose proof (num_pos _ S0 S1) as N. pose proof (num_pos _ S0' S1') as N'. pose proof (den_pos _ S0 S1) as D. pose proof (den_pos _ S0' S1') as D'.
  pose proof (bez_central_pos _ _ S0 S1 S0' S1') as B. pose proof (bez_eq n0 n1 n2 n3 n4 n5 d0 d1 d2 d3 d4 d5 (o * o) (o' * o')) as E.
  revert N N' D D' B E. generalize (poly5 n0 n1 n2 n3 n4 n5 (o * o)) (poly5 n0 n1 n2 n3 n4 n5 (o' * o')) (poly5 d0 d1 d2 d3 d4 d5 (o * o)) (poly5 d0 d1 d2 d3 d4 d5 (o' * o')) (bez n0 n1 n2 n3 n4 n5 d0 d1 d2 d3 d4 d5 (o * o) (o' * o')).
  intros n n' d d' b N N' D D' B E. apply div_lt; auto.
  replace (o' * n' * d - o * n * d') with ((o' - o) * (n' * d) + o * (n' * d - n * d')) by ring. rewrite E.
  apply Qc_add_pos_l.
  - apply Qc_mul_pos; [now apply Qc_sub_pos|]. now apply Qc_mul_pos.
  - apply Qc_mul_nonneg; auto. apply Qc_mul_nonneg; [|now apply Qclt_le_weak]. apply Qc_sub_nonneg, sq_mono; auto. now apply Qclt_le_weak.
Qed.
Lemma central_odd o : central (- o) = - central o.
Proof. rewrite !central_poly. replace (- o * - o) with (o * o) by ring. unfold Qcdiv. ring. Qed.
Lemma central_zero : central 0 = 0.
Proof. rewrite central_poly. unfold Qcdiv. ring. Qed.
Lemma opp_lt a b : a < b -> - b < - a.
Proof. intros H. apply Qc_sub_pos_inv. replace (- a - - b) with (b - a) by ring. now apply Qc_sub_pos. Qed.
Lemma opp_le a b : a <= b -> - b <= - a.
Proof. intros H. apply Qc_sub_nonneg_inv. replace (- a - - b) with (b - a) by ring. now apply Qc_sub_nonneg. Qed.
Lemma central_pos o : 0 < o -> o <= edge -> 0 < central o.
Proof.
  intros H0 H1. apply Qcle_lt_trans with (central 0); [rewrite central_zero; apply Qcle_refl|].
  apply central_increasing_pos; auto. apply Qcle_refl.
Qed.
Lemma opp_neg o : o < 0 -> 0 < - o.
Proof. intros H. replace (- o) with (0 - o) by ring. now apply Qc_sub_pos. Qed.
Lemma opp_pos a : 0 < a -> - a < 0.
Proof. intros H. apply Qc_sub_pos_inv. now replace (0 - - a) with a by ring. Qed.
Lemma edge_opp o : - edge <= o -> - o <= edge.
Proof. intros H. rewrite <- (Qcopp_involutive edge). now apply opp_le. Qed.
Theorem central_increasing : forall o o', - edge <= o -> o < o' -> o' <= edge -> central o < central o'.
Proof.
  intros o o' H0 H1 H2. destruct (Qclt_le_dec o 0) as [N|P].
  - assert (C : central o = - central (- o)) by (rewrite central_odd; ring). destruct (Qclt_le_dec 0 o') as [P'|N'].
    + apply Qclt_trans with 0; [|now apply central_pos].
      rewrite C. apply Qc_sub_pos_inv. replace (0 - - central (- o)) with (central (- o)) by ring.
      apply central_pos; [now apply opp_neg|now apply edge_opp].
    + assert (C' : central o' = - central (- o')) by (rewrite central_odd; ring). rewrite C, C'. apply opp_lt. apply central_increasing_pos.
      * replace (- o') with (0 - o') by ring. now apply Qc_sub_nonneg.
      * now apply opp_lt.
      * now apply edge_opp.
  - now apply central_increasing_pos.
Qed.
Lemma tail_den_pos o : 0 <= o -> 0 < poly4 u0 u1 u2 u3 u4 o.
Proof. intros H. apply poly4_pos; auto; vm_compute; (reflexivity || discriminate). Qed.
Lemma bez_tail_pos s t : 0 <= s -> 0 <= t -> 0 < bez u0 u1 u2 u3 u4 0 t0 t1 t2 t3 t4 t5 s t.
Proof.
  intros S T. unfold bez.
  assert (R : forall a b c d e, qltb 0 a && qltb 0 b && qltb 0 c && qltb 0 d && qltb 0 e = true -> 0 < poly4 a b c d e t).
  { intros a b c d e H. do 4 (apply andb_prop in H; let X := fresh "X" in destruct H as [H X]).
    destruct (qltb_spec 0 a); try discriminate. destruct (qltb_spec 0 b); try discriminate. destruct (qltb_spec 0 c); try discriminate.
    destruct (qltb_spec 0 d); try discriminate. destruct (qltb_spec 0 e); try discriminate. apply poly4_pos; auto; now apply Qclt_le_weak. }
  apply poly4_pos; auto; try (apply Qclt_le_weak); apply R; vm_compute; reflexivity.
Qed.
Theorem tail_decreasing : forall o o', 0 <= o -> o < o' -> tail o' < tail o.
Proof.
  intros o o' H0 H1. rewrite !tail_poly. assert (P' : 0 <= o') by (apply Qclt_le_weak; eapply Qcle_lt_trans; eauto).
  pose proof (tail_den_pos _ H0) as D. pose proof (tail_den_pos _ P') as D'. apply div_lt; [exact D'|exact D|].
  assert (E : forall s, poly4 u0 u1 u2 u3 u4 s = poly5 u0 u1 u2 u3 u4 0 s) by (intros; unfold poly4, poly5; ring). rewrite !E.
  pose proof (bez_eq u0 u1 u2 u3 u4 0 t0 t1 t2 t3 t4 t5 o o') as B. rewrite (Qcmult_comm (poly5 t0 t1 t2 t3 t4 t5 o)), (Qcmult_comm (poly5 t0 t1 t2 t3 t4 t5 o')).
  rewrite B. apply Qc_mul_pos; [now apply Qc_sub_pos|now apply bez_tail_pos].
Qed.

(* ---- ndtri increases ---------------------------------------------------------------------- *)

Lemma ndtri_cases root junk p : level_ok p ->
  (p = 0 /\ ndtri root junk p = NInf) \/ (0 < p /\ p < p_low /\ ndtri root junk p = Fin (tail (root p))) \/
  (p_low <= p /\ p <= 1 - p_low /\ ndtri root junk p = Fin (central (p - half))) \/
  (1 - p_low < p /\ p < 1 /\ ndtri root junk p = Fin (- tail (root (1 - p)))) \/ (p = 1 /\ ndtri root junk p = PInf).
Proof.
  intros [P0 P1]. assert (EL : dec 2425 5 = p_low) by qcomp. assert (EH : dec 97575 5 = 1 - p_low) by qcomp.
  assert (L0 : 0 < p_low) by reflexivity. assert (LH : p_low < 1 - p_low) by reflexivity. assert (H1 : 1 - p_low < 1) by reflexivity.
  unfold ndtri. rewrite EL, EH, dec_half. clear EL EH. unfold qleb.
  destruct (qeqb_spec p 1) as [E1|N1]; [do 4 right; auto|]. destruct (qeqb_spec p 0) as [E0|N0]; [left; auto|].
  assert (Q0 : 0 < p) by (destruct (Qc_le_lt_eq _ P0) as [X|X]; [now contradiction N0|exact X]).
  assert (Q1 : p < 1) by (destruct (Qcle_lt_or_eq _ _ P1) as [X|X]; [exact X|contradiction]).
  destruct (qltb_spec 0 p) as [_|X]; [|contradiction]. destruct (qltb_spec p 1) as [_|X]; [|contradiction].
  destruct (qltb_spec p p_low) as [A|A].
  - right. left. destruct (qltb_spec (1 - p_low) p) as [X|_]; [|cbn; auto].
    exfalso. apply (Qclt_not_le _ _ LH). apply Qclt_le_weak. eapply Qclt_trans; eauto.
  - apply Qcnot_lt_le in A. destruct (qltb_spec (1 - p_low) p) as [X|X]; cbn; [right; right; right; left; auto|].
    apply Qcnot_lt_le in X. right. right. left. auto.
Qed.
(* sqrt(-2 log 0.02425) = 2.72739387... *)
Definition root_low : Qc := Q2Qc 2.727393869%Q.
Definition root_ok (root : Qc -> Qc) : Prop :=
  (forall p q, 0 < p -> p < q -> q < p_low -> root q < root p) /\ (forall p, 0 < p -> p < p_low -> root_low <= root p).
Lemma tail_below_centre : tail root_low < central (- edge).
Proof.
  rewrite tail_poly, central_poly. assert (B : forall a b, qltb a b = true -> a < b) by (intros a b; now destruct (qltb_spec a b)).
  apply B. vm_compute. reflexivity.
Qed.
Lemma tail_low root p : root_ok root -> 0 < p -> p < p_low -> tail (root p) < central (- edge).
Proof.
  intros [_ R] P0 P1. apply Qcle_lt_trans with (tail root_low); [|apply tail_below_centre].
  specialize (R p P0 P1). destruct (Qcle_lt_or_eq _ _ R) as [X|X]; [|rewrite <- X; apply Qcle_refl].
  apply Qclt_le_weak, tail_decreasing; [discriminate|exact X].
Qed.
Lemma central_bounds o : - edge <= o -> o <= edge -> central (- edge) <= central o /\ central o <= central edge.
Proof.
  intros H0 H1. split.
  - destruct (Qcle_lt_or_eq _ _ H0) as [X|X]; [|rewrite X; apply Qcle_refl]. apply Qclt_le_weak, central_increasing; auto. apply Qcle_refl.
  - destruct (Qcle_lt_or_eq _ _ H1) as [X|X]; [|rewrite X; apply Qcle_refl]. apply Qclt_le_weak, central_increasing; auto. apply Qcle_refl.
Qed.
Lemma shift_le a b c : a <= b -> a - c <= b - c.
Proof. intros H. apply Qc_sub_nonneg_inv. replace (b - c - (a - c)) with (b - a) by ring. now apply Qc_sub_nonneg. Qed.
Lemma shift_lt a b c : a < b -> a - c < b - c.
Proof. intros H. apply Qc_sub_pos_inv. replace (b - c - (a - c)) with (b - a) by ring. now apply Qc_sub_pos. Qed.
Lemma flip_lt a b : a < b -> 1 - b < 1 - a.
Proof. intros H. apply Qc_sub_pos_inv. replace (1 - a - (1 - b)) with (b - a) by ring. now apply Qc_sub_pos. Qed.
Lemma middle p : p_low <= p -> p <= 1 - p_low -> - edge <= p - half /\ p - half <= edge.
Proof.
  intros A B. assert (HH : half + half = 1) by qcomp. split.
  - replace (- edge) with (p_low - half) by (unfold edge; ring). now apply shift_le.
  - replace edge with (1 - p_low - half) by (unfold edge; rewrite <- HH; ring). now apply shift_le.
Qed.
Theorem ndtri_increasing : forall root junk p q, root_ok root -> level_ok p -> level_ok q -> p < q ->
  nlt (ndtri root junk p) (ndtri root junk q).
Proof.
  intros root junk p q R Hp Hq L.
  assert (L0 : 0 < p_low) by reflexivity. assert (LH : p_low < 1 - p_low) by reflexivity. assert (H1 : 1 - p_low < 1) by reflexivity.
  assert (CE : central (- edge) = - central edge) by apply central_odd.
  assert (CP : 0 < central edge) by (apply central_pos; [exact edge_pos|apply Qcle_refl]).
  assert (TR : forall r, 1 - p_low < r -> r < 1 -> central edge < - tail (root (1 - r))).
  { intros r A B. assert (X : tail (root (1 - r)) < central (- edge)).
    { apply tail_low; auto; [now apply Qc_sub_pos|]. apply flip_lt in A. now replace (1 - (1 - p_low)) with p_low in A by ring. }
    rewrite CE in X. apply opp_lt in X. now rewrite Qcopp_involutive in X. }
  assert (XX : forall x y : Qc, x < y -> y <= x -> False) by (intros x y A B; exact (Qclt_not_le _ _ A B)).
  assert (Q : 0 < q) by (destruct Hp as [X _]; eapply Qcle_lt_trans; [exact X|exact L]).
  assert (P : p < 1) by (destruct Hq as [_ X]; eapply Qclt_le_trans; [exact L|exact X]).
  assert (NQ : q <> 0) by (intros ->; exact (XX _ _ Q (Qcle_refl 0))).
  assert (NP : p <> 1) by (intros ->; exact (XX _ _ P (Qcle_refl 1))).
  destruct (ndtri_cases root junk q Hq) as [(Eq & Vq)|Cq]; [exfalso; exact (NQ Eq)|].
  destruct (ndtri_cases root junk p Hp) as [(Ep & Vp)|[(Ap & Bp & Vp)|[(Ap & Bp & Vp)|[(Ap & Bp & Vp)|(Ep & Vp)]]]]; rewrite Vp; [| | | |exfalso; exact (NP Ep)].
  - destruct Cq as [(Aq & Bq & Vq)|[(Aq & Bq & Vq)|[(Aq & Bq & Vq)|(Eq & Vq)]]]; rewrite Vq; exact I.
  - destruct Cq as [(Aq & Bq & Vq)|[(Aq & Bq & Vq)|[(Aq & Bq & Vq)|(Eq & Vq)]]]; rewrite Vq; [| | |exact I]; cbn [nlt].
    + apply tail_decreasing; [|now apply R]. apply Qcle_trans with root_low; [discriminate|]. now apply R.
    + apply Qclt_le_trans with (central (- edge)); [now apply tail_low|]. destruct (middle q Aq Bq) as [M1 M2]. exact (proj1 (central_bounds _ M1 M2)).
    + apply Qclt_trans with (central (- edge)); [now apply tail_low|]. apply Qclt_trans with (central edge); [|now apply TR].
      rewrite CE. apply Qclt_trans with 0; [|exact CP]. now apply opp_pos.
  - destruct (middle p Ap Bp) as [N1 N2].
    destruct Cq as [(Aq & Bq & Vq)|[(Aq & Bq & Vq)|[(Aq & Bq & Vq)|(Eq & Vq)]]]; rewrite Vq; [| | |exact I]; cbn [nlt].
    + exfalso. apply (XX _ _ L). apply Qclt_le_weak. eapply Qclt_le_trans; [exact Bq|exact Ap].
    + destruct (middle q Aq Bq) as [M1 M2]. apply central_increasing; [exact N1|now apply shift_lt|exact M2].
    + apply Qcle_lt_trans with (central edge); [exact (proj2 (central_bounds _ N1 N2))|now apply TR].
  - destruct Cq as [(Aq & Bq & Vq)|[(Aq & Bq & Vq)|[(Aq & Bq & Vq)|(Eq & Vq)]]]; rewrite Vq; [| | |exact I]; cbn [nlt].
    + exfalso. apply (XX _ _ L). apply Qclt_le_weak. eapply Qclt_trans; [exact Bq|]. eapply Qclt_trans; [exact LH|exact Ap].
    + exfalso. apply (XX _ _ L). apply Qclt_le_weak. eapply Qcle_lt_trans; [exact Bq|exact Ap].
    + assert (Y : 1 - p < p_low) by (apply flip_lt in Ap; replace (1 - (1 - p_low)) with p_low in Ap by ring; exact Ap).
      apply opp_lt. apply tail_decreasing.
      * apply Qcle_trans with root_low; [discriminate|]. apply R; [now apply Qc_sub_pos|exact Y].
      * apply R; [now apply Qc_sub_pos|now apply flip_lt|exact Y].
Qed.
(* the hypothesis on the root is met *)
Lemma root_ex : root_ok (fun p => qn 4 - p).
Proof.
  split.
  - intros p q _ L _. apply Qc_sub_pos_inv. replace (qn 4 - p - (qn 4 - q)) with (q - p) by ring. now apply Qc_sub_pos.
  - intros p _ L. apply Qc_sub_nonneg_inv.
    assert (H : 0 <= qn 4 - root_low - p_low) by qle. revert L H. generalize p_low root_low (qn 4). intros l r w L H.
    replace (w - p - r) with ((l - p) + (w - r - l)) by ring.
    apply Qc_add_nonneg; [apply Qclt_le_weak; now apply Qc_sub_pos|exact H].
Qed.
Example ndtri_increasing_ex :
  nlt (ndtri (fun p => qn 4 - p) NaN (fr 1 100)) (ndtri (fun p => qn 4 - p) NaN (fr 3 100)) /\
  ndtri (fun p => qn 4 - p) NaN half = Fin 0.
Proof.
  split; [|apply ndtri_half]. apply ndtri_increasing; [exact root_ex| | |qlt]; split; qle.
Qed.

(* ---- the acceleration is at most 1/6 --------------------------------------------------------- *)

Lemma le_of_sq u v : 0 <= v -> u * u <= v * v -> u <= v.
Proof.
  intros V H. destruct (Qclt_le_dec v u) as [L|L]; [|exact L]. exfalso. apply (Qclt_not_le (v * v) (u * u)); [|exact H].
  apply Qc_sub_pos_inv. replace (u * u - v * v) with ((u - v) * (u + v)) by ring.
  assert (U : 0 < u) by (eapply Qcle_lt_trans; eauto).
  apply Qc_mul_pos; [now apply Qc_sub_pos|now apply Qc_add_pos_l].
Qed.
Lemma cubes_bounded l : let S := suml (fun d => d * d) l in let T := suml (fun d => d * d * d) l in T * T <= S * S * S.
Proof.
  induction l as [|x l IH]; [cbn; discriminate|]. cbv zeta in *. rewrite !suml_cons.
  assert (S0 : 0 <= suml (fun d => d * d) l) by (apply suml_nonneg; intros; apply Qc_sq_nonneg).
  revert IH S0. generalize (suml (fun d => d * d) l) (suml (fun d => d * d * d) l). intros S T IH S0.
  assert (X0 : 0 <= x * x) by apply Qc_sq_nonneg.
  assert (K : (1 + 1) * T * x <= (1 + 1 + 1) * S * (S + x * x)).
  { apply le_of_sq.
    - apply Qc_mul_nonneg; [apply Qc_mul_nonneg; [discriminate|exact S0]|now apply Qc_add_nonneg].
    - apply Qc_sub_nonneg_inv.
      replace ((1 + 1 + 1) * S * (S + x * x) * ((1 + 1 + 1) * S * (S + x * x)) - (1 + 1) * T * x * ((1 + 1) * T * x))
        with ((1 + 1) * (1 + 1) * (x * x) * (S * S * S - T * T) + S * S * ((1+1+1)*(1+1+1) * (S * S + x * x * (x * x)) + (1+1+1+1+1+1+1)*(1+1) * (S * (x * x)))) by ring.
      apply Qc_add_nonneg.
      + apply Qc_mul_nonneg; [apply Qc_mul_nonneg; [discriminate|exact X0]|now apply Qc_sub_nonneg].
      + apply Qc_mul_nonneg; [apply Qc_sq_nonneg|]. apply Qc_add_nonneg.
        * apply Qc_mul_nonneg; [discriminate|]. apply Qc_add_nonneg; apply Qc_sq_nonneg.
        * apply Qc_mul_nonneg; [discriminate|]. now apply Qc_mul_nonneg. }
  apply Qc_sub_nonneg in K. apply Qc_sub_nonneg in IH. apply Qc_sub_nonneg_inv.
  replace ((x * x + S) * (x * x + S) * (x * x + S) - (x * x * x + T) * (x * x * x + T))
    with ((S * S * S - T * T) + x * x * ((1 + 1 + 1) * S * (S + x * x) - (1 + 1) * T * x)) by ring.
  apply Qc_add_nonneg; [exact IH|]. now apply Qc_mul_nonneg.
Qed.
(* pow15 x is the number with square x^3 *)
Theorem acceleration_bounded : forall pow15 j a, 0 <= pow15 (spread j) -> pow15 (spread j) * pow15 (spread j) = spread j ^ 3 ->
  compute_a pow15 j = Fin a -> qn 6 * a <= 1 /\ - (1) <= qn 6 * a.
Proof.
  intros pow15 j a P0 P2 E. unfold compute_a in E. rewrite spread_eq in P0, P2. revert E P0 P2.
  generalize (map (fun t => mean j - t) j). intros l. pose proof (cubes_bounded l) as B. cbv zeta in B. revert B.
  generalize (suml (fun d => d * d) l) (suml (fun d => d * d * d) l). intros S T B. generalize (pow15 S). intros w E P0 P2.
  cbn [ndiv] in E. destruct (qeqb_spec (qn 6 * w) 0) as [Z|Z]; [unfold inf_of in E; destruct (qeqb T 0); [|destruct (qltb 0 T)]; discriminate E|].
  injection E as <-. assert (Nw : w <> 0) by (intros ->; apply Z; ring). assert (Pw : 0 < w) by (destruct (Qc_le_lt_eq _ P0) as [X|X]; [now contradiction Nw|exact X]).
  assert (N6 : qn 6 <> 0) by (apply qn_nz; lia). assert (Q : qn 6 * (T / (qn 6 * w)) = T / w) by (field; auto). rewrite Q.
  assert (C : T * T <= w * w) by (rewrite P2; eapply Qcle_trans; [exact B|]; cbn [Qcpower]; replace (S * (S * (S * 1))) with (S * S * S) by ring; apply Qcle_refl).
  assert (U : T <= w) by (apply le_of_sq; [exact P0|exact C]).
  assert (V : - T <= w) by (apply le_of_sq; [exact P0|]; replace (- T * - T) with (T * T) by ring; exact C).
  split; apply Qc_sub_nonneg_inv.
  - assert (X : 1 - T / w = (w - T) / w) by (field; exact Nw). rewrite X. apply Qc_div_nonneg; auto. now apply Qc_sub_nonneg.
  - assert (X : T / w - - (1) = (w - - T) / w) by (field; exact Nw). rewrite X. apply Qc_div_nonneg; auto. now apply Qc_sub_nonneg.
Qed.

(* ---- end points of a bca interval -------------------------------------------------------------- *)

Lemma bca_map_mono a z x y : 0 < 1 - a * x -> 0 < 1 - a * y -> x <= y -> z + x / (1 - a * x) <= z + y / (1 - a * y).
Proof.
  intros X Y L. apply Qc_sub_nonneg_inv. pose proof (Qc_lt_neq _ X). pose proof (Qc_lt_neq _ Y).
  assert (E : z + y / (1 - a * y) - (z + x / (1 - a * x)) = (y - x) * (/ (1 - a * x) * / (1 - a * y))) by (field; auto).
  rewrite E. apply Qc_mul_nonneg; [now apply Qc_sub_nonneg|]. apply Qclt_le_weak, Qc_mul_pos; now apply Qc_inv_pos.
Qed.
Lemma bca_den a x : qn 6 * a <= 1 -> - (1) <= qn 6 * a -> - qn 6 < x -> x < qn 6 -> 0 < 1 - a * x.
Proof.
  intros A1 A2 X1 X2. assert (P6 : 0 < qn 6) by (apply qn_pos; lia).
  apply (mul_cancel_pos (qn 6 * qn 2)); [apply Qc_mul_pos; [exact P6|reflexivity]|].
  apply Qc_sub_nonneg in A1. apply Qc_sub_nonneg in A2. apply Qc_sub_pos in X1. apply Qc_sub_pos in X2.
  replace (qn 2) with (1 + 1) by qcomp.
  replace (qn 6 * (1 + 1) * (1 - a * x)) with ((1 - qn 6 * a) * (x - - qn 6) + (qn 6 * a - - (1)) * (qn 6 - x)) by ring.
  destruct (Qc_le_lt_eq _ A1) as [Z|P].
  - rewrite Z. assert (E : qn 6 * a - - (1) = 1 + 1) by (replace (qn 6 * a) with (1 - (1 - qn 6 * a)) by ring; rewrite Z; ring).
    rewrite E. replace (0 * (x - - qn 6) + (1 + 1) * (qn 6 - x)) with ((1 + 1) * (qn 6 - x)) by ring. apply Qc_mul_pos; [reflexivity|exact X2].
  - apply Qc_add_pos_l; [now apply Qc_mul_pos|]. apply Qc_mul_nonneg; [exact A2|now apply Qclt_le_weak].
Qed.
(* the corrected normal scores stay within (-6, 6): both end points of the interval exist
   and come out in the order of the levels *)
Theorem bca_ordered : forall pow15 ndtr_fin root junk boot h j alphas vs z0 acc,
  root_ok root -> Forall level_ok alphas ->
  (forall x y, x <= y -> ndtr_fin x <= ndtr_fin y) ->
  0 <= pow15 (spread j) -> pow15 (spread j) * pow15 (spread j) = spread j ^ 3 -> compute_a pow15 j = Fin acc ->
  compute_z0 (ndtri root junk) h boot = Fin z0 ->
  (forall al, In al alphas -> exists z, ndtri root junk al = Fin z /\ - qn 6 < z0 + z /\ z0 + z < qn 6) ->
  bootstrap_confidence_interval pow15 ndtr_fin (ndtri root junk) boot (Some h) (Some j) (Levels alphas) "bca" = Ok vs ->
  List.length vs = List.length alphas /\
  forall i k, (i < List.length alphas)%nat -> (k < List.length alphas)%nat -> nth i alphas 0 <= nth k alphas 0 ->
  exists x y, nth i vs NaN = Fin x /\ nth k vs NaN = Fin y /\ x <= y.
Proof.
  intros pow15 ndtr_fin root junk boot h j alphas vs z0 acc R FL M P0 P2 EA EZ FZ E.
  destruct (acceleration_bounded pow15 j acc P0 P2 EA) as [A1 A2].
  unfold bootstrap_confidence_interval, alphas_of in E. rewrite interval_bca, EA, EZ in E.
  set (f := bca_level ndtr_fin (ndtri root junk) (Fin acc) (Fin z0)) in *.
  assert (V : forall al, In al alphas -> exists z, ndtri root junk al = Fin z /\ 0 < 1 - acc * (z0 + z) /\
    f al = Fin (ndtr_fin (z0 + (z0 + z) / (1 - acc * (z0 + z))))).
  { intros al Hal. destruct (FZ al Hal) as (z & Ez & Z1 & Z2). exists z. split; [exact Ez|]. pose proof (bca_den acc _ A1 A2 Z1 Z2) as D. split; [exact D|].
    unfold f, bca_level. rewrite Ez. cbn [nadd nmul nneg ndiv]. fold (1 - acc * (z0 + z)).
    destruct (qeqb_spec (1 - acc * (z0 + z)) 0) as [X|_]; [exfalso; exact (Qc_lt_neq _ D X)|]. reflexivity. }
  assert (NN : existsb is_nan (map f alphas) = false).
  { apply Bool.not_true_is_false. intros X. apply existsb_exists in X. destruct X as (x & Hx & Nx). apply in_map_iff in Hx. destruct Hx as (al & <- & Hal).
    destruct (V al Hal) as (z & _ & _ & Ef). rewrite Ef in Nx. discriminate. }
  unfold quantile_along_axis in E. rewrite NN in E. apply mapR_Forall2 in E.
  assert (Len : List.length vs = List.length alphas) by (rewrite <- (F2len _ _ _ E); apply map_length).
  split; [exact Len|]. intros i k Hi Hk L.
  assert (G : forall i, (i < List.length alphas)%nat -> exists z x, ndtri root junk (nth i alphas 0) = Fin z /\ 0 < 1 - acc * (z0 + z) /\
     quantile boot (ndtr_fin (z0 + (z0 + z) / (1 - acc * (z0 + z)))) = Ok x /\ nth i vs NaN = Fin x).
  { clear i k Hi Hk L. intros i Hi. destruct (V (nth i alphas 0) (nth_In _ _ Hi)) as (z & Ez & D & Ef). exists z.
    assert (Q : quantile_num boot (nth i (map f alphas) (f 0)) = Ok (nth i vs NaN)).
    { clear -E Hi. revert vs E i Hi. induction alphas as [|al t IH]; intros vs E i Hi; [cbn in Hi; lia|].
      cbn [map] in E. inversion E as [|? v ? vs' Hv Ht]; subst. destruct i as [|i]; [exact Hv|]. cbn [map nth]. apply IH; [exact Ht|cbn in Hi; lia]. }
    rewrite map_nth, Ef in Q. cbn [quantile_num] in Q. destruct (quantile boot _) as [x|] eqn:Eq; [|discriminate Q]. exists x.
    injection Q as Q. auto. }
  destruct (G i Hi) as (zi & x & Ei & Di & Qi & Vi). destruct (G k Hk) as (zk & y & Ek & Dk & Qk & Vk).
  exists x, y. split; [exact Vi|]. split; [exact Vk|].
  assert (Zik : zi <= zk).
  { destruct (Qcle_lt_or_eq _ _ L) as [X|X].
    - assert (NL : nlt (ndtri root junk (nth i alphas 0)) (ndtri root junk (nth k alphas 0))).
      { rewrite Forall_forall in FL. apply ndtri_increasing; auto; apply FL; now apply nth_In. }
      rewrite Ei, Ek in NL. now apply Qclt_le_weak.
    - rewrite X, Ek in Ei. injection Ei as <-. apply Qcle_refl. }
  assert (Nb : boot <> []).
  { intros ->. unfold quantile in Qi. destruct (_ || _); discriminate Qi. }
  eapply quantile_monotone; [exact Nb| |exact Qi|exact Qk]. apply M. apply bca_map_mono; auto.
  apply Qc_sub_nonneg_inv. replace (z0 + zk - (z0 + zi)) with (zk - zi) by ring. now apply Qc_sub_nonneg.
Qed.
Example acceleration_ex : 0 <= pow15_ex (spread jack_ex) /\ pow15_ex (spread jack_ex) * pow15_ex (spread jack_ex) = spread jack_ex ^ 3 /\
  compute_a pow15_ex jack_ex = Fin (fr 1 18).
Proof. split; [qle|]. split; [qcomp|]. apply bca_scaled_ex. Qed.
Definition step_ex (x : Qc) : Qc := if qltb x 0 then fr 1 4 else fr 3 4.
Example bca_ordered_ex :
  (forall x y, x <= y -> step_ex x <= step_ex y) /\ compute_z0 (ndtri (fun p => qn 4 - p) NaN) (qz 3) boot_ex = Fin 0 /\
  (forall al, In al [fr 1 4; fr 3 4] -> exists z, ndtri (fun p => qn 4 - p) NaN al = Fin z /\ - qn 6 < 0 + z /\ 0 + z < qn 6) /\
  exists a b, bootstrap_confidence_interval pow15_ex step_ex (ndtri (fun p => qn 4 - p) NaN) boot_ex (Some (qz 3)) (Some jack_ex) (Levels [fr 1 4; fr 3 4]) "bca" = Ok [Fin a; Fin b] /\ a < b.
Proof.
  split; [|split; [|split]].
  - intros x y L. unfold step_ex. destruct (qltb_spec x 0) as [X|X], (qltb_spec y 0) as [Y|Y]; try qle.
    exfalso. apply X. eapply Qcle_lt_trans; eauto.
  - assert (E : forall x q, neqb x (Fin q) = true -> x = Fin q) by (intros [a| | |] q X; try discriminate; apply qeqb_eq in X; now subst).
    apply E. vm_compute. reflexivity.
  - assert (E : forall al, match ndtri (fun p => qn 4 - p) NaN al with Fin z => qltb (- qn 6) (0 + z) && qltb (0 + z) (qn 6) | _ => false end = true ->
      exists z, ndtri (fun p => qn 4 - p) NaN al = Fin z /\ - qn 6 < 0 + z /\ 0 + z < qn 6).
    { intros al. destruct (ndtri _ NaN al) as [z| | |]; try discriminate. intros X. exists z. split; [reflexivity|].
      apply andb_prop in X. destruct X as [X Y]. split; now apply qltb_lt. }
    intros al [<-|[<-|[]]]; apply E; vm_compute; reflexivity.
  - assert (E : forall r : res (list num), match r with Ok [Fin a; Fin b] => qltb a b | _ => false end = true -> exists a b, r = Ok [Fin a; Fin b] /\ a < b).
    { intros [[|[a| | |] [|[b| | |] [|]]]|] X; try discriminate. exists a, b. split; [reflexivity|]. now apply qltb_lt. }
    apply E. vm_compute. reflexivity.
Qed.
