(* Change of origin of a moment sequence: shift t c k = E[(X+t)^k] when
   c i = E[X^i].  Defined by recursion so that composition is immediate, then
   related to the binomial sum. *)
From Verif Require Import Base BaseLemmas.
Local Open Scope Qc_scope.

Fixpoint shift (t : Qc) (c : nat -> Qc) (k : nat) : Qc :=
  match k with
  | O => c O
  | S j => shift t (fun i => c (S i)) j + t * shift t c j
  end.

Lemma shift_ext t c d k : (forall i, (i <= k)%nat -> c i = d i) -> shift t c k = shift t d k.
Proof.
  revert c d. induction k as [|k IH]; intros c d H; cbn [shift]; [apply H; lia|].
  rewrite (IH (fun i => c (S i)) (fun i => d (S i))), (IH c d); auto.
  intros. apply H. lia.
Qed.

Lemma shift_lin t a b c d k :
  shift t (fun i => a * c i + b * d i) k = a * shift t c k + b * shift t d k.
Proof.
  revert c d. induction k as [|k IH]; intros c d; cbn [shift]; [reflexivity|].
  rewrite (IH (fun i => c (S i)) (fun i => d (S i))), IH. ring.
Qed.

Lemma shift_add t c d k : shift t (fun i => c i + d i) k = shift t c k + shift t d k.
Proof.
  rewrite (shift_ext t _ (fun i => 1 * c i + 1 * d i)), shift_lin; [ring|]. intros; ring.
Qed.
Lemma shift_scal t a c k : shift t (fun i => a * c i) k = a * shift t c k.
Proof.
  rewrite (shift_ext t _ (fun i => a * c i + 0 * c i)), shift_lin; [ring|]. intros; ring.
Qed.
Lemma shift_scal_r t a c k : shift t (fun i => c i * a) k = shift t c k * a.
Proof.
  rewrite (shift_ext t _ (fun i => a * c i)), shift_scal; [ring|]. intros; ring.
Qed.

Lemma shift_comp s t c k : shift s (shift t c) k = shift (s + t) c k.
Proof.
  revert c. induction k as [|k IH]; intros c; [reflexivity|].
  cbn [shift]. rewrite IH.
  rewrite (shift_ext s _ (fun i => 1 * shift t (fun j => c (S j)) i + t * shift t c i)).
  2:{ intros. cbn [shift]. ring. }
  rewrite shift_lin, !IH. ring.
Qed.

Lemma shift_0 c k : shift 0 c k = c k.
Proof.
  revert c. induction k as [|k IH]; intros c; cbn [shift]; [reflexivity|].
  rewrite !IH. ring.
Qed.

Lemma shift_inv t c k : shift (- t) (shift t c) k = c k.
Proof. rewrite shift_comp. replace (- t + t) with 0 by ring. apply shift_0. Qed.
Lemma shift_inv' t c k : shift t (shift (- t) c) k = c k.
Proof. rewrite shift_comp. replace (t + - t) with 0 by ring. apply shift_0. Qed.

(* powers of a single point *)
Lemma shift_pow t x k : shift t (fun i => x ^ i) k = (x + t) ^ k.
Proof.
  induction k as [|k IH]; [reflexivity|]. cbn [shift Qcpower].
  change (fun i => x ^ S i) with (fun i => x * x ^ i).
  rewrite shift_scal. replace (shift t (Qcpower x) k) with ((x + t) ^ k) by (symmetry; exact IH). rewrite IH. ring.
Qed.

Lemma shift_suml {A} t (c : A -> nat -> Qc) l k :
  shift t (fun i => suml (fun a => c a i) l) k = suml (fun a => shift t (c a) k) l.
Proof.
  induction l as [|a l IH].
  - rewrite suml_nil. rewrite (shift_ext t _ (fun i => 0 * 0)), shift_scal; [ring|].
    intros. rewrite suml_nil. ring.
  - rewrite suml_cons, <- IH.
    rewrite <- (shift_add t (c a) (fun i => suml (fun a => c a i) l)).
    apply shift_ext. intros. reflexivity.
Qed.

Lemma shift_sumn t (c : nat -> nat -> Qc) n k :
  shift t (fun i => sumn (fun a => c a i) n) k = sumn (fun a => shift t (c a) k) n.
Proof.
  induction n as [|n IH]; cbn [sumn].
  - rewrite (shift_ext t _ (fun i => 0 * 0)), shift_scal; [ring|]. intros; ring.
  - rewrite <- IH, <- (shift_add t (fun i => sumn (fun a => c a i) n) (c n)). reflexivity.
Qed.

(* the binomial sum *)
Lemma shift_binom t c k :
  shift t c k = sumn (fun b => qn (choose k b) * t ^ b * c (k - b)%nat) (S k).
Proof.
  revert c. induction k as [|k IH]; intros c.
  - cbn. rewrite qn_1. ring.
  - cbn [shift]. rewrite (IH (fun i => c (S i))), (IH c).
    rewrite (sumn_S_l _ (S k)).
    rewrite (sumn_ext (fun i => qn (choose (S k) (S i)) * t ^ S i * c (S k - S i)%nat)
              (fun i => qn (choose k (S i)) * t ^ (S i) * c (S k - S i)%nat
                        + t * (qn (choose k i) * t ^ i * c (k - i)%nat))).
    2:{ intros i Hi. rewrite choose_S, qn_add. cbn [Qcpower].
        replace (S k - S i)%nat with (k - i)%nat by lia. ring. }
    rewrite sumn_add, sumn_scal.
    (* first sum: split off b = 0 and drop the vanishing last term *)
    rewrite (sumn_S_l (fun b => qn (choose k b) * t ^ b * c (S (k - b))) k).
    rewrite (choose_0_r k), (choose_0_r (S k)).
    cbn [sumn]. rewrite (choose_gt k (S k)) by lia.
    rewrite (sumn_ext (fun i => qn (choose k (S i)) * t ^ S i * c (S (k - S i)))
                      (fun i => qn (choose k (S i)) * t ^ S i * c (S k - S i)%nat)).
    2:{ intros i Hi. do 2 f_equal. lia. }
    rewrite !Nat.sub_0_r, qn_0. ring.
Qed.

(* two variables: shift of the first index by t0 and of the second by t1 *)
Definition shift2 (t0 t1 : Qc) (c : nat -> nat -> Qc) (i j : nat) : Qc :=
  shift t0 (fun a => shift t1 (c a) j) i.

Lemma shift2_ext t0 t1 c d i j :
  (forall a b, (a <= i)%nat -> (b <= j)%nat -> c a b = d a b) ->
  shift2 t0 t1 c i j = shift2 t0 t1 d i j.
Proof. intros H. apply shift_ext. intros a Ha. apply shift_ext. intros b Hb. auto. Qed.

Lemma shift2_lin t0 t1 a b c d i j :
  shift2 t0 t1 (fun x y => a * c x y + b * d x y) i j
  = a * shift2 t0 t1 c i j + b * shift2 t0 t1 d i j.
Proof.
  unfold shift2. rewrite <- shift_lin. apply shift_ext. intros. apply shift_lin.
Qed.

Lemma shift2_add t0 t1 c d i j :
  shift2 t0 t1 (fun x y => c x y + d x y) i j = shift2 t0 t1 c i j + shift2 t0 t1 d i j.
Proof.
  unfold shift2. rewrite <- shift_add. apply shift_ext. intros. apply shift_add.
Qed.
Lemma shift2_scal t0 t1 a c i j :
  shift2 t0 t1 (fun x y => a * c x y) i j = a * shift2 t0 t1 c i j.
Proof.
  unfold shift2. rewrite <- shift_scal. apply shift_ext. intros. apply shift_scal.
Qed.

Lemma shift_commute s t (c : nat -> nat -> Qc) i j :
  shift s (fun a => shift t (c a) j) i = shift t (fun b => shift s (fun a => c a b) i) j.
Proof.
  rewrite shift_binom.
  rewrite (shift_ext t (fun b => shift s (fun a => c a b) i)
     (fun b => sumn (fun a => qn (choose i a) * s ^ a * c (i - a)%nat b) (S i))).
  2:{ intros. apply shift_binom. }
  rewrite shift_sumn. apply sumn_ext. intros a Ha.
  now rewrite shift_scal.
Qed.

Lemma shift2_comp s0 s1 t0 t1 c i j :
  shift2 s0 s1 (shift2 t0 t1 c) i j = shift2 (s0 + t0) (s1 + t1) c i j.
Proof.
  unfold shift2.
  rewrite (shift_ext s0 _ (fun a => shift t0 (fun a' => shift (s1 + t1) (c a') j) a)).
  - apply shift_comp.
  - intros a Ha. rewrite (shift_commute t0 (s1 + t1)).
    rewrite (shift_ext s1 _ (fun b => shift t1 (fun b' => shift t0 (fun a' => c a' b') a) b)).
    2:{ intros b Hb. apply shift_commute. }
    apply shift_comp.
Qed.

Lemma shift2_0 c i j : shift2 0 0 c i j = c i j.
Proof. unfold shift2. rewrite shift_0. apply shift_0. Qed.
Lemma shift2_inv t0 t1 c i j : shift2 (- t0) (- t1) (shift2 t0 t1 c) i j = c i j.
Proof.
  rewrite shift2_comp. replace (- t0 + t0) with 0 by ring. replace (- t1 + t1) with 0 by ring.
  apply shift2_0.
Qed.
Lemma shift2_inv' t0 t1 c i j : shift2 t0 t1 (shift2 (- t0) (- t1) c) i j = c i j.
Proof.
  rewrite shift2_comp. replace (t0 + - t0) with 0 by ring. replace (t1 + - t1) with 0 by ring.
  apply shift2_0.
Qed.

Lemma shift2_pow t0 t1 x y i j :
  shift2 t0 t1 (fun a b => x ^ a * y ^ b) i j = (x + t0) ^ i * (y + t1) ^ j.
Proof.
  unfold shift2. rewrite (shift_ext t0 _ (fun a => x ^ a * (y + t1) ^ j)).
  - rewrite shift_scal_r, shift_pow. reflexivity.
  - intros. rewrite shift_scal, shift_pow. reflexivity.
Qed.

Lemma shift2_suml {A} t0 t1 (c : A -> nat -> nat -> Qc) l i j :
  shift2 t0 t1 (fun x y => suml (fun a => c a x y) l) i j = suml (fun a => shift2 t0 t1 (c a) i j) l.
Proof.
  unfold shift2. rewrite <- shift_suml. apply shift_ext. intros. apply shift_suml.
Qed.

Lemma shift2_binom t0 t1 c i j :
  shift2 t0 t1 c i j =
  sumn (fun b0 => sumn (fun b1 =>
     qn (choose i b0) * qn (choose j b1) * (t0 ^ b0 * t1 ^ b1) * c (i - b0)%nat (j - b1)%nat) (S j)) (S i).
Proof.
  unfold shift2. rewrite shift_binom. apply sumn_ext. intros b0 H0.
  rewrite shift_binom, <- sumn_scal. apply sumn_ext. intros b1 H1. ring.
Qed.

Lemma shift2_transpose t0 t1 c i j :
  shift2 t0 t1 c i j = shift2 t1 t0 (fun a b => c b a) j i.
Proof. unfold shift2. apply shift_commute. Qed.
