(* Abstract laws of the push primitives: there is a family of weighted power
   sums phi such that pushing adds phi, and phi determines the array when the
   weight is not zero.  Proved for one and two variables; everything about the
   kernels is derived from these laws. *)
From Verif Require Import Base BaseLemmas Shift ModelPush ModelPushCov ModelKernels ProofPush ProofPushCov.
Local Open Scope Qc_scope.

Record laws {A V : Type} (K : pusher A V) (I : Type) := Laws {
  l_dom : I -> Prop;                   (* indices of the moment array *)
  l_i0 : I;                            (* index of the weight *)
  l_wf : A -> Prop;                    (* right shape *)
  l_raw : A -> I -> Qc;                (* raw moments *)
  l_pow : V -> I -> Qc;                (* powers of a sample *)
  l_point : V -> Qc -> A;              (* array of one weighted sample *)
  l_i0_dom : l_dom l_i0;
  l_raw_i0 : forall a, l_raw a l_i0 = 1;
  l_wf_zero : l_wf (p_zero K);
  l_wt_zero : p_wt K (p_zero K) = 0;
  l_wf_setwt : forall v a, l_wf a -> l_wf (p_setwt K v a);
  l_wt_setwt : forall v a, l_wf a -> p_wt K (p_setwt K v a) = v;
  l_raw_setwt : forall v a i, l_raw (p_setwt K v a) i = l_raw a i;
  l_setwt_id : forall a, l_wf a -> p_setwt K (p_wt K a) a = a;
  l_setwt_setwt : forall u v a, l_wf a -> p_setwt K u (p_setwt K v a) = p_setwt K u a;
  l_setwt_zero : p_setwt K 0 (p_zero K) = p_zero K;
  l_push_zero : forall d o, p_wt K d = 0 -> p_push_data K d o = Some o;
  l_push_none : forall d o, l_wf d -> l_wf o ->
     p_wt K d <> 0 -> p_wt K o + p_wt K d = 0 -> p_push_data K d o = None;
  l_push_some : forall d o, l_wf d -> l_wf o ->
     p_wt K d <> 0 -> p_wt K o + p_wt K d <> 0 ->
     exists r, p_push_data K d o = Some r /\ l_wf r /\ p_wt K r = p_wt K o + p_wt K d /\
       forall i, l_dom i -> p_wt K r * l_raw r i = p_wt K o * l_raw o i + p_wt K d * l_raw d i;
  l_inj : forall a b, l_wf a -> l_wf b -> p_wt K a <> 0 -> p_wt K a = p_wt K b ->
     (forall i, l_dom i -> l_raw a i = l_raw b i) -> a = b;
  l_scale : forall d s o, l_wf d -> p_push_data_scale K d s o = p_push_data K (p_setwt K (p_wt K d * s) d) o;
  l_point_wf : forall v w, l_wf (l_point v w);
  l_point_wt : forall v w, p_wt K (l_point v w) = w;
  l_point_raw : forall v w i, l_raw (l_point v w) i = l_pow v i;
  l_point_setwt : forall v w u, p_setwt K u (l_point v w) = l_point v u;
  l_val : forall v w o, p_push_val K v w o = p_push_data K (l_point v w) o
}.

Arguments l_dom {A V K I}. Arguments l_i0 {A V K I}. Arguments l_wf {A V K I}.
Arguments l_raw {A V K I}. Arguments l_pow {A V K I}. Arguments l_point {A V K I}.

Lemma upd_id {A} (l : list A) i d : upd l i (nth i l d) = l.
Proof. revert i. induction l; intros [|i]; cbn; f_equal; auto. Qed.
Lemma upd_upd {A} (l : list A) i u v : upd (upd l i u) i v = upd l i v.
Proof. revert i. induction l; intros [|i]; cbn; f_equal; auto. Qed.

Definition laws1 (nmax n : nat) (H : (1 <= n <= nmax)%nat) : laws (pusher1 nmax n) nat.
Proof.
  refine (Laws _ _ (pusher1 nmax n) nat (fun k => (k <= n)%nat) 0%nat (wf1 n) raw1
            (fun x k => x ^ k) (point1 n) _ _ _ _ _ _ _ _ _ _ _ _ _ _ _ _ _ _ _ _);
    cbn [pusher1 pusher2 p_zero p_wt p_setwt p_push_data p_push_data_scale p_push_val fst snd].
  - lia.
  - apply raw1_0.
  - unfold wf1. apply (zeros1_length (S n)).
  - reflexivity.
  - intros v a Ha. unfold wf1 in *. now rewrite upd_length.
  - intros v a Ha. unfold wf1 in *. apply getq_upd_same. lia.
  - intros. apply raw1_setw.
  - intros a Ha. apply upd_id.
  - intros. apply upd_upd.
  - reflexivity.
  - intros. now apply push_data_zero.
  - intros d o Hd Ho. apply push_data_none. unfold wf1 in Ho. lia.
  - intros d o Hd Ho H0 HW. apply (push_data_some nmax n d o Ho H H0 HW).
  - intros a b Ha Hb H0 E R. apply (phi1_inj n a b); auto; [lia|].
    intros k Hk. unfold phi1. rewrite <- E, R by exact Hk. reflexivity.
  - intros d s o Hd. apply push_data_scale_eq. unfold wf1 in Hd. lia.
  - intros. apply point1_wf. lia.
  - reflexivity.
  - intros. apply raw1_point.
  - reflexivity.
  - intros. apply push_val_eq.
Defined.

Lemma upd2_id a i j : upd2 a i j (get2 a i j) = a.
Proof. unfold upd2, get2. rewrite upd_id. apply upd_id. Qed.

Lemma upd2_upd2 a i j u v : (i < length a)%nat -> upd2 (upd2 a i j u) i j v = upd2 a i j v.
Proof.
  intros H. unfold upd2. rewrite upd_nth, Nat.eqb_refl, (proj2 (Nat.ltb_lt _ _) H), !upd_upd. reflexivity.
Qed.

Definition laws2 (nmax n0 n1 : nat) (H0 : (1 <= n0 <= nmax)%nat) (H1 : (1 <= n1 <= nmax)%nat)
  : laws (pusher2 nmax n0 n1) (nat * nat).
Proof.
  refine (Laws _ _ (pusher2 nmax n0 n1) (nat * nat)
            (fun p => (fst p <= n0 /\ snd p <= n1)%nat) (0, 0)%nat (wf2 n0 n1)
            (fun a p => raw2 a (fst p) (snd p))
            (fun x p => fst x ^ fst p * snd x ^ snd p) (point2 n0 n1)
            _ _ _ _ _ _ _ _ _ _ _ _ _ _ _ _ _ _ _ _);
    cbn [pusher1 pusher2 p_zero p_wt p_setwt p_push_data p_push_data_scale p_push_val fst snd].
  - lia.
  - apply raw2_00.
  - apply (shape2_zeros (S n0) (S n1)).
  - reflexivity.
  - intros v a Ha. now apply shape2_upd2.
  - intros v a Ha. apply (get2_upd2_same (S n0) (S n1)); auto; lia.
  - intros v a [i j]. apply raw2_setw.
  - intros a Ha. apply upd2_id.
  - intros u v a [L _]. apply upd2_upd2. lia.
  - reflexivity.
  - intros. now apply cpush_data_zero.
  - intros d o Hd Ho. now apply (cpush_data_none nmax n0 n1).
  - intros d o Hd Ho Hz HW.
    destruct (cpush_data_some nmax n0 n1 d o Ho H0 H1 Hz HW) as (r & E & Wr & R0 & R).
    exists r. split; [exact E|]. split; [exact Wr|]. split; [exact R0|]. intros [i j] [Hi Hj]. apply R; assumption.
  - intros a b Ha Hb Hz E R. apply (phi2_inj n0 n1 a b); auto; try lia.
    intros i j Hi Hj. unfold phi2. rewrite <- E. f_equal. apply (R (i, j)). split; assumption.
  - intros d s o Hd. apply (cpush_data_scale_eq nmax n0 n1); auto; lia.
  - intros. apply point2_wf.
  - intros v w. rewrite get2_point2 by lia. reflexivity.
  - intros v w [i j]. apply raw2_point; lia.
  - intros v w u. apply (arr2_ext (S n0) (S n1)).
    + apply shape2_upd2, point2_wf.
    + apply point2_wf.
    + intros i j Hi Hj. destruct (Nat.eq_dec i 0) as [->|]; [destruct (Nat.eq_dec j 0) as [->|]|].
      * rewrite (get2_upd2_same (S n0) (S n1)), get2_point2 by (try exact (point2_wf n0 n1 v w); lia). reflexivity.
      * rewrite get2_upd2_other by congruence. rewrite !get2_point2 by lia. destruct j; [lia|reflexivity].
      * rewrite get2_upd2_other by congruence. rewrite !get2_point2 by lia. destruct i; [lia|reflexivity].
  - intros. apply cpush_val_eq; lia.
Defined.
